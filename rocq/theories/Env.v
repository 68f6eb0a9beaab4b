(** Model of sudo_plugin/src/plugin/io_env.rs and of the error texts of
    sudo_plugin/src/errors.rs. *)
From Verif Require Import Base Num Path Version Options World Sys Io.
Local Open Scope Z_scope.

(** sudo_plugin/src/version.rs:83-87 *)
Definition display_version (v : version) : bytes :=
  to_dec (v_major v) ++ B "." ++ to_dec (v_minor v).

(** sudo_plugin/src/errors.rs:28-69 (the [#[error]] attributes). None of these
    errors has a source. *)
Definition display_error (e : error) : bytes :=
  match e with
  | UnsupportedApiVersion required provided =>
      B "sudo called plugin with an API version of " ++ display_version provided
      ++ B ", but a minimum of " ++ display_version required ++ B " is required"
  | OptionMissing key => B "sudo called plugin without providing a value for " ++ key
  | OptionInvalid key value =>
      B "sudo called plugin with an unparseable value for " ++ key ++ B ": " ++ value
  | UncaughtPanic => B "uncaught internal error"
  | Other s => s
  end.

(** The arguments of the C [open] callback (sudo_plugin/src/core.rs:131-143).
    [oa_argv] are the buffers the [argc] entries of argv point to; [oa_printf]
    is whether a printf function was passed. The conversation function and
    [errstr] are never used by the code and are left out. *)
Record open_args := mkOpenArgs {
  oa_version : Z;
  oa_printf : bool;
  oa_settings : raw;
  oa_user_info : raw;
  oa_command_info : raw;
  oa_argv : list bytes;
  oa_user_env : raw;
  oa_plugin_options : raw
}.

(** io_env.rs:30-83 *)
Record io_env := mkIoEnv {
  en_plugin_name : bytes;
  en_plugin_version : bytes;
  en_api_version : version;
  en_cmdline : list bytes;
  en_settings : settings;
  en_user_info : user_info;
  en_command_info : command_info;
  en_user_env : optmap;
  en_plugin_options : optmap;
  en_stdout : print_facility;
  en_stderr : print_facility
}.

(** sudo_plugin/src/version.rs:59-68 *)
Definition version_check (v : version) : result version error :=
  if supported v then Ok v else Err (UnsupportedApiVersion MINIMUM v).

(** io_env.rs:103-156. Pure: it only reads its arguments. [None] is the panic
    inside the network address parser. *)
Definition io_env_new (pl : platform) (name vers : bytes) (a : open_args)
  : panics (result io_env error) :=
  match version_check (from_ffi (oa_version a)) with
  | Err e => Some (Err e)
  | Ok v =>
      let '(out, err) := pf_new (Some name) (oa_printf a) in
      let cmdline := map cstr (oa_argv a) in
      match settings_try_from pl (from_raw (oa_settings a)) with
      | None => None
      | Some (Err e) => Some (Err e)
      | Some (Ok se) =>
          match user_info_try_from (from_raw (oa_user_info a)) with
          | Err e => Some (Err e)
          | Ok ui =>
              Some (Ok {|
                en_plugin_name := name;
                en_plugin_version := vers;
                en_api_version := v;
                en_cmdline := cmdline;
                en_settings := se;
                en_user_info := ui;
                en_command_info := command_info_try_from pl (from_raw (oa_command_info a));
                en_user_env := from_raw (oa_user_env a);
                en_plugin_options := from_raw (oa_plugin_options a);
                en_stdout := out;
                en_stderr := err
              |})
          end
      end
  end.

Definition space : bytes := [x20].

(** io_env.rs:193-208 *)
Definition invocation (e : io_env) : bytes :=
  let fl := flags (en_settings e) in
  se_progname (en_settings e)
  ++ (if is_nil fl then [] else space ++ join_with space fl)
  ++ flat_map (fun entry => space ++ entry) (en_cmdline e).

(** io_env.rs:217-221 *)
Definition env_cwd (e : io_env) : bytes :=
  match ci_cwd (en_command_info e) with
  | Some d => d
  | None => ui_cwd (en_user_info e)
  end.

Definition is_some {A} (o : option A) : bool := match o with Some _ => true | None => false end.

(** io_env.rs:233-258. The set is a list; [None] is a failed debug assertion
    (237-241), which only exists in debug builds. *)
Definition runas_gids (pl : platform) (e : io_env) : panics (list Z) :=
  let ci := en_command_info e in
  let assertion := if ci_preserve_groups ci then negb (is_some (ci_runas_groups ci))
                   else is_some (ci_runas_groups ci) in
  if pl_debug pl && negb assertion then None
  else
    Some (ci_runas_egid ci ::
          match ci_runas_groups ci with
          | Some g => g
          | None => ui_groups (en_user_info e)
          end).
