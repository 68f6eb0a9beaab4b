(** Model of sudo_plugin/src/options/{option_map,traits,settings,user_info,
    command_info}.rs and of the error values of sudo_plugin/src/errors.rs. *)
From Verif Require Import Base Utf8 Num Version.
Local Open Scope Z_scope.

(** sudo_plugin/src/errors.rs:28-69 *)
Inductive error :=
| UnsupportedApiVersion (required provided : version)
| OptionMissing (key : bytes)
| OptionInvalid (key value : bytes)
| UncaughtPanic
| Other (msg : bytes).

(** Facts about the build and the process the plugin runs in, fixed for the
    duration of a run:
    - [pl_debug]: compiled with debug assertions (so [debug_assert!] panics);
    - [pl_euid], [pl_egid]: what geteuid(2)/getegid(2) return;
    - [pl_parse_ip]: [<IpAddr as FromStr>::from_str] (std), left abstract
      because its accepted grammar differs between Rust releases. *)
Record platform := mkPlatform {
  pl_debug : bool;
  pl_euid : Z;
  pl_egid : Z;
  pl_parse_ip : bytes -> option (list Z)
}.

(** ** OptionMap (option_map.rs) *)

(** A [*const *const c_char] handed over by sudo. [None] is the NULL pointer;
    [Some l] is an array whose entries before the terminating NULL pointer
    point to the buffers [l]. A buffer is everything that follows the pointer
    in memory as far as the model looks; [cstr] reads it up to its NUL. *)
Definition raw := option (list bytes).

Definition NUL : byte := x00.

(** [CStr::from_ptr(p).to_bytes()]: the bytes before the first NUL. *)
Definition cstr (buf : bytes) : bytes := fst (span (fun b => byte_eqb b NUL) buf).

(** option_map.rs:24 *)
Definition OPTIONS_SEPARATOR : byte := "="%byte.

(** option_map.rs:33: [HashMap<Vec<u8>, Vec<u8>>] as an association list. *)
Definition optmap := list (bytes * bytes).

Definition map_insert (k v : bytes) (m : optmap) : optmap :=
  (k, v) :: filter (fun kv => negb (bytes_eqb (fst kv) k)) m.

Fixpoint map_get (m : optmap) (k : bytes) : option bytes :=
  match m with
  | [] => None
  | (k', v) :: m' => if bytes_eqb k' k then Some v else map_get m' k
  end.

(** option_map.rs:68-81: split at the first '='; an entry without '=' is its
    own key and value. *)
Definition split_entry (e : bytes) : bytes * bytes :=
  let '(a, b) := span (fun x => byte_eqb x OPTIONS_SEPARATOR) e in
  match b with
  | _ :: v => (a, v)
  | [] => (e, e)
  end.

(** option_map.rs:66-93: the [while] loop over the array. *)
Fixpoint from_raw_loop (l : list bytes) (m : optmap) : optmap :=
  match l with
  | [] => m
  | buf :: l' =>
      let '(k, v) := split_entry (cstr buf) in
      from_raw_loop l' (map_insert k v m)
  end.

(** option_map.rs:55-96 *)
Definition from_raw (r : raw) : optmap :=
  match r with
  | None => []
  | Some l => from_raw_loop l []
  end.

(** option_map.rs:126-128 *)
Definition get_bytes (m : optmap) (k : bytes) : option bytes := map_get m k.

(** option_map.rs:119-121 *)
Definition get_str (m : optmap) (k : bytes) : option bytes :=
  match get_bytes m k with
  | Some v => if valid_utf8 v then Some v else None
  | None => None
  end.

(** option_map.rs:108-113. The trait [FromSudoOption] becomes the parsing
    function [p]. *)
Definition get {A} (p : bytes -> option A) (m : optmap) (k : bytes) : result A error :=
  match get_str m k with
  | None => Err (OptionMissing k)
  | Some v => match p v with
              | Some a => Ok a
              | None => Err (OptionInvalid k v)
              end
  end.

(** ** FromSudoOption (traits.rs) *)

(** traits.rs:102-108, 110-116: [String] and [PathBuf] accept anything. *)
Definition parse_string (s : bytes) : option bytes := Some s.
Definition parse_path (s : bytes) : option bytes := Some s.

(** traits.rs:124-136: parse every element, stop at the first failure. *)
Fixpoint parse_all {A} (p : bytes -> option A) (l : list bytes) : option (list A) :=
  match l with
  | [] => Some []
  | s :: l' =>
      match p s with
      | None => None
      | Some a => match parse_all p l' with
                  | None => None
                  | Some r => Some (a :: r)
                  end
      end
  end.

(** traits.rs:150-156 with the default separator ',', and 118-137 *)
Definition parse_list {A} (sep : byte) (p : bytes -> option A) (s : bytes) : option (list A) :=
  parse_all p (split_on sep s).

Definition parse_ints (t : ity) : bytes -> option (list Z) := parse_list ","%byte (parse_int t).

(** traits.rs:139-148: a [HashSet] is modelled by the list of its elements
    (duplicates are harmless: only membership is ever observed). *)
Definition parse_int_set (t : ity) : bytes -> option (list Z) := parse_ints t.

(** ** NetAddr (settings.rs:311-342) *)
Record net_addr := mkNetAddr { na_addr : list Z; na_mask : list Z }.

(** settings.rs:324-337. The outer option is the panic of the slice
    [s[mid + 1 ..]], which is out of range when there is no '/'. *)
Definition parse_net_addr (pl : platform) (s : bytes) : panics (option net_addr) :=
  let '(a, b) := span (fun x => byte_eqb x "/") s in
  match pl_parse_ip pl a with                       (* settings.rs:330 *)
  | None => Some None
  | Some addr =>
      match b with
      | [] => None                                  (* settings.rs:331 panics *)
      | _ :: m => match pl_parse_ip pl m with
                  | None => Some None
                  | Some mask => Some (Some (mkNetAddr addr mask))
                  end
      end
  end.

Fixpoint parse_net_all (pl : platform) (l : list bytes) : panics (option (list net_addr)) :=
  match l with
  | [] => Some (Some [])
  | s :: l' =>
      match parse_net_addr pl s with
      | None => None
      | Some None => Some None
      | Some (Some a) =>
          match parse_net_all pl l' with
          | None => None
          | Some None => Some None
          | Some (Some r) => Some (Some (a :: r))
          end
      end
  end.

(** settings.rs:340-342 (separator ' ') and traits.rs:118-137 *)
Definition parse_net_addrs (pl : platform) (s : bytes) : panics (option (list net_addr)) :=
  parse_net_all pl (split_on " "%byte s).

(** settings.rs:291: [value.get("network_addrs").unwrap_or_else(|_| vec![])] *)
Definition get_net_addrs (pl : platform) (m : optmap) (k : bytes) : panics (list net_addr) :=
  match get_str m k with
  | None => Some []
  | Some v => match parse_net_addrs pl v with
              | None => None
              | Some None => Some []
              | Some (Some l) => Some l
              end
  end.

(** Shorthands for the three ways fields are read. *)
Definition get_opt {A} (p : bytes -> option A) (m : optmap) (k : string) : option A :=
  res_ok (get p m (B k)).
Definition get_or {A} (p : bytes -> option A) (m : optmap) (k : string) (d : A) : A :=
  unwrap_or (get p m (B k)) d.
Definition get_req {A} (p : bytes -> option A) (m : optmap) (k : string) : result A error :=
  get p m (B k).

Notation "x <-? e ;; f" := (match e with Ok x => f | Err er => Err er end)
  (at level 61, e at next level, right associativity).

(** ** Settings (settings.rs:27-165) *)
Record settings := mkSettings {
  se_bsd_auth_type : option bytes;
  se_close_from : option Z;
  se_debug_flags : option bytes;
  se_debug_level : option Z;
  se_ignore_ticket : bool;
  se_implied_shell : bool;
  se_login_class : option bytes;
  se_login_shell : bool;
  se_max_groups : option Z;
  se_network_addrs : list net_addr;
  se_noninteractive : bool;
  se_plugin_dir : bytes;
  se_plugin_path : bytes;
  se_preserve_environment : bool;
  se_preserve_groups : bool;
  se_progname : bytes;
  se_prompt : option bytes;
  se_remote_host : option bytes;
  se_run_shell : bool;
  se_runas_group : option bytes;
  se_runas_user : option bytes;
  se_selinux_role : option bytes;
  se_selinux_type : option bytes;
  se_set_home : bool;
  se_sudoedit : bool;
  se_timeout : option bytes;
  se_raw : optmap
}.

(** settings.rs:276-308 *)
Definition settings_try_from (pl : platform) (value : optmap)
  : panics (result settings error) :=
  match get_req parse_string value "plugin_dir" with
  | Err e => Some (Err e)
  | Ok plugin_dir =>
  match get_req parse_string value "plugin_path" with
  | Err e => Some (Err e)
  | Ok plugin_path =>
  match get_req parse_string value "progname" with
  | Err e => Some (Err e)
  | Ok progname =>
  match get_net_addrs pl value (B "network_addrs") with
  | None => None
  | Some network_addrs =>
    Some (Ok {|
      se_plugin_dir := plugin_dir;
      se_plugin_path := plugin_path;
      se_progname := progname;
      se_bsd_auth_type := get_opt parse_string value "bsd_auth_type";
      se_close_from := get_opt (parse_int u64T) value "closefrom";
      se_debug_flags := get_opt parse_string value "debug_flags";
      se_debug_level := get_opt (parse_int u64T) value "debug_level";
      se_ignore_ticket := get_or parse_bool value "ignore_ticket" false;
      se_implied_shell := get_or parse_bool value "implied_shell" false;
      se_login_class := get_opt parse_string value "login_class";
      se_login_shell := get_or parse_bool value "login_shell" false;
      se_max_groups := get_opt (parse_int u64T) value "max_groups";
      se_network_addrs := network_addrs;
      se_noninteractive := get_or parse_bool value "noninteractive" false;
      se_preserve_environment := get_or parse_bool value "preserve_environment" false;
      se_preserve_groups := get_or parse_bool value "preserve_groups" false;
      se_prompt := get_opt parse_string value "prompt";
      se_remote_host := get_opt parse_string value "remote_host";
      se_run_shell := get_or parse_bool value "run_shell" false;
      se_runas_group := get_opt parse_string value "runas_group";
      se_runas_user := get_opt parse_string value "runas_user";
      se_selinux_role := get_opt parse_string value "selinux_role";
      se_selinux_type := get_opt parse_string value "selinux_type";
      se_set_home := get_or parse_bool value "set_home" false;
      se_sudoedit := get_or parse_bool value "sudoedit" false;
      se_timeout := get_opt parse_string value "timeout";
      se_raw := value
    |})
  end end end end.

(** A flag with an argument: settings.rs:186-189 and its repetitions. *)
Definition flag_arg (name : string) (o : option bytes) : list bytes :=
  match o with
  | Some v => [B name ++ v]
  | None => []
  end.

Definition flag_if (b : bool) (name : string) : list bytes :=
  if b then [B name] else [].

(** settings.rs:174-270 *)
Definition flags (s : settings) : list bytes :=
  flag_if (se_sudoedit s && negb (bytes_eqb (se_progname s) (B "sudoedit"))) "--edit"
  ++ flag_arg "--user " (se_runas_user s)
  ++ flag_arg "--group " (se_runas_group s)
  ++ flag_arg "--prompt " (se_prompt s)
  ++ flag_if (se_login_shell s) "--login"
  ++ flag_if (se_run_shell s) "--shell"
  ++ flag_if (se_set_home s) "--set-home"
  ++ flag_if (se_preserve_environment s) "--preserve-env"
  ++ flag_if (se_preserve_groups s) "--preserve-groups"
  ++ flag_if (se_ignore_ticket s) "--reset-timestamp"
  ++ flag_if (se_noninteractive s) "--non-interactive"
  ++ flag_arg "--login-class " (se_login_class s)
  ++ flag_arg "--role " (se_selinux_role s)
  ++ flag_arg "--type " (se_selinux_type s)
  ++ flag_arg "--auth-type " (se_bsd_auth_type s)
  ++ flag_arg "--close-from " (match se_close_from s with Some n => Some (to_dec n) | None => None end).

(** ** UserInfo (user_info.rs:25-95) *)
Record user_info := mkUserInfo {
  ui_cols : Z;
  ui_cwd : bytes;
  ui_egid : Z;
  ui_euid : Z;
  ui_gid : Z;
  ui_groups : list Z;
  ui_host : bytes;
  ui_lines : Z;
  ui_pgid : Z;
  ui_pid : Z;
  ui_ppid : Z;
  ui_sid : Z;
  ui_tcpgid : Z;
  ui_tty : option bytes;
  ui_uid : Z;
  ui_umask : option bytes;
  ui_user : bytes;
  ui_raw : optmap
}.

(** user_info.rs:100-123; [uid_t], [gid_t] are u32, [pid_t] is i32. *)
Definition user_info_try_from (value : optmap) : result user_info error :=
  cwd    <-? get_req parse_path value "cwd" ;;
  egid   <-? get_req (parse_int u32T) value "egid" ;;
  euid   <-? get_req (parse_int u32T) value "euid" ;;
  gid    <-? get_req (parse_int u32T) value "gid" ;;
  groups <-? get_req (parse_ints u32T) value "groups" ;;
  host   <-? get_req parse_string value "host" ;;
  pgid   <-? get_req (parse_int i32T) value "pgid" ;;
  pid    <-? get_req (parse_int i32T) value "pid" ;;
  ppid   <-? get_req (parse_int i32T) value "ppid" ;;
  uid    <-? get_req (parse_int u32T) value "uid" ;;
  user   <-? get_req parse_string value "user" ;;
  Ok {|
    ui_cwd := cwd; ui_egid := egid; ui_euid := euid; ui_gid := gid;
    ui_groups := groups; ui_host := host; ui_pgid := pgid; ui_pid := pid;
    ui_ppid := ppid; ui_uid := uid; ui_user := user;
    ui_umask := get_opt parse_string value "umask";
    ui_cols := get_or (parse_int u64T) value "cols" 80;
    ui_lines := get_or (parse_int u64T) value "lines" 24;
    ui_sid := get_or (parse_int i32T) value "sid" 0;
    ui_tcpgid := get_or (parse_int i32T) value "tcpgid" (-1);
    ui_tty := get_opt parse_path value "tty";
    ui_raw := value
  |}.

(** ** CommandInfo (command_info.rs:28-236) *)
Record command_info := mkCommandInfo {
  ci_chroot : option bytes;
  ci_close_from : option Z;
  ci_command : bytes;
  ci_cwd : option bytes;
  ci_exec_background : bool;
  ci_exec_fd : option Z;
  ci_iolog_compress : bool;
  ci_iolog_group : option bytes;
  ci_iolog_mode : option bytes;
  ci_iolog_path : option bytes;
  ci_iolog_stdin : bool;
  ci_iolog_stdout : bool;
  ci_iolog_stderr : bool;
  ci_iolog_ttyin : bool;
  ci_iolog_ttyout : bool;
  ci_iolog_user : option bytes;
  ci_login_class : option bytes;
  ci_nice : option Z;
  ci_noexec : bool;
  ci_preserve_fds : list Z;
  ci_preserve_groups : bool;
  ci_runas_egid : Z;
  ci_runas_euid : Z;
  ci_runas_gid : Z;
  ci_runas_groups : option (list Z);
  ci_runas_uid : Z;
  ci_selinux_role : option bytes;
  ci_selinux_type : option bytes;
  ci_set_utmp : bool;
  ci_sudoedit : bool;
  ci_sudoedit_checkdir : bool;
  ci_sudoedit_follow : bool;
  ci_timeout : option Z;
  ci_umask : Z;
  ci_umask_override : option bool;
  ci_use_pty : bool;
  ci_utmp_user : option bytes;
  ci_raw : optmap
}.

(** command_info.rs:241-292; never returns [Err]. 4095 is 0o7777. *)
Definition command_info_try_from (pl : platform) (value : optmap) : command_info :=
  let runas_gid := get_or (parse_int u32T) value "runas_gid" (pl_egid pl) in
  let runas_uid := get_or (parse_int u32T) value "runas_uid" (pl_euid pl) in
  {|
    ci_command := get_or parse_path value "command" [];
    ci_runas_gid := runas_gid;
    ci_runas_uid := runas_uid;
    ci_runas_egid := get_or (parse_int u32T) value "runas_egid" runas_gid;
    ci_runas_euid := get_or (parse_int u32T) value "runas_euid" runas_uid;
    ci_umask := get_or (parse_int u32T) value "umask" 4095;
    ci_chroot := get_opt parse_string value "chroot";
    ci_close_from := get_opt (parse_int u64T) value "closefrom";
    ci_cwd := get_opt parse_path value "cwd";
    ci_exec_background := get_or parse_bool value "exec_background" false;
    ci_exec_fd := get_opt (parse_int u64T) value "execfd";
    ci_iolog_compress := get_or parse_bool value "iolog_compress" false;
    ci_iolog_group := get_opt parse_string value "iolog_group";
    ci_iolog_mode := get_opt parse_string value "iolog_mode";
    ci_iolog_path := get_opt parse_string value "iolog_path";
    ci_iolog_stdin := get_or parse_bool value "iolog_stdin" false;
    ci_iolog_stdout := get_or parse_bool value "iolog_stdout" false;
    ci_iolog_stderr := get_or parse_bool value "iolog_stderr" false;
    ci_iolog_ttyin := get_or parse_bool value "iolog_ttyin" false;
    ci_iolog_ttyout := get_or parse_bool value "iolog_ttyout" false;
    ci_iolog_user := get_opt parse_string value "iolog_user";
    ci_login_class := get_opt parse_string value "login_class";
    ci_nice := get_opt (parse_int u64T) value "nice";
    ci_noexec := get_or parse_bool value "noexec" false;
    ci_preserve_fds := get_or (parse_ints i32T) value "preserve_fds" [];
    ci_preserve_groups := get_or parse_bool value "preserve_groups" false;
    ci_runas_groups := get_opt (parse_ints u32T) value "runas_groups";
    ci_selinux_role := get_opt parse_string value "selinux_role";
    ci_selinux_type := get_opt parse_string value "selinux_type";
    ci_set_utmp := get_or parse_bool value "set_utmp" false;
    ci_sudoedit := get_or parse_bool value "sudoedit" false;
    ci_sudoedit_checkdir := get_or parse_bool value "sudoedit_checkdir" true;
    ci_sudoedit_follow := get_or parse_bool value "sudoedit_follow" false;
    ci_timeout := get_opt (parse_int u64T) value "timeout";
    ci_umask_override := get_opt parse_bool value "umask_override";
    ci_use_pty := get_or parse_bool value "use_pty" false;
    ci_utmp_user := get_opt parse_string value "utmp_user";
    ci_raw := value
  |}.
