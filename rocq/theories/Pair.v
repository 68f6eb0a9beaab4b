(** Model of sudo_pair/src/lib.rs and sudo_pair/src/errors.rs. Logging through
    slog is left out here: [Log] adds it, and C99 shows that it changes nothing. *)
From Verif Require Import Base Num Path Template Options World Sys Io Socket Env Core.
Local Open Scope Z_scope.

(** errors.rs:25-34 *)
Inductive pair_error :=
| CommunicationError
| SessionDeclined
| SessionTerminated
| StdinRedirected
| SudoToUserAndGroup
| PluginError (e : error).

(** errors.rs:36-55 *)
Definition display_pair_error (e : pair_error) : bytes :=
  match e with
  | CommunicationError => B "couldn't establish communications with the pair"
  | SessionDeclined => B "pair declined the session"
  | SessionTerminated => B "pair ended the session"
  | StdinRedirected => B "redirection of stdin to paired sessions is prohibited"
  | SudoToUserAndGroup => B "the -u and -g options may not both be specified"
  | PluginError _ => B "the plugin failed to initialize"
  end.

(** lib.rs:90-97 *)
Definition DEFAULT_BINARY_PATH := B "/usr/bin/sudo_approve".
Definition DEFAULT_USER_PROMPT_PATH := B "/etc/sudo_pair.prompt.user".
Definition DEFAULT_PAIR_PROMPT_PATH := B "/etc/sudo_pair.prompt.pair".
Definition DEFAULT_SOCKET_DIR := B "/var/run/sudo_pair".
Definition DEFAULT_GIDS_ENFORCED : list Z := [0].
Definition DEFAULT_USER_PROMPT := B "%B %u %p" ++ newline.
Definition DEFAULT_PAIR_PROMPT := B "%U@%h:%d$ %C" ++ newline ++ B "y/n? [n]: ".

(** lib.rs:675-722 *)
Record plugin_options := mkPluginOptions {
  po_binary_path : bytes;
  po_user_prompt_path : bytes;
  po_pair_prompt_path : bytes;
  po_socket_dir : bytes;
  po_gids_enforced : list Z;
  po_gids_exempted : list Z
}.

(** lib.rs:725-730 *)
Definition binary_name (o : plugin_options) : bytes :=
  match path_file_name (po_binary_path o) with
  | Some n => n
  | None => po_binary_path o
  end.

(** lib.rs:735-757 *)
Definition plugin_options_from (m : optmap) : plugin_options := {|
  po_binary_path := get_or parse_path m "binary_path" DEFAULT_BINARY_PATH;
  po_user_prompt_path := get_or parse_path m "user_prompt_path" DEFAULT_USER_PROMPT_PATH;
  po_pair_prompt_path := get_or parse_path m "pair_prompt_path" DEFAULT_PAIR_PROMPT_PATH;
  po_socket_dir := get_or parse_path m "socket_dir" DEFAULT_SOCKET_DIR;
  po_gids_enforced := get_or (parse_int_set u32T) m "gids_enforced" DEFAULT_GIDS_ENFORCED;
  po_gids_exempted := get_or (parse_int_set u32T) m "gids_exempted" []
|}.

(** lib.rs:101-107; the socket is the number of its connection. *)
Record sudo_pair := mkSudoPair {
  sp_env : io_env;
  sp_options : plugin_options;
  sp_socket : option nat
}.

Section Decisions.
Variable s : sudo_pair.
Let ui := en_user_info (sp_env s).
Let ci := en_command_info (sp_env s).

(** lib.rs:462-472 *)
Definition is_sudoing_from_root : bool := ui_uid ui =? ui_euid ui.

(** lib.rs:539-544 *)
Definition is_sudoing_to_user : bool := negb (ui_uid ui =? ci_runas_euid ci).

(** lib.rs:546-548 *)
Definition is_sudoing_to_group : bool := negb (ui_gid ui =? ci_runas_egid ci).

(** lib.rs:551-553 *)
Definition is_sudoing_to_explicit_group : bool := is_some (se_runas_group (en_settings (sp_env s))).

Definition subset_z (a b : list Z) : bool := forallb (fun x => mem_z x b) a.

(** lib.rs:474-487; [None] is a failed debug assertion. *)
Definition is_sudoing_to_themselves (pl : platform) : panics bool :=
  if negb is_sudoing_to_user && negb is_sudoing_to_group then
    if pl_debug pl then
      match runas_gids pl (sp_env s) with
      | None => None
      | Some g => if subset_z g (ui_groups ui) && subset_z (ui_groups ui) g
                  then Some true else None
      end
    else Some true
  else Some false.

(** lib.rs:489-491 *)
Definition is_sudoing_approval_command : bool :=
  path_eqb (ci_command ci) (po_binary_path (sp_options s)).

(** lib.rs:497-507 *)
Definition is_exempted_from_logging : bool :=
  negb (ci_iolog_ttyout ci) && negb (ci_iolog_stdout ci) && negb (ci_iolog_stderr ci).

(** lib.rs:509-525 *)
Definition is_sudoing_to_user_and_group : bool :=
  is_sudoing_to_user && is_sudoing_to_explicit_group.

(** [!a.is_disjoint(b)] *)
Definition intersects (a b : list Z) : bool := existsb (fun x => mem_z x b) a.

(** lib.rs:527-531 *)
Definition is_sudoing_from_exempted_gid : bool :=
  intersects (po_gids_exempted (sp_options s)) (ui_groups ui).

(** lib.rs:533-537 *)
Definition is_sudoing_to_enforced_gid (pl : platform) : panics bool :=
  match runas_gids pl (sp_env s) with
  | None => None
  | Some g => Some (intersects (po_gids_enforced (sp_options s)) g)
  end.

(** lib.rs:402-460 *)
Definition is_exempt (pl : platform) : panics bool :=
  if is_sudoing_from_root then Some true
  else match is_sudoing_to_themselves pl with
       | None => None
       | Some true => Some true
       | Some false =>
           if is_sudoing_approval_command then Some true
           else if is_exempted_from_logging then Some true
           else if is_sudoing_from_exempted_gid then Some true
           else match is_sudoing_to_enforced_gid pl with
                | None => None
                | Some b => Some (negb b)
                end
       end.

(** lib.rs:555-570 *)
Definition socket_path : bytes :=
  path_join (po_socket_dir (sp_options s))
            (to_dec (ui_uid ui) ++ B "." ++ to_dec (ui_pid ui) ++ B ".sock").

(** lib.rs:572-585 *)
Definition socket_uid : Z := if is_sudoing_to_user then ci_runas_euid ci else 4294967295.

(** lib.rs:587-598 *)
Definition socket_gid : Z := if is_sudoing_to_explicit_group then ci_runas_egid ci else 4294967295.

(** lib.rs:600-624; [None] is the [unreachable!]. *)
Definition socket_mode : panics Z :=
  if is_sudoing_to_user then Some S_IWUSR
  else if is_sudoing_to_explicit_group then Some S_IWGRP
  else None.

(** lib.rs:626-666 *)
Definition template_spec : spec :=
  spec_replace "W" (to_dec (ui_cols ui))
  (spec_replace "U" (ui_user ui)
  (spec_replace "u" (to_dec (ui_uid ui))
  (spec_replace "p" (to_dec (ui_pid ui))
  (spec_replace "g" (to_dec (ui_gid ui))
  (spec_replace "H" (to_dec (ui_lines ui))
  (spec_replace "h" (ui_host ui)
  (spec_replace "d" (env_cwd (sp_env s))
  (spec_replace "C" (invocation (sp_env s))
  (spec_replace "B" (po_binary_path (sp_options s))
  (spec_replace "b" (binary_name (sp_options s))
  (spec_with_escape "%"))))))))))).
End Decisions.

(** [File::open(path).and_then(..).unwrap_or_else(|_| default)]: lib.rs:250-252
    and 340-342 *)
Definition load_template (p default : bytes) : M bytes :=
  if has_nul p then ret default
  else
    r <- sys_read_file p ;;
    match r with Ok d => ret d | Err _ => ret default end.

Definition is_ok {A E} (r : result A E) : bool := match r with Ok _ => true | Err _ => false end.

(** lib.rs:247-296, with io_env.rs:181-185 ([tty()]) inlined. The terminal is a
    temporary that lives until the end of the statement of lines 291-293, so it
    is closed after the fallback to stderr, also when unwinding. *)
Definition local_pair_prompt (s : sudo_pair) (sp : spec) : M unit :=
  template <- load_template (po_user_prompt_path (sp_options s)) DEFAULT_USER_PROMPT ;;
  let prompt := expand sp template in
  opened <- (match ui_tty (en_user_info (sp_env s)) with
             | None => ret false
             | Some p => r <- tty_open p ;; ret (is_ok r)
             end) ;;
  shown <- (if opened then w <- tty_write_all prompt ;; ret (is_ok w) else ret false) ;;
  let close_tty := if opened then sys_close_tty else ret tt in
  (if shown then ret tt
   else unwind_with (pf_write_all (en_stderr (sp_env s)) prompt ;;; ret tt) close_tty) ;;;
  close_tty.

(** lib.rs:298-335. The arguments of [Socket::open] are evaluated first, which
    is where [socket_mode] may panic. [pl_euid] is geteuid(2). *)
Definition remote_pair_connect (pl : platform) (s : sudo_pair) : M (result sudo_pair pair_error) :=
  match sp_socket s with
  | Some _ => ret (Ok s)
  | None =>
      match socket_mode s with
      | None => panic
      | Some mode =>
          r <- socket_open (pl_euid pl) (socket_path s) (socket_uid s) (socket_gid s) mode ;;
          match r with
          | Err _ => ret (Err CommunicationError)
          | Ok c => ret (Ok (mkSudoPair (sp_env s) (sp_options s) (Some c)))
          end
      end
  end.

(** lib.rs:337-400 *)
Definition remote_pair_prompt (s : sudo_pair) (sp : spec) : M (result unit pair_error) :=
  template <- load_template (po_pair_prompt_path (sp_options s)) DEFAULT_PAIR_PROMPT ;;
  let prompt := expand sp template in
  match sp_socket s with
  | None => ret (Err CommunicationError)
  | Some c =>
      r <- socket_write_all c prompt ;;
      match r with
      | Err _ => ret (Err CommunicationError)
      | Ok _ =>
          r <- socket_flush c ;;
          match r with
          | Err _ => ret (Err CommunicationError)
          | Ok _ =>
              r <- socket_read c ;;
              match r with
              | Err _ => ret (Err SessionDeclined)
              | Ok got =>
                  let response := match got with b :: _ => b | [] => "n"%byte end in
                  socket_write_all c [response] ;;;
                  socket_write_all c newline ;;;
                  if byte_eqb response "y" || byte_eqb response "Y"
                  then ret (Ok tt)
                  else ret (Err SessionDeclined)
              end
          end
      end
  end.

(** Dropping a [SudoPair] drops its socket, if any. *)
Definition pair_drop (s : sudo_pair) : M unit :=
  match sp_socket s with
  | Some c => socket_drop c
  | None => ret tt
  end.

(** lib.rs:114-198. Every early return and every panic drops [pair]. *)
Definition pair_open (pl : platform) (e : io_env) : M (result sudo_pair pair_error) :=
  let pair := mkSudoPair e (plugin_options_from (en_plugin_options e)) None in
  match is_exempt pair pl with
  | None => panic
  | Some true => ret (Ok pair)
  | Some false =>
      if is_sudoing_to_user_and_group pair then ret (Err SudoToUserAndGroup)
      else
        let sp := template_spec pair in
        local_pair_prompt pair sp ;;;
        r <- remote_pair_connect pl pair ;;
        match r with
        | Err er => ret (Err er)
        | Ok pair' =>
            r <- unwind_with (remote_pair_prompt pair' sp) (pair_drop pair') ;;
            match r with
            | Err er => pair_drop pair' ;;; ret (Err er)
            | Ok _ => ret (Ok pair')
            end
        end
  end.

(** lib.rs:200-207: an explicit close, then the drop of the socket. *)
Definition pair_close (s : sudo_pair) : M unit :=
  match sp_socket s with
  | Some c => socket_close c ;;; socket_drop c
  | None => ret tt
  end.

(** lib.rs:236-245 *)
Definition log_output (s : sudo_pair) (data : bytes) : M (result unit pair_error) :=
  match sp_socket s with
  | None => ret (Ok tt)
  | Some c =>
      r <- socket_write_all c data ;;
      match r with
      | Ok _ => ret (Ok tt)
      | Err _ => ret (Err SessionTerminated)
      end
  end.

(** lib.rs:209-228; log_ttyin is the default of io_plugin.rs (does nothing). *)
Definition pair_log (pl : platform) (st : stream) (s : sudo_pair) (data : bytes)
  : M (result unit pair_error) :=
  match st with
  | Ttyout | Stdout | Stderr => log_output s data
  | Stdin =>
      match is_exempt s pl with
      | None => panic
      | Some true => ret (Ok tt)
      | Some false => ret (Err StdinRedirected)
      end
  | Ttyin => ret (Ok tt)
  end.

(** lib.rs:230-232 *)
Definition winsize_seq (lines cols : Z) : bytes :=
  [x1b] ++ B "[8;" ++ to_dec lines ++ B ";" ++ to_dec cols ++ B "t".

Definition pair_winsize (pl : platform) (s : sudo_pair) (lines cols : Z)
  : M (result unit pair_error) :=
  log_output s (winsize_seq lines cols).

(** lib.rs:109-233 with errors.rs:79-97. The version is the default of
    io_plugin.rs:41, evaluated when sudo_plugin 1.2.0 is compiled. *)
Definition SudoPair : plugin := {|
  pg_state := sudo_pair;
  pg_error := pair_error;
  pg_name := B "sudo_pair";
  pg_version := B "1.2.0";
  pg_ignore_hints := false;
  pg_open := pair_open;
  pg_close := fun s _ _ => pair_close s;
  pg_drop := pair_drop;
  pg_log := pair_log;
  pg_winsize := pair_winsize;
  pg_from_error := PluginError;
  pg_open_status := fun _ => OPEN_DENY;
  pg_log_status := fun _ => LOG_DENY;
  pg_display := display_pair_error;
  pg_source := fun _ => None
|}.
