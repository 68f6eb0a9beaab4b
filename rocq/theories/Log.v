(** Model of the logging done by sudo_pair/src/lib.rs: which records are made,
    at which points of the computations of [Pair], and with which values.

    A record is kept as data. How slog, slog-syslog or slog-journald turn it
    into text is left out, and so are [to_string_lossy] and the [Debug] forms
    of its values ([VLossy], [VDebug], [VOptions]). Sending a record has no
    result that the code looks at (lib.rs:782, 801: [ignore_res]), and makes no
    call that [World] knows of. *)
From Verif Require Import Base Num Path Template Options World Sys Io Socket Env Core Pair.
Local Open Scope Z_scope.

(** The levels of slog that the code uses. *)
Inductive level := LError | LWarn | LInfo | LDebug | LTrace.

Inductive value :=
| VNum (z : Z)
| VText (b : bytes)
| VOption (o : option bytes)
| VLossy (b : bytes)             (* [to_string_lossy] *)
| VDebug (l : list bytes)        (* [{:?}] of a list of such strings *)
| VOct (z : Z)                   (* [{:#06o}] *)
| VOptions (o : plugin_options). (* lib.rs:760-764 *)

Record record := mkRecord {
  r_level : level;
  r_message : bytes;
  r_values : list (bytes * value)
}.

(** ** Computations that also make records *)
Definition L (A : Type) := world -> list record * (outcome A * world).

Definition lift {A} (m : M A) : L A := fun w => ([], m w).
Definition lret {A} (a : A) : L A := lift (ret a).
Definition say (r : record) : L unit := fun w => ([r], (Done tt, w)).

Definition lbind {A C} (m : L A) (f : A -> L C) : L C :=
  fun w => match m w with
           | (l, (Done a, w')) => let '(l', r) := f a w' in (l ++ l', r)
           | (l, (Panicked, w')) => (l, (Panicked, w'))
           | (l, (Stopped, w')) => (l, (Stopped, w'))
           end.

(** As [unwind_with]. *)
Definition lunwind {A} (m : L A) (cleanup : L unit) : L A :=
  fun w => match m w with
           | (l, (Panicked, w')) =>
               match cleanup w' with
               | (l', (Done _, w'')) => (l ++ l', (Panicked, w''))
               | (l', (Panicked, w'')) => (l ++ l', (Panicked, w''))
               | (l', (Stopped, w'')) => (l ++ l', (Stopped, w''))
               end
           | r => r
           end.

(** A panic inside a pure function. *)
Definition or_panic {A} (o : panics A) : L A :=
  match o with Some a => lret a | None => lift panic end.

Declare Scope log_scope.
Delimit Scope log_scope with log.
Notation "x <- m ;; f" := (lbind m (fun x => f))
  (at level 61, m at next level, right associativity) : log_scope.
Notation "m ;;; f" := (lbind m (fun _ => f))
  (at level 61, right associativity) : log_scope.

(** ** Where the records go *)

(** The features of sudo_pair/Cargo.toml:21-25. [Syslog reachable] is the
    default; the flag is whether [SyslogBuilder::start] succeeds. *)
Inductive sink := Nowhere | Syslog (reachable : bool) | Journald.

(** lib.rs:767-769, 772-795, 798-806: whether the root logger discards. *)
Definition discards (s : sink) : bool :=
  match s with Nowhere => true | Syslog reachable => negb reachable | Journald => false end.

(** slog compiles records below a level out, which its [max_level] features set
    when the plugin is built. sudo_pair/Cargo.toml:30 sets none of them, so that
    those below [Debug] go in debug builds and those below [Info] in release
    builds; sample/Makefile:18 keeps all. *)
Definition rank (l : level) : Z :=
  match l with LError => 1 | LWarn => 2 | LInfo => 3 | LDebug => 4 | LTrace => 5 end.
Definition kept (max l : level) : bool := rank l <=? rank max.

Definition default_max (pl : platform) : level := if pl_debug pl then LDebug else LInfo.
Definition sample_max : level := LTrace.

(** What arrives of the records made. *)
Definition recorded (max : level) (s : sink) (l : list record) : list record :=
  if discards s then [] else filter (fun r => kept max (r_level r)) l.

(** ** lib.rs *)

(** lib.rs:786-789 and 802-805 *)
Definition root_values : list (bytes * value) :=
  [(B "plugin_name", VText (B "sudo_pair")); (B "plugin_version", VText (B "1.2.0"))].

(** lib.rs:119-130 *)
Definition context (e : io_env) : list (bytes * value) :=
  [(B "uid", VNum (ui_uid (en_user_info e)));
   (B "runas_euid", VNum (ci_runas_euid (en_command_info e)));
   (B "runas_egid", VNum (ci_runas_egid (en_command_info e)));
   (B "command", VLossy (ci_command (en_command_info e)));
   (B "args", VDebug (tl (en_cmdline e)))] ++ root_values.

Definition note (e : io_env) (lv : level) (msg : bytes) (vs : list (bytes * value)) : L unit :=
  say (mkRecord lv msg (vs ++ context e)).

(** lib.rs:291-293, as in [local_pair_prompt] *)
Definition print_local (s : sudo_pair) (prompt : bytes) : M unit :=
  opened <- (match ui_tty (en_user_info (sp_env s)) with
             | None => ret false
             | Some p => r <- tty_open p ;; ret (is_ok r)
             end) ;;
  shown <- (if opened then w <- tty_write_all prompt ;; ret (is_ok w) else ret false) ;;
  let close_tty := if opened then sys_close_tty else ret tt in
  (if shown then ret tt
   else unwind_with (pf_write_all (en_stderr (sp_env s)) prompt ;;; ret tt) close_tty) ;;;
  close_tty.

Section Methods.
Local Open Scope log_scope.

(** lib.rs:402-460 *)
Definition lis_exempt (pl : platform) (s : sudo_pair) : L bool :=
  let e := sp_env s in
  if is_sudoing_from_root s then
    note e LDebug (B "sudo initiated by root")
      [(B "user_info.uid", VNum (ui_uid (en_user_info e)))] ;;;
    lret true
  else
    b <- or_panic (is_sudoing_to_themselves s pl) ;;
    if b then
      note e LDebug (B "sudo to current user")
        [(B "user_info.uid", VNum (ui_uid (en_user_info e)));
         (B "command_info.runas_uid", VNum (ci_runas_uid (en_command_info e)))] ;;;
      lret true
    else if is_sudoing_approval_command s then
      note e LDebug (B "sudo running approval command")
        [(B "command_info.command", VLossy (ci_command (en_command_info e)));
         (B "plugin_options.binary_path", VLossy (po_binary_path (sp_options s)))] ;;;
      lret true
    else if is_exempted_from_logging s then
      note e LDebug (B "sudo command exempted from logging") [] ;;; lret true
    else if is_sudoing_from_exempted_gid s then
      note e LDebug (B "sudo from exempt group id") [] ;;; lret true
    else
      b <- or_panic (is_sudoing_to_enforced_gid s pl) ;;
      if negb b then
        note e LDebug (B "sudo to unenforced group id") [] ;;; lret true
      else
        note e LDebug (B "sudo session requires a pair") [] ;;; lret false.

(** lib.rs:247-296 *)
Definition llocal_pair_prompt (s : sudo_pair) (sp : spec) : L unit :=
  let e := sp_env s in
  template <- lift (load_template (po_user_prompt_path (sp_options s)) DEFAULT_USER_PROMPT) ;;
  note e LTrace (B "local prompt template loaded") [] ;;;
  let prompt := expand sp template in
  note e LTrace (B "local prompt template evaluated") [] ;;;
  lift (print_local s prompt) ;;;
  note e LTrace (B "local prompt rendered") [].

(** lib.rs:298-335. The values of the record of lines 303-307 are computed
    only where such records are kept, and computing the mode may panic. *)
Definition lremote_pair_connect (max : level) (pl : platform) (s : sudo_pair) : L (result sudo_pair pair_error) :=
  let e := sp_env s in
  let at_ := [(B "socket_path", VLossy (socket_path s))] in
  (if kept max LDebug then
     mode <- or_panic (socket_mode s) ;;
     note e LDebug (B "socket initializing")
       ([(B "socket_uid", VNum (socket_uid s)); (B "socket_gid", VNum (socket_gid s));
         (B "socket_mode", VOct mode)] ++ at_)
   else lret tt) ;;;
  match sp_socket s with
  | Some _ => note e LWarn (B "socket unexpectedly already initialized") at_ ;;; lret (Ok s)
  | None =>
      note e LInfo (B "socket waiting for pair to connect...") at_ ;;;
      r <- lift (remote_pair_connect pl s) ;;
      match r with
      | Err er => lret (Err er)
      | Ok s' => note e LInfo (B "socket connected") at_ ;;; lret (Ok s')
      end
  end.

(** lib.rs:337-400 *)
Definition lremote_pair_prompt (s : sudo_pair) (sp : spec) : L (result unit pair_error) :=
  let e := sp_env s in
  template <- lift (load_template (po_pair_prompt_path (sp_options s)) DEFAULT_PAIR_PROMPT) ;;
  note e LTrace (B "remote prompt loaded") [] ;;;
  let prompt := expand sp template in
  note e LTrace (B "remote prompt evaluated") [] ;;;
  match sp_socket s with
  | None => lret (Err CommunicationError)
  | Some c =>
      r <- lift (socket_write_all c prompt) ;;
      match r with
      | Err _ => lret (Err CommunicationError)
      | Ok _ =>
          r <- lift (socket_flush c) ;;
          match r with
          | Err _ => lret (Err CommunicationError)
          | Ok _ =>
              note e LTrace (B "remote prompt rendered") [] ;;;
              note e LDebug (B "remote prompt awaiting response...") [] ;;;
              r <- lift (socket_read c) ;;
              match r with
              | Err _ => lret (Err SessionDeclined)
              | Ok got =>
                  let response := match got with b :: _ => b | [] => "n"%byte end in
                  note e LDebug (B "remote pair responded") [(B "response", VLossy [response])] ;;;
                  lift (socket_write_all c [response]) ;;;
                  lift (socket_write_all c newline) ;;;
                  if byte_eqb response "y" || byte_eqb response "Y"
                  then note e LInfo (B "remote pair approved session") [] ;;; lret (Ok tt)
                  else note e LWarn (B "remote pair declined session") [] ;;; lret (Err SessionDeclined)
              end
          end
      end
  end.

(** lib.rs:669-673, then the fields *)
Definition lpair_drop (s : sudo_pair) : L unit :=
  note (sp_env s) LDebug (B "plugin exiting") [] ;;; lift (pair_drop s).

(** lib.rs:114-198. The record of line 117 is made before the context of
    119-130 is there. *)
Definition lpair_open (max : level) (pl : platform) (e : io_env) : L (result sudo_pair pair_error) :=
  let options := plugin_options_from (en_plugin_options e) in
  let pair := mkSudoPair e options None in
  say (mkRecord LDebug (B "plugin initializing") root_values) ;;;
  note e LDebug (B "initialized with plugin options:") [(B "plugin_options", VOptions options)] ;;;
  exempt <- lunwind (lis_exempt pl pair) (lpair_drop pair) ;;
  if exempt then
    note e LInfo (B "pair session exempt from pairing requirements") [] ;;; lret (Ok pair)
  else
    note e LInfo (B "pair session required") [] ;;;
    if is_sudoing_to_user_and_group pair then
      note e LError (B "both -u and -g were provided to sudo")
        [(B "user", VOption (se_runas_user (en_settings e)));
         (B "group", VOption (se_runas_group (en_settings e)))] ;;;
      lpair_drop pair ;;;
      lret (Err SudoToUserAndGroup)
    else
      let sp := template_spec pair in
      lunwind (llocal_pair_prompt pair sp) (lpair_drop pair) ;;;
      r <- lunwind (lremote_pair_connect max pl pair) (lpair_drop pair) ;;
      match r with
      | Err er => lpair_drop pair ;;; lret (Err er)
      | Ok pair' =>
          r <- lunwind (lremote_pair_prompt pair' sp) (lpair_drop pair') ;;
          match r with
          | Err er => lpair_drop pair' ;;; lret (Err er)
          | Ok _ => note e LInfo (B "pair session started") [] ;;; lret (Ok pair')
          end
      end.

(** lib.rs:200-207; [self] is dropped last, without its socket. *)
Definition lpair_close (s : sudo_pair) : L unit :=
  let e := sp_env s in
  match sp_socket s with
  | Some c =>
      note e LTrace (B "pair session ending") [] ;;;
      lift (socket_close c) ;;;
      note e LInfo (B "pair session ended") [] ;;;
      lift (socket_drop c)
  | None => lret tt
  end ;;;
  lpair_drop (mkSudoPair (sp_env s) (sp_options s) None).

(** lib.rs:236-245 *)
Definition llog_output (s : sudo_pair) (data : bytes) : L (result unit pair_error) :=
  r <- lift (log_output s data) ;;
  match r with
  | Ok _ =>
      note (sp_env s) LTrace (B "{" ++ to_dec (Z.of_nat (List.length data)) ++ B " bytes sent}") [] ;;;
      lret (Ok tt)
  | Err er => lret (Err er)
  end.

(** lib.rs:209-228 *)
Definition lpair_log (pl : platform) (st : stream) (s : sudo_pair) (data : bytes)
  : L (result unit pair_error) :=
  match st with
  | Ttyout | Stdout | Stderr => llog_output s data
  | Stdin =>
      b <- lis_exempt pl s ;;
      if b then lret (Ok tt) else lret (Err StdinRedirected)
  | Ttyin => lret (Ok tt)
  end.

(** lib.rs:230-232 *)
Definition lpair_winsize (s : sudo_pair) (lines cols : Z) : L (result unit pair_error) :=
  llog_output s (winsize_seq lines cols).
End Methods.

(** ** Callbacks

    The wrappers of core.rs make no records, and the plugin's method is the
    first of what they run that makes a call or a record. So the records of a
    callback are those of the method, run in the world in which the callback
    was made; a plugin value that is not kept is dropped next (io_state.rs:60-65). *)
Definition callback_records (max : level) (pl : platform) (c : callback) (st : pstate SudoPair) (w : world)
  : list record :=
  match c with
  | CbOpen a =>
      match io_env_new pl (pg_name SudoPair) (pg_version SudoPair) a with
      | Some (Ok new_env) =>
          let env := match st_env st with Some old => old | None => new_env end in
          if path_eqb (ci_command (en_command_info env)) [] then []
          else
            match lpair_open max pl env w with
            | (l, (Done (Ok p), w')) =>
                match st_plugin st with
                | Some _ => l ++ fst (lpair_drop p w')
                | None => l
                end
            | (l, _) => l
            end
      | _ => []
      end
  | CbClose _ _ =>
      match st_plugin st with
      | Some p => fst (lpair_close p w)
      | None => []
      end
  | CbShowVersion _ => []
  | CbLog s data =>
      match st_env st, st_plugin st with
      | Some env, Some p =>
          if negb (hint s (en_command_info env)) then [] else fst (lpair_log pl s p data w)
      | _, _ => []
      end
  | CbWinsize l c =>
      match st_env st, st_plugin st with
      | Some _, Some p => fst (lpair_winsize p l c w)
      | _, _ => []
      end
  end.

Fixpoint history_records (max : level) (pl : platform) (h : list callback) (st : pstate SudoPair) (w : world)
  : list record :=
  match h with
  | [] => []
  | c :: h' =>
      callback_records max pl c st w
      ++ match run_callback SudoPair pl c st w with
         | (Done (_, st'), w') => history_records max pl h' st' w'
         | _ => []
         end
  end.
