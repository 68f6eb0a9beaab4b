(** The plugin as sudo sees it: the exported table of functions, and a front
    end that uses it as the documentation in the source says sudo does. *)
From Verif Require Import Base Path Version Options World Sys Io Env Core.
Local Open Scope Z_scope.

(** sudo_plugin-sys/src/bindings/sudo_plugin.x86-64.rs:769-870 (the other
    architectures declare the same fields): a function of the table works on
    the statics of macros.rs:74-75. The hooks and event_alloc are present or
    not; nothing else about them matters here. *)
Record io_table (P : plugin) := mkTable {
  t_type : Z;
  t_version : Z;
  t_open : option (open_args -> pstate P -> M (Z * pstate P));
  t_close : option (Z -> Z -> pstate P -> M (pstate P));
  t_show_version : option (Z -> pstate P -> M Z);
  t_log_ttyin : option (bytes -> pstate P -> M Z);
  t_log_ttyout : option (bytes -> pstate P -> M Z);
  t_log_stdin : option (bytes -> pstate P -> M Z);
  t_log_stdout : option (bytes -> pstate P -> M Z);
  t_log_stderr : option (bytes -> pstate P -> M Z);
  t_register_hooks : option unit;
  t_deregister_hooks : option unit;
  t_change_winsize : option (Z -> Z -> pstate P -> M Z);
  t_log_suspend : option (Z -> pstate P -> M Z);
  t_event_alloc : option unit
}.
Arguments t_type {P} _. Arguments t_version {P} _. Arguments t_open {P} _. Arguments t_close {P} _.
Arguments t_show_version {P} _. Arguments t_log_ttyin {P} _. Arguments t_log_ttyout {P} _.
Arguments t_log_stdin {P} _. Arguments t_log_stdout {P} _. Arguments t_log_stderr {P} _.
Arguments t_register_hooks {P} _. Arguments t_deregister_hooks {P} _.
Arguments t_change_winsize {P} _. Arguments t_log_suspend {P} _. Arguments t_event_alloc {P} _.

(** bindings/sudo_plugin.x86-64.rs:31 *)
Definition SUDO_IO_PLUGIN := 2.

(** sudo_plugin-sys/src/lib.rs:239-263 *)
Definition empty_table (P : plugin) : io_table P := {|
  t_type := SUDO_IO_PLUGIN; t_version := SUDO_API_VERSION;
  t_open := None; t_close := None; t_show_version := None;
  t_log_ttyin := None; t_log_ttyout := None; t_log_stdin := None; t_log_stdout := None; t_log_stderr := None;
  t_register_hooks := None; t_deregister_hooks := None;
  t_change_winsize := None; t_log_suspend := None; t_event_alloc := None |}.

(** macros.rs:92-109; sudo_pair/src/lib.rs:99 exports [SudoPair] so. *)
Definition exported (P : plugin) (pl : platform) : io_table P :=
  let rest := empty_table P in {|
  t_type := t_type rest; t_version := t_version rest;
  t_open := Some (core_open P pl);
  t_close := Some (core_close P);
  t_show_version := Some (core_show_version P);
  t_log_ttyin := Some (core_log P pl Ttyin);
  t_log_ttyout := Some (core_log P pl Ttyout);
  t_log_stdin := Some (core_log P pl Stdin);
  t_log_stdout := Some (core_log P pl Stdout);
  t_log_stderr := Some (core_log P pl Stderr);
  t_register_hooks := t_register_hooks rest; t_deregister_hooks := t_deregister_hooks rest;
  t_change_winsize := Some (core_change_winsize P pl);
  t_log_suspend := t_log_suspend rest; t_event_alloc := t_event_alloc rest |}.

(** What happens in a session: data is read from the user for the command, or
    from the command for the user; the terminal is resized; the command is
    suspended or resumed (a signal). *)
Inductive happening :=
| Moved (s : stream) (d : bytes)
| Resized (lines cols : Z)
| Suspended (signo : Z).

(** Which function of the table is asked. *)
Definition asked {P} (T : io_table P) (ev : happening) : option (pstate P -> M Z) :=
  match ev with
  | Moved Ttyin d => option_map (fun f => f d) (t_log_ttyin T)
  | Moved Ttyout d => option_map (fun f => f d) (t_log_ttyout T)
  | Moved Stdin d => option_map (fun f => f d) (t_log_stdin T)
  | Moved Stdout d => option_map (fun f => f d) (t_log_stdout T)
  | Moved Stderr d => option_map (fun f => f d) (t_log_stderr T)
  | Resized l c => option_map (fun f => f l c) (t_change_winsize T)
  | Suspended n => option_map (fun f => f n) (t_log_suspend T)
  end.

(** The functions sudo may stop calling. *)
Inductive slot := SLog (s : stream) | SWinsize | SSuspend.
Definition slot_of (ev : happening) : slot :=
  match ev with Moved s _ => SLog s | Resized _ _ => SWinsize | Suspended _ => SSuspend end.
Definition slot_eq_dec (a b : slot) : {a = b} + {a <> b}.
Proof. decide equality. decide equality. Defined.

(** The session as the front end has it: the plugin's statics, the functions
    that are no longer called, the data passed on so far (oldest first), and
    whether the command is still there. *)
Record front (P : plugin) := mkFront {
  f_state : pstate P;
  f_off : list slot;
  f_given : list (stream * bytes);
  f_live : bool
}.
Arguments mkFront {P} _ _ _ _.
Arguments f_state {P} _. Arguments f_off {P} _. Arguments f_given {P} _. Arguments f_live {P} _.

Definition pass {P} (ev : happening) (f : front P) : front P :=
  match ev with
  | Moved s d => mkFront (f_state f) (f_off f) (f_given f ++ [(s, d)]) (f_live f)
  | _ => f
  end.

(** io_plugin.rs:88-91, 104-107, 120-122, 135-139, 152-156: the plugin is asked
    before the data is passed on. core.rs:71-83: 1 means that the session goes
    on, -1 that the function is no longer called (taken here to let the data
    through, which is the worse case), and 0 that the session is ended; other
    values are not documented and end it too. *)
Definition front_step {P} (T : io_table P) (ev : happening) (f : front P) : M (front P) :=
  if negb (f_live f) then ret f
  else match asked T ev with
  | None => ret (pass ev f)
  | Some ask =>
      if in_dec slot_eq_dec (slot_of ev) (f_off f) then ret (pass ev f)
      else
        z <- ask (f_state f) ;;
        if z =? 1 then ret (pass ev f)
        else if z =? -1 then ret (pass ev (mkFront (f_state f) (slot_of ev :: f_off f) (f_given f) (f_live f)))
        else ret (mkFront (f_state f) (f_off f) (f_given f) false)
  end.

Fixpoint front_steps {P} (T : io_table P) (h : list happening) (f : front P) : M (front P) :=
  match h with
  | [] => ret f
  | ev :: h' => f1 <- front_step T ev f ;; front_steps T h' f1
  end.

(** core.rs:41-59: 1 means that the plugin is used, 0 that the command runs
    without it, and the rest that the command does not run. io_plugin.rs:65-69:
    open is the first function called. [None] if the command is not run. *)
Definition front_run {P} (T : io_table P) (a : open_args) (h : list happening) : M (option (front P)) :=
  match t_open T with
  | None => ret None
  | Some open =>
      r <- open a (pstate0 P) ;;
      let '(z, st) := r in
      if z =? 1 then f <- front_steps T h (mkFront st [] [] true) ;; ret (Some f)
      else if z =? 0 then
        f <- front_steps (empty_table P) h (mkFront st [] [] true) ;; ret (Some f)
      else ret None
  end.

(** io_plugin.rs:79-81: at the end the plugin is told the exit status of the
    command, or the error for which it could not be run. *)
Definition front_close {P} (T : io_table P) (exit_status err : Z) (f : front P) : M (pstate P) :=
  match t_close T with
  | None => ret (f_state f)
  | Some close => close exit_status err (f_state f)
  end.
