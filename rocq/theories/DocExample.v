(** The plugin in the documentation of the macro
    (sudo_plugin/src/macros.rs:24-52). *)
From Verif Require Import Base Options World Sys Io Env Core.
Local Open Scope Z_scope.

(** [writeln!] with a format without arguments writes one piece; its result is
    not used (35, 41, 45). *)
Definition say (e : io_env) (line : bytes) : M unit :=
  pf_write_all (en_stdout e) (line ++ newline) ;;; ret tt.

(** macros.rs:27-49. The methods not given are those of
    io_plugin.rs:116-118, 131-133, 148-150, 165-167 and 181-183; the statuses
    of the errors are those of sudo_plugin/src/errors.rs:82-94. The struct is a
    reference to the environment, so dropping it does nothing. *)
Definition Example_plugin : plugin := {|
  pg_state := io_env; pg_error := error; pg_name := B "example"; pg_version := B "1.2.0"; pg_ignore_hints := false;
  pg_open := fun _ e => say e (B "example sudo plugin initialized") ;;; ret (Ok e);
  pg_close := fun e _ _ => say e (B "example sudo plugin exited");
  pg_drop := fun _ => ret tt;
  pg_log := fun _ s e _ =>
    match s with
    | Stdout => say e (B "example sudo plugin received output on stdout") ;;; ret (Ok tt)
    | _ => ret (Ok tt)
    end;
  pg_winsize := fun _ _ _ _ => ret (Ok tt);
  pg_from_error := fun e => e; pg_open_status := fun _ => OPEN_DENY; pg_log_status := fun _ => LOG_DENY;
  pg_display := display_error; pg_source := fun _ => None |}.
