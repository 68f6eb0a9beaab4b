(** A session of sudo from the beginning to the end. *)
From Verif Require Import Base World Sys Io Env Core Frontend.
Local Open Scope Z_scope.

(** The command is run if the plugin has it so, and the plugin is closed with
    what became of it (io_plugin.rs:65-81). The result is what sudo has passed
    on, whether it ended the session early, and which functions it no longer
    calls; [None] if the command was not run. *)
Definition session {P} (T : io_table P) (a : open_args) (h : list happening) (exit_status err : Z)
  : M (option (list (stream * bytes) * bool * list slot)) :=
  r <- front_run T a h ;;
  match r with
  | None => ret None
  | Some f => _ <- front_close T exit_status err f ;; ret (Some (f_given f, f_live f, f_off f))
  end.
