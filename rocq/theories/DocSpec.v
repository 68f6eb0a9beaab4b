(** What the plugin of the documentation is to print for what happens in a
    session. *)
From Verif Require Import Base World Io Env Core Spec Frontend.
Local Open Scope Z_scope.

Definition heard (rq : request) (ev : happening) : bytes :=
  match ev with
  | Moved Stdout _ => if rq_log rq Stdout then B "example sudo plugin received output on stdout" ++ [x0a] else []
  | _ => []
  end.
