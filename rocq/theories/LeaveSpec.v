(** A pair who has gone. *)
From Verif Require Import Base World Env Core Spec Frontend.
Local Open Scope Z_scope.

(** Nobody is at the other end of the connection: every write to it fails. *)
Definition Gone (c : nat) (evs : list event) : Prop :=
  forall ev d, In ev evs -> e_call ev = CWrite c d -> exists e, e_ans ev = AErr e.

(** What the plugin does not pass on to the pair: data that is not marked,
    what is typed, and suspensions. *)
Definition Unseen (rq : request) (ev : happening) : Prop :=
  match ev with
  | Moved s _ => rq_log rq s = false \/ s = Ttyin
  | Resized _ _ => False
  | Suspended _ => True
  end.
