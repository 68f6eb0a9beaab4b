(** Sessions that get through. *)
From Verif Require Import Base World Sys Io Env Core Pair Spec TraceSpec SessionSpec Frontend FrontSpec.
Local Open Scope Z_scope.

(** Data is piped to the command, and standard input is to be logged. *)
Definition Piped (rq : request) (ev : happening) : Prop := rq_log rq Stdin = true /\ exists d, ev = Moved Stdin d.

(** All that happened was let through, and whoever approved over [c] was sent
    everything due to them, after they had approved. *)
Definition Through (rq : request) (h : list happening) {P} (f : front P) (c : nat) (evs : list event) : Prop :=
  f_live f = true /\ f_off f = [] /\ f_given f = flat_map data_of h
  /\ exists asking after outs, evs = asking ++ after /\ Approved rq c asking
     /\ Forall2 (Shows rq) h outs /\ delivered c after = List.concat outs.
