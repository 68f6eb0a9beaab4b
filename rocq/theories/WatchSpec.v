(** Vocabulary for statements about what an open session does. *)
From Verif Require Import Base World Core Pair.
Local Open Scope Z_scope.

Definition IsOpen (cb : callback) : bool := match cb with CbOpen _ => true | _ => false end.
Definition opens (h : list callback) : list callback := filter IsOpen h.
Definition NotOpen (cb : callback) : Prop := IsOpen cb = false.

(** The calls expected of a session in the state [st]: printing, changing what
    Ctrl-C does, and writing to the pair of that session or hanging up on it. *)
Definition SessionCall (st : pstate SudoPair) (c : call) : Prop :=
  match c with
  | CPrintf _ _ | CSigGet | CSigSet _ => True
  | CWrite n _ | CShutdown n | CClose n => exists p, st_plugin st = Some p /\ sp_socket p = Some n
  | _ => False
  end.
