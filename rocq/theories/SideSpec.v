(** Vocabulary for several sessions at once: what another invocation of sudo
    with the same plugin does to the file system meanwhile. *)
From Verif Require Import Base Path World Options Sys Env Core Pair Spec SessionSpec AdversarySpec.
Local Open Scope Z_scope.

(** Seen from another process, the call [c] is the action [x]. Calls not listed
    do not change the file system. *)
Definition ActsAs (c : call) (x : action) : Prop :=
  match c with
  | CUnlink p => x = Unlink p
  | CBind p => exists g m, x = Create p KSock g m
  | CChown p u g => x = Chown p u g
  | CChmod p m => x = Chmod p m
  | _ => False
  end.

(** [x] is done by the plugin in another invocation of sudo, whose process or
    requesting user is a different one; the sockets are kept in the same
    directory. That invocation is one session: opened once, then used in any way. *)
Definition OtherSession (rq : request) (x : action) : Prop :=
  exists pl a rq2 h w o w' evs ev,
    Describes pl a rq2 /\ rq_socket_dir rq2 = rq_socket_dir rq
    /\ (rq_uid rq2 <> rq_uid rq \/ rq_pid rq2 <> rq_pid rq)
    /\ Forall (fun cb => forall a', cb <> CbOpen a') h
    /\ run_history SudoPair pl (CbOpen a :: h) (pstate0 _) w = (o, w') /\ w_trace w' = w_trace w ++ evs
    /\ In ev evs /\ ActsAs (e_call ev) x.

(** As [Guarded]; moreover, what the directory of [q] contains beside it are
    plain files, and the names that lead there are not among them. *)
Definition Apart (T : cred -> Prop) (q : path) (k : kernel) : Prop :=
  exists S, GuardedBy T S q k
  /\ forall p, Beside q p -> ~ S p /\ forall n, k_names k p = Some n -> (n < k_next k)%nat /\ PlainFile (i_kind (k_inodes k n)).
