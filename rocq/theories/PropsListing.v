(** Property theorems about the socket while the plugin waits: C108. *)
From Coq Require Import Lia.
From Verif Require Import Base BaseLemmas Num Path Options World Sys Io Socket Env Core Pair Spec TraceSpec SessionSpec AdversarySpec
  PathProofs Samples Worlds PropsSocket PropsAdversary ListingSpec WaitingFacts.
Local Open Scope Z_scope.

(** *** C108: the sockets listed in README.md:232-237 *)

(** README.md:215-217: "a socket is created that is owned and only writable by
    ${user} (or ${group})". Whenever the plugin waits for a pair, the name of
    the session leads to the socket it made, which looks like that and keeps
    looking like that. *)
Theorem C108_user : forall pl a rq w w' o evs,
  Describes pl a rq -> core_open SudoPair pl a (pstate0 _) w = (o, w') -> w_trace w' = w_trace w ++ evs ->
  rq_uid rq <> rq_to_uid rq -> rq_to_uid rq <> 4294967295 ->
  forall q, SocketPath rq q ->
  Guarded (UserOutsider (pl_euid pl) (rq_to_uid rq)) q (w_k w) ->
  Everyone (fun c x => UserOutsider (pl_euid pl) (rq_to_uid rq) c \/ OnlyConnects x) w ->
  forall se, In se evs -> e_call se = CSelect ->
  exists e1 b gb e2 e3 s, evs = e1 ++ b :: e2 ++ se :: e3 /\ Creates q b /\ e_ans b = ANum gb
    /\ k_names (e_pre se) q = Some (k_next (e_pre b))
    /\ (forall k, k = e_pre se \/ Afterwards (w_k w') se e3 k -> k_inodes k (k_next (e_pre b)) = s)
    /\ ls_mode s = B "s-w-------" /\ i_uid s = rq_to_uid rq /\ i_gid s = gb
    /\ forall c, may_write c s = true <-> cr_priv c = true \/ cr_uid c = rq_to_uid rq.
Proof. exact waiting_user. Qed.
Print Assumptions C108_user.

Theorem C108_group : forall pl a rq w w' o evs,
  Describes pl a rq -> core_open SudoPair pl a (pstate0 _) w = (o, w') -> w_trace w' = w_trace w ++ evs ->
  rq_uid rq = rq_to_uid rq -> rq_to_gid rq <> 4294967295 ->
  forall q, SocketPath rq q ->
  Guarded (Unprivileged (pl_euid pl)) q (w_k w) ->
  Everyone (fun c x => Unprivileged (pl_euid pl) c \/ OnlyConnects x) w ->
  forall se, In se evs -> e_call se = CSelect ->
  exists e1 b e2 e3 s, evs = e1 ++ b :: e2 ++ se :: e3 /\ Creates q b
    /\ k_names (e_pre se) q = Some (k_next (e_pre b))
    /\ (forall k, k = e_pre se \/ Afterwards (w_k w') se e3 k -> k_inodes k (k_next (e_pre b)) = s)
    /\ ls_mode s = B "s----w----" /\ i_uid s = pl_euid pl /\ i_gid s = rq_to_gid rq
    /\ forall c, may_write c s = true <-> cr_priv c = true \/ (cr_uid c <> pl_euid pl /\ In (rq_to_gid rq) (cr_gids c)).
Proof. exact waiting_group. Qed.
Print Assumptions C108_group.

(** The sieges of C23 meet the hypotheses (see there). *)
Example C108_example :
  (let se := nth 12 (w_trace (snd (www_run www_siege))) no_event in
   In se (w_trace (snd (www_run www_siege))) /\ e_call se = CSelect /\ k_names (e_pre se) sock = Some 8%nat
   /\ ls_mode (k_inodes (e_pre se) 8) = B "s-w-------" /\ i_uid (k_inodes (e_pre se) 8) = 33 /\ i_gid (k_inodes (e_pre se) 8) = 0
   /\ may_write www (k_inodes (e_pre se) 8) = true /\ may_write bob (k_inodes (e_pre se) 8) = false)
  /\ (let se := nth 12 (w_trace (snd (group_run group_siege))) no_event in
      In se (w_trace (snd (group_run group_siege))) /\ e_call se = CSelect /\ k_names (e_pre se) sock = Some 8%nat
      /\ ls_mode (k_inodes (e_pre se) 8) = B "s----w----" /\ i_uid (k_inodes (e_pre se) 8) = 0 /\ i_gid (k_inodes (e_pre se) 8) = 10
      /\ may_write bob (k_inodes (e_pre se) 8) = true /\ may_write www (k_inodes (e_pre se) 8) = false).
Proof.
  split; cbv zeta; (split; [apply nth_In; vm_compute; repeat constructor|]); vm_compute; repeat split.
Qed.
