(** Facts about a requester who sets SUDO_UID before running the approval
    script. *)
From Coq Require Import Lia.
From Verif Require Import Base BaseLemmas Num Path PathProofs Options World Sys Io Socket Env Core Pair Approve Script Spec ScriptSpec
  TraceSpec SessionSpec AdversarySpec HonourSpec AdversaryFacts GuardFacts SessionFacts ForwardFacts PeerFacts ScriptFacts.
Local Open Scope Z_scope.

Lemma pair_writes db k p uid pid ps : run_script db k p uid pid ps = Pair ->
  exists n, finds k (ps_cred ps) p = Some n /\ may_write (ps_cred ps) (k_inodes k n) = true.
Proof.
  unfold run_script, approve_main, approve. destruct (finds k (ps_cred ps) p) as [n|]; cbn [option_map]; [|discriminate].
  intros H. exists n. split; [reflexivity|].
  destruct (negb _); [discriminate|]. destruct (uid =? _); [discriminate|].
  destruct (may_write (ps_cred ps) (k_inodes k n)); [reflexivity|].
  destruct (negb _); [discriminate|]. destruct (negb _); discriminate.
Qed.

Lemma forged_direct db k p groups uid pid ps ps' : cr_uid (ps_cred ps) = uid -> Reached db k p groups uid pid ps ps' ->
  ps' = ps /\ exists n, finds k (ps_cred ps) p = Some n /\ may_write (ps_cred ps) (k_inodes k n) = true.
Proof.
  intros HU H.
  assert (X : forall d, (exists v, d = SudoUser v) \/ (exists g, d = SudoGroup g) ->
    run_script db k p uid pid (through_sudo groups ps d) <> Pair).
  { intros d Hd. assert (S : StartedBy uid (through_sudo groups ps d)).
    { left. destruct Hd as [[v ->]|[g ->]]; cbn [through_sudo ps_sudo_uid]; rewrite HU; reflexivity. }
    intros E. destruct (started_refused db k p groups uid pid _ S) as [I _]. rewrite E in I. cbn in I. intuition discriminate. }
  destruct H as [R|v R1 R2|g R1 R2].
  - split; [reflexivity|]. exact (pair_writes _ _ _ _ _ _ R).
  - exfalso. refine (X _ _ R2). eauto.
  - exfalso. refine (X _ _ R2). eauto.
Qed.

Lemma finds_socket k c q n m : k_names k q = Some n -> i_kind (k_inodes k n) = KSock -> finds k c q = Some m -> m = n.
Proof.
  intros Hn Hk. unfold finds. cbn [find_fuel]. rewrite Hn, Hk. destruct (can_search k c q); [intros [= <-]; reflexivity|discriminate].
Qed.

Section Claims.
Variables (pl : platform) (a : open_args) (rq : request) (w w' : world) (o : outcome (Z * pstate SudoPair)) (evs : list event).
Hypothesis D : Describes pl a rq.
Hypothesis HR : core_open SudoPair pl a (pstate0 _) w = (o, w').
Hypothesis HT : w_trace w' = w_trace w ++ evs.
Notation euid := (pl_euid pl).
Notation UserOut := (UserOutsider euid (rq_to_uid rq)).

Lemma forged_user : rq_uid rq <> rq_to_uid rq -> rq_to_uid rq <> 4294967295 ->
  forall q, SocketPath rq q -> Guarded UserOut q (w_k w) -> Everyone (fun c x => UserOut c \/ OnlyConnects x) w ->
  forall e1 b e2, evs = e1 ++ b :: e2 -> Creates q b -> forall k, Afterwards (w_k w') b e2 k ->
  k_names k q = Some (k_next (e_pre b)) ->
  forall db groups ps ps', cr_uid (ps_cred ps) = rq_uid rq -> cr_priv (ps_cred ps) = false ->
  ~ Reached db k q groups (rq_uid rq) (rq_pid rq) ps ps'.
Proof.
  intros HU HN q Hq HG HE e1 b e2 E HC k HK Hname db groups ps ps' U P H.
  destruct (stage_of_user pl a rq w w' o evs D HR HT HU HN q Hq HG HE e1 b e2 E HC k HK) as [gb HS].
  destruct (forged_direct _ _ _ _ _ _ _ _ U H) as (_ & n & F & W).
  rewrite (finds_socket _ _ _ _ _ Hname (proj1 HS) F) in W.
  rewrite (user_stage_write pl rq gb _ _ HS P) in W; [discriminate|congruence].
Qed.

Lemma forged_group : rq_uid rq = rq_to_uid rq -> rq_to_gid rq <> 4294967295 ->
  forall q, SocketPath rq q -> Guarded (Unprivileged euid) q (w_k w) ->
  Everyone (fun c x => Unprivileged euid c \/ OnlyConnects x) w ->
  forall e1 b e2, evs = e1 ++ b :: e2 -> Creates q b -> forall k, Afterwards (w_k w') b e2 k ->
  k_names k q = Some (k_next (e_pre b)) ->
  forall db groups ps ps', cr_uid (ps_cred ps) = rq_uid rq -> cr_priv (ps_cred ps) = false ->
  Reached db k q groups (rq_uid rq) (rq_pid rq) ps ps' -> ps' = ps /\ In (rq_to_gid rq) (cr_gids (ps_cred ps)).
Proof.
  intros HU HN q Hq HG HE e1 b e2 E HC k HK Hname db groups ps ps' U P H.
  destruct (stage_of_group pl a rq w w' o evs D HR HT HU HN q Hq HG HE e1 b e2 E HC k HK) as [gb HS].
  destruct (forged_direct _ _ _ _ _ _ _ _ U H) as (-> & n & F & W). split; [reflexivity|].
  rewrite (finds_socket _ _ _ _ _ Hname (proj1 HS) F) in W.
  destruct (in_dec Z.eq_dec (rq_to_gid rq) (cr_gids (ps_cred ps))) as [Y|Y]; [exact Y|].
  rewrite (group_stage_write pl rq gb _ _ HS P Y) in W. discriminate.
Qed.
End Claims.
