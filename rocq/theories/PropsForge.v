(** Properties of the approval script run by the requester: C105. *)
From Verif Require Import Base Num Path Options World Sys Io Socket Env Core Pair Approve Script Spec ScriptSpec
  TraceSpec SessionSpec AdversarySpec HonourSpec SamplePrompts ScriptFacts ForgeFacts Samples Worlds PropsSocket PropsAdversary PropsScript.
Local Open Scope Z_scope.

(** *** C105: the requester and SUDO_UID *)
(** Whatever SUDO_UID is set to, a requester whom the script connects is one
    who could have connected without it: it connects as the very process that
    was started, never through sudo. *)
Theorem C105_forged : forall db k p groups uid pid ps ps',
  cr_uid (ps_cred ps) = uid -> Reached db k p groups uid pid ps ps' ->
  ps' = ps /\ exists n, finds k (ps_cred ps) p = Some n /\ may_write (ps_cred ps) (k_inodes k n) = true.
Proof. exact forged_direct. Qed.
Print Assumptions C105_forged.

(** So it does not help with -u, *)
Theorem C105_user_change : forall pl a rq w w' o evs,
  Describes pl a rq -> core_open SudoPair pl a (pstate0 _) w = (o, w') -> w_trace w' = w_trace w ++ evs ->
  rq_uid rq <> rq_to_uid rq -> rq_to_uid rq <> 4294967295 ->
  forall q, SocketPath rq q ->
  Guarded (UserOutsider (pl_euid pl) (rq_to_uid rq)) q (w_k w) ->
  Everyone (fun c x => UserOutsider (pl_euid pl) (rq_to_uid rq) c \/ OnlyConnects x) w ->
  forall e1 b e2, evs = e1 ++ b :: e2 -> Creates q b -> forall k, Afterwards (w_k w') b e2 k ->
  k_names k q = Some (k_next (e_pre b)) ->
  forall db groups ps ps', cr_uid (ps_cred ps) = rq_uid rq -> cr_priv (ps_cred ps) = false ->
  ~ Reached db k q groups (rq_uid rq) (rq_pid rq) ps ps'.
Proof. intros pl a rq w w' o evs D HR HT. exact (forged_user pl a rq w w' o evs D HR HT). Qed.
Print Assumptions C105_user_change.

(** and with -g only if the requester belongs to the group already. *)
Theorem C105_group_change : forall pl a rq w w' o evs,
  Describes pl a rq -> core_open SudoPair pl a (pstate0 _) w = (o, w') -> w_trace w' = w_trace w ++ evs ->
  rq_uid rq = rq_to_uid rq -> rq_to_gid rq <> 4294967295 ->
  forall q, SocketPath rq q -> Guarded (Unprivileged (pl_euid pl)) q (w_k w) ->
  Everyone (fun c x => Unprivileged (pl_euid pl) c \/ OnlyConnects x) w ->
  forall e1 b e2, evs = e1 ++ b :: e2 -> Creates q b -> forall k, Afterwards (w_k w') b e2 k ->
  k_names k q = Some (k_next (e_pre b)) ->
  forall db groups ps ps', cr_uid (ps_cred ps) = rq_uid rq -> cr_priv (ps_cred ps) = false ->
  Reached db k q groups (rq_uid rq) (rq_pid rq) ps ps' -> ps' = ps /\ In (rq_to_gid rq) (cr_gids (ps_cred ps)).
Proof. intros pl a rq w w' o evs D HR HT. exact (forged_group pl a rq w w' o evs D HR HT). Qed.
Print Assumptions C105_group_change.

(** "You may run the above command to approve your own session": the offer of
    the sample prompt, for a requester who may write to the socket. *)
Definition offer : bytes := B "you may run the above command to approve your own session".
Definition C105_full : Prop := forall db k p groups uid pid ps n,
  StartedBy uid ps -> finds k (ps_cred ps) p = Some n -> may_write (ps_cred ps) (k_inodes k n) = true ->
  db_user db (i_uid (k_inodes k n)) = true -> db_group db (i_gid (k_inodes k n)) = true ->
  exists ps', Reached db k p groups uid pid ps ps'.

(** alice, a member of wheel, waits for sudo -g wheel. *)
Definition self_state : kernel :=
  e_pre (nth 12 (w_trace (snd (core_open SudoPair release self_args (pstate0 SudoPair) self_world))) no_event).

Theorem C105_refuted : Infix offer sample_user
  /\ exists db k p groups uid pid ps n, StartedBy uid ps /\ finds k (ps_cred ps) p = Some n
     /\ may_write (ps_cred ps) (k_inodes k n) = true
     /\ db_user db (i_uid (k_inodes k n)) = true /\ db_group db (i_gid (k_inodes k n)) = true
     /\ (forall ps', ~ Reached db k p groups uid pid ps ps')
     /\ Reached db k p groups uid pid (mkProcess (ps_cred ps) (Some 0)) (mkProcess (ps_cred ps) (Some 0)).
Proof.
  split. { exists (firstn 277 sample_user), (skipn (277 + 57) sample_user). vm_compute. reflexivity. }
  exists everybody, self_state, sock, no_groups, 1000, 4242, (mkProcess alice_wheel None), 7%nat.
  assert (S : StartedBy 1000 (mkProcess alice_wheel None)) by (right; split; reflexivity).
  split; [exact S|]. split; [vm_compute; reflexivity|]. split; [vm_compute; reflexivity|].
  split; [reflexivity|]. split; [reflexivity|].
  split; [exact (proj2 (C79_requester everybody self_state sock no_groups 1000 4242 _ S))|].
  apply Reached_directly. vm_compute. reflexivity.
Qed.
Print Assumptions C105_refuted.

Theorem C105_not_full : ~ C105_full.
Proof.
  intros F. destruct C105_refuted as (_ & db & k & p & groups & uid & pid & ps & n & S & H1 & H2 & H3 & H4 & N & _).
  destruct (F db k p groups uid pid ps n S H1 H2 H3 H4) as [ps' R]. exact (N ps' R).
Qed.
Print Assumptions C105_not_full.

(** The sieges of C23 meet the hypotheses (see there). alice sets SUDO_UID to
    that of carol: the script calls sudo, and then refuses. *)
Example C105_example :
  (let k := e_pre (nth 12 (w_trace (snd (www_run www_siege))) no_event) in
   let run := run_script everybody k sock 1000 4242 in
   let ps := mkProcess alice (Some 1003) in
   k_names k sock = Some 8%nat /\ run ps = SudoUser 33 /\ run (through_sudo no_groups ps (SudoUser 33)) = RefuseSelf)
  /\ (let k := e_pre (nth 12 (w_trace (snd (group_run group_siege))) no_event) in
      let run := run_script everybody k sock 1000 4242 in
      let ps := mkProcess alice (Some 1003) in
      k_names k sock = Some 8%nat /\ run ps = SudoGroup 10 /\ run (through_sudo no_groups ps (SudoGroup 10)) = RefuseSelf
      /\ run (mkProcess alice_wheel (Some 1003)) = Pair).
Proof. split; cbv zeta; vm_compute; repeat split. Qed.
