(** Approvals are honoured. *)
From Verif Require Import Base Path World Options Sys Io Env Core Pair Spec TraceSpec SessionSpec PairPure Samples Worlds
  PathProofs NumProofs InputFacts SocketProofs PairProofs OpenFacts AskFacts SessionFacts HonourSpec HonourFacts ForwardFacts.
Local Open Scope Z_scope.

(** *** C22: approval is honoured *)

(** When every call does its job, the plugin reads exactly one answer, and that
    answer alone decides. *)
Theorem C22_answer_decides : forall pl a rq w o w' evs q,
  Describes pl a rq -> Askable pl a rq ->
  core_open SudoPair pl a (pstate0 _) w = (o, w') -> w_trace w' = w_trace w ++ evs ->
  SocketPath rq q -> HonestPrintf evs -> Forall (Works (pl_euid pl) q) evs ->
  o = Stopped
  \/ exists z st' c d rd, o = Done (z, st') /\ reads evs = [rd] /\ Is (CRead c) (AData d) rd
     /\ ((z = 1 /\ st_plugin st' <> None /\ Yes d) \/ (z = -1 /\ st_plugin st' = None /\ ~ Yes d)).
Proof. intros pl a rq w o w' evs q D K. exact (honoured pl a rq D K w o w' evs q). Qed.
Print Assumptions C22_answer_decides.

(** Whatever else fails, a yes that was read counts, unless the SIGINT
    disposition could not be set or restored around a call. *)
Theorem C22_yes_counts : forall pl a rq w z st' w' evs c d rd,
  Describes pl a rq ->
  core_open SudoPair pl a (pstate0 _) w = (Done (z, st'), w') -> w_trace w' = w_trace w ++ evs ->
  In rd evs -> Is (CRead c) (AData d) rd -> Yes d ->
  (forall ev, In ev evs -> match e_call ev with CSigGet | CSigSet _ => True | _ => False end -> e_ans ev = AOk) ->
  z = 1 /\ st_plugin st' <> None.
Proof. intros pl a rq w z st' w' evs c d rd D. exact (yes_honoured pl a rq D w z st' w' evs c d rd). Qed.
Print Assumptions C22_yes_counts.

(** Such environments exist for every such request: from any state with a
    private socket directory, if a process the socket is meant for, and which
    may search the directories above it, connects while the plugin waits and nobody else does anything, some sequence of
    answers (with the pair's yes among them) leads to an active session. *)
Theorem C22_can_be_approved : forall pl a rq q peer k tr,
  Describes pl a rq -> Askable pl a rq -> SocketPath rq q -> Entitled pl rq peer -> Ready pl rq q k ->
  Numbered k -> OpenWay peer q k ->
  exists t1 t2 st' w', Calm t1 /\ Calm t2
    /\ core_open SudoPair pl a (pstate0 _) (mkWorld k (t1 ++ ([(peer, Connect q)], ANum 1) :: t2) tr) = (Done (1, st'), w')
    /\ w_script w' = [] /\ st_plugin st' <> None.
Proof. intros pl a rq q peer k tr D K HP HE. exact (approvable pl a rq q peer D K HP HE k tr). Qed.
Print Assumptions C22_can_be_approved.

(** A check of [Works] on a recorded call. *)
Definition is_none {A} (o : option A) : bool := match o with None => true | _ => false end.
Definition works_check (euid : Z) (q : path) (ev : event) : bool :=
  match e_call ev, e_ans ev with
  | CStat p, AOk =>
      match resolve (e_pre ev) p with
      | Some n =>
          let i := k_inodes (e_pre ev) n in
          if comps_eqb p q then match i_kind i with KSock => true | _ => false end
          else match i_kind i with KDir => true | _ => false end && (i_uid i =? euid)
               && (0 <=? i_perm i) && (i_perm i <? 4096)
               && (Z.land (i_perm i) 16 =? 0) && (Z.land (i_perm i) 2 =? 0)
      | None => comps_eqb p q
      end
  | CStat p, _ => comps_eqb p q
  | CUnlink p, AOk => negb (is_none (k_names (e_pre ev) p))
  | CSocket, ANum fd => fd <? 1024
  | CBind p, ANum _ => negb (is_none (k_listen (e_pre ev))) && is_none (k_names (e_pre ev) p)
                       && negb (is_none (dir_inode (e_pre ev) p))
  | CListen, AOk => true
  | CChown p _ _, AOk | CChmod p _, AOk => negb (is_none (resolve (e_pre ev) p))
  | CSelect, ANum n => n =? 1
  | CAccept, AOk => true
  | CSigGet, AOk | CSigSet _, AOk => true
  | CWrite _ _, ANum n => 0 <? n
  | CRead _, AData _ => true
  | CUnlink _, _ | CSocket, _ | CBind _, _ | CListen, _ | CChown _ _ _, _ | CChmod _ _, _ | CSelect, _ | CAccept, _
  | CSigGet, _ | CSigSet _, _ | CWrite _ _, _ | CRead _, _ => false
  | _, _ => true
  end.

Lemma is_none_false {A} (o : option A) : negb (is_none o) = true -> o <> None.
Proof. destruct o; [discriminate|intros H; discriminate H]. Qed.
Lemma is_none_true {A} (o : option A) : is_none o = true -> o = None.
Proof. destruct o; [intros H; discriminate H|reflexivity]. Qed.

Lemma works_checked euid q ev : works_check euid q ev = true -> Works euid q ev.
Proof.
  unfold works_check, Works. destruct (e_call ev) eqn:Ec, (e_ans ev) eqn:Ea; intros H; try discriminate H; try exact I;
    try reflexivity; try (left; reflexivity); try (eexists; reflexivity).
  - destruct (resolve (e_pre ev) p) as [n|] eqn:Er.
    + destruct (comps_eqb p q) eqn:Eq.
      * apply comps_eqb_eq in Eq. subst p. split; [|congruence]. intros _ n' _ X. injection X as <-.
        destruct (i_kind _); try discriminate. reflexivity.
      * split; [intros X; subst; rewrite comps_eqb_refl in Eq; discriminate|]. intros _. split; [reflexivity|].
        exists n. split; [reflexivity|]. rewrite !andb_true_iff in H. destruct H as (((((H1 & H2) & H3) & H4) & H5) & H6).
        split; [destruct (i_kind _); try discriminate; reflexivity|]. split; [apply Z.eqb_eq; exact H2|].
        split; [split; [apply Z.leb_le; exact H3|apply Z.ltb_lt; exact H4]|]. split; apply Z.eqb_eq; assumption.
    + apply comps_eqb_eq in H. subst p. split; [discriminate|congruence].
  - apply comps_eqb_eq in H. subst p. split; [discriminate|congruence].
  - apply comps_eqb_eq in H. subst p. split; [discriminate|congruence].
  - apply comps_eqb_eq in H. subst p. split; [discriminate|congruence].
  - split; [reflexivity|]. apply is_none_false. exact H.
  - eexists. split; [reflexivity|]. apply Z.ltb_lt. exact H.
  - rewrite !andb_true_iff in H. destruct H as ((H1 & H2) & H3). split; [exact Ec|]. split; [eexists; exact Ea|].
    split; [apply is_none_false; exact H1|]. split; [apply is_none_true; exact H2|apply is_none_false; exact H3].
  - split; [reflexivity|]. apply is_none_false. exact H.
  - split; [reflexivity|]. apply is_none_false. exact H.
  - apply Z.eqb_eq in H. subst z. reflexivity.
  - left. eexists. split; [reflexivity|]. apply Z.ltb_lt. exact H.
Qed.

Lemma to_root_askable : Askable release to_root to_root_rq.
Proof.
  split.
  - apply not_maskless. vm_compute. discriminate.
  - discriminate.
  - exact to_root_not_exempt.
  - left. discriminate.
  - intros [_ H]. apply H. reflexivity.
  - discriminate.
  - discriminate.
  - cbn. intuition discriminate.
  - intros n (u & p & Hu & Hp & ->). apply Decimal_iff in Hu, Hp. subst. vm_compute. repeat constructor.
Qed.

(** The same directory, with the socket of an earlier session left in it. *)
Definition k_left : kernel := add_file sock (mkInode KSock 4242 0 128) k_root.

Example C22_example :
  let r := core_open SudoPair release to_root (pstate0 _) yes_world in
  Askable release to_root to_root_rq /\ SocketPath to_root_rq sock
  /\ code r = Some 1 /\ HonestPrintf (w_trace (snd r)) /\ Forall (Works 0 sock) (w_trace (snd r))
  /\ code (core_open SudoPair release to_root (pstate0 _) no_world) = Some (-1)
  /\ Forall (Works 0 sock) (w_trace (snd (core_open SudoPair release to_root (pstate0 _) no_world)))
  /\ Entitled release to_root_rq root /\ Ready release to_root_rq sock k_root
  /\ Ready release to_root_rq sock k_left
  /\ Numbered k_root /\ OpenWay root sock k_root /\ Numbered k_left /\ OpenWay root sock k_left.
Proof.
  assert (W : forall evs, forallb (works_check 0 sock) evs = true -> Forall (Works 0 sock) evs).
  { intros evs H. rewrite forallb_forall in H. apply Forall_forall. intros ev Hi. apply works_checked. apply H. exact Hi. }
  split; [exact to_root_askable|]. split; [exact (SocketPath_intro to_root_rq)|]. split; [vm_compute; reflexivity|].
  split; [apply seen_honest; vm_compute; repeat constructor|]. split; [apply W; vm_compute; reflexivity|].
  split; [vm_compute; reflexivity|]. split; [apply W; vm_compute; reflexivity|].
  split; [left; reflexivity|].
  assert (NR : Numbered k_root).
  { intros p n. cbn. destruct (comps_eqb p run_dir); [|discriminate]. intros E. injection E as <-. constructor. }
  assert (NL : Numbered k_left).
  { intros p n. unfold k_left, add_file. cbn [k_names k_next set_next set_names set_inodes]. unfold put_name.
    destruct (comps_eqb p sock); [intros E; injection E as <-; constructor|].
    intros E. apply NR in E. cbn in E. apply Nat.lt_lt_succ_r. exact E. }
  enough (X : Ready release to_root_rq sock k_root /\ Ready release to_root_rq sock k_left).
  { split; [exact (proj1 X)|]. split; [exact (proj2 X)|]. split; [exact NR|]. split; [apply way_checked; vm_compute; reflexivity|].
    split; [exact NL|apply way_checked; vm_compute; reflexivity]. }
  split; (split; [|exists 0%nat; split; [vm_compute; reflexivity|]; split; [reflexivity|]; split; [reflexivity|];
    split; [split; [discriminate|reflexivity]|]; split; reflexivity]).
  - left. reflexivity.
  - right. exists (k_next k_root). split; vm_compute; reflexivity.
Qed.
