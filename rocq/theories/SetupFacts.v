(** Failures while the socket is set up or the prompt is sent are fatal. *)
From Coq Require Import Lia.
From Verif Require Import Base BaseLemmas Num Path Template Options World Sys Io Socket Env Core Pair
  Spec TraceSpec SessionSpec PathProofs RequestProofs PairPure InputFacts RunProofs IoProofs SocketProofs
  FailFacts PairProofs KernelFacts OpenFacts AskFacts SplitFacts CleanupFacts TalkSpec TalkFacts.
Local Open Scope Z_scope.

Lemma sock_comps_ne rq : components (rq_socket_dir rq) <> sock_comps rq.
Proof.
  unfold sock_comps. intros E. apply (f_equal (@List.length _)) in E. rewrite app_length in E. cbn in E. lia.
Qed.

Lemma in_split_app {A} (x : A) l r a b : l ++ x :: r = a ++ b ->
  (exists m, a = l ++ x :: m /\ r = m ++ b) \/ (exists m, l = a ++ m /\ b = m ++ x :: r).
Proof.
  revert a. induction l as [|y l IH]; intros a E.
  - destruct a as [|z a]; cbn in E.
    + right. exists []. split; [reflexivity|]. symmetry. exact E.
    + injection E as -> ->. left. exists a. split; reflexivity.
  - destruct a as [|z a]; cbn in E.
    + right. exists (y :: l). split; [reflexivity|]. symmetry. exact E.
    + injection E as -> E. destruct (IH a E) as [(m & -> & ->)|(m & -> & ->)]; [left|right]; exists m; split; reflexivity.
Qed.

Section Setup.
Variables (pl : platform) (a : open_args) (rq : request).
Hypothesis D : Describes pl a rq.

Lemma unlink_sound p us ev er : UnlinkT p (Done (Ok tt)) us -> In ev us -> e_ans ev = AErr er -> e_call ev = CStat (components p).
Proof.
  intros H Hin He. inversion H as [|ev0 Hc _| | |ev0 n ev2 m Hs _ _ Hu _|]; subst.
  - destruct Hin as [<-|[]]. exact Hc.
  - destruct Hin as [<-|[<-|[]]]; [exact (proj1 Hs)|]. destruct Hu. congruence.
Qed.

Lemma unlink_calls p o us ev : UnlinkT p o us -> In ev us -> e_call ev = CStat (components p) \/ e_call ev = CUnlink (components p).
Proof. intros H Hin. apply UnlinkT_only in H. unfold Only in H. rewrite Forall_forall in H. exact (H _ Hin). Qed.

Lemma setup_sound e c mode os e1 ev e2 er : Matches e rq ->
  OpenT (pl_euid pl) (socket_path (pair0 e)) (socket_uid (pair0 e)) (socket_gid (pair0 e)) mode (Done (Ok c)) os ->
  os = e1 ++ ev :: e2 -> e_ans ev = AErr er ->
  e_call ev = CStat (sock_comps rq)
  \/ (e_call ev = CAccept /\ er = EINTR)
  \/ (e_call ev = CUnlink (sock_comps rq) /\ exists b, In b e1 /\ Creates (sock_comps rq) b).
Proof.
  intros M HO E He. destruct (OpenT_Ok _ _ _ _ _ _ _ HO) as (r & Er & O). rewrite Er in E. clear Er HO os.
  pose proof (socket_path_comps e rq M) as Eq.
  assert (NA : forall x y, Is x AOk y -> y <> ev) by (intros x y [_ H] ->; congruence).
  unfold run_events in E. symmetry in E. apply in_split_app in E as [(m & E & _)|(m & -> & E)].
  - (* before the bind *)
    assert (Hin : In ev (before_bind r)) by (rewrite E; apply in_or_app; right; left; reflexivity).
    unfold before_bind in Hin. destruct Hin as [X|Hin].
    { exfalso. eapply NA; [exact (op_stat _ _ _ _ _ _ _ O)|exact X]. }
    apply in_app_iff in Hin as [Hin|[X|[X|[]]]].
    + left. rewrite <- Eq. eapply unlink_sound; [exact (op_unl _ _ _ _ _ _ _ O)|exact Hin|exact He].
    + exfalso. eapply NA; [exact (op_um_is _ _ _ _ _ _ _ O)|exact X].
    + exfalso. subst ev. destruct (op_sk_is _ _ _ _ _ _ _ O). congruence.
  - destruct m as [|b m]; cbn [app] in E.
    { exfalso. injection E as <- _. destruct (op_bound _ _ _ _ _ _ _ O) as (_ & [g Hg] & _). congruence. }
    injection E as <- E. symmetry in E. change (m ++ ev :: e2 = before_accept r ++ (op_acc r :: after_accept r)) in E.
    apply in_split_app in E as [(m' & E & _)|(m' & -> & E)].
    + assert (Hin : In ev (before_accept r)) by (rewrite E; apply in_or_app; right; left; reflexivity).
      unfold before_accept in Hin. destruct Hin as [X|[X|[X|[X|Hin]]]].
      * exfalso. eapply NA; [exact (op_li_is _ _ _ _ _ _ _ O)|exact X].
      * exfalso. eapply NA; [exact (proj1 (op_chown _ _ _ _ _ _ _ O))|exact X].
      * exfalso. eapply NA; [exact (proj1 (op_chmod _ _ _ _ _ _ _ O))|exact X].
      * exfalso. subst ev. destruct (op_se_is _ _ _ _ _ _ _ O). congruence.
      * right. left. pose proof (op_is_intr _ _ _ _ _ _ _ O) as Hi. rewrite Forall_forall in Hi.
        destruct (Hi _ Hin) as [H1 H2]. split; [exact H1|]. congruence.
    + destruct m' as [|b' m']; cbn [app] in E.
      { exfalso. injection E as <- _. eapply NA; [exact (proj1 (op_acc_is _ _ _ _ _ _ _ O))|reflexivity]. }
      injection E as <- E. 
      assert (Hin : In ev (after_accept r)) by (rewrite E; apply in_or_app; right; left; reflexivity).
      unfold after_accept in Hin. destruct Hin as [X|Hin].
      { exfalso. eapply NA; [exact (op_cl_is _ _ _ _ _ _ _ O)|exact X]. }
      apply in_app_iff in Hin as [Hin|[X|[]]].
      * destruct (unlink_calls _ _ _ _ (op_unl2 _ _ _ _ _ _ _ O) Hin) as [X|X]; rewrite Eq in X; [left; exact X|].
        right. right. split; [exact X|]. exists (op_b r). split; [|apply (bound_Creates e rq M); exact (op_bound _ _ _ _ _ _ _ O)].
        apply in_or_app. right. left. reflexivity.
      * exfalso. eapply NA; [exact (op_um2_is _ _ _ _ _ _ _ O)|exact X].
Qed.

(** In the exchange with a peer that said yes, no call fails for good before
    the answer is read. *)
Lemma remote_sound c path sp e1 ev e2 er : RemoteT c path sp (Done (Ok tt)) (e1 ++ ev :: e2) ->
  reads e1 = [] -> e_ans ev = AErr er -> (exists f, e_call ev = CReadFile f) \/ er = EINTR.
Proof.
  intros H HR He. inversion H as [| | | | | | | | |d t es ws fs rs xs HL HW [HS HF] Hr HE HSr Ha]; subst.
  match goal with X : _ = e1 ++ ev :: e2 |- _ => symmetry in X; rename X into E end.
  apply in_split_app in E as [(m & -> & _)|(m & -> & E)].
  { left. apply LoadT_calls in HL. apply Forall_app in HL as [_ HL]. inversion HL; subst. eauto. }
  right. rewrite app_assoc in E. symmetry in E. apply in_split_app in E as [(m' & E & _)|(m' & -> & E)].
  { rewrite E in HF. apply Forall_app in HF as [_ HF]. inversion HF; subst. auto. }
  symmetry in E. apply in_split_app in E as [(m2 & -> & _)|(m2 & -> & E)].
  { apply Forall_app in HSr as [_ HSr]. inversion HSr; subst. auto. }
  exfalso. rewrite !reads_app in HR. apply app_eq_nil in HR as [_ HR]. apply app_eq_nil in HR as [_ HR].
  apply app_eq_nil in HR as [HR _]. destruct Hr as (x1 & y & x2 & -> & _ & _ & [Hc _] & _).
  rewrite reads_app in HR. apply app_eq_nil in HR as [_ HR]. cbn in HR. unfold is_read in HR. rewrite Hc in HR. discriminate.
Qed.

Lemma remote_read c path sp ev rs : RemoteT c path sp (Done (Ok tt)) rs -> In ev rs -> e_call ev = CRead c ->
  exists d, e_ans ev = AData d.
Proof.
  intros H Hin Hc. destruct (RemoteT_cases _ _ _ _ _ H) as [[_ X]|(pre & r & rest & t & X & Y)]; [congruence|].
  destruct (Y tt eq_refl) as (d & Hd & _).
  assert (HR : reads rs = [r]).
  { destruct X as [-> Hr _ _ H1 H2 _ _]. rewrite reads_app, H1. cbn. unfold is_read. rewrite Hr.
    fold is_read. f_equal. exact H2. }
  assert (In ev (reads rs)). { apply filter_In. split; [exact Hin|]. unfold is_read. rewrite Hc. reflexivity. }
  rewrite HR in H0. destruct H0 as [<-|[]]. eauto.
Qed.

Lemma fatal w z st' w' evs e1 ev e2 er q :
  core_open SudoPair pl a (pstate0 _) w = (Done (z, st'), w') -> w_trace w' = w_trace w ++ evs ->
  evs = e1 ++ ev :: e2 -> SocketPath rq q -> e_ans ev = AErr er -> Fatal q e1 (e_call ev) er ->
  z = -1 /\ st_plugin st' = None.
Proof.
  intros H T E Hq He HF. apply (SocketPath_unique rq) in Hq. subst q.
  assert (Hz : z = -1).
  2: { split; [exact Hz|]. subst z. eapply open_refused_state; eassumption. }
  destruct (open_codes pl a rq D w z st' w' H) as [->| ->]; [exfalso|reflexivity].
  destruct (split_given pl a rq D w _ w' evs H T) as [_ HS]. remember (Done (1, st')) as o eqn:Eo.
  assert (NL : forall es, Only LocalPrompt es -> In ev es -> False).
  { intros es X Hin. unfold Only in X. rewrite Forall_forall in X. apply X in Hin. destruct (e_call ev); cbn in *; tauto. }
  destruct HS as [o evs HL _|e mode oo ls os o post M HC NE NB HL Hm HO HA].
  { apply (NL evs HL). rewrite E. apply in_or_app. right. left. reflexivity. }
  destruct oo as [[c|er']| |]; cbn [AfterT] in HA.
  2: { destruct HA as [[->| ->] _]; discriminate. }
  2,3: destruct HA as [-> _]; discriminate.
  destruct HA as (ro & rs & fin & -> & HR & HFin).
  destruct ro as [[[]|er']| |].
  2: { destruct HFin as (od & ds & xs & _ & _ & _ & [[-> _]|[-> _]]); discriminate. }
  2: contradiction.
  2: { destruct HFin as [-> _]; discriminate. }
  destruct HFin as [_ ->]. rewrite app_nil_r in E.
  symmetry in E. apply in_split_app in E as [(m & -> & _)|(m & -> & E)].
  { apply (NL _ (LocalT_calls _ _ _ _ HL)). apply in_or_app. right. left. reflexivity. }
  symmetry in E. apply in_split_app in E as [(m' & -> & _)|(m' & -> & E)].
  - pose proof (OpenT_calls _ _ _ _ _ _ _ HO) as HSC. apply Only_app in HSC as [_ HSC]. apply Only_cons in HSC as [HSC _].
    destruct (setup_sound _ _ _ _ _ _ _ _ M HO eq_refl He) as [X|[[X Y]|[X (b & Hb & Cb)]]]; rewrite X in HF; cbn in HF.
    + apply HF. reflexivity.
    + contradiction.
    + unfold Only in HF. rewrite Forall_forall in HF. apply (HF b); [apply in_or_app; right; exact Hb|]. exact (proj1 Cb).
  - rewrite E in HR. assert (Hread : reads m' = [] -> (exists f, e_call ev = CReadFile f) \/ er = EINTR).
    { intros X. eapply remote_sound; [exact HR|exact X|exact He]. }
    pose proof (RemoteT_calls _ _ _ _ _ HR) as HCn. apply Only_app in HCn as [_ HCn]. apply Only_cons in HCn as [HCn _].
    destruct (e_call ev) eqn:Ec; cbn in HF, HCn; try contradiction.
    4: { subst. assert (Hin : In ev (m' ++ ev :: e2)) by (apply in_or_app; right; left; reflexivity).
         destruct (remote_read _ _ _ _ _ HR Hin Ec). congruence. }
    all: destruct HF as [H1 H2]; rewrite !reads_app in H2; apply app_eq_nil in H2 as [_ H2]; apply app_eq_nil in H2 as [_ H2];
      destruct (Hread H2) as [[f X]|X]; [discriminate|contradiction].
Qed.
End Setup.
