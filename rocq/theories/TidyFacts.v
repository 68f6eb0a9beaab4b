(** A session leaves nothing behind. *)
From Coq Require Import Lia.
From Verif Require Import Base BaseLemmas Num Path Version Template Options World Sys Io Socket Env Core Pair
  Spec TraceSpec SessionSpec CallbackSpec RunProofs IoProofs SocketProofs FailFacts PairProofs KernelFacts OpenFacts AskFacts SplitFacts
  CleanupFacts FilesFacts RefusalFacts InitFacts SessionFacts CallbackFacts HistoryFacts CleanFacts AgainFacts FirstFacts SigFacts WatchSpec WatchFacts
  Frontend FrontSpec FrontFacts LeaveFacts SessionRun TidySpec PathProofs.
Local Open Scope Z_scope.

(** ** Signals *)
Lemma ss_of {A C} (m : M A) (g : A -> M C) : (forall x w, exists y, g x w = (Done y, w)) -> SigSafe (bind m g) -> SigSafe m.
Proof.
  intros Hg H w o w' E. destruct o as [x| |].
  - destruct (Hg x w') as [y Hy]. destruct (H w (Done y) w') as (evs & T & S); [unfold bind; rewrite E; exact Hy|].
    exists evs. split; [exact T|]. intros W. destruct (S W) as [S1 S2]. split; [intros _; apply S1; discriminate|exact S2].
  - destruct (H w Panicked w') as (evs & T & S); [unfold bind; rewrite E; reflexivity|].
    exists evs. split; [exact T|]. intros W. destruct (S W) as [S1 S2]. split; [intros _; apply S1; discriminate|exact S2].
  - destruct (H w Stopped w') as (evs & T & S); [unfold bind; rewrite E; reflexivity|].
    exists evs. split; [exact T|]. intros W. split; [congruence|exact (proj2 (S W))].
Qed.

Lemma ss_callback pl cb st : SigSafe (run_callback SudoPair pl cb st).
Proof.
  refine (ss_of _ _ _ (ss_history pl [cb] st)). intros [z st1] w. eexists. reflexivity.
Qed.

Lemma ss_asked pl ev ask st : asked (exported SudoPair pl) ev = Some ask -> SigSafe (ask st).
Proof.
  intros E. destruct (asked_callback _ _ _ E) as (cb & _ & He).
  refine (ss_of _ (fun z => ret (z, st)) _ _); [intros z w; eexists; reflexivity|].
  intros w o w' H. rewrite <- He in H. exact (ss_callback pl cb st w o w' H).
Qed.

Lemma ss_step pl ev f : SigSafe (front_step (exported SudoPair pl) ev f).
Proof.
  unfold front_step. destruct (negb (f_live f)); [apply ss_same; reflexivity|].
  destruct (asked (exported SudoPair pl) ev) as [ask|] eqn:E; [|apply ss_same; reflexivity].
  destruct (in_dec _ _ _); [apply ss_same; reflexivity|]. apply ss_bind; [exact (ss_asked _ _ _ _ E)|].
  intros z. destruct (z =? 1); [|destruct (z =? -1)]; apply ss_same; reflexivity.
Qed.

Lemma ss_steps pl h : forall f, SigSafe (front_steps (exported SudoPair pl) h f).
Proof.
  induction h as [|ev h IH]; intros f; cbn [front_steps]; [apply ss_same; reflexivity|]. apply ss_bind; [apply ss_step|exact IH].
Qed.

Lemma ss_close (pl : platform) x err st : SigSafe (core_close SudoPair x err st).
Proof. refine (ss_of _ (fun s => ret (0, s)) _ (ss_callback pl (CbClose x err) st)). intros s w. eexists. reflexivity. Qed.

Lemma ss_session pl a h x err : SigSafe (session (exported SudoPair pl) a h x err).
Proof.
  unfold session, front_run, front_close. cbn [exported t_open t_close]. apply ss_bind.
  - apply ss_bind; [exact (ss_callback pl (CbOpen a) _)|]. intros [z st]. destruct (z =? 1); [|destruct (z =? 0)].
    + apply ss_bind; [apply ss_steps|]. intros f. apply ss_same. reflexivity.
    + apply ss_bind; [|intros f; apply ss_same; reflexivity]. apply ss_same. intros w.
      destruct (empty_steps h (mkFront st [] [] true) w) as [f' ->]. reflexivity.
    + apply ss_same. reflexivity.
  - intros [f|]; [|apply ss_same; reflexivity]. apply ss_bind; [apply (ss_close pl)|]. intros s. apply ss_same. reflexivity.
Qed.

(** ** Connections *)
Lemma opened_own pl a rq o evs : OpenedT pl a rq o evs -> own_conns evs.
Proof.
  intros H. destruct H as [|e|e|e|e es r M NC NE N1 N2 NR R|e es M NC NE N1 N2 R|e o ls es M E NC NE NB HA]; try (intros ? ? []).
  - apply own_none. eapply printed_unused. exact R.
  - apply own_none. eapply printed_unused. exact R.
  - destruct HA as [e ls es HA|e ls es HA|e er ls es rs r HA NR R|e er ls es rs HA R|e c ls es HA].
    + exact (proj1 (asked_conns _ _ _ _ _ HA)).
    + exact (proj1 (asked_conns _ _ _ _ _ HA)).
    + rewrite app_assoc. apply own_app_end; [exact (proj1 (asked_conns _ _ _ _ _ HA))|eapply printed_unused; exact R].
    + rewrite app_assoc. apply own_app_end; [exact (proj1 (asked_conns _ _ _ _ _ HA))|eapply printed_unused; exact R].
    + exact (proj1 (asked_conns _ _ _ _ _ HA)).
Qed.

Lemma acts_conns acts : forall k, k_conns (fold_left act acts k) = k_conns k.
Proof. intros k. exact (acts_keep _ act_conns acts k). Qed.
Lemma acts_open acts : forall k, k_open (fold_left act acts k) = k_open k.
Proof. intros k. exact (acts_keep _ act_open acts k). Qed.

Lemma open_new euid k ts evs k' c : Linked euid k ts evs k' -> In c (k_open k') ->
  In c (k_open k) \/ exists acc, In acc evs /\ Is CAccept AOk acc /\ c = List.length (k_conns (e_pre acc)).
Proof.
  induction 1 as [|k acts a ca k1 k2 ts evs k' E1 E2 HL IH]; intros Hc; [left; exact Hc|].
  destruct (IH Hc) as [Hi|(acc & Hi & Ha & E)].
  2: { right. exists acc. split; [right; exact Hi|auto]. }
  assert (Ha : k_open k1 = k_open k) by (subst k1; apply acts_open).
  assert (K : In c (k_open k1) \/ (ca = CAccept /\ a = AOk /\ c = List.length (k_conns k1))).
  { subst k2. clear - Hi. destruct ca; try (rewrite effect_open in Hi by exact I; left; exact Hi).
    - cbn in Hi. destruct a; cbn in Hi; auto. destruct (k_listen k1) as [l|]; cbn in Hi; auto.
      destruct (l_queue l); cbn in Hi; auto. rewrite ?in_app_iff in Hi. cbn [In] in Hi. intuition auto.
    - cbn in Hi. destruct a; cbn in Hi; auto. left. apply in_remove in Hi as [Hi _]. exact Hi. }
  destruct K as [K|(-> & -> & K)]; [left; congruence|]. right. eexists. split; [left; reflexivity|]. split; [split; reflexivity|exact K].
Qed.

Lemma accepted_late euid k ts evs k' acc : Linked euid k ts evs k' -> In acc evs ->
  (List.length (k_conns k) <= List.length (k_conns (e_pre acc)))%nat.
Proof.
  intros L Hi. apply in_split in Hi as (e1 & e2 & ->). apply Linked_at in L as (t1 & acts & an & t2 & k1 & _ & L1 & Hpre & _).
  rewrite Hpre, acts_conns. exact (Linked_more _ _ _ _ _ L1).
Qed.

(** ** Names *)
Lemma path_dec (q p : path) : {q = p} + {q <> p}.
Proof. destruct (comps_eqb q p) eqn:E; [left; apply comps_eqb_eq|right; apply comps_eqb_neq]; exact E. Qed.

Lemma names_fate euid q k ts evs k' : Linked euid k ts evs k' -> QuietTurns ts -> (forall ev, In ev evs -> ~ Creates q ev) ->
  k_names k' q = None \/ k_names k' q = k_names k q.
Proof.
  induction 1 as [|k acts a ca k1 k2 ts evs k' E1 E2 HL IH]; intros HQ HN; [right; reflexivity|].
  apply Forall_inv in HQ as QA. apply Forall_inv_tail in HQ. cbn in QA.
  destruct (IH HQ (fun ev Hi => HN ev (or_intror Hi))) as [X|X]; [left; exact X|].
  assert (S1 : k_names k1 = k_names k) by (subst k1; exact (proj1 (connects_files _ QA _))).
  specialize (HN _ (or_introl eq_refl)). rewrite X, <- S1. clear X S1 IH HL E1.
  assert (K : k_names k2 q = None \/ k_names k2 q = k_names k1 q).
  { subst k2. clear - HN. destruct ca; try (right; match goal with |- k_names (effect euid ?c ?a ?k) _ = _ => rewrite (proj1 (effect_files euid c a k I)) end; reflexivity).
    - cbn. destruct a; cbn; auto. destruct (k_names k1 p) eqn:E; cbn; auto.
      destruct (path_dec q p) as [->|N]; [rewrite put_name_same|rewrite put_name_other by exact N]; auto.
    - assert (HC : p = q -> ~ Creates q (mkEvent (CBind q) a k1 (effect euid (CBind q) a k1))) by (intros ->; exact HN).
      cbn. destruct a; cbn; auto. destruct (k_listen k1) eqn:EL; cbn; auto. destruct (k_names k1 p) eqn:E; cbn; auto.
      destruct (dir_inode k1 p) eqn:ED; cbn; auto. destruct (path_dec q p) as [->|N]; [|rewrite put_name_other by exact N; auto].
      exfalso. apply (HC eq_refl). split; [reflexivity|]. split; [eexists; reflexivity|]. cbn. rewrite EL, ED. repeat split; congruence.
    - right. cbn. destr_act; reflexivity.
    - right. cbn. destr_act; reflexivity. }
  exact K.
Qed.

(** ** After the opening *)
Lemma close_ran pl a rq st c x err w st' w' : PairedSession pl a rq st c -> core_close SudoPair x err st w = (Done st', w') ->
  exists es, Ran 0 w es w' /\ Only (fun y => y = CShutdown c \/ y = CClose c) es /\ ~ In c (k_open (w_k w')).
Proof.
  intros HP H. pose proof HP as HP0. apply paired_state in HP as (e & M & HE & ->). pose proof H as H0.
  unfold core_close in H. cbn [ps st_plugin st_env pg_close SudoPair] in H.
  unfold bind, catch in H. destruct (pair_close (with_conn e c) w) as [[u| |] w1] eqn:E; try discriminate.
  1: assert (X : w1 = w') by (injection H; auto). 2: assert (X : w1 = w') by (injection H; auto).
  all: subst w1; destruct (pair_close_yields 0 e c w _ w' E) as (es & R & _); exists es; (split; [exact R|]);
    destruct (paired_close_gone pl a rq _ c x err w _ w' es HP0 H0 (Ran_trace _ _ _ _ R)) as [[X _]|(_ & G & s1 & s2 & cl & -> & C1 & C2 & [C3 _])];
    [discriminate X|]; (split; [|exact G]); onl; auto.
Qed.

Lemma later_keeps (C : call -> Prop) k ts es k' : Linked 0 k ts es k' -> QuietTurns ts ->
  Only C es -> (forall c, C c -> NoFiles c /\ NotUmask c /\ NotSock c) ->
  SameFiles k k' /\ k_umask k' = k_umask k /\ (k_listen k = None -> k_listen k' = None).
Proof.
  intros L Q O H. split; [|split].
  - eapply Linked_files; [exact L|exact Q|]. revert O. apply Only_weaken. intros c Hc. exact (proj1 (H c Hc)).
  - eapply Linked_umask; [exact L|]. revert O. apply Only_weaken. intros c Hc. exact (proj1 (proj2 (H c Hc))).
  - intros HL. apply listening_None in HL. apply listening_None. rewrite <- HL. eapply Linked_listening; [exact L|].
    revert O. apply Only_weaken. intros c Hc. exact (proj2 (proj2 (H c Hc))).
Qed.

Lemma Fresh_open pl a rq w z st w1 eo q : Describes pl a rq -> SocketPath rq q ->
  core_open SudoPair pl a (pstate0 _) w = (Done (z, st), w1) -> w_trace w1 = w_trace w ++ eo ->
  ConnectOnly w -> Fresh (w_k w) -> Forall SelectOk eo -> Forall FdSmall eo -> CanTidy q eo ->
  k_umask (w_k w1) = k_umask (w_k w) /\ k_listen (w_k w1) = None
  /\ (forall p, p <> q -> k_names (w_k w1) p = k_names (w_k w) p)
  /\ (k_names (w_k w1) q = None \/ k_names (w_k w1) q = k_names (w_k w) q)
  /\ (forall m, m <> k_next (w_k w) -> k_inodes (w_k w1) m = k_inodes (w_k w) m)
  /\ (forall c, In c (k_open (w_k w)) -> In c (k_open (w_k w1)))
  /\ (forall c, In c (k_open (w_k w1)) -> In c (k_open (w_k w))
        \/ exists acc, In acc eo /\ Is CAccept AOk acc /\ c = List.length (k_conns (e_pre acc))).
Proof.
  intros D HP E T Q (F1 & F2 & F3) HS HF HT.
  destruct (opened_given pl a rq D w _ w1 eo E T) as [R HO]. destruct (Ran_quiet _ _ _ _ Q R) as (ts & HQ & L).
  split; [exact (umask_restored pl a rq w _ w1 eo D E T z st eq_refl F2 HS HF)|].
  split; [exact (listener_closed pl a rq w _ w1 eo D E T z st eq_refl F1)|].
  destruct (files_untouched pl a rq w _ w1 eo D E T z st q eq_refl Q HP) as (N1 & N2 & _).
  split; [exact N1|]. split.
  { assert (K : (exists b, In b eo /\ Creates q b) \/ forall b, In b eo -> ~ Creates q b).
    { assert (DC : forall b, Creates q b \/ ~ Creates q b).
      { intros b. unfold Creates. destruct (e_call b); try (right; intros [X _]; discriminate X).
        destruct (path_dec p q) as [->|N]; [|right; intros [X _]; congruence].
        destruct (e_ans b); try (right; intros (_ & [g X] & _); discriminate X).
        destruct (k_listen (e_pre b)); [|right; intros (_ & _ & X & _); congruence].
        destruct (k_names (e_pre b) q); [right; intros (_ & _ & _ & X & _); discriminate X|].
        destruct (dir_inode (e_pre b) q); [|right; intros (_ & _ & _ & _ & X); congruence].
        left. split; [reflexivity|]. split; [eexists; reflexivity|]. repeat split; discriminate. }
      clear - DC. induction eo as [|b l IH]; [right; intros ? []|]. destruct (DC b) as [X|X]; [left; exists b; split; [left; reflexivity|exact X]|].
      destruct IH as [(b' & Hi & Y)|IH]; [left; exists b'; split; [right; exact Hi|exact Y]|].
      right. intros b' [<-|Hi]; [exact X|exact (IH b' Hi)]. }
    destruct K as [(b & Hi & HC)|K]; [|exact (names_fate _ q _ _ _ _ L HQ K)].
    apply in_split in Hi as (e1 & e2 & Ee). left.
    exact (proj2 (created_gone pl a rq w _ w1 eo D E T z st q e1 b e2 eq_refl Q HS HF Ee HC (HT e1 b e2 Ee HC))). }
  split; [exact N2|]. split.
  - intros c Hc. eapply open_stays; [exact L| |exact Hc]. intros ev Hi Ec.
    destruct (opened_own _ _ _ _ _ HO ev c Hi) as (acc & Ha & _ & ->); [rewrite Ec; reflexivity|].
    pose proof (accepted_late _ _ _ _ _ _ L Ha). specialize (F3 _ Hc). lia.
  - intros c Hc. exact (open_new _ _ _ _ _ c L Hc).
Qed.

Lemma session_restored pl a rq h x err w r w' evs q :
  Describes pl a rq -> ~ Exempt rq -> rq_command rq <> [] -> SocketPath rq q ->
  session (exported SudoPair pl) a h x err w = (Done r, w') -> w_trace w' = w_trace w ++ evs ->
  ConnectOnly w -> Fresh (w_k w) -> SigactionWorks evs -> Forall SelectOk evs -> Forall FdSmall evs -> CanTidy q evs ->
  Restored q (w_k w) (w_k w').
Proof.
  intros D NE NC HP H T Q F HG HS HF HT.
  assert (SG : k_sigint (w_k w') = k_sigint (w_k w)).
  { apply (safe_given _ _ _ _ _ (ss_session pl a h x err) H T HG). discriminate. }
  assert (TidyApp : forall e1 e2, evs = e1 ++ e2 -> CanTidy q e1).
  { intros e1 e2 Ee f1 b f2 E1 HC ev Hi. apply (HT f1 b (f2 ++ e2)); [|exact HC|apply in_or_app; left; exact Hi].
    rewrite Ee, E1, <- app_assoc. reflexivity. }
  unfold session, front_run in H. cbn [exported t_open] in H. unfold bind in H.
  destruct (core_open SudoPair pl a (pstate0 SudoPair) w) as [[[z st]| |] w1] eqn:E; [|discriminate..].
  destruct (opened pl a rq D w _ w1 E) as (eo & R & HO). pose proof (Ran_trace _ _ _ _ R) as T1.
  destruct (open_codes pl a rq D w z st w1 E) as [->| ->].
  2: { change (-1 =? 1) with false in H. change (-1 =? 0) with false in H. unfold ret in H. cbv beta iota in H.
       injection H as _ <-. rewrite (Ran_given _ _ _ _ _ R T) in *.
       destruct (Fresh_open pl a rq w _ st w1 eo q D HP E T1 Q F HS HF HT) as (A1 & A2 & A3 & A4 & A5 & A6 & A7).
       constructor; auto. intros c. split; [|apply A6]. intros Hc. destruct (A7 c Hc) as [X|(acc & Hi & Ha & ->)]; [exact X|].
       destruct (refused_closes pl a rq w _ w1 eo D E T1 (-1) st acc eq_refl ltac:(discriminate) Hi Ha) as [_ X]. contradiction. }
  change (1 =? 1) with true in H. cbv beta iota in H.
  destruct (approval_needed pl a rq w st w1 eo D NE NC E T1) as [c A].
  assert (PS : PairedSession pl a rq st c).
  { split; [exact D|]. split; [exact NE|]. split; [exact NC|]. exists w, w1, eo. auto. }
  destruct (front_steps (exported SudoPair pl) h (mkFront st [] [] true) w1) as [[f| |] w2] eqn:F2; [|discriminate..].
  destruct (steps_paired pl a rq st c h PS [] w1 _ w2 F2) as (es & R2 & Hst & _).
  pose proof (steps_write pl a rq st c h PS [] w1 _ w2 es F2 (Ran_trace _ _ _ _ R2)) as W2.
  unfold ret in H. cbv beta iota in H. unfold front_close in H. cbn [exported t_close] in H. rewrite Hst in H.
  destruct (core_close SudoPair x err st w2) as [[st3| |] w3] eqn:E3; [|discriminate..]. cbv beta iota in H.
  assert (X : w3 = w') by (injection H; auto). subst w3. clear H.
  destruct (close_ran pl a rq st c x err w2 st3 w' PS E3) as (cs & R3 & W3 & NI).
  assert (Ee : evs = eo ++ es ++ cs).
  { rewrite (Ran_trace _ _ _ _ R3), (Ran_trace _ _ _ _ R2), T1, <- !app_assoc in T. symmetry. exact (app_inv_head _ _ _ T). }
  assert (HSo : Forall SelectOk eo) by (rewrite Ee in HS; apply Forall_app in HS; exact (proj1 HS)).
  assert (HFo : Forall FdSmall eo) by (rewrite Ee in HF; apply Forall_app in HF; exact (proj1 HF)).
  destruct (Fresh_open pl a rq w _ st w1 eo q D HP E T1 Q F HSo HFo (TidyApp _ _ Ee)) as (A1 & A2 & A3 & A4 & A5 & A6 & A7).
  assert (Q1 : ConnectOnly w1).
  { destruct R as (t1 & S1 & _). unfold ConnectOnly in *. rewrite S1 in Q. apply Forall_app in Q. exact (proj2 Q). }
  assert (Q2 : ConnectOnly w2).
  { destruct R2 as (t2 & S2 & _). unfold ConnectOnly in *. rewrite S2 in Q1. apply Forall_app in Q1. exact (proj2 Q1). }
  destruct (Ran_quiet _ _ _ _ Q1 R2) as (t2 & QT2 & L2). destruct (Ran_quiet _ _ _ _ Q2 R3) as (t3 & QT3 & L3).
  destruct (later_keeps _ _ _ _ _ L2 QT2 W2) as ((B1 & B2 & B3) & B4 & B5).
  { intros y [Hy|[d ->]]; [destruct y; cbn in Hy; try contradiction; cbn; auto|cbn; auto]. }
  destruct (later_keeps _ _ _ _ _ L3 QT3 W3) as ((C1 & C2 & C3) & C4 & C5).
  { intros y [->| ->]; cbn; auto. }
  assert (Old : forall n, In n (k_open (w_k w')) -> In n (k_open (w_k w1))).
  { intros n Hn. destruct (open_new _ _ _ _ _ n L3 Hn) as [X|(acc & Hi & Ha & _)].
    - destruct (open_new _ _ _ _ _ n L2 X) as [Y|(acc & Hi & Ha & _)]; [exact Y|exfalso].
      refine (only_not _ _ _ _ _ W2 _ Hi Ha). intros [[]|[d Y]]. discriminate Y.
    - exfalso. refine (only_not _ _ _ _ _ W3 _ Hi Ha). intros [Y|Y]; discriminate Y. }
  destruct A as (q' & e1 & b & e2 & acc & e3 & rd & e4 & peer & _ & EA & _ & (HA & Hc & _) & _).
  assert (EA' : eo = (e1 ++ b :: e2) ++ acc :: (e3 ++ rd :: e4)) by (rewrite EA, <- app_assoc; reflexivity).
  destruct (one_only' pl a rq w _ w1 eo _ acc _ D E T1 EA' HA) as [O1 O2].
  destruct R as (t1 & S1 & _ & L1).
  constructor; auto.
  - congruence.
  - intros n. split.
    + intros Hn. destruct (A7 n (Old n Hn)) as [X|(acc' & Hi & Ha & En)]; [exact X|exfalso].
      assert (Eacc : acc' = acc).
      { rewrite EA' in Hi. apply in_app_iff in Hi as [Hi|[Hi|Hi]]; [destruct (O1 _ Hi Ha)|auto|].
        exfalso. refine (only_not _ _ _ _ _ O2 _ Hi Ha). intros (_ & _ & _ & Y). exact (Y eq_refl). }
      subst acc'. apply NI. rewrite Hc, <- En. exact Hn.
    + intros Hn. assert (NC' : n <> c).
      { intros ->. destruct F as (_ & _ & F3). specialize (F3 _ Hn). rewrite Hc in F3.
        assert (Hia : In acc eo) by (rewrite EA'; apply in_elt). pose proof (accepted_late _ _ _ _ _ _ L1 Hia). lia. }
      eapply open_stays; [exact L3| |eapply open_stays; [exact L2| |exact (A6 n Hn)]].
      * intros ev Hi Ev. unfold Only in W3. rewrite Forall_forall in W3. destruct (W3 ev Hi) as [Y|Y]; congruence.
      * intros ev Hi Ev. unfold Only in W2. rewrite Forall_forall in W2. destruct (W2 ev Hi) as [Y|[d Y]]; [|congruence].
        rewrite Ev in Y. destruct Y.
  - intros p Np. rewrite C1, B1. exact (A3 p Np).
  - rewrite C1, B1. exact A4.
  - intros m Nm. rewrite C2, B2. exact (A5 m Nm).
Qed.

(** ** Whatever other processes do *)
Lemma process_keeps (C : call -> Prop) k ts es k' : Linked 0 k ts es k' ->
  Only C es -> (forall c, C c -> NotUmask c /\ NotSock c) ->
  k_umask k' = k_umask k /\ (k_listen k = None -> k_listen k' = None).
Proof.
  intros L O H. split.
  - eapply Linked_umask; [exact L|]. revert O. apply Only_weaken. intros c Hc. exact (proj1 (H c Hc)).
  - intros HL. apply listening_None in HL. apply listening_None. rewrite <- HL. eapply Linked_listening; [exact L|].
    revert O. apply Only_weaken. intros c Hc. exact (proj2 (H c Hc)).
Qed.

Lemma process_open pl a rq w z st w1 eo : Describes pl a rq ->
  core_open SudoPair pl a (pstate0 _) w = (Done (z, st), w1) -> w_trace w1 = w_trace w ++ eo ->
  Fresh (w_k w) -> Forall SelectOk eo -> Forall FdSmall eo ->
  k_umask (w_k w1) = k_umask (w_k w) /\ k_listen (w_k w1) = None
  /\ (forall c, In c (k_open (w_k w)) -> In c (k_open (w_k w1)))
  /\ (forall c, In c (k_open (w_k w1)) -> In c (k_open (w_k w))
        \/ exists acc, In acc eo /\ Is CAccept AOk acc /\ c = List.length (k_conns (e_pre acc))).
Proof.
  intros D E T (F1 & F2 & F3) HS HF.
  destruct (opened_given pl a rq D w _ w1 eo E T) as [R HO]. destruct R as (ts & _ & _ & L).
  split; [exact (umask_restored pl a rq w _ w1 eo D E T z st eq_refl F2 HS HF)|].
  split; [exact (listener_closed pl a rq w _ w1 eo D E T z st eq_refl F1)|].
  split.
  - intros c Hc. eapply open_stays; [exact L| |exact Hc]. intros ev Hi Ec.
    destruct (opened_own _ _ _ _ _ HO ev c Hi) as (acc & Ha & _ & ->); [rewrite Ec; reflexivity|].
    pose proof (accepted_late _ _ _ _ _ _ L Ha). specialize (F3 _ Hc). lia.
  - intros c Hc. exact (open_new _ _ _ _ _ c L Hc).
Qed.

Lemma session_process pl a rq h x err w r w' evs :
  Describes pl a rq -> ~ Exempt rq -> rq_command rq <> [] ->
  session (exported SudoPair pl) a h x err w = (Done r, w') -> w_trace w' = w_trace w ++ evs ->
  Fresh (w_k w) -> SigactionWorks evs -> Forall SelectOk evs -> Forall FdSmall evs ->
  ProcessRestored (w_k w) (w_k w').
Proof.
  intros D NE NC H T F HG HS HF.
  assert (SG : k_sigint (w_k w') = k_sigint (w_k w)).
  { apply (safe_given _ _ _ _ _ (ss_session pl a h x err) H T HG). discriminate. }
  unfold session, front_run in H. cbn [exported t_open] in H. unfold bind in H.
  destruct (core_open SudoPair pl a (pstate0 SudoPair) w) as [[[z st]| |] w1] eqn:E; [|discriminate..].
  destruct (opened pl a rq D w _ w1 E) as (eo & R & HO). pose proof (Ran_trace _ _ _ _ R) as T1.
  destruct (open_codes pl a rq D w z st w1 E) as [->| ->].
  2: { change (-1 =? 1) with false in H. change (-1 =? 0) with false in H. unfold ret in H. cbv beta iota in H.
       injection H as _ <-. rewrite (Ran_given _ _ _ _ _ R T) in *.
       destruct (process_open pl a rq w _ st w1 eo D E T1 F HS HF) as (A1 & A2 & A6 & A7).
       split; [exact A1|]. split; [exact SG|]. split; [exact A2|].
       intros c. split; [|apply A6]. intros Hc. destruct (A7 c Hc) as [X|(acc & Hi & Ha & ->)]; [exact X|].
       destruct (refused_closes pl a rq w _ w1 eo D E T1 (-1) st acc eq_refl ltac:(discriminate) Hi Ha) as [_ X]. contradiction. }
  change (1 =? 1) with true in H. cbv beta iota in H.
  destruct (approval_needed pl a rq w st w1 eo D NE NC E T1) as [c A].
  assert (PS : PairedSession pl a rq st c).
  { split; [exact D|]. split; [exact NE|]. split; [exact NC|]. exists w, w1, eo. auto. }
  destruct (front_steps (exported SudoPair pl) h (mkFront st [] [] true) w1) as [[f| |] w2] eqn:F2; [|discriminate..].
  destruct (steps_paired pl a rq st c h PS [] w1 _ w2 F2) as (es & R2 & Hst & _).
  pose proof (steps_write pl a rq st c h PS [] w1 _ w2 es F2 (Ran_trace _ _ _ _ R2)) as W2.
  unfold ret in H. cbv beta iota in H. unfold front_close in H. cbn [exported t_close] in H. rewrite Hst in H.
  destruct (core_close SudoPair x err st w2) as [[st3| |] w3] eqn:E3; [|discriminate..]. cbv beta iota in H.
  assert (X : w3 = w') by (injection H; auto). subst w3. clear H.
  destruct (close_ran pl a rq st c x err w2 st3 w' PS E3) as (cs & R3 & W3 & NI).
  assert (Ee : evs = eo ++ es ++ cs).
  { rewrite (Ran_trace _ _ _ _ R3), (Ran_trace _ _ _ _ R2), T1, <- !app_assoc in T. symmetry. exact (app_inv_head _ _ _ T). }
  assert (HSo : Forall SelectOk eo) by (rewrite Ee in HS; apply Forall_app in HS; exact (proj1 HS)).
  assert (HFo : Forall FdSmall eo) by (rewrite Ee in HF; apply Forall_app in HF; exact (proj1 HF)).
  destruct (process_open pl a rq w _ st w1 eo D E T1 F HSo HFo) as (A1 & A2 & A6 & A7).
  destruct R2 as (t2 & _ & _ & L2). destruct R3 as (t3 & _ & _ & L3). destruct R as (t1 & _ & _ & L1).
  destruct (process_keeps _ _ _ _ _ L2 W2) as (B4 & B5).
  { intros y [Hy|[d ->]]; [destruct y; cbn in Hy; try contradiction; cbn; auto|cbn; auto]. }
  destruct (process_keeps _ _ _ _ _ L3 W3) as (C4 & C5).
  { intros y [->| ->]; cbn; auto. }
  assert (Old : forall n, In n (k_open (w_k w')) -> In n (k_open (w_k w1))).
  { intros n Hn. destruct (open_new _ _ _ _ _ n L3 Hn) as [X|(acc & Hi & Ha & _)].
    - destruct (open_new _ _ _ _ _ n L2 X) as [Y|(acc & Hi & Ha & _)]; [exact Y|exfalso].
      refine (only_not _ _ _ _ _ W2 _ Hi Ha). intros [[]|[d Y]]. discriminate Y.
    - exfalso. refine (only_not _ _ _ _ _ W3 _ Hi Ha). intros [Y|Y]; discriminate Y. }
  destruct A as (q' & e1 & b & e2 & acc & e3 & rd & e4 & peer & _ & EA & _ & (HA & Hc & _) & _).
  assert (EA' : eo = (e1 ++ b :: e2) ++ acc :: (e3 ++ rd :: e4)) by (rewrite EA, <- app_assoc; reflexivity).
  destruct (one_only' pl a rq w _ w1 eo _ acc _ D E T1 EA' HA) as [O1 O2].
  split; [congruence|]. split; [exact SG|]. split; [auto|]. intros n. split.
  - intros Hn. destruct (A7 n (Old n Hn)) as [X|(acc' & Hi & Ha & En)]; [exact X|exfalso].
    assert (Eacc : acc' = acc).
    { rewrite EA' in Hi. apply in_app_iff in Hi as [Hi|[Hi|Hi]]; [destruct (O1 _ Hi Ha)|auto|].
      exfalso. refine (only_not _ _ _ _ _ O2 _ Hi Ha). intros (_ & _ & _ & Y). exact (Y eq_refl). }
    subst acc'. apply NI. rewrite Hc, <- En. exact Hn.
  - intros Hn. assert (NC' : n <> c).
    { intros ->. destruct F as (_ & _ & F3). specialize (F3 _ Hn). rewrite Hc in F3.
      assert (Hia : In acc eo) by (rewrite EA'; apply in_elt). pose proof (accepted_late _ _ _ _ _ _ L1 Hia). lia. }
    eapply open_stays; [exact L3| |eapply open_stays; [exact L2| |exact (A6 n Hn)]].
    + intros ev Hi Ev. unfold Only in W3. rewrite Forall_forall in W3. destruct (W3 ev Hi) as [Y|Y]; congruence.
    + intros ev Hi Ev. unfold Only in W2. rewrite Forall_forall in W2. destruct (W2 ev Hi) as [Y|[d Y]]; [|congruence].
      rewrite Ev in Y. destruct Y.
Qed.
