(** Sessions the pair has left. *)
From Verif Require Import Base BaseLemmas Num Path Version Options World Sys Io Socket Env Core Pair Spec TraceSpec SessionSpec CallbackSpec
  NumProofs RequestProofs RunProofs PairPure OpenFacts AskFacts SessionFacts CallbackFacts HistoryFacts Frontend FrontSpec FrontFacts LeaveSpec.
Local Open Scope Z_scope.

Lemma Gone_nothing c evs : Gone c evs -> delivered c evs = [].
Proof.
  intros G. induction evs as [|ev evs IH]; [reflexivity|].
  unfold delivered in *. cbn [flat_map]. rewrite IH by (intros x d HI; apply G; right; exact HI).
  rewrite app_nil_r. unfold delivered1. destruct (e_call ev) eqn:E; try reflexivity.
  destruct (Nat.eqb c conn) eqn:N.
  - apply Nat.eqb_eq in N. subst conn. destruct (G ev d (or_introl eq_refl) E) as (e & ->). reflexivity.
  - destruct (e_ans ev); rewrite ?N; reflexivity.
Qed.

Lemma unseen_step pl a rq st c ev : PairedSession pl a rq st c -> Unseen rq ev -> forall g w,
  front_step (exported SudoPair pl) ev (mkFront st [] g true) w = (Done (mkFront st [] (g ++ data_of ev) true), w).
Proof.
  intros HP HU g w. apply paired_state in HP as (e & M & HE & Hst). unfold front_step. cbn [f_live negb].
  destruct ev as [s d|l k|n]; cbn [Unseen] in HU; [|contradiction|].
  - assert (A : asked (exported SudoPair pl) (Moved s d) = Some (core_log SudoPair pl s d)) by (destruct s; reflexivity).
    rewrite A. cbn [f_off f_state f_given f_live].
    destruct (in_dec slot_eq_dec (slot_of (Moved s d)) []) as [[]|_].
    assert (R : core_log SudoPair pl s d st w = (Done 1, w)).
    { rewrite Hst. unfold core_log, catch_log, catch, bind. cbn [st_env st_plugin ps].
      pose proof (m_log _ _ M s) as HL. destruct HU as [HU| ->].
      - rewrite HL, HU. reflexivity.
      - destruct (hint Ttyin (en_command_info e)); reflexivity. }
    unfold bind. rewrite R. reflexivity.
  - cbn. rewrite app_nil_r. reflexivity.
Qed.

Lemma unseen_steps pl a rq st c h : PairedSession pl a rq st c -> Forall (Unseen rq) h -> forall g w,
  front_steps (exported SudoPair pl) h (mkFront st [] g true) w = (Done (mkFront st [] (g ++ flat_map data_of h) true), w).
Proof.
  intros HP. induction h as [|ev h IH]; intros HU g w; [cbn; rewrite app_nil_r; reflexivity|].
  inversion HU as [|x y U1 U2]; subst. cbn [front_steps]. unfold bind. rewrite (unseen_step pl a rq st c ev HP U1).
  rewrite (IH U2). cbn [flat_map]. rewrite app_assoc. reflexivity.
Qed.

Lemma Shows_nothing rq ev : Shows rq ev [] ->
  Unseen rq ev \/ exists s, ev = Moved s [] \/ (s = Stdin /\ exists d, ev = Moved s d /\ rq_log rq s = true).
Proof.
  intros H. inversion H as [s d O L E1 E2|s d O E1|l k sl sk D1 D2 E1 E2|n E1]; subst; cbn [Unseen]; auto.
  - right. exists s. auto.
  - destruct O as [O|O]; [auto|]. destruct s; auto; try (exfalso; apply O; unfold OutputStream; auto; fail).
    destruct (rq_log rq Stdin) eqn:L; [|auto]. right. exists Stdin. right. split; [reflexivity|]. exists d. auto.
Qed.

Lemma gone_steps pl a rq st c h g w o w' evs : PairedSession pl a rq st c ->
  front_steps (exported SudoPair pl) h (mkFront st [] g true) w = (o, w') -> w_trace w' = w_trace w ++ evs -> Gone c evs ->
  match o with
  | Done f => exists past rest, h = past ++ rest /\ f_given f = g ++ flat_map data_of past
      /\ Forall (fun ev => Unseen rq ev \/ exists s, ev = Moved s []) past
      /\ ((f_live f = true /\ rest = []) \/ (f_live f = false /\ exists ev rest', rest = ev :: rest' /\ ~ Unseen rq ev))
  | Panicked => False
  | Stopped => True
  end.
Proof.
  intros HP. revert g w evs. induction h as [|ev h IH]; intros g w evs H T G.
  - cbn in H. injection H as <- <-. exists [], []. cbn. rewrite app_nil_r. repeat split; auto.
  - cbn [front_steps] in H. unfold bind in H.
    destruct (front_step (exported SudoPair pl) ev (mkFront st [] g true) w) as [[f1| |] w1] eqn:E.
    + destruct (step_paired pl a rq st c ev g w _ w1 HP E) as (es & R & [(Hf & HS & HI)|(Hf & out & HS & HX)]).
      * subst f1. destruct (steps_paired pl a rq st c h HP _ _ _ _ H) as (es2 & R2 & _).
        assert (EV : evs = es ++ es2).
        { pose proof (Ran_trace _ _ _ _ (Ran_trans _ _ _ _ _ _ R R2)) as T2. rewrite T2 in T. apply app_inv_head in T. auto. }
        assert (G1 : delivered c es = []).
        { apply Gone_nothing. intros x d HX. apply G. rewrite EV. apply in_or_app. auto. }
        assert (G2 : Gone c es2).
        { intros x d HX. apply G. rewrite EV. apply in_or_app. auto. }
        specialize (IH _ _ _ H (Ran_trace _ _ _ _ R2) G2). destruct o as [f| |]; [|exact IH|exact I].
        destruct IH as (past & rest & -> & HG & HF & HE). exists (ev :: past), rest. split; [reflexivity|].
        split; [rewrite HG; cbn [flat_map]; rewrite app_assoc; reflexivity|]. split; [|exact HE].
        constructor; [|exact HF]. rewrite G1 in HS.
        destruct (Shows_nothing rq ev HS) as [U|(s & [->|(-> & d & -> & L)])]; [auto|right; exists s; reflexivity|].
        exfalso. exact (HI L d eq_refl).
      * subst f1. rewrite steps_dead in H by reflexivity. injection H as <- <-.
        exists [], (ev :: h). split; [reflexivity|]. cbn. rewrite app_nil_r. split; [reflexivity|]. split; [constructor|].
        right. split; [reflexivity|]. exists ev, h. split; [reflexivity|]. intros U.
        rewrite (unseen_step pl a rq st c ev HP U) in E. discriminate E.
    + destruct (step_paired pl a rq st c ev g w _ w1 HP E) as (es & R & F). destruct F.
    + injection H as <- <-. exact I.
Qed.

(** *** What the pair says once the session is open *)
Lemma step_writes pl a rq st c ev g w o w' : PairedSession pl a rq st c ->
  front_step (exported SudoPair pl) ev (mkFront st [] g true) w = (o, w') ->
  exists es, Ran 0 w es w' /\ Only (fun x => WritesTo c x \/ ErrorText x) es.
Proof.
  intros HP H. destruct (step_paired pl a rq st c ev g w o w' HP H) as (es & R & _). exists es. split; [exact R|].
  assert (D : Unseen rq ev \/ ~ Unseen rq ev).
  { destruct ev as [s d|l k|n]; cbn [Unseen]; [|auto|auto].
    destruct (rq_log rq s), s; auto; right; intros [X|X]; discriminate X. }
  destruct D as [U|U].
  { rewrite (unseen_step pl a rq st c ev HP U) in H. injection H as <- <-.
    rewrite <- (Ran_given _ _ _ [] _ R (eq_sym (app_nil_r _))). constructor. }
  assert (K : forall m, asked (exported SudoPair pl) ev = Some m ->
    exists o1, m st w = (o1, w')).
  { intros m HA. unfold front_step in H. cbn [f_live negb] in H. rewrite HA in H. cbn [f_state f_off f_given f_live] in H.
    destruct (in_dec slot_eq_dec (slot_of ev) []) as [[]|_]. unfold bind in H.
    destruct (m st w) as [[z| |] w1].
    - exists (Done z). destruct (z =? 1); [|destruct (z =? -1)]; unfold ret in H; injection H as _ <-; reflexivity.
    - exists Panicked. injection H as _ <-. reflexivity.
    - exists Stopped. injection H as _ <-. reflexivity. }
  pose proof (Ran_trace _ _ _ _ R) as T.
  destruct ev as [s d|l k|n]; cbn [Unseen] in U.
  - assert (L : rq_log rq s = true) by (destruct (rq_log rq s); [reflexivity|exfalso; auto]).
    destruct (K (core_log SudoPair pl s d)) as [o1 E]; [destruct s; reflexivity|].
    destruct s.
    + exfalso. auto.
    + apply (paired_output pl a rq st c Ttyout d w o1 w' es HP) in E; [exact (proj1 E)|unfold OutputStream; auto|exact L|exact T].
    + destruct (stdin_refused pl a rq st c d w o1 w' es HP L E T) as [X _]. revert X. apply Only_weaken. auto.
    + apply (paired_output pl a rq st c Stdout d w o1 w' es HP) in E; [exact (proj1 E)|unfold OutputStream; auto|exact L|exact T].
    + apply (paired_output pl a rq st c Stderr d w o1 w' es HP) in E; [exact (proj1 E)|unfold OutputStream; auto|exact L|exact T].
  - destruct (K (core_change_winsize SudoPair pl l k) eq_refl) as [o1 E].
    exact (proj1 (paired_winsize pl a rq st c l k _ _ w o1 w' es HP (to_dec_Decimal l) (to_dec_Decimal k) E T)).
  - exfalso. auto.
Qed.

Lemma steps_write pl a rq st c h : PairedSession pl a rq st c -> forall g w o w' evs,
  front_steps (exported SudoPair pl) h (mkFront st [] g true) w = (o, w') -> w_trace w' = w_trace w ++ evs ->
  Only (fun x => WritesTo c x \/ ErrorText x) evs.
Proof.
  intros HP. assert (K : forall g w o w', front_steps (exported SudoPair pl) h (mkFront st [] g true) w = (o, w') ->
    exists es, Ran 0 w es w' /\ Only (fun x => WritesTo c x \/ ErrorText x) es).
  { induction h as [|ev h IH]; intros g w o w' H.
    - cbn in H. injection H as <- <-. exists []. split; [apply Ran_refl|constructor].
    - cbn [front_steps] in H. unfold bind in H.
      destruct (front_step (exported SudoPair pl) ev (mkFront st [] g true) w) as [o1 w1] eqn:E.
      destruct (step_writes pl a rq st c ev g w o1 w1 HP E) as (es & R & HW).
      destruct (step_paired pl a rq st c ev g w o1 w1 HP E) as (es' & _ & Q). destruct o1 as [f| |].
      + destruct Q as [(-> & _)|(-> & _)].
        * destruct (IH _ _ _ _ H) as (es2 & R2 & HW2). exists (es ++ es2).
          split; [eapply Ran_trans; eassumption|]. apply Forall_app. auto.
        * rewrite steps_dead in H by reflexivity. injection H as <- <-. exists es. auto.
      + destruct Q.
      + injection H as <- <-. exists es. auto. }
  intros g w o w' evs H T. destruct (K g w o w' H) as (es & R & HW). rewrite (Ran_given _ _ _ _ _ R T). exact HW.
Qed.

Lemma only_writes pl a rq st c h g w o w' evs : PairedSession pl a rq st c ->
  front_steps (exported SudoPair pl) h (mkFront st [] g true) w = (o, w') -> w_trace w' = w_trace w ++ evs ->
  forall ev, In ev evs ->
    (exists d, e_call ev = CWrite c d) \/ e_call ev = CSigGet \/ (exists x, e_call ev = CSigSet x) \/ (exists d, e_call ev = CPrintf 3 d).
Proof.
  intros HP H T ev HI. pose proof (steps_write pl a rq st c h HP g w o w' evs H T) as K.
  unfold Only in K. rewrite Forall_forall in K. destruct (K ev HI) as [X|[d X]]; [|eauto].
  clear K HI H T. destruct (e_call ev); cbn [WritesTo] in X; try contradiction; subst; eauto.
Qed.
