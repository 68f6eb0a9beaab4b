(** The plugin accepts only after select said that somebody is there. *)
From Verif Require Import Base BaseLemmas Num Path Template Options World Sys Io Socket Env Core Pair
  Spec TraceSpec SessionSpec PathProofs RequestProofs PairPure InputFacts RunProofs IoProofs SocketProofs PairProofs
  KernelFacts OpenFacts AskFacts MiscFacts SplitFacts CleanupFacts FilesFacts RefusalFacts.
Local Open Scope Z_scope.

Definition AfterSelect (es : list event) : Prop := forall pre ac post,
  es = pre ++ ac :: post -> e_call ac = CAccept ->
  exists pre1 se mid, pre = pre1 ++ se :: mid /\ Is CSelect (ANum 1) se /\ Only (fun c => c = CAccept) mid.

Lemma AS_only (C : call -> Prop) es : Only C es -> ~ C CAccept -> AfterSelect es.
Proof.
  intros HC HN pre ac post -> Hac. exfalso. unfold Only in HC. rewrite Forall_forall in HC.
  apply HN. rewrite <- Hac. apply HC. apply in_elt.
Qed.

Lemma AS_app e1 e2 : AfterSelect e1 -> AfterSelect e2 -> AfterSelect (e1 ++ e2).
Proof.
  intros H1 H2 pre ac post E Hac. revert pre E H1.
  assert (K : forall e1 pre, e1 ++ e2 = pre ++ ac :: post ->
    (exists post1, e1 = pre ++ ac :: post1) \/ exists pre2, pre = e1 ++ pre2 /\ e2 = pre2 ++ ac :: post).
  { clear -e2. intros e1. induction e1 as [|x e1 IH]; intros [|y pre] E; cbn in E.
    - right. exists []. auto.
    - right. exists (y :: pre). auto.
    - injection E as -> E. left. exists e1. reflexivity.
    - injection E as -> E. destruct (IH pre E) as [[p ->]|(p & -> & ->)]; [left; exists p; reflexivity|right; exists p; auto]. }
  intros pre E H1. destruct (K e1 pre E) as [[post1 ->]|(pre2 & -> & ->)].
  - exact (H1 pre ac post1 eq_refl Hac).
  - destruct (H2 pre2 ac post eq_refl Hac) as (p & se & mid & -> & Hs & Hm). exists (e1 ++ p), se, mid.
    split; [rewrite <- app_assoc; reflexivity|auto].
Qed.

Lemma AS_serve fd p uid gid mode o es : ServeT fd p uid gid mode o es -> AfterSelect es.
Proof.
  intros HS. destruct HS as [|e0 co Hco Hf|co Hco|e0 co cm Hco Hcm Hf|co cm Hco Hcm Hge|co cm Hco Hcm Hlt|e0 e' co cm se' Hco Hcm Hlt Hs|n co cm se' Hco Hcm Hlt Hn Hs|o1 co cm se' es Hco Hcm Hlt Hs HAc].
  1-8: eapply (AS_only (fun c => c <> CAccept)); [|congruence]; onl; intros X; revert X; is_call; congruence.
  change (co :: cm :: se' :: es) with ([co; cm] ++ se' :: es). apply AS_app.
  - eapply (AS_only (fun c => c <> CAccept)); [|congruence]; onl; intros X; revert X; is_call; congruence.
  - apply AcceptT_only in HAc. intros pre ac post E Hac. destruct pre as [|x pre]; cbn in E; injection E as -> E.
    + destruct Hs as [X _]. congruence.
    + exists [], x, pre. split; [reflexivity|]. split; [exact Hs|]. rewrite E in HAc. apply Forall_app in HAc. apply HAc.
Qed.

Lemma AS_open euid p uid gid mode o es : OpenT euid p uid gid mode o es -> AfterSelect es.
Proof.
  assert (K1 : forall o es, EnforceT euid p o es -> AfterSelect es).
  { intros o0 es0 H. eapply AS_only; [eapply EnforceT_stat; exact H|]. intros [d X]. discriminate X. }
  assert (K2 : forall o es, UnlinkT p o es -> AfterSelect es).
  { intros o0 es0 H. eapply AS_only; [eapply UnlinkT_only; exact H|]. intros [X|X]; discriminate X. }
  assert (K3 : forall o es, BindT p o es -> AfterSelect es).
  { intros o0 es0 H. eapply AS_only; [eapply BindT_only; exact H|]. intros [X|[X|[X|X]]]; discriminate X. }
  assert (KI : forall ev c a, Is c a ev -> c <> CAccept -> AfterSelect [ev]).
  { intros ev c a [E _] H. eapply (AS_only (fun x => x = c)); [onl; exact E|congruence]. }
  assert (K4 : forall old A (r : A) o es, TailT p old r o es -> AfterSelect es).
  { intros old A r o0 es0 H. destruct H as [us HU|u us HU|u us um HU Hum]; try (eapply K2; eassumption).
    apply AS_app; [eapply K2; eassumption|eapply KI; [exact Hum|discriminate]]. }
  assert (KC : forall x l, AfterSelect [x] -> AfterSelect l -> AfterSelect (x :: l)) by (intros x l; exact (AS_app [x] l)).
  intros HO. destruct HO as [es HE|er0 es HE|es us HE HU|er0 es us HE HU|es us HE HU|es us um o0 ms HE HU Hum HMk];
    try (eapply K1; eassumption); try (apply AS_app; [eapply K1; eassumption|eapply K2; eassumption]).
  apply AS_app; [eapply K1; eassumption|]. apply AS_app; [eapply K2; eassumption|].
  apply KC; [eapply KI; [exact Hum|discriminate]|].
  destruct HMk as [eb HB|er0 o0 eb ts HB HTl|fd eb ss HB HS|fd eb ss HB HS|fd eb ss cl HB HS Hcl|fd r eb ss HB HS|fd r o0 eb ss cl ts HB HS Hcl HTl];
    try (eapply K3; eassumption); (apply AS_app; [eapply K3; eassumption|]); try (eapply K4; eassumption); try (eapply AS_serve; eassumption).
  - apply AS_app; [eapply AS_serve; eassumption|eapply KI; [exact Hcl|discriminate]].
  - apply AS_app; [eapply AS_serve; eassumption|]. apply KC; [eapply KI; [exact Hcl|discriminate]|eapply K4; eassumption].
Qed.

Lemma waits pl a rq w o w' evs : Describes pl a rq -> core_open SudoPair pl a (pstate0 _) w = (o, w') ->
  w_trace w' = w_trace w ++ evs -> forall pre ac post, evs = pre ++ ac :: post -> e_call ac = CAccept ->
  exists pre1 se mid, pre = pre1 ++ se :: mid /\ Is CSelect (ANum 1) se /\ Only (fun c => c = CAccept) mid.
Proof.
  intros D HR HT. change (AfterSelect evs). destruct (split_given pl a rq D w o w' evs HR HT) as [_ S].
  destruct S as [o' es HL _|e mode oo ls os o' post M _ _ NB HLo HM HO HA].
  - eapply AS_only; [exact HL|]. intros [].
  - apply AS_app; [eapply AS_only; [exact (LocalT_calls _ _ _ _ HLo)|intros []]|].
    apply AS_app; [eapply AS_open; exact HO|]. eapply AS_only; [exact (AfterT_calls _ _ _ _ HA)|intros []].
Qed.
