(** At most one connection is accepted; what follows its acceptance. *)
From Coq Require Import Lia.
From Verif Require Import Base BaseLemmas Num Path Template Options World Sys Io Socket Env Core Pair
  Spec TraceSpec SessionSpec PathProofs RequestProofs PairPure InputFacts RunProofs IoProofs SocketProofs PairProofs
  KernelFacts OpenFacts AskFacts MiscFacts SplitFacts CleanupFacts ShapeFacts.
Local Open Scope Z_scope.

Definition Acc (ev : event) : Prop := Is CAccept AOk ev.
Definition Took (ev : event) : Prop := exists c, accepted c ev.
Lemma took_acc ev : Took ev -> Acc ev.
Proof. intros (c & H & _). exact H. Qed.
Definition NoAcc (es : list event) : Prop := Forall (fun ev => ~ Acc ev) es.

(** A call that has nothing to do with waiting for a connection. *)
Definition Settled (c : call) : Prop :=
  match c with CSocket | CBind _ | CListen | CChown _ _ _ | CChmod _ _ | CSelect | CAccept | CCloseListener => False | _ => True end.

Lemma only_noacc (C : call -> Prop) es : Only C es -> ~ C CAccept -> NoAcc es.
Proof. intros H N. revert H. apply Forall_impl. intros ev HC [E _]. rewrite E in HC. exact (N HC). Qed.
Lemma settled_noacc es : Only Settled es -> NoAcc es.
Proof. intros H. apply (only_noacc _ _ H). intros []. Qed.

(** The events of an opening, as far as accepting is concerned. *)
Definition OneAccept (evs : list event) : Prop :=
  NoAcc evs
  \/ exists m1 acc m2, evs = m1 ++ acc :: m2 /\ Took acc /\ NoAcc m1
     /\ (m2 = [] \/ exists cl m3, m2 = cl :: m3 /\ Is CCloseListener AOk cl /\ Only Settled m3).

Lemma one_before pre evs : NoAcc pre -> OneAccept evs -> OneAccept (pre ++ evs).
Proof.
  intros HP [HN|(m1 & acc & m2 & -> & HA & H1 & H2)].
  - left. apply Forall_app. auto.
  - right. exists (pre ++ m1), acc, m2. split; [apply app_assoc|]. split; [exact HA|]. split; [apply Forall_app; auto|exact H2].
Qed.

Lemma AcceptT_one o es : AcceptT o es -> NoAcc es \/ exists c m1 acc, o = Done (Ok c) /\ es = m1 ++ [acc] /\ Took acc /\ NoAcc m1.
Proof.
  assert (HI : forall es, Forall interrupted_accept es -> NoAcc es).
  { intros es'. apply Forall_impl. intros ev [_ H] [_ H']. congruence. }
  intros [es' H|es' ev e H _ Hi|es' ev c H Hc].
  - left. apply HI. exact H.
  - left. apply Forall_app. split; [apply HI; exact H|]. constructor; [|constructor]. intros [_ K]. destruct Hi as [_ Hi]. congruence.
  - right. exists c, es', ev. split; [reflexivity|]. split; [reflexivity|]. split; [exists c; exact Hc|apply HI; exact H].
Qed.

Lemma is_noacc c a ev : Is c a ev -> c <> CAccept -> ~ Acc ev.
Proof. intros [E _] N [E' _]. congruence. Qed.
Lemma call_noacc ev : e_call ev <> CAccept -> ~ Acc ev.
Proof. intros N [E' _]. congruence. Qed.

Lemma ServeT_one fd p u g m o es : ServeT fd p u g m o es ->
  NoAcc es \/ exists c m1 acc, o = Done (Ok c) /\ es = m1 ++ [acc] /\ Took acc /\ NoAcc m1.
Proof.
  assert (HK : forall co cm se, chowned p u g co -> chmoded p m cm -> e_call se = CSelect -> NoAcc [co; cm; se]).
  { intros co cm se Hc Hm Hs. repeat constructor; apply call_noacc; is_call; discriminate. }
  intros H. destruct H as [|e co E F|co Hc|e co cm Hc E F|co cm Hc Hm|co cm Hc Hm|e e' co cm se Hc Hm _ Hse|n co cm se Hc Hm _ _ Hse|o co cm se es Hc Hm _ Hse Ha].
  1-8: left; repeat (apply Forall_cons; [apply call_noacc; is_call; discriminate|]); apply Forall_nil.
  specialize (HK co cm se Hc Hm (proj1 Hse)).
  destruct (AcceptT_one _ _ Ha) as [HN|(c & m1 & acc & -> & -> & HA & H1)].
  - left. apply (Forall_app _ [co; cm; se] es). auto.
  - right. exists c, ([co; cm; se] ++ m1), acc. split; [reflexivity|]. split; [reflexivity|]. split; [exact HA|apply Forall_app; auto].
Qed.

Lemma tail_settled p old {A} (r : A) o es : TailT p old r o es -> Only Settled es.
Proof.
  assert (HU : forall o es, UnlinkT p o es -> Only Settled es).
  { intros o' es' H. apply UnlinkT_only in H. revert H. apply Only_weaken. intros c [->| ->]; exact I. }
  destruct 1 as [es HT|es x HT|es x um HT Hum]; eauto. onl; eauto. is_call. exact I.
Qed.
Lemma bind_noacc p o es : BindT p o es -> NoAcc es.
Proof. intros H. apply BindT_only in H. apply (only_noacc _ _ H). intros [?|[?|[?|?]]]; discriminate. Qed.

(** Only a run that was stopped ends with the acceptance. *)
Lemma MaskedT_one p u g m old o ms : MaskedT p u g m old o ms ->
  OneAccept ms /\ (NoAcc ms \/ o = Stopped \/ exists m1 acc cl m3, ms = m1 ++ acc :: cl :: m3 /\ Took acc /\ NoAcc m1
                                              /\ Is CCloseListener AOk cl /\ Only Settled m3).
Proof.
  intros [es HB|e o' es ts HB HT|fd es ss HB HS|fd es ss HB HS|fd es ss cl HB HS Hcl|fd r es ss HB HS|fd r o' es ss cl ts HB HS Hcl HT];
    pose proof (bind_noacc _ _ _ HB) as NB.
  - split; [left|left]; exact NB.
  - assert (N : NoAcc (es ++ ts)) by (apply Forall_app; split; [exact NB|eapply settled_noacc, tail_settled; exact HT]).
    split; left; exact N.
  - destruct (ServeT_one _ _ _ _ _ _ _ HS) as [N|(c & m1 & acc & E & _)]; [|discriminate].
    assert (N' : NoAcc (es ++ ss)) by (apply Forall_app; auto). split; left; exact N'.
  - destruct (ServeT_one _ _ _ _ _ _ _ HS) as [N|(c & m1 & acc & E & _)]; [|discriminate].
    assert (N' : NoAcc (es ++ ss)) by (apply Forall_app; auto). split; left; exact N'.
  - destruct (ServeT_one _ _ _ _ _ _ _ HS) as [N|(c & m1 & acc & E & _)]; [|discriminate].
    assert (N' : NoAcc (es ++ ss ++ [cl])).
    { apply Forall_app. split; [exact NB|]. apply Forall_app. split; [exact N|]. constructor; [|constructor].
      eapply is_noacc; [exact Hcl|discriminate]. }
    split; left; exact N'.
  - split; [|right; left; reflexivity].
    apply one_before; [exact NB|]. destruct (ServeT_one _ _ _ _ _ _ _ HS) as [N|(c & m1 & acc & E & -> & HA & H1)]; [left; exact N|].
    right. exists m1, acc, []. auto.
  - pose proof (tail_settled _ _ _ _ _ HT) as HS'.
    assert (NT : NoAcc (cl :: ts)) by (constructor; [eapply is_noacc; [exact Hcl|discriminate]|apply settled_noacc; exact HS']).
    destruct (ServeT_one _ _ _ _ _ _ _ HS) as [N|(c & m1 & acc & E & -> & HA & H1)].
    + assert (N' : NoAcc (es ++ ss ++ cl :: ts)) by (apply Forall_app; split; [exact NB|]; apply Forall_app; auto).
      split; left; exact N'.
    + split.
      * apply one_before; [exact NB|]. right. exists m1, acc, (cl :: ts). split; [asc; reflexivity|]. split; [exact HA|]. split; [exact H1|].
        right. eauto.
      * right. right. exists (es ++ m1), acc, cl, ts. split; [asc; reflexivity|]. split; [exact HA|]. split; [apply Forall_app; auto|]. auto.
Qed.

Lemma OpenT_one euid p u g m o os : OpenT euid p u g m o os ->
  OneAccept os /\ (NoAcc os \/ o = Stopped \/ exists m1 acc cl m3, os = m1 ++ acc :: cl :: m3 /\ Took acc /\ NoAcc m1
                                              /\ Is CCloseListener AOk cl /\ Only Settled m3).
Proof.
  assert (HE' : forall o es, EnforceT euid p o es -> NoAcc es).
  { intros o' es H. apply EnforceT_stat in H. apply (only_noacc _ _ H). intros [d ?]. discriminate. }
  assert (HU' : forall o es, UnlinkT p o es -> NoAcc es).
  { intros o' es H. apply UnlinkT_only in H. apply (only_noacc _ _ H). intros [?|?]; discriminate. }
  intros [es HE|e es HE|es us HE HU|e es us HE HU|es us HE HU|es us um o' ms HE HU Hum HM];
    [| | | | |assert (HP : NoAcc (es ++ us ++ [um]))].
  1,2: split; left; eapply HE'; exact HE.
  1,2,3: split; left; apply Forall_app; (split; [eapply HE'; exact HE|eapply HU'; exact HU]).
  { apply Forall_app. split; [eapply HE'; exact HE|]. apply Forall_app. split; [eapply HU'; exact HU|]. constructor; [|constructor]. eapply is_noacc; [exact Hum|discriminate]. }
  replace (es ++ us ++ um :: ms) with ((es ++ us ++ [um]) ++ ms) by (asc; reflexivity).
  destruct (MaskedT_one _ _ _ _ _ _ _ HM) as [H1 H2]. split; [apply one_before; auto|].
  destruct H2 as [N|[->|(m1 & acc & cl & m3 & -> & HA & HN & Hc & Hs)]].
  - left. apply Forall_app. auto.
  - right. left. reflexivity.
  - right. right. exists ((es ++ us ++ [um]) ++ m1), acc, cl, m3. split; [asc; reflexivity|]. split; [exact HA|].
    split; [apply Forall_app; auto|]. auto.
Qed.

Lemma one_accept pl a rq (D : Describes pl a rq) w o w' evs :
  core_open SudoPair pl a (pstate0 _) w = (o, w') -> w_trace w' = w_trace w ++ evs -> OneAccept evs.
Proof.
  intros H T. destruct (split_given pl a rq D w o w' evs H T) as [_ HS].
  destruct HS as [o evs HL _|e mode oo ls os o post M HC NE NB HL Hm HO HA].
  { left. apply (only_noacc _ _ HL). intros []. }
  assert (NL : NoAcc ls) by (apply LocalT_calls in HL; apply (only_noacc _ _ HL); intros []).
  pose proof (AfterT_calls _ _ _ _ HA) as HP.
  assert (HS : Only Settled post) by (revert HP; apply Only_weaken; intros c; destruct c; cbn; tauto).
  apply one_before; [exact NL|]. destruct (OpenT_one _ _ _ _ _ _ _ HO) as [H1 H2].
  destruct H2 as [N|[->|(m1 & acc & cl & m3 & -> & HA' & HN & Hc & Hs)]].
  - left. apply Forall_app. split; [exact N|apply settled_noacc; exact HS].
  - cbn [AfterT] in HA. destruct HA as [_ ->]. rewrite app_nil_r. exact H1.
  - right. exists m1, acc, (cl :: m3 ++ post). split; [asc; reflexivity|]. split; [exact HA'|]. split; [exact HN|].
    right. exists cl, (m3 ++ post). split; [reflexivity|]. split; [exact Hc|]. onl.
Qed.

(** The first one to connect ... *)
Lemma one_only pl a rq (D : Describes pl a rq) w o w' evs e1 acc e2 :
  core_open SudoPair pl a (pstate0 _) w = (o, w') -> w_trace w' = w_trace w ++ evs ->
  evs = e1 ++ acc :: e2 -> Is CAccept AOk acc ->
  (forall ev, In ev (e1 ++ e2) -> ~ Is CAccept AOk ev)
  /\ Took acc /\ (e2 = [] \/ exists cl e3, e2 = cl :: e3 /\ Is CCloseListener AOk cl /\ Only Settled e3).
Proof.
  intros H T E HA. destruct (one_accept pl a rq D w o w' evs H T) as [N|(m1 & ac & m2 & E' & HA' & H1 & H2)].
  - exfalso. unfold NoAcc in N. rewrite Forall_forall in N. apply (N acc); [|exact HA]. rewrite E. apply in_elt.
  - assert (N2 : NoAcc m2).
    { destruct H2 as [->|(cl & m3 & -> & Hc & Hs)]; [constructor|]. constructor; [eapply is_noacc; [exact Hc|discriminate]|apply settled_noacc; exact Hs]. }
    rewrite E in E'. destruct (unique_split Acc _ _ _ _ _ _ E' HA H1 N2) as (-> & -> & ->). split; [|split; [exact HA'|exact H2]].
    intros ev HI. apply in_app_iff in HI as [HI|HI].
    + unfold NoAcc in H1. rewrite Forall_forall in H1. exact (H1 ev HI).
    + unfold NoAcc in N2. rewrite Forall_forall in N2. exact (N2 ev HI).
Qed.

Lemma deaf k c q : listening k = false -> act k (c, Connect q) = k.
Proof. unfold listening. intros H. cbn [act]. destruct (finds k c q); [|reflexivity]. destruct (k_listen k); [discriminate H|reflexivity]. Qed.

(** ... leaves nothing for the others to connect to. *)
Lemma too_late pl a rq (D : Describes pl a rq) w o w' evs e1 acc cl e2 :
  core_open SudoPair pl a (pstate0 _) w = (o, w') -> w_trace w' = w_trace w ++ evs ->
  evs = e1 ++ acc :: cl :: e2 -> Is CAccept AOk acc ->
  Is CCloseListener AOk cl
  /\ (forall ev c q, In ev e2 -> act (e_pre ev) (c, Connect q) = e_pre ev)
  /\ (forall c q, act (w_k w') (c, Connect q) = w_k w')
  /\ exists peer, k_conns (w_k w') = k_conns (w_k w) ++ [peer].
Proof.
  intros H T E HA. destruct (split_given pl a rq D w o w' evs H T) as [(ts & _ & _ & HL) _].
  destruct (one_only pl a rq D w o w' evs e1 acc (cl :: e2) H T E HA) as (HN & HK & [K|(cl' & e3 & K & Hc & Hs)]); [discriminate K|].
  injection K as <- <-. split; [exact Hc|]. subst evs.
  assert (HS : Only NotSock e2) by (revert Hs; apply Only_weaken; intros c; destruct c; cbn; tauto).
  change (e1 ++ acc :: cl :: e2) with (e1 ++ [acc] ++ cl :: e2) in HL. rewrite app_assoc in HL.
  apply Linked_at in HL as (t1 & acts & a0 & t2 & k1 & _ & L1 & HP & _ & HQ & L2).
  assert (Hcl : listening (e_post cl) = false) by (rewrite HQ, (proj1 Hc), (proj2 Hc); reflexivity).
  split; [|split].
  - intros ev c q HI. apply deaf. apply in_split in HI as (x1 & x2 & ->).
    apply Only_app in HS as [S1 _].
    apply Linked_at in L2 as (u1 & acts2 & a2 & u2 & k2 & _ & M1 & HP2 & _).
    rewrite HP2, (acts_keep listening act_listening), (Linked_listening _ _ _ _ _ M1 S1). exact Hcl.
  - intros c q. apply deaf. rewrite (Linked_listening _ _ _ _ _ L2 HS). exact Hcl.
  - assert (NC : Only (fun c => c <> CAccept) e2) by (revert Hs; apply Only_weaken; intros c K ->; exact K).
    assert (Ec : e_call cl <> CAccept) by (rewrite (proj1 Hc); discriminate).
    rewrite (Linked_conns _ _ _ _ _ L2 NC), HQ, (effect_conns _ _ _ _ Ec), HP, (acts_keep k_conns act_conns).
    apply Linked_at in L1 as (u1 & acts2 & a2 & u2 & k2 & _ & M1 & HP2 & _ & HQ2 & L3). apply Linked_nil in L3. subst k1.
    rewrite HQ2, (proj1 HA), (proj2 HA). cbn [effect].
    destruct HK as (n & _ & _ & l & x & y & El & Eq). rewrite El, Eq. cbn. exists x. f_equal.
    rewrite HP2, (acts_keep k_conns act_conns). refine (Linked_keeps k_conns _ act_conns _ _ _ _ M1 _).
    apply Forall_forall. intros ev HI k0. specialize (HN ev (in_or_app _ _ _ (or_introl HI))). unfold Is in HN.
    destruct (e_call ev) eqn:EC; try (apply effect_conns; discriminate).
    destruct (e_ans ev) eqn:EA; try reflexivity. destruct HN. auto.
Qed.

Lemma one_only' pl a rq w o w' evs e1 acc e2 : Describes pl a rq ->
  core_open SudoPair pl a (pstate0 _) w = (o, w') -> w_trace w' = w_trace w ++ evs ->
  evs = e1 ++ acc :: e2 -> Is CAccept AOk acc ->
  (forall ev, In ev e1 -> ~ Is CAccept AOk ev)
  /\ Only (fun c => c <> CSocket /\ (forall q, c <> CBind q) /\ c <> CListen /\ c <> CAccept) e2.
Proof.
  intros D H T E HA. destruct (one_only pl a rq D w o w' evs e1 acc e2 H T E HA) as (HN & _ & K).
  split; [intros ev HI; apply HN, in_or_app; left; exact HI|].
  destruct K as [->|(cl & e3 & -> & Hc & Hs)]; [constructor|]. constructor.
  - rewrite (proj1 Hc). repeat split; discriminate.
  - revert Hs. apply Forall_impl. intros ev K. cbv beta. destruct (e_call ev); cbn in K; try destruct K; repeat split; discriminate.
Qed.

Lemma two_more {A} (l : list A) d : (15 <= List.length l)%nat ->
  l = firstn 13 l ++ nth 13 l d :: nth 14 l d :: skipn 15 l.
Proof. do 15 (destruct l as [|? l]; [cbn; lia|]). reflexivity. Qed.
