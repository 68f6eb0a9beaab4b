(** What the work on the socket leaves behind: mask, names, inodes, listener
    and connections. *)
From Coq Require Import Lia.
From Verif Require Import Base BaseLemmas Num Path Template Options World Sys Io Socket Env Core Pair
  Spec TraceSpec SessionSpec PathProofs RequestProofs PairPure InputFacts RunProofs IoProofs SocketProofs PairProofs
  KernelFacts OpenFacts AskFacts MiscFacts SplitFacts.
Local Open Scope Z_scope.

(** ** Which calls each part makes *)
Definition StatUnlink (q : path) (c : call) : Prop := c = CStat q \/ c = CUnlink q.
Definition BindCall (q : path) (c : call) : Prop := c = CSocket \/ c = CBind q \/ c = CListen \/ c = CCloseListener.
Definition ServeCall (q : path) (u g m : Z) (c : call) : Prop :=
  c = CChown q u g \/ c = CChmod q m \/ c = CSelect \/ c = CAccept.

Ltac is_call := match goal with
  | H : Is _ _ ?ev |- context [e_call ?ev] => rewrite (proj1 H)
  | H : e_call ?ev = _ |- context [e_call ?ev] => rewrite H
  | H : bound _ ?ev |- context [e_call ?ev] => rewrite (proj1 H)
  | H : unbound _ ?ev |- context [e_call ?ev] => rewrite (proj1 H)
  | H : chowned _ _ _ ?ev |- context [e_call ?ev] => rewrite (proj1 (proj1 H))
  | H : chmoded _ _ ?ev |- context [e_call ?ev] => rewrite (proj1 (proj1 H))
  | H : accepted _ ?ev |- context [e_call ?ev] => rewrite (proj1 (proj1 H))
  end.

Lemma EnforceT_stat euid p o es : EnforceT euid p o es -> Only (fun c => exists d, c = CStat d) es.
Proof. destruct 1; onl; is_call; eauto. Qed.
Lemma UnlinkT_only p o es : UnlinkT p o es -> Only (StatUnlink (components p)) es.
Proof. unfold StatUnlink. destruct 1; onl; is_call; auto. Qed.
Lemma BindT_only p o es : BindT p o es -> Only (BindCall (components p)) es.
Proof. unfold BindCall. destruct 1; onl; is_call; auto. Qed.
Lemma AcceptT_only o es : AcceptT o es -> Only (fun c => c = CAccept) es.
Proof.
  assert (HI : forall es, Forall interrupted_accept es -> Only (fun c => c = CAccept) es).
  { intros es'. apply Forall_impl. intros ev [H _]. exact H. }
  destruct 1; onl; auto; is_call; auto.
Qed.
Lemma ServeT_only fd p u g m o es : ServeT fd p u g m o es -> Only (ServeCall (components p) u g m) es.
Proof.
  unfold ServeCall. destruct 1; onl; try (is_call; auto; fail).
  eapply Only_weaken; [|eapply AcceptT_only; eassumption]. intros c ->. auto.
Qed.

Lemma stat_numask es : Only (fun c => exists d, c = CStat d) es -> Only NotUmask es.
Proof. apply Only_weaken. intros c [d ->]. exact I. Qed.
Lemma su_numask q es : Only (StatUnlink q) es -> Only NotUmask es.
Proof. apply Only_weaken. intros c [->| ->]; exact I. Qed.
Lemma bind_numask q es : Only (BindCall q) es -> Only NotUmask es.
Proof. apply Only_weaken. intros c [->|[->|[->| ->]]]; exact I. Qed.
Lemma serve_numask q u g m es : Only (ServeCall q u g m) es -> Only NotUmask es.
Proof. apply Only_weaken. intros c [->|[->|[->| ->]]]; exact I. Qed.

Lemma stat_nosock es : Only (fun c => exists d, c = CStat d) es -> Only NotSock es.
Proof. apply Only_weaken. intros c [d ->]. exact I. Qed.
Lemma su_nosock q es : Only (StatUnlink q) es -> Only NotSock es.
Proof. apply Only_weaken. intros c [->| ->]; exact I. Qed.
Lemma stat_nofiles es : Only (fun c => exists d, c = CStat d) es -> Only NoFiles es.
Proof. apply Only_weaken. intros c [d ->]. exact I. Qed.

(** ** The mask *)
Lemma mask_land m : 0 <= m < 512 -> Z.land m 511 = m.
Proof. intros H. change 511 with (Z.ones 9). rewrite Z.land_ones by lia. apply Z.mod_small. cbn. lia. Qed.

Lemma Linked_last_umask euid k ts es um k' old :
  Linked euid k ts (es ++ [um]) k' -> Is (CUmask old) AOk um -> k_umask k' = Z.land old 511.
Proof.
  intros HL [C A]. apply Linked_at in HL as (ts1 & acts & a & ts2 & k1 & _ & _ & _ & _ & HP & HL).
  apply Linked_nil in HL. subst k'. rewrite HP, C, A. reflexivity.
Qed.

Lemma OpenT_umask euid p u g m x os k ts k' :
  OpenT euid p u g m (Done x) os -> Linked euid k ts os k' -> 0 <= k_umask k < 512 -> k_umask k' = k_umask k.
Proof.
  intros HO HL HK.
  inversion HO as [|e es HE| |e es us HE HU| |es us um o ms HE HU Hum HM]; subst.
  - eapply Linked_umask; [exact HL|]. eapply stat_numask, EnforceT_stat. exact HE.
  - eapply Linked_umask; [exact HL|]. onl.
    + eapply stat_numask, EnforceT_stat. exact HE.
    + eapply su_numask, UnlinkT_only. exact HU.
  - assert (E : k_umask (e_pre um) = k_umask k).
    { rewrite app_assoc in HL. eapply Linked_umask_pre; [exact HL|]. onl.
      - eapply stat_numask, EnforceT_stat. exact HE.
      - eapply su_numask, UnlinkT_only. exact HU. }
    assert (HT : exists zs um2, ms = zs ++ [um2] /\ Is (CUmask (k_umask (e_pre um))) AOk um2).
    { inversion HM as [|e o es' ts' HB HT| | | | |fd r o es' ss cl ts' HB HS Hcl HT]; subst;
        inversion HT as [| |ts'' x' um2 HU2 Hum2]; subst.
      - exists (es' ++ ts''), um2. rewrite app_assoc. split; [reflexivity|exact Hum2].
      - exists (es' ++ ss ++ cl :: ts''), um2. rewrite <- !app_assoc. split; [reflexivity|exact Hum2]. }
    destruct HT as (zs & um2 & -> & Hum2).
    replace (es ++ us ++ um :: zs ++ [um2]) with ((es ++ us ++ um :: zs) ++ [um2]) in HL
      by (rewrite <- !app_assoc; reflexivity).
    rewrite (Linked_last_umask _ _ _ _ _ _ _ HL Hum2), E. apply mask_land. exact HK.
Qed.

(** When the work on the socket can panic. *)
Definition SelectOk (ev : event) : Prop := e_call ev = CSelect -> forall n, e_ans ev = ANum n -> n = 1.
Definition FdSmall (ev : event) : Prop := e_call ev = CSocket -> forall fd, e_ans ev = ANum fd -> fd < 1024.

Lemma OpenT_panic euid p u g m os : OpenT euid p u g m Panicked os ->
  exists ev, In ev os /\ ((e_call ev = CSelect /\ exists n, e_ans ev = ANum n /\ n <> 1)
                          \/ (e_call ev = CSocket /\ exists fd, e_ans ev = ANum fd /\ 1024 <= fd)).
Proof.
  intros HO. inversion HO as [| | | | |es us um o ms HE HU Hum HM]; subst.
  inversion HM as [|e o es' ts' HB HT| | |fd es' ss cl HB HS Hcl| |fd r o es' ss cl ts' HB HS Hcl HT]; subst.
  - inversion HT.
  - inversion HB as [| | | | | | | | |fd' sk b li Hfd Hsk Hb Hli Hlen]; subst.
    inversion HS as [| | | |co cm Hco Hcm Hge| | |n co cm se Hco Hcm Hlt Hn Hse|o co cm se es'' Hco Hcm Hlt Hse HA]; subst.
    + exists sk. split; [rewrite !in_app_iff; cbn; tauto|]. right. destruct Hsk as [-> ->]. eauto.
    + exists se. split; [rewrite !in_app_iff; cbn; tauto|]. left. destruct Hse as [-> ->]. eauto.
    + inversion HA.
  - inversion HT.
Qed.

(** ** The listener *)
Lemma closed_listener euid k ts e1 cl e2 k' :
  Linked euid k ts (e1 ++ cl :: e2) k' -> Is CCloseListener AOk cl -> Only NotSock e2 -> listening k' = false.
Proof.
  intros HL [C A] HO. apply Linked_at in HL as (ts1 & acts & a & ts2 & k1 & _ & _ & _ & _ & HP & HL).
  rewrite (Linked_listening _ _ _ _ _ HL HO), HP, C, A. reflexivity.
Qed.

Lemma TailT_nosock p old {A} (r : A) o es : TailT p old r o es -> Only NotSock es.
Proof. destruct 1; onl; try (eapply su_nosock, UnlinkT_only; eassumption). is_call. exact I. Qed.

Lemma tail_listening p old {A} (r : A) o es euid k ts k' :
  TailT p old r o es -> Linked euid k ts es k' -> listening k' = listening k.
Proof. intros HT HL. eapply Linked_listening; [exact HL|eapply TailT_nosock; exact HT]. Qed.

Lemma OpenT_listening euid p u g m oo os k ts k' :
  OpenT euid p u g m oo os -> oo <> Stopped -> Linked euid k ts os k' -> listening k = false -> listening k' = false.
Proof.
  intros HO NS HL HK.
  inversion HO as [|e es HE| |e es us HE HU| |es us um o ms HE HU Hum HM]; subst; try congruence.
  - rewrite <- HK. eapply Linked_listening; [exact HL|]. eapply stat_nosock, EnforceT_stat. exact HE.
  - rewrite <- HK. eapply Linked_listening; [exact HL|]. onl.
    + eapply stat_nosock, EnforceT_stat. exact HE.
    + eapply su_nosock, UnlinkT_only. exact HU.
  - assert (H0 : exists ts2 k2, Linked euid k2 ts2 ms k' /\ listening k2 = false).
    { rewrite app_assoc in HL. apply Linked_at in HL as (ts1 & acts & a & ts2 & k1 & _ & L1 & HP & _ & HQ & L2).
      exists ts2, (e_post um). split; [exact L2|].
      rewrite HQ, (proj1 Hum), (effect_listening euid (CUmask UMASK_ALL) _ _ I), HP, (acts_keep listening act_listening), <- HK.
      eapply Linked_listening; [exact L1|]. onl.
      - eapply stat_nosock, EnforceT_stat. exact HE.
      - eapply su_nosock, UnlinkT_only. exact HU. }
    destruct H0 as (ts2 & k2 & L & H2). clear HL HK HE HU HO.
    inversion HM as [|e o es' ts' HB HT| | |fd es' ss cl HB HS Hcl| |fd r o es' ss cl ts' HB HS Hcl HT]; subst; try congruence.
    + pose proof (TailT_nosock _ _ _ _ _ HT) as HN.
      inversion HB as [e' Hlen| |e0 e' ev Hev| | |e0 fd ev b cl Hev Hb Hcl| | |e0 fd e' ev b li cl Hev Hb Hli Hcl|]; subst; cbn [app] in L.
      * rewrite <- H2. eapply Linked_listening; [exact L|exact HN].
      * change (ev :: ts') with ([] ++ ev :: ts') in L.
        apply Linked_at in L as (t1 & acts & a & t2 & k1 & _ & L1 & HP & _ & HQ & L2). apply Linked_nil in L1. subst k1.
        rewrite (Linked_listening _ _ _ _ _ L2 HN), HQ, (proj1 Hev), (proj2 Hev). cbn [effect].
        rewrite HP, (acts_keep listening act_listening). exact H2.
      * eapply (closed_listener _ _ _ [ev; b]); [exact L|exact Hcl|exact HN].
      * eapply (closed_listener _ _ _ [ev; b; li]); [exact L|exact Hcl|exact HN].
    + rewrite app_assoc in L. eapply closed_listener; [exact L|exact Hcl|constructor].
    + rewrite app_assoc in L. eapply closed_listener; [exact L|exact Hcl|]. eapply TailT_nosock. exact HT.
Qed.

(** ** Connections *)
Lemma AcceptT_acc o es : AcceptT o es -> o <> Stopped ->
  forall ev, In ev es -> Is CAccept AOk ev -> exists c, o = Done (Ok c) /\ accepted c ev.
Proof.
  assert (HI : forall es ev, Forall interrupted_accept es -> In ev es -> ~ Is CAccept AOk ev).
  { intros es' ev HF Hin [_ H]. rewrite Forall_forall in HF. destruct (HF _ Hin) as [_ H']. congruence. }
  intros HA NS ev Hin Hev. destruct HA as [es H|es ev' e H He Hi|es ev' c H Hc]; [congruence| |].
  - apply in_app_iff in Hin as [Hin|[->|[]]]; [destruct (HI _ _ H Hin Hev)|]. destruct Hi as [_ Hi], Hev as [_ Hev]. congruence.
  - apply in_app_iff in Hin as [Hin|[->|[]]]; [destruct (HI _ _ H Hin Hev)|]. eauto.
Qed.

Lemma only_not (C : call -> Prop) c a ev es : Only C es -> ~ C c -> In ev es -> ~ Is c a ev.
Proof. intros HO NC Hin [H _]. unfold Only in HO. rewrite Forall_forall in HO. apply HO in Hin. rewrite H in Hin. contradiction. Qed.

Lemma ServeT_acc fd p u g m o es : ServeT fd p u g m o es -> o <> Stopped ->
  forall ev, In ev es -> Is CAccept AOk ev -> exists c, o = Done (Ok c) /\ accepted c ev.
Proof.
  intros HS NS ev Hin Hev. destruct HS; try congruence.
  all: repeat (destruct Hin as [Hin|Hin]; [subst; exfalso; destruct Hev as [X _]; revert X; is_call; congruence|]); try contradiction.
  eapply AcceptT_acc; eassumption.
Qed.

Lemma su_not_acc p o es ev : UnlinkT p o es -> In ev es -> ~ Is CAccept AOk ev.
Proof. intros H. apply UnlinkT_only in H. apply (only_not _ _ _ _ _ H). intros [?|?]; discriminate. Qed.
Lemma tail_not_acc p old {A} (r : A) o es ev : TailT p old r o es -> In ev es -> ~ Is CAccept AOk ev.
Proof.
  intros HT Hin Hev. destruct HT as [es HU|es x HU|es x um HU Hum]; try exact (su_not_acc _ _ _ _ HU Hin Hev).
  apply in_app_iff in Hin as [Hin|[->|[]]]; [exact (su_not_acc _ _ _ _ HU Hin Hev)|].
  destruct Hum as [X _], Hev as [Y _]. congruence.
Qed.
Lemma bind_not_acc p o es ev : BindT p o es -> In ev es -> ~ Is CAccept AOk ev.
Proof. intros H. apply BindT_only in H. apply (only_not _ _ _ _ _ H). intros [?|[?|[?|?]]]; discriminate. Qed.

Lemma OpenT_acc euid p u g m oo os : OpenT euid p u g m oo os -> oo <> Stopped ->
  forall ev, In ev os -> Is CAccept AOk ev -> exists c, oo = Done (Ok c) /\ accepted c ev.
Proof.
  intros HO NS ev Hin Hev.
  assert (HEn : forall o es, EnforceT euid p o es -> ~ In ev es).
  { intros o es H Hi. apply EnforceT_stat in H. refine (only_not _ _ _ _ _ H _ Hi Hev). intros [d ?]. discriminate. }
  inversion HO as [|e es HE| |e es us HE HU| |es us um o ms HE HU Hum HM]; subst; try congruence.
  - destruct (HEn _ _ HE Hin).
  - apply in_app_iff in Hin as [Hin|Hin]; [destruct (HEn _ _ HE Hin)|destruct (su_not_acc _ _ _ _ HU Hin Hev)].
  - apply in_app_iff in Hin as [Hin|Hin]; [destruct (HEn _ _ HE Hin)|].
    apply in_app_iff in Hin as [Hin|[->|Hin]]; [destruct (su_not_acc _ _ _ _ HU Hin Hev)| |].
    { destruct Hum as [X _], Hev as [Y _]. congruence. }
    inversion HM as [|e o es' ts' HB HT| | |fd es' ss cl HB HS Hcl| |fd r o es' ss cl ts' HB HS Hcl HT]; subst; try congruence.
    + apply in_app_iff in Hin as [Hin|Hin]; [destruct (bind_not_acc _ _ _ _ HB Hin Hev)|destruct (tail_not_acc _ _ _ _ _ _ HT Hin Hev)].
    + apply in_app_iff in Hin as [Hin|Hin]; [destruct (bind_not_acc _ _ _ _ HB Hin Hev)|].
      apply in_app_iff in Hin as [Hin|[->|[]]].
      * destruct (ServeT_acc _ _ _ _ _ _ _ HS ltac:(discriminate) _ Hin Hev) as (c & E & _). discriminate.
      * destruct Hcl as [X _], Hev as [Y _]. congruence.
    + apply in_app_iff in Hin as [Hin|Hin]; [destruct (bind_not_acc _ _ _ _ HB Hin Hev)|].
      apply in_app_iff in Hin as [Hin|[->|Hin]].
      * destruct (ServeT_acc _ _ _ _ _ _ _ HS ltac:(discriminate) _ Hin Hev) as (c & E & Hc). injection E as ->.
        exists c. split; [|exact Hc]. inversion HT; subst; [congruence|congruence|reflexivity].
      * destruct Hcl as [X _], Hev as [Y _]. congruence.
      * destruct (tail_not_acc _ _ _ _ _ _ HT Hin Hev).
Qed.
