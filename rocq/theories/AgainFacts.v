(** Opening again while a session is active. *)
From Verif Require Import Base BaseLemmas Options World Sys Io Socket Env Core Pair
  Spec TraceSpec CallbackSpec RunProofs IoProofs SocketProofs PairProofs KernelFacts OpenFacts SplitFacts CleanupFacts
  InitFacts TalkFacts CallbackFacts CleanFacts.
From Coq Require Import Lia.
Local Open Scope Z_scope.

(** The connections used were accepted before, in the same list of calls. *)
Definition own_conns (es : list event) : Prop :=
  forall ev n, In ev es -> UsesConnection n (e_call ev) ->
  exists acc, In acc es /\ Is CAccept AOk acc /\ n = List.length (k_conns (e_pre acc)).

(** The connections accepted were closed, or are [keep]. *)
Definition closed_but (keep : option nat) (es : list event) : Prop :=
  forall acc, In acc es -> Is CAccept AOk acc ->
  match keep with
  | Some c => c = List.length (k_conns (e_pre acc))
  | None => exists e1 cl, es = e1 ++ [cl] /\ Is (CClose (List.length (k_conns (e_pre acc)))) AOk cl
  end.

Lemma own_none es : Only (fun c => forall n, ~ UsesConnection n c) es -> own_conns es.
Proof.
  intros H ev n Hin Hu. unfold Only in H. rewrite Forall_forall in H. destruct (H _ Hin n Hu).
Qed.

Lemma own_app_none a b : own_conns b -> Only (fun c => forall n, ~ UsesConnection n c) a -> own_conns (a ++ b).
Proof.
  intros H Ha ev n Hin Hu. apply in_app_iff in Hin as [Hin|Hin].
  - unfold Only in Ha. rewrite Forall_forall in Ha. destruct (Ha _ Hin n Hu).
  - destruct (H ev n Hin Hu) as (acc & Hi & X). exists acc. split; [apply in_or_app; right; exact Hi|exact X].
Qed.

Lemma own_one c os rs : (exists acc, In acc os /\ Is CAccept AOk acc /\ c = List.length (k_conns (e_pre acc))) ->
  Only (fun ca => forall n, ~ UsesConnection n ca) os ->
  Only (fun ca => forall n, UsesConnection n ca -> n = c) rs -> own_conns (os ++ rs).
Proof.
  intros (acc & Hi & Ha & ->) Ho Hr ev n Hin Hu. apply in_app_iff in Hin as [Hin|Hin]; unfold Only in *; rewrite Forall_forall in *.
  - destruct (Ho _ Hin n Hu).
  - exists acc. split; [apply in_or_app; left; exact Hi|]. split; [exact Ha|]. exact (Hr _ Hin n Hu).
Qed.

Lemma local_unused s sp o ls : LocalT s sp o ls -> Only (fun c => forall n, ~ UsesConnection n c) ls.
Proof. intros H. apply LocalT_calls in H. revert H. apply Only_weaken. intros [] H n; cbn in *; tauto. Qed.
Lemma open_unused euid p u g m o os : OpenT euid p u g m o os -> Only (fun c => forall n, ~ UsesConnection n c) os.
Proof. intros H. apply OpenT_calls in H. revert H. apply Only_weaken. intros [] H n; cbn in *; tauto. Qed.
Lemma remote_uses c p sp o rs : RemoteT c p sp o rs -> Only (fun ca => forall n, UsesConnection n ca -> n = c) rs.
Proof. intros H. apply RemoteT_calls in H. revert H. apply Only_weaken. intros [] H n; cbn in *; try contradiction; congruence. Qed.
Lemma drop_uses c o ds : DropT c o ds -> Only (fun ca => forall n, UsesConnection n ca -> n = c) ds.
Proof. intros H. apply DropT_calls in H. revert H. apply Only_weaken. intros ca [->| ->] n; cbn; congruence. Qed.
Lemma printed_unused a d r ps : reported a d r ps -> Only (fun c => forall n, ~ UsesConnection n c) ps.
Proof.
  intros H. apply reported_text in H as [H _]. revert H. apply Only_weaken. intros c [d' ->] n. cbn. tauto.
Qed.

Definition kept (o : outcome (result sudo_pair pair_error)) : option nat :=
  match o with Done (Ok p) => sp_socket p | _ => None end.

Lemma local_no_accept s sp o ls acc : LocalT s sp o ls -> In acc ls -> ~ Is CAccept AOk acc.
Proof. intros H Hi Ha. refine (only_not _ _ _ _ _ (LocalT_calls _ _ _ _ H) _ Hi Ha). intros []. Qed.
Lemma remote_no_accept c p sp o rs acc : RemoteT c p sp o rs -> In acc rs -> ~ Is CAccept AOk acc.
Proof. intros H Hi Ha. refine (only_not _ _ _ _ _ (RemoteT_calls _ _ _ _ _ H) _ Hi Ha). intros []. Qed.
Lemma drop_no_accept c o ds acc : DropT c o ds -> In acc ds -> ~ Is CAccept AOk acc.
Proof. intros H Hi Ha. refine (only_not _ _ _ _ _ (DropT_calls _ _ _ H) _ Hi Ha). intros [?|?]; discriminate. Qed.

Lemma asked_conns pl e o ls es : AskedT pl e o ls es ->
  own_conns (ls ++ es) /\ (o <> Stopped -> closed_but (kept o) (ls ++ es)).
Proof.
  assert (HN : forall euid p u g m oo os, OpenT euid p u g m oo os -> oo <> Stopped -> (forall c, oo <> Done (Ok c)) ->
             forall acc, In acc os -> ~ Is CAccept AOk acc).
  { intros euid p u g m oo os HO NS NO acc Hi Ha. destruct (OpenT_acc _ _ _ _ _ _ _ HO NS _ Hi Ha) as (c & E & _). exact (NO c E). }
  intros H. destruct H.
  - rewrite app_nil_r. split; [apply own_none; eapply local_unused; eassumption|congruence].
  - rewrite app_nil_r. split; [apply own_none; eapply local_unused; eassumption|].
    intros _ acc Hi Ha. destruct (local_no_accept _ _ _ _ _ H Hi Ha).
  - rewrite app_nil_r. split; [apply own_none; eapply local_unused; eassumption|].
    intros _ acc Hi Ha. destruct (local_no_accept _ _ _ _ _ H Hi Ha).
  - split; [|congruence]. apply own_app_none; [apply own_none; eapply open_unused; eassumption|eapply local_unused; eassumption].
  - split; [apply own_app_none; [apply own_none; eapply open_unused; eassumption|eapply local_unused; eassumption]|].
    intros _ acc Hi Ha. apply in_app_iff in Hi as [Hi|Hi]; [destruct (local_no_accept _ _ _ _ _ H Hi Ha)|].
    destruct (HN _ _ _ _ _ _ _ H1 ltac:(discriminate) ltac:(discriminate) _ Hi Ha).
  - split; [apply own_app_none; [apply own_none; eapply open_unused; eassumption|eapply local_unused; eassumption]|].
    intros _ acc Hi Ha. apply in_app_iff in Hi as [Hi|Hi]; [destruct (local_no_accept _ _ _ _ _ H Hi Ha)|].
    destruct (HN _ _ _ _ _ _ _ H1 ltac:(discriminate) ltac:(discriminate) _ Hi Ha).
  - split; [|congruence]. apply own_app_none; [|eapply local_unused; eassumption].
    eapply own_one; [|eapply open_unused; eassumption|eapply remote_uses; eassumption].
    destruct (OpenT_accept _ _ _ _ _ _ _ H1) as (o1 & acc & o2 & -> & Ha & Hc & _). exists acc.
    split; [apply in_or_app; right; left; reflexivity|auto].
  - split; [|congruence]. apply own_app_none; [|eapply local_unused; eassumption].
    eapply own_one; [|eapply open_unused; eassumption|apply Only_app; split; [eapply remote_uses; eassumption|eapply drop_uses; eassumption]].
    destruct (OpenT_accept _ _ _ _ _ _ _ H1) as (o1 & acc & o2 & -> & Ha & Hc & _). exists acc.
    split; [apply in_or_app; right; left; reflexivity|auto].
  - split.
    + apply own_app_none; [|eapply local_unused; eassumption].
      eapply own_one; [|eapply open_unused; eassumption|apply Only_app; split; [eapply remote_uses; eassumption|eapply drop_uses; eassumption]].
      destruct (OpenT_accept _ _ _ _ _ _ _ H1) as (o1 & acc & o2 & -> & Ha & Hc & _). exists acc.
      split; [apply in_or_app; right; left; reflexivity|auto].
    + intros _ acc Hi Ha. apply in_app_iff in Hi as [Hi|Hi]; [destruct (local_no_accept _ _ _ _ _ H Hi Ha)|].
      apply in_app_iff in Hi as [Hi|Hi].
      2: { apply in_app_iff in Hi as [Hi|Hi]; [destruct (remote_no_accept _ _ _ _ _ _ H2 Hi Ha)|destruct (drop_no_accept _ _ _ _ H3 Hi Ha)]. }
      destruct (OpenT_acc _ _ _ _ _ _ _ H1 ltac:(discriminate) _ Hi Ha) as (c' & E & _ & Ec & _). injection E as E.
      cbn [kept]. inversion H3 as [| |sd cl Hsd Hcl]; subst. exists (ls ++ os ++ rs ++ [sd]), cl.
      split; [rewrite <- !app_assoc; reflexivity|]. exact Hcl.
  - split.
    + apply own_app_none; [|eapply local_unused; eassumption].
      eapply own_one; [|eapply open_unused; eassumption|eapply remote_uses; eassumption].
      destruct (OpenT_accept _ _ _ _ _ _ _ H1) as (o1 & acc & o2 & -> & Ha & Hc & _). exists acc.
      split; [apply in_or_app; right; left; reflexivity|auto].
    + intros _ acc Hi Ha. apply in_app_iff in Hi as [Hi|Hi]; [destruct (local_no_accept _ _ _ _ _ H Hi Ha)|].
      apply in_app_iff in Hi as [Hi|Hi]; [|destruct (remote_no_accept _ _ _ _ _ _ H2 Hi Ha)].
      destruct (OpenT_acc _ _ _ _ _ _ _ H1 ltac:(discriminate) _ Hi Ha) as (c' & E & _ & Ec & _). injection E as E.
      cbn. congruence.
Qed.

Lemma pair_conns pl e o es : PairT pl e o es -> own_conns es /\ (o <> Stopped -> closed_but (kept o) es).
Proof.
  destruct 1; try (split; [intros ? ? []|intros _ ? []]). apply asked_conns with (1 := H1).
Qed.

Lemma pair_kept pl e p c es : PairT pl e (Done (Ok p)) es -> sp_socket p = Some c ->
  exists acc, In acc es /\ Is CAccept AOk acc /\ c = List.length (k_conns (e_pre acc)).
Proof.
  intros H Hs. inversion H as [|E1|E1 E2|o ls os E1 E2 HA]; subst; [discriminate|].
  inversion HA as [| | | | | | | | |c' mode ls' os' rs HL HM HO HR]; subst. cbn in Hs. injection Hs as ->.
  destruct (OpenT_accept _ _ _ _ _ _ _ HO) as (o1 & acc & o2 & -> & Ha & Hc & _). exists acc. split; [|auto].
  rewrite !in_app_iff. right. left. right. left. reflexivity.
Qed.

(** Like [closed_but], with error text allowed after the close. *)
Definition all_closed (es : list event) : Prop :=
  forall acc, In acc es -> Is CAccept AOk acc ->
  exists e1 cl e2, es = e1 ++ cl :: e2 /\ Is (CClose (List.length (k_conns (e_pre acc)))) AOk cl /\ Only NotConn e2.

Lemma own_app_end a b : own_conns a -> Only (fun c => forall n, ~ UsesConnection n c) b -> own_conns (a ++ b).
Proof.
  intros H Hb ev n Hin Hu. apply in_app_iff in Hin as [Hin|Hin].
  - destruct (H ev n Hin Hu) as (acc & Hi & X). exists acc. split; [apply in_or_app; left; exact Hi|exact X].
  - unfold Only in Hb. rewrite Forall_forall in Hb. destruct (Hb _ Hin n Hu).
Qed.

Lemma closed_report a d r ps es : closed_but None es -> reported a d r ps -> all_closed (es ++ ps).
Proof.
  intros H HR acc Hi Ha. pose proof (proj1 (reported_text _ _ _ _ HR)) as HX.
  apply in_app_iff in Hi as [Hi|Hi].
  - destruct (H acc Hi Ha) as (e1 & cl & -> & Hcl). exists e1, cl, ps.
    split; [rewrite <- app_assoc; reflexivity|]. split; [exact Hcl|]. revert HX. apply Only_weaken. intros c [d' ->]. exact I.
  - exfalso. refine (only_not _ _ _ _ _ HX _ Hi Ha). intros [d' E]. discriminate.
Qed.

Lemma closed_all es : closed_but None es -> all_closed es.
Proof.
  intros H acc Hi Ha. destruct (H acc Hi Ha) as (e1 & cl & -> & Hcl).
  exists e1, cl, []. split; [reflexivity|]. split; [exact Hcl|constructor].
Qed.

Lemma core_conns pl a st q o es : CoreT pl a st o es -> st_plugin st = Some q ->
  own_conns es
  /\ (o <> Stopped -> all_closed es
      /\ exists z st', o = Done (z, st') /\ st_plugin st' = Some q /\ (forall e, st_env st = Some e -> st_env st' = Some e)).
Proof.
  intros H Hq. destruct H as [E|er ps r E [Hr Hp]|er ps E Hp|e' e o es E He HR].
  - split; [intros ? ? []|]. intros _. split; [intros ? []|]. exists (-1), st. auto.
  - split; [apply own_none; eapply printed_unused; exact Hp|]. intros _. split.
    + intros acc Hi Ha. exfalso. refine (only_not _ _ _ _ _ (proj1 (reported_text _ _ _ _ Hp)) _ Hi Ha). intros [d' X]. discriminate.
    + exists (-1), st. auto.
  - split; [apply own_none; eapply printed_unused; exact Hp|congruence].
  - assert (HE : forall p e0, st_env st = Some e0 -> st_env (@mkPstate SudoPair (Some e) p) = Some e0)
      by (intros p e0 X; cbn; rewrite He, X; reflexivity).
    destruct HR as [e1 Hc|e1 es1 Hc HP|e1 es1 Hc HP|e1 er es1 ps r Hc HP Hr Hp|e1 er es1 ps Hc HP Hp|e1 p es1 Hc HP Hn|e1 p q' es1 o ds Hc HP Hn Hd].
    + split; [intros ? ? []|]. intros _. split; [intros ? []|]. do 2 eexists. split; [reflexivity|]. split; [exact Hq|auto].
    + apply pair_conns in HP as [X _]. split; [exact X|congruence].
    + apply pair_conns in HP as [X Y]. split; [exact X|]. intros _. split; [apply closed_all, (Y ltac:(discriminate))|].
      do 2 eexists. split; [reflexivity|]. split; [exact Hq|auto].
    + apply pair_conns in HP as [X Y]. split; [apply own_app_end; [exact X|eapply printed_unused; exact Hp]|].
      intros _. split; [eapply closed_report; [exact (Y ltac:(discriminate))|exact Hp]|].
      do 2 eexists. split; [reflexivity|]. split; [exact Hq|auto].
    + apply pair_conns in HP as [X Y]. split; [apply own_app_end; [exact X|eapply printed_unused; exact Hp]|congruence].
    + congruence.
    + rewrite Hn in Hq. injection Hq as ->.
      assert (HK : forall c, sp_socket p = Some c -> exists acc, In acc es1 /\ Is CAccept AOk acc /\ c = List.length (k_conns (e_pre acc)))
        by (intros c Hs; exact (pair_kept _ _ _ _ _ HP Hs)).
      apply pair_conns in HP as [X Y]. specialize (Y ltac:(discriminate)). cbn [kept] in Y.
      destruct (sp_socket p) as [c|] eqn:Es.
      * assert (HD : exists od, DropT c od ds) by (destruct Hd as [[_ Hd]|[_ Hd]]; eauto). destruct HD as [od HD].
        split.
        { intros ev n Hin Hu. apply in_app_iff in Hin as [Hin|Hin].
          - destruct (X ev n Hin Hu) as (acc & Hi & Ha). exists acc. split; [apply in_or_app; left; exact Hi|exact Ha].
          - pose proof (drop_uses _ _ _ HD) as HU. unfold Only in HU. rewrite Forall_forall in HU.
            rewrite (HU ev Hin n Hu). destruct (HK c eq_refl) as (acc & Hi & Ha).
            exists acc. split; [apply in_or_app; left; exact Hi|exact Ha]. }
        intros Ns. destruct Hd as [[-> _]|[-> Hd]]; [congruence|]. split.
        { inversion Hd as [| |sd cl Hsd Hcl]; subst ds. intros acc Hi Ha. apply in_app_iff in Hi as [Hi|Hi].
          2: { destruct (drop_no_accept _ _ _ _ Hd Hi Ha). }
          pose proof (Y acc Hi Ha) as E'. cbn in E'. rewrite <- E'. exists (es1 ++ [sd]), cl, [].
          split; [rewrite <- app_assoc; reflexivity|]. split; [exact Hcl|constructor]. }
        do 2 eexists. split; [reflexivity|]. split; [reflexivity|auto].
      * destruct Hd as [-> ->]. rewrite app_nil_r. split; [exact X|]. intros _. split; [apply closed_all; exact Y|].
        do 2 eexists. split; [reflexivity|]. split; [reflexivity|auto].
Qed.

(** ** In the kernel *)
Lemma Linked_more euid k ts evs k' : Linked euid k ts evs k' -> (List.length (k_conns k) <= List.length (k_conns k'))%nat.
Proof.
  induction 1 as [|k acts a c k1 k2 ts evs k' E1 E2 HL IH]; [lia|].
  assert (Ha : k_conns k1 = k_conns k).
  { subst k1. clear. revert k. induction acts as [|x acts IH]; intros k; [reflexivity|]. cbn. rewrite IH. apply act_conns. }
  assert (He : (List.length (k_conns k1) <= List.length (k_conns k2))%nat).
  { subst k2. destruct c; try (rewrite effect_conns by discriminate; lia).
    cbn. repeat match goal with |- context [match ?x with _ => _ end] => destruct x end; cbn; try lia.
    rewrite app_length. lia. }
  rewrite Ha in He. lia.
Qed.

Lemma open_stays euid c k ts evs k' : Linked euid k ts evs k' -> (forall ev, In ev evs -> e_call ev <> CClose c) ->
  In c (k_open k) -> In c (k_open k').
Proof.
  induction 1 as [|k acts a ca k1 k2 ts evs k' E1 E2 HL IH]; intros HN Hc; [exact Hc|].
  assert (Ha : k_open k1 = k_open k).
  { subst k1. clear. revert k. induction acts as [|x acts IH]; intros k; [reflexivity|]. cbn. rewrite IH. apply act_open. }
  apply IH; [intros ev Hi; apply HN; right; exact Hi|].
  specialize (HN (mkEvent ca a k1 k2) (or_introl eq_refl)). cbn in HN. rewrite <- Ha in Hc. subst k2.
  destruct ca; try (rewrite effect_open by exact I; exact Hc).
  - cbn. repeat match goal with |- context [match ?x with _ => _ end] => destruct x end; cbn; auto.
  - cbn. destruct a; try exact Hc. cbn. apply in_in_remove; [congruence|exact Hc].
Qed.

Lemma open_again pl a st p w o w' evs :
  st_plugin st = Some p ->
  core_open SudoPair pl a st w = (o, w') -> w_trace w' = w_trace w ++ evs ->
  (forall c, (c < List.length (k_conns (w_k w)))%nat ->
     (forall ev, In ev evs -> ~ UsesConnection c (e_call ev))
     /\ (In c (k_open (w_k w)) -> In c (k_open (w_k w'))))
  /\ (o = Stopped
      \/ exists z st', o = Done (z, st')
         /\ st_plugin st' = Some p /\ (forall e, st_env st = Some e -> st_env st' = Some e)
         /\ forall acc, In acc evs -> Is CAccept AOk acc -> ~ In (List.length (k_conns (e_pre acc))) (k_open (w_k w'))).
Proof.
  intros Hp H T. destruct (core_open_yields pl a st w o w' H) as (evs' & R & HC).
  rewrite (Ran_given _ _ _ _ _ R T). clear T evs. destruct R as (ts & _ & _ & L).
  destruct (core_conns _ _ _ _ _ _ HC Hp) as [HO HD].
  assert (HU : forall c, (c < List.length (k_conns (w_k w)))%nat -> forall ev, In ev evs' -> ~ UsesConnection c (e_call ev)).
  { intros c Hc ev Hi Hu. destruct (HO ev c Hi Hu) as (acc & Hia & _ & ->).
    apply in_split in Hia as (e1 & e2 & ->). apply Linked_at in L as (t1 & acts & an & t2 & k1 & _ & L1 & Hpre & _).
    apply Linked_more in L1. assert (Ha : k_conns (e_pre acc) = k_conns k1).
    { rewrite Hpre. clear. revert k1. induction acts as [|x acts IH]; intros k; [reflexivity|]. cbn. rewrite IH. apply act_conns. }
    rewrite Ha in Hc. lia. }
  split.
  - intros c Hc. split; [exact (HU c Hc)|]. intros Ho. eapply open_stays; [exact L| |exact Ho].
    intros ev Hi E. apply (HU c Hc ev Hi). rewrite E. reflexivity.
  - destruct o as [[z st']| |]; [| |left; reflexivity].
    2: { destruct (HD ltac:(discriminate)) as [_ (z & st' & E & _)]. discriminate. }
    right. destruct (HD ltac:(discriminate)) as [HA (z' & st'' & E & X & Y)]. injection E as <- <-.
    exists z, st'. split; [reflexivity|]. split; [exact X|]. split; [exact Y|].
    intros acc Hi Ha. destruct (HA acc Hi Ha) as (e1 & cl & e2 & -> & Hcl & HX).
    apply Linked_at in L as (t1 & acts & an & t2 & k1 & _ & _ & _ & _ & HP & L).
    rewrite (Linked_open _ _ _ _ _ L HX), HP, (proj1 Hcl), (proj2 Hcl). cbn. apply remove_In.
Qed.

Lemma same_session pl a rq st c a2 w z st' w' : PairedSession pl a rq st c ->
  core_open SudoPair pl a2 st w = (Done (z, st'), w') -> st' = st.
Proof.
  intros P H. destruct (paired_state _ _ _ _ _ P) as (e & _ & _ & ->).
  destruct (core_open_yields pl a2 _ w _ w' H) as (evs & (ts & _ & T & _) & _).
  destruct (open_again pl a2 (ps e (Some (with_conn e c))) (with_conn e c) w _ w' evs eq_refl H T) as [_ [E|(z' & st'' & E & X & Y & _)]];
    [discriminate|].
  injection E as <- <-. destruct st' as [e' p']. cbn in X, Y. specialize (Y _ eq_refl). rewrite X, Y. reflexivity.
Qed.

Lemma delivered_unused c es : (forall ev, In ev es -> ~ UsesConnection c (e_call ev)) -> delivered c es = [].
Proof.
  intros H. apply delivered_none with (C := fun ca => ~ UsesConnection c ca).
  - intros d X. apply X. reflexivity.
  - apply Forall_forall. exact H.
Qed.

Lemma watched_amid_opens pl a rq st c h : forall w zs st' w' evs,
  PairedSession pl a rq st c -> Forall NotClose h -> (c < List.length (k_conns (w_k w)))%nat ->
  run_history SudoPair pl h st w = (Done (zs, st'), w') -> w_trace w' = w_trace w ++ evs ->
  st' = st /\ ReceivedAmidOpens rq h zs (delivered c evs).
Proof.
  induction h as [|cb h IH]; intros w zs st' w' evs P F Hc H T.
  - cbn in H. injection H as <- <- <-. rewrite <- (app_nil_r (w_trace w)) in T at 1. apply app_inv_head in T. subst evs.
    split; [reflexivity|constructor].
  - cbn [run_history] in H. unfold bind in H.
    destruct (run_callback SudoPair pl cb st w) as [[[z st1]| |] w1] eqn:E1; try discriminate.
    destruct (run_history SudoPair pl h st1 w1) as [[[zs2 st2]| |] w2] eqn:E2; try discriminate.
    cbn in H. injection H as <- <- <-. inversion F as [|? ? Hcb F']; subst.
    assert (HS : exists es1, w_trace w1 = w_trace w ++ es1 /\ (List.length (k_conns (w_k w)) <= List.length (k_conns (w_k w1)))%nat
      /\ st1 = st /\ (forall zs' rest, ReceivedAmidOpens rq h zs' rest -> ReceivedAmidOpens rq (cb :: h) (z :: zs') (delivered c es1 ++ rest))).
    { destruct (match cb with CbOpen a0 => Some a0 | _ => None end) as [a0|] eqn:Ecb.
      - destruct cb; try discriminate. injection Ecb as ->. cbn [run_callback] in E1.
        destruct (core_open_yields pl a0 _ w _ w1 E1) as (es1 & (ts & Hs & T1 & L) & _). exists es1.
        split; [exact T1|]. split; [exact (Linked_more _ _ _ _ _ L)|]. split; [exact (same_session _ _ _ _ _ _ _ _ _ _ P E1)|].
        intros zs' rest HR. destruct (paired_state _ _ _ _ _ P) as (e & _ & _ & ->).
        destruct (open_again pl a0 (ps e (Some (with_conn e c))) (with_conn e c) w _ w1 es1 eq_refl E1 T1) as [X _].
        rewrite (delivered_unused c es1 (proj1 (X c Hc))). apply RA_open. exact HR.
      - assert (HI : InSession cb) by (destruct cb; try exact I; try discriminate; exact Hcb).
        pose proof P as (_ & NE & _). destruct (paired_state _ _ _ _ _ P) as (e & M & HE & ->).
        destruct (callback_yields pl a rq e c cb M NE HE HI w _ w1 E1) as (es1 & (ts & Hs & T1 & L) & Q). cbn in Q.
        destruct Q as [-> (out & HM & Hz)]. exists es1. split; [exact T1|]. split; [exact (Linked_more _ _ _ _ _ L)|].
        split; [reflexivity|]. intros zs' rest HR. eapply RA_cons; [exact HM| |exact HR]. exact Hz. }
    destruct HS as (es1 & T1 & Hle & -> & HK).
    assert (HT : exists es2, w_trace w2 = w_trace w1 ++ es2).
    { destruct (whole_history pl h _ _ _ _ E2) as (es2 & T2 & _). eauto. }
    destruct HT as [es2 T2]. rewrite T2, T1, <- app_assoc in T. apply app_inv_head in T. subst evs.
    destruct (IH w1 zs2 st2 w2 es2 P F' ltac:(lia) E2 T2) as [-> HR]. split; [reflexivity|].
    rewrite delivered_app. apply HK. exact HR.
Qed.
