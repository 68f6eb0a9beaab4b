(** What the socket looks like while the plugin waits for a pair. *)
From Coq Require Import Lia.
From Verif Require Import Base BaseLemmas Num Path Template Options World Sys Io Socket Env Core Pair
  Spec TraceSpec SessionSpec AdversarySpec PathProofs RequestProofs PairPure InputFacts RunProofs IoProofs SocketProofs PairProofs
  KernelFacts OpenFacts AskFacts MiscFacts SplitFacts CleanupFacts FilesFacts ShapeFacts AdversaryFacts GuardFacts SessionFacts TalkSpec ArgFacts
  PeerFacts ScriptFacts ListingSpec.
Local Open Scope Z_scope.

(** ** Where the waiting takes place *)
Definition Waits (p : bytes) (u g m : Z) (evs : list event) (se : event) : Prop :=
  exists pre um fd sk b li co cm e4, evs = pre ++ um :: sk :: b :: li :: co :: cm :: se :: e4
    /\ Only (PreBind (components p)) pre /\ Is (CUmask UMASK_ALL) AOk um /\ Is CSocket (ANum fd) sk /\ bound p b
    /\ Is CListen AOk li /\ chowned p u g co /\ chmoded p m cm /\ Forall Rest e4.

Lemma not_select (P : call -> Prop) es se : Only P es -> (P CSelect -> False) -> In se es -> e_call se = CSelect -> False.
Proof. intros H HN Hin E. unfold Only in H. rewrite Forall_forall in H. apply H in Hin. rewrite E in Hin. exact (HN Hin). Qed.

Lemma serve_waits p u g m fd o ss se : ServeT fd p u g m o ss -> In se ss -> e_call se = CSelect ->
  exists co cm e4, ss = co :: cm :: se :: e4 /\ chowned p u g co /\ chmoded p m cm /\ Forall Rest e4.
Proof.
  intros H Hin E.
  assert (X1 : forall co, chowned p u g co -> co <> se) by (intros co [[X _] _] ->; congruence).
  assert (X2 : forall cm, chmoded p m cm -> cm <> se) by (intros co [[X _] _] ->; congruence).
  destruct H as [|e co Y F|co Hc|e co cm Hc Y F|co cm Hc Hm|co cm Hc Hm|e e' co cm se' Hc Hm _ Hse|n co cm se' Hc Hm _ _ Hse|o co cm se' es Hc Hm _ Hse Ha];
    cbn [In] in Hin.
  - destruct Hin.
  - destruct Hin as [<-|[]]. congruence.
  - destruct Hin as [<-|[]]. destruct (X1 _ Hc eq_refl).
  - destruct Hin as [<-|[<-|[]]]; [destruct (X1 _ Hc eq_refl)|congruence].
  - destruct Hin as [<-|[<-|[]]]; [destruct (X1 _ Hc eq_refl)|destruct (X2 _ Hm eq_refl)].
  - destruct Hin as [<-|[<-|[]]]; [destruct (X1 _ Hc eq_refl)|destruct (X2 _ Hm eq_refl)].
  - destruct Hin as [<-|[<-|[<-|[]]]]; [destruct (X1 _ Hc eq_refl)|destruct (X2 _ Hm eq_refl)|].
    exists co, cm, []. auto.
  - destruct Hin as [<-|[<-|[<-|[]]]]; [destruct (X1 _ Hc eq_refl)|destruct (X2 _ Hm eq_refl)|].
    exists co, cm, []. auto.
  - destruct Hin as [<-|[<-|[<-|Hin]]]; [destruct (X1 _ Hc eq_refl)|destruct (X2 _ Hm eq_refl)| |].
    + exists co, cm, es. split; [reflexivity|]. split; [exact Hc|]. split; [exact Hm|]. eapply AcceptT_rest. exact Ha.
    + exfalso. eapply not_select; [exact (AcceptT_only _ _ Ha)| |exact Hin|exact E]. discriminate.
Qed.

Lemma bind_serve_waits p u g m fd o es ss ts se : BindT p (Done (Ok fd)) es -> ServeT fd p u g m o ss -> Forall Rest ts ->
  Forall (fun ev => e_call ev <> CSelect) ts -> In se (es ++ ss ++ ts) -> e_call se = CSelect ->
  exists fd sk b li co cm e4, es ++ ss ++ ts = sk :: b :: li :: co :: cm :: se :: e4
    /\ Is CSocket (ANum fd) sk /\ bound p b /\ Is CListen AOk li /\ chowned p u g co /\ chmoded p m cm /\ Forall Rest e4.
Proof.
  intros HB HS HR HN Hin E.
  assert (Hss : In se ss).
  { apply in_app_or in Hin as [H|H].
    - exfalso. eapply not_select; [exact (BindT_only _ _ _ HB)| |exact H|exact E].
      intros [X|[X|[X|X]]]; discriminate X.
    - apply in_app_or in H as [H|H]; [exact H|]. rewrite Forall_forall in HN. destruct (HN _ H E). }
  destruct (serve_waits _ _ _ _ _ _ _ _ HS Hss E) as (co & cm & e4 & -> & Hc & Hm & H4).
  remember (Done (Ok fd)) as ob eqn:Eo.
  destruct HB as [e _| |e e' ev I1|fd' ev I1|fd' ev b I1 U|e fd' ev b cl I1 U I2|fd' ev b I1 Bd|fd' e' ev b li I1 Bd I2|e fd' e' ev b li cl I1 Bd I2 I3|fd' ev b li _ I1 Bd I2 _];
    try discriminate Eo.
  exists fd', ev, b, li, co, cm, (e4 ++ ts). split; [reflexivity|]. split; [exact I1|]. split; [exact Bd|]. split; [exact I2|].
  split; [exact Hc|]. split; [exact Hm|]. apply Forall_app. auto.
Qed.

Lemma tail_calm {A} p old (r : A) o ts : TailT p old r o ts -> Forall (fun ev => e_call ev <> CSelect) ts.
Proof.
  assert (X : forall x es, UnlinkT p x es -> Forall (fun ev => e_call ev <> CSelect) es).
  { intros x es H. apply UnlinkT_only in H. revert H. apply Forall_impl. intros ev [->| ->]; discriminate. }
  intros [es H|es x H|es x um H [E _]]; [eapply X; exact H|eapply X; exact H|].
  apply Forall_app. split; [eapply X; exact H|]. constructor; [congruence|constructor].
Qed.

Lemma open_waits euid p u g m o os se : OpenT euid p u g m o os -> In se os -> e_call se = CSelect -> Waits p u g m os se.
Proof.
  intros H Hin E.
  assert (XE : forall o es, EnforceT euid p o es -> ~ In se es).
  { intros x es HE Hi. eapply not_select; [exact (EnforceT_stat _ _ _ _ HE)| |exact Hi|exact E]. intros [d X]. discriminate X. }
  assert (XU : forall o es, UnlinkT p o es -> ~ In se es).
  { intros x es HU Hi. eapply not_select; [exact (UnlinkT_only _ _ _ HU)| |exact Hi|exact E]. intros [X|X]; discriminate X. }
  destruct H as [es HE|e es HE|es us HE HU|e es us HE HU|es us HE HU|es us um o' ms HE HU Hum HM].
  1,2: destruct (XE _ _ HE Hin).
  1,2,3: apply in_app_or in Hin as [Hin|Hin]; [destruct (XE _ _ HE Hin)|destruct (XU _ _ HU Hin)].
  apply in_app_or in Hin as [Hin|Hin]; [destruct (XE _ _ HE Hin)|].
  apply in_app_or in Hin as [Hin|Hin]; [destruct (XU _ _ HU Hin)|].
  destruct Hin as [<-|Hin]; [destruct Hum; congruence|].
  assert (HP : Only (PreBind (components p)) (es ++ us)).
  { onl; [eapply stat_pre, EnforceT_stat; exact HE|eapply su_pre, UnlinkT_only; exact HU]. }
  assert (XB : forall o es, BindT p o es -> ~ In se es).
  { intros x bs HB Hi. eapply not_select; [exact (BindT_only _ _ _ HB)| |exact Hi|exact E].
    intros [X|[X|[X|X]]]; discriminate X. }
  assert (HW : exists fd sk b li co cm e4, ms = sk :: b :: li :: co :: cm :: se :: e4
    /\ Is CSocket (ANum fd) sk /\ bound p b /\ Is CListen AOk li /\ chowned p u g co /\ chmoded p m cm /\ Forall Rest e4).
  { destruct HM as [bs HB|e o' bs ts HB HT|fd bs ss HB HS|fd bs ss HB HS|fd bs ss cl HB HS Hcl|fd r bs ss HB HS|fd r o' bs ss cl ts HB HS Hcl HT].
    - destruct (XB _ _ HB Hin).
    - apply in_app_or in Hin as [Hin|Hin]; [destruct (XB _ _ HB Hin)|].
      pose proof (tail_calm _ _ _ _ _ HT) as HC. rewrite Forall_forall in HC. destruct (HC _ Hin E).
    - rewrite <- (app_nil_r ss) in *. eapply bind_serve_waits; [exact HB| |constructor|constructor|exact Hin|exact E].
      rewrite (app_nil_r ss) in HS. exact HS.
    - rewrite <- (app_nil_r ss) in *. eapply bind_serve_waits; [exact HB| |constructor|constructor|exact Hin|exact E].
      rewrite (app_nil_r ss) in HS. exact HS.
    - eapply bind_serve_waits; [exact HB|exact HS| | |exact Hin|exact E].
      + constructor; [|constructor]. eapply is_rest; [exact Hcl|exact Logic.I].
      + constructor; [destruct Hcl; congruence|constructor].
    - rewrite <- (app_nil_r ss) in *. eapply bind_serve_waits; [exact HB| |constructor|constructor|exact Hin|exact E].
      rewrite (app_nil_r ss) in HS. exact HS.
    - eapply bind_serve_waits; [exact HB|exact HS| | |exact Hin|exact E].
      + constructor; [|eapply TailT_rest; exact HT]. eapply is_rest; [exact Hcl|exact Logic.I].
      + constructor; [destruct Hcl; congruence|eapply tail_calm; exact HT]. }
  destruct HW as (fd & sk & b & li & co & cm & e4 & -> & H1 & H2 & H3 & H4 & H5 & H6).
  exists (es ++ us), um, fd, sk, b, li, co, cm, e4. split; [rewrite <- app_assoc; reflexivity|]. auto 10.
Qed.

Lemma waits_app p u g m ls os post se : Only LocalPrompt ls -> Waits p u g m os se -> Only TalkCall post ->
  Waits p u g m (ls ++ os ++ post) se.
Proof.
  intros HL (pre & um & fd & sk & b & li & co & cm & e4 & -> & Hp & Hu & Hs & Hb & Hl & Hc & Hm & H4) HP.
  exists (ls ++ pre), um, fd, sk, b, li, co, cm, (e4 ++ post).
  split; [rewrite <- !app_assoc; reflexivity|]. split; [onl; apply local_pre; exact HL|]. do 6 (split; [assumption|]).
  apply Forall_app. split; [exact H4|apply talk_rest; exact HP].
Qed.

Section Opening.
Variables (pl : platform) (a : open_args) (rq : request).
Hypothesis D : Describes pl a rq.
Variables (w w' : world) (o : outcome (Z * pstate SudoPair)) (evs : list event).
Hypothesis HR : core_open SudoPair pl a (pstate0 _) w = (o, w').
Hypothesis HT : w_trace w' = w_trace w ++ evs.
Notation euid := (pl_euid pl).

Definition OpenWaits (u g m : Z) (se : event) : Prop :=
  exists ts p, components p = sock_comps rq /\ w_script w = ts ++ w_script w'
    /\ Linked euid (w_k w) ts evs (w_k w') /\ Waits p u g m evs se.

Lemma select_inside ls os post se : Only LocalPrompt ls -> Only TalkCall post -> In se (ls ++ os ++ post) -> e_call se = CSelect -> In se os.
Proof.
  intros HL HP Hin E. apply in_app_or in Hin as [H|H].
  - exfalso. eapply not_select; [exact HL|intros X; exact X|exact H|exact E].
  - apply in_app_or in H as [H|H]; [exact H|]. exfalso. eapply not_select; [exact HP|intros X; exact X|exact H|exact E].
Qed.

Lemma opened_waits se : rq_uid rq <> rq_to_uid rq -> In se evs -> e_call se = CSelect -> OpenWaits (rq_to_uid rq) NO_ID 128 se.
Proof.
  intros HU Hin E. destruct (split_given pl a rq D w o w' evs HR HT) as [(ts & Es & _ & HL) HS].
  inversion HS as [o0 evs0 HO _ Eo Ee|e mode oo ls os o0 post M _ _ HNG Hl Hm HOp HA Eo Ee].
  { exfalso. eapply not_select; [exact HO|intros X; exact X|exact Hin|exact E]. }
  assert (EU : is_sudoing_to_user (pair0 e) = true) by (apply (to_user_iff e rq M); exact HU).
  assert (EG : is_sudoing_to_explicit_group (pair0 e) = false).
  { destruct (is_sudoing_to_explicit_group (pair0 e)) eqn:EG; [|reflexivity]. apply (explicit_group_iff e rq M) in EG. tauto. }
  assert (H1 : socket_uid (pair0 e) = rq_to_uid rq). { unfold socket_uid. rewrite EU. exact (m_to_uid _ _ M). }
  assert (H2 : socket_gid (pair0 e) = NO_ID) by (unfold socket_gid; rewrite EG; reflexivity).
  unfold socket_mode in Hm. rewrite EU in Hm. injection Hm as <-. rewrite H1, H2 in HOp.
  exists ts, (socket_path (pair0 e)). split; [apply (socket_path_comps e rq M)|]. split; [exact Es|]. split; [rewrite <- Ee; exact HL|].
  pose proof (LocalT_calls _ _ _ _ Hl) as XL. pose proof (AfterT_calls _ _ _ _ HA) as XA.
  rewrite <- Ee in Hin |- *. apply waits_app; [exact XL| |exact XA].
  eapply open_waits; [exact HOp|eapply select_inside; eassumption|exact E].
Qed.

Lemma opened_group_waits se : rq_uid rq = rq_to_uid rq -> In se evs -> e_call se = CSelect -> OpenWaits NO_ID (rq_to_gid rq) 16 se.
Proof.
  intros HU Hin E. destruct (split_given pl a rq D w o w' evs HR HT) as [(ts & Es & _ & HL) HS].
  inversion HS as [o0 evs0 HO _ Eo Ee|e mode oo ls os o0 post M _ _ HNG Hl Hm HOp HA Eo Ee].
  { exfalso. eapply not_select; [exact HO|intros X; exact X|exact Hin|exact E]. }
  assert (EU : is_sudoing_to_user (pair0 e) = false).
  { destruct (is_sudoing_to_user (pair0 e)) eqn:EU; [|reflexivity]. apply (to_user_iff e rq M) in EU. contradiction. }
  unfold socket_mode in Hm. rewrite EU in Hm.
  destruct (is_sudoing_to_explicit_group (pair0 e)) eqn:EG; [|discriminate]. injection Hm as <-.
  assert (H1 : socket_uid (pair0 e) = NO_ID) by (unfold socket_uid; rewrite EU; reflexivity).
  assert (H2 : socket_gid (pair0 e) = rq_to_gid rq). { unfold socket_gid. rewrite EG. exact (m_to_gid _ _ M). }
  rewrite H1, H2 in HOp.
  exists ts, (socket_path (pair0 e)). split; [apply (socket_path_comps e rq M)|]. split; [exact Es|]. split; [rewrite <- Ee; exact HL|].
  pose proof (LocalT_calls _ _ _ _ Hl) as XL. pose proof (AfterT_calls _ _ _ _ HA) as XA.
  rewrite <- Ee in Hin |- *. apply waits_app; [exact XL| |exact XA].
  eapply open_waits; [exact HOp|eapply select_inside; eassumption|exact E].
Qed.
End Opening.

(** ** The socket from the waiting on *)
Section Guarded.
Variables (euid : Z) (Adm Tamper Out : cred -> Prop) (Side : path -> Prop) (q : path) (G : kernel -> Prop).
Hypothesis HG : Guarding euid Adm Tamper Side q G.
Variables (p : bytes) (u g m : Z).
Hypothesis Hq : components p = q.
Notation Stage := (Stage euid u g m).
Notation Sound := (Sound Adm Out).
Notation GOff := (GOff Side G).
Notation chown_of := (chown_of u g).
Notation chmod_of := (chmod_of m).
Hypothesis St_owner : forall gb i c, Stage gb i -> Tamper c -> cr_priv c = false /\ cr_uid c <> i_uid i.
Hypothesis St_out : forall gb i c, Stage gb i -> Out c -> may_write c i = false.

Lemma guarded_waits evs k ts k' se : Waits p u g m evs se -> e_call se = CSelect -> Linked euid k ts evs k' ->
  TameTurns Adm Tamper Side ts -> G k -> Forall (Unlinks q) evs ->
  exists e1 b gb e2 e3, evs = e1 ++ b :: e2 ++ se :: e3 /\ bound p b /\ e_ans b = ANum gb
    /\ k_names (e_pre se) q = Some (k_next (e_pre b))
    /\ forall k0, k0 = e_pre se \/ Afterwards k' se e3 k0 ->
       k_inodes k0 (k_next (e_pre b)) = chmod_of (chown_of (mkInode KSock euid gb 0)).
Proof.
  intros (pre & um & fd & sk & b & li & co & cm & e4 & -> & Hp & Hu & Hs & Hb & Hl & Hc & Hm & H4) Ese HL HTT HK HUn.
  pose proof Hb as (_ & (gb & Ea) & _).
  exists (pre ++ [um; sk]), b, gb, [li; co; cm], e4. split; [rewrite <- app_assoc; reflexivity|]. split; [exact Hb|]. split; [exact Ea|].
  pose proof (bound_state _ _ _ _ _ _ _ _ _ _ _ HL Hu Hs Hb) as HB.
  set (n := k_next (e_pre b)) in *. set (i0 := mkInode KSock euid gb 0) in *.
  assert (St0 : Stage gb i0) by (left; reflexivity).
  assert (S0 : Sound (eq i0) n (e_post b)) by (eapply Bound_Sound; [exact Ea|exact HB|reflexivity]).
  assert (N0 : k_names (e_post b) q = Some n).
  { destruct HB as (fd' & g' & _ & _ & ->). cbn. rewrite Hq. apply put_name_same. }
  set (tr := li :: co :: cm :: se :: e4) in *.
  change (pre ++ um :: sk :: b :: tr) with (pre ++ [um; sk] ++ b :: tr) in HL. rewrite app_assoc in HL.
  apply Linked_at in HL as (ts1 & acts & a & ts2 & k1 & -> & L1 & P1 & _ & Q1 & L2).
  apply TameTurns_app in HTT as [HT1 HTT]. pose proof (Forall_inv HTT) as HAc. apply Forall_inv_tail in HTT. cbn in HAc.
  assert (UT : Forall (Unlinks q) tr).
  { apply Forall_app in HUn as [_ H0]. do 3 apply Forall_inv_tail in H0. exact H0. }
  assert (G0 : GOff n (e_post b)).
  { assert (GP : G (e_pre b)).
    { rewrite P1. apply (proj1 (g_acts _ _ _ _ _ _ HG _ HAc k1 ltac:(eapply g_pre; [exact HG|exact L1|exact HT1| |exact HK]; apply Forall_app; split;
        [rewrite Hq in Hp; revert Hp; apply Forall_impl; intros ev H k0; apply PreBind_GCall; exact H
        |constructor; [intros k0; rewrite (proj1 Hu); exact Logic.I|constructor; [intros k0; rewrite (proj1 Hs); exact Logic.I|constructor]]]))). }
    rewrite Q1. eapply GOff_call; [exact HG|destruct Hb as (Eb & _); rewrite Eb; cbn; exact Hq|].
    split; [exact GP|apply (g_new _ _ _ _ _ _ HG); exact GP]. }
  unfold tr in *.
  (* listen *)
  change (li :: co :: cm :: se :: e4) with ([] ++ li :: co :: cm :: se :: e4) in L2.
  apply Linked_at in L2 as (ts3 & acts1 & a1 & ts4 & k2 & -> & L3 & P2 & _ & Q2 & L4). apply Linked_nil in L3. subst k2.
  apply TameTurns_app in HTT as [_ HTT]. pose proof (Forall_inv HTT) as HAl. apply Forall_inv_tail in HTT. cbn in HAl.
  destruct (acts_sound Adm Tamper Out Side (eq i0) n ltac:(intros j c <-; eapply St_owner; exact St0) ltac:(intros j c <-; eapply St_out; exact St0)
              (GOff n) (GOff_off Side G n) (GOff_act _ _ _ _ _ _ HG n) _ HAl _ G0 S0) as [G1 S1]. rewrite <- P2 in G1, S1.
  assert (S2 : Sound (eq i0) n (e_post li)).
  { rewrite Q2. apply effect_sound; [unfold Step; rewrite (proj1 Hl); exact Logic.I|exact S1]. }
  destruct (g_acts _ _ _ _ _ _ HG _ HAl _ (proj1 G0)) as [_ N1]. rewrite <- P2 in N1.
  assert (G2 : GOff n (e_post li)) by (rewrite Q2; eapply GOff_call; [exact HG|rewrite (proj1 Hl); exact Logic.I|exact G1]).
  assert (N2 : k_names (e_post li) q = Some n).
  { rewrite Q2, (proj1 Hl), (proj2 Hl). cbn [effect]. destruct (k_listen (e_pre li)); cbn; congruence. }
  (* chown *)
  destruct Hc as [[Ec Ac] _]. rewrite Hq in Ec.
  destruct (change_step euid Adm Tamper Out Side q G HG u g m St_owner St_out gb i0 n _ _ _ _ _ chown_of St0 L4 HTT G2 N2 S2) as (S3 & ts5 & T5 & G3 & N3 & S4 & L5).
  { intros k0 HH. rewrite Ec, Ac. cbn [effect]. rewrite (Holds_resolve _ _ _ HH). reflexivity. }
  { left. eauto. }
  assert (St1 : Stage gb (chown_of i0)) by (right; left; reflexivity).
  (* chmod *)
  destruct Hm as [[Em Am] _]. rewrite Hq in Em.
  destruct (change_step euid Adm Tamper Out Side q G HG u g m St_owner St_out gb (chown_of i0) n _ _ _ _ _ chmod_of St1 L5 T5 G3 N3 S4) as (S5 & ts6 & T6 & G4 & N4 & S6 & L6).
  { intros k0 HH. rewrite Em, Am. cbn [effect]. rewrite (Holds_resolve _ _ _ HH). reflexivity. }
  { right. eauto. }
  set (i2 := chmod_of (chown_of i0)) in *.
  assert (St2 : Stage gb i2) by (right; right; reflexivity).
  (* the wait *)
  assert (HR : Forall Rest (se :: e4)).
  { constructor; [unfold Rest; rewrite Ese; exact Logic.I|exact H4]. }
  assert (UR : Forall (Unlinks q) (se :: e4)) by (do 3 apply Forall_inv_tail in UT; exact UT).
  destruct (walk euid Adm Tamper Out Side (eq i2) n) with (Inv := GOff n) (k := e_post cm) (ts := ts6) (evs := se :: e4) (k' := k') as [SK HI]; try assumption.
  - intros j c <-. eapply St_owner. exact St2.
  - intros j c <-. eapply St_out. exact St2.
  - apply GOff_off.
  - apply (GOff_act _ _ _ _ _ _ HG).
  - revert HR. apply Forall_impl, Rest_Step.
  - rewrite Forall_forall in *. intros ev Hin. eapply rest_keeps; eauto.
  - split.
    + change (se :: e4) with ([] ++ se :: e4) in L6.
      apply Linked_at in L6 as (ts7 & acts2 & a2 & ts8 & k3 & -> & L7 & P3 & _). apply Linked_nil in L7. subst k3.
      apply TameTurns_app in T6 as [_ T6]. apply Forall_inv in T6. cbn in T6.
      destruct (g_acts _ _ _ _ _ _ HG _ T6 _ (proj1 G4)) as [_ N5]. rewrite P3, N5. exact N4.
    + intros k0 [->|[->|[->|(ev & Hin & [-> | ->])]]].
      * destruct (HI se (or_introl eq_refl)) as [(_ & X & _) _]. symmetry. exact X.
      * destruct (HI se (or_introl eq_refl)) as [_ (_ & X & _)]. symmetry. exact X.
      * destruct SK as (_ & X & _). symmetry. exact X.
      * destruct (HI ev (or_intror Hin)) as [(_ & X & _) _]. symmetry. exact X.
      * destruct (HI ev (or_intror Hin)) as [_ (_ & X & _)]. symmetry. exact X.
Qed.
End Guarded.

Section Claims.
Variables (pl : platform) (a : open_args) (rq : request) (w w' : world) (o : outcome (Z * pstate SudoPair)) (evs : list event).
Hypothesis D : Describes pl a rq.
Hypothesis HR : core_open SudoPair pl a (pstate0 _) w = (o, w').
Hypothesis HT : w_trace w' = w_trace w ++ evs.
Notation euid := (pl_euid pl).
Notation UserOut := (UserOutsider euid (rq_to_uid rq)).

Lemma waiting_user : rq_uid rq <> rq_to_uid rq -> rq_to_uid rq <> 4294967295 ->
  forall q, SocketPath rq q -> Guarded UserOut q (w_k w) -> Everyone (fun c x => UserOut c \/ OnlyConnects x) w ->
  forall se, In se evs -> e_call se = CSelect ->
  exists e1 b gb e2 e3 s, evs = e1 ++ b :: e2 ++ se :: e3 /\ Creates q b /\ e_ans b = ANum gb
    /\ k_names (e_pre se) q = Some (k_next (e_pre b))
    /\ (forall k, k = e_pre se \/ Afterwards (w_k w') se e3 k -> k_inodes k (k_next (e_pre b)) = s)
    /\ ls_mode s = B "s-w-------" /\ i_uid s = rq_to_uid rq /\ i_gid s = gb
    /\ forall c, may_write c s = true <-> cr_priv c = true \/ cr_uid c = rq_to_uid rq.
Proof.
  intros HU HN q Hq HG HE se Hin Ese.
  destruct (opened_waits pl a rq D w w' o evs HR HT se HU Hin Ese) as (ts & p & Ep & Es & HL & HW).
  destruct (alone rq _ _ _ Hq HG) as (S & HG' & HB & HPl).
  destruct (guarded_waits euid (fun _ => True) UserOut (fun _ => False) (fun _ => False) (sock_comps rq) _
              (guard_guarding euid _ _ S _ (fun _ => False) HB) p _ _ _ Ep
              ltac:(intros gb i c H HO; eapply user_stage_owner; [eapply user_stage; eassumption|exact HO])
              ltac:(intros gb i c _ []) evs _ _ _ se HW Ese HL
              (everyone_tame w w' _ _ _ _ _ (alone_everyone w _ HE)
                 ltac:(intros c x [H|[H|H]]; [left; split; [exact Logic.I|left; exact H]|left; split; [exact Logic.I|right; exact H]|right; exact H]) Es)
              (conj HG' HPl) (unlinks_own pl a rq D w w' o evs HR HT))
    as (e1 & b & gb & e2 & e3 & E & Hb & Ea & En & HI).
  exists e1, b, gb, e2, e3, (mkInode KSock (rq_to_uid rq) gb 128).
  split; [exact E|]. split; [rewrite (SocketPath_unique rq q Hq), <- Ep; exact Hb|]. split; [exact Ea|].
  split; [rewrite (SocketPath_unique rq q Hq); exact En|].
  split. { intros k Hk. rewrite (HI k Hk). unfold chmod_of, chown_of. cbn. apply Z.eqb_neq in HN. unfold NO_ID. rewrite HN. reflexivity. }
  split; [reflexivity|]. split; [reflexivity|]. split; [reflexivity|].
  intros c. unfold may_write. cbn [i_uid i_gid i_perm]. destruct (cr_priv c); cbn [orb]; [split; auto|].
  destruct (cr_uid c =? rq_to_uid rq) eqn:X; [apply Z.eqb_eq in X; split; auto|]. apply Z.eqb_neq in X.
  destruct (mem_z gb (cr_gids c)); (split; [discriminate|intros [Y|Y]; [discriminate Y|contradiction]]).
Qed.

Lemma waiting_group : rq_uid rq = rq_to_uid rq -> rq_to_gid rq <> 4294967295 ->
  forall q, SocketPath rq q -> Guarded (Unprivileged euid) q (w_k w) -> Everyone (fun c x => Unprivileged euid c \/ OnlyConnects x) w ->
  forall se, In se evs -> e_call se = CSelect ->
  exists e1 b e2 e3 s, evs = e1 ++ b :: e2 ++ se :: e3 /\ Creates q b
    /\ k_names (e_pre se) q = Some (k_next (e_pre b))
    /\ (forall k, k = e_pre se \/ Afterwards (w_k w') se e3 k -> k_inodes k (k_next (e_pre b)) = s)
    /\ ls_mode s = B "s----w----" /\ i_uid s = euid /\ i_gid s = rq_to_gid rq
    /\ forall c, may_write c s = true <-> cr_priv c = true \/ (cr_uid c <> euid /\ In (rq_to_gid rq) (cr_gids c)).
Proof.
  intros HU HN q Hq HG HE se Hin Ese.
  destruct (opened_group_waits pl a rq D w w' o evs HR HT se HU Hin Ese) as (ts & p & Ep & Es & HL & HW).
  destruct (alone rq _ _ _ Hq HG) as (S & HG' & HB & HPl).
  destruct (guarded_waits euid (fun _ => True) (Unprivileged euid) (fun _ => False) (fun _ => False) (sock_comps rq) _
              (guard_guarding euid _ _ S _ (fun _ => False) HB) p _ _ _ Ep
              ltac:(intros gb i c H [HO1 HO2]; split; [exact HO1|eapply group_owner; [eapply group_stage; eassumption|exact HO2]])
              ltac:(intros gb i c _ []) evs _ _ _ se HW Ese HL
              (everyone_tame w w' _ _ _ _ _ (alone_everyone w _ HE)
                 ltac:(intros c x [H|[H|H]]; [left; split; [exact Logic.I|left; exact H]|left; split; [exact Logic.I|right; exact H]|right; exact H]) Es)
              (conj HG' HPl) (unlinks_own pl a rq D w w' o evs HR HT))
    as (e1 & b & gb & e2 & e3 & E & Hb & Ea & En & HI).
  exists e1, b, e2, e3, (mkInode KSock euid (rq_to_gid rq) 16).
  split; [exact E|]. split; [rewrite (SocketPath_unique rq q Hq), <- Ep; exact Hb|].
  split; [rewrite (SocketPath_unique rq q Hq); exact En|].
  split. { intros k Hk. rewrite (HI k Hk). unfold chmod_of, chown_of. cbn. apply Z.eqb_neq in HN. unfold NO_ID. rewrite HN. reflexivity. }
  split; [reflexivity|]. split; [reflexivity|]. split; [reflexivity|].
  intros c. unfold may_write. cbn [i_uid i_gid i_perm]. destruct (cr_priv c); cbn [orb]; [split; auto|].
  destruct (cr_uid c =? euid) eqn:X.
  - apply Z.eqb_eq in X. split; [discriminate|intros [Y|[Y _]]; [discriminate Y|contradiction]].
  - apply Z.eqb_neq in X. destruct (mem_z (rq_to_gid rq) (cr_gids c)) eqn:Y.
    + apply mem_z_iff in Y. split; auto.
    + split; [discriminate|]. intros [Y'|[_ Y']]; [discriminate Y'|]. apply mem_z_iff in Y'. congruence.
Qed.
End Claims.
