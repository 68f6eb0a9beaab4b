(** The order of the calls around the creation of the socket, whatever the
    outcome: what precedes the bind, and where the owner and the mode are set. *)
From Coq Require Import Lia.
From Verif Require Import Base BaseLemmas Num Path Template Options World Sys Io Socket Env Core Pair
  Spec TraceSpec SessionSpec PathProofs RequestProofs PairPure InputFacts RunProofs IoProofs SocketProofs PairProofs
  KernelFacts OpenFacts AskFacts MiscFacts SplitFacts CleanupFacts.
Local Open Scope Z_scope.

(** Calls made before the socket exists. *)
Definition PreBind (q : path) (c : call) : Prop :=
  match c with
  | CUnlink p => p = q
  | CSocket | CBind _ | CChown _ _ _ | CChmod _ _ | CAccept | CListen | CCloseListener => False
  | _ => True
  end.

(** Calls that leave the attributes of every file alone and bind nothing. *)
Definition Rest (ev : event) : Prop :=
  match e_call ev with
  | CSocket | CBind _ => False
  | CChown p _ _ | CChmod p _ => failed ev p
  | _ => True
  end.

(** What follows the bind. *)
Definition Trail (p : bytes) (u g m : Z) (evs : list event) : Prop :=
  Forall Rest evs
  \/ exists li co evs', evs = li :: co :: evs' /\ Is CListen AOk li /\ chowned p u g co
     /\ (Forall Rest evs' \/ exists cm evs2, evs' = cm :: evs2 /\ chmoded p m cm /\ Forall Rest evs2).

Definition Quiet (p : bytes) (ev : event) : Prop := ~ bound p ev /\ ~ Is CAccept AOk ev.

Definition Shape (p : bytes) (u g m : Z) (evs : list event) : Prop :=
  Forall (Quiet p) evs
  \/ exists pre um fd sk b tr, evs = pre ++ um :: sk :: b :: tr
     /\ Only (PreBind (components p)) pre /\ Is (CUmask UMASK_ALL) AOk um /\ Is CSocket (ANum fd) sk
     /\ bound p b /\ Trail p u g m tr.

Lemma Trail_app p u g m a b : Trail p u g m a -> Forall Rest b -> Trail p u g m (a ++ b).
Proof.
  intros [H|(li & co & es & -> & Hl & Hc & H)] HB.
  - left. apply Forall_app. auto.
  - right. exists li, co, (es ++ b). split; [reflexivity|]. split; [exact Hl|]. split; [exact Hc|].
    destruct H as [H|(cm & es2 & -> & Hm & H)].
    + left. apply Forall_app. auto.
    + right. exists cm, (es2 ++ b). split; [reflexivity|]. split; [exact Hm|]. apply Forall_app. auto.
Qed.

Definition NotBindAccept (c : call) : Prop := match c with CBind _ | CAccept => False | _ => True end.
Lemma quiet_calls p es : Only NotBindAccept es -> Forall (Quiet p) es.
Proof.
  apply Forall_impl. intros ev H. split; [intros (E & _)|intros (E & _)]; rewrite E in H; exact H.
Qed.
Lemma unbound_quiet p b : unbound p b -> Quiet p b.
Proof.
  intros (E & H). split.
  - intros (_ & (g & Ea) & _ & Nn & Nd). destruct H as [(e & Eb)|(_ & [H|H])]; congruence.
  - intros (E' & _). congruence.
Qed.

Definition RestCall (c : call) : Prop :=
  match c with CSocket | CBind _ | CChown _ _ _ | CChmod _ _ => False | _ => True end.
Lemma rest_calls es : Only RestCall es -> Forall Rest es.
Proof. apply Forall_impl. intros ev H. unfold Rest. destruct (e_call ev); try contradiction; exact Logic.I. Qed.

Lemma su_rest q es : Only (StatUnlink q) es -> Forall Rest es.
Proof. intros H. apply rest_calls. revert H. apply Only_weaken. intros c [->| ->]; exact Logic.I. Qed.
Lemma su_pre q es : Only (StatUnlink q) es -> Only (PreBind q) es.
Proof. apply Only_weaken. intros c [->| ->]; [exact Logic.I|reflexivity]. Qed.
Lemma stat_pre q es : Only (fun c => exists d, c = CStat d) es -> Only (PreBind q) es.
Proof. apply Only_weaken. intros c [d ->]. exact Logic.I. Qed.
Lemma pre_quiet p q es : Only (PreBind q) es -> Forall (Quiet p) es.
Proof. intros H. apply quiet_calls. revert H. apply Only_weaken. intros c. destruct c; cbn; tauto. Qed.
Lemma su_quiet p q es : Only (StatUnlink q) es -> Forall (Quiet p) es.
Proof. intros H. eapply pre_quiet, su_pre. exact H. Qed.

Lemma is_rest c a ev : Is c a ev -> RestCall c -> Rest ev.
Proof. intros [E _] H. unfold Rest. rewrite E. destruct c; try contradiction; exact Logic.I. Qed.

Lemma TailT_rest p old {A} (r : A) o es : TailT p old r o es -> Forall Rest es.
Proof.
  intros [es' H|es' x H|es' x um H Hu]; try (eapply su_rest, UnlinkT_only; exact H).
  apply Forall_app. split; [eapply su_rest, UnlinkT_only; exact H|]. constructor; [|constructor].
  eapply is_rest; [exact Hu|exact Logic.I].
Qed.
Lemma TailT_quiet p old {A} (r : A) o es : TailT p old r o es -> Forall (Quiet p) es.
Proof.
  intros [es' H|es' x H|es' x um H Hu]; try (eapply su_quiet, UnlinkT_only; exact H).
  apply Forall_app. split; [eapply su_quiet, UnlinkT_only; exact H|]. constructor; [|constructor].
  destruct Hu as [E _]. split; intros (E' & _); congruence.
Qed.

Lemma AcceptT_rest o es : AcceptT o es -> Forall Rest es.
Proof. intros H. apply rest_calls. apply AcceptT_only in H. revert H. apply Only_weaken. intros c ->. exact Logic.I. Qed.


Lemma ServeT_trail fd p u g m o ss li : Is CListen AOk li -> ServeT fd p u g m o ss -> Trail p u g m (li :: ss).
Proof.
  intros Hl H.
  assert (RL : Rest li) by (eapply is_rest; [exact Hl|exact Logic.I]).
  assert (TR : forall co cm ss, chowned p u g co -> chmoded p m cm -> Forall Rest ss -> Trail p u g m (li :: co :: cm :: ss)).
  { intros co cm ss0 Hc Hm Hs. right. exists li, co, (cm :: ss0). split; [reflexivity|]. split; [exact Hl|]. split; [exact Hc|].
    right. exists cm, ss0. auto. }
  destruct H as [|e co E F|co Hc|e co cm Hc E F|co cm Hc Hm|co cm Hc Hm|e e' co cm se Hc Hm _ Hse|n co cm se Hc Hm _ _ Hse|o co cm se es Hc Hm _ Hse Ha].
  - left. constructor; [exact RL|constructor].
  - left. constructor; [exact RL|]. constructor; [|constructor]. unfold Rest. rewrite E. exact F.
  - right. exists li, co, []. split; [reflexivity|]. split; [exact Hl|]. split; [exact Hc|]. left. constructor.
  - right. exists li, co, [cm]. split; [reflexivity|]. split; [exact Hl|]. split; [exact Hc|]. left. constructor; [|constructor].
    unfold Rest. rewrite E. exact F.
  - apply TR; auto.
  - apply TR; auto.
  - apply TR; auto. constructor; [|constructor]. eapply is_rest; [exact Hse|exact Logic.I].
  - apply TR; auto. constructor; [|constructor]. eapply is_rest; [exact Hse|exact Logic.I].
  - apply TR; auto. constructor; [|eapply AcceptT_rest; exact Ha]. eapply is_rest; [exact Hse|exact Logic.I].
Qed.

(** The work under the mask: a socket is bound or not. *)
Definition MaskedShape (p : bytes) (u g m : Z) (ms : list event) : Prop :=
  Forall (Quiet p) ms
  \/ exists fd sk b tr, ms = sk :: b :: tr /\ Is CSocket (ANum fd) sk /\ bound p b /\ Trail p u g m tr.

Lemma is_quiet c a p ev : Is c a ev -> NotBindAccept c -> Quiet p ev.
Proof. intros [E _] H. split; intros (E' & _); rewrite E in E'; rewrite E' in H; exact H. Qed.

Lemma BindT_shape p u g m o es ts : BindT p o es -> (forall fd, o <> Done (Ok fd)) -> Forall Rest ts -> Forall (Quiet p) ts ->
  MaskedShape p u g m (es ++ ts).
Proof.
  intros H NO HR HQ.
  destruct H as [e _| |e e' ev I1|fd ev I1|fd ev b I1 U|e fd ev b cl I1 U I2|fd ev b I1 Bd|fd e' ev b li I1 Bd I2|e fd e' ev b li cl I1 Bd I2 I3|fd ev b li _ I1 Bd I2 _];
    cbn [app].
  - left. exact HQ.
  - left. exact HQ.
  - left. constructor; [eapply is_quiet; [exact I1|exact Logic.I]|exact HQ].
  - left. constructor; [eapply is_quiet; [exact I1|exact Logic.I]|exact HQ].
  - left. constructor; [eapply is_quiet; [exact I1|exact Logic.I]|]. constructor; [apply unbound_quiet; exact U|exact HQ].
  - left. constructor; [eapply is_quiet; [exact I1|exact Logic.I]|]. constructor; [apply unbound_quiet; exact U|].
    constructor; [eapply is_quiet; [exact I2|exact Logic.I]|exact HQ].
  - right. exists fd, ev, b, ts. split; [reflexivity|]. split; [exact I1|]. split; [exact Bd|]. left. exact HR.
  - right. exists fd, ev, b, (li :: ts). split; [reflexivity|]. split; [exact I1|]. split; [exact Bd|]. left.
    constructor; [eapply is_rest; [exact I2|exact Logic.I]|exact HR].
  - right. exists fd, ev, b, (li :: cl :: ts). split; [reflexivity|]. split; [exact I1|]. split; [exact Bd|]. left.
    constructor; [eapply is_rest; [exact I2|exact Logic.I]|]. constructor; [eapply is_rest; [exact I3|exact Logic.I]|exact HR].
  - destruct (NO fd). reflexivity.
Qed.

Lemma serve_shape p u g m fd o es ss ts : BindT p (Done (Ok fd)) es -> ServeT fd p u g m o ss -> Forall Rest ts ->
  MaskedShape p u g m (es ++ ss ++ ts).
Proof.
  intros HB HS HR. remember (Done (Ok fd)) as ob eqn:E.
  destruct HB as [e _| |e e' ev I1|fd' ev I1|fd' ev b I1 U|e fd' ev b cl I1 U I2|fd' ev b I1 Bd|fd' e' ev b li I1 Bd I2|e fd' e' ev b li cl I1 Bd I2 I3|fd' ev b li _ I1 Bd I2 _];
    try discriminate.
  right. exists fd', ev, b, (li :: ss ++ ts). split; [reflexivity|]. split; [exact I1|]. split; [exact Bd|].
  change (li :: ss ++ ts) with ((li :: ss) ++ ts). apply Trail_app; [|exact HR]. eapply ServeT_trail; eassumption.
Qed.

Lemma MaskedT_shape p u g m old o ms : MaskedT p u g m old o ms -> MaskedShape p u g m ms.
Proof.
  intros [es HB|e o' es ts HB HT|fd es ss HB HS|fd es ss HB HS|fd es ss cl HB HS Hcl|fd r es ss HB HS|fd r o' es ss cl ts HB HS Hcl HT].
  - rewrite <- (app_nil_r es). eapply BindT_shape; [exact HB|discriminate|constructor|constructor].
  - eapply BindT_shape; [exact HB|discriminate|eapply TailT_rest; exact HT|eapply TailT_quiet; exact HT].
  - rewrite <- (app_nil_r ss). eapply serve_shape; [exact HB|exact HS|constructor].
  - rewrite <- (app_nil_r ss). eapply serve_shape; [exact HB|exact HS|constructor].
  - eapply serve_shape; [exact HB|exact HS|]. constructor; [|constructor]. eapply is_rest; [exact Hcl|exact Logic.I].
  - rewrite <- (app_nil_r ss). eapply serve_shape; [exact HB|exact HS|constructor].
  - eapply serve_shape; [exact HB|exact HS|]. constructor; [|eapply TailT_rest; exact HT]. eapply is_rest; [exact Hcl|exact Logic.I].
Qed.

Lemma OpenT_shape euid p u g m o os : OpenT euid p u g m o os -> Shape p u g m os.
Proof.
  intros [es HE|e es HE|es us HE HU|e es us HE HU|es us HE HU|es us um o' ms HE HU Hum HM].
  1,2: left; eapply pre_quiet, (stat_pre (components p)), EnforceT_stat; exact HE.
  1,2,3: left; apply Forall_app; split; [eapply pre_quiet, (stat_pre (components p)), EnforceT_stat; exact HE|eapply su_quiet, UnlinkT_only; exact HU].
  assert (HP : Only (PreBind (components p)) (es ++ us)).
  { onl; [eapply stat_pre, EnforceT_stat; exact HE|eapply su_pre, UnlinkT_only; exact HU]. }
  rewrite app_assoc. destruct (MaskedT_shape _ _ _ _ _ _ _ HM) as [HQ|(fd & sk & b & tr & -> & Hs & Hb & HT)].
  - left. apply Forall_app. split; [eapply pre_quiet; exact HP|]. constructor; [eapply is_quiet; [exact Hum|exact Logic.I]|exact HQ].
  - right. exists (es ++ us), um, fd, sk, b, tr. auto 8.
Qed.

Lemma local_pre q es : Only LocalPrompt es -> Only (PreBind q) es.
Proof. apply Only_weaken. intros c. destruct c; cbn; tauto. Qed.
Lemma talk_rest es : Only TalkCall es -> Forall Rest es.
Proof. intros H. apply rest_calls. revert H. apply Only_weaken. intros c. destruct c; cbn; tauto. Qed.
Lemma talk_quiet p es : Only TalkCall es -> Forall (Quiet p) es.
Proof. intros H. apply quiet_calls. revert H. apply Only_weaken. intros c. destruct c; cbn; tauto. Qed.

(** A whole opening. *)
Lemma shape_app p u g m ls os post : Only LocalPrompt ls -> Shape p u g m os -> Only TalkCall post ->
  Shape p u g m (ls ++ os ++ post).
Proof.
  intros HL [HQ|(pre & um & fd & sk & b & tr & -> & Hp & Hu & Hs & Hb & HT)] HP.
  - left. apply Forall_app. split; [eapply pre_quiet, (local_pre (components p)); exact HL|].
    apply Forall_app. split; [exact HQ|apply talk_quiet; exact HP].
  - right. exists (ls ++ pre), um, fd, sk, b, (tr ++ post). split; [rewrite <- !app_assoc; reflexivity|].
    split; [onl; apply local_pre; exact HL|]. split; [exact Hu|]. split; [exact Hs|]. split; [exact Hb|].
    apply Trail_app; [exact HT|apply talk_rest; exact HP].
Qed.

(** There is only one bind in such a list. *)
Lemma unique_split {A} (P : A -> Prop) (l1 l2 m1 m2 : list A) x y :
  l1 ++ x :: l2 = m1 ++ y :: m2 -> P x -> Forall (fun z => ~ P z) m1 -> Forall (fun z => ~ P z) m2 ->
  l1 = m1 /\ x = y /\ l2 = m2.
Proof.
  revert m1. induction l1 as [|a l1 IH]; intros m1 E Hx H1 H2.
  - destruct m1 as [|b m1]; cbn in E.
    + injection E as -> ->. auto.
    + injection E as -> _. apply Forall_inv in H1. contradiction.
  - destruct m1 as [|b m1]; cbn in E.
    + injection E as <- <-. apply Forall_app in H2 as [_ H2]. apply Forall_inv in H2. contradiction.
    + injection E as -> E. apply Forall_inv_tail in H1. destruct (IH m1 E Hx H1 H2) as (-> & -> & ->). auto.
Qed.

Lemma rest_not_bound p ev : Rest ev -> ~ bound p ev.
Proof. intros H (E & _). unfold Rest in H. rewrite E in H. exact H. Qed.
Lemma rests_not_bound p es : Forall Rest es -> Forall (fun ev => ~ bound p ev) es.
Proof. apply Forall_impl. intros ev. apply rest_not_bound. Qed.
Lemma trail_not_bound p u g m es : Trail p u g m es -> Forall (fun ev => ~ bound p ev) es.
Proof.
  intros [H|(li & co & es' & -> & Hl & Hc & H)]; [apply rests_not_bound; exact H|].
  constructor; [intros (E & _); destruct Hl; congruence|].
  constructor; [intros (E & _); destruct Hc as [[] _]; congruence|].
  destruct H as [H|(cm & es2 & -> & Hm & H)]; [apply rests_not_bound; exact H|].
  constructor; [intros (E & _); destruct Hm as [[] _]; congruence|apply rests_not_bound; exact H].
Qed.
