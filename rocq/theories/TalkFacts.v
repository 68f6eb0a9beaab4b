(** What the pair hears, and what the user is told about a refusal. *)
From Coq Require Import Lia.
From Verif Require Import Base BaseLemmas Num Path Template Options World Sys Io Socket Env Core Pair
  Spec TraceSpec SessionSpec PathProofs RequestProofs PairPure InputFacts RunProofs IoProofs SocketProofs
  FailFacts PairProofs KernelFacts OpenFacts AskFacts SplitFacts CleanupFacts InitFacts TalkSpec.
Local Open Scope Z_scope.

(** ** What the pair hears *)

Lemma delivered_app c a b : delivered c (a ++ b) = delivered c a ++ delivered c b.
Proof. apply flat_map_app. Qed.

Lemma Prefix_nil_l b : Prefix [] b.
Proof. exists b. reflexivity. Qed.

Lemma Heard_app c prompt (full : Prop) pre evs post : delivered c pre = [] -> delivered c post = [] ->
  Heard c prompt full evs -> Heard c prompt full (pre ++ evs ++ post).
Proof.
  intros H1 H2 [H|(e1 & rd & e2 & d & -> & Hr & Hp & He & Hf)].
  - left. rewrite !delivered_app, H1, H2, app_nil_r. exact H.
  - right. exists (pre ++ e1), rd, (e2 ++ post), d. split; [rewrite <- !app_assoc; reflexivity|].
    split; [exact Hr|]. split; [rewrite delivered_app, H1; exact Hp|]. unfold EchoedIn. rewrite delivered_app, H2, app_nil_r. split; [exact He|].
    intros F N. apply Hf; [exact F|]. intros X. apply N. apply Exists_app. left. exact X.
Qed.

Lemma Heard_weaken c prompt (f g : Prop) evs : (g -> f) -> Heard c prompt f evs -> Heard c prompt g evs.
Proof.
  intros I [H|(e1 & rd & e2 & d & -> & Hr & Hp & He & Hf)]; [left; exact H|right].
  exists e1, rd, e2, d. split; [reflexivity|]. split; [exact Hr|]. split; [exact Hp|]. split; [exact He|auto].
Qed.

Lemma delivered_read1 c o rs : read1 c o rs -> delivered c rs = [].
Proof.
  intros H. apply (delivered_none c (fun x => match x with CWrite _ _ => False | _ => True end)); [auto|].
  assert (HS : forall es, SigOnly es -> Only (fun x => match x with CWrite _ _ => False | _ => True end) es).
  { intros es. apply Forall_impl. intros ev. destruct (e_call ev); cbn; tauto. }
  destruct o as [[d|e]| |]; cbn in H.
  - destruct H as (e1 & ev & e2 & -> & H1 & H2 & [H3 _] & _). onl; auto. rewrite H3. exact I.
  - destruct H as [H|(e1 & ev & e2 & -> & H1 & H2 & H3)]; [auto|]. onl; auto. rewrite H3. exact I.
  - contradiction.
  - destruct H as [H|(e1 & ev & e2 & -> & H1 & H2 & H3)]; [auto|]. onl; auto. rewrite H3. exact I.
Qed.

Lemma Echoed_In c d b es xs : SigOnly es -> Echoed c d b xs -> EchoedIn c d (b = true) (es ++ xs).
Proof.
  intros Hs (_ & (x1 & x2 & -> & P1 & P2) & HF). unfold EchoedIn.
  rewrite delivered_app, (delivered_sig c es Hs). cbn [app]. split.
  - exists (delivered c x1), (delivered c x2). split; [apply delivered_app|]. split; [exact P1|exact P2].
  - intros Hb N. destruct (HF Hb) as [X|X]; [|exact X]. exfalso. apply N. apply Exists_app. right. exact X.
Qed.

Lemma read1_notfile c o rs : read1 c o rs -> Only NotReadFile rs.
Proof.
  destruct o as [[d|e]| |]; cbn; intros H.
  - destruct H as (e1 & ev & e2 & -> & H1 & H2 & [H3 _] & _). onl; auto using SigOnly_calls'. rewrite H3. exact I.
  - destruct H as [H|(e1 & ev & e2 & -> & H1 & H2 & H3)]; [auto using SigOnly_calls'|].
    onl; auto using SigOnly_calls'. rewrite H3. exact I.
  - contradiction.
  - destruct H as [H|(e1 & ev & e2 & -> & H1 & H2 & H3)]; [auto using SigOnly_calls'|].
    onl; auto using SigOnly_calls'. rewrite H3. exact I.
Qed.

Lemma RemoteT_heard c path sp o rs : RemoteT c path sp o rs ->
  exists t, Heard c (expand sp t) (o <> Stopped) rs
    /\ forall before after, Only NotReadFile before -> Only NotReadFile after ->
         TemplateFrom path DEFAULT_PAIR_PROMPT (before ++ rs ++ after) t.
Proof.
  intros H.
  assert (HT : forall t es xs, LoadT path DEFAULT_PAIR_PROMPT (Done t) es -> Only NotReadFile xs ->
    forall before after, Only NotReadFile before -> Only NotReadFile after ->
      TemplateFrom path DEFAULT_PAIR_PROMPT (before ++ (es ++ xs) ++ after) t).
  { intros t es xs HL HX before after HB HA. rewrite <- app_assoc. apply TemplateFrom_load; [exact HL|exact HB|]. onl. }
  assert (HN : forall b o ws, sent c b o ws -> Only NotReadFile ws) by (intros b o' ws [X _]; eapply OnConn_calls'; exact X).
  assert (HF : forall t es ws fs rs xs d b, LoadT path DEFAULT_PAIR_PROMPT (Done t) es -> sent c (expand sp t) (Done (Ok tt)) ws ->
    SigOnly fs -> read1 c (Done (Ok d)) rs -> Echoed c d b xs -> (o <> Stopped -> b = true) ->
    exists t', Heard c (expand sp t') (o <> Stopped) (es ++ ws ++ fs ++ rs ++ xs)
      /\ forall before after, Only NotReadFile before -> Only NotReadFile after ->
         TemplateFrom path DEFAULT_PAIR_PROMPT (before ++ (es ++ ws ++ fs ++ rs ++ xs) ++ after) t').
  { intros t es ws fs rs0 xs d b HL HW HS HR HE Hb. exists t. split.
    - right. destruct HR as (e1 & rd & e2 & -> & H1 & H2 & H3 & _).
      exists (es ++ ws ++ fs ++ e1), rd, (e2 ++ xs), d. split; [rewrite <- !app_assoc; reflexivity|]. split; [exact H3|].
      rewrite !delivered_app, (delivered_load _ _ _ _ _ HL), (delivered_sig c fs HS), (delivered_sig c e1 H1). rewrite !app_nil_r.
      split; [exact (proj2 HW)|]. destruct (Echoed_In _ _ _ _ _ H2 HE) as [X Y]. split; [exact X|]. intros Ho. apply Y. auto.
    - apply HT; [exact HL|]. onl; eauto using SigOnly_calls', read1_notfile. eapply OnConn_calls'. exact (proj1 HE). }
  destruct H as [es HL|t es ws HL HW|e t es ws HL HW _|t es ws fs HL HW HS|t es ws fs HL HW HS _|t es ws fs rs HL HW [HS _] HR
    |e t es ws fs rs HL HW [HS _] HR _|d t es ws fs rs xs HL HW [HS _] HR HE|d t es ws fs rs xs HL HW [HS _] HR HE _|d t es ws fs rs xs HL HW [HS _] HR HE _ _];
    try (eapply HF; try eassumption; [congruence||reflexivity]).
  - inversion HL; subst. exists DEFAULT_PAIR_PROMPT. split; [left; apply Prefix_nil_l|].
    intros before after HB HA. right. split; [reflexivity|]. intros ev d Hin. eapply NotReadFile_is; [|exact Hin].
    onl.
  - exists t. split; [|apply HT; eauto]. left. rewrite delivered_app, (delivered_load _ _ _ _ _ HL). exact (proj2 HW).
  - exists t. split; [|apply HT; eauto]. left. rewrite delivered_app, (delivered_load _ _ _ _ _ HL). exact (proj2 HW).
  - exists t. split; [|apply HT; [exact HL|]; onl; eauto using SigOnly_calls'].
    left. rewrite !delivered_app, (delivered_load _ _ _ _ _ HL), (delivered_sig c fs HS). rewrite app_nil_r.
    exact (sent_Prefix _ _ _ _ HW).
  - exists t. split; [|apply HT; [exact HL|]; onl; eauto using SigOnly_calls'].
    left. rewrite !delivered_app, (delivered_load _ _ _ _ _ HL), (delivered_sig c fs HS). rewrite app_nil_r.
    exact (sent_Prefix _ _ _ _ HW).
  - exists t. split; [|apply HT; [exact HL|]; onl; eauto using SigOnly_calls', read1_notfile].
    left. rewrite !delivered_app, (delivered_load _ _ _ _ _ HL), (delivered_sig c fs HS), (delivered_read1 _ _ _ HR). rewrite !app_nil_r.
    exact (sent_Prefix _ _ _ _ HW).
  - exists t. split; [|apply HT; [exact HL|]; onl; eauto using SigOnly_calls', read1_notfile].
    left. rewrite !delivered_app, (delivered_load _ _ _ _ _ HL), (delivered_sig c fs HS), (delivered_read1 _ _ _ HR). rewrite !app_nil_r.
    exact (sent_Prefix _ _ _ _ HW).
Qed.

(** The accepting event of a socket that was opened, and what follows it. *)
Lemma OpenT_accept euid p u g m c os : OpenT euid p u g m (Done (Ok c)) os ->
  exists o1 acc o2, os = o1 ++ acc :: o2 /\ Is CAccept AOk acc /\ c = List.length (k_conns (e_pre acc))
    /\ Only SocketCall o1 /\ Only SocketCall o2.
Proof.
  intros H. pose proof (OpenT_calls _ _ _ _ _ _ _ H) as HS.
  destruct (OpenT_Ok _ _ _ _ _ _ _ H) as (r & -> & O).
  exists (before_bind r ++ op_b r :: before_accept r), (op_acc r), (after_accept r).
  assert (E : run_events r = (before_bind r ++ op_b r :: before_accept r) ++ op_acc r :: after_accept r)
    by (unfold run_events; asc; reflexivity).
  split; [exact E|]. destruct (op_acc_is _ _ _ _ _ _ _ O) as (Ha & Hc & _). split; [exact Ha|]. split; [exact Hc|].
  rewrite E in HS. apply Only_app in HS as [H1 H2]. split; [exact H1|]. apply Only_cons in H2 as [_ H2]. exact H2.
Qed.

Lemma delivered_other c c' rs : Only (ConnCall c) rs -> c' <> c -> delivered c' rs = [].
Proof. intros H N. revert H. apply delivered_none. intros d E. apply N. exact E. Qed.

Lemma heard pl a rq (D : Describes pl a rq) w o w' evs c :
  core_open SudoPair pl a (pstate0 _) w = (o, w') -> w_trace w' = w_trace w ++ evs ->
  delivered c evs = []
  \/ exists e1 acc e2 prompt, evs = e1 ++ acc :: e2 /\ Is CAccept AOk acc /\ c = List.length (k_conns (e_pre acc))
     /\ delivered c e1 = [] /\ PairPrompt rq e2 prompt /\ Heard c prompt (o <> Stopped) e2.
Proof.
  intros H T. destruct (split_given pl a rq D w o w' evs H T) as [_ HS].
  destruct HS as [o evs HL _|e mode oo ls os o post M HC NE NB HL Hm HO HA].
  { left. revert HL. apply delivered_none. intros d []. }
  assert (EL : forall x, delivered x ls = []).
  { intros x. apply LocalT_calls in HL. revert HL. apply delivered_none. intros d []. }
  assert (EO : forall x, delivered x os = []).
  { intros x. apply delivered_socket. eapply OpenT_calls. exact HO. }
  destruct oo as [[c0|er]| |]; cbn [AfterT] in HA.
  - destruct HA as (ro & rs & fin & -> & HR & HF).
    assert (HN : Only NotReadFile fin /\ forall x, delivered x fin = []).
    { destruct ro as [[u|er]| |]; [destruct HF as [_ ->]; split; [constructor|reflexivity]| |contradiction|destruct HF as [_ ->]; split; [constructor|reflexivity]].
      destruct HF as (od & ds & xs & -> & HD & HX & _). apply DropT_calls in HD. split.
      - onl; [revert HD|revert HX]; apply Only_weaken; [intros x [->| ->]; exact I|intros x [d ->]; exact I].
      - intros x. rewrite delivered_app.
        rewrite (delivered_none x (DropCall c0) ds), (delivered_none x ErrorText xs); auto.
        + intros d [d' X]. discriminate.
        + intros d [X|X]; discriminate. }
    destruct HN as [HN HD].
    destruct (Nat.eq_dec c c0) as [->|Nc].
    2: { left. rewrite !delivered_app, EL, EO, HD, (delivered_other c0 c rs); auto. eapply RemoteT_calls. exact HR. }
    right. destruct (OpenT_accept _ _ _ _ _ _ _ HO) as (o1 & acc & o2 & -> & Ha & Hc & S1 & S2).
    destruct (RemoteT_heard _ _ _ _ _ HR) as (t & Hh & Ht).
    exists (ls ++ o1), acc, (o2 ++ rs ++ fin), (expand (template_spec (pair0 e)) t).
    split; [asc; reflexivity|]. split; [exact Ha|]. split; [exact Hc|].
    split; [rewrite delivered_app, EL; apply delivered_socket; exact S1|].
    split.
    + apply (PairPrompt_intro e rq M). rewrite <- (pair_prompt_path e rq M).
      apply Ht; [apply SocketCall_calls'; exact S2|exact HN].
    + apply Heard_app; [apply delivered_socket; exact S2|apply HD|].
      revert Hh. apply Heard_weaken. intros No ->. apply No. exact (proj1 HF).
  - left. rewrite !delivered_app, EL, EO. destruct HA as [_ HA]. revert HA. apply delivered_none. intros d [d' X]. discriminate.
  - destruct HA as [_ ->]. left. rewrite !delivered_app, EL, EO. reflexivity.
  - destruct HA as [_ ->]. left. rewrite !delivered_app, EL, EO. reflexivity.
Qed.

(** ** What the user is told about a refusal *)
Lemma reported_Told a er r rs : report_of a er r rs -> r <> Stopped -> HonestPrintf rs -> Told a (display_pair_error er) rs.
Proof.
  intros H Hr Hh. destruct (reported_text _ _ _ _ H) as [H1 H2]. destruct (H2 Hh) as [H3 H4].
  split; [exact H1|]. split; [exact H3|]. intros Hp Hf. apply H4; try assumption. destruct er; reflexivity.
Qed.

Lemma LocalT_panic s sp ls : LocalT s sp Panicked ls -> ~ HonestPrintf ls.
Proof.
  assert (HC : forall b cs, ~ CloseT b Panicked cs) by (intros b cs X; inversion X).
  intros H HH. inversion H as [| |o t op es ys ss HL HY HS]; subst.
  apply Forall_app in HH as [_ HH]. apply Forall_app in HH as [_ HH].
  inversion HS as [o ws cs Hop Hw Hc| |o r ws ps cs Hw Hp Hc| |ws ps cs Hw Hp Hc|]; subst.
  - eapply HC; exact Hc.
  - eapply HC; exact Hc.
  - apply Forall_app in HH as [_ HH]. apply Forall_app in HH as [HH _]. exact (proj2 Hp HH).
Qed.

Lemma OpenT_panic euid p u g m os : OpenT euid p u g m Panicked os -> SetupPanic os.
Proof.
  intros H. inversion H as [| | | | |es us um o ms HE HU Hum HM]; subst.
  assert (HT : forall old A (r : A) ts, ~ TailT p old r Panicked ts) by (intros old A r ts X; inversion X).
  assert (HA : forall es, ~ AcceptT Panicked es) by (intros es' X; inversion X).
  inversion HM as [|e o es' ts HB HTT| | |fd es' ss cl HB HS Hcl| |fd r o es' ss cl ts HB HS Hcl HTT]; subst;
    try (exfalso; eapply HT; exact HTT).
  inversion HB as [| | | | | | | | |fd' sk b li Hfd Hsk Hb Hli Hlen]; subst.
  inversion HS as [| | | |co cm Hco Hcm Hge| | |n co cm se Hco Hcm Hlt Hn Hse|o co cm se es0 Hco Hcm Hlt Hse HAc]; subst.
  - exists sk. split; [|left; eauto]. rewrite !in_app_iff; cbn [In app]; rewrite ?in_app_iff; cbn [In app]. tauto.
  - exists se. split; [|right; eauto]. rewrite !in_app_iff; cbn [In app]; rewrite ?in_app_iff; cbn [In app]. tauto.
  - exfalso. eapply HA. exact HAc.
Qed.

Lemma NotPrints_socket es : Only SocketCall es -> Only (fun c => ~ Prints c) es.
Proof. apply Only_weaken. intros c H (l & d & ->). exact H. Qed.
Lemma NotPrints_conn c es : Only (ConnCall c) es -> Only (fun c => ~ Prints c) es.
Proof. apply Only_weaken. intros x H (l & d & ->). exact H. Qed.
Lemma NotPrints_drop c es : Only (DropCall c) es -> Only (fun c => ~ Prints c) es.
Proof. apply Only_weaken. intros x H (l & d & ->). destruct H; discriminate. Qed.

Lemma TailT_result {A} p old (r : A) x ts : TailT p old r (Done x) ts -> x = r.
Proof. inversion 1. reflexivity. Qed.

(** If the socket could not be opened, nothing was accepted. *)
Definition NotAcceptCall (c : call) : Prop := match c with CAccept => False | _ => True end.
Lemma no_accept es : Only NotAcceptCall es -> ~ Exists IsAccept es.
Proof.
  intros H HX. apply Exists_exists in HX as (ev & Hin & [E _]). unfold Only in H. rewrite Forall_forall in H.
  apply H in Hin. rewrite E in Hin. exact Hin.
Qed.

Lemma StatUnlink_noaccept q es : Only (StatUnlink q) es -> Only NotAcceptCall es.
Proof. apply Only_weaken. intros c [->| ->]; exact I. Qed.

Lemma OpenT_err_accept euid p u g m e os : OpenT euid p u g m (Done (Err e)) os -> ~ Exists IsAccept os.
Proof.
  intros H.
  assert (SE : forall euid p o es, EnforceT euid p o es -> Only NotAcceptCall es).
  { intros euid0 p0 o es X. apply EnforceT_stat in X. revert X. apply Only_weaken. intros c [d ->]. exact I. }
  assert (SU : forall o us, UnlinkT p o us -> Only NotAcceptCall us).
  { intros o us X. eapply StatUnlink_noaccept, UnlinkT_only. exact X. }
  assert (ST : forall A old (r : A) o ts, TailT p old r o ts -> Only NotAcceptCall ts).
  { intros A old r o ts X. destruct X as [es X|es x X|es x um X Hu]; onl; eauto. rewrite (proj1 Hu). exact I. }
  assert (SB : forall o es, BindT p o es -> Only NotAcceptCall es).
  { intros o es X. destruct X; onl;
      try match goal with H : Is _ _ _ |- _ => rewrite (proj1 H); exact I end;
      try match goal with H : bound _ _ |- _ => rewrite (proj1 H); exact I end;
      try match goal with H : unbound _ _ |- _ => rewrite (proj1 H); exact I end. }
  inversion H as [|e' es HE| |e' es us HE HU| |es us um o ms HE HU Hum HM]; subst.
  - apply no_accept. eauto.
  - apply no_accept. onl; eauto.
  - inversion HM as [|e' o es' ts HB HT| | | | |fd r o es' ss cl ts HB HS Hcl HT]; subst.
    + apply no_accept. onl; eauto. rewrite (proj1 Hum). exact I.
    + apply TailT_result in HT as E. subst r.
      assert (HX : ~ Exists IsAccept ss).
      { inversion HS as [|e' co Ec Hf| |e' co cm Hc Ec Hf| | |e1 e2 co cm se Hc Hm Hl Hse| |o co cm se as_ Hc Hm Hl Hse HA]; subst.
        - apply no_accept. onl. rewrite Ec. exact I.
        - apply no_accept. onl; [rewrite (proj1 (proj1 Hc))|rewrite Ec]; exact I.
        - apply no_accept. onl; [rewrite (proj1 (proj1 Hc))|rewrite (proj1 (proj1 Hm))|rewrite (proj1 Hse)]; exact I.
        - inversion HA as [|is ev e' Hi Hne Hev|]; subst. intros X.
          apply Exists_exists in X as (x & Hin & [E1 E2]).
          destruct Hin as [<-|[<-|[<-|Hin]]].
          + destruct (proj1 Hc). congruence.
          + destruct (proj1 Hm). congruence.
          + destruct Hse. congruence.
          + apply in_app_iff in Hin as [Hin|[<-|[]]].
            * rewrite Forall_forall in Hi. destruct (Hi _ Hin) as [_ E3]. congruence.
            * destruct Hev. congruence. }
      intros X. rewrite !Exists_app, !Exists_cons, !Exists_app, Exists_cons in X.
      destruct X as [X|[X|[X|[X|[X|[X|X]]]]]].
      * revert X. apply no_accept. eauto.
      * revert X. apply no_accept. eauto.
      * destruct Hum, X. congruence.
      * revert X. apply no_accept. eauto.
      * exact (HX X).
      * destruct Hcl, X. congruence.
      * revert X. apply no_accept. eauto.
Qed.

(** Which message a failed exchange with the peer leads to. *)
Lemma RemoteT_message c path sp er rs : RemoteT c path sp (Done (Err er)) rs ->
  (er = CommunicationError /\ reads rs = [] /\ AnyFailed rs)
  \/ (er = SessionDeclined /\ (reads rs <> [] \/ AnyFailed rs)).
Proof.
  assert (HR : forall a c, e_call a = CRead c -> is_read a = true) by (intros a' c' E; unfold is_read; rewrite E; reflexivity).
  assert (RD : forall d rs, read1 c (Done (Ok d)) rs -> reads rs <> []).
  { intros d rs0 (e1 & ev & e2 & -> & H1 & H2 & [H3 _] & _). rewrite reads_app, (reads_sig _ H1). cbn. rewrite (HR _ _ H3). discriminate. }
  intros H. inversion H as [| |e t es ws HL HW HF| |t es ws fs HL HW HS HF| |e t es ws fs rs0 HL HW HS HRd HF
    | |d t es ws fs rs0 xs HL HW HS HRd HE _|]; subst.
  - left. split; [reflexivity|]. split; [|apply AnyFailed_r; exact HF].
    rewrite reads_app, (reads_load _ _ _ _ HL), (reads_conn c _ (proj1 HW)). reflexivity.
  - left. split; [reflexivity|]. split; [|apply AnyFailed_r, AnyFailed_r; exact HF].
    rewrite !reads_app, (reads_load _ _ _ _ HL), (reads_conn c _ (proj1 HW)), (reads_sig _ HS). reflexivity.
  - right. split; [reflexivity|]. destruct HF as [HF|(ev & Hin & Hev)].
    + right. apply AnyFailed_r, AnyFailed_r, AnyFailed_r. exact HF.
    + left. rewrite !reads_app, (reads_load _ _ _ _ HL), (reads_conn c _ (proj1 HW)), (reads_sig _ (proj1 HS)). cbn.
      intros E. assert (X : In ev (reads rs0)) by (apply filter_In; split; [exact Hin|eapply HR; exact (proj1 Hev)]).
      rewrite E in X. exact X.
  - right. split; [reflexivity|]. left. rewrite !reads_app. intros E.
    apply app_eq_nil in E as [_ E]. apply app_eq_nil in E as [_ E]. apply app_eq_nil in E as [_ E].
    apply app_eq_nil in E as [E _]. exact (RD _ _ HRd E).
Qed.

Lemma told pl a rq (D : Describes pl a rq) w z st' w' evs :
  core_open SudoPair pl a (pstate0 _) w = (Done (z, st'), w') -> w_trace w' = w_trace w ++ evs ->
  z <> 1 -> HonestPrintf evs ->
  (evs = [] /\ (MasklessAddr pl (oa_settings a) \/ (pl_debug pl = true /\ ~ Consistent rq)))
  \/ (rq_uid rq <> rq_to_uid rq /\ rq_f_group rq <> None /\ Told a BOTH evs)
  \/ exists ls es rs, evs = ls ++ es ++ rs /\ Only LocalPrompt ls /\ Only (fun c => ~ Prints c) es
     /\ ((rs = [] /\ ((rq_uid rq = rq_to_uid rq /\ rq_f_group rq = None /\ es = []) \/ SetupPanic es))
         \/ exists m, Reason es m /\ Told a m rs).
Proof.
  intros H T Hz HH. destruct (opened_given pl a rq D w _ w' evs H T) as [_ HO].
  remember (Done (z, st')) as o eqn:Eo.
  destruct HO as [Hm|e M HC|e M HC Hd Hcs|e M HC HE|e es r M HC NE HU HG Hr Hp|e es M HC NE HU HG Hp|e o ls es M Ee HC HE HB HN]; subst.
  - left. auto.
  - injection Eo as <- _. contradiction.
  - left. auto.
  - injection Eo as <- _. contradiction.
  - right. left. split; [exact HU|]. split; [exact HG|]. exact (reported_Told _ _ _ _ Hp Hr HH).
  - discriminate.
  - right. right. pose proof HH as HH0. apply Forall_app in HH as [HH1 HH2].
    inversion HN as [e' ls' es' HA|e' ls' es' HA|e' er ls' es' rs r HA Hr Hp|e' er ls' es' rs HA Hp|e' c ls' es' HA];
      subst; try discriminate.
    + (* a panic *)
      exists ls, es, []. rewrite app_nil_r. split; [reflexivity|]. split; [eapply AskedT_local; exact HA|].
      inversion HA as [|ls' Hl|ls' Hl Hm| |mode ls' os Hl Hm Ho| | | | |]; subst; fold (pair0 e) in *.
      * exfalso. exact (LocalT_panic _ _ _ Hl HH1).
      * split; [constructor|]. left. split; [reflexivity|]. left. split; [|split; [|reflexivity]].
        -- destruct (Z.eq_dec (rq_uid rq) (rq_to_uid rq)) as [E|E]; [exact E|exfalso].
           unfold socket_mode in Hm. destruct (is_sudoing_to_user (pair0 e)) eqn:E1; [discriminate|].
           apply (to_user_iff e rq M) in E. congruence.
        -- destruct (rq_f_group rq) eqn:E; [exfalso|reflexivity].
           unfold socket_mode in Hm. destruct (is_sudoing_to_user (pair0 e)) eqn:E1; [discriminate|].
           destruct (is_sudoing_to_explicit_group (pair0 e)) eqn:E2; [discriminate|].
           assert (X : rq_f_group rq <> None) by congruence. apply (explicit_group_iff e rq M) in X. congruence.
      * split; [apply NotPrints_socket; eapply OpenT_calls; exact Ho|]. left. split; [reflexivity|]. right.
        eapply OpenT_panic. exact Ho.
    + exists ls, es', rs. split; [reflexivity|]. split; [eapply AskedT_local; exact HA|].
      apply Forall_app in HH2 as [_ HH2]. pose proof (reported_Told _ _ _ _ Hp Hr HH2) as HT.
      inversion HA as [| | | | |er' mode ls' os Hl Hm Ho| | |c er' mode ls' os rs' ds Hl Hm Ho Hr' Hd|]; subst; fold (pair0 e) in *.
      * pose proof (OpenT_calls _ _ _ _ _ _ _ Ho) as HS.
        split; [apply NotPrints_socket; exact HS|]. right. exists COMMUNICATION. split; [|exact HT]. left.
        split; [reflexivity|]. split; [apply reads_socket; exact HS|]. intros X. exfalso. exact (OpenT_err_accept _ _ _ _ _ _ _ Ho X).
      * pose proof (OpenT_calls _ _ _ _ _ _ _ Ho) as HS. split.
        { onl; [apply NotPrints_socket; exact HS|eapply NotPrints_conn, RemoteT_calls; exact Hr'|eapply NotPrints_drop, DropT_calls; exact Hd]. }
        right. exists (display_pair_error er). split; [|exact HT].
        destruct (OpenT_accept _ _ _ _ _ _ _ Ho) as (o1 & acc & o2 & Eo' & Ha & _).
        assert (HX : Exists IsAccept (os ++ rs' ++ ds)).
        { apply Exists_app. left. rewrite Eo'. apply Exists_app. right. left. exact Ha. }
        assert (HFl : AnyFailed rs' -> Exists Failed (os ++ rs' ++ ds)).
        { intros X. apply Exists_app. right. apply Exists_app. left. exact X. }
        destruct (RemoteT_message _ _ _ _ _ Hr') as [(-> & R0 & F0)|(-> & F0)].
        -- left. split; [reflexivity|]. split; [|auto].
           rewrite !reads_app, (reads_socket _ HS), R0, (reads_drop _ _ _ Hd). reflexivity.
        -- right. split; [reflexivity|]. split; [exact HX|]. destruct F0 as [F0|F0]; [left|right; auto].
           rewrite !reads_app, (reads_socket _ HS). cbn. intros E. apply app_eq_nil in E as [E _]. contradiction.
    + exfalso. apply Hz. congruence.
Qed.
