(** What an opening does when everything works. *)
From Coq Require Import Lia.
From Verif Require Import Base BaseLemmas Num Path Template Options World Sys Io Socket Env Core Pair
  Spec TraceSpec SessionSpec PathProofs NumProofs RequestProofs PairPure InputFacts RunProofs IoProofs SocketProofs
  FailFacts PairProofs KernelFacts OpenFacts AskFacts SplitFacts MiscFacts OutputFacts HonourSpec.
Local Open Scope Z_scope.

(** ** The path of the socket *)
Lemma has_nul_iff b : has_nul b = false <-> ~ In x00 b.
Proof.
  unfold has_nul. split.
  - intros H Hi. apply Bool.not_true_iff_false in H. apply H. apply existsb_exists. exists x00. split; [exact Hi|reflexivity].
  - intros H. apply Bool.not_true_iff_false. intros E. apply existsb_exists in E as (x & Hi & Hx).
    apply byte_eqb_eq in Hx. subst. contradiction.
Qed.

Lemma sock_name_nul u p : ~ In x00 (sock_name u p).
Proof.
  assert (H : forall n, ~ In x00 (to_dec n)).
  { intros n Hi. destruct (to_dec_bytes n _ Hi) as [[H _]|H]; [cbv in H; congruence|discriminate]. }
  unfold sock_name. rewrite !in_app_iff. intros [Hi|[Hi|[Hi|Hi]]]; try (eapply H; exact Hi); cbn in Hi; intuition discriminate.
Qed.

Lemma sock_path_nul e rq : Matches e rq -> ~ In x00 (rq_socket_dir rq) -> has_nul (socket_path (pair0 e)) = false.
Proof.
  intros M H. apply has_nul_iff. rewrite (socket_path_eq e rq M). pose proof (sock_name_nul (rq_uid rq) (rq_pid rq)) as HN.
  destruct (sock_name_ok (rq_uid rq) (rq_pid rq)) as (N1 & _).
  destruct (path_join_rel (rq_socket_dir rq) _ (sock_name_hd _ _) N1) as [(_ & ->)|[(i & Ed & ->)|(_ & ->)]]; [exact HN| |].
  - intros Hi. apply in_app_iff in Hi as [Hi|Hi]; [apply H; exact Hi|exact (HN Hi)].
  - rewrite in_app_iff. cbn [In]. intros [Hi|[Hi|Hi]]; [contradiction|discriminate|contradiction].
Qed.

Lemma sock_name_Name rq : SocketName rq (sock_name (rq_uid rq) (rq_pid rq)).
Proof.
  exists (to_dec (rq_uid rq)), (to_dec (rq_pid rq)). split; [apply Decimal_iff; reflexivity|].
  split; [apply Decimal_iff; reflexivity|reflexivity].
Qed.

Lemma sock_path_fits e rq : Matches e rq ->
  (forall n, SocketName rq n -> (List.length (rq_socket_dir rq) + 1 + List.length n < 108)%nat) ->
  zlen (socket_path (pair0 e)) < 108.
Proof.
  intros M H. specialize (H _ (sock_name_Name rq)). rewrite (socket_path_eq e rq M). unfold zlen.
  destruct (sock_name_ok (rq_uid rq) (rq_pid rq)) as (N1 & _).
  destruct (path_join_rel (rq_socket_dir rq) _ (sock_name_hd _ _) N1) as [(_ & ->)|[(i & Ed & ->)|(_ & ->)]].
  - lia.
  - rewrite app_length. lia.
  - rewrite app_length. cbn [List.length]. lia.
Qed.

(** ** The work on the socket, when everything works *)
Lemma PrivateDir_ok euid i : PrivateDir euid i -> dir_ok euid i.
Proof.
  intros (HK & HU & HP & H1 & H2). split; [apply (dir_bit i HP); left; exact HK|]. split; [exact HU|].
  apply no_others. unfold OthersWrite. tauto.
Qed.

Section Working.
Variables (euid : Z) (p : bytes) (uid gid mode : Z) (par : path).
Let q := components p.
Hypothesis Hpar : path_parent p = Some par.
Hypothesis Hne : par <> [].
Hypothesis Hnul : has_nul p = false.
Hypothesis Hlen : zlen p < 108.
Hypothesis Hdiff : par <> q.

Lemma enforce_works o es : EnforceT euid p o es -> Forall (Works euid q) es -> o = Stopped \/ o = Done (Ok tt).
Proof.
  intros H W. inversion H as [e HN| |e par' ev HP _ _ Hc Hb|par' ev n HP _ _ _ _ _]; subst; auto.
  - exfalso. destruct HN as [HN|[HN|HN]]; congruence.
  - exfalso. rewrite Hpar in HP. injection HP as <-. inversion W as [|? ? W1 _]; subst. unfold Works in W1. rewrite Hc in W1.
    destruct W1 as [_ W1]. destruct (W1 Hdiff) as (HA & n & HR & HD). eapply Hb; [exact HA|exact HR|].
    apply PrivateDir_ok. exact HD.
Qed.

Lemma unlink_works o es : UnlinkT p o es -> Forall (Works euid q) es -> o = Stopped \/ o = Done (Ok tt).
Proof.
  intros H W. inversion H as [|ev Hc Hr|ev n e [Hc Ha] Hr Hk| |ev n ev2 m [Hc Ha] Hr Hk [Hc2 Ha2] Hm|ev n ev2 e [Hc Ha] Hr Hk Hc2 Hm];
    subst; auto; exfalso.
  - inversion W as [|? ? W1 _]; subst. unfold Works in W1. rewrite Hc in W1. destruct W1 as [W1 _].
    apply Hk. exact (W1 eq_refl n Ha Hr).
  - inversion W as [|? ? _ W1]; subst. inversion W1 as [|? ? W2 _]; subst. unfold Works in W2. rewrite Hc2 in W2.
    destruct W2 as [W2 W3]. apply W3. exact (Hm W2).
Qed.

Lemma bind_works o es : BindT p o es -> Forall (Works euid q) es -> o = Stopped \/ exists fd, o = Done (Ok fd) /\ fd < 1024.
Proof.
  intros H W.
  assert (HS : forall e ev, Is CSocket (AErr e) ev -> ~ Works euid q ev).
  { intros e ev [Hc Ha] X. unfold Works in X. rewrite Hc in X. destruct X as (fd & X & _). congruence. }
  assert (HB : forall ev, unbound p ev -> ~ Works euid q ev).
  { intros ev [Hc Hu] X. unfold Works in X. rewrite Hc in X. destruct X as (_ & (g & X1) & _ & X2 & X3).
    destruct Hu as [(e & Hu)|[_ [Hu|Hu]]]; [congruence|fold q in Hu; contradiction|fold q in Hu; contradiction]. }
  assert (HL : forall e ev, Is CListen (AErr e) ev -> ~ Works euid q ev).
  { intros e ev [Hc Ha] X. unfold Works in X. rewrite Hc in X. congruence. }
  inversion H; subst; auto; try (exfalso; lia);
    try (exfalso; rewrite !Forall_cons_iff in W; destruct W as (W1 & W);
      first [eapply HS; eassumption|destruct W as (W2 & W);
        first [eapply HB; eassumption|destruct W as (W3 & W); eapply HL; eassumption]]).
  right. eexists. split; [reflexivity|]. rewrite Forall_cons_iff in W. destruct W as [W _].
  match goal with X : Is CSocket _ _ |- _ => destruct X as [Hc Ha] end. unfold Works in W. rewrite Hc in W.
  destruct W as (fd' & W1 & W2). rewrite Ha in W1. injection W1 as ->. exact W2.
Qed.

Lemma accept_works o es : AcceptT o es -> Forall (Works euid q) es -> o = Stopped \/ exists c, o = Done (Ok c).
Proof.
  intros H W. inversion H as [|es' ev e _ He [Hc Ha]|es' ev c _ _]; subst; eauto. exfalso.
  apply Forall_app in W as [_ W]. inversion W as [|? ? W1 _]; subst. unfold Works in W1. rewrite Hc in W1.
  destruct W1 as [W1|W1]; congruence.
Qed.

Lemma serve_works fd o es : fd < 1024 -> ServeT fd p uid gid mode o es -> Forall (Works euid q) es ->
  o = Stopped \/ exists c, o = Done (Ok c).
Proof.
  intros Hfd H W.
  assert (HF : forall ev, failed ev q -> (exists u g, e_call ev = CChown q u g) \/ (exists m, e_call ev = CChmod q m) -> ~ Works euid q ev).
  { intros ev Hf Hc X. unfold Works in X.
    assert (X' : e_ans ev = AOk /\ resolve (e_pre ev) q <> None).
    { destruct Hc as [(u & g & Hc)|(m & Hc)]; rewrite Hc in X; exact X. }
    destruct X' as [X1 X2]. destruct Hf as [(e & Hf)|[_ Hf]]; [congruence|contradiction]. }
  inversion H as [|e co Hc Hf| |e co cm Hco Hc Hf| | |e e' co cm se Hco Hcm _ [Hc Ha]|n co cm se Hco Hcm _ Hn [Hc Ha]|o' co cm se es' Hco Hcm _ Hs HA];
    subst; auto; try (exfalso; lia); rewrite !Forall_cons_iff in W.
  - exfalso. destruct W as [W _]. eapply HF; [exact Hf| |exact W]. left. eauto.
  - exfalso. destruct W as (_ & W & _). eapply HF; [exact Hf| |exact W]. right. eauto.
  - exfalso. destruct W as (_ & _ & W & _). unfold Works in W. rewrite Hc in W. congruence.
  - exfalso. destruct W as (_ & _ & W & _). unfold Works in W. rewrite Hc in W. congruence.
  - destruct W as (_ & _ & _ & W). eapply accept_works; eassumption.
Qed.

Lemma tail_works {A} old (r : A) o ts : TailT p old r o ts -> o = Stopped \/ o = Done r.
Proof. inversion 1; auto. Qed.

Lemma open_works o es : OpenT euid p uid gid mode o es -> Forall (Works euid q) es ->
  o = Stopped \/ exists c, o = Done (Ok c).
Proof.
  intros H W. inversion H as [|e es' HE| |e es' us HE HU| |es' us um o' ms HE HU HM HT]; subst; auto.
  - destruct (enforce_works _ _ HE W) as [X|X]; discriminate.
  - apply Forall_app in W as [_ W]. destruct (unlink_works _ _ HU W) as [X|X]; discriminate.
  - apply Forall_app in W as [_ W]. apply Forall_app in W as [_ W]. apply Forall_cons_iff in W as [_ W].
    inversion HT as [|e o2 es2 ts HB HTl| | fd es2 ss HB HS|fd es2 ss cl HB HS Hcl| |fd r o2 es2 ss cl ts HB HS Hcl HTl]; subst; auto.
    + apply Forall_app in W as [W _]. destruct (bind_works _ _ HB W) as [X|(fd & X & _)]; discriminate.
    + apply Forall_app in W as [W1 W]. destruct (bind_works _ _ HB W1) as [X|(fd' & X & Hfd)]; [discriminate|].
      injection X as <-. apply Forall_app in W as [W2 _].
      destruct (serve_works fd _ _ Hfd HS W2) as [X|(c & X)]; discriminate.
    + apply Forall_app in W as [W1 W]. destruct (bind_works _ _ HB W1) as [X|(fd' & X & Hfd)]; [discriminate|].
      injection X as <-. apply Forall_app in W as [W2 _].
      destruct (serve_works fd _ _ Hfd HS W2) as [X|(c & X)]; [discriminate|]. injection X as ->.
      destruct (tail_works _ _ _ _ HTl) as [->| ->]; eauto.
Qed.
End Working.

(** ** The conversation *)
Definition Unfailing (ev : event) : Prop := ~ Failed ev /\ forall c, ~ Is (CRead c) (AErr EINTR) ev.

Lemma Works_unfailing euid q c ev : ConnCall c (e_call ev) -> Works euid q ev ->
  (forall f, e_call ev <> CReadFile f) -> Unfailing ev.
Proof.
  intros HC W HN. split.
  - intros F. unfold Works, Failed in *. destruct (e_call ev) eqn:Ec; try contradiction; try (eapply HN; reflexivity).
    + rewrite W in F. exact F.
    + rewrite W in F. exact F.
    + destruct W as [(n & W & Hn)|W]; rewrite W in F; [lia|congruence].
    + destruct W as (d & W). rewrite W in F. exact F.
  - intros c' [Hc Ha]. unfold Works in W. rewrite Hc in W. destruct W as (d & W). congruence.
Qed.

Lemma not_any es : Forall Unfailing es -> ~ AnyFailed es.
Proof.
  intros H F. apply Exists_exists in F as (ev & Hi & Hf). rewrite Forall_forall in H. apply (H ev Hi). exact Hf.
Qed.

Lemma reads_one c d e1 ev e2 : SigOnly e1 -> SigOnly e2 -> Is (CRead c) (AData d) ev -> reads (e1 ++ ev :: e2) = [ev].
Proof.
  intros H1 H2 [Hc _]. rewrite reads_app, (reads_sig _ H1). cbn [app]. unfold reads. cbn [filter]. unfold is_read at 1. rewrite Hc.
  change (ev :: reads e2 = [ev]). rewrite (reads_sig _ H2). reflexivity.
Qed.

Lemma In_reads ev c es : In ev es -> e_call ev = CRead c -> In ev (reads es).
Proof. intros Hi Hc. apply filter_In. split; [exact Hi|]. unfold is_read. rewrite Hc. reflexivity. Qed.

(** When no call on the connection fails, the answer decides. *)
Lemma remote_works c path sp o rs : RemoteT c path sp o rs ->
  Forall (fun ev => (forall f, e_call ev <> CReadFile f) -> Unfailing ev) rs ->
  o = Stopped
  \/ exists d rd, reads rs = [rd] /\ Is (CRead c) (AData d) rd
     /\ ((o = Done (Ok tt) /\ Yes d) \/ (exists er, o = Done (Err er)) /\ ~ Yes d).
Proof.
  assert (HU : forall xs, Only (ConnCall c) xs -> Only NotReadFile xs ->
    Forall (fun ev => (forall f, e_call ev <> CReadFile f) -> Unfailing ev) xs -> Forall Unfailing xs).
  { intros xs _ H1 H2. unfold Only in H1. rewrite Forall_forall in *. intros ev Hi. apply H2; [exact Hi|].
    intros f Hf. specialize (H1 ev Hi). cbv beta in H1. rewrite Hf in H1. exact H1. }
  intros H W. inversion H as [es HL|t es ws HL Hw|e t es ws HL Hw HF|t es ws fs HL Hw Hf|t es ws fs HL Hw Hf HF
    |t es ws fs r HL Hw [Hf _] Hr|e t es ws fs r HL Hw [Hf _] Hr HF|d t es ws fs r xs HL Hw [Hf _] Hr Hx
    |d t es ws fs r xs HL Hw [Hf _] Hr Hx Ha|d t es ws fs r xs HL Hw [Hf _] Hr Hx _ Ha]; subst; clear H; auto.
  - exfalso. apply Forall_app in W as [_ W]. eapply not_any; [|exact HF].
    apply HU; [apply OnConn_calls; apply Hw|apply (OnConn_calls' c); apply Hw|exact W].
  - exfalso. apply Forall_app in W as [_ W]. apply Forall_app in W as [_ W]. eapply not_any; [|exact HF].
    apply HU; [apply SigOnly_calls; apply Hf|apply SigOnly_calls'; apply Hf|exact W].
  - exfalso. do 3 apply Forall_app in W as [_ W].
    assert (X : Forall Unfailing r).
    { apply HU; [eapply read1_calls; exact Hr| |exact W].
      cbn in Hr. destruct Hr as [Hr|(e1 & ev & e2 & -> & H1 & H2 & Hc)]; [apply SigOnly_calls'; exact Hr|].
      apply Forall_app. split; [apply SigOnly_calls'; exact H1|]. constructor; [rewrite Hc; exact Logic.I|apply SigOnly_calls'; exact H2]. }
    destruct HF as [HF|(ev & Hi & Hv)]; [eapply not_any; eassumption|].
    rewrite Forall_forall in X. destruct (X ev Hi) as [_ X']. eapply X'. exact Hv.
  - right. destruct Hr as (e1 & ev & e2 & -> & H1 & H2 & Hv & _). exists d, ev.
    split; [|split; [exact Hv|right; split; [eauto|exact Ha]]].
    rewrite !reads_app, (reads_load _ _ _ _ HL), (reads_conn _ _ (proj1 Hw)), (reads_sig _ Hf), (reads_conn _ _ (proj1 Hx)), <- (reads_app e1).
    rewrite (reads_one c d) by assumption. reflexivity.
  - right. destruct Hr as (e1 & ev & e2 & -> & H1 & H2 & Hv & _). exists d, ev.
    split; [|split; [exact Hv|left; split; [reflexivity|exact Ha]]].
    rewrite !reads_app, (reads_load _ _ _ _ HL), (reads_conn _ _ (proj1 Hw)), (reads_sig _ Hf), (reads_conn _ _ (proj1 Hx)), <- (reads_app e1).
    rewrite (reads_one c d) by assumption. reflexivity.
Qed.

(** ** The whole opening *)
Lemma LocalT_honest s sp ls : LocalT s sp Panicked ls -> ~ HonestPrintf ls.
Proof.
  intros H HH. inversion H as [| |o t opened es ys ss HL HY HS]; subst.
  apply HonestPrintf_app in HH as [_ HH]. apply HonestPrintf_app in HH as [_ HH].
  inversion HS as [o ws cs E1 E2 HC| |o r ws ps cs E1 E2 HC| |ws ps cs E1 HP HC|]; subst.
  - inversion HC.
  - inversion HC.
  - apply HonestPrintf_app in HH as [_ HH]. apply HonestPrintf_app in HH as [HH _].
    destruct HP as [_ HP]. apply HP. exact HH.
Qed.

Section Reaching.
Variables (pl : platform) (a : open_args) (rq : request).
Hypothesis D : Describes pl a rq.
Hypothesis K : Askable pl a rq.

Definition Reached (o : outcome (Z * pstate SudoPair)) (evs : list event) : Prop :=
  exists e mode oo ls os post, evs = ls ++ os ++ post
    /\ Matches e rq
    /\ LocalT (pair0 e) (template_spec (pair0 e)) (Done tt) ls
    /\ socket_mode (pair0 e) = Some mode
    /\ OpenT (pl_euid pl) (socket_path (pair0 e)) (socket_uid (pair0 e)) (socket_gid (pair0 e)) mode oo os
    /\ AfterT e oo o post.

Lemma mode_Some e : Matches e rq -> socket_mode (pair0 e) <> None.
Proof.
  intros M. unfold socket_mode. destruct (ak_other _ _ _ K) as [H|H].
  - apply (to_user_iff e rq M) in H. rewrite H. discriminate.
  - apply (explicit_group_iff e rq M) in H. rewrite H. destruct (is_sudoing_to_user (pair0 e)); discriminate.
Qed.

(** Nothing in the local phase keeps the opening from reaching the socket. *)
Lemma reached o evs : OpenedT pl a rq o evs -> HonestPrintf evs ->
  (o = Stopped /\ Only LocalPrompt evs) \/ Reached o evs.
Proof.
  intros HO HH. destruct K as [K1 K2 K3 K4 K5 K6 _ _ _].
  assert (HS : forall e mode oo ls os o post,
    Matches e rq -> LocalT (pair0 e) (template_spec (pair0 e)) (Done tt) ls -> socket_mode (pair0 e) = Some mode ->
    OpenT (pl_euid pl) (socket_path (pair0 e)) (socket_uid (pair0 e)) (socket_gid (pair0 e)) mode oo os ->
    AfterT e oo o post -> Reached o (ls ++ os ++ post)).
  { intros e mode oo ls os o' post H1 H2 H3 H4 H5. exists e, mode, oo, ls, os, post.
    split; [reflexivity|]. split; [exact H1|]. split; [exact H2|]. split; [exact H3|]. split; [exact H4|exact H5]. }
  inversion HO as [|e M HC|e M HC HD HI|e M HC HE|e es r M HC NE HU HG Hr Hp|e es M HC NE HU HG Hp|e o' ls es M Ee HC HE HB HN]; subst;
    try contradiction.
  - exfalso. apply HI. auto.
  - exfalso. apply K5. auto.
  - exfalso. apply K5. auto.
  - inversion HN as [e' ls' es' HA|e' ls' es' HA|e' er ls' es' rs r HA Hr Hp|e' er ls' es' rs HA Hp|e' c ls' es' HA];
      subst; clear HN HO;
      inversion HA as [ls' Hl|ls' Hl|ls' Hl Hm|mode ls' os Hl Hm Ho|mode ls' os Hl Hm Ho|er' mode ls' os Hl Hm Ho|c' mode ls' os rs' Hl Hm Ho Hr'|c' er' mode ls' os rs' ds Hl Hm Ho Hr' Hd|c' er' mode ls' os rs' ds Hl Hm Ho Hr' Hd|c' mode ls' os rs' Hl Hm Ho Hr'];
      subst; fold (pair0 e) in *; clear HA.
    + left. split; [reflexivity|]. rewrite app_nil_r. eapply LocalT_calls. exact Hl.
    + right. rewrite <- (app_nil_r es). eapply HS; try eassumption. split; reflexivity.
    + right. eapply HS; try eassumption. do 3 eexists. split; [symmetry; apply app_nil_r|]. split; [exact Hr'|]. split; reflexivity.
    + right. eapply HS; try eassumption. exists (Done (Err er')), rs', ds. split; [reflexivity|]. split; [exact Hr'|].
      exists Stopped, ds, []. split; [symmetry; apply app_nil_r|]. split; [exact Hd|]. split; [constructor|]. left. split; reflexivity.
    + exfalso. eapply LocalT_honest; [exact Hl|]. apply HonestPrintf_app in HH as [HH _]. exact HH.
    + exfalso. exact (mode_Some e M Hm).
    + right. rewrite <- (app_nil_r es). eapply HS; try eassumption. split; reflexivity.
    + right. eapply HS; try eassumption. split; [right; reflexivity|]. eapply report_ErrorText. exact Hp.
    + right. rewrite <- !app_assoc. eapply HS; try eassumption. exists (Done (Err er)), rs', (ds ++ rs).
      split; [reflexivity|]. split; [exact Hr'|]. exists (Done tt), ds, rs. split; [reflexivity|]. split; [exact Hd|].
      split; [eapply report_ErrorText; exact Hp|]. right. split; reflexivity.
    + right. eapply HS; try eassumption. split; [left; reflexivity|]. eapply report_ErrorText. exact Hp.
    + right. rewrite <- !app_assoc. eapply HS; try eassumption. exists (Done (Err er)), rs', (ds ++ rs).
      split; [reflexivity|]. split; [exact Hr'|]. exists (Done tt), ds, rs. split; [reflexivity|]. split; [exact Hd|].
      split; [eapply report_ErrorText; exact Hp|]. left. split; [reflexivity|discriminate].
    + right. eapply HS; try eassumption. exists (Done (Ok tt)), rs', []. split; [symmetry; apply app_nil_r|]. split; [exact Hr'|].
      split; reflexivity.
Qed.

Definition ToSocket (c : call) : Prop := LocalPrompt c \/ SocketCall c.

Lemma prelude_calls e mode oo ls os :
  LocalT (pair0 e) (template_spec (pair0 e)) (Done tt) ls ->
  OpenT (pl_euid pl) (socket_path (pair0 e)) (socket_uid (pair0 e)) (socket_gid (pair0 e)) mode oo os ->
  reads (ls ++ os) = [].
Proof.
  intros HL HO. apply (reads_none ToSocket).
  - intros c [H|H]; exact H.
  - apply Forall_app. split; [apply LocalT_calls in HL; revert HL|apply OpenT_calls in HO; revert HO];
      apply Only_weaken; intros c H; [left|right]; exact H.
Qed.

(** Everything after the connection was made: it reads at most once, and with
    working calls the answer decides. *)
Lemma after_works e c o post :
  AfterT e (Done (Ok c)) o post ->
  Forall (fun ev => (forall f, e_call ev <> CReadFile f) -> ConnCall c (e_call ev) -> Unfailing ev) post ->
  o = Stopped
  \/ exists z st' d rd, o = Done (z, st') /\ reads post = [rd] /\ Is (CRead c) (AData d) rd
     /\ ((z = 1 /\ st_plugin st' <> None /\ Yes d) \/ (z = -1 /\ st_plugin st' = None /\ ~ Yes d)).
Proof.
  intros (ro & rs & fin & -> & HR & HF) W. apply Forall_app in W as [W _].
  assert (W' : Forall (fun ev => (forall f, e_call ev <> CReadFile f) -> Unfailing ev) rs).
  { pose proof (RemoteT_calls _ _ _ _ _ HR) as HC. unfold Only in HC. rewrite Forall_forall in *. intros ev Hi Hn.
    apply W; [exact Hi|exact Hn|exact (HC ev Hi)]. }
  destruct (remote_works _ _ _ _ _ HR W') as [->|(d & rd & Hrd & Hv & Hd)]; [left; apply HF|].
  destruct Hd as [[-> Hy]|[[er ->] Hn]].
  - destruct HF as [-> ->]. right. do 4 eexists. split; [reflexivity|]. rewrite app_nil_r. split; [exact Hrd|].
    split; [exact Hv|]. left. split; [reflexivity|]. split; [discriminate|exact Hy].
  - destruct HF as (od & ds & xs & -> & HD & HX & [[-> _]|[-> _]]); [left; reflexivity|].
    right. do 4 eexists. split; [reflexivity|]. split.
    + rewrite !reads_app, Hrd, (reads_drop _ _ _ HD).
      rewrite (reads_none ErrorText xs); [reflexivity| |exact HX]. intros n [x Hx]. discriminate.
    + split; [exact Hv|]. right. split; [reflexivity|]. split; [reflexivity|exact Hn].
Qed.

Lemma honoured w o w' evs q : core_open SudoPair pl a (pstate0 _) w = (o, w') -> w_trace w' = w_trace w ++ evs ->
  SocketPath rq q -> HonestPrintf evs -> Forall (Works (pl_euid pl) q) evs ->
  o = Stopped
  \/ exists z st' c d rd, o = Done (z, st') /\ reads evs = [rd] /\ Is (CRead c) (AData d) rd
     /\ ((z = 1 /\ st_plugin st' <> None /\ Yes d) \/ (z = -1 /\ st_plugin st' = None /\ ~ Yes d)).
Proof.
  intros H T HP HH W. destruct (opened_given pl a rq D w o w' evs H T) as [_ HO].
  destruct (reached o evs HO HH) as [[-> _]|(e & mode & oo & ls & os & post & -> & M & HL & Hm & HT & HA)]; [left; reflexivity|].
  apply (SocketPath_unique rq) in HP. subst q.
  assert (X : oo = Stopped \/ exists c, oo = Done (Ok c)).
  { rewrite <- (socket_path_comps e rq M) in W. apply Forall_app in W as [_ W]. apply Forall_app in W as [W _].
    eapply open_works; [exact (socket_path_parent e rq M)| | | | |exact HT|exact W].
    - intros Ec. apply (ak_dir _ _ _ K). apply path_eqb_nil, path_eqb_eq. exact Ec.
    - apply (sock_path_nul e rq M). exact (ak_nul _ _ _ K).
    - apply (sock_path_fits e rq M). exact (ak_fits _ _ _ K).
    - rewrite (socket_path_comps e rq M). unfold sock_comps. intros E. apply (f_equal (@List.length _)) in E.
      rewrite app_length in E. cbn in E. lia. }
  destruct X as [->|[c ->]]; [left; apply HA|].
  destruct (after_works e c o post HA) as [->|(z & st' & d & rd & -> & Hr & Hv & Hd)].
  - apply Forall_app in W as [_ W]. apply Forall_app in W as [_ W]. revert W. apply Forall_impl. intros ev W Hn HC.
    eapply Works_unfailing; eassumption.
  - left; reflexivity.
  - right. exists z, st', c, d, rd. split; [reflexivity|]. split; [|split; [exact Hv|exact Hd]].
    rewrite app_assoc, reads_app, (prelude_calls _ _ _ _ _ HL HT). exact Hr.
Qed.
End Reaching.

(** ** Once a yes was read *)
Section YesRead.
Variables (pl : platform) (a : open_args) (rq : request).
Hypothesis D : Describes pl a rq.

Lemma yes_honoured w z st' w' evs c d rd : core_open SudoPair pl a (pstate0 _) w = (Done (z, st'), w') ->
  w_trace w' = w_trace w ++ evs ->
  In rd evs -> Is (CRead c) (AData d) rd -> Yes d ->
  (forall ev, In ev evs -> SigCall (e_call ev) -> e_ans ev = AOk) ->
  z = 1 /\ st_plugin st' <> None.
Proof.
  intros H T Hi Hrd Hy HS. destruct (split_given pl a rq D w _ w' evs H T) as [_ HT].
  assert (Hr : In rd (reads evs)) by (eapply In_reads; [exact Hi|apply Hrd]).
  inversion HT as [o evs' HL HO|e mode oo ls os o post M HC HE HB HLo Hm Hop HA Eo Ee]; subst.
  - exfalso. rewrite (reads_none LocalPrompt evs) in Hr; [exact Hr|intros n X; exact X|exact HL].
  - rewrite app_assoc, reads_app, (prelude_calls pl _ _ _ _ _ HLo Hop) in Hr. cbn [app] in Hr.
    assert (HS' : forall ev, In ev post -> SigCall (e_call ev) -> e_ans ev = AOk).
    { intros ev Hp. apply HS. rewrite !in_app_iff. auto. }
    clear HS HT Hi H T. destruct oo as [[c'|er]| |].
    + destruct HA as (ro & rs & fin & -> & HR & HF).
      rewrite reads_app in Hr.
      assert (Hf : reads fin = []).
      { destruct ro as [[[]|er]| |]; [destruct HF as [_ ->]; reflexivity| |contradiction|destruct HF as [_ ->]; reflexivity].
        destruct HF as (od & ds & xs & -> & HD & HX & _). rewrite reads_app, (reads_drop _ _ _ HD).
        apply (reads_none ErrorText); [intros n [x Hx]; discriminate|exact HX]. }
      rewrite Hf, app_nil_r in Hr.
      assert (HS : forall ev, In ev rs -> SigCall (e_call ev) -> e_ans ev = AOk) by (intros ev Hp; apply HS'; apply in_app_iff; auto).
      clear HS' Hf.
      assert (X : ro = Stopped \/ ro = Done (Ok tt)).
      { clear HF. inversion HR as [es HLd|t es ws HLd Hw|x t es ws HLd Hw HF|t es ws fs HLd Hw Hf|t es ws fs HLd Hw Hf HF
          |t es ws fs r HLd Hw [Hf _] Hr'|x t es ws fs r HLd Hw [Hf _] Hr' HF|d' t es ws fs r xs HLd Hw [Hf _] Hr' Hx
          |d' t es ws fs r xs HLd Hw [Hf _] Hr' Hx Ha|d' t es ws fs r xs HLd Hw [Hf _] Hr' Hx _ Ha]; subst; auto; exfalso;
          rewrite !reads_app, (reads_load _ _ _ _ HLd), (reads_conn _ _ (proj1 Hw)) in Hr;
          try rewrite (reads_sig _ Hf) in Hr; cbn [app] in Hr; try exact Hr.
        - cbn in Hr'. destruct Hr' as [Hr'|(e1 & ev & e2 & -> & H1 & H2 & Hc)]; [rewrite (reads_sig _ Hr') in Hr; exact Hr|].
          assert (E : rd = ev).
          { rewrite reads_app, (reads_sig _ H1) in Hr. unfold reads in Hr. cbn [filter app] in Hr. unfold is_read at 1 in Hr.
            rewrite Hc in Hr. change (In rd (ev :: reads e2)) in Hr. rewrite (reads_sig _ H2) in Hr.
            destruct Hr as [->|[]]. reflexivity. }
          subst ev.
          assert (HSig : forall ev, In ev (e1 ++ rd :: e2) -> ev = rd \/ (SigCall (e_call ev) /\ e_ans ev = AOk)).
          { intros ev Hi. assert (Hs : ev = rd \/ SigCall (e_call ev)).
            { unfold SigOnly in H1, H2. rewrite Forall_forall in H1, H2. apply in_app_iff in Hi as [Hi|[<-|Hi]]; auto. }
            destruct Hs as [Hs|Hs]; [auto|right]. split; [exact Hs|]. apply HS; [|exact Hs].
            do 3 (apply in_app_iff; right). exact Hi. }
          destruct Hrd as [Hc' Ha'].
          destruct HF as [HF|(ev & Hi & Hc2 & Ha2)].
          + apply Exists_exists in HF as (ev & Hi & HF). unfold Failed in HF.
            destruct (HSig ev Hi) as [->|[_ Hok]]; [rewrite Ha' in HF; exact HF|rewrite Hok in HF; exact HF].
          + destruct (HSig ev Hi) as [->|[_ Hok]]; congruence.
        - destruct Hr' as (e1 & ev & e2 & -> & H1 & H2 & Hv & _).
          rewrite (reads_one c' d') , (reads_conn _ _ (proj1 Hx)) in Hr by assumption. destruct Hr as [->|[]].
          destruct Hv as [_ Hv]. destruct Hrd as [_ Hrd]. rewrite Hv in Hrd. injection Hrd as ->. contradiction. }
      destruct X as [->| ->]; [destruct HF; discriminate|]. destruct HF as [HF _]. injection HF as -> ->.
      split; [reflexivity|discriminate].
    + exfalso. destruct HA as [_ HX]. rewrite (reads_none ErrorText post) in Hr; [exact Hr|intros n [x Hx]; discriminate|exact HX].
    + exfalso. destruct HA as [_ ->]. exact Hr.
    + exfalso. destruct HA as [_ ->]. exact Hr.
Qed.
End YesRead.
