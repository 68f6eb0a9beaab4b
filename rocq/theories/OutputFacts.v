(** What is handed to sudo's printf: error reports, the endless report of an
    error with a source, and the texts of prompts. *)
From Coq Require Import Lia.
From Verif Require Import Base BaseLemmas Path Template World Options Sys Io Socket Env Core Pair Spec TraceSpec SessionSpec
  RequestProofs PairPure RunProofs IoProofs SocketProofs PairProofs OpenFacts AskFacts FailFacts CallbackSpec CallbackFacts.
Local Open Scope Z_scope.

(** ** printf *)

(** What C's printf prints for a format when no arguments are passed: bytes
    other than '%' stand for themselves and "%%" for '%'. Any other conversion
    reads an argument that is not there: the result is undefined, so the
    relation has no case for it. *)
Inductive CFormat : bytes -> bytes -> Prop :=
| CF_nil : CFormat [] []
| CF_byte c f o : c <> "%"%byte -> CFormat f o -> CFormat (c :: f) (c :: o)
| CF_percent f o : CFormat f o -> CFormat ("%"%byte :: "%"%byte :: f) ("%"%byte :: o).

Definition PercentFree (b : bytes) : Prop := ~ In "%"%byte b.

Lemma CFormat_free b o : PercentFree b -> (CFormat b o <-> o = b).
Proof.
  revert o. induction b as [|c b IH]; intros o H.
  - split; [inversion 1; reflexivity|intros ->; constructor].
  - assert (Hb : PercentFree b) by (intros X; apply H; right; exact X).
    split.
    + inversion 1; subst; [f_equal; apply (IH _ Hb); assumption|]. exfalso. apply H. left. reflexivity.
    + intros ->. constructor; [intros ->; apply H; left; reflexivity|]. apply (IH b Hb). reflexivity.
Qed.

Lemma CFormat_length f o : CFormat f o -> (List.length o <= List.length f)%nat.
Proof. induction 1; cbn; auto with arith. Qed.

Lemma CFormat_id b : CFormat b b <-> PercentFree b.
Proof.
  split; [|intros H; apply CFormat_free; auto].
  assert (G : forall o, CFormat b o -> o = b -> PercentFree b); [|intros H; eapply G; eauto].
  intros o H. induction H; intros E.
  - intros [].
  - injection E as E. intros [X|X]; [contradiction|]. exact (IHCFormat E X).
  - exfalso. apply CFormat_length in H. injection E as E. rewrite E in H. cbn in H.
    exact (PeanoNat.Nat.nle_succ_diag_l _ H).
Qed.

Lemma Infix_free a b : Infix a b -> PercentFree b -> PercentFree a.
Proof. intros (x & y & ->) H X. apply H. apply in_app_iff. right. apply in_app_iff. left. exact X. Qed.

Lemma free_bool b : existsb (fun c => byte_eqb c "%") b = false -> PercentFree b.
Proof.
  intros H X. assert (E : existsb (fun c => byte_eqb c "%") b = true); [|congruence].
  apply existsb_exists. exists "%"%byte. split; [exact X|reflexivity].
Qed.

(** Every text handed to printf in [evs] satisfies [Q]. *)
Definition Texts (Q : bytes -> Prop) (evs : list event) : Prop :=
  Forall (fun ev => match e_call ev with CPrintf _ d => Q d | _ => True end) evs.

Lemma Texts_app Q a b : Texts Q (a ++ b) <-> Texts Q a /\ Texts Q b.
Proof. apply Forall_app. Qed.
Lemma Texts_nil Q : Texts Q [].
Proof. constructor. Qed.
Lemma Texts_none Q C evs : Only C evs -> (forall l d, ~ C (CPrintf l d)) -> Texts Q evs.
Proof.
  intros H HC. eapply Forall_impl; [|exact H]. intros ev Hev. cbn in Hev.
  destruct (e_call ev) eqn:E; try exact I. exfalso. eapply HC. exact Hev.
Qed.
Lemma Texts_weaken (Q R : bytes -> Prop) evs : (forall d, Q d -> R d) -> Texts Q evs -> Texts R evs.
Proof. intros H. apply Forall_impl. intros ev. destruct (e_call ev); auto. Qed.
Lemma Texts_printed pf b o evs : printed_all pf b o evs -> Texts (fun d => Infix d b) evs.
Proof.
  intros [H _]. eapply Forall_impl; [|exact H]. intros ev (d & -> & Hd). exact Hd.
Qed.

Lemma report_free pf er o xs : pf_tag pf = B "sudo_pair: " ->
  printed_all pf (newline ++ pf_tag pf ++ display_pair_error er ++ newline) o xs -> Texts PercentFree xs.
Proof.
  intros Ht H. eapply Texts_weaken; [|eapply Texts_printed; exact H]. cbn beta.
  intros d Hd. eapply Infix_free; [exact Hd|]. apply free_bool. rewrite Ht. destruct er; vm_compute; reflexivity.
Qed.

(** ** The texts of an opening *)
Section LocalTexts.
Variables (e : io_env) (rq : request).
Hypothesis M : Matches e rq.

Lemma user_path : po_user_prompt_path (sp_options (pair0 e)) = rq_user_prompt_path rq.
Proof. cbn [pair0 sp_options]. rewrite (m_options _ _ M). reflexivity. Qed.

Lemma UserPrompt_intro evs t : TemplateFrom (rq_user_prompt_path rq) DEFAULT_USER_PROMPT evs t ->
  UserPrompt rq evs (expand (template_spec (pair0 e)) t).
Proof. intros H. exists t. split; [exact H|]. apply (prompt_iff e rq t _ M). reflexivity. Qed.

Lemma split_after {A} (x y : list A) e1 ev e2 : x ++ y = e1 ++ ev :: e2 -> ~ In ev x ->
  exists r, e1 = x ++ r /\ y = r ++ ev :: e2.
Proof.
  revert e1. induction x as [|b x IH]; intros e1 H N.
  - exists e1. auto.
  - destruct e1 as [|c e1]; cbn in H; injection H as <- H.
    + exfalso. apply N. left. reflexivity.
    + destruct (IH e1 H) as (r & -> & ->); [intros X; apply N; right; exact X|]. exists r. auto.
Qed.

Lemma ShowT_texts pf opened prompt o ss : ShowT pf opened prompt o ss ->
  Texts (fun d => Infix d prompt) ss /\ Only NotReadFile ss.
Proof.
  assert (HT : forall o ws, tty_wrote prompt o ws -> Texts (fun d => Infix d prompt) ws /\ Only NotReadFile ws).
  { intros o' ws [H _]. split; (eapply Forall_impl; [|exact H]); intros ev [d Hd]; rewrite Hd; exact I. }
  assert (HC : forall op o cs, CloseT op o cs -> Texts (fun d => Infix d prompt) cs /\ Only NotReadFile cs).
  { intros op o' cs H. destruct H as [|Ho|ev Ho [Hc _]]; (split; [|onl]); try (apply Texts_nil);
      try (constructor; [|constructor]); rewrite Hc; exact I. }
  assert (HP : forall pf o ps, printed_all pf prompt o ps -> Texts (fun d => Infix d prompt) ps /\ Only NotReadFile ps).
  { intros pf' o' ps H. split; [eapply Texts_printed; exact H|].
    destruct H as [H _]. eapply Forall_impl; [|exact H]. intros ev (d & Hd & _). rewrite Hd. exact I. }
  assert (HW : forall ws, (opened = false /\ ws = [] \/ opened = true /\ exists e, tty_wrote prompt (Done (Err e)) ws /\ AnyFailed ws) ->
    Texts (fun d => Infix d prompt) ws /\ Only NotReadFile ws).
  { intros ws [[_ ->]|(_ & x & H & _)]; [split; constructor|]. eapply HT. exact H. }
  intros H. destruct H; rewrite ?Texts_app, ?Only_app;
    repeat match goal with
    | H : tty_wrote _ _ _ |- _ => apply HT in H
    | H : CloseT _ _ _ |- _ => apply HC in H
    | H : printed_all _ _ _ _ |- _ => apply HP in H
    | H : _ \/ _ |- _ => apply HW in H
    end; tauto.
Qed.

Lemma LocalT_texts o ls : LocalT (pair0 e) (template_spec (pair0 e)) o ls ->
  forall e1 ev e2 l d, ls = e1 ++ ev :: e2 -> e_call ev = CPrintf l d ->
  exists out, UserPrompt rq e1 out /\ Infix d out.
Proof.
  intros H e1 ev e2 l d El Ec.
  assert (HL : forall o es, LoadT (po_user_prompt_path (sp_options (pair0 e))) DEFAULT_USER_PROMPT o es -> ~ In ev es).
  { intros o' es' X Hin. apply LoadT_calls in X. unfold Only in X. rewrite Forall_forall in X. specialize (X _ Hin).
    cbn in X. congruence. }
  assert (HY : forall o ys, TtyT (ui_tty (en_user_info (sp_env (pair0 e)))) o ys ->
    ~ In ev ys /\ Only NotReadFile ys).
  { intros o' ys X. split.
    - intros Hin. destruct X as [|p|  |p er ev' A1 A2 [A3 _]|p ev' A1 A2 [A3 _]]; cbn in Hin; try tauto;
        destruct Hin as [->|[]]; congruence.
    - destruct X as [|p|  |p er ev' A1 A2 [A3 _]|p ev' A1 A2 [A3 _]]; onl; rewrite A3; exact I. }
  destruct H as [es Hl|t es ys Hl Hy|o' t opened es ys ss Hl Hy Hs].
  - exfalso. eapply HL; [exact Hl|]. rewrite El. apply in_app_iff. right. left. reflexivity.
  - exfalso. assert (X : In ev (es ++ ys)) by (rewrite El; apply in_app_iff; right; left; reflexivity).
    apply in_app_iff in X as [X|X]; [eapply HL; eassumption|]. eapply HY; eassumption.
  - destruct (split_after _ _ _ _ _ El (HL _ _ Hl)) as (r & -> & H2).
    destruct (HY _ _ Hy) as [Hny Hry]. destruct (split_after _ _ _ _ _ H2 Hny) as (r' & -> & ->).
    destruct (ShowT_texts _ _ _ _ _ Hs) as [HT HN]. rewrite Texts_app in HT. rewrite Only_app in HN.
    destruct HT as [_ HT]. inversion HT as [|x' y' H4 H5]; subst. rewrite Ec in H4.
    exists (expand (template_spec (pair0 e)) t). split; [|exact H4].
    apply UserPrompt_intro. rewrite <- user_path. apply (TemplateFrom_load _ _ _ _ [] (ys ++ r') Hl).
    + constructor.
    + apply Only_app. split; [exact Hry|apply HN].
Qed.
End LocalTexts.

Lemma app_cases {A} (x y : list A) e1 ev e2 : x ++ y = e1 ++ ev :: e2 ->
  (exists r, x = e1 ++ ev :: r) \/ (exists r, e1 = x ++ r /\ y = r ++ ev :: e2).
Proof.
  revert e1. induction x as [|b x IH]; intros e1 H.
  - right. exists e1. auto.
  - destruct e1 as [|c e1]; cbn in H; injection H as <- H.
    + left. exists x. reflexivity.
    + destruct (IH e1 H) as [[r ->]|(r & -> & ->)]; [left; exists r; reflexivity|right; exists r; auto].
Qed.

Section OpenTexts.
Variables (pl : platform) (a : open_args) (rq : request).
Hypothesis D : Describes pl a rq.

Lemma AskedT_texts e o ls es : AskedT pl e o ls es -> Texts PercentFree es.
Proof.
  assert (HO : forall p u g m o os, OpenT (pl_euid pl) p u g m o os -> Texts PercentFree os).
  { intros p u g m o' os H. apply OpenT_calls in H. eapply Texts_none; [exact H|]. intros l d []. }
  assert (HR : forall c p sp o rs, RemoteT c p sp o rs -> Texts PercentFree rs).
  { intros c p sp o' rs H. apply RemoteT_calls in H. eapply Texts_none; [exact H|].
    intros l d X. cbn in X. intuition discriminate. }
  assert (HD : forall c o ds, DropT c o ds -> Texts PercentFree ds).
  { intros c o' ds H. apply DropT_calls in H. eapply Texts_none; [exact H|].
    intros l d [X|X]; discriminate. }
  intros HA. destruct HA; rewrite ?Texts_app; repeat split; eauto using Texts_nil.
Qed.

Lemma open_texts w o w' evs e1 ev e2 l d :
  core_open SudoPair pl a (pstate0 _) w = (o, w') -> w_trace w' = w_trace w ++ evs ->
  evs = e1 ++ ev :: e2 -> e_call ev = CPrintf l d ->
  PercentFree d \/ exists out, UserPrompt rq e1 out /\ Infix d out.
Proof.
  intros H T E Ec. destruct (opened_given pl a rq D w o w' evs H T) as [_ HO].
  assert (HR : forall er r xs, report_of a er r xs -> Texts PercentFree xs).
  { intros er r xs X. apply (report_free (stderr_of a) er r xs eq_refl (proj1 X)). }
  assert (HF : forall xs y1 y2, Texts PercentFree xs -> xs = y1 ++ ev :: y2 -> PercentFree d).
  { intros xs y1 y2 X ->. rewrite Texts_app in X. destruct X as [_ X]. inversion X as [|x' y' X1 X2]; subst.
    rewrite Ec in X1. exact X1. }
  assert (HN : [] = e1 ++ ev :: e2 -> False) by (intros X; destruct e1; discriminate).
  destruct HO as [|e M HC| |e M HC HE|e es r M HC NE HU HG Hr Hp|e es M HC NE HU HG Hp|e o' ls es M Ee HC HE HB HA];
    try (exfalso; exact (HN E)).
  - left. eapply HF; [|exact E]. eapply HR. exact Hp.
  - left. eapply HF; [|exact E]. eapply HR. exact Hp.
  - apply app_cases in E as [[r ->]|(r & -> & E)].
    + assert (HL : exists ol, LocalT (pair0 e) (template_spec (pair0 e)) ol (e1 ++ ev :: r)).
      { destruct HA as [e' ls' es' HA|e' ls' es' HA|e' er ls' es' rs r' HA Hr Hp|e' er ls' es' rs HA Hp|e' c ls' es' HA];
          inversion HA; subst; eexists; eassumption. }
      destruct HL as [ol HL]. right. eapply LocalT_texts; eauto.
    + left. eapply HF; [|exact E].
      destruct HA as [e' ls' es' HA|e' ls' es' HA|e' er ls' es' rs r' HA Hr Hp|e' er ls' es' rs HA Hp|e' c ls' es' HA];
        rewrite ?Texts_app; repeat split; eauto using AskedT_texts.
Qed.
End OpenTexts.

(** ** The texts of the other callbacks *)
Section CallbackTexts.
Definition tx {A} (m : M A) : Prop := yields 0 m (fun _ es => Texts PercentFree es).

Lemma tx_bind {A C} (m : M A) (f : A -> M C) : tx m -> (forall x, tx (f x)) -> tx (bind m f).
Proof.
  intros Hm Hf. unfold tx. eapply yields_seq; [exact Hm| | |]; auto.
  intros x e1 H1. eapply yields_weaken; [apply Hf|]. intros o e2 H2. apply Texts_app. auto.
Qed.
Lemma tx_ret {A} (x : A) : tx (ret x).
Proof. apply yields_ret'. apply Texts_nil. Qed.
Lemma tx_panic {A} : tx (@panic A).
Proof. apply yields_panic'. apply Texts_nil. Qed.
Lemma tx_catch {A} (m : M A) : tx m -> tx (catch m).
Proof.
  intros H. unfold tx. eapply yields_weaken; [apply yields_catch; exact H|].
  intros [[?|]| |] es X; auto. contradiction.
Qed.
Lemma tx_catch_open m : tx m -> tx (catch_open m).
Proof. intros H. apply tx_bind; [apply tx_catch; exact H|]. intros [?|]; apply tx_ret. Qed.
Lemma tx_catch_log m : tx m -> tx (catch_log m).
Proof. intros H. apply tx_bind; [apply tx_catch; exact H|]. intros [?|]; apply tx_ret. Qed.
Lemma tx_sent c d : tx (socket_write_all c d).
Proof.
  unfold tx. eapply yields_weaken; [apply socket_write_all_yields|]. intros o es [H _].
  eapply Forall_impl; [|exact H]. intros ev [X|[d' X]]; [|rewrite X; exact I]. destruct (e_call ev); cbn in *; tauto.
Qed.
Lemma tx_output s d : tx (log_output s d).
Proof.
  unfold log_output. destruct (sp_socket s); [|apply tx_ret].
  apply tx_bind; [apply tx_sent|]. intros [?|?]; apply tx_ret.
Qed.
Lemma tx_report e m : pf_tag (en_stderr e) = B "sudo_pair: " -> tx m -> tx (report SudoPair e m).
Proof.
  intros Ht H. unfold report. apply tx_bind; [exact H|]. intros [?|er]; [apply tx_ret|].
  apply tx_bind; [|intros; apply tx_ret]. eapply yields_weaken; [apply write_error_yields|].
  intros o es X. eapply report_free; eassumption.
Qed.

Lemma callback_texts pl cb e p : pf_tag (en_stderr e) = B "sudo_pair: " ->
  InSession cb -> tx (run_callback SudoPair pl cb (ps e (Some p))).
Proof.
  intros Ht HI. destruct cb as [a0|x y|v|s d|l k]; try contradiction; cbn [run_callback];
    (apply tx_bind; [|intros; apply tx_ret]).
  - apply tx_catch_open. cbn [ps st_env]. apply tx_bind; [|intros; apply tx_ret]. unfold show_version.
    apply tx_bind; [|intros; apply tx_ret]. eapply yields_weaken; [apply write_pieces_yields|].
    intros o es H. eapply Texts_weaken; [|eapply Texts_printed; exact H]. cbn beta.
    intros d Hd. eapply Infix_free; [exact Hd|]. apply free_bool. reflexivity.
  - apply tx_catch_log. cbn [ps st_env st_plugin]. destruct (_ && _); [apply tx_ret|].
    apply tx_report; [exact Ht|]. cbn [pg_log SudoPair]. unfold pair_log.
    destruct s; try apply tx_output; try apply tx_ret.
    destruct (is_exempt p pl) as [[|]|]; [apply tx_ret|apply tx_ret|apply tx_panic].
  - apply tx_catch_log. cbn [ps st_env st_plugin]. apply tx_report; [exact Ht|]. apply tx_output.
Qed.

Lemma paired_texts pl a rq st c cb w o w' evs ev l d : PairedSession pl a rq st c -> InSession cb ->
  run_callback SudoPair pl cb st w = (o, w') -> w_trace w' = w_trace w ++ evs ->
  In ev evs -> e_call ev = CPrintf l d -> PercentFree d.
Proof.
  intros HP HI H T Hin Ec. apply paired_state in HP as (e & M & He & ->).
  assert (Ht : pf_tag (en_stderr e) = B "sudo_pair: ") by (rewrite He; reflexivity).
  destruct (callback_texts pl cb e (with_conn e c) Ht HI w o w' H) as (es & R & X).
  rewrite (Ran_given _ _ _ _ _ R T) in Hin. unfold Texts in X. rewrite Forall_forall in X. specialize (X _ Hin).
  cbn beta in X. rewrite Ec in X. exact X.
Qed.
End CallbackTexts.

(** ** Reports *)
Lemma HonestPrintf_app a b : HonestPrintf (a ++ b) <-> HonestPrintf a /\ HonestPrintf b.
Proof. apply Forall_app. Qed.

(** The lines an error with source [s] is reported with, [n] times. *)
Definition source_lines (pf : print_facility) (s : bytes) (n : nat) : bytes :=
  List.concat (repeat (pf_tag pf ++ s ++ newline) n).

Section Source.
Variables (euid : Z) (pf : print_facility) (s : bytes).
Hypothesis HP : pf_present pf = true.
Hypothesis Ht : has_nul (pf_tag pf) = false.
Hypothesis Hs : has_nul s = false.

Definition endless (head : bytes) {A} (o : outcome A) (es : list event) : Prop :=
  HonestPrintf es -> ~ Exists Failed es ->
  o = Stopped /\ exists n, Prefix (printed (pf_level pf) es) (head ++ source_lines pf s n).

Lemma endless_seq head text (m : io unit) (f : io unit) :
  yields euid m (printed_all pf text) -> yields euid m all_fail -> yields euid f (endless head) ->
  yields euid (r <- m ;; match r with Err e => ret (Err e) | Ok _ => f end) (endless (text ++ head)).
Proof.
  intros H1 H2 H3. eapply yields_seq; [apply yields_and; [exact H1|exact H2]| | |].
  - intros [[]|er] e1 [[_ X1] X2].
    + eapply yields_weaken; [exact H3|]. intros o e2 X3 HH HF. apply HonestPrintf_app in HH as [HH1 HH2].
      destruct (X3 HH2) as [-> (n & Hn)]. { intros X. apply HF. apply Exists_app. auto. }
      split; [reflexivity|]. exists n. unfold printed in *. rewrite flat_map_app, X1.
      destruct Hn as [y Hn]. exists y. rewrite <- !app_assoc, Hn. reflexivity.
    + apply yields_ret'. rewrite app_nil_r. intros _ HF. exfalso. apply HF. exact X2.
  - intros e1 [[_ X1] _] HH. contradiction.
  - intros e1 [[_ [y X1]] _] _ _. split; [reflexivity|]. exists 0%nat. exists (y ++ head).
    rewrite X1. unfold source_lines. cbn. rewrite app_nil_r, app_assoc. reflexivity.
Qed.

Lemma source_loop_endless fuel : yields euid (source_loop fuel pf (Some s)) (endless []).
Proof.
  induction fuel as [|fuel IH]; cbn [source_loop].
  - apply yields_stop'. intros _ _. split; [reflexivity|]. exists 0%nat. exists []. reflexivity.
  - eapply yields_weaken.
    + eapply (endless_seq [] (pf_tag pf ++ s ++ newline)); [apply write_line_yields|apply write_line_fail; assumption|exact IH].
    + intros o es H HH HF. destruct (H HH HF) as [Ho (n & Hn)]. split; [exact Ho|]. exists (S n).
      unfold source_lines in *. cbn [repeat List.concat]. rewrite app_nil_r in Hn. exact Hn.
Qed.

Lemma write_error_endless display : has_nul display = false ->
  yields euid (write_error pf display (Some s)) (endless (newline ++ pf_tag pf ++ display ++ newline)).
Proof.
  intros Hd. unfold write_error. apply endless_seq; [apply pf_write_all_yields|apply pf_write_all_fail; [assumption|reflexivity]|].
  rewrite <- (app_nil_r (pf_tag pf ++ display ++ newline)).
  apply endless_seq; [apply write_line_yields|apply write_line_fail; assumption|].
  eapply yields_seq; [apply yields_turns_left| | |].
  - intros n e1 (k & _ & ->). apply source_loop_endless.
  - intros e1 (k & ? & _). discriminate.
  - intros e1 (k & ? & _). discriminate.
Qed.
End Source.

(** A printf that prints one byte at a time and never fails, [n] times. *)
Definition patient (k : kernel) (n : nat) (tr : list event) : world :=
  mkWorld k (repeat ([], ANum 1) n) tr.

(** [m] makes exactly [len] calls, if it is answered that often. *)
Definition Spends {A} (m : io A) (len : nat) : Prop := forall k n tr, exists tr',
  ((len <= n)%nat /\ List.length tr' = len /\ exists x, m (patient k n tr) = (Done (Ok x), patient k (n - len) (tr ++ tr')))
  \/ ((n < len)%nat /\ List.length tr' = n /\ m (patient k n tr) = (Stopped, patient k 0 (tr ++ tr'))).

Lemma Spends_bind {A C} (m : io A) (f : io C) a b : Spends m a -> Spends f b ->
  Spends (r <- m ;; match r with Err e => ret (Err e) | Ok _ => f end) (a + b).
Proof.
  intros Hm Hf k n tr. unfold bind. destruct (Hm k n tr) as (t1 & [(L1 & E1 & x & X1)|(L1 & E1 & X1)]).
  - rewrite X1. destruct (Hf k (n - a)%nat (tr ++ t1)) as (t2 & [(L2 & E2 & y & X2)|(L2 & E2 & X2)]); exists (t1 ++ t2);
      rewrite X2, app_length; [left|right]; rewrite <- app_assoc.
    + split; [lia|]. split; [lia|]. exists y. replace (n - (a + b))%nat with (n - a - b)%nat by lia. reflexivity.
    + split; [lia|]. split; [lia|]. reflexivity.
  - exists t1. right. rewrite X1. split; [lia|]. split; [exact E1|reflexivity].
Qed.

Lemma Spends_loop pf : pf_present pf = true -> forall b fuel k n tr, has_nul b = false -> (n < fuel)%nat -> exists tr',
  ((List.length b <= n)%nat /\ List.length tr' = List.length b
     /\ exists x, write_all_loop fuel (pf_write pf) b (patient k n tr) = (Done (Ok x), patient k (n - List.length b) (tr ++ tr')))
  \/ ((n < List.length b)%nat /\ List.length tr' = n
     /\ write_all_loop fuel (pf_write pf) b (patient k n tr) = (Stopped, patient k 0 (tr ++ tr'))).
Proof.
  intros HP. induction b as [|x b IH]; intros fuel k n tr Hn Hf.
  - exists []. left. cbn. split; [lia|]. split; [reflexivity|]. exists tt. rewrite app_nil_r, PeanoNat.Nat.sub_0_r.
    destruct fuel; reflexivity.
  - destruct fuel as [|fuel]; [lia|]. cbn [write_all_loop].
    destruct n as [|n].
    + exists []. right. cbn [List.length]. split; [lia|]. split; [reflexivity|]. rewrite app_nil_r.
      unfold bind, pf_write at 1. rewrite HP, Hn. reflexivity.
    + set (ev := mkEvent (CPrintf (pf_level pf) (x :: b)) (ANum 1) k k).
      assert (Hw : pf_write pf (x :: b) (patient k (S n) tr) = (Done (Ok 1), patient k n (tr ++ [ev]))).
      { unfold pf_write. rewrite HP, Hn. reflexivity. }
      unfold bind. rewrite Hw. change (1 =? 0) with false. cbn iota.
      assert (Hz : (zlen (x :: b) <? 1) = false) by (apply Z.ltb_ge; unfold zlen; cbn [List.length]; lia).
      rewrite Hz. change (skipn (Z.to_nat 1) (x :: b)) with b.
      assert (Hb : has_nul b = false) by (cbn in Hn; destruct (byte_eqb x x00); [discriminate|exact Hn]).
      destruct (IH fuel k n (tr ++ [ev]) Hb) as (t1 & [(L1 & E1 & y & X1)|(L1 & E1 & X1)]); [lia| |]; exists (ev :: t1);
        [left|right]; cbn [List.length]; (split; [lia|]); (split; [lia|]); rewrite X1;
        rewrite <- app_assoc; [exists y|]; reflexivity.
Qed.

Lemma Spends_write_all pf b : pf_present pf = true -> has_nul b = false -> Spends (pf_write_all pf b) (List.length b).
Proof.
  intros HP Hb k n tr. unfold pf_write_all, write_all, bind, turns_left. cbn [patient w_script]. rewrite repeat_length.
  apply Spends_loop; [exact HP|exact Hb|lia].
Qed.

Lemma Spends_ret {A} (x : A) : Spends (ret (Ok x)) 0.
Proof. intros k n tr. exists []. left. split; [lia|]. split; [reflexivity|]. exists x. rewrite app_nil_r, PeanoNat.Nat.sub_0_r. reflexivity. Qed.

Lemma Spends_write_line pf line : pf_present pf = true -> has_nul (pf_tag pf) = false -> has_nul line = false ->
  Spends (write_line pf line) (List.length (pf_tag pf) + (List.length line + 1)).
Proof.
  intros HP Ht Hl. unfold write_line. apply Spends_bind; [apply Spends_write_all; assumption|].
  apply Spends_bind; [apply Spends_write_all; assumption|].
  change 1%nat with (List.length newline + 0)%nat.
  apply Spends_bind; [apply Spends_write_all; [exact HP|reflexivity]|apply Spends_ret].
Qed.

Lemma source_loop_spends pf s : pf_present pf = true -> has_nul (pf_tag pf) = false -> has_nul s = false ->
  forall fuel k n tr, (n < fuel)%nat -> exists tr', List.length tr' = n
    /\ source_loop fuel pf (Some s) (patient k n tr) = (Stopped, patient k 0 (tr ++ tr')).
Proof.
  intros HP Ht Hs. induction fuel as [|fuel IH]; intros k n tr Hf; [lia|]. cbn [source_loop]. unfold bind.
  destruct (Spends_write_line pf s HP Ht Hs k n tr) as (t1 & [(L1 & E1 & y & X1)|(L1 & E1 & X1)]); rewrite X1.
  - set (len := (List.length (pf_tag pf) + (List.length s + 1))%nat) in *.
    destruct (IH k (n - len)%nat (tr ++ t1)) as (t2 & E2 & X2); [lia|]. rewrite X2. exists (t1 ++ t2).
    rewrite app_length, <- app_assoc. split; [lia|reflexivity].
  - exists t1. auto.
Qed.

Lemma write_error_spends pf display s : pf_present pf = true ->
  has_nul (pf_tag pf) = false -> has_nul display = false -> has_nul s = false ->
  forall k n, exists tr, List.length tr = n
    /\ write_error pf display (Some s) (patient k n []) = (Stopped, patient k 0 tr).
Proof.
  intros HP Ht Hd Hs k n. unfold write_error. unfold bind at 1.
  destruct (Spends_write_all pf newline HP eq_refl k n []) as (t1 & [(L1 & E1 & y & X1)|(L1 & E1 & X1)]); rewrite X1.
  2: { exists t1. auto. }
  unfold bind at 1. set (n1 := (n - List.length newline)%nat) in *.
  destruct (Spends_write_line pf display HP Ht Hd k n1 ([] ++ t1)) as (t2 & [(L2 & E2 & y2 & X2)|(L2 & E2 & X2)]); rewrite X2.
  2: { exists (([] ++ t1) ++ t2). rewrite app_length. cbn [app]. split; [unfold n1 in *; cbn in *; lia|reflexivity]. }
  unfold bind, turns_left. cbn [patient w_script]. rewrite repeat_length. set (n2 := (n1 - _)%nat).
  destruct (source_loop_spends pf s HP Ht Hs (S n2) k n2 (([] ++ t1) ++ t2)) as (t3 & E3 & X3); [lia|].
  unfold patient in *. rewrite X3. exists ((([] ++ t1) ++ t2) ++ t3). rewrite !app_length. cbn [app].
  split; [unfold n2, n1 in *; cbn in *; lia|reflexivity].
Qed.

(** A decision procedure for [CFormat]. *)
Fixpoint cformat (f : bytes) : option bytes :=
  match f with
  | [] => Some []
  | c :: f1 =>
      if byte_eqb c "%" then
        match f1 with
        | c2 :: f2 => if byte_eqb c2 "%" then option_map (cons c2) (cformat f2) else None
        | [] => None
        end
      else option_map (cons c) (cformat f1)
  end.

Lemma cformat_complete f o : CFormat f o -> cformat f = Some o.
Proof.
  induction 1 as [|c f o Hc _ IH|f o _ IH]; cbn [cformat]; [reflexivity| |].
  - destruct (byte_eqb c "%") eqn:E; [apply byte_eqb_eq in E; contradiction|]. rewrite IH. reflexivity.
  - cbn. rewrite IH. reflexivity.
Qed.

(** ** The environment a first opening stores *)
Lemma open_env P pl a w z st w' e : core_open P pl a (pstate0 _) w = (Done (z, st), w') -> st_env st = Some e ->
  io_env_new pl (pg_name P) (pg_version P) a = Some (Ok e).
Proof.
  intros H He. unfold core_open in H. destruct (pf_new _ _) as [so se]. cbn [pstate0 st_env st_plugin] in H.
  destruct (io_env_new _ _ _ _) as [[e'|er]|].
  - destruct (path_eqb _ _); [injection H as _ <- _; injection He as <-; reflexivity|].
    unfold bind at 1 in H. destruct (catch _ w) as [[[[p|z']|]| |] w1]; try discriminate;
      injection H as _ <- _; injection He as <-; reflexivity.
  - unfold bind at 1 in H. destruct (catch_open _ w) as [[z1| |] w2]; try discriminate. injection H as _ <- _. discriminate.
  - injection H as _ <- _. discriminate.
Qed.

Lemma pair_version pl a w0 z st w0' v w o w' evs :
  core_open SudoPair pl a (pstate0 _) w0 = (Done (z, st), w0') -> st_env st <> None ->
  core_show_version SudoPair v st w = (o, w') -> w_trace w' = w_trace w ++ evs ->
  Only (fun x => exists d, x = CPrintf 4 d) evs
  /\ (HonestPrintf evs -> (o = Done 1 \/ o = Stopped)
       /\ Prefix (printed 4 evs) (B "sudo_pair I/O plugin version 1.2.0" ++ [x0a]))
  /\ (oa_printf a = true -> HonestPrintf evs -> ~ Exists Failed evs ->
       o = Stopped \/ (o = Done 1 /\ printed 4 evs = B "sudo_pair I/O plugin version 1.2.0" ++ [x0a])).
Proof.
  intros H He HV T. destruct (st_env st) as [e|] eqn:Ee; [|contradiction].
  pose proof (open_env _ _ _ _ _ _ _ _ H Ee) as E. destruct (env_printf _ _ _ _ _ E) as [_ Ho].
  destruct (version_shown SudoPair v st e w o w' evs Ee HV T) as (A & B & C). rewrite Ho in *.
  split; [exact A|]. split; [exact B|]. intros Hp. exact (C Hp eq_refl eq_refl).
Qed.

(** ** Reports, stated on runs *)
Lemma report_exact euid pf display w o w' :
  write_error pf display None w = (o, w') ->
  exists evs, Ran euid w evs w'
  /\ Only (fun x => exists d, x = CPrintf (pf_level pf) d) evs
  /\ (HonestPrintf evs ->
      let text := [x0a] ++ pf_tag pf ++ display ++ [x0a] in
      match o with
      | Done (Ok _) => printed (pf_level pf) evs = text
      | Panicked => False
      | _ => Prefix (printed (pf_level pf) evs) text
      end)
  /\ (pf_present pf = true -> has_nul (pf_tag pf) = false -> has_nul display = false ->
      ~ Exists Failed evs -> forall e, o <> Done (Err e)).
Proof.
  intros H. destruct (write_error_yields euid pf display w o w' H) as (evs & R & X). exists evs. split; [exact R|].
  split; [exact (printed_all_calls _ _ _ _ X)|]. split.
  - intros HH. destruct X as [_ X]. destruct o as [[?|?]| |]; try exact X. exact (X HH).
  - intros HP Ht Hd HF e ->. destruct (write_error_fail euid pf display HP Ht Hd w _ w' H) as (evs' & R' & X').
    rewrite <- (Ran_unique _ _ _ _ _ R R') in X'. exact (HF X').
Qed.

Lemma report_endless pf s display w o w' :
  pf_present pf = true -> has_nul (pf_tag pf) = false -> has_nul s = false -> has_nul display = false ->
  write_error pf display (Some s) w = (o, w') ->
  exists evs, w_trace w' = w_trace w ++ evs
  /\ (HonestPrintf evs -> ~ Exists Failed evs ->
      o = Stopped
      /\ exists n, Prefix (printed (pf_level pf) evs)
           ([x0a] ++ pf_tag pf ++ display ++ [x0a] ++ List.concat (repeat (pf_tag pf ++ s ++ [x0a]) n))).
Proof.
  intros HP Ht Hs Hd H. destruct (write_error_endless 0 pf s HP Ht Hs display Hd w o w' H) as (evs & R & X).
  exists evs. split; [exact (Ran_trace _ _ _ _ R)|]. intros HH HF. destruct (X HH HF) as [Ho [n Hn]].
  split; [exact Ho|]. exists n. unfold newline in Hn. rewrite <- !app_assoc in Hn. exact Hn.
Qed.
