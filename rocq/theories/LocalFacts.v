(** The local prompt: it decides nothing, and goes to the terminal first. *)
From Coq Require Import Lia.
From Verif Require Import Base BaseLemmas Num Path Template Options World Sys Io Socket Env Core Pair
  Spec TraceSpec SessionSpec PathProofs RequestProofs PairPure InputFacts RunProofs IoProofs SocketProofs FailFacts PairProofs
  OpenFacts AskFacts MiscFacts SplitFacts OutputFacts Structure HonourSpec HonourFacts.
Local Open Scope Z_scope.

(** ** What was done before does not matter, only the state does *)
Definition Traceless {A} (m : M A) : Prop := forall k s, exists o k' s' evs,
  forall tr, m (mkWorld k s tr) = (o, mkWorld k' s' (tr ++ evs)).

Lemma tl_ret {A} (x : A) : Traceless (ret x).
Proof. intros k s. exists (Done x), k, s, []. intros tr. rewrite app_nil_r. reflexivity. Qed.
Lemma tl_panic {A} : Traceless (@panic A).
Proof. intros k s. exists Panicked, k, s, []. intros tr. rewrite app_nil_r. reflexivity. Qed.
Lemma tl_stop {A} : Traceless (@stop A).
Proof. intros k s. exists Stopped, k, s, []. intros tr. rewrite app_nil_r. reflexivity. Qed.
Lemma tl_turns : Traceless turns_left.
Proof. intros k s. exists (Done (S (List.length s))), k, s, []. intros tr. rewrite app_nil_r. reflexivity. Qed.

Lemma tl_bind {A C} (m : M A) (f : A -> M C) : Traceless m -> (forall x, Traceless (f x)) -> Traceless (bind m f).
Proof.
  intros Hm Hf k s. destruct (Hm k s) as ([x| |] & k1 & s1 & e1 & E1).
  - destruct (Hf x k1 s1) as (o & k2 & s2 & e2 & E2). exists o, k2, s2, (e1 ++ e2). intros tr. unfold bind.
    rewrite E1, E2, app_assoc. reflexivity.
  - exists Panicked, k1, s1, e1. intros tr. unfold bind. rewrite E1. reflexivity.
  - exists Stopped, k1, s1, e1. intros tr. unfold bind. rewrite E1. reflexivity.
Qed.

Lemma tl_catch {A} (m : M A) : Traceless m -> Traceless (catch m).
Proof.
  intros Hm k s. destruct (Hm k s) as ([x| |] & k1 & s1 & e1 & E1);
    [exists (Done (Some x))|exists (Done None)|exists Stopped]; exists k1, s1, e1; intros tr; unfold catch; rewrite E1; reflexivity.
Qed.

Lemma tl_unwind {A} (m : M A) c : Traceless m -> Traceless c -> Traceless (unwind_with m c).
Proof.
  intros Hm Hc k s. destruct (Hm k s) as ([x| |] & k1 & s1 & e1 & E1).
  - exists (Done x), k1, s1, e1. intros tr. unfold unwind_with. rewrite E1. reflexivity.
  - destruct (Hc k1 s1) as ([y| |] & k2 & s2 & e2 & E2);
      [exists Panicked|exists Panicked|exists Stopped]; exists k2, s2, (e1 ++ e2); intros tr; unfold unwind_with;
      rewrite E1, E2, app_assoc; reflexivity.
  - exists Stopped, k1, s1, e1. intros tr. unfold unwind_with. rewrite E1. reflexivity.
Qed.

Lemma tl_sys {A} c (f : answer -> kernel -> option (A * kernel)) : Traceless (sys c f).
Proof.
  intros k [|[acts a] s]; unfold sys; cbn [w_script w_k w_trace].
  - exists Stopped, k, [], []. intros tr. rewrite app_nil_r. reflexivity.
  - destruct (f a (fold_left act acts k)) as [[x k2]|].
    + do 4 eexists. intros tr. reflexivity.
    + do 3 eexists. exists []. intros tr. rewrite app_nil_r. reflexivity.
Qed.

Lemma tl_ctrl {A} (m : M A) : Traceless m -> Traceless (ctrl_c_aborts_syscalls m).
Proof.
  intros Hm. unfold ctrl_c_aborts_syscalls. apply tl_bind; [apply tl_sys|]. intros [old|e]; [|apply tl_ret].
  apply tl_bind; [apply tl_sys|]. intros [u|e]; [|apply tl_ret].
  apply tl_bind; [exact Hm|]. intros x. apply tl_bind; [apply tl_sys|]. intros [u'|e]; apply tl_ret.
Qed.

Section Tail.
Variable pl : platform.
Ltac tl := first [apply tl_sys | apply tl_ret | apply tl_panic | apply tl_stop | apply tl_turns
  | apply tl_bind | apply tl_catch | apply tl_unwind].

Lemma tl_write c d : Traceless (socket_write c d).
Proof. unfold socket_write. apply tl_bind; [apply tl_ctrl; apply tl_sys|]. intros x. apply tl_ret. Qed.
Lemma tl_read c : Traceless (socket_read c).
Proof. unfold socket_read. apply tl_bind; [apply tl_ctrl; apply tl_sys|]. intros x. apply tl_ret. Qed.
Lemma tl_flush c : Traceless (socket_flush c).
Proof. unfold socket_flush. apply tl_bind; [apply tl_ctrl; apply tl_ret|]. intros x. apply tl_ret. Qed.

Lemma tl_connect s : Traceless (remote_pair_connect pl s).
Proof.
  apply (st_connect (@Traceless)) with (euid := pl_euid pl);
    intros; first [exact I|reflexivity|apply tl_sys|apply tl_write|apply tl_read|apply tl_flush|tl]; try assumption.
Qed.
Lemma tl_prompt s sp : Traceless (remote_pair_prompt s sp).
Proof.
  apply (st_prompt (@Traceless));
    intros; first [exact I|reflexivity|apply tl_sys|apply tl_write|apply tl_read|apply tl_flush|tl]; try assumption.
Qed.
Lemma tl_drop s : Traceless (pair_drop s).
Proof.
  apply (st_drop (@Traceless));
    intros; first [exact I|reflexivity|apply tl_sys|apply tl_write|apply tl_read|apply tl_flush|tl]; try assumption.
Qed.
Lemma tl_write_error pf d x : Traceless (write_error pf d x).
Proof.
  apply (st_write_error (@Traceless)) with (PF := fun _ => True);
    intros; first [exact I|reflexivity|apply tl_sys|apply tl_write|apply tl_read|apply tl_flush|tl]; try assumption.
Qed.
End Tail.

(** The same with the events described. *)
Definition TL {A} (m : M A) (Q : outcome A -> list event -> Prop) : Prop := forall k s, exists o k' s' evs,
  Q o evs /\ forall tr, m (mkWorld k s tr) = (o, mkWorld k' s' (tr ++ evs)).

Lemma TL_any {A} (m : M A) : Traceless m -> TL m (fun _ _ => True).
Proof. intros H k s. destruct (H k s) as (o & k' & s' & evs & E). exists o, k', s', evs. auto. Qed.

Lemma TL_weaken {A} (m : M A) (Q R : outcome A -> list event -> Prop) :
  TL m Q -> (forall o evs, Q o evs -> R o evs) -> TL m R.
Proof. intros H HQ k s. destruct (H k s) as (o & k' & s' & evs & HO & E). exists o, k', s', evs. auto. Qed.

Lemma TL_yields {A} euid (m : M A) Q : Traceless m -> yields euid m Q -> TL m Q.
Proof.
  intros H HY k s. destruct (H k s) as (o & k' & s' & evs & E). exists o, k', s', evs. split; [|exact E].
  destruct (HY _ _ _ (E [])) as (evs' & (ts & _ & HT & _) & HQ). cbn in HT. subst evs'. exact HQ.
Qed.

Lemma TL_ret {A} (x : A) (Q : outcome A -> list event -> Prop) : Q (Done x) [] -> TL (ret x) Q.
Proof. intros H k s. exists (Done x), k, s, []. split; [exact H|]. intros tr. rewrite app_nil_r. reflexivity. Qed.

Lemma TL_bind {A C} (m : M A) (f : A -> M C) (Q : outcome A -> list event -> Prop) (R : outcome C -> list event -> Prop) :
  TL m Q -> (forall x e1, Q (Done x) e1 -> TL (f x) (fun o e2 => R o (e1 ++ e2))) ->
  (forall e1, Q Panicked e1 -> R Panicked e1) -> (forall e1, Q Stopped e1 -> R Stopped e1) -> TL (bind m f) R.
Proof.
  intros Hm Hf HP HS k s. destruct (Hm k s) as ([x| |] & k1 & s1 & e1 & HQ & E1).
  - destruct (Hf x e1 HQ k1 s1) as (o & k2 & s2 & e2 & HR & E2). exists o, k2, s2, (e1 ++ e2). split; [exact HR|].
    intros tr. unfold bind. rewrite E1, E2, app_assoc. reflexivity.
  - exists Panicked, k1, s1, e1. split; [auto|]. intros tr. unfold bind. rewrite E1. reflexivity.
  - exists Stopped, k1, s1, e1. split; [auto|]. intros tr. unfold bind. rewrite E1. reflexivity.
Qed.

Lemma TL_catch {A} (m : M A) (R : list event -> Prop) : TL m (fun _ => R) -> TL (catch m) (fun _ => R).
Proof.
  intros Hm k s. destruct (Hm k s) as ([x| |] & k1 & s1 & e1 & HQ & E1);
    [exists (Done (Some x))|exists (Done None)|exists Stopped]; exists k1, s1, e1;
    (split; [exact HQ|]); intros tr; unfold catch; rewrite E1; reflexivity.
Qed.

(** ** Opening, after the local prompt *)
Definition StatFirst (evs : list event) : Prop := exists st r d, evs = st :: r /\ e_call st = CStat d.
Definition Start (evs : list event) : Prop := StatFirst evs \/ Only LocalPrompt evs.

Lemma StatFirst_app a b : StatFirst a -> StatFirst (a ++ b).
Proof. intros (st & r & d & -> & H). exists st, (r ++ b), d. split; [reflexivity|exact H]. Qed.

Section After.
Variables (pl : platform) (a : open_args) (e : io_env).
Notation s := (pair0 e).
Notation sp := (template_spec (pair0 e)).

Definition asking : M (result sudo_pair pair_error) :=
  r <- remote_pair_connect pl s ;;
  match r with
  | Err er => ret (Err er)
  | Ok s' => r <- unwind_with (remote_pair_prompt s' sp) (pair_drop s') ;;
             match r with Err er => pair_drop s' ;;; ret (Err er) | Ok _ => ret (Ok s') end
  end.

Definition tail : M (Z * pstate SudoPair) :=
  r <- catch (r <- asking ;;
              match r with
              | Ok p => ret (Ok p)
              | Err er => write_error (stderr_of a) (display_pair_error er) None ;;; ret (Err OPEN_DENY)
              end) ;;
  match r with
  | None => ret (OPEN_DENY, ps e None)
  | Some (Err z) => ret (z, ps e None)
  | Some (Ok p) => ret (OPEN_OK, ps e (Some p))
  end.

Lemma open_tail w : io_env_new pl (B "sudo_pair") (B "1.2.0") a = Some (Ok e) ->
  path_eqb (ci_command (en_command_info e)) [] = false -> is_exempt s pl = Some false ->
  is_sudoing_to_user_and_group s = false ->
  core_open SudoPair pl a (pstate0 _) w =
    match local_pair_prompt s sp w with
    | (Done _, w1) => tail w1
    | (Panicked, w1) => (Done (OPEN_DENY, ps e None), w1)
    | (Stopped, w1) => (Stopped, w1)
    end.
Proof.
  intros E1 E2 E3 E4. unfold core_open. cbn [pf_new].
  change (pg_name SudoPair) with (B "sudo_pair"). change (pg_version SudoPair) with (B "1.2.0").
  rewrite E1. cbn [pstate0 st_env]. rewrite E2.
  change (pg_open SudoPair pl e) with (pair_open pl e). unfold pair_open. fold (pair0 e). rewrite E3, E4.
  unfold tail, asking, bind, catch. destruct (local_pair_prompt s sp w) as [[[]| |] w1]; reflexivity.
Qed.

Lemma OpenT_start p u g m o os : OpenT (pl_euid pl) p u g m o os ->
  StatFirst os \/ (os = [] /\ forall c, o <> Done (Ok c)).
Proof.
  assert (HE : forall o es, EnforceT (pl_euid pl) p o es -> StatFirst es \/ (es = [] /\ o <> Done (Ok tt))).
  { intros o' es H. destruct H as [x| |x par ev ? ? ? Hc|par ev n ? ? ? [Hc _]].
    - right. split; [reflexivity|discriminate].
    - right. split; [reflexivity|discriminate].
    - left. exists ev, [], par. auto.
    - left. exists ev, [], par. auto. }
  assert (HK : forall es, EnforceT (pl_euid pl) p (Done (Ok tt)) es -> forall r, StatFirst (es ++ r)).
  { intros es H r. destruct (HE _ _ H) as [X|[_ X]]; [apply StatFirst_app; exact X|exfalso; apply X; reflexivity]. }
  intros H. destruct H as [es H|x es H|es us H H'|x es us H H'|es us H H'|es us um o ms H H' HU HM].
  - destruct (HE _ _ H) as [X|[X _]]; [left; exact X|right; split; [exact X|discriminate]].
  - destruct (HE _ _ H) as [X|[X _]]; [left; exact X|right; split; [exact X|discriminate]].
  - left. apply HK. exact H.
  - left. apply HK. exact H.
  - left. apply HK. exact H.
  - left. apply HK. exact H.
Qed.

Lemma connect_start : TL (remote_pair_connect pl s)
  (fun o es => StatFirst es \/ (es = [] /\ forall p, o <> Done (Ok p))).
Proof.
  unfold remote_pair_connect. cbn [sp_socket pair0].
  destruct (socket_mode s) as [mode|].
  2: { intros k w. exists Panicked, k, w, []. split; [right; split; [reflexivity|discriminate]|].
       intros tr. rewrite app_nil_r. reflexivity. }
  eapply TL_bind.
  - eapply TL_yields; [|apply socket_open_yields].
    apply (st_socket_open (@Traceless)) with (euid := pl_euid pl);
      intros; first [exact I|reflexivity|apply tl_sys|apply tl_write|apply tl_read|apply tl_flush
        |apply tl_ret|apply tl_panic|apply tl_stop|apply tl_turns|apply tl_bind|apply tl_catch|apply tl_unwind]; try assumption.
  - intros [c|x] e1 H; apply TL_ret; rewrite app_nil_r.
    + destruct (OpenT_start _ _ _ _ _ _ H) as [X|[_ X]]; [left; exact X|exfalso; eapply X; reflexivity].
    + destruct (OpenT_start _ _ _ _ _ _ H) as [X|[X _]]; [left; exact X|right; split; [exact X|discriminate]].
  - intros e1 H. destruct (OpenT_start _ _ _ _ _ _ H) as [X|[X _]]; [left; exact X|right; split; [exact X|discriminate]].
  - intros e1 H. destruct (OpenT_start _ _ _ _ _ _ H) as [X|[X _]]; [left; exact X|right; split; [exact X|discriminate]].
Qed.

Lemma asking_start : TL asking (fun o es => StatFirst es \/ (es = [] /\ forall p, o <> Done (Ok p))).
Proof.
  unfold asking. eapply TL_bind; [apply connect_start| | |].
  - intros [p|er] e1 H.
    + destruct H as [H|[_ H]]; [|exfalso; eapply H; reflexivity].
      eapply TL_weaken; [apply TL_any|intros o e2 _; left; apply StatFirst_app; exact H].
      apply tl_bind; [apply tl_unwind; [apply tl_prompt|apply tl_drop]|].
      intros [u|er]; [apply tl_ret|]. apply tl_bind; [apply tl_drop|intros; apply tl_ret].
    + apply TL_ret. rewrite app_nil_r. destruct H as [H|[H _]]; [left; exact H|right; split; [exact H|discriminate]].
  - intros e1 [H|[H _]]; [left; exact H|right; split; [exact H|discriminate]].
  - intros e1 [H|[H _]]; [left; exact H|right; split; [exact H|discriminate]].
Qed.

Lemma tail_start : TL tail (fun _ => Start).
Proof.
  unfold tail. eapply TL_bind with (Q := fun _ => Start).
  - apply TL_catch. eapply TL_bind; [apply asking_start| | |].
    + intros [p|er] e1 H.
      * apply TL_ret. rewrite app_nil_r. destruct H as [H|[_ H]]; [left; exact H|exfalso; eapply H; reflexivity].
      * destruct H as [H|[-> _]].
        -- eapply TL_weaken; [apply TL_any|intros o e2 _; left; apply StatFirst_app; exact H].
           apply tl_bind; [apply tl_write_error|intros; apply tl_ret].
        -- eapply TL_bind; [eapply TL_yields; [apply tl_write_error|apply (write_error_yields 0)]| | |].
           ++ intros x e1 H. apply TL_ret. cbn. rewrite app_nil_r. right. eapply prints_local. exact H.
           ++ intros e1 H. right. eapply prints_local. exact H.
           ++ intros e1 H. right. eapply prints_local. exact H.
    + intros e1 [H|[-> _]]; [left; exact H|right; constructor].
    + intros e1 [H|[-> _]]; [left; exact H|right; constructor].
  - intros [[p|z]|] e1 H; apply TL_ret; rewrite app_nil_r; exact H.
  - intros e1 H. exact H.
  - intros e1 H. exact H.
Qed.
End After.

(** ** The local prompt does not decide *)
Lemma local_effect euid k ts evs k' : Linked euid k ts evs k' -> Only LocalPrompt evs ->
  k' = fold_left act (flat_map fst ts) k.
Proof.
  induction 1 as [|k acts a c k1 k2 ts evs k' E1 E2 H IH]; intros HO; [reflexivity|].
  inversion HO as [|x y Hc HO']; subst x y. cbn in Hc. cbn [flat_map fst]. rewrite fold_left_app, <- E1.
  rewrite (IH HO'), E2. destruct c; try contradiction; reflexivity.
Qed.

Lemma app_same_len {A} (x y u v : list A) : x ++ u = y ++ v -> List.length x = List.length y -> x = y /\ u = v.
Proof.
  revert y. induction x as [|b x IH]; intros [|c y] H L; cbn in *; try discriminate; [auto|].
  injection H as -> H. injection L as L. destruct (IH _ H L) as [-> ->]. auto.
Qed.

Section Same.
Variables (pl : platform) (a : open_args) (rq : request).
Hypothesis D : Describes pl a rq.

Lemma local_then_tail k l s tr o w' ls st r d :
  core_open SudoPair pl a (pstate0 _) (mkWorld k (l ++ s) tr) = (o, w') ->
  w_trace w' = tr ++ ls ++ st :: r -> Only LocalPrompt ls -> e_call st = CStat d -> List.length ls = List.length l ->
  exists e, io_env_new pl (B "sudo_pair") (B "1.2.0") a = Some (Ok e) /\ Matches e rq
    /\ LocalT (pair0 e) (template_spec (pair0 e)) (Done tt) ls
    /\ tail pl a e (mkWorld (fold_left act (flat_map fst l) k) s (tr ++ ls)) = (o, w').
Proof.
  intros H HT HL HS HN.
  pose proof (opened_given pl a rq D _ _ _ _ H HT) as [_ HO].
  assert (Hno : forall es, Only LocalPrompt es -> es <> ls ++ st :: r).
  { intros es X ->. apply Only_app in X as [_ X]. inversion X as [|x y Hx _]; subst. rewrite HS in Hx. exact Hx. }
  assert (Hnil : [] <> ls ++ st :: r) by (apply Hno; constructor).
  remember (ls ++ st :: r) as evs eqn:Ev.
  assert (HE : exists e, Matches e rq /\ io_env_new pl (B "sudo_pair") (B "1.2.0") a = Some (Ok e) /\ rq_command rq <> []
    /\ ~ Exempt rq /\ ~ (rq_uid rq <> rq_to_uid rq /\ rq_f_group rq <> None)).
  { assert (Hl : ~ Only LocalPrompt evs) by (intros X; exact (Hno _ X eq_refl)). clear Hno Ev H HT.
    inversion HO as [Hm He Hs|e M HC Ho He|e M HC HD HI Ho He|e M HC HE Ho He|e es x M HC NE HU HG Hr Hp Ho He|e es M HC NE HU HG Hp Ho He|e o' ls' es M Ee HC HE HB HA Ho He];
      try (exfalso; apply Hnil; assumption).
    - exfalso. apply Hl. subst. eapply prints_local. exact (proj1 Hp).
    - exfalso. apply Hl. subst. eapply prints_local. exact (proj1 Hp).
    - exists e. auto. }
  destruct HE as (e & M & Ee & HC & NE & NB). exists e. split; [exact Ee|]. split; [exact M|].
  assert (E2 : path_eqb (ci_command (en_command_info e)) [] = false).
  { rewrite (m_command _ _ M). destruct (path_eqb (rq_command rq) []) eqn:X; [|reflexivity].
    exfalso. apply HC. apply path_eqb_nil. exact X. }
  assert (E3 : is_exempt (pair0 e) pl = Some false).
  { destruct (is_exempt (pair0 e) pl) as [[|]|] eqn:X; [|reflexivity|].
    - exfalso. apply NE. apply (is_exempt_sound e rq pl M true X). reflexivity.
    - exfalso. apply Hnil. unfold core_open in H. cbn [pf_new] in H.
      change (pg_name SudoPair) with (B "sudo_pair") in H. change (pg_version SudoPair) with (B "1.2.0") in H.
      rewrite Ee in H. cbn [pstate0 st_env] in H. rewrite E2 in H.
      change (pg_open SudoPair pl e) with (pair_open pl e) in H. unfold pair_open in H. fold (pair0 e) in H. rewrite X in H.
      unfold bind, catch, panic, ret in H. injection H as _ <-. cbn [w_trace] in HT.
      rewrite <- (app_nil_r tr) in HT at 1. apply app_inv_head in HT. exact HT. }
  assert (E4 : is_sudoing_to_user_and_group (pair0 e) = false).
  { destruct (is_sudoing_to_user_and_group (pair0 e)) eqn:X; [|reflexivity]. exfalso. apply NB. apply (both_iff e rq M). exact X. }
  rewrite (open_tail pl a e _ Ee E2 E3 E4) in H.
  destruct (local_pair_prompt (pair0 e) (template_spec (pair0 e)) (mkWorld k (l ++ s) tr)) as [ol w1] eqn:El.
  destruct (local_yields (pl_euid pl) _ _ _ _ _ El) as (LE & (ts & R1 & R2 & R3) & HLT). cbn [w_script w_trace w_k] in R1, R2, R3.
  pose proof (LocalT_calls _ _ _ _ HLT) as HLO.
  assert (Hsplit : forall T, w_trace w' = w_trace w1 ++ T -> Start T -> LE = ls /\ T = st :: r).
  { intros T HT' HST. rewrite HT', R2, <- app_assoc in HT. apply app_inv_head in HT. rewrite Ev in HT.
    assert (Hst : ~ In st LE).
    { intros X. unfold Only in HLO. rewrite Forall_forall in HLO. specialize (HLO _ X). cbn in HLO. rewrite HS in HLO. exact HLO. }
    destruct (split_after _ _ _ _ _ HT Hst) as (r' & -> & ->). apply Only_app in HL as [_ HL'].
    destruct HST as [(st' & r'' & d' & X & HS')|X].
    - destruct r' as [|b r'].
      + rewrite app_nil_r. auto.
      + cbn in X. injection X as -> _. inversion HL' as [|x y Hx _]; subst. rewrite HS' in Hx. contradiction.
    - exfalso. apply Only_app in X as [_ X]. inversion X as [|x y Hx _]; subst. rewrite HS in Hx. exact Hx. }
  destruct ol as [[]| |].
  - destruct w1 as [k1 s1 tr1]. cbn [w_k w_script w_trace] in *.
    destruct (tail_start pl a e k1 s1) as (o2 & k2 & s2 & T & HST & HTL). pose proof (HTL tr1) as HX. rewrite H in HX.
    injection HX as -> ->. destruct (Hsplit T eq_refl HST) as [-> ->].
    assert (Hlen : List.length ts = List.length l) by (rewrite (Linked_length _ _ _ _ _ R3); exact HN).
    destruct (app_same_len _ _ _ _ R1 (eq_sym Hlen)) as [<- ->].
    split; [exact HLT|]. rewrite <- (local_effect _ _ _ _ _ R3 HLO), <- R2. exact H.
  - exfalso. injection H as _ <-. destruct (Hsplit [] (eq_sym (app_nil_r _)) (or_intror (Forall_nil _))) as [_ X]. discriminate.
  - exfalso. injection H as _ <-. destruct (Hsplit [] (eq_sym (app_nil_r _)) (or_intror (Forall_nil _))) as [_ X]. discriminate.
Qed.

Lemma same_opening k l1 l2 s tr1 tr2 o1 o2 w1 w2 ls1 ls2 st1 st2 r1 r2 d1 d2 :
  core_open SudoPair pl a (pstate0 _) (mkWorld k (l1 ++ s) tr1) = (o1, w1) ->
  core_open SudoPair pl a (pstate0 _) (mkWorld k (l2 ++ s) tr2) = (o2, w2) ->
  w_trace w1 = tr1 ++ ls1 ++ st1 :: r1 -> Only LocalPrompt ls1 -> e_call st1 = CStat d1 -> List.length ls1 = List.length l1 ->
  w_trace w2 = tr2 ++ ls2 ++ st2 :: r2 -> Only LocalPrompt ls2 -> e_call st2 = CStat d2 -> List.length ls2 = List.length l2 ->
  flat_map fst l1 = flat_map fst l2 ->
  o1 = o2 /\ st1 :: r1 = st2 :: r2 /\ w_k w1 = w_k w2 /\ w_script w1 = w_script w2.
Proof.
  intros H1 H2 T1 O1 S1 N1 T2 O2 S2 N2 HA.
  destruct (local_then_tail _ _ _ _ _ _ _ _ _ _ H1 T1 O1 S1 N1) as (e1 & E1 & _ & _ & X1).
  destruct (local_then_tail _ _ _ _ _ _ _ _ _ _ H2 T2 O2 S2 N2) as (e2 & E2 & _ & _ & X2).
  rewrite E1 in E2. injection E2 as <-. rewrite HA in X1.
  destruct (tail_start pl a e1 (fold_left act (flat_map fst l2) k) s) as (o & k' & s' & T & _ & HT).
  rewrite HT in X1, X2. injection X1 as <- <-. injection X2 as <- <-. cbn [w_trace w_k w_script] in *.
  rewrite <- app_assoc in T1, T2. apply app_inv_head in T1, T2. apply app_inv_head in T1, T2.
  split; [reflexivity|]. split; [|split; reflexivity]. rewrite <- T1. exact T2.
Qed.
End Same.

(** ** The local phase of an opening that asks *)
Section Local.
Variables (pl : platform) (a : open_args) (rq : request).
Hypothesis D : Describes pl a rq.
Hypothesis K : Askable pl a rq.

Lemma has_parent e : Matches e rq -> ~ no_parent (socket_path (pair0 e)).
Proof.
  intros M [H|[H|H]].
  - rewrite (socket_path_parent e rq M) in H. discriminate.
  - rewrite (sock_path_nul e rq M (ak_nul _ _ _ K)) in H. discriminate.
  - rewrite (socket_path_parent e rq M) in H. injection H as H. apply (ak_dir _ _ _ K). apply path_eqb_nil.
    unfold path_eqb. rewrite H. reflexivity.
Qed.

Lemma open_head e u g m o os : Matches e rq -> OpenT (pl_euid pl) (socket_path (pair0 e)) u g m o os ->
  StatFirst os \/ (os = [] /\ o = Stopped).
Proof.
  intros M H. destruct (OpenT_start pl _ _ _ _ _ _ H) as [X|[-> X]]; [left; exact X|]. right. split; [reflexivity|].
  inversion H as [es HE|x es HE|es us HE|x es us HE|es us HE|es us um o' ms HE HU HI HM]; subst; try reflexivity.
  - exfalso. inversion HE as [x' HN| | |]; subst. exact (has_parent e M HN).
  - exfalso. inversion HE; subst; cbn in *; discriminate.
  - exfalso. inversion HE; subst; cbn in *; discriminate.
Qed.

Lemma local_phase o evs : OpenedT pl a rq o evs ->
  exists e ol ls es, evs = ls ++ es /\ Matches e rq /\ LocalT (pair0 e) (template_spec (pair0 e)) ol ls
    /\ (StatFirst es \/ (es = [] /\ (o = Stopped \/ ol = Panicked))).
Proof.
  intros HO. destruct K as [K1 K2 K3 K4 K5 K6 _ _ _].
  assert (HS : forall e x u g m oo ls os rest,
    Matches e rq -> LocalT (pair0 e) (template_spec (pair0 e)) x ls ->
    OpenT (pl_euid pl) (socket_path (pair0 e)) u g m oo os -> (oo = Stopped -> rest = [] /\ o = Stopped) ->
    exists e' ol ls' es', ls ++ os ++ rest = ls' ++ es' /\ Matches e' rq
      /\ LocalT (pair0 e') (template_spec (pair0 e')) ol ls' /\ (StatFirst es' \/ (es' = [] /\ (o = Stopped \/ ol = Panicked)))).
  { intros e x u g m oo ls os rest H1 H2 H3 H4. exists e, x, ls, (os ++ rest). split; [reflexivity|]. split; [exact H1|].
    split; [exact H2|]. destruct (open_head _ _ _ _ _ _ H1 H3) as [X|[-> X]]; [left; apply StatFirst_app; exact X|].
    right. destruct (H4 X) as [-> ->]. auto. }
  inversion HO as [|e M HC|e M HC HD HI|e M HC HE|e es r M HC NE HU HG Hr Hp|e es M HC NE HU HG Hp|e o' ls es M Ee HC HE HB HN]; subst;
    try contradiction.
  - exfalso. apply HI. auto.
  - exfalso. apply K5. auto.
  - exfalso. apply K5. auto.
  - inversion HN as [e' ls' es' HA|e' ls' es' HA|e' er ls' es' rs r HA Hr Hp|e' er ls' es' rs HA Hp|e' c ls' es' HA];
      subst; clear HN HO;
      inversion HA as [ls' Hl|ls' Hl|ls' Hl Hm|mode ls' os Hl Hm Ho|mode ls' os Hl Hm Ho|er' mode ls' os Hl Hm Ho|c' mode ls' os rs' Hl Hm Ho Hr'|c' er' mode ls' os rs' ds Hl Hm Ho Hr' Hd|c' er' mode ls' os rs' ds Hl Hm Ho Hr' Hd|c' mode ls' os rs' Hl Hm Ho Hr'];
      subst; fold (pair0 e) in *; clear HA; try (exfalso; exact (mode_Some pl a rq K e M Hm));
      try (exists e, Stopped, ls, []; split; [reflexivity|]; split; [exact M|]; split; [exact Hl|]; right; split; [reflexivity|left; reflexivity]);
      try (exists e, Panicked, ls, []; split; [reflexivity|]; split; [exact M|]; split; [exact Hl|]; right; split; [reflexivity|right; reflexivity]);
      try (rewrite <- ?app_assoc; eapply HS; [exact M|exact Hl|exact Ho|intros X; discriminate X]);
      rewrite <- (app_nil_r es); eapply HS; [exact M|exact Hl|exact Ho| |exact M|exact Hl|exact Ho|];
      first [intros X; discriminate X|intros _; split; reflexivity].
Qed.
End Local.

(** ** The terminal comes first *)
Definition TerminalFailed (rq : request) (evs : list event) : Prop :=
  match rq_tty rq with
  | None => True
  | Some p => In x00 p \/ exists op, In op evs /\ e_call op = COpenTty p
      /\ ((exists x, e_ans op = AErr x)
          \/ (e_ans op = AOk /\ exists wr d, In wr evs /\ e_call wr = CWriteTty d /\ Failed wr))
  end.
Definition NotTerminal (c : call) : Prop := match c with COpenTty _ | CWriteTty _ => False | _ => True end.
Definition NotPrint (c : call) : Prop := match c with CPrintf _ _ => False | _ => True end.

Lemma TerminalFailed_app rq x y : TerminalFailed rq x -> TerminalFailed rq (x ++ y).
Proof.
  unfold TerminalFailed. destruct (rq_tty rq) as [p|]; [|auto]. intros [H|(op & H1 & H2 & H3)]; [left; exact H|]. right.
  exists op. split; [apply in_app_iff; left; exact H1|]. split; [exact H2|].
  destruct H3 as [H3|(H3 & wr & d & H4 & H5)]; [left; exact H3|]. right. split; [exact H3|]. exists wr, d.
  split; [apply in_app_iff; left; exact H4|exact H5].
Qed.

Section TerminalFirst.
Variables (e : io_env) (rq : request).
Hypothesis M : Matches e rq.

Lemma tty_failed opened es ys ws prompt : TtyT (ui_tty (en_user_info e)) (Done opened) ys ->
  (opened = false /\ ws = [] \/ opened = true /\ exists x, tty_wrote prompt (Done (Err x)) ws /\ AnyFailed ws) ->
  TerminalFailed rq (es ++ ys ++ ws).
Proof.
  intros HY HW. unfold TerminalFailed. rewrite <- (m_tty _ _ M).
  inversion HY as [E|p E N| |p x ev E N [Hc Ha]|p ev E N [Hc Ha]]; subst.
  - rewrite E. exact I.
  - rewrite E. left. destruct (in_dec byte_eq_dec x00 p) as [H|H]; [exact H|]. exfalso. apply has_nul_iff in H. congruence.
  - rewrite E. right. exists ev. split; [apply in_app_iff; right; left; reflexivity|]. split; [exact Hc|]. left. eauto.
  - rewrite E. right. exists ev. split; [apply in_app_iff; right; left; reflexivity|]. split; [exact Hc|]. right.
    split; [exact Ha|]. destruct HW as [[X _]|(_ & x & [HT _] & HF)]; [discriminate|].
    unfold AnyFailed in HF. apply Exists_exists in HF as (wr & Hin & Hf). rewrite Forall_forall in HT.
    destruct (HT _ Hin) as [d Hd]. exists wr, d. split; [apply in_app_iff; right; right; exact Hin|]. auto.
Qed.

Lemma split_pos {A} (x y : list A) e1 ev e2 (P : A -> Prop) : x ++ y = e1 ++ ev :: e2 -> Forall (fun b => ~ P b) x -> P ev ->
  exists r, e1 = x ++ r /\ y = r ++ ev :: e2.
Proof.
  intros H HX HP. apply split_after; [exact H|]. intros Hin. rewrite Forall_forall in HX. exact (HX _ Hin HP).
Qed.

Lemma local_printf ol ls e1 ev e2 l d : LocalT (pair0 e) (template_spec (pair0 e)) ol ls ->
  ls = e1 ++ ev :: e2 -> e_call ev = CPrintf l d ->
  TerminalFailed rq e1 /\ Only NotTerminal e2.
Proof.
  intros H El Ec. set (P := fun b => exists l d, e_call b = CPrintf l d).
  assert (HP : P ev) by (exists l, d; exact Ec).
  assert (HL : forall p d o es, LoadT p d o es -> Forall (fun b => ~ P b) es).
  { intros p d' o es X. apply LoadT_calls in X. eapply Forall_impl; [|exact X]. intros b Hb (l' & d'' & E). cbn in Hb. congruence. }
  assert (HY : forall t o ys, TtyT t o ys -> Forall (fun b => ~ P b) ys).
  { intros t o ys X. destruct X as [| | |p x b _ _ [Hc _]|p b _ _ [Hc _]]; repeat constructor;
      intros (l' & d'' & E); congruence. }
  assert (HT : forall prompt o ws, tty_wrote prompt o ws -> Forall (fun b => ~ P b) ws).
  { intros prompt o ws [X _]. eapply Forall_impl; [|exact X]. intros b [d' Hd] (l' & d'' & E). congruence. }
  assert (HC : forall op o cs, CloseT op o cs -> Forall (fun b => ~ P b) cs /\ Only NotTerminal cs).
  { intros op o cs X. destruct X as [|Ho|b Ho [Hc _]]; (split; [|onl]); repeat constructor; try (rewrite Hc; exact I).
    intros (l' & d'' & E). congruence. }
  assert (HR : forall pf prompt o ps, printed_all pf prompt o ps -> Only NotTerminal ps).
  { intros pf prompt o ps X. apply printed_all_calls in X. revert X. apply Only_weaken. intros c [d' ->]. exact I. }
  assert (HN : forall x, Forall (fun b => ~ P b) x -> x <> e1 ++ ev :: e2).
  { intros x HX ->. apply Forall_app in HX as [_ HX]. inversion HX as [|? ? N _]; subst. exact (N HP). }
  destruct H as [es Hl|t es ys Hl Hy|ol t opened es ys ss Hl Hy Hs].
  - exfalso. eapply HN; [eapply HL; exact Hl|exact El].
  - exfalso. eapply HN; [apply Forall_app; split; [eapply HL; exact Hl|eapply HY; exact Hy]|exact El].
  - assert (G : forall ws ps cs, (opened = false /\ ws = [] \/ opened = true /\ exists x, tty_wrote (expand (template_spec (pair0 e)) t) (Done (Err x)) ws /\ AnyFailed ws) ->
      Only NotTerminal ps -> Only NotTerminal cs -> Forall (fun b => ~ P b) cs \/ cs = [] ->
      es ++ ys ++ ws ++ ps ++ cs = e1 ++ ev :: e2 -> TerminalFailed rq e1 /\ Only NotTerminal e2).
    { intros ws ps cs HW Hp Hc _ E.
      assert (HWP : Forall (fun b => ~ P b) ws) by (destruct HW as [[_ ->]|(_ & x & X & _)]; [constructor|eapply HT; exact X]).
      assert (E' : (es ++ ys ++ ws) ++ (ps ++ cs) = e1 ++ ev :: e2) by (rewrite <- !app_assoc; exact E).
      destruct (split_pos _ _ _ _ _ P E') as (r & -> & E2); [|exact HP|].
      { apply Forall_app. split; [eapply HL; exact Hl|]. apply Forall_app. split; [eapply HY; exact Hy|exact HWP]. }
      split; [apply TerminalFailed_app; exact (tty_failed _ es _ _ _ Hy HW)|].
      assert (X : Only NotTerminal (ps ++ cs)) by (apply Only_app; auto). rewrite E2 in X. apply Only_app in X as [_ X].
      inversion X; subst. assumption. }
    inversion Hs as [o' ws cs Ho Hw Hc|ws Ho Hw|o' r ws ps cs Hw Hp Hc|ws ps Hw Hp|ws ps cs Hw Hp Hc|ws ps cs Hw Hp Hc]; subst.
    + exfalso. eapply HN; [|exact El]. repeat (apply Forall_app; split);
        first [eapply HL; exact Hl|eapply HY; exact Hy|eapply HT; exact Hw|eapply HC; exact Hc].
    + exfalso. eapply HN; [|exact El]. repeat (apply Forall_app; split);
        first [eapply HL; exact Hl|eapply HY; exact Hy|eapply HT; exact Hw].
    + eapply G; [exact Hw|eapply HR; exact Hp|eapply HC; exact Hc|left; eapply HC; exact Hc|exact El].
    + eapply (G ws ps []); [exact Hw|eapply HR; exact Hp|constructor|right; reflexivity|rewrite app_nil_r; exact El].
    + eapply G; [exact Hw|eapply HR; exact Hp|eapply HC; exact Hc|left; eapply HC; exact Hc|exact El].
    + eapply G; [exact Hw|eapply HR; exact Hp|eapply HC; exact Hc|left; eapply HC; exact Hc|exact El].
Qed.

Lemma shown_none es : Only (fun c => forall d, c <> CWriteTty d) es -> shown es = [].
Proof.
  unfold shown. induction 1 as [|ev es H _ IH]; [reflexivity|]. cbn. rewrite IH, app_nil_r. unfold shown1.
  destruct (e_call ev) eqn:E; try reflexivity. exfalso. eapply H. reflexivity.
Qed.

(** What the local prompt does: the terminal gets all of it; or the terminal
    fails, and printf gets all of it at the error level unless it fails. *)
Definition Falls (rq : request) (out : bytes) (ls : list event) : Prop :=
  TerminalFailed rq ls /\ Prefix (shown ls) out
  /\ Only (fun c => forall l d, c = CPrintf l d -> l = 3) ls
  /\ (rq_printf rq = true -> ~ In x00 out -> (forall ev, In ev ls -> Prints (e_call ev) -> ~ Failed ev) -> printed 3 ls = out).

Lemma printed_none l es : Only NotPrint es -> printed l es = [].
Proof.
  unfold printed. induction 1 as [|ev es H _ IH]; [reflexivity|]. cbn. rewrite IH, app_nil_r. unfold printed1.
  destruct (e_call ev); try reflexivity. destruct H.
Qed.

Lemma local_shown ls : pf_level (en_stderr e) = 3 -> LocalT (pair0 e) (template_spec (pair0 e)) (Done tt) ls ->
  exists out, UserPrompt rq ls out /\ ((shown ls = out /\ Only NotPrint ls) \/ Falls rq out ls).
Proof.
  intros L H. inversion H as [|t es ys Hl Hy|o' t opened es ys ss Hl Hy Hs]; subst.
  exists (expand (template_spec (pair0 e)) t). split.
  { apply UserPrompt_intro; [exact M|]. rewrite <- (user_path e rq M). apply (TemplateFrom_load _ _ _ _ [] (ys ++ ss) Hl); [constructor|].
    apply Only_app. split; [|exact (proj2 (ShowT_texts _ _ _ _ _ Hs))].
    destruct Hy as [| | |p x b _ _ [Hc _]|p b _ _ [Hc _]]; onl; rewrite Hc; exact I. }
  set (out := expand (template_spec (pair0 e)) t) in *.
  assert (HT : forall ws r, (opened = false /\ ws = [] \/ opened = true /\ exists x, tty_wrote out (Done (Err x)) ws /\ AnyFailed ws) ->
    TerminalFailed rq (es ++ ys ++ ws ++ r)).
  { intros ws r HW. replace (es ++ ys ++ ws ++ r) with ((es ++ ys ++ ws) ++ r) by (rewrite <- !app_assoc; reflexivity).
    apply TerminalFailed_app. exact (tty_failed _ es _ _ _ Hy HW). }
  assert (X1 : Only (fun c => (forall d, c <> CWriteTty d) /\ NotPrint c) es).
  { apply LoadT_calls in Hl. revert Hl. apply Only_weaken. intros c ->. split; [discriminate|exact I]. }
  assert (X2 : Only (fun c => (forall d, c <> CWriteTty d) /\ NotPrint c) ys).
  { inversion Hy as [| | |p x b _ _ [Hc' _]|p b _ _ [Hc' _]]; subst; onl; rewrite Hc'; (split; [discriminate|exact I]). }
  assert (X3 : forall o cs, CloseT opened o cs -> Only (fun c => (forall d, c <> CWriteTty d) /\ NotPrint c) cs).
  { intros o cs Hc. inversion Hc as [|Ho|b Ho [Hc' _]]; subst; onl; rewrite Hc'; (split; [discriminate|exact I]). }
  assert (S : forall x, Only (fun c => (forall d, c <> CWriteTty d) /\ NotPrint c) x -> shown x = [] /\ Only NotPrint x).
  { intros x X. split; [apply shown_none|]; revert X; apply Only_weaken; intros c [U V]; assumption. }
  destruct (S _ X1) as [S1 P1], (S _ X2) as [S2 P2].
  inversion Hs as [o' ws cs Ho Hw Hc|ws Ho Hw|o' r ws ps cs Hw Hp Hc Hf|ws ps Hw Hp|ws ps cs Hw Hp Hc|ws ps cs Hw Hp Hc]; subst.
  - left. destruct Hw as [HA HB]. destruct (S _ (X3 _ _ Hc)) as [S3 P3]. split.
    + unfold shown in *. rewrite !flat_map_app, S1, S2, S3, app_nil_r. exact HB.
    + onl; try assumption. eapply Forall_impl; [|exact HA]. intros b [d Hd]. rewrite Hd. exact I.
  - right. destruct (S _ (X3 _ _ Hc)) as [S3 P3].
    assert (HW : Prefix (shown ws) out /\ Only NotPrint ws).
    { destruct Hw as [[_ ->]|(_ & x & [HA HB] & _)]; [split; [exists out; reflexivity|constructor]|]. split; [exact HB|].
      eapply Forall_impl; [|exact HA]. intros b [d Hd]. rewrite Hd. exact I. }
    destruct HW as [W1 W2].
    pose proof (printed_all_calls _ _ _ _ Hp) as C.
    change (sp_env (pair0 e)) with e in *.
    assert (S4 : shown ps = []). { apply shown_none. revert C. apply Only_weaken. intros c [d ->]. discriminate. }
    split; [apply HT; exact Hw|]. split; [|split].
    + unfold shown in *. rewrite !flat_map_app, S1, S2, S3, S4, !app_nil_r. exact W1.
    + assert (G : forall x, Only NotPrint x -> Only (fun c => forall l d, c = CPrintf l d -> l = 3) x).
      { intros x. apply Only_weaken. intros c Hn l d ->. destruct Hn. }
      repeat (apply Only_app; split); try (apply G; assumption).
      revert C. apply Only_weaken. intros c [d ->] l d' E. injection E as <- _. exact L.
    + intros HPf HN HF. unfold printed in *. rewrite !flat_map_app. fold (printed 3 es) (printed 3 ys) (printed 3 ws) (printed 3 cs) (printed 3 ps).
      rewrite (printed_none 3 es P1), (printed_none 3 ys P2), (printed_none 3 ws W2), (printed_none 3 cs P3), app_nil_r. cbn [app].
      assert (Pp : pf_present (en_stderr e) = true) by (rewrite (m_printf_err _ _ M); exact HPf).
      assert (Nn : has_nul out = false).
      { apply has_nul_iff. exact HN. }
      specialize (Hf Pp Nn). destruct Hp as [_ Hp]. rewrite L in Hp. destruct r as [u|er]; [exact Hp|].
      exfalso. cbn in Hf. apply Exists_exists in Hf as (ev & Hin & Hfail).
      apply (HF ev); [rewrite !in_app_iff; tauto| |exact Hfail].
      unfold Only in C. rewrite Forall_forall in C. destruct (C _ Hin) as [d ->]. eexists _, _. reflexivity.
Qed.
End TerminalFirst.

Section Whole.
Variables (pl : platform) (a : open_args) (rq : request).
Hypothesis D : Describes pl a rq.
Hypothesis K : Askable pl a rq.
Variables (w : world) (o : outcome (Z * pstate SudoPair)) (w' : world) (evs : list event).
Hypothesis H : core_open SudoPair pl a (pstate0 _) w = (o, w').
Hypothesis T : w_trace w' = w_trace w ++ evs.

Lemma app_LocalPrompt (ls es x y : list event) : ls ++ es = x ++ y -> Only LocalPrompt x -> StatFirst es \/ es = [] ->
  exists z, ls = x ++ z /\ y = z ++ es.
Proof.
  revert x. induction ls as [|b ls IH]; intros x E HX HE; cbn in E.
  - destruct x as [|c x]; [exists []; auto|]. exfalso. destruct HE as [(st & r & d & X & HS)| ->]; [|discriminate].
    rewrite X in E. injection E as -> _. inversion HX as [|? ? N _]; subst. rewrite HS in N. exact N.
  - destruct x as [|c x]; cbn in E; [exists (b :: ls); auto|]. injection E as -> E. inversion HX as [|? ? _ HX']; subst.
    destruct (IH x E HX' HE) as (z & -> & ->). exists z. auto.
Qed.

Lemma open_reaches : o <> Stopped -> HonestPrintf evs ->
  exists ls st r d, evs = ls ++ st :: r /\ Only LocalPrompt ls /\ e_call st = CStat d.
Proof.
  intros NS HH. destruct (opened_given pl a rq D _ _ _ _ H T) as [_ HO].
  destruct (local_phase pl a rq K _ _ HO) as (e & ol & ls & es & -> & M & HL & HS).
  destruct HS as [(st & r & d & -> & HS)|(-> & [X|X])]; [|contradiction|].
  - exists ls, st, r, d. split; [reflexivity|]. split; [eapply LocalT_calls; exact HL|exact HS].
  - exfalso. subst ol. eapply LocalT_honest; [exact HL|]. rewrite app_nil_r in HH. exact HH.
Qed.

Lemma printf_after_terminal e1 ev e2 rest l d : evs = e1 ++ ev :: e2 ++ rest -> e_call ev = CPrintf l d ->
  Only LocalPrompt (e1 ++ ev :: e2) ->
  TerminalFailed rq e1 /\ Only NotTerminal e2 /\ exists out, UserPrompt rq e1 out /\ Infix d out.
Proof.
  intros E Ec HO. destruct (opened_given pl a rq D _ _ _ _ H T) as [_ HT].
  destruct (local_phase pl a rq K _ _ HT) as (e & ol & ls & es & E' & M & HL & HS).
  rewrite E' in E. replace (e1 ++ ev :: e2 ++ rest) with ((e1 ++ ev :: e2) ++ rest) in E by (rewrite <- app_assoc; reflexivity).
  destruct (app_LocalPrompt _ _ _ _ E HO) as (z & E2 & _); [destruct HS as [HS|[HS _]]; auto|].
  rewrite <- app_assoc in E2. cbn [app] in E2.
  destruct (local_printf e rq M _ _ _ _ _ _ _ HL E2 Ec) as [X1 X2]. apply Only_app in X2 as [X2 _].
  split; [exact X1|]. split; [exact X2|]. exact (LocalT_texts e rq M _ _ HL _ _ _ _ _ E2 Ec).
Qed.

Lemma prompt_shown ls st r d : evs = ls ++ st :: r -> Only LocalPrompt ls -> e_call st = CStat d ->
  exists out, UserPrompt rq ls out /\ ((shown ls = out /\ Only NotPrint ls) \/ Falls rq out ls).
Proof.
  intros E HO Ec. subst evs. destruct w as [k s tr]. cbn [w_trace] in T.
  destruct (opened_given pl a rq D _ _ _ _ H T) as [(ts & R1 & _ & R3) _]. cbn [w_script w_k] in R1, R3.
  apply Linked_split in R3 as (t1 & t2 & k1 & -> & L1 & _).
  rewrite <- app_assoc in R1. rewrite R1 in H.
  destruct (local_then_tail pl a rq D _ _ _ _ _ _ _ _ _ _ H T HO Ec (eq_sym (Linked_length _ _ _ _ _ L1))) as (e & Ee & M & HL & _).
  apply (local_shown e rq M _); [|exact HL]. rewrite (proj1 (env_printf _ _ _ _ _ Ee)). reflexivity.
Qed.
End Whole.
