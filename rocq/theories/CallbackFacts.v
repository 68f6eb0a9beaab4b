(** The callbacks of an open session. *)
From Verif Require Import Base BaseLemmas Num Path Version Template Options World Sys Io Socket Env Core Pair
  Spec TraceSpec SessionSpec CallbackSpec NumProofs RequestProofs PairPure RunProofs IoProofs SocketProofs FailFacts
  PairProofs OpenFacts AskFacts SessionFacts.
Local Open Scope Z_scope.

Lemma Approved_unique rq c c' evs : Approved rq c evs -> Approved rq c' evs -> c = c'.
Proof.
  assert (HR : forall c, Approved rq c evs -> exists rd, reads evs = [rd] /\ e_call rd = CRead c).
  { intros x (q & e1 & b & e2 & acc & e3 & rd & e4 & peer & _ & -> & _ & _ & _ & Hr & H1 & H2).
    exists rd. assert (Hc : e_call rd = CRead x) by (destruct Hr as [[H _]|[H _]]; exact H). split; [|exact Hc].
    replace (e1 ++ b :: e2 ++ acc :: e3 ++ rd :: e4) with ((e1 ++ b :: e2 ++ acc :: e3) ++ rd :: e4) by (asc; reflexivity).
    rewrite reads_app, H1. cbn. unfold is_read at 1. rewrite Hc. f_equal. exact H2. }
  intros H H'. destruct (HR c H) as (rd & R & Hc). destruct (HR c' H') as (rd' & R' & Hc').
  rewrite R in R'. injection R' as <-. congruence.
Qed.

Lemma paired_state pl a rq st c : PairedSession pl a rq st c ->
  exists e, Matches e rq /\ en_stderr e = stderr_of a /\ st = ps e (Some (with_conn e c)).
Proof.
  intros (D & NE & NC & w & w' & evs & H & T & A).
  destruct (opened_given pl a rq D w _ w' evs H T) as [R HO].
  inversion HO as [| e M HC | |e M HC HE| | |e o ls es M Ee HC HE HB HN]; subst; try contradiction.
  inversion HN as [| | | |e' c' ls' es' HA]; subst.
  pose proof (asked_Ok_approved pl rq e c' ls es w _ w' M HA R eq_refl) as A'.
  rewrite (Approved_unique _ _ _ _ A A'). exists e. split; [exact M|]. split; [|reflexivity].
  apply (env_printf _ _ _ _ _ Ee).
Qed.

Lemma open_state pl a rq st : OpenSession pl a rq st ->
  exists e p, Matches e rq /\ st = ps e (Some p) /\ (p = pair0 e \/ exists c, p = with_conn e c).
Proof.
  intros (D & NC & w & w' & H).
  destruct (opened pl a rq D w _ w' H) as (evs & R & HO).
  inversion HO as [| e M HC | |e M HC HE| | |e o ls es M Ee HC HE HB HN]; subst; try contradiction.
  - exists e, (pair0 e). auto.
  - inversion HN as [| | | |e' c' ls' es' HA]; subst. exists e, (with_conn e c'). eauto.
Qed.

Lemma paired_open pl a rq st c : PairedSession pl a rq st c -> OpenSession pl a rq st.
Proof. intros (D & NE & NC & w & w' & evs & H & T & A). split; [exact D|]; split; [exact NC|]; exists w, w'; exact H. Qed.

Lemma yields_catch_log euid (m : M Z) Q :
  yields euid m Q ->
  yields euid (catch_log m) (fun o es => match o with
    | Done z => Q (Done z) es \/ (z = LOG_DENY /\ Q Panicked es)
    | Panicked => False | Stopped => Q Stopped es end).
Proof.
  intros H. unfold catch_log. eapply yields_seq; [apply yields_catch; exact H| | |].
  - intros [z|] es Hq; apply yields_ret'; rewrite app_nil_r; auto.
  - intros es [].
  - intros es Hq. exact Hq.
Qed.

Lemma catch_open_np m w w' : catch_open m w <> (Panicked, w').
Proof. unfold catch_open, bind, catch. destruct (m w) as [[?| |] ?]; discriminate. Qed.
Lemma catch_log_np m w w' : catch_log m w <> (Panicked, w').
Proof. unfold catch_log, bind, catch. destruct (m w) as [[?| |] ?]; discriminate. Qed.

(** *** Reporting *)
Definition log_report (pf : print_facility) (er : pair_error) (o : outcome Z) (xs : list event) : Prop :=
  exists r, printed_all pf (newline ++ pf_tag pf ++ display_pair_error er ++ newline) r xs
  /\ match o with Done z => z = 0 /\ r <> Stopped | Panicked => r = Panicked | Stopped => r = Stopped end.

Lemma report_err_yields euid e er :
  yields euid (write_error (en_stderr e) (display_pair_error er) None ;;; ret LOG_DENY) (log_report (en_stderr e) er).
Proof.
  eapply yields_seq; [apply write_error_yields| | |].
  - intros r xs H. apply yields_ret'. rewrite app_nil_r. exists (Done r). split; [exact H|]. split; [reflexivity|discriminate].
  - intros xs H. exists Panicked. auto.
  - intros xs H. exists Stopped. auto.
Qed.

(** *** Output *)
Inductive OutT (pf : print_facility) (c : nat) (d : bytes) : outcome Z -> list event -> Prop :=
| OU_ok es : sent c d (Done (Ok tt)) es -> OutT pf c d (Done 1) es
| OU_bad er o es xs : sent c d (Done (Err er)) es -> AnyFailed es -> o = Done 0 \/ o = Stopped ->
    Only ErrorText xs -> OutT pf c d o (es ++ xs)
| OU_stop es : sent c d Stopped es -> OutT pf c d Stopped es.

Lemma log_report_text pf er o xs : pf_level pf = 3 -> log_report pf er o xs -> Only ErrorText xs.
Proof.
  intros HL (r & H & _). apply printed_all_calls in H. revert H. apply Only_weaken. intros x [d ->].
  rewrite HL. exists d. reflexivity.
Qed.

Lemma out_yields euid e c d : pf_level (en_stderr e) = 3 ->
  yields euid (catch_log (report SudoPair e (log_output (with_conn e c) d))) (OutT (en_stderr e) c d).
Proof.
  intros HL. eapply yields_weaken.
  - apply yields_catch_log.
    instantiate (1 := fun o es => match o with
      | Done z => (z = 1 /\ sent c d (Done (Ok tt)) es)
                  \/ (exists er es1 xs, es = es1 ++ xs /\ z = 0 /\ sent c d (Done (Err er)) es1 /\ AnyFailed es1 /\ Only ErrorText xs)
      | Panicked => exists er es1 xs, es = es1 ++ xs /\ sent c d (Done (Err er)) es1 /\ AnyFailed es1 /\ Only ErrorText xs
      | Stopped => sent c d Stopped es
                  \/ (exists er es1 xs, es = es1 ++ xs /\ sent c d (Done (Err er)) es1 /\ AnyFailed es1 /\ Only ErrorText xs)
      end).
    unfold report, log_output. cbn [with_conn sp_socket].
    eapply yields_seq with (Q := fun o es => match o with
      | Done (Ok _) => sent c d (Done (Ok tt)) es
      | Done (Err e) => e = SessionTerminated /\ exists er, sent c d (Done (Err er)) es /\ AnyFailed es
      | Panicked => False | Stopped => sent c d Stopped es end).
    + eapply yields_seq; [apply yields_and; [apply socket_write_all_yields|apply socket_write_all_fail]| | |].
      * intros [[]|er] es [H1 H2]; apply yields_ret'; rewrite app_nil_r; [exact H1|]. split; [reflexivity|]. exists er. auto.
      * intros es [[_ []] _].
      * intros es [H _]. exact H.
    + intros [[]|er] es H.
      * apply yields_ret'. rewrite app_nil_r. left. auto.
      * destruct H as [-> (er' & H1 & H2)]. eapply yields_weaken; [apply report_err_yields|].
        intros o xs HR. pose proof (log_report_text _ _ _ _ HL HR) as HT. destruct HR as (r & _ & HR).
        destruct o as [z| |].
        -- right. exists er', es, xs. destruct HR. auto.
        -- exists er', es, xs. auto.
        -- right. exists er', es, xs. auto.
    + intros es [].
    + intros es H. left. exact H.
  - intros [z| |] es H.
    + destruct H as [[[-> H]|(er & es1 & xs & -> & -> & H1 & H2 & H3)]|[-> (er & es1 & xs & -> & H1 & H2 & H3)]].
      * apply OU_ok. exact H.
      * eapply OU_bad; eauto.
      * eapply OU_bad; eauto.
    + contradiction.
    + destruct H as [H|(er & es1 & xs & -> & H1 & H2 & H3)]; [apply OU_stop; exact H|]. eapply OU_bad; eauto.
Qed.

(** The statement of the properties: everything is received when 1 is
    returned; otherwise an initial part, and some call failed. *)
Definition output_result (c : nat) (d : bytes) (o : outcome Z) (evs : list event) : Prop :=
  Only (fun x => WritesTo c x \/ ErrorText x) evs
  /\ match o with
     | Done z => (z = 1 /\ delivered c evs = d) \/ (z = 0 /\ Prefix (delivered c evs) d /\ Exists Failed evs)
     | Panicked => False
     | Stopped => Prefix (delivered c evs) d
     end.

Lemma OnConn_writes c es : Forall (OnConn c) es -> Only (WritesTo c) es.
Proof.
  apply Forall_impl. intros ev [H|[d ->]]; [|reflexivity]. destruct (e_call ev); cbn in *; tauto.
Qed.

Lemma delivered_text c xs : Only ErrorText xs -> delivered c xs = [].
Proof.
  induction 1 as [|ev xs [d Hd] _ IH]; [reflexivity|]. unfold delivered in *. cbn [flat_map]. rewrite IH, app_nil_r.
  unfold delivered1. rewrite Hd. reflexivity.
Qed.

Lemma OutT_result pf c d o es : OutT pf c d o es -> output_result c d o es.
Proof.
  assert (HW : forall es, Forall (OnConn c) es -> Only (fun x => WritesTo c x \/ ErrorText x) es).
  { intros es0 H. apply OnConn_writes in H. revert H. apply Only_weaken. auto. }
  assert (HT : forall es, Only ErrorText es -> Only (fun x => WritesTo c x \/ ErrorText x) es).
  { intros es0. apply Only_weaken. auto. }
  intros H. inversion H as [es' [Hc Hd]|er o' es' xs [Hc Hd] Hf Ho Hx|es' [Hc Hd]]; subst; clear H.
  - split; [auto|]. left. auto.
  - split; [onl; auto|]. rewrite delivered_app, (delivered_text c xs Hx), app_nil_r.
    destruct Ho as [->| ->]; [|exact Hd]. right. split; [reflexivity|]. split; [exact Hd|]. apply AnyFailed_l. exact Hf.
  - split; [auto|]. exact Hd.
Qed.

Lemma log_result pl e c s d w o w' evs rq : Matches e rq -> pf_level (en_stderr e) = 3 -> OutputStream s -> rq_log rq s = true ->
  core_log SudoPair pl s d (ps e (Some (with_conn e c))) w = (o, w') -> w_trace w' = w_trace w ++ evs ->
  output_result c d o evs.
Proof.
  intros M HL HS Hh H T. eapply OutT_result.
  assert (HY : yields 0 (core_log SudoPair pl s d (ps e (Some (with_conn e c)))) (OutT (en_stderr e) c d)).
  { unfold core_log. cbn [ps st_env st_plugin]. rewrite (m_log _ _ M), Hh. cbn [negb andb pg_log SudoPair].
    destruct HS as [->|[->| ->]]; cbn [pair_log]; apply out_yields; exact HL. }
  destruct (HY w o w' H) as (evs' & R & Q). rewrite (Ran_given _ _ _ _ _ R T). exact Q.
Qed.

Lemma winsize_result pl e c l k w o w' evs : pf_level (en_stderr e) = 3 ->
  core_change_winsize SudoPair pl l k (ps e (Some (with_conn e c))) w = (o, w') -> w_trace w' = w_trace w ++ evs ->
  output_result c (winsize_seq l k) o evs.
Proof.
  intros HL H T. eapply OutT_result.
  destruct (out_yields 0 e c (winsize_seq l k) HL w o w' H) as (evs' & R & Q).
  rewrite (Ran_given _ _ _ _ _ R T). exact Q.
Qed.

Lemma paired_output pl a rq st c s d w o w' evs :
  PairedSession pl a rq st c -> OutputStream s -> rq_log rq s = true ->
  core_log SudoPair pl s d st w = (o, w') -> w_trace w' = w_trace w ++ evs ->
  Only (fun x => WritesTo c x \/ ErrorText x) evs
  /\ match o with
     | Done z => (z = 1 /\ delivered c evs = d) \/ (z = 0 /\ Prefix (delivered c evs) d /\ Exists Failed evs)
     | Panicked => False
     | Stopped => Prefix (delivered c evs) d
     end.
Proof.
  intros HP HS Hh H T. apply paired_state in HP as (e & M & HE & ->).
  eapply log_result; try eassumption. rewrite HE. reflexivity.
Qed.

Lemma paired_winsize pl a rq st c l k sl sk w o w' evs :
  PairedSession pl a rq st c -> Decimal l sl -> Decimal k sk ->
  core_change_winsize SudoPair pl l k st w = (o, w') -> w_trace w' = w_trace w ++ evs ->
  let d := [x1b] ++ B "[8;" ++ sl ++ B ";" ++ sk ++ B "t" in
  Only (fun x => WritesTo c x \/ ErrorText x) evs
  /\ match o with
     | Done z => (z = 1 /\ delivered c evs = d) \/ (z = 0 /\ Prefix (delivered c evs) d /\ Exists Failed evs)
     | Panicked => False
     | Stopped => Prefix (delivered c evs) d
     end.
Proof.
  intros HP H1 H2 H T. apply paired_state in HP as (e & M & HE & ->). apply Decimal_iff in H1, H2. subst sl sk.
  eapply winsize_result; try eassumption. rewrite HE. reflexivity.
Qed.

(** *** Streams that are not marked for logging; terminal input *)
Lemma unhinted_log P pl s d st w e p : pg_ignore_hints P = false ->
  st_env st = Some e -> st_plugin st = Some p -> hint s (en_command_info e) = false ->
  core_log P pl s d st w = (Done 1, w).
Proof. intros H1 H2 H3 H4. unfold core_log. rewrite H2, H3, H4, H1. reflexivity. Qed.

(** Any plugin, opened. *)
Lemma opened_any P pl a rq st p w w' : Describes pl a rq ->
  core_open P pl a (pstate0 P) w = (Done (1, st), w') -> st_plugin st = Some p ->
  exists e, st_env st = Some e /\ Matches e rq.
Proof.
  intros D H Hp. unfold core_open in H. destruct (pf_new (Some (pg_name P)) (oa_printf a)) as [x stderr].
  destruct (io_env_new pl (pg_name P) (pg_version P) a) as [[e|er]|] eqn:E.
  - pose proof (env_Matches _ _ _ _ _ _ D E) as M. cbn [pstate0 st_env st_plugin] in H.
    destruct (path_eqb (ci_command (en_command_info e)) []).
    + injection H as <- _. discriminate Hp.
    + unfold bind at 1 in H. destruct (catch _ w) as [[[[q|z]|]| |] w1]; try discriminate H; injection H; intros; subst.
      * exists e. auto.
      * discriminate Hp.
  - unfold bind at 1 in H. destruct (catch_open _ w) as [[z| |] w1]; try discriminate H. injection H. intros. subst. discriminate Hp.
  - discriminate H.
Qed.
Lemma hints_decide P pl a rq st p w w' : Describes pl a rq ->
  core_open P pl a (pstate0 P) w = (Done (1, st), w') -> st_plugin st = Some p -> forall s d w1,
  (rq_log rq s = false -> pg_ignore_hints P = false -> core_log P pl s d st w1 = (Done 1, w1))
  /\ (rq_log rq s = true \/ pg_ignore_hints P = true -> forall w2,
      (pg_log P pl s p d w1 = (Done (Ok tt), w2) -> core_log P pl s d st w1 = (Done 1, w2))
      /\ (pg_log P pl s p d w1 = (Panicked, w2) -> core_log P pl s d st w1 = (Done 0, w2))
      /\ (pg_log P pl s p d w1 = (Stopped, w2) -> core_log P pl s d st w1 = (Stopped, w2))).
Proof.
  intros D H Hp s d w1. destruct (opened_any P pl a rq st p w w' D H Hp) as (e & He & M).
  pose proof (m_log _ _ M s) as L. split.
  - intros H1 H2. eapply unhinted_log; [exact H2|exact He|exact Hp|]. rewrite L. exact H1.
  - intros HH w2. assert (X : negb (hint s (en_command_info e)) && negb (pg_ignore_hints P) = false).
    { rewrite L. destruct HH as [-> | ->]; [reflexivity|apply andb_false_r]. }
    unfold core_log. rewrite He, Hp, X. unfold report, catch_log, catch, bind.
    split; [|split]; intros ->; reflexivity.
Qed.

Lemma open_unhinted pl a rq st s d w : OpenSession pl a rq st -> rq_log rq s = false ->
  core_log SudoPair pl s d st w = (Done 1, w).
Proof.
  intros HO Hl. apply open_state in HO as (e & p & M & -> & _).
  apply (unhinted_log SudoPair pl s d _ w e p); [reflexivity|reflexivity|reflexivity|].
  rewrite (m_log _ _ M). exact Hl.
Qed.

Lemma ttyin_ignored pl a rq st d w : OpenSession pl a rq st -> core_log SudoPair pl Ttyin d st w = (Done 1, w).
Proof.
  intros HO. apply open_state in HO as (e & p & M & -> & _). unfold core_log. cbn [ps st_env st_plugin].
  destruct (negb _ && negb _); reflexivity.
Qed.

(** *** Standard input *)
Lemma stdin_refused pl a rq st c d w o w' evs :
  PairedSession pl a rq st c -> rq_log rq Stdin = true ->
  core_log SudoPair pl Stdin d st w = (o, w') -> w_trace w' = w_trace w ++ evs ->
  Only ErrorText evs /\ (o = Done 0 \/ o = Stopped)
  /\ (HonestPrintf evs -> Prefix (printed 3 evs)
       ([x0a] ++ B "sudo_pair: redirection of stdin to paired sessions is prohibited" ++ [x0a])).
Proof.
  intros HP Hl H T. pose proof HP as (_ & NE & _). apply paired_state in HP as (e & M & HE & ->).
  unfold core_log in H. cbn [ps st_env st_plugin] in H. rewrite (m_log _ _ M), Hl in H. cbn [negb andb pg_log SudoPair pair_log] in H.
  change (is_exempt (with_conn e c) pl) with (is_exempt (pair0 e) pl) in H.
  destruct (is_exempt (pair0 e) pl) as [[|]|] eqn:X.
  - exfalso. apply NE. apply (is_exempt_sound e rq pl M true X). reflexivity.
  - assert (HY : yields 0 (catch_log (report SudoPair e (ret (Err StdinRedirected))))
      (fun o xs => Only ErrorText xs /\ (o = Done 0 \/ o = Stopped)
        /\ (HonestPrintf xs -> Prefix (printed 3 xs)
       ([x0a] ++ B "sudo_pair: redirection of stdin to paired sessions is prohibited" ++ [x0a])))).
    { eapply yields_weaken.
      - apply yields_catch_log. instantiate (1 := log_report (en_stderr e) StdinRedirected).
        unfold report. eapply yields_seq; [apply yields_ret| | |].
        + intros r e1 [Hr ->]. injection Hr as ->. apply report_err_yields.
        + intros e1 [Hr _]. discriminate.
        + intros e1 [Hr _]. discriminate.
      - assert (HX : forall o1 xs, log_report (en_stderr e) StdinRedirected o1 xs -> Only ErrorText xs
          /\ (HonestPrintf xs -> Prefix (printed 3 xs)
             ([x0a] ++ B "sudo_pair: redirection of stdin to paired sessions is prohibited" ++ [x0a]))).
        { intros o1 xs HR. split; [refine (log_report_text (en_stderr e) _ _ _ _ HR); rewrite HE; reflexivity|].
          destruct HR as (r & [_ HR] & _). intros Hh. rewrite HE in HR. change (pf_level (stderr_of a)) with 3 in HR. destruct r as [[[]|]| |].
          - rewrite HR. apply Prefix_refl.
          - exact HR.
          - exfalso. exact (HR Hh).
          - exact HR. }
        intros [z| |] xs HR.
        + destruct HR as [HR|[-> HR]]; destruct (HX _ _ HR) as [H1 H2]; destruct HR as (r & _ & HR).
          * split; [exact H1|]. split; [|exact H2]. left. destruct HR as [-> _]. reflexivity.
          * split; [exact H1|]. split; [|exact H2]. left. reflexivity.
        + contradiction.
        + destruct (HX _ _ HR) as [H1 H2]. auto. }
    destruct (HY w o w' H) as (evs' & R & Q). rewrite (Ran_given _ _ _ _ _ R T). exact Q.
  - injection H as <- <-.
    assert (E : evs = []) by (apply (app_inv_head (w_trace w)); rewrite app_nil_r; symmetry; exact T).
    subst evs. split; [apply Only_nil|]. split; [auto|]. intros _. apply Prefix_nil.
Qed.

(** *** The version banner *)
Lemma write_pieces_yields euid pf l : yields euid (write_pieces pf l) (printed_all pf (List.concat l)).
Proof.
  induction l as [|s l IH]; cbn [write_pieces List.concat]; [apply write_pieces_yields_nil|].
  apply printed_all_seq. exact IH.
Qed.

Lemma write_pieces_fail euid pf l : pf_present pf = true -> Forall (fun b => has_nul b = false) l ->
  yields euid (write_pieces pf l) all_fail.
Proof.
  intros HP. induction 1 as [|s l Hs _ IH]; cbn [write_pieces]; [apply yields_ret'; exact I|].
  eapply yields_seq; [apply pf_write_all_fail; assumption| | |]; try (intros; exact I).
  intros [[]|er] e1 H.
  - eapply yields_weaken; [exact IH|]. intros [[?|?]| |] e2 H2; try exact I. apply AnyFailed_r. exact H2.
  - apply yields_ret'. rewrite app_nil_r. exact H.
Qed.

Definition banner (P : plugin) : bytes := pg_name P ++ B " I/O plugin version " ++ pg_version P ++ [x0a].

Lemma version_shown P v st e w o w' evs : st_env st = Some e ->
  core_show_version P v st w = (o, w') -> w_trace w' = w_trace w ++ evs ->
  Only (fun x => exists d, x = CPrintf (pf_level (en_stdout e)) d) evs
  /\ (HonestPrintf evs -> (o = Done 1 \/ o = Stopped) /\ Prefix (printed (pf_level (en_stdout e)) evs) (banner P))
  /\ (pf_present (en_stdout e) = true -> has_nul (pg_name P) = false -> has_nul (pg_version P) = false ->
      HonestPrintf evs -> ~ Exists Failed evs -> o = Stopped \/ (o = Done 1 /\ printed (pf_level (en_stdout e)) evs = banner P)).
Proof.
  intros HE H T. unfold core_show_version in H. rewrite HE in H.
  set (l := [pg_name P; B " I/O plugin version "; pg_version P; newline]).
  assert (HB : List.concat l = banner P) by (unfold l, banner; cbn [List.concat]; rewrite app_nil_r; reflexivity).
  set (G := pf_present (en_stdout e) = true /\ has_nul (pg_name P) = false /\ has_nul (pg_version P) = false).
  assert (HY : yields 0 (catch_open (show_version P e ;;; ret OPEN_OK))
    (fun o es => match o with
      | Done z => (z = 1 /\ exists r, printed_all (en_stdout e) (banner P) (Done r) es /\ (G -> all_fail (Done r) es))
                  \/ (z = -1 /\ ~ HonestPrintf es)
      | Panicked => False | Stopped => Prefix (printed (pf_level (en_stdout e)) es) (banner P) end
      /\ Only (fun x => exists d, x = CPrintf (pf_level (en_stdout e)) d) es)).
  { eapply yields_weaken.
    - apply yields_catch_open. instantiate (1 := fun o es => match o with
        | Done z => z = 1 /\ exists r, printed_all (en_stdout e) (banner P) (Done r) es /\ (G -> all_fail (Done r) es)
        | Panicked => printed_all (en_stdout e) (banner P) Panicked es
        | Stopped => printed_all (en_stdout e) (banner P) Stopped es end).
      eapply yields_seq with (Q := fun o es => match o with
        | Done _ => exists r, printed_all (en_stdout e) (banner P) (Done r) es /\ (G -> all_fail (Done r) es)
        | Panicked => printed_all (en_stdout e) (banner P) Panicked es
        | Stopped => printed_all (en_stdout e) (banner P) Stopped es end).
      + unfold show_version. fold l. rewrite <- HB.
        eapply yields_seq with (Q := fun o es => printed_all (en_stdout e) (List.concat l) o es /\ (G -> all_fail o es)).
        * intros w0 o0 w0' H0. destruct (write_pieces_yields 0 (en_stdout e) l w0 o0 w0' H0) as (es & R & Q).
          exists es. split; [exact R|]. split; [exact Q|]. intros (G1 & G2 & G3).
          assert (HF : yields 0 (write_pieces (en_stdout e) l) all_fail).
          { apply write_pieces_fail; [exact G1|]. repeat constructor; assumption. }
          destruct (HF w0 o0 w0' H0) as (es2 & R2 & Q2). rewrite (Ran_unique _ _ _ _ _ R R2). exact Q2.
        * intros r es [Q1 Q2]. apply yields_ret'. rewrite app_nil_r. exists r. auto.
        * intros es [Q1 Q2]. exact Q1.
        * intros es [Q1 Q2]. exact Q1.
      + intros [] es Hq. apply yields_ret'. rewrite app_nil_r. auto.
      + auto.
      + auto.
    - intros [z| |] es Hq.
      + destruct Hq as [[-> (r & Q1 & Q2)]|[-> Q]].
        * split; [left; eauto|]. apply printed_all_calls in Q1. exact Q1.
        * split; [|apply printed_all_calls in Q; exact Q]. right. split; [reflexivity|]. exact (proj2 Q).
      + contradiction.
      + split; [exact (proj2 Hq)|]. apply printed_all_calls in Hq. exact Hq. }
  destruct (HY w o w' H) as (evs' & R & Q & HO). rewrite (Ran_given _ _ _ _ _ R T). clear evs T HY H.
  split; [exact HO|]. split.
  - intros Hh. destruct o as [z| |].
    + destruct Q as [[-> (r & Q1 & Q2)]|[_ Q]]; [|contradiction]. split; [auto|].
      destruct Q1 as [_ Q1]. destruct r; [rewrite Q1; apply Prefix_refl|exact Q1].
    + contradiction.
    + auto.
  - intros G1 G2 G3 Hh HN. destruct o as [z| |].
    + destruct Q as [[-> (r & Q1 & Q2)]|[_ Q]]; [|contradiction]. right. split; [reflexivity|].
      destruct r as [[]|er]; [exact (proj2 Q1)|]. exfalso. apply HN. apply Q2. unfold G. auto.
    + contradiction.
    + auto.
Qed.

Lemma version_no_env P v st w : st_env st = None -> core_show_version P v st w = (Done (-1), w).
Proof. intros H. unfold core_show_version. rewrite H. reflexivity. Qed.

(** *** Histories within a session *)
Lemma stdin_quiet pl e c d rq : Matches e rq -> ~ Exempt rq -> pf_level (en_stderr e) = 3 ->
  yields 0 (core_log SudoPair pl Stdin d (ps e (Some (with_conn e c)))) (fun o xs => Only ErrorText xs).
Proof.
  intros M NE HL. unfold core_log. cbn [ps st_env st_plugin]. eapply yields_weaken.
  - apply yields_catch_log. instantiate (1 := fun o xs => Only ErrorText xs).
    destruct (negb _ && negb _); [apply yields_ret'; apply Only_nil|]. unfold report.
    cbn [pg_log SudoPair pair_log]. destruct (is_exempt _ pl) as [[|]|].
    + eapply yields_seq; [apply yields_ret| | |]; try (intros e1 [? _]; discriminate).
      intros r e1 [Hr ->]. injection Hr as ->. apply yields_ret'. apply Only_nil.
    + eapply yields_seq; [apply yields_ret| | |]; try (intros e1 [? _]; discriminate).
      intros r e1 [Hr ->]. injection Hr as ->. eapply yields_weaken; [apply report_err_yields|].
      intros o xs H. exact (log_report_text _ _ _ _ HL H).
    + eapply yields_seq; [apply yields_panic| | |]; try (intros e1 [? _]; discriminate).
      * intros r e1 [Hr _]. discriminate.
      * intros e1 [_ ->]. apply Only_nil.
  - intros [z| |] xs H; try contradiction; [destruct H as [H|[_ H]]|]; exact H.
Qed.

Lemma callback_yields pl a rq e c cb : Matches e rq -> ~ Exempt rq -> en_stderr e = stderr_of a -> InSession cb ->
  yields 0 (run_callback SudoPair pl cb (ps e (Some (with_conn e c)))) (fun o es => match o with
    | Done (z, st') => st' = ps e (Some (with_conn e c))
        /\ exists out, Mirrors rq cb out /\ (z = 1 /\ delivered c es = out \/ z <> 1 /\ Prefix (delivered c es) out)
    | Panicked => False | Stopped => True end).
Proof.
  intros M NE HE HI. assert (HL : pf_level (en_stderr e) = 3) by (rewrite HE; reflexivity).
  set (st := ps e (Some (with_conn e c))).
  assert (HP : forall d o es, OutT (en_stderr e) c d o es -> match o with
     | Done z => z = 1 /\ delivered c es = d \/ z <> 1 /\ Prefix (delivered c es) d
     | Panicked => False | Stopped => True end).
  { intros d o es H. apply OutT_result in H as [_ H]. destruct o; try exact I; try exact H.
    destruct H as [[-> H]|(-> & H & _)]; [auto|]. right. split; [discriminate|exact H]. }
  destruct cb as [a0|x y|v|s d|l k]; try contradiction; cbn [run_callback].
  - eapply yields_seq with (Q := fun o es => match o with Panicked => False | _ => delivered c es = [] end).
    + intros w o w' H.
      assert (HYe : exists es, Ran 0 w es w' /\ Only Prints es).
      { assert (HY : yields 0 (core_show_version SudoPair v st) (fun o es => Only Prints es)).
        { unfold core_show_version. cbn [st ps st_env]. eapply yields_weaken.
          - apply yields_catch_open. instantiate (1 := fun o es => Only Prints es).
            assert (HZ : yields 0 (show_version SudoPair e) (fun o es => Only Prints es)).
            { unfold show_version.
              assert (HP' : forall o es, printed_all (en_stdout e) (List.concat
                 [pg_name SudoPair; B " I/O plugin version "; pg_version SudoPair; newline]) o es -> Only Prints es).
              { intros o0 es H0. apply printed_all_calls in H0. revert H0. apply Only_weaken. intros x [d ->]. eexists _, _. reflexivity. }
              eapply yields_seq; [apply write_pieces_yields| | |]; try exact (HP' _).
              intros r es H0. apply yields_ret'. rewrite app_nil_r. exact (HP' _ _ H0). }
            eapply yields_seq; [exact HZ| | |]; auto.
            intros [] es H0. apply yields_ret'. rewrite app_nil_r. exact H0.
          - intros [z| |] es H0; try contradiction; [destruct H0 as [H0|[_ H0]]|]; exact H0. }
        destruct (HY w o w' H) as (es & R & Q). eauto. }
      destruct HYe as (es & R & Q). exists es. split; [exact R|].
      assert (HD : delivered c es = []).
      { clear -Q. induction Q as [|ev es (l & d & Hd) _ IH]; [reflexivity|]. unfold delivered in *. cbn [flat_map].
        rewrite IH, app_nil_r. unfold delivered1. rewrite Hd. reflexivity. }
      destruct o; [exact HD| |exact HD].
      exact (catch_open_np _ _ _ H).
    + intros z es HD. apply yields_ret'. rewrite app_nil_r. split; [reflexivity|]. exists []. split; [constructor|].
      rewrite HD. destruct (Z.eq_dec z 1) as [->|Hz]; [auto|]. right. split; [exact Hz|apply Prefix_nil].
    + intros es [].
    + auto.
  - assert (HC : (OutputStream s /\ rq_log rq s = true) \/ rq_log rq s = false \/ s = Ttyin \/ s = Stdin).
    { unfold OutputStream. destruct s; auto; destruct (rq_log rq _); auto. }
    destruct HC as [[HS Hh]|[Hh|HS]].
    + eapply yields_seq with (Q := OutT (en_stderr e) c d).
      * unfold core_log. cbn [st ps st_env st_plugin]. rewrite (m_log _ _ M), Hh. cbn [negb andb pg_log SudoPair].
        destruct HS as [->|[->| ->]]; cbn [pair_log]; apply out_yields; exact HL.
      * intros z es H. apply yields_ret'. rewrite app_nil_r. split; [reflexivity|]. exists d.
        split; [apply MI_output; assumption|]. exact (HP _ _ _ H).
      * intros es H. exact (HP _ _ _ H).
      * auto.
    + eapply yields_seq with (Q := fun o es => o = Done 1 /\ es = []).
      * intros w o w' H. unfold st in H. rewrite (unhinted_log SudoPair pl s d _ w e (with_conn e c)) in H; [|reflexivity|reflexivity|reflexivity|rewrite (m_log _ _ M); exact Hh].
        injection H as <- <-. exists []. split; [apply Ran_refl|auto].
      * intros z es [Hz ->]. injection Hz as ->. apply yields_ret'. split; [reflexivity|]. exists [].
        split; [apply MI_quiet; auto|]. left. auto.
      * intros es [? _]. discriminate.
      * auto.
    + eapply yields_seq with (Q := fun o es => match o with Panicked => False | _ => Only ErrorText es end).
      * destruct HS as [->| ->].
        -- intros w o w' H. unfold core_log in H. cbn [st ps st_env st_plugin] in H.
           assert (H' : (Done 1, w) = (o, w')) by (destruct (negb _ && negb _); exact H). injection H' as <- <-.
           exists []. split; [apply Ran_refl|apply Only_nil].
        -- intros w o w' H. destruct (stdin_quiet pl e c d rq M NE HL w o w' H) as (es & R & Q).
           exists es. split; [exact R|]. destruct o; [exact Q| |exact Q].
           exact (catch_log_np _ _ _ H).
      * intros z es Hq. apply yields_ret'. rewrite app_nil_r. split; [reflexivity|]. exists [].
        split. { apply MI_quiet. right. unfold OutputStream. destruct HS as [->| ->]; intros [?|[?|?]]; discriminate. }
        rewrite (delivered_text c es Hq). destruct (Z.eq_dec z 1) as [->|Hz]; [auto|]. right. split; [exact Hz|apply Prefix_nil].
      * intros es [].
      * auto.
  - eapply yields_seq with (Q := OutT (en_stderr e) c (winsize_seq l k)).
    + exact (out_yields 0 e c (winsize_seq l k) HL).
    + intros z es H. apply yields_ret'. rewrite app_nil_r. split; [reflexivity|]. exists (winsize_seq l k).
      split; [apply MI_winsize; apply Decimal_iff; reflexivity|]. exact (HP _ _ _ H).
    + intros es H. exact (HP _ _ _ H).
    + auto.
Qed.

Lemma history_yields pl a rq e c h : Matches e rq -> ~ Exempt rq -> en_stderr e = stderr_of a -> Forall InSession h ->
  yields 0 (run_history SudoPair pl h (ps e (Some (with_conn e c)))) (fun o es => match o with
    | Done (zs, st') => st' = ps e (Some (with_conn e c)) /\ Received rq h zs (delivered c es)
    | Panicked => False | Stopped => True end).
Proof.
  intros M NE HE. induction 1 as [|cb h Hc _ IH]; cbn [run_history].
  - apply yields_ret'. split; [reflexivity|constructor].
  - eapply yields_seq; [apply (callback_yields pl a rq e c cb M NE HE Hc)| | |]; auto.
    intros [z st'] es [-> (out & HM & Hz)].
    eapply yields_seq; [exact IH| | |]; auto.
    intros [zs st'] es2 [-> HR]. apply yields_ret'. rewrite app_nil_r. split; [reflexivity|].
    rewrite delivered_app. econstructor; eassumption.
Qed.

Lemma paired_history pl a rq st c h w zs st' w' evs :
  PairedSession pl a rq st c -> Forall InSession h ->
  run_history SudoPair pl h st w = (Done (zs, st'), w') -> w_trace w' = w_trace w ++ evs ->
  st' = st /\ Received rq h zs (delivered c evs).
Proof.
  intros HP Hh H T. pose proof HP as (_ & NE & _). apply paired_state in HP as (e & M & HE & ->).
  destruct (history_yields pl a rq e c h M NE HE Hh w _ w' H) as (es & R & Q). rewrite (Ran_given _ _ _ _ _ R T). exact Q.
Qed.

Lemma Mirrors_unique rq cb x y : Mirrors rq cb x -> Mirrors rq cb y -> x = y.
Proof.
  intros H H'. inversion H; subst; inversion H'; subst; try reflexivity.
  - match goal with K : _ \/ _ |- _ => destruct K; [congruence|contradiction] end.
  - match goal with K : _ \/ ~ _ |- _ => destruct K; [congruence|contradiction] end.
  - repeat match goal with K : Decimal _ _ |- _ => apply Decimal_iff in K end. congruence.
Qed.

Lemma Received_all rq h zs out : Received rq h zs out -> Forall (eq 1) zs ->
  forall outs, Forall2 (Mirrors rq) h outs -> out = List.concat outs.
Proof.
  induction 1 as [|cb h z zs o part rest HM Hz HR IH]; intros HF outs HO.
  - inversion HO. reflexivity.
  - inversion HO as [|? y ? ys Hy Hys]; subst. inversion HF as [|? ? Hz1 HF']; subst. cbn [List.concat].
    rewrite (IH HF' _ Hys). f_equal. destruct Hz as [[_ ->]|[Hz _]]; [|congruence]. exact (Mirrors_unique _ _ _ _ HM Hy).
Qed.

Lemma paired_history_all pl a rq st c h w zs st' w' evs outs :
  PairedSession pl a rq st c -> Forall InSession h ->
  run_history SudoPair pl h st w = (Done (zs, st'), w') -> w_trace w' = w_trace w ++ evs ->
  Forall (eq 1) zs -> Forall2 (Mirrors rq) h outs -> delivered c evs = List.concat outs.
Proof.
  intros HP Hh H T Hz HO. destruct (paired_history _ _ _ _ _ _ _ _ _ _ _ HP Hh H T) as [_ HR].
  eapply Received_all; eassumption.
Qed.

(** *** No active session *)
Lemma inactive P pl cb st w : st_plugin st = None \/ st_env st = None ->
  match cb with CbLog _ _ | CbWinsize _ _ => True | _ => False end ->
  run_callback P pl cb st w = (Done (0, st), w).
Proof.
  intros H HC. destruct cb; try contradiction; cbn [run_callback]; unfold bind, core_log, core_change_winsize;
    destruct (st_env st) as [e|]; try reflexivity; destruct (st_plugin st) as [p|]; try reflexivity;
    destruct H; discriminate.
Qed.

(** *** Closing *)
Lemma close_none P x e st w : st_plugin st = None -> core_close P x e st w = (Done (pstate0 P), w).
Proof. intros H. unfold core_close. rewrite H. reflexivity. Qed.

Inductive CloseSeq (c : nat) : outcome unit -> list event -> Prop :=
| CS_stop es : Only (DropCall c) es -> CloseSeq c Stopped es
| CS_done s1 s2 cl : e_call s1 = CShutdown c -> e_call s2 = CShutdown c -> Is (CClose c) AOk cl ->
    CloseSeq c (Done tt) [s1; s2; cl].

Lemma pair_close_yields euid e c : yields euid (pair_close (with_conn e c)) (CloseSeq c).
Proof.
  unfold pair_close. cbn [with_conn sp_socket]. unfold socket_close.
  eapply yields_call; [apply shutdown_spec| |constructor; apply Only_nil].
  intros r a k _. eapply yields_weaken; [apply drop_yields|].
  intros o es H. inversion H; subst.
  - constructor. onl. left; reflexivity.
  - constructor. onl; [left; reflexivity|]. left. assumption.
  - apply CS_done; [reflexivity|exact H0|exact H1].
Qed.

Lemma paired_close pl a rq st c x err w o w' evs :
  PairedSession pl a rq st c ->
  core_close SudoPair x err st w = (o, w') -> w_trace w' = w_trace w ++ evs ->
  (o = Stopped /\ Only (fun y => y = CShutdown c \/ y = CClose c) evs)
  \/ (o = Done (pstate0 _) /\ exists s1 s2 cl, evs = [s1; s2; cl]
      /\ e_call s1 = CShutdown c /\ e_call s2 = CShutdown c /\ Is (CClose c) AOk cl).
Proof.
  intros HP H T. apply paired_state in HP as (e & M & HE & ->).
  unfold core_close in H. cbn [ps st_plugin st_env pg_close SudoPair] in H.
  assert (HY : yields 0 (r <- catch (pair_close (with_conn e c)) ;;
     match r with Some _ => ret (@mkPstate SudoPair None None) | None => ret (@mkPstate SudoPair (Some e) None) end)
     (fun o es => (o = Stopped /\ Only (fun y => y = CShutdown c \/ y = CClose c) es)
       \/ (o = Done (pstate0 _) /\ exists s1 s2 cl, es = [s1; s2; cl]
          /\ e_call s1 = CShutdown c /\ e_call s2 = CShutdown c /\ Is (CClose c) AOk cl))).
  { eapply yields_seq; [apply yields_catch; apply pair_close_yields| | |].
    - intros [[]|] es Hq; inversion Hq; subst. apply yields_ret'. right. split; [reflexivity|]. exists s1, s2, cl. split; [reflexivity|]. auto.
    - intros es [].
    - intros es Hq. inversion Hq; subst. left. split; [reflexivity|]. assumption. }
  destruct (HY w o w' H) as (es & R & Q). rewrite (Ran_given _ _ _ _ _ R T). exact Q.
Qed.

(** Whatever the state, a [SudoPair] close leaves nothing behind. *)
Lemma close_clears x err st w st' w' : core_close SudoPair x err st w = (Done st', w') -> st' = pstate0 _.
Proof.
  unfold core_close. destruct (st_plugin st) as [p|].
  2: { intros H. injection H as <- _. reflexivity. }
  unfold bind, catch. cbn [pg_close SudoPair].
  destruct (pair_close p w) as [[[]| |] w1] eqn:E; intros H; try discriminate; injection H as <- _; [reflexivity|].
  exfalso. unfold pair_close in E. destruct (sp_socket p) as [c|]; [|discriminate].
  unfold socket_drop, socket_close, bind in E.
  assert (HN : forall w o w', sys_shutdown c w = (o, w') -> o <> Panicked).
  { intros w0 o0 w0' H0. destruct (shutdown_spec 0 c w0 o0 w0' H0) as (es & _ & [[-> _]|(r & a & k & -> & _)]); discriminate. }
  destruct (sys_shutdown c w) as [[?| |] w2] eqn:E2; try discriminate; [|eapply HN; [exact E2|reflexivity]].
  destruct (sys_shutdown c w2) as [[?| |] w3] eqn:E3; try discriminate; [|eapply HN; [exact E3|reflexivity]].
  destruct (close_spec 0 c w3 _ _ E) as (es & _ & [[H0 _]|(r0 & ? & k & H0 & _)]); discriminate.
Qed.
