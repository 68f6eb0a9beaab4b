(** Facts about the plugin of the documentation. *)
From Coq Require Import Lia.
From Verif Require Import Base Num Path Options World Sys Io Env Core Spec TraceSpec SessionSpec CallbackSpec
  RunProofs IoProofs FailFacts RequestProofs PairPure OpenFacts SessionFacts CallbackFacts OutputFacts Frontend FrontSpec FrontFacts DocExample DocSpec.
Local Open Scope Z_scope.

(** [evs] prints [text] at level 4, and nothing else is done. *)
Definition Says (printf : bool) (text : bytes) (evs : list event) : Prop :=
  Only (fun x => exists d, x = CPrintf 4 d) evs
  /\ (HonestPrintf evs -> printf = true -> ~ Exists Failed evs -> printed 4 evs = text).

Lemma Says_nil printf : Says printf [] [].
Proof. split; [apply Only_nil|reflexivity]. Qed.
Lemma Honest_app a b : HonestPrintf (a ++ b) <-> HonestPrintf a /\ HonestPrintf b.
Proof. apply Forall_app. Qed.
Lemma Says_app printf x y a b : Says printf x a -> Says printf y b -> Says printf (x ++ y) (a ++ b).
Proof.
  intros [A1 A2] [B1 B2]. split; [apply Only_app; auto|]. intros H P F. apply Honest_app in H as [H1 H2].
  rewrite printed_app, A2, B2; try assumption; try reflexivity; intros X; apply F; apply Exists_app; auto.
Qed.

Definition Prints (evs : list event) : Prop := Only (fun x => exists d, x = CPrintf 4 d) evs.

Lemma say_yields printf e line : en_stdout e = mkPf printf LEVEL_INFO (B "example: ") -> has_nul (line ++ newline) = false ->
  yields 0 (say e line) (fun o es => Prints es /\ match o with
    | Done _ => Says printf (line ++ newline) es
    | Panicked => ~ HonestPrintf es
    | Stopped => True end).
Proof.
  intros HE HN. unfold say. rewrite HE. set (pf := mkPf printf LEVEL_INFO (B "example: ")).
  assert (HC : forall o es, printed_all pf (line ++ newline) o es -> Prints es) by (intros o es H; exact (printed_all_calls _ _ _ _ H)).
  eapply yields_seq with (Q := fun o es => printed_all pf (line ++ newline) o es
    /\ (printf = true -> match o with Done (Err _) => Exists Failed es | _ => True end)).
  - destruct printf.
    + eapply yields_weaken; [apply yields_and; [apply pf_write_all_yields|apply (pf_write_all_fail 0 pf (line ++ newline)); [reflexivity|exact HN]]|].
      intros o es [H1 H2]. split; [exact H1|]. intros _. destruct o as [[?|?]| |]; exact H2.
    + eapply yields_weaken; [apply pf_write_all_yields|]. intros o es H. split; [exact H|discriminate].
  - intros r es [H1 H2]. apply yields_ret'. rewrite app_nil_r. split; [exact (HC _ _ H1)|]. split; [exact (HC _ _ H1)|].
    intros HH HP HF. destruct H1 as [_ H1]. destruct r as [[]|er]; [exact H1|].
    exfalso. apply HF. exact (H2 HP).
  - intros es [H _]. split; [exact (HC _ _ H)|]. destruct H as [_ H]. exact H.
  - intros es [H _]. split; [exact (HC _ _ H)|exact I].
Qed.

Section Session.
Variables (pl : platform) (a : open_args) (rq : request).
Let P := Example_plugin.

Definition Live (e : io_env) : Prop := Matches e rq /\ en_stdout e = mkPf (rq_printf rq) LEVEL_INFO (B "example: ").

Lemma log_yields e s d : Live e ->
  yields 0 (core_log P pl s d (@mkPstate P (Some e) (Some e))) (fun o es => Prints es /\ match o with
    | Done z => z = 0 /\ ~ HonestPrintf es \/ z = 1 /\ Says (rq_printf rq) (heard rq (Moved s d)) es
    | Panicked => False
    | Stopped => True end).
Proof.
  intros [M HE].
  assert (K : rq_log rq s = false \/ s <> Stdout -> heard rq (Moved s d) = []).
  { intros K. destruct s; cbn [heard]; try reflexivity. destruct K as [->|K]; [reflexivity|congruence]. }
  assert (Q : heard rq (Moved s d) = [] -> yields 0 (ret 1) (fun o es => Prints es /\ match o with
    | Done z => z = 0 /\ ~ HonestPrintf es \/ z = 1 /\ Says (rq_printf rq) (heard rq (Moved s d)) es
    | Panicked => False
    | Stopped => True end)).
  { intros ->. apply yields_ret'. split; [apply Only_nil|]. right. split; [reflexivity|apply Says_nil]. }
  unfold core_log. cbn [st_env st_plugin].
  rewrite (m_log _ _ M). change (pg_ignore_hints P) with false.
  destruct (rq_log rq s) eqn:L.
  - assert (S : s = Stdout \/ s <> Stdout) by (destruct s; auto; right; discriminate). destruct S as [->|S].
    2: { assert (X : pg_log P pl s e d = ret (Ok tt)) by (destruct s; try reflexivity; congruence). rewrite X. exact (Q (K (or_intror S))). }
    cbn [heard]. rewrite L. cbn [negb andb orb].
    eapply yields_weaken.
    + apply yields_catch_log. unfold report. cbn [pg_log P Example_plugin].
      instantiate (1 := fun o es => Prints es /\ match o with
        | Done z => z = 1 /\ Says (rq_printf rq) (B "example sudo plugin received output on stdout" ++ newline) es
        | Panicked => ~ HonestPrintf es
        | Stopped => True end).
      eapply yields_seq with (Q := fun o es => Prints es /\ match o with
        | Done r => r = Ok tt /\ Says (rq_printf rq) (B "example sudo plugin received output on stdout" ++ newline) es
        | Panicked => ~ HonestPrintf es
        | Stopped => True end).
      * eapply yields_seq; [apply say_yields; [exact HE|reflexivity]| | |]; try (intros es H; exact H).
        intros r es [H1 H2]. apply yields_ret'. rewrite app_nil_r. auto.
      * intros r es (H1 & -> & H). apply yields_ret'. rewrite app_nil_r. auto.
      * intros es H. exact H.
      * intros es H. exact H.
    + intros [z| |] es H; [destruct H as [(H1 & -> & H)|[-> [H1 H]]]; auto|contradiction|exact H].
  - exact (Q (K (or_introl eq_refl))).
Qed.

Lemma step_yields e ev f : Live e -> f_live f = true -> f_off f = [] -> f_state f = @mkPstate P (Some e) (Some e) ->
  yields 0 (front_step (exported P pl) ev f) (fun o es => Prints es /\ match o with
    | Done f' => f_live f' = false /\ ~ HonestPrintf es \/ f' = pass ev f /\ Says (rq_printf rq) (heard rq ev) es
    | Panicked => False
    | Stopped => True end).
Proof.
  intros HL F1 F2 F3. unfold front_step. rewrite F1, F2, F3. cbn [negb].
  destruct ev as [s d|l c|n].
  - assert (K : asked (exported P pl) (Moved s d) = Some (core_log P pl s d)) by (destruct s; reflexivity). rewrite K.
    destruct (in_dec slot_eq_dec (slot_of (Moved s d)) []) as [[]|_].
    eapply yields_seq; [apply log_yields; exact HL| | |].
    + intros z es [H0 [[-> N]|[-> H]]]; cbn [Z.eqb Pos.eqb]; apply yields_ret'; rewrite app_nil_r; (split; [exact H0|auto]).
    + intros es H. exact H.
    + intros es H. exact H.
  - destruct (in_dec slot_eq_dec (slot_of (Resized l c)) []) as [[]|_].
    intros w o w' H. cbn in H. injection H as <- <-. exists []. split; [apply Ran_refl|]. split; [apply Only_nil|]. right. split; [reflexivity|apply Says_nil].
  - cbn [asked exported t_log_suspend option_map empty_table]. apply yields_ret'. split; [apply Only_nil|]. right. split; [reflexivity|apply Says_nil].
Qed.

Lemma dead_steps (f : front P) h : f_live f = false -> front_steps (exported P pl) h f = ret f \/ forall w, front_steps (exported P pl) h f w = ret f w.
Proof.
  intros HF. right. intros w. induction h as [|ev h IH]; [reflexivity|]. cbn [front_steps]. unfold front_step, bind. rewrite HF. cbn [negb ret]. exact IH.
Qed.

Lemma steps_yields e h : Live e -> forall f, f_live f = true -> f_off f = [] -> f_state f = @mkPstate P (Some e) (Some e) ->
  yields 0 (front_steps (exported P pl) h f) (fun o es => Prints es /\ match o with
    | Done f' => f_live f' = false /\ ~ HonestPrintf es \/ f' = mkFront (f_state f) [] (f_given f ++ flat_map data_of h) true
                                    /\ Says (rq_printf rq) (flat_map (heard rq) h) es
    | Panicked => False
    | Stopped => True end).
Proof.
  intros HL. induction h as [|ev h IH]; intros f F1 F2 F3; cbn [front_steps flat_map].
  - apply yields_ret'. split; [apply Only_nil|]. right. split; [|apply Says_nil]. rewrite app_nil_r, <- F2, <- F1. destruct f. reflexivity.
  - eapply yields_seq; [eapply step_yields; eassumption| | |].
    + intros f' es [H0 [[L N]|[-> H]]].
      * destruct (dead_steps f' h L) as [E|E].
        -- rewrite E. apply yields_ret'. rewrite app_nil_r. auto.
        -- intros w o w' HR. rewrite E in HR. injection HR as <- <-. exists []. rewrite app_nil_r. split; [apply Ran_refl|auto].
      * eapply yields_weaken; [eapply IH; destruct ev; eassumption|]. intros o es' [K0 K].
        split; [apply Only_app; auto|].
        destruct o as [f'| |]; [|exact K|exact I].
        destruct K as [[L N]|[-> K]]; [left; split; [exact L|intros X; apply N; apply Honest_app in X; tauto]|]. right.
        split; [|apply Says_app; assumption]. destruct ev; cbn; rewrite <- ?app_assoc; reflexivity.
    + intros es [_ []].
    + intros es H. exact H.
Qed.
End Session.

Lemma example_open pl a rq : Describes pl a rq -> rq_command rq <> [] -> ~ MasklessAddr pl (oa_settings a) ->
  exists e, Live rq e /\ yields 0 (core_open Example_plugin pl a (pstate0 Example_plugin)) (fun o es => Prints es /\ match o with
    | Done (z, st) => z = -1 /\ ~ HonestPrintf es
        \/ z = 1 /\ st = @mkPstate Example_plugin (Some e) (Some e) /\ Says (rq_printf rq) (B "example sudo plugin initialized" ++ [x0a]) es
    | Panicked => False
    | Stopped => True end).
Proof.
  intros D NC NM.
  destruct (io_env_new pl (pg_name Example_plugin) (pg_version Example_plugin) a) as [[e|er]|] eqn:E.
  2: { exfalso. eapply io_env_new_not_Err; eassumption. }
  2: { exfalso. apply NM. eapply io_env_new_None. exact E. }
  pose proof (env_Matches _ _ _ _ _ _ D E) as M. exists e.
  assert (HE : en_stdout e = mkPf (rq_printf rq) LEVEL_INFO (B "example: ")).
  { destruct (env_printf _ _ _ _ _ E) as [_ X]. pose proof (m_printf_out _ _ M) as Y. rewrite X in *. cbn in Y. rewrite <- Y. reflexivity. }
  split; [split; assumption|].
  assert (Hc : path_eqb (ci_command (en_command_info e)) [] = false).
  { rewrite (m_command _ _ M). destruct (path_eqb (rq_command rq) []) eqn:X; [|reflexivity].
    exfalso. apply NC. apply path_eqb_nil. exact X. }
  unfold core_open. destruct (pf_new (Some (pg_name Example_plugin)) (oa_printf a)) as [x stderr].
  rewrite E. cbn [pstate0 st_env st_plugin]. rewrite Hc. cbn [pg_open Example_plugin].
  assert (HS : yields 0 (say e (B "example sudo plugin initialized") ;;; ret (Ok e)) (fun (o : outcome (result io_env error)) es => Prints es /\ match o with
        | Done r => r = Ok e /\ Says (rq_printf rq) (B "example sudo plugin initialized" ++ newline) es
        | Panicked => ~ HonestPrintf es
        | Stopped => True end)).
  { eapply yields_seq; [apply say_yields; [exact HE|reflexivity]| | |].
    - intros [] es H. apply yields_ret'. rewrite app_nil_r. tauto.
    - intros es H. exact H.
    - intros es H. exact H. }
  eapply yields_seq; [apply yields_catch; eapply yields_seq with (R := fun (o : outcome (result io_env Z)) es => Prints es /\ match o with
        | Done r => r = Ok e /\ Says (rq_printf rq) (B "example sudo plugin initialized" ++ newline) es
        | Panicked => ~ HonestPrintf es
        | Stopped => True end); [exact HS| | |]| | |].
  { intros r es (H0 & -> & H). apply yields_ret'. rewrite app_nil_r. auto. }
  { intros es H. exact H. }
  { intros es H. exact H. }
  - intros [r|] es H.
    + destruct H as (H0 & -> & H). apply yields_ret'. rewrite app_nil_r. auto.
    + destruct H as (H0 & H). apply yields_ret'. rewrite app_nil_r. auto.
  - intros es [].
  - intros es H. exact H.
Qed.

(** A whole session. *)
Lemma example_run pl a rq h w o w' evs : Describes pl a rq -> rq_command rq <> [] -> ~ MasklessAddr pl (oa_settings a) ->
  front_run (exported Example_plugin pl) a h w = (o, w') -> w_trace w' = w_trace w ++ evs ->
  Prints evs /\
  (HonestPrintf evs -> o = Stopped \/ exists f, o = Done (Some f) /\ f_live f = true /\ f_off f = []
    /\ f_given f = flat_map data_of h
    /\ (exists e, Live rq e /\ f_state f = @mkPstate Example_plugin (Some e) (Some e))
    /\ (rq_printf rq = true -> ~ Exists Failed evs ->
        printed 4 evs = B "example sudo plugin initialized" ++ [x0a] ++ flat_map (heard rq) h)).
Proof.
  intros D NC NM H T. destruct (example_open pl a rq D NC NM) as (e & HL & HO).
  assert (Y : yields 0 (front_run (exported Example_plugin pl) a h) (fun o es => Prints es /\ match o with
    | Done None => ~ HonestPrintf es
    | Done (Some f) => ~ HonestPrintf es \/ f = mkFront (@mkPstate Example_plugin (Some e) (Some e)) [] (flat_map data_of h) true
        /\ Says (rq_printf rq) ((B "example sudo plugin initialized" ++ [x0a]) ++ flat_map (heard rq) h) es
    | Panicked => False
    | Stopped => True end)).
  { unfold front_run. cbn [exported t_open]. eapply yields_seq; [exact HO| | |].
    - intros [z st] es [H0 [[-> N]|(-> & -> & HS)]]; cbn [Z.eqb Pos.eqb].
      + apply yields_ret'. rewrite app_nil_r. auto.
      + eapply yields_seq; [apply (steps_yields pl rq e h HL); reflexivity| | |].
        * intros f es' [K0 K]. apply yields_ret'. rewrite app_nil_r. split; [apply Only_app; auto|].
          destruct K as [[_ N]|[-> K]]; [left; intros X; apply N; apply Honest_app in X; tauto|]. right.
          split; [reflexivity|]. apply Says_app; assumption.
        * intros es' [_ []].
        * intros es' [K0 _]. split; [apply Only_app; auto|exact I].
    - intros es [_ []].
    - intros es HH. exact HH. }
  destruct (Y w o w' H) as (evs' & R & Q0 & Q). rewrite (Ran_given _ _ _ _ _ R T). split; [exact Q0|]. intros HH.
  destruct o as [[f|]| |]; [|contradiction|contradiction|auto]. right. exists f.
  destruct Q as [Q|[-> Q]]; [contradiction|]. repeat (split; [reflexivity|]). split; [exists e; auto|].
  intros HP HF. rewrite (proj2 Q HH HP HF), <- app_assoc. reflexivity.
Qed.

Lemma example_close pl rq e z err w o w' evs f : Live rq e -> f_state f = @mkPstate Example_plugin (Some e) (Some e) ->
  front_close (exported Example_plugin pl) z err f w = (o, w') -> w_trace w' = w_trace w ++ evs ->
  Prints evs /\
  (HonestPrintf evs -> o = Stopped \/ o = Done (pstate0 Example_plugin)
    /\ (rq_printf rq = true -> ~ Exists Failed evs -> printed 4 evs = B "example sudo plugin exited" ++ [x0a])).
Proof.
  intros [M HE] HF H T.
  assert (Y : yields 0 (front_close (exported Example_plugin pl) z err f) (fun o es => Prints es /\ match o with
    | Done st => ~ HonestPrintf es \/ st = pstate0 Example_plugin
        /\ Says (rq_printf rq) (B "example sudo plugin exited" ++ [x0a]) es
    | Panicked => False
    | Stopped => True end)).
  { unfold front_close. cbn [exported t_close]. rewrite HF. unfold core_close. cbn [st_plugin st_env pg_close Example_plugin].
    eapply yields_seq; [apply yields_catch; apply say_yields; [exact HE|reflexivity]| | |].
    - intros [r|] es [H0 H1]; apply yields_ret'; rewrite app_nil_r; split; auto.
    - intros es [].
    - intros es HH. exact HH. }
  destruct (Y w o w' H) as (evs' & R & Q0 & Q). rewrite (Ran_given _ _ _ _ _ R T). split; [exact Q0|]. intros HH.
  destruct o as [st| |]; [|contradiction|auto]. right. destruct Q as [Q|[-> Q]]; [contradiction|]. split; [reflexivity|].
  exact (proj2 Q HH).
Qed.

Lemma example_run_close pl a rq h f w w1 evs1 z err o w2 evs2 :
  Describes pl a rq -> rq_command rq <> [] -> ~ MasklessAddr pl (oa_settings a) ->
  front_run (exported Example_plugin pl) a h w = (Done (Some f), w1) -> w_trace w1 = w_trace w ++ evs1 -> HonestPrintf evs1 ->
  front_close (exported Example_plugin pl) z err f w1 = (o, w2) -> w_trace w2 = w_trace w1 ++ evs2 ->
  Prints evs2 /\
  (HonestPrintf evs2 -> o = Stopped \/ o = Done (pstate0 Example_plugin)
    /\ (rq_printf rq = true -> ~ Exists Failed evs2 -> printed 4 evs2 = B "example sudo plugin exited" ++ [x0a])).
Proof.
  intros D NC NM H1 T1 HH H2 T2.
  destruct (example_run pl a rq h w _ w1 evs1 D NC NM H1 T1) as [_ X]. destruct (X HH) as [X'|(f' & E & _ & _ & _ & (e & L & S) & _)]; [discriminate|].
  injection E as <-. exact (example_close pl rq e z err w1 o w2 evs2 f L S H2 T2).
Qed.

Lemma example_run_short pl a rq h w o w' evs : Describes pl a rq -> rq_command rq <> [] -> ~ MasklessAddr pl (oa_settings a) ->
  front_run (exported Example_plugin pl) a h w = (o, w') -> w_trace w' = w_trace w ++ evs ->
  Only (fun x => exists d, x = CPrintf 4 d) evs /\
  (HonestPrintf evs -> o = Stopped \/ exists f, o = Done (Some f) /\ f_live f = true /\ f_off f = []
    /\ f_given f = flat_map data_of h
    /\ (rq_printf rq = true -> ~ Exists Failed evs ->
        printed 4 evs = B "example sudo plugin initialized" ++ [x0a] ++ flat_map (heard rq) h)).
Proof.
  intros D NC NM H T. destruct (example_run pl a rq h w o w' evs D NC NM H T) as [A X]. split; [exact A|]. intros HH.
  destruct (X HH) as [E|(f & E & F1 & F2 & F3 & _ & F4)]; [auto|]. right. exists f. auto.
Qed.
