(** Sessions as the front end runs them. *)
From Verif Require Import Base BaseLemmas Num Path Version Template Options World Sys Io Socket Env Core Pair
  Spec TraceSpec SessionSpec CallbackSpec NumProofs RequestProofs PairPure RunProofs IoProofs SocketProofs FailFacts
  PairProofs OpenFacts AskFacts SessionFacts CallbackFacts HistoryFacts Frontend FrontSpec.
From Coq Require Import Lia.
Local Open Scope Z_scope.

(** *** Any plugin *)
Lemma table_slots P pl :
  t_type (exported P pl) = 2 /\ t_version (exported P pl) = 65553
  /\ t_register_hooks (exported P pl) = None /\ t_deregister_hooks (exported P pl) = None
  /\ t_log_suspend (exported P pl) = None /\ t_event_alloc (exported P pl) = None
  /\ t_open (exported P pl) <> None /\ t_close (exported P pl) <> None /\ t_show_version (exported P pl) <> None
  /\ (forall ev, (exists n, ev = Suspended n) \/ asked (exported P pl) ev <> None).
Proof.
  repeat split; try discriminate. intros [[] d|l c|n]; try (right; discriminate). left. eauto.
Qed.

Lemma any_open P pl a rq open : Describes pl a rq -> rq_command rq <> [] -> ~ MasklessAddr pl (oa_settings a) ->
  t_open (exported P pl) = Some open ->
  exists e, Matches e rq /\ forall w w2,
    (forall p, pg_open P pl e w = (Done (Ok p), w2) -> open a (pstate0 P) w = (Done (1, mkPstate (Some e) (Some p)), w2))
    /\ (pg_open P pl e w = (Panicked, w2) -> open a (pstate0 P) w = (Done (-1, mkPstate (Some e) None), w2))
    /\ (pg_open P pl e w = (Stopped, w2) -> open a (pstate0 P) w = (Stopped, w2)).
Proof.
  intros D NC NM HO. cbn [exported t_open] in HO. injection HO as <-.
  destruct (io_env_new pl (pg_name P) (pg_version P) a) as [[e|er]|] eqn:E.
  2: { exfalso. eapply io_env_new_not_Err; eassumption. }
  2: { exfalso. apply NM. eapply io_env_new_None. exact E. }
  pose proof (env_Matches _ _ _ _ _ _ D E) as M. exists e. split; [exact M|]. intros w w2.
  assert (Hc : path_eqb (ci_command (en_command_info e)) [] = false).
  { rewrite (m_command _ _ M). destruct (path_eqb (rq_command rq) []) eqn:X; [|reflexivity].
    exfalso. apply NC. apply path_eqb_nil. exact X. }
  unfold core_open. destruct (pf_new (Some (pg_name P)) (oa_printf a)) as [x stderr].
  rewrite E. cbn [pstate0 st_env st_plugin]. rewrite Hc. unfold catch, bind.
  split; [intros p ->; reflexivity|]. split; intros ->; reflexivity.
Qed.

Lemma any_asked P pl a rq st p w w' open : Describes pl a rq -> t_open (exported P pl) = Some open ->
  open a (pstate0 P) w = (Done (1, st), w') -> st_plugin st = Some p -> forall ev ask,
  asked (exported P pl) ev = Some ask -> forall w1,
  match ev with
  | Moved s d => rq_log rq s = false /\ pg_ignore_hints P = false -> ask st w1 = (Done 1, w1)
  | _ => True
  end
  /\ forall m, match ev with
     | Moved s d => (rq_log rq s = true \/ pg_ignore_hints P = true) /\ m = pg_log P pl s p d
     | Resized l c => m = pg_winsize P pl p l c
     | Suspended _ => False
     end -> forall w2,
     (m w1 = (Done (Ok tt), w2) -> ask st w1 = (Done 1, w2))
     /\ (m w1 = (Panicked, w2) -> ask st w1 = (Done 0, w2))
     /\ (m w1 = (Stopped, w2) -> ask st w1 = (Stopped, w2)).
Proof.
  intros D HO H Hp ev ask HA w1. cbn [exported t_open] in HO. injection HO as <-.
  destruct ev as [s d|l c|n].
  - assert (X : ask = core_log P pl s d) by (destruct s; cbn in HA; injection HA as <-; reflexivity). subst ask.
    destruct (hints_decide P pl a rq st p w w' D H Hp s d w1) as [H1 H2]. split.
    + intros [A B]. exact (H1 A B).
    + intros m [HH ->] w2. exact (H2 HH w2).
  - cbn in HA. injection HA as <-. split; [exact I|]. intros m -> w2.
    destruct (opened_any P pl a rq st p w w' D H Hp) as (e & He & M).
    unfold core_change_winsize. rewrite He, Hp. unfold report, catch_log, catch, bind.
    split; [|split]; intros ->; reflexivity.
  - discriminate HA.
Qed.

Lemma any_close P pl st p close x err w w2 : st_plugin st = Some p -> t_close (exported P pl) = Some close ->
  (pg_close P p x err w = (Done tt, w2) -> close x err st w = (Done (pstate0 P), w2))
  /\ (pg_close P p x err w = (Panicked, w2) -> close x err st w = (Done (mkPstate (st_env st) None), w2))
  /\ (pg_close P p x err w = (Stopped, w2) -> close x err st w = (Stopped, w2)).
Proof.
  intros Hp HC. cbn [exported t_close] in HC. injection HC as <-. unfold core_close. rewrite Hp. unfold catch, bind.
  split; [|split]; intros ->; reflexivity.
Qed.

(** *** Paired sessions *)
Lemma Mirrors_Shows rq ev cb out : Mirrors rq cb out ->
  match ev with Moved s d => cb = CbLog s d | Resized l c => cb = CbWinsize l c | Suspended _ => False end ->
  Shows rq ev out.
Proof.
  intros H HE. destruct ev; [| |contradiction]; subst cb; inversion H; subst; constructor; assumption.
Qed.

Lemma step_paired pl a rq st c ev g w o w' : PairedSession pl a rq st c ->
  front_step (exported SudoPair pl) ev (mkFront st [] g true) w = (o, w') ->
  exists es, Ran 0 w es w' /\
    match o with
    | Done f => (f = mkFront st [] (g ++ data_of ev) true /\ Shows rq ev (delivered c es)
                 /\ (rq_log rq Stdin = true -> forall d, ev <> Moved Stdin d))
                \/ (f = mkFront st [] g false /\ exists out, Shows rq ev out /\ Prefix (delivered c es) out)
    | Panicked => False
    | Stopped => True
    end.
Proof.
  intros HP H. pose proof HP as HP0. pose proof HP as (_ & NE & _). apply paired_state in HP as (e & M & HE & Hst).
  assert (K : forall cb m, InSession cb ->
    match ev with Moved s d => cb = CbLog s d | Resized l k => cb = CbWinsize l k | Suspended _ => False end ->
    asked (exported SudoPair pl) ev = Some m ->
    (forall w0, run_callback SudoPair pl cb st w0 = (bind (m st) (fun z => ret (z, st))) w0) ->
    (forall d z es, ev = Moved Stdin d -> rq_log rq Stdin = true -> forall w1, m st w = (Done z, w1) -> Ran 0 w es w1 -> z = 0) ->
    exists es, Ran 0 w es w' /\ match o with
    | Done f => (f = mkFront st [] (g ++ data_of ev) true /\ Shows rq ev (delivered c es)
                 /\ (rq_log rq Stdin = true -> forall d, ev <> Moved Stdin d))
                \/ (f = mkFront st [] g false /\ exists out, Shows rq ev out /\ Prefix (delivered c es) out)
    | Panicked => False | Stopped => True end).
  { intros cb m Hcb Hev HA HR Hin.
    pose proof (callback_yields pl a rq e c cb M NE HE Hcb) as Y. rewrite <- Hst in Y.
    unfold front_step in H. cbn [f_live negb] in H. rewrite HA in H.
    destruct (in_dec slot_eq_dec (slot_of ev) (f_off (mkFront st [] g true))) as [[]|_].
    cbn [f_state f_off f_given f_live] in H. specialize (HR w). unfold bind in H, HR.
    destruct (m st w) as [[z| |] w1] eqn:Em.
    - cbn [ret] in HR. destruct (Y w _ _ HR) as (es & R & _ & out & HM & Hz).
      pose proof (Mirrors_Shows rq ev cb out HM Hev) as HS.
      assert (HZ : z = 1 \/ z = 0).
      { pose proof (callback_documented SudoPair pl cb st w _ _ SudoPair_statuses HR) as HZ. cbn beta iota in HZ.
        destruct ev; try contradiction; subst cb; exact HZ. }
      destruct HZ as [->| ->].
      + change (1 =? 1) with true in H. unfold ret in H. injection H as <- <-. destruct Hz as [[_ Hz]|[Hz _]]; [|contradiction].
        exists es. split; [exact R|]. left.
        split; [destruct ev; cbn [pass data_of f_state f_off f_given f_live]; rewrite ?app_nil_r; reflexivity|].
        split; [rewrite Hz; exact HS|].
        intros HL d HD. discriminate (Hin d 1 es HD HL w1 eq_refl R).
      + change (0 =? 1) with false in H. change (0 =? -1) with false in H. unfold ret in H. injection H as <- <-.
        exists es. split; [exact R|]. right.
        split; [reflexivity|]. exists out. split; [exact HS|]. destruct Hz as [[Hz _]|[_ Hz]]; [discriminate Hz|exact Hz].
    - destruct (Y w _ _ HR) as (es & _ & F). destruct F.
    - destruct (Y w _ _ HR) as (es & R & _). injection H as <- <-. exists es. split; [exact R|exact I]. }
  destruct ev as [s d|l k|n].
  - refine (K (CbLog s d) (core_log SudoPair pl s d) I eq_refl _ _ _).
    + destruct s; reflexivity.
    + intros w0. reflexivity.
    + intros d' z es HD HL w1 Hm HR. injection HD as -> ->.
      destruct (stdin_refused pl a rq st c d' w (Done z) w1 es HP0 HL Hm (Ran_trace _ _ _ _ HR)) as (_ & [X|X] & _); congruence.
  - refine (K (CbWinsize l k) (core_change_winsize SudoPair pl l k) I eq_refl eq_refl _ _).
    + intros w0. reflexivity.
    + intros d' z es HD. discriminate HD.
  - cbn in H. injection H as <- <-. exists []. split; [apply Ran_refl|]. left. cbn [data_of].
    rewrite app_nil_r. split; [reflexivity|]. split; [constructor|]. intros _ d HD. discriminate HD.
Qed.

Lemma steps_dead {P} (T : io_table P) h f w : f_live f = false -> front_steps T h f w = (Done f, w).
Proof.
  intros HL. induction h as [|ev h IH]; [reflexivity|]. cbn [front_steps]. unfold bind, front_step. rewrite HL. exact IH.
Qed.

Lemma Prefix_refl' (b : bytes) : Prefix b b.
Proof. exists []. symmetry. apply app_nil_r. Qed.

Lemma steps_paired pl a rq st c h : PairedSession pl a rq st c -> forall g w o w',
  front_steps (exported SudoPair pl) h (mkFront st [] g true) w = (o, w') ->
  exists es, Ran 0 w es w' /\
    match o with
    | Done f => f_state f = st /\ f_off f = [] /\ exists g', f_given f = g ++ g'
        /\ Watched rq h (mkFront st [] g' (f_live f)) (delivered c es)
    | Panicked => False
    | Stopped => True
    end.
Proof.
  intros HP. induction h as [|ev h IH]; intros g w o w' H.
  - cbn in H. injection H as <- <-. exists []. split; [apply Ran_refl|]. split; [reflexivity|]. split; [reflexivity|].
    exists []. split; [symmetry; apply app_nil_r|]. exists [], [], [], []. repeat split; auto.
  - cbn [front_steps] in H. unfold bind in H.
    destruct (front_step (exported SudoPair pl) ev (mkFront st [] g true) w) as [[f1| |] w1] eqn:E.
    + destruct (step_paired pl a rq st c ev g w _ w1 HP E) as (es & R & [(Hf & HS & HI)|(Hf & out & HS & HX)]).
      * subst f1. destruct (IH _ _ _ _ H) as (es2 & R2 & Q). exists (es ++ es2). split; [eapply Ran_trans; eassumption|].
        destruct o as [f| |]; [|exact Q|exact I]. destruct Q as (Q1 & Q2 & g' & Q3 & past & rest & outs & tail & W1 & W2 & W3 & W4 & W5 & W6).
        split; [exact Q1|]. split; [exact Q2|]. exists (data_of ev ++ g'). split; [rewrite Q3, <- app_assoc; reflexivity|].
        exists (ev :: past), rest, (delivered c es :: outs), tail. cbn [f_given f_live] in *.
        split; [rewrite W1; reflexivity|]. split; [cbn [flat_map]; rewrite <- W2; reflexivity|].
        split; [constructor; assumption|]. split; [rewrite delivered_app, W4; cbn [List.concat]; rewrite <- app_assoc; reflexivity|].
        split; [|exact W6]. intros HL d [HD|HD]; [exact (HI HL d HD)|exact (W5 HL d HD)].
      * subst f1. rewrite steps_dead in H by reflexivity. injection H as <- <-. exists es. split; [exact R|].
        split; [reflexivity|]. split; [reflexivity|]. exists []. split; [symmetry; apply app_nil_r|].
        exists [], (ev :: h), [], (delivered c es). repeat split; auto. right. split; [reflexivity|]. exists ev, h, out. auto.
    + destruct (step_paired pl a rq st c ev g w _ w1 HP E) as (es & R & F). destruct F.
    + destruct (step_paired pl a rq st c ev g w _ w1 HP E) as (es & R & _). injection H as <- <-. exists es. auto.
Qed.

Lemma front_paired pl a rq h w o w' evs : Describes pl a rq -> ~ Exempt rq -> rq_command rq <> [] ->
  front_run (exported SudoPair pl) a h w = (o, w') -> w_trace w' = w_trace w ++ evs ->
  match o with
  | Done (Some f) => f_off f = [] /\ exists c asking after, evs = asking ++ after /\ Approved rq c asking
      /\ PairedSession pl a rq (f_state f) c /\ Watched rq h f (delivered c after)
  | Panicked => False
  | _ => True
  end.
Proof.
  intros D NE NC H T. unfold front_run in H. cbn [exported t_open] in H. unfold bind in H.
  destruct (core_open SudoPair pl a (pstate0 SudoPair) w) as [[[z st]| |] w1] eqn:E.
  - destruct (opened pl a rq D w _ w1 E) as (eo & R & _).
    destruct (open_codes pl a rq D w z st w1 E) as [->| ->].
    + change (1 =? 1) with true in H. cbv beta iota in H. pose proof (approval_needed pl a rq w st w1 eo D NE NC E (Ran_trace _ _ _ _ R)) as [c A].
      assert (HP : PairedSession pl a rq st c).
      { split; [exact D|]. split; [exact NE|]. split; [exact NC|]. exists w, w1, eo. split; [exact E|]. split; [exact (Ran_trace _ _ _ _ R)|exact A]. }
      destruct (front_steps (exported SudoPair pl) h (mkFront st [] [] true) w1) as [[f| |] w2] eqn:F.
      * unfold ret in H. cbv beta iota in H. destruct (steps_paired pl a rq st c h HP [] w1 _ w2 F) as (es & R2 & Hst & Hoff & g & Hg & W).
        assert (HO : o = Done (Some f) /\ w' = w2) by (split; injection H; auto). destruct HO as [-> ->].
        split; [exact Hoff|]. exists c, eo, es.
        split. { rewrite (Ran_trace _ _ _ _ R2), (Ran_trace _ _ _ _ R), <- app_assoc in T. symmetry. exact (app_inv_head _ _ _ T). }
        split; [exact A|].
        split; [rewrite Hst; exact HP|]. cbn [app] in Hg. unfold Watched in *. cbn [f_given f_live] in W. rewrite Hg. exact W.
      * destruct (steps_paired pl a rq st c h HP [] w1 _ w2 F) as (es & _ & K). destruct K.
      * assert (HO : o = Stopped) by (cbv beta iota in H; congruence). rewrite HO. exact I.
    + change (-1 =? 1) with false in H. change (-1 =? 0) with false in H. assert (HO : o = Done None) by (unfold ret in H; cbv beta iota in H; congruence). rewrite HO. exact I.
  - exfalso. exact (callback_documented SudoPair pl (CbOpen a) (pstate0 _) w _ _ SudoPair_statuses E).
  - assert (HO : o = Stopped) by (cbv beta iota in H; congruence). rewrite HO. exact I.
Qed.

Lemma front_closed pl a rq f c x err w o w' evs : PairedSession pl a rq (f_state f) c ->
  front_close (exported SudoPair pl) x err f w = (o, w') -> w_trace w' = w_trace w ++ evs ->
  o = Stopped \/ (o = Done (pstate0 _) /\ ~ In c (k_open (w_k w'))).
Proof.
  intros HP H T. destruct (paired_close_gone pl a rq _ c x err w o w' evs HP H T) as [[-> _]|(-> & G & _)]; auto.
Qed.

Lemma steps_exempt pl e h : is_exempt (pair0 e) pl = Some true -> forall g w,
  front_steps (exported SudoPair pl) h (mkFront (ps e (Some (pair0 e))) [] g true) w
  = (Done (mkFront (ps e (Some (pair0 e))) [] (g ++ flat_map data_of h) true), w).
Proof.
  intros X. induction h as [|ev h IH]; intros g w; [cbn; rewrite app_nil_r; reflexivity|].
  cbn [front_steps].
  assert (S : front_step (exported SudoPair pl) ev (mkFront (ps e (Some (pair0 e))) [] g true) w
              = (Done (mkFront (ps e (Some (pair0 e))) [] (g ++ data_of ev) true), w)).
  { unfold front_step. cbn [f_live negb].
    assert (K : forall cb m, OutputCallback cb -> asked (exported SudoPair pl) ev = Some m ->
      (forall w0, run_callback SudoPair pl cb (ps e (Some (pair0 e))) w0 = (bind (m (ps e (Some (pair0 e)))) (fun z => ret (z, (ps e (Some (pair0 e)))))) w0) ->
      m (ps e (Some (pair0 e))) w = (Done 1, w)).
    { intros cb m HC _ HR. specialize (HR w). rewrite (exempt_callback pl e w cb X HC) in HR. unfold bind in HR.
      destruct (m _ w) as [[z| |] w1]; [|discriminate HR|discriminate HR]. cbn [ret] in HR. injection HR as <- <-. reflexivity. }
    destruct ev as [s d|l k|n].
    - assert (HA : asked (exported SudoPair pl) (Moved s d) = Some (core_log SudoPair pl s d)) by (destruct s; reflexivity).
      rewrite HA. cbn [f_off f_state in_dec]. destruct (in_dec _ _ _) as [[]|_].
      rewrite (bind_Done _ _ _ _ _ (K (CbLog s d) _ I HA (fun _ => eq_refl))). reflexivity.
    - cbn [asked exported t_change_winsize option_map]. destruct (in_dec _ _ _) as [[]|_].
      cbn [f_state]. rewrite (bind_Done _ _ _ _ _ (K (CbWinsize l k) _ I eq_refl (fun _ => eq_refl))). cbn. rewrite app_nil_r. reflexivity.
    - cbn. rewrite app_nil_r. reflexivity. }
  rewrite (bind_Done _ _ _ _ _ S), IH. cbn [flat_map]. rewrite <- app_assoc. reflexivity.
Qed.

Lemma front_exempt pl a rq h w : Describes pl a rq -> rq_command rq <> [] -> Exempt rq ->
  ~ MasklessAddr pl (oa_settings a) -> pl_debug pl = false \/ Consistent rq ->
  exists f, front_run (exported SudoPair pl) a h w = (Done (Some f), w)
    /\ f_live f = true /\ f_off f = [] /\ f_given f = flat_map data_of h.
Proof.
  intros D NC HE HM HD. destruct (core_open SudoPair pl a (pstate0 _) w) as [o w'] eqn:E.
  destruct (open_exempt pl a rq D w o w' E NC HE HM HD) as (e & M & -> & ->).
  assert (X : is_exempt (pair0 e) pl = Some true).
  { destruct (is_exempt (pair0 e) pl) as [[|]|] eqn:X.
    - reflexivity.
    - apply (is_exempt_sound e rq pl M false X) in HE. discriminate.
    - apply (is_exempt_None e rq pl M) in X as [Hd Hc]. destruct HD; [congruence|contradiction]. }
  exists (mkFront (ps e (Some (pair0 e))) [] (flat_map data_of h) true). split; [|auto].
  unfold front_run. cbn [exported t_open]. rewrite (bind_Done _ _ _ _ _ E). change (1 =? 1) with true. cbv beta iota.
  rewrite (bind_Done _ _ _ _ _ (steps_exempt pl e h X [] w)). reflexivity.
Qed.

(** ** A function that is no longer called *)
Lemma slot_same ev ev' : slot_of ev = slot_of ev' <-> SameFunction ev ev'.
Proof.
  split.
  - destruct ev, ev'; cbn; intros H; try discriminate H; try constructor. injection H as <-. constructor.
  - intros H. destruct H; reflexivity.
Qed.

Lemma no_longer_called P (T : io_table P) h ev f w w' ask :
  f_live f = true -> f_off f = [] -> asked T ev = Some ask -> ask (f_state f) w = (Done (-1), w') ->
  Forall (SameFunction ev) h -> exists f', front_steps T (ev :: h) f w = (Done f', w')
  /\ f_live f' = true /\ f_state f' = f_state f /\ f_given f' = f_given f ++ flat_map data_of (ev :: h).
Proof.
  intros HL HF HA HE HS. set (f1 := pass ev (mkFront (f_state f) [slot_of ev] (f_given f) true)).
  assert (St1 : front_step T ev f w = (Done f1, w')).
  { unfold front_step. rewrite HL. cbn [negb]. rewrite HA, HF. destruct (in_dec slot_eq_dec (slot_of ev) []) as [[]|_].
    unfold bind. rewrite HE. reflexivity. }
  assert (K : forall l g w1, Forall (SameFunction ev) l -> f_live g = true -> In (slot_of ev) (f_off g) ->
    exists g', front_steps T l g w1 = (Done g', w1) /\ f_live g' = true /\ f_state g' = f_state g /\ f_given g' = f_given g ++ flat_map data_of l).
  { induction l as [|e l IH]; intros g w1 HF1 HG HI.
    - exists g. cbn. rewrite app_nil_r. auto.
    - apply Forall_cons_iff in HF1 as [He Hl]. cbn [front_steps].
      assert (St : front_step T e g w1 = (Done (pass e g), w1)).
      { unfold front_step. rewrite HG. cbn [negb]. destruct (asked T e); [|reflexivity].
        destruct (in_dec slot_eq_dec (slot_of e) (f_off g)) as [_|N]; [reflexivity|]. destruct N. apply slot_same in He. rewrite <- He. exact HI. }
      destruct (IH (pass e g) w1 Hl) as (g' & E & A & C & G).
      + destruct e; exact HG.
      + destruct e; exact HI.
      + exists g'. unfold bind. rewrite St. split; [exact E|]. split; [exact A|]. rewrite C, G.
        split; [destruct e; reflexivity|]. destruct e; cbn; rewrite <- ?app_assoc; reflexivity. }
  destruct (K h f1 w' HS) as (g' & E & A & C & G).
  - subst f1. destruct ev; reflexivity.
  - subst f1. destruct ev; cbn; auto.
  - exists g'. cbn [front_steps]. unfold bind. rewrite St1. split; [exact E|].
    split; [exact A|]. rewrite C, G. subst f1. split; [destruct ev; reflexivity|]. destruct ev; cbn; rewrite <- ?app_assoc; reflexivity.
Qed.

Lemma others_still_called P (T : io_table P) ev ev' f w w' ask ask' :
  f_live f = true -> f_off f = [] -> asked T ev = Some ask -> ask (f_state f) w = (Done (-1), w') ->
  ~ SameFunction ev ev' -> asked T ev' = Some ask' ->
  forall w2, ask' (f_state f) w' = (Done 0, w2) ->
  exists f', front_steps T [ev; ev'] f w = (Done f', w2) /\ f_live f' = false /\ f_given f' = f_given f ++ data_of ev.
Proof.
  intros HL HF HA HE HS HA' w2 HE'. set (f1 := pass ev (mkFront (f_state f) [slot_of ev] (f_given f) true)).
  assert (St1 : front_step T ev f w = (Done f1, w')).
  { unfold front_step. rewrite HL. cbn [negb]. rewrite HA, HF. destruct (in_dec slot_eq_dec (slot_of ev) []) as [[]|_].
    unfold bind. rewrite HE. reflexivity. }
  assert (L1 : f_live f1 = true) by (subst f1; destruct ev; reflexivity). assert (S1 : f_state f1 = f_state f) by (subst f1; destruct ev; reflexivity).
  assert (O1 : f_off f1 = [slot_of ev]) by (subst f1; destruct ev; reflexivity).
  assert (G1 : f_given f1 = f_given f ++ data_of ev) by (subst f1; destruct ev; cbn; rewrite ?app_nil_r; reflexivity).
  assert (St2 : front_step T ev' f1 w' = (Done (mkFront (f_state f1) (f_off f1) (f_given f1) false), w2)).
  { unfold front_step. rewrite L1. cbn [negb]. rewrite HA', O1. destruct (in_dec slot_eq_dec (slot_of ev') [slot_of ev]) as [[X|[]]|_].
    - destruct HS. apply slot_same. exact X.
    - unfold bind. rewrite S1, HE'. reflexivity. }
  eexists. cbn [front_steps]. unfold bind. rewrite St1, St2. split; [reflexivity|]. split; [reflexivity|exact G1].
Qed.
