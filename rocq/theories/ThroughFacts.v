(** Sessions that get through. *)
From Coq Require Import Lia.
From Verif Require Import Base BaseLemmas Num Path Version Options World Sys Io Socket Env Core Pair Spec TraceSpec SessionSpec CallbackSpec
  NumProofs RequestProofs RunProofs PairPure SocketProofs PairProofs OpenFacts AskFacts SessionFacts CallbackFacts HistoryFacts MiscFacts FilesFacts
  OutputFacts HonourSpec HonourFacts ForwardFacts Frontend FrontSpec FrontFacts LeaveSpec LeaveFacts ThroughSpec.
Local Open Scope Z_scope.

(** *** Why a session ends *)
Definition Broke (c : nat) (ev : event) : Prop := WritesTo c (e_call ev) /\ Failed ev.

Lemma OutT_cause pf c d z es : OutT pf c d (Done z) es -> z <> 1 -> Exists (Broke c) es.
Proof.
  intros H Hz. inversion H as [es' _|er o' es' xs [Hc _] Hf Ho Hx|]; subst; [congruence|].
  apply OnConn_writes in Hc. unfold Only in Hc. rewrite Forall_forall in Hc.
  apply Exists_exists. apply Exists_exists in Hf as (ev & HI & HF). exists ev.
  split; [apply in_or_app; auto|]. split; [apply Hc; exact HI|exact HF].
Qed.

Lemma unseen_dec rq ev : Unseen rq ev \/ Piped rq ev
  \/ (exists s d, ev = Moved s d /\ OutputStream s /\ rq_log rq s = true) \/ exists l k, ev = Resized l k.
Proof.
  destruct ev as [s d|l k|n]; cbn [Unseen]; [|right; right; right; eauto|auto].
  destruct (rq_log rq s) eqn:L; [|auto].
  destruct s; [auto| |right; left; split; [exact L|eauto]| |];
    right; right; left; do 2 eexists; (split; [reflexivity|]); (split; [unfold OutputStream; auto|exact L]).
Qed.

Lemma step_cause pl a rq st c ev g w f w' evs : PairedSession pl a rq st c ->
  front_step (exported SudoPair pl) ev (mkFront st [] g true) w = (Done f, w') -> w_trace w' = w_trace w ++ evs ->
  f_live f = false -> Piped rq ev \/ (~ Unseen rq ev /\ Exists (Broke c) evs).
Proof.
  intros HP H T HL. destruct (unseen_dec rq ev) as [U|[U|U]]; [|left; exact U|].
  { rewrite (unseen_step pl a rq st c ev HP U) in H. injection H as <- _. discriminate HL. }
  pose proof HP as HP0. apply paired_state in HP as (e & M & HE & Hst).
  assert (L3 : pf_level (en_stderr e) = 3) by (rewrite HE; reflexivity).
  assert (K : forall m d, asked (exported SudoPair pl) ev = Some m -> yields 0 (m st) (OutT (en_stderr e) c d) -> Exists (Broke c) evs).
  { intros m d HA Y. unfold front_step in H. cbn [f_live negb] in H. rewrite HA in H. cbn [f_state f_off f_given f_live] in H.
    destruct (in_dec slot_eq_dec (slot_of ev) []) as [[]|_]. unfold bind in H.
    destruct (m st w) as [[z| |] w1] eqn:Em; [|discriminate H|discriminate H].
    assert (X : w1 = w' /\ z <> 1).
    { destruct (z =? 1) eqn:Z1.
      - unfold ret in H. injection H as <- <-. exfalso. destruct ev; discriminate HL.
      - apply Z.eqb_neq in Z1. destruct (z =? -1); unfold ret in H; injection H as _ <-; auto. }
    destruct X as [-> Hz]. destruct (Y w _ _ Em) as (es & R & Q). rewrite (Ran_given _ _ _ _ _ R T).
    exact (OutT_cause _ _ _ _ _ Q Hz). }
  right. destruct U as [(s & d & -> & HS & Hh)|(l & k & ->)].
  - split. { intros [X|X]; [congruence|]. subst s. destruct HS as [X|[X|X]]; discriminate X. }
    apply (K (core_log SudoPair pl s d) d); [destruct s; reflexivity|]. subst st.
    unfold core_log. cbn [ps st_env st_plugin]. rewrite (m_log _ _ M), Hh. cbn [negb andb pg_log SudoPair].
    destruct HS as [->|[->| ->]]; cbn [pair_log]; apply out_yields; exact L3.
  - split; [intros []|]. apply (K (core_change_winsize SudoPair pl l k) (winsize_seq l k)); [reflexivity|]. subst st.
    exact (out_yields 0 e c (winsize_seq l k) L3).
Qed.

Lemma steps_cause pl a rq st c h : PairedSession pl a rq st c -> forall g w f w' evs,
  front_steps (exported SudoPair pl) h (mkFront st [] g true) w = (Done f, w') -> w_trace w' = w_trace w ++ evs ->
  f_live f = false ->
  exists past ev rest, h = past ++ ev :: rest /\ f_given f = g ++ flat_map data_of past
    /\ (Piped rq ev \/ (~ Unseen rq ev /\ Exists (Broke c) evs)).
Proof.
  intros HP. induction h as [|ev h IH]; intros g w f w' evs H T HL.
  - cbn in H. injection H as <- _. discriminate HL.
  - cbn [front_steps] in H. unfold bind in H.
    destruct (front_step (exported SudoPair pl) ev (mkFront st [] g true) w) as [[f1| |] w1] eqn:E; [|discriminate H|discriminate H].
    destruct (step_paired pl a rq st c ev g w _ w1 HP E) as (es & R & [(Hf & HS & HI)|(Hf & out & HS & HX)]).
    + subst f1. destruct (steps_paired pl a rq st c h HP _ _ _ _ H) as (es2 & R2 & _).
      assert (EV : evs = es ++ es2).
      { pose proof (Ran_trace _ _ _ _ (Ran_trans _ _ _ _ _ _ R R2)) as T2. rewrite T2 in T. apply app_inv_head in T. auto. }
      destruct (IH _ _ _ _ _ H (Ran_trace _ _ _ _ R2) HL) as (past & ev1 & rest & -> & HG & HC).
      exists (ev :: past), ev1, rest. split; [reflexivity|].
      split; [rewrite HG; cbn [flat_map]; rewrite app_assoc; reflexivity|].
      destruct HC as [HC|[HU HC]]; [left; exact HC|right]. split; [exact HU|].
      apply Exists_exists in HC as (x & HI' & HB). apply Exists_exists. exists x. split; [rewrite EV; apply in_or_app; auto|exact HB].
    + pose proof (step_cause pl a rq st c ev g w f1 w1 es HP E (Ran_trace _ _ _ _ R)) as C.
      subst f1. specialize (C eq_refl). rewrite steps_dead in H by reflexivity. injection H as <- <-.
      rewrite (Ran_given _ _ _ _ _ R T). exists [], ev, h. split; [reflexivity|]. cbn [flat_map f_given]. rewrite app_nil_r.
      split; [reflexivity|exact C].
Qed.

(** *** A session in which every call works *)
Lemma works_unbroken euid q c evs : Forall (Works euid q) evs -> ~ Exists (Broke c) evs.
Proof.
  intros W X. apply Exists_exists in X as (ev & HI & HW & HF). rewrite Forall_forall in W. specialize (W ev HI).
  unfold Works in W. unfold Failed in HF. destruct (e_call ev); cbn [WritesTo] in HW; try contradiction.
  - rewrite W in HF. exact HF.
  - rewrite W in HF. exact HF.
  - destruct W as [(n & W & Hn)|W]; rewrite W in HF; [lia|apply HF; reflexivity].
Qed.

Lemma steps_through pl a rq st c h euid q : PairedSession pl a rq st c -> Forall (fun ev => ~ Piped rq ev) h -> forall g w o w' evs,
  front_steps (exported SudoPair pl) h (mkFront st [] g true) w = (o, w') -> w_trace w' = w_trace w ++ evs ->
  Forall (Works euid q) evs ->
  o = Stopped \/ exists f outs, o = Done f /\ f_live f = true /\ f_off f = [] /\ f_given f = g ++ flat_map data_of h
    /\ Forall2 (Shows rq) h outs /\ delivered c evs = List.concat outs.
Proof.
  intros HP HN g w o w' evs H T W. destruct (steps_paired pl a rq st c h HP g w o w' H) as (es & R & Q).
  destruct o as [f| |]; [|destruct Q|left; reflexivity]. right.
  destruct Q as (_ & Hoff & g' & Hg & past & rest & outs & tail & E1 & E2 & E3 & E4 & _ & E6).
  cbn [f_given f_live] in *. rewrite (Ran_given _ _ _ _ _ R T).
  destruct (f_live f) eqn:L.
  - destruct E6 as [(_ & -> & ->)|[X _]]; [|discriminate X]. rewrite app_nil_r in E1, E4. subst past.
    exists f, outs. split; [reflexivity|]. split; [exact L|]. split; [exact Hoff|].
    split; [rewrite Hg, E2; reflexivity|]. split; [exact E3|exact E4].
  - exfalso. destruct (steps_cause pl a rq st c h HP g w f w' evs H T L) as (p & ev & r & -> & _ & [X|[_ X]]).
    + rewrite Forall_forall in HN. apply (HN ev); [apply in_or_app; right; left; reflexivity|exact X].
    + exact (works_unbroken _ _ _ _ W X).
Qed.

Lemma reads_writes c evs : Only (fun x => WritesTo c x \/ ErrorText x) evs -> reads evs = [].
Proof.
  intros H. apply (reads_none (fun x => WritesTo c x \/ ErrorText x)); [|exact H].
  intros n [X|[d X]]; [exact X|discriminate X].
Qed.

Lemma front_decides pl a rq h w o w' evs q : Describes pl a rq -> Askable pl a rq -> Forall (fun ev => ~ Piped rq ev) h ->
  front_run (exported SudoPair pl) a h w = (o, w') -> w_trace w' = w_trace w ++ evs ->
  SocketPath rq q -> HonestPrintf evs -> Forall (Works (pl_euid pl) q) evs ->
  o = Stopped
  \/ exists c d rd, reads evs = [rd] /\ Is (CRead c) (AData d) rd
     /\ ((Yes d /\ exists f, o = Done (Some f) /\ Through rq h f c evs) \/ (~ Yes d /\ o = Done None)).
Proof.
  intros D K HN H T HQ HH W. unfold front_run in H. cbn [exported t_open] in H. unfold bind in H.
  destruct (core_open SudoPair pl a (pstate0 SudoPair) w) as [oo w1] eqn:E.
  destruct (opened pl a rq D w _ w1 E) as (eo & R & _).
  assert (HF : forall e2, evs = eo ++ e2 -> HonestPrintf eo /\ Forall (Works (pl_euid pl) q) eo /\ Forall (Works (pl_euid pl) q) e2).
  { intros e2 ->. apply HonestPrintf_app in HH as [HH _]. apply Forall_app in W as [W1 W2]. auto. }
  assert (HO : HonestPrintf eo -> Forall (Works (pl_euid pl) q) eo -> oo = Stopped
    \/ exists z st' c d rd, oo = Done (z, st') /\ reads eo = [rd] /\ Is (CRead c) (AData d) rd
     /\ ((z = 1 /\ st_plugin st' <> None /\ Yes d) \/ (z = -1 /\ st_plugin st' = None /\ ~ Yes d))).
  { exact (honoured pl a rq D K w oo w1 eo q E (Ran_trace _ _ _ _ R) HQ). }
  destruct oo as [[z st]| |].
  - destruct (open_codes pl a rq D w z st w1 E) as [->| ->].
    + change (1 =? 1) with true in H. cbv beta iota in H.
      pose proof (approval_needed pl a rq w st w1 eo D (ak_exempt _ _ _ K) (ak_command _ _ _ K) E (Ran_trace _ _ _ _ R)) as [c A].
      assert (HP : PairedSession pl a rq st c).
      { split; [exact D|]. split; [exact (ak_exempt _ _ _ K)|]. split; [exact (ak_command _ _ _ K)|]. exists w, w1, eo.
        split; [exact E|]. split; [exact (Ran_trace _ _ _ _ R)|exact A]. }
      destruct (front_steps (exported SudoPair pl) h (mkFront st [] [] true) w1) as [o2 w2] eqn:F.
      destruct (steps_paired pl a rq st c h HP [] w1 _ w2 F) as (es & R2 & _).
      assert (HW : w' = w2) by (destruct o2; unfold ret in H; injection H as _ <-; reflexivity). subst w2.
      assert (EV : evs = eo ++ es).
      { rewrite (Ran_trace _ _ _ _ R2), (Ran_trace _ _ _ _ R), <- app_assoc in T. symmetry. exact (app_inv_head _ _ _ T). }
      destruct (HF es EV) as (H1 & H2 & H3).
      destruct (HO H1 H2) as [X|(z & st' & c' & d & rd & X & Hr & Hrd & Hd)]; [discriminate X|]. injection X as <- <-.
      destruct (steps_through pl a rq st c h _ q HP HN [] w1 o2 w' es F (Ran_trace _ _ _ _ R2) H3) as [->|(f & outs & -> & L & O & G & S & DL)].
      * left. injection H as <-. reflexivity.
      * right. unfold ret in H. injection H as <-.
        assert (c' = c).
        { destruct A as (q' & e1 & b & e2 & acc & e3 & rd' & e4 & peer & _ & EE & _ & _ & _ & Hy & HR1 & HR2).
          assert (RR : reads eo = reads [rd']).
          { rewrite EE. replace (e1 ++ b :: e2 ++ acc :: e3 ++ rd' :: e4) with ((e1 ++ b :: e2 ++ acc :: e3) ++ [rd'] ++ e4)
              by (cbn [app]; rewrite <- !app_assoc; cbn [app]; rewrite <- !app_assoc; reflexivity).
            rewrite (reads_app (e1 ++ b :: e2 ++ acc :: e3)), HR1, (reads_app [rd']), HR2, app_nil_r. reflexivity. }
          assert (rd = rd').
          { assert (R1 : reads [rd'] = [rd']) by (unfold reads; cbn [filter]; destruct Hy as [[Hy _]|[Hy _]]; unfold is_read; rewrite Hy; reflexivity).
            rewrite Hr, R1 in RR. injection RR as ->. reflexivity. }
          subst rd'. destruct Hrd as [X1 _]. destruct Hy as [[X2 _]|[X2 _]]; congruence. }
        subst c'. exists c, d, rd.
        split. { rewrite EV, reads_app, Hr, (reads_writes c es); [reflexivity|].
          exact (steps_write pl a rq st c h HP [] w1 _ w' es F (Ran_trace _ _ _ _ R2)). }
        split; [exact Hrd|]. left. destruct Hd as [(_ & _ & Y)|(X & _)]; [|discriminate X]. split; [exact Y|].
        exists f. split; [reflexivity|]. split; [exact L|]. split; [exact O|]. split; [exact G|].
        exists eo, es, outs. auto.
    + change (-1 =? 1) with false in H. change (-1 =? 0) with false in H. unfold ret in H. injection H as <- <-.
      pose proof (Ran_given _ _ _ _ _ R T) as EV. destruct (HF []) as (H1 & H2 & _); [rewrite app_nil_r; exact EV|].
      destruct (HO H1 H2) as [X|(z & st' & c' & d & rd & X & Hr & Hrd & Hd)]; [discriminate X|]. injection X as <- <-.
      right. exists c', d, rd. rewrite EV. split; [exact Hr|]. split; [exact Hrd|]. right.
      destruct Hd as [(X & _)|(_ & _ & Y)]; [discriminate X|]. auto.
  - exfalso. exact (callback_documented SudoPair pl (CbOpen a) (pstate0 _) w _ _ SudoPair_statuses E).
  - left. injection H as <- _. reflexivity.
Qed.

(** *** Such sessions exist *)
Lemma can_catch {A} (m : M A) x : Can m x -> Can (catch m) (Some x).
Proof.
  intros H k. destruct (H k) as (ts & k' & C & S & G). exists ts, k'. split; [exact C|]. split; [exact S|]. apply goes_catch. exact G.
Qed.

Lemma can_output e c d : Can (catch_log (report SudoPair e (log_output (with_conn e c) d))) 1.
Proof.
  unfold catch_log. eapply can_bind; [apply can_catch|apply can_ret].
  unfold report, log_output. cbn [with_conn sp_socket]. eapply can_bind with (x := Ok tt); [|apply can_ret].
  eapply can_bind; [apply can_write_all; intros X; apply can_write; exact X|]. apply can_ret.
Qed.

Lemma can_step pl a rq st c ev g : PairedSession pl a rq st c -> ~ Piped rq ev ->
  Can (front_step (exported SudoPair pl) ev (mkFront st [] g true)) (mkFront st [] (g ++ data_of ev) true).
Proof.
  intros HP HN. destruct (unseen_dec rq ev) as [U|[U|U]]; [|contradiction|].
  { intros k. exists [], k. split; [constructor|]. split; [apply same_refl|]. intros s tr. exists tr. cbn [app].
    exact (unseen_step pl a rq st c ev HP U g _). }
  pose proof HP as HP0. apply paired_state in HP as (e & M & HE & Hst).
  assert (K : forall m, asked (exported SudoPair pl) ev = Some m -> Can (m st) 1 ->
    Can (front_step (exported SudoPair pl) ev (mkFront st [] g true)) (mkFront st [] (g ++ data_of ev) true)).
  { intros m HA HC. unfold front_step. cbn [f_live negb]. rewrite HA. cbn [f_state f_off f_given f_live].
    destruct (in_dec slot_eq_dec (slot_of ev) []) as [[]|_]. eapply can_bind; [exact HC|]. change (1 =? 1) with true. cbv beta iota.
    replace (mkFront st [] (g ++ data_of ev) true) with (pass ev (mkFront st [] g true)); [apply can_ret|].
    destruct ev; cbn [pass data_of f_state f_off f_given f_live]; rewrite ?app_nil_r; reflexivity. }
  destruct U as [(s & d & -> & HS & Hh)|(l & k & ->)].
  - apply (K (core_log SudoPair pl s d)); [destruct s; reflexivity|]. subst st.
    unfold core_log. cbn [ps st_env st_plugin]. rewrite (m_log _ _ M), Hh. cbn [negb andb pg_log SudoPair].
    destruct HS as [->|[->| ->]]; cbn [pair_log]; apply can_output.
  - apply (K (core_change_winsize SudoPair pl l k)); [reflexivity|]. subst st. apply can_output.
Qed.

Lemma can_steps pl a rq st c h : PairedSession pl a rq st c -> Forall (fun ev => ~ Piped rq ev) h -> forall g,
  Can (front_steps (exported SudoPair pl) h (mkFront st [] g true)) (mkFront st [] (g ++ flat_map data_of h) true).
Proof.
  intros HP. induction h as [|ev h IH]; intros HN g; cbn [front_steps flat_map]; [rewrite app_nil_r; apply can_ret|].
  inversion HN as [|x y N1 N2]; subst. eapply can_bind; [exact (can_step pl a rq st c ev g HP N1)|].
  rewrite app_assoc. apply IH. exact N2.
Qed.

Lemma front_trace pl a rq h w f w' : Describes pl a rq -> ~ Exempt rq -> rq_command rq <> [] ->
  front_run (exported SudoPair pl) a h w = (Done (Some f), w') -> exists evs, w_trace w' = w_trace w ++ evs.
Proof.
  intros D NE NC H. unfold front_run in H. cbn [exported t_open] in H. unfold bind in H.
  destruct (core_open SudoPair pl a (pstate0 SudoPair) w) as [[[z st]| |] w1] eqn:E; [|discriminate H|discriminate H].
  destruct (opened pl a rq D w _ w1 E) as (eo & R & _).
  destruct (open_codes pl a rq D w z st w1 E) as [->| ->]; [|discriminate H].
  change (1 =? 1) with true in H. cbv beta iota in H.
  pose proof (approval_needed pl a rq w st w1 eo D NE NC E (Ran_trace _ _ _ _ R)) as [c A].
  assert (HP : PairedSession pl a rq st c).
  { split; [exact D|]. split; [exact NE|]. split; [exact NC|]. exists w, w1, eo. split; [exact E|]. split; [exact (Ran_trace _ _ _ _ R)|exact A]. }
  destruct (front_steps (exported SudoPair pl) h (mkFront st [] [] true) w1) as [o2 w2] eqn:F.
  destruct (steps_paired pl a rq st c h HP [] w1 _ w2 F) as (es & R2 & _).
  assert (HW : w' = w2) by (destruct o2; unfold ret in H; [injection H as _ <-; reflexivity|discriminate H|discriminate H]). subst w2.
  exists (eo ++ es). rewrite (Ran_trace _ _ _ _ R2), (Ran_trace _ _ _ _ R), <- app_assoc. reflexivity.
Qed.

Lemma can_get_through pl a rq q peer k tr h :
  Describes pl a rq -> Askable pl a rq -> SocketPath rq q -> Entitled pl rq peer -> Ready pl rq q k ->
  Numbered k -> OpenWay peer q k -> Forall (fun ev => ~ Piped rq ev) h ->
  exists t1 t2 f w' evs c, Calm t1 /\ Calm t2
    /\ front_run (exported SudoPair pl) a h (mkWorld k (t1 ++ ([(peer, Connect q)], ANum 1) :: t2) tr) = (Done (Some f), w')
    /\ w_script w' = [] /\ w_trace w' = tr ++ evs /\ Through rq h f c evs.
Proof.
  intros D K HP HE HR HNum HWay HN.
  destruct (approvable_goes pl a rq q peer D K HP HE k HR HNum HWay) as (e & c & t1 & t2 & k1 & C1 & C2 & G).
  assert (PS : PairedSession pl a rq (ps e (Some (with_conn e c))) c).
  { destruct (G [] []) as [tr' E]. destruct (opened pl a rq D _ _ _ E) as (eo & R & _).
    pose proof (approval_needed pl a rq _ _ _ eo D (ak_exempt _ _ _ K) (ak_command _ _ _ K) E (Ran_trace _ _ _ _ R)) as [c' A].
    assert (X : PairedSession pl a rq (ps e (Some (with_conn e c))) c').
    { split; [exact D|]. split; [exact (ak_exempt _ _ _ K)|]. split; [exact (ak_command _ _ _ K)|]. do 3 eexists.
      split; [exact E|]. split; [exact (Ran_trace _ _ _ _ R)|exact A]. }
    destruct (paired_state _ _ _ _ _ X) as (e' & _ & _ & HS). unfold ps, with_conn in HS. injection HS. intros. subst c'. exact X. }
  destruct (can_steps pl a rq _ c h PS HN [] k1) as (t3 & k2 & C3 & _ & G3). cbn [app] in G3.
  assert (GG : Goes (front_run (exported SudoPair pl) a h) k ((t1 ++ ([(peer, Connect q)], ANum 1) :: t2) ++ t3)
    (Some (mkFront (ps e (Some (with_conn e c))) [] (flat_map data_of h) true)) k2).
  { unfold front_run. cbn [exported t_open]. eapply goes_bind; [exact G|]. cbv beta iota. change (1 =? 1) with true. cbv beta iota.
    rewrite <- (app_nil_r t3). eapply goes_bind; [exact G3|]. apply goes_ret. }
  rewrite <- app_assoc in GG. destruct (GG [] tr) as [tr' E]. rewrite app_nil_r in E. cbn [app] in E.
  destruct (front_trace pl a rq h _ _ _ D (ak_exempt _ _ _ K) (ak_command _ _ _ K) E) as (evs & T). cbn [w_trace] in T.
  exists t1, (t2 ++ t3). do 2 eexists. exists evs, c. split; [exact C1|]. split; [apply Forall_app; auto|]. split; [exact E|].
  split; [reflexivity|]. split; [exact T|].
  destruct (front_paired pl a rq h _ _ _ evs D (ak_exempt _ _ _ K) (ak_command _ _ _ K) E T) as (_ & c' & asking & after & EV & A & PS' & W).
  cbn [f_state] in PS'. destruct (paired_state _ _ _ _ _ PS') as (e' & _ & _ & HS). unfold ps, with_conn in HS. injection HS. intros. subst c'.
  destruct W as (past & rest & outs & tail & E1 & E2 & E3 & E4 & _ & [(_ & -> & ->)|[X _]]); [|discriminate X].
  rewrite app_nil_r in E1, E4. subst past. split; [reflexivity|]. split; [reflexivity|]. split; [reflexivity|].
  exists asking, after, outs. auto.
Qed.
