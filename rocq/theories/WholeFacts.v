(** Whole sessions under given rules. *)
From Coq Require Import Lia.
From Verif Require Import Base BaseLemmas Num Path Version Options World Sys Io Socket Env Core Pair Approve Script
  Spec TraceSpec SessionSpec CallbackSpec AdversarySpec RequestProofs PairPure RunProofs OpenFacts AskFacts SessionFacts CallbackFacts
  HistoryFacts AdversaryFacts GuardFacts PeerFacts Frontend FrontSpec FrontFacts Sudoers SudoersFacts WholeSpec.
Local Open Scope Z_scope.

Lemma front_opens pl a rq h w f w' evs : Describes pl a rq -> ~ Exempt rq -> rq_command rq <> [] ->
  front_run (exported SudoPair pl) a h w = (Done (Some f), w') -> w_trace w' = w_trace w ++ evs ->
  exists st w1 asking after c, core_open SudoPair pl a (pstate0 _) w = (Done (1, st), w1) /\ w_trace w1 = w_trace w ++ asking
    /\ evs = asking ++ after /\ Approved rq c asking /\ Watched rq h f (delivered c after).
Proof.
  intros D NE NC H T. unfold front_run in H. cbn [exported t_open] in H. unfold bind in H.
  destruct (core_open SudoPair pl a (pstate0 SudoPair) w) as [[[z st]| |] w1] eqn:E; [|discriminate H|discriminate H].
  destruct (opened pl a rq D w _ w1 E) as (eo & R & _).
  destruct (open_codes pl a rq D w z st w1 E) as [->| ->]; [|discriminate H].
  change (1 =? 1) with true in H. cbv beta iota in H.
  pose proof (Ran_trace _ _ _ _ R) as T1. destruct (approval_needed pl a rq w st w1 eo D NE NC E T1) as [c A].
  assert (HP : PairedSession pl a rq st c).
  { split; [exact D|]. split; [exact NE|]. split; [exact NC|]. exists w, w1, eo. auto. }
  destruct (front_steps (exported SudoPair pl) h (mkFront st [] [] true) w1) as [[f'| |] w2] eqn:F; [|discriminate H|discriminate H].
  unfold ret in H. cbv beta iota in H. destruct (steps_paired pl a rq st c h HP [] w1 _ w2 F) as (es & R2 & Hst & Hoff & g & Hg & W).
  assert (HO : f' = f /\ w2 = w') by (split; injection H; auto). destruct HO as [-> ->].
  exists st, w1, eo, es, c. split; [reflexivity|]. split; [exact T1|].
  split. { rewrite (Ran_trace _ _ _ _ R2), T1, <- app_assoc in T. symmetry. exact (app_inv_head _ _ _ T). }
  split; [exact A|]. cbn [app] in Hg. unfold Watched in *. cbn [f_given f_live] in W. rewrite Hg. exact W.
Qed.

Lemma delivered_app' c e1 e2 : delivered c (e1 ++ e2) = delivered c e1 ++ delivered c e2.
Proof. unfold delivered. apply flat_map_app. Qed.

Lemma logged_not_exempt rq sd r : Grants sd rq r -> logs sd r = true ->
  rq_uid rq <> rq_euid rq -> rq_uid rq <> rq_to_uid rq \/ rq_gid rq <> rq_to_gid rq -> ~ SamePath (rq_command rq) (rq_binary_path rq) ->
  ~ Meets (rq_exempted rq) (rq_groups rq) -> (exists g, In g (rq_enforced rq) /\ GainsGroup rq g) -> ~ Exempt rq.
Proof.
  intros (t & _ & _ & HL) E N1 N2 N3 N4 (g & I1 & I2).
  intros [X|[[X1 X2]|[X|[(X & _)|[X|X]]]]]; try contradiction; [destruct N2; contradiction| |exact (X g I1 I2)].
  rewrite (HL Ttyout) in X by (cbn; auto). congruence.
Qed.

Lemma shows_all rq sd r ev out : Grants sd rq r -> logs sd r = true -> Shows rq ev out -> ShowsAll ev out.
Proof.
  intros (t & _ & _ & HL) E H.
  assert (L : forall s, OutputStream s -> rq_log rq s = true).
  { intros s HS. rewrite HL; [exact E|]. destruct HS as [->|[->| ->]]; cbn; auto. }
  destruct H as [s d HS _|s d [H|H]|l c sl sc H1 H2|n]; try (constructor; assumption).
  constructor. intros HS. rewrite (L s HS) in H. discriminate H.
Qed.

Section Under.
Variables (pl : platform) (a : open_args) (rq : request) (sd : sudoers) (r : rule) (h : list happening) (w : world).
Hypothesis D : Describes pl a rq.
Hypothesis G : Grants sd rq r.
Hypothesis L : logs sd r = true.
Hypothesis N1 : rq_uid rq <> rq_euid rq.
Hypothesis N3 : ~ SamePath (rq_command rq) (rq_binary_path rq).
Hypothesis N4 : ~ Meets (rq_exempted rq) (rq_groups rq).
Hypothesis N5 : exists g, In g (rq_enforced rq) /\ GainsGroup rq g.
Hypothesis NC : rq_command rq <> [].

Lemma overseen (Fit : cred -> Prop) f w' evs : ~ Exempt rq ->
  front_run (exported SudoPair pl) a h w = (Done (Some f), w') -> w_trace w' = w_trace w ++ evs ->
  (forall st w1 asking, core_open SudoPair pl a (pstate0 _) w = (Done (1, st), w1) -> w_trace w1 = w_trace w ++ asking ->
   forall n c peer acc, In acc asking -> Accepts n c peer acc -> Fit peer) ->
  f_off f = [] /\ Overseen rq Fit h f evs.
Proof.
  intros NE H T HF.
  split. { pose proof (front_paired pl a rq h w _ w' evs D NE NC H T) as X. cbv beta iota in X. exact (proj1 X). }
  destruct (front_opens pl a rq h w f w' evs D NE NC H T) as (st & w1 & asking & after & c & HR & HT & -> & HA & HW).
  destruct HA as (q & e1 & b & e2 & acc & e3 & rd & e4 & peer & Hq & -> & Hb & Hacc & Hp & Hrd & R1 & R2).
  destruct HW as (past & rest & outs & tail & Eh & Eg & HS & Ed & _ & HL).
  exists q, e1, b, e2, acc, e3, rd, e4, after, peer, c, past, rest, outs, tail.
  split; [exact Hq|]. split; [repeat (rewrite <- ?app_assoc, <- ?app_comm_cons); reflexivity|].
  split; [exact Hb|]. split; [exact Hacc|].
  split. { refine (HF st w1 _ HR HT _ c peer acc _ Hacc). apply in_or_app. right. right. apply in_elt. }
  split; [exact Hp|]. split; [exact Hrd|]. split; [exact R1|]. split; [exact R2|]. split; [exact Eh|]. split; [exact Eg|].
  split. { clear -HS G L. induction HS; constructor; [eapply shows_all; eassumption|assumption]. }
  split; [exact Ed|]. destruct HL as [X|(X & ev & rest' & out & Y1 & Y2 & Y3)]; [left; exact X|right].
  split; [exact X|]. exists ev, rest', out. split; [exact Y1|]. split; [eapply shows_all; eassumption|exact Y3].
Qed.

Lemma overseen_user f w' evs : rq_uid rq <> rq_to_uid rq -> rq_to_uid rq <> 4294967295 ->
  forall q, SocketPath rq q -> Guarded (UserOutsider (pl_euid pl) (rq_to_uid rq)) q (w_k w) ->
  Everyone (fun c x => UserOutsider (pl_euid pl) (rq_to_uid rq) c \/ OnlyConnects x) w ->
  front_run (exported SudoPair pl) a h w = (Done (Some f), w') -> w_trace w' = w_trace w ++ evs ->
  f_off f = [] /\ Overseen rq (fun p => cr_priv p = true \/ cr_uid p = rq_to_uid rq) h f evs.
Proof.
  intros HU HN q Hq HG HE H T.
  apply (overseen _ f w' evs (logged_not_exempt rq sd r G L N1 (or_introl HU) N3 N4 N5) H T).
  intros st w1 asking HR HT.
  exact (user_accepted_side pl a rq w w1 _ asking D HR HT (fun _ : path => False) HU HN (alone rq _ _ _ Hq HG) (alone_everyone w _ HE)).
Qed.

Lemma overseen_group f w' evs : rq_uid rq = rq_to_uid rq -> rq_gid rq <> rq_to_gid rq -> rq_to_gid rq <> 4294967295 ->
  forall q, SocketPath rq q -> Guarded (GroupOutsider (pl_euid pl) (rq_to_gid rq)) q (w_k w) ->
  Everyone (fun c x => GroupOutsider (pl_euid pl) (rq_to_gid rq) c \/ OnlyConnects x) w ->
  front_run (exported SudoPair pl) a h w = (Done (Some f), w') -> w_trace w' = w_trace w ++ evs ->
  f_off f = [] /\ Overseen rq (fun p => cr_priv p = true \/ In (rq_to_gid rq) (cr_gids p)) h f evs.
Proof.
  intros HU HX HN q Hq HG HE H T.
  apply (overseen _ f w' evs (logged_not_exempt rq sd r G L N1 (or_intror HX) N3 N4 N5) H T).
  intros st w1 asking HR HT. exact (group_accepted pl a rq w w1 _ asking D HR HT HU HN q Hq HG HE).
Qed.

Lemma not_run f w' : ~ Exempt rq ->
  (forall o w1 asking, core_open SudoPair pl a (pstate0 _) w = (o, w1) -> w_trace w1 = w_trace w ++ asking -> forall st, o <> Done (1, st)) ->
  front_run (exported SudoPair pl) a h w <> (Done (Some f), w').
Proof.
  intros NE HN H. pose proof H as H0. unfold front_run in H. cbn [exported t_open] in H. unfold bind in H.
  destruct (core_open SudoPair pl a (pstate0 SudoPair) w) as [[[z st]| |] w1] eqn:E; [|discriminate H|discriminate H].
  destruct (opened pl a rq D w _ w1 E) as (eo & R & _).
  destruct (open_codes pl a rq D w z st w1 E) as [->| ->]; [|discriminate H].
  exact (HN _ _ _ eq_refl (Ran_trace _ _ _ _ R) st eq_refl).
Qed.

Lemma nobody_user f w' : rq_uid rq <> rq_to_uid rq -> Everyone (fun c _ => UserOutsider (pl_euid pl) (rq_to_uid rq) c) w ->
  front_run (exported SudoPair pl) a h w <> (Done (Some f), w').
Proof.
  intros HU HE. pose proof (logged_not_exempt rq sd r G L N1 (or_introl HU) N3 N4 N5) as NE.
  apply (not_run f w' NE). intros o w1 asking HR HT. exact (user_never pl a rq w w1 o asking D HR HT HU HE NE NC).
Qed.

Lemma nobody_group f w' : rq_uid rq = rq_to_uid rq -> rq_gid rq <> rq_to_gid rq -> rq_to_gid rq <> 4294967295 ->
  forall q, SocketPath rq q -> Guarded (GroupOutsider (pl_euid pl) (rq_to_gid rq)) q (w_k w) ->
  Everyone (fun c _ => GroupOutsider (pl_euid pl) (rq_to_gid rq) c) w ->
  front_run (exported SudoPair pl) a h w <> (Done (Some f), w').
Proof.
  intros HU HX HN q Hq HG HE. pose proof (logged_not_exempt rq sd r G L N1 (or_intror HX) N3 N4 N5) as NE.
  apply (not_run f w' NE). intros o w1 asking HR HT. exact (group_never pl a rq w w1 o asking D HR HT HU HN q Hq HG HE NE NC).
Qed.
End Under.

Lemma unlogged_front pl a rq sd r h w : Describes pl a rq -> Grants sd rq r -> logs sd r = false ->
  rq_command rq <> [] -> ~ MasklessAddr pl (oa_settings a) -> pl_debug pl = false \/ Consistent rq ->
  exists f, front_run (exported SudoPair pl) a h w = (Done (Some f), w)
    /\ f_live f = true /\ f_off f = [] /\ f_given f = flat_map data_of h.
Proof.
  intros D (t & _ & _ & HL) E NC NM HD. apply (front_exempt pl a rq h w D NC); [|exact NM|exact HD].
  right. right. right. left. rewrite !HL by (cbn; auto). auto.
Qed.
