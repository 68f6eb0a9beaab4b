(** The request determines what sudo does in a session. *)
From Verif Require Import Base BaseLemmas Num Path Version Options World Sys Io Socket Env Core Pair Spec SameSpec RequestProofs
  HistoryFacts SameFacts Frontend SessionRun.
Local Open Scope Z_scope.

Record SameFront (f g : front SudoPair) : Prop := {
  sf_state : SameState (f_state f) (f_state g);
  sf_off : f_off f = f_off g;
  sf_given : f_given f = f_given g;
  sf_live : f_live f = f_live g
}.

(** The code is all that a callback that returns one depends on. *)
Lemma code_sim {A C} (m n : M Z) (s : A) (t : C) (R : Z * A -> Z * C -> Prop) : (forall x y, R x y -> fst x = fst y) ->
  Sim R (bind m (fun z => ret (z, s))) (bind n (fun z => ret (z, t))) -> Sim eq m n.
Proof.
  intros HR H w. specialize (H w). unfold bind, ret in H.
  destruct (m w) as [[x| |] w1], (n w) as [[y| |] w2]; try contradiction; try exact H.
  destruct H as [H ->]. split; [exact (HR _ _ H)|reflexivity].
Qed.

Lemma sim_asked pl ev st su : SameState st su ->
  match asked (exported SudoPair pl) ev, asked (exported SudoPair pl) ev with
  | Some x, Some y => Sim eq (x st) (y su)
  | None, None => True
  | _, _ => False
  end.
Proof.
  intros HS.
  assert (HL : forall s d, Sim eq (core_log SudoPair pl s d st) (core_log SudoPair pl s d su)).
  { intros s d. eapply code_sim; [|exact (sim_callback pl (CbLog s d) st su HS)]. intros x y [H _]. exact H. }
  assert (HW : forall l c, Sim eq (core_change_winsize SudoPair pl l c st) (core_change_winsize SudoPair pl l c su)).
  { intros l c. eapply code_sim; [|exact (sim_callback pl (CbWinsize l c) st su HS)]. intros x y [H _]. exact H. }
  destruct ev as [[] d|l c|n]; cbn; try apply HL; try apply HW. exact I.
Qed.

Lemma sim_pass ev f g : SameFront f g -> SameFront (pass ev f) (pass ev g).
Proof. intros [H1 H2 H3 H4]. destruct ev; constructor; cbn; try assumption. congruence. Qed.

Lemma sim_step pl ev f g : SameFront f g -> Sim SameFront (front_step (exported SudoPair pl) ev f) (front_step (exported SudoPair pl) ev g).
Proof.
  intros HF. pose proof HF as [H1 H2 H3 H4]. unfold front_step. rewrite <- H2, <- H4.
  destruct (negb (f_live f)); [apply Sim_ret; exact HF|].
  pose proof (sim_asked pl ev _ _ H1) as HA. destruct (asked (exported SudoPair pl) ev) as [ask|]; [|apply Sim_ret, sim_pass, HF].
  destruct (in_dec slot_eq_dec (slot_of ev) (f_off f)); [apply Sim_ret, sim_pass, HF|].
  eapply Sim_bind; [exact HA|]. intros z z' <-.
  destruct (z =? 1); [apply Sim_ret, sim_pass, HF|].
  destruct (z =? -1); apply Sim_ret; [apply sim_pass|]; constructor; cbn; auto; congruence.
Qed.

Lemma sim_steps pl h : forall f g, SameFront f g ->
  Sim SameFront (front_steps (exported SudoPair pl) h f) (front_steps (exported SudoPair pl) h g).
Proof.
  induction h as [|ev h IH]; intros f g HF; cbn [front_steps]; [apply Sim_ret; exact HF|].
  eapply Sim_bind; [apply sim_step; exact HF|]. intros x y H. apply IH. exact H.
Qed.

Lemma sim_empty_steps h : forall f g, SameFront f g ->
  Sim SameFront (front_steps (empty_table SudoPair) h f) (front_steps (empty_table SudoPair) h g).
Proof.
  induction h as [|ev h IH]; intros f g HF; cbn [front_steps]; [apply Sim_ret; exact HF|].
  eapply Sim_bind; [|intros x y H; apply IH; exact H].
  unfold front_step. rewrite (sf_live _ _ HF). destruct (negb (f_live g)); [apply Sim_ret; exact HF|].
  destruct ev as [[] d|l c|n]; cbn [asked empty_table option_map t_log_ttyin t_log_ttyout t_log_stdin t_log_stdout t_log_stderr
    t_change_winsize t_log_suspend]; apply Sim_ret, sim_pass, HF.
Qed.

Lemma sim_session pl a b h x err :
  Sim SameResult (core_open SudoPair pl a (pstate0 _)) (core_open SudoPair pl b (pstate0 _)) ->
  Sim eq (session (exported SudoPair pl) a h x err) (session (exported SudoPair pl) b h x err).
Proof.
  intros H. unfold session. eapply Sim_bind with (R := OptRel SameFront).
  - unfold front_run. cbn [exported t_open]. eapply Sim_bind; [exact H|]. intros [z s] [z' t] [Hz HS]. cbn in Hz, HS. subst z'.
    assert (F0 : SameFront (mkFront s [] [] true) (mkFront t [] [] true)) by (constructor; auto).
    destruct (z =? 1).
    { eapply Sim_bind; [apply sim_steps; exact F0|]. intros f g HF. apply Sim_ret. exact HF. }
    destruct (z =? 0).
    { eapply Sim_bind; [apply sim_empty_steps; exact F0|]. intros f g HF. apply Sim_ret. exact HF. }
    apply Sim_ret. exact I.
  - intros [f|] [g|] HF; try contradiction; [|apply Sim_ret; reflexivity].
    destruct HF as [H1 H2 H3 H4]. unfold front_close. cbn [exported t_close].
    eapply Sim_bind with (R := SameState).
    + pose proof (sim_callback pl (CbClose x err) _ _ H1) as HC. cbn [run_callback] in HC. intros w. specialize (HC w). unfold bind, ret in HC.
      destruct (core_close SudoPair x err (f_state f) w) as [[u| |] w1], (core_close SudoPair x err (f_state g) w) as [[v| |] w2];
        try contradiction; try exact HC. destruct HC as [[_ HC] ->]. split; [exact HC|reflexivity].
    + intros u v _. apply Sim_ret. congruence.
Qed.

Lemma Sim_run {A} (m n : M A) : Sim eq m n -> forall w, m w = n w.
Proof.
  intros H w. specialize (H w). destruct (m w) as [[x| |] w1], (n w) as [[y| |] w2]; try contradiction.
  - destruct H as [-> ->]. reflexivity.
  - subst. reflexivity.
  - subst. reflexivity.
Qed.

Lemma same_open pl a b rq rq' : Describes pl a rq -> Describes pl b rq' -> Alike rq rq' ->
  ~ MasklessAddr pl (oa_settings a) -> ~ MasklessAddr pl (oa_settings b) ->
  Sim SameResult (core_open SudoPair pl a (pstate0 _)) (core_open SudoPair pl b (pstate0 _)).
Proof.
  intros Da Db (l & -> & HL) Na Nb. unfold core_open. cbn [pf_new pg_name pg_version SudoPair].
  destruct (described_reads _ _ _ Da Na) as (e & E & M). destruct (described_reads _ _ _ Db Nb) as (f & F & N).
  rewrite E, F. cbn [pstate0 st_env st_plugin].
  assert (HP : oa_printf a = oa_printf b) by (rewrite <- (d_printf _ _ _ Da), <- (d_printf _ _ _ Db); reflexivity).
  destruct (pf_same _ _ _ _ _ E) as [E1 E2]. destruct (pf_same _ _ _ _ _ F) as [F1 F2].
  rewrite HP. apply (sim_open_env pl _ e f (pstate0 _) (pstate0 _)); [|split; exact I].
  constructor; [exists rq, l; auto|rewrite E1, F1, HP; reflexivity|rewrite E2, F2, HP; reflexivity].
Qed.

Lemma same_session pl a b rq rq' : Describes pl a rq -> Describes pl b rq' -> Alike rq rq' ->
  ~ MasklessAddr pl (oa_settings a) -> ~ MasklessAddr pl (oa_settings b) -> forall h x err w,
  session (exported SudoPair pl) a h x err w = session (exported SudoPair pl) b h x err w.
Proof.
  intros Da Db AL Na Nb h x err. apply Sim_run, sim_session. exact (same_open pl a b rq rq' Da Db AL Na Nb).
Qed.

Lemma padded_session pl a a' : PaddedArgs a a' -> forall h x err w,
  session (exported SudoPair pl) a h x err w = session (exported SudoPair pl) a' h x err w.
Proof.
  intros PA h x err. apply Sim_run, sim_session.
  apply (sim_padded_callback pl (CbOpen a) (CbOpen a')); [constructor; exact PA|split; exact I].
Qed.
