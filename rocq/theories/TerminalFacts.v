(** What the pair types. *)
From Verif Require Import Base BaseLemmas World Options Env Core Pair Spec TraceSpec SessionSpec AskFacts OpenFacts SessionFacts Terminal.
Local Open Scope Z_scope.

Lemma is_char_iff o b : is_char o b = true <-> o = Some b.
Proof.
  destruct o as [c|]; cbn; [|split; discriminate]. rewrite byte_eqb_eq. split; [intros ->; reflexivity|congruence].
Qed.
Lemma is_char_not o b : is_char o b = false <-> o <> Some b.
Proof. rewrite <- not_true_iff_false, is_char_iff. tauto. Qed.

Lemma typed_cbreak t line keys s e : tm_icanon t = false -> typed t line keys = (s, e) ->
  exists rest, keys = s ++ rest
  /\ (tm_isig t = true -> forall k, In k s -> tm_intr t <> Some k /\ tm_quit t <> Some k /\ tm_susp t <> Some k)
  /\ match e with
     | Open => rest = []
     | Interrupted => tm_isig t = true /\ exists k rest', rest = k :: rest' /\ tm_intr t = Some k
     | Killed => tm_isig t = true /\ exists k rest', rest = k :: rest' /\ tm_quit t = Some k /\ tm_intr t <> Some k
     | Paused => tm_isig t = true /\ exists k rest', rest = k :: rest' /\ tm_susp t = Some k /\ tm_intr t <> Some k
     | EndOfFile => False
     end.
Proof.
  intros HC. revert s e. induction keys as [|k ks IH]; intros s e H; cbn [typed] in H.
  - injection H as <- <-. exists []. split; [reflexivity|]. split; [intros _ k []|reflexivity].
  - destruct (tm_isig t && is_char (tm_intr t) k) eqn:E1.
    { apply andb_prop in E1 as [E1 E2]. apply is_char_iff in E2. injection H as <- <-. exists (k :: ks).
      split; [reflexivity|]. split; [intros _ x []|]. split; [exact E1|]. exists k, ks. auto. }
    destruct (tm_isig t && is_char (tm_quit t) k) eqn:E2.
    { apply andb_prop in E2 as [E2 E3]. rewrite E2 in E1. cbn in E1. apply is_char_not in E1. apply is_char_iff in E3.
      injection H as <- <-. exists (k :: ks).
      split; [reflexivity|]. split; [intros _ x []|]. split; [exact E2|]. exists k, ks. auto. }
    destruct (tm_isig t && is_char (tm_susp t) k) eqn:E3.
    { apply andb_prop in E3 as [E3 E4]. rewrite E3 in E1. cbn in E1. apply is_char_not in E1. apply is_char_iff in E4.
      injection H as <- <-. exists (k :: ks).
      split; [reflexivity|]. split; [intros _ x []|]. split; [exact E3|]. exists k, ks. auto. }
    rewrite HC in H. destruct (typed t line ks) as [s' e'] eqn:E. injection H as <- <-.
    destruct (IH s' e' eq_refl) as (rest & -> & HS & HE). exists rest. split; [reflexivity|]. split; [|exact HE].
    intros HI x [<-|HX]; [|exact (HS HI x HX)]. rewrite HI in E1, E2, E3. cbn in E1, E2, E3.
    apply is_char_not in E1, E2, E3. auto.
Qed.

(** The settings socat runs with. *)
Lemma watching ok tty keys t : pr_watching (pair_function ok tty keys) = Some t ->
  exists t0, tty = Some t0 /\ t = stty_intr ctrl_d (stty_cbreak_noecho t0)
  /\ pr_connected (pair_function ok tty keys) = true
  /\ pr_sent (pair_function ok tty keys) = fst (typed t [] keys)
  /\ pr_ending (pair_function ok tty keys) = Some (snd (typed t [] keys)).
Proof.
  unfold pair_function. destruct tty as [t0|]; [|discriminate].
  destruct (ok SttyCbreak), (ok SttyIntr), (ok Clear), (ok Socat); cbn [negb]; try discriminate.
  destruct (typed (stty_intr ctrl_d (stty_cbreak_noecho t0)) [] keys) as [s e] eqn:E. cbn.
  intros H. injection H as <-. exists t0. rewrite E. auto.
Qed.

Lemma connected_watching ok tty keys : pr_connected (pair_function ok tty keys) = true ->
  exists t, pr_watching (pair_function ok tty keys) = Some t.
Proof.
  unfold pair_function. destruct tty as [t0|]; [|discriminate].
  destruct (ok SttyCbreak), (ok SttyIntr), (ok Clear), (ok Socat); cbn [negb]; try discriminate.
  destruct (typed (stty_intr ctrl_d (stty_cbreak_noecho t0)) [] keys) as [s e] eqn:E. cbn. eauto.
Qed.

Lemma needs_terminal ok keys : let r := pair_function ok None keys in pr_connected r = false /\ pr_sent r = [].
Proof. cbn. auto. Qed.

Lemma keys_sent ok t0 keys e : pr_ending (pair_function ok (Some t0) keys) = Some e ->
  let r := pair_function ok (Some t0) keys in
  exists rest, keys = pr_sent r ++ rest
  /\ (tm_isig t0 = true -> forall k, In k (pr_sent r) -> k <> x04 /\ tm_quit t0 <> Some k /\ tm_susp t0 <> Some k)
  /\ match e with
     | Open => rest = []
     | Interrupted => tm_isig t0 = true /\ exists rest', rest = x04 :: rest'
     | Killed => tm_isig t0 = true /\ exists k rest', rest = k :: rest' /\ tm_quit t0 = Some k /\ k <> x04
     | Paused => tm_isig t0 = true /\ exists k rest', rest = k :: rest' /\ tm_susp t0 = Some k /\ k <> x04
     | EndOfFile => False
     end.
Proof.
  cbv zeta. intros H. destruct (pr_watching (pair_function ok (Some t0) keys)) as [t|] eqn:W.
  - destruct (watching _ _ _ _ W) as (t0' & E0 & -> & _ & HS & HE). injection E0 as <-. rewrite HE in H. injection H as H.
    rewrite HS. destruct (typed _ [] keys) as [s e'] eqn:E. cbn [fst snd] in *. subst e'.
    destruct (typed_cbreak (stty_intr ctrl_d (stty_cbreak_noecho t0)) [] keys s e eq_refl E) as (rest & -> & A & Q). cbn in A, Q. exists rest. split; [reflexivity|].
    split.
    + intros HI k HK. destruct (A HI k HK) as (A1 & A2 & A3). split; [|auto]. intros ->. apply A1. reflexivity.
    + destruct e; auto.
      * destruct Q as (Q & k & rest' & -> & K). split; [exact Q|]. injection K as <-. eauto.
      * destruct Q as (Q & k & rest' & -> & K & L). split; [exact Q|]. exists k, rest'. split; [reflexivity|]. split; [exact K|].
        intros ->. apply L. reflexivity.
      * destruct Q as (Q & k & rest' & -> & K & L). split; [exact Q|]. exists k, rest'. split; [reflexivity|]. split; [exact K|].
        intros ->. apply L. reflexivity.
  - exfalso. unfold pair_function in *.
    destruct (ok SttyCbreak), (ok SttyIntr), (ok Clear), (ok Socat); cbn [negb] in *; try discriminate.
    destruct (typed _ [] keys). discriminate.
Qed.

Lemma restored ok t0 keys : ok SttySave = true -> ok SttyRestore = true ->
  let r := pair_function ok (Some t0) keys in
  pr_ending r <> Some Open -> pr_ending r <> Some Paused -> pr_after r = Some t0.
Proof.
  intros H1 H2. cbv zeta. unfold pair_function. rewrite H1.
  destruct (ok SttyCbreak), (ok SttyIntr), (ok Clear), (ok Socat); cbn [negb]; rewrite ?H2; cbn; auto.
  destruct (typed _ [] keys) as [s e]. cbn. intros A C. destruct e; congruence.
Qed.

Lemma no_echo ok tty keys t : pr_watching (pair_function ok tty keys) = Some t ->
  tm_echo t = false /\ exists t0, tty = Some t0 /\ tm_other t = tm_other t0 /\ tm_quit t = tm_quit t0.
Proof. intros H. destruct (watching _ _ _ _ H) as (t0 & -> & -> & _). cbn. eauto 6. Qed.

Lemma ctrl_d_ends ok t0 keys : pr_connected (pair_function ok (Some t0) keys) = true -> tm_isig t0 = true -> In x04 keys ->
  pr_ending (pair_function ok (Some t0) keys) <> Some Open.
Proof.
  intros HC HI HK HE. destruct (keys_sent ok t0 keys Open HE) as (rest & E & A & Q). rewrite Q, app_nil_r in E.
  rewrite E in HK. destruct (A HI _ HK) as [N _]. apply N. reflexivity.
Qed.

Lemma plain_keys ok t0 keys : pr_connected (pair_function ok (Some t0) keys) = true ->
  Forall (fun k => k <> x04 /\ tm_quit t0 <> Some k /\ tm_susp t0 <> Some k) keys ->
  pr_ending (pair_function ok (Some t0) keys) = Some Open /\ pr_sent (pair_function ok (Some t0) keys) = keys.
Proof.
  intros HC HF. destruct (connected_watching _ _ _ HC) as (t & W). destruct (watching _ _ _ _ W) as (t1 & _ & _ & _ & _ & HE).
  destruct (keys_sent ok t0 keys _ HE) as (rest & E & _ & Q).
  assert (K : forall k rest', rest = k :: rest' -> k <> x04 /\ tm_quit t0 <> Some k /\ tm_susp t0 <> Some k).
  { intros k rest' ->. rewrite Forall_forall in HF. apply HF. rewrite E. apply in_or_app. right. left. reflexivity. }
  rewrite HE. destruct (snd (typed t [] keys)); try contradiction.
  - subst rest. rewrite app_nil_r in E. auto.
  - destruct Q as (_ & r & ->). destruct (K _ _ eq_refl) as [N _]. contradiction.
  - destruct Q as (_ & k & r & -> & X & _). destruct (K _ _ eq_refl) as (_ & N & _). contradiction.
  - destruct Q as (_ & k & r & -> & X & _). destruct (K _ _ eq_refl) as (_ & _ & N). contradiction.
Qed.

(** *** The session at the other end *)
Lemma approved_by_key pl a rq w st' w' evs ok tty keys :
  Describes pl a rq -> ~ Exempt rq -> rq_command rq <> [] ->
  core_open SudoPair pl a (pstate0 _) w = (Done (1, st'), w') -> w_trace w' = w_trace w ++ evs ->
  (forall rd c d, In rd evs -> e_call rd = CRead c -> e_ans rd = AData d -> d = firstn 1 (pr_sent (pair_function ok tty keys))) ->
  exists t0 k ks, tty = Some t0 /\ keys = k :: ks /\ (k = "y"%byte \/ k = "Y"%byte)
    /\ pr_connected (pair_function ok tty keys) = true.
Proof.
  intros D NE NC H T HR.
  destruct (approval_needed pl a rq w st' w' evs D NE NC H T) as (c & q & e1 & b & e2 & acc & e3 & rd & e4 & peer & _ & EV & _ & _ & _ & HA & _).
  assert (HI : In rd evs).
  { rewrite EV. apply in_or_app. right. right. apply in_or_app. right. right. apply in_or_app. right. left. reflexivity. }
  assert (K : exists k, (k = "y"%byte \/ k = "Y"%byte) /\ [k] = firstn 1 (pr_sent (pair_function ok tty keys))).
  { destruct HA as [[A1 A2]|[A1 A2]]; [exists "y"%byte|exists "Y"%byte]; (split; [auto|]); exact (HR rd c _ HI A1 A2). }
  destruct K as (k & Hk & HF).
  assert (HC : pr_connected (pair_function ok tty keys) = true).
  { destruct tty as [t0|]; [|cbn in HF; discriminate].
    unfold pair_function in *. destruct (ok SttyCbreak), (ok SttyIntr), (ok Clear), (ok Socat); cbn [negb] in *; try discriminate.
    destruct (typed _ [] keys). reflexivity. }
  destruct (connected_watching _ _ _ HC) as (t & W). destruct (watching _ _ _ _ W) as (t0 & -> & _ & _ & _ & HE).
  destruct (keys_sent ok t0 keys _ HE) as (rest & E & _). 
  destruct (pr_sent (pair_function ok (Some t0) keys)) as [|k' s]; [discriminate|]. injection HF as <-.
  exists t0, k, (s ++ rest). auto.
Qed.
