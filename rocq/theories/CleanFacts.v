(** C strings handed to the system, and printf where sudo gave none. *)
From Verif Require Import Base BaseLemmas Path Options World Sys Io Socket Env Core Pair TraceSpec CallbackSpec RunProofs SocketProofs PairProofs OpenFacts Structure.
Local Open Scope Z_scope.

Section Only.
Variable Q : call -> Prop.
Definition onl {A} (m : M A) : Prop := forall w o w', m w = (o, w') -> exists evs, w_trace w' = w_trace w ++ evs /\ Only Q evs.

Lemma onl_same {A} (m : M A) : (forall w, w_trace (snd (m w)) = w_trace w) -> onl m.
Proof. intros H w o w' E. exists []. rewrite app_nil_r. split; [|constructor]. rewrite <- (H w), E. reflexivity. Qed.
Lemma onl_bind {A C} (m : M A) (f : A -> M C) : onl m -> (forall x, onl (f x)) -> onl (bind m f).
Proof.
  intros Hm Hf w o w' H. unfold bind in H. destruct (m w) as [om w1] eqn:Em. destruct (Hm _ _ _ Em) as (e1 & T1 & O1).
  destruct om as [x| |]; [|injection H as _ <-; eauto..].
  destruct (Hf x _ _ _ H) as (e2 & T2 & O2). exists (e1 ++ e2). rewrite T2, T1, app_assoc. split; [reflexivity|]. apply Only_app. auto.
Qed.
Lemma onl_catch {A} (m : M A) : onl m -> onl (catch m).
Proof.
  intros Hm w o w' H. unfold catch in H. destruct (m w) as [om w1] eqn:Em. destruct (Hm _ _ _ Em) as (e1 & T1 & O1).
  destruct om; injection H as _ <-; eauto.
Qed.
Lemma onl_unwind {A} (m : M A) c : onl m -> onl c -> onl (unwind_with m c).
Proof.
  intros Hm Hc w o w' H. unfold unwind_with in H. destruct (m w) as [om w1] eqn:Em. destruct (Hm _ _ _ Em) as (e1 & T1 & O1).
  destruct om as [x| |]; try (injection H as _ <-; eauto; fail).
  destruct (c w1) as [oc w2] eqn:Ec. destruct (Hc _ _ _ Ec) as (e2 & T2 & O2).
  assert (X : w_trace w2 = w_trace w ++ e1 ++ e2) by (rewrite T2, T1, app_assoc; reflexivity).
  assert (Y : Only Q (e1 ++ e2)) by (apply Only_app; auto).
  destruct oc; injection H as _ <-; eauto.
Qed.
Lemma onl_sys {A} c (f : answer -> kernel -> option (A * kernel)) : Q c -> onl (sys c f).
Proof.
  intros HQ w o w' H. unfold sys in H. destruct (w_script w) as [|[acts a] s]; [injection H as _ <-; exists []; rewrite app_nil_r; split; [reflexivity|constructor]|].
  destruct (f a _) as [[x k]|]; injection H as _ <-.
  - eexists. split; [reflexivity|]. constructor; [exact HQ|constructor].
  - exists []. rewrite app_nil_r. split; [reflexivity|constructor].
Qed.
End Only.

Lemma write_conn_only (Q : call -> Prop) c d : Q CSigGet -> (forall s, Q (CSigSet s)) -> Q (CWrite c d) -> onl Q (socket_write c d).
Proof.
  intros H1 H2 H3. unfold socket_write, ctrl_c_aborts_syscalls.
  repeat first [apply onl_bind; [|intros ?] | apply onl_sys; auto | apply onl_same; reflexivity
               | match goal with |- onl _ (match ?x with _ => _ end) => destruct x end].
Qed.
Lemma read_conn_only (Q : call -> Prop) c : Q CSigGet -> (forall s, Q (CSigSet s)) -> Q (CRead c) -> onl Q (socket_read c).
Proof.
  intros H1 H2 H3. unfold socket_read, ctrl_c_aborts_syscalls.
  repeat first [apply onl_bind; [|intros ?] | apply onl_sys; auto | apply onl_same; reflexivity
               | match goal with |- onl _ (match ?x with _ => _ end) => destruct x end].
Qed.
Lemma flush_conn_only (Q : call -> Prop) c : Q CSigGet -> (forall s, Q (CSigSet s)) -> onl Q (socket_flush c).
Proof.
  intros H1 H2. unfold socket_flush, ctrl_c_aborts_syscalls.
  repeat first [apply onl_bind; [|intros ?] | apply onl_sys; auto | apply onl_same; reflexivity
               | match goal with |- onl _ (match ?x with _ => _ end) => destruct x end].
Qed.

Ltac by_structure := try reflexivity;
  try (intros; first [apply onl_bind; assumption|apply onl_catch; assumption|apply onl_unwind; assumption|apply onl_same; reflexivity
                     |apply write_conn_only; cbn; auto|apply read_conn_only; cbn; auto|apply flush_conn_only; cbn; auto]).

Lemma whole_history pl h st : onl WholeStrings (run_history SudoPair pl h st).
Proof.
  apply (st_run_history (@onl WholeStrings)) with (euid := pl_euid pl) (PF := fun _ => True); by_structure.
  all: intros; try exact I; apply onl_sys; cbn; try exact I; try (apply has_nul_not_in; assumption);
    match goal with H : CleanPath _ |- _ => intros s Hs; apply has_nul_not_in; exact (H s Hs) end.
Qed.

(** No printf call from a state without printf. *)
Definition Absent (pf : print_facility) : Prop := pf_present pf = false.
Definition NotPrints (c : call) : Prop := ~ Prints c.

Lemma silent_callback pl c st : StateOk Absent st -> CbOk Absent c -> onl NotPrints (run_callback SudoPair pl c st).
Proof.
  apply (st_run_callback (@onl NotPrints)) with (euid := pl_euid pl); by_structure.
  all: intros; try (unfold Absent in *; congruence); try (apply onl_sys; intros (l & d' & E); discriminate);
    try (intros (l & d' & E); discriminate).
Qed.

Lemma silent_history pl h : Forall WithoutPrintf h -> forall st, StateOk Absent st -> onl NotPrints (run_history SudoPair pl h st).
Proof.
  induction 1 as [|c h Hc Hh IH]; intros st HS; cbn [run_history]; [apply onl_same; reflexivity|].
  assert (HC : CbOk Absent c) by (destruct c; cbn in *; auto; split; assumption).
  intros w o w' H. unfold bind at 1 in H. destruct (run_callback SudoPair pl c st w) as [oc w1] eqn:Ec.
  destruct (silent_callback pl c st HS HC _ _ _ Ec) as (e1 & T1 & O1).
  destruct oc as [[z st1]| |]; [|injection H as _ <-; eauto..].
  assert (G : onl NotPrints (r <- run_history SudoPair pl h st1 ;; let '(zs, st2) := r in ret (z :: zs, st2))).
  { apply onl_bind; [apply IH; eapply state_kept; eassumption|]. intros [zs st2]. apply onl_same. reflexivity. }
  destruct (G _ _ _ H) as (e2 & T2 & O2). exists (e1 ++ e2). rewrite T2, T1, app_assoc. split; [reflexivity|]. apply Only_app. auto.
Qed.

Lemma onl_given Q {A} (m : M A) w o w' evs : onl Q m -> m w = (o, w') -> w_trace w' = w_trace w ++ evs -> Only Q evs.
Proof. intros S E T. destruct (S _ _ _ E) as (evs' & T' & H). rewrite T in T'. apply app_inv_head in T'. subst. exact H. Qed.

Lemma silent_given pl h w o w' evs : Forall WithoutPrintf h ->
  run_history SudoPair pl h (pstate0 _) w = (o, w') -> w_trace w' = w_trace w ++ evs -> Only (fun c => ~ Prints c) evs.
Proof. intros F. apply onl_given. apply silent_history; [exact F|]. intros e X. discriminate. Qed.
