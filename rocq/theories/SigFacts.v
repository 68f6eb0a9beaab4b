(** The SIGINT disposition over whole histories of callbacks. *)
From Coq Require Import Lia.
From Verif Require Import Base BaseLemmas Path Options World Sys Io Socket Env Core Pair Spec TraceSpec SessionSpec RunProofs KernelFacts
  CallbackSpec CallbackFacts Structure.
Local Open Scope Z_scope.

(** No sigaction call failed. *)
Definition SigactionWorks (evs : list event) : Prop :=
  Forall (fun ev => match e_call ev with CSigGet | CSigSet _ => e_ans ev = AOk | _ => True end) evs.

(** With disposition [s] outside, reads and writes happen with SA_RESTART off
    and the rest as in [s]; these are the only two dispositions ever set. *)
Definition Interruptible (s : sigact) (ev : event) : Prop :=
  match e_call ev with
  | CRead _ | CWrite _ _ => k_sigint (e_pre ev) = mkSigact false (sa_rest s)
  | CSigSet s' => s' = s \/ s' = mkSigact false (sa_rest s)
  | _ => True
  end.

Definition SigSafe {A} (m : M A) : Prop := forall w o w', m w = (o, w') ->
  exists evs, w_trace w' = w_trace w ++ evs
  /\ (SigactionWorks evs ->
      (o <> Stopped -> k_sigint (w_k w') = k_sigint (w_k w)) /\ Forall (Interruptible (k_sigint (w_k w))) evs).

Lemma ss_same {A} (m : M A) : (forall w, snd (m w) = w) -> SigSafe m.
Proof.
  intros H w o w' E. exists []. specialize (H w). rewrite E in H. cbn in H. subst w'. split; [rewrite app_nil_r; reflexivity|].
  intros _. split; [reflexivity|constructor].
Qed.

Lemma ss_bind A C (m : M A) (f : A -> M C) : SigSafe m -> (forall x, SigSafe (f x)) -> SigSafe (bind m f).
Proof.
  intros Hm Hf w o w' E. unfold bind in E. destruct (m w) as [om w1] eqn:E1. destruct (Hm _ _ _ E1) as (e1 & T1 & S1).
  destruct om as [x| |].
  - destruct (Hf x _ _ _ E) as (e2 & T2 & S2). exists (e1 ++ e2). split; [rewrite T2, T1, app_assoc; reflexivity|].
    intros W. apply Forall_app in W as [W1 W2]. destruct (S1 W1) as [K1 F1]. destruct (S2 W2) as [K2 F2].
    specialize (K1 ltac:(discriminate)). rewrite K1 in *. split; [exact K2|apply Forall_app; split; assumption].
  - injection E as <- <-. exists e1. split; [exact T1|]. intros W. destruct (S1 W) as [K1 F1]. split; [intros _; apply K1; discriminate|exact F1].
  - injection E as <- <-. exists e1. split; [exact T1|]. intros W. destruct (S1 W) as [K1 F1]. split; [congruence|exact F1].
Qed.

Lemma ss_catch A (m : M A) : SigSafe m -> SigSafe (catch m).
Proof.
  intros Hm w o w' E. unfold catch in E. destruct (m w) as [om w1] eqn:E1. destruct (Hm _ _ _ E1) as (e1 & T1 & S1).
  destruct om as [x| |]; injection E as <- <-; exists e1; (split; [exact T1|]); intros W; destruct (S1 W) as [K1 F1];
    (split; [|exact F1]); intros H; try congruence; apply K1; discriminate.
Qed.

Lemma ss_unwind A (m : M A) c : SigSafe m -> SigSafe c -> SigSafe (unwind_with m c).
Proof.
  intros Hm Hc w o w' E. unfold unwind_with in E. destruct (m w) as [om w1] eqn:E1. destruct (Hm _ _ _ E1) as (e1 & T1 & S1).
  destruct om as [x| |].
  1,3: injection E as <- <-; exists e1; split; [exact T1|exact S1].
  destruct (c w1) as [oc w2] eqn:E2. destruct (Hc _ _ _ E2) as (e2 & T2 & S2).
  assert (G : exists evs, w_trace w2 = w_trace w ++ evs
    /\ (SigactionWorks evs -> (oc <> Stopped -> k_sigint (w_k w2) = k_sigint (w_k w)) /\ Forall (Interruptible (k_sigint (w_k w))) evs)).
  { exists (e1 ++ e2). split; [rewrite T2, T1, app_assoc; reflexivity|].
    intros W. apply Forall_app in W as [W1 W2]. destruct (S1 W1) as [K1 F1]. destruct (S2 W2) as [K2 F2].
    specialize (K1 ltac:(discriminate)). rewrite K1 in *. split; [exact K2|apply Forall_app; split; assumption]. }
  destruct G as (evs & T & S). destruct oc as [x| |]; injection E as <- <-; exists evs; (split; [exact T|]); intros W;
    destruct (S W) as [K F]; (split; [|exact F]); intros H; try congruence; apply K; discriminate.
Qed.

Lemma acts_sigint acts : forall k, k_sigint (fold_left act acts k) = k_sigint k.
Proof. intros k. exact (acts_keep _ act_sigint acts k). Qed.

Lemma ss_sys {A} c (f : answer -> kernel -> option (A * kernel)) :
  match c with CRead _ | CWrite _ _ | CSigSet _ => False | _ => True end ->
  (forall a k x k', f a k = Some (x, k') -> k_sigint k' = k_sigint k) -> SigSafe (sys c f).
Proof.
  intros Hc Hf w o w' E. unfold sys in E. destruct (w_script w) as [|[acts a] rest].
  { injection E as <- <-. exists []. split; [rewrite app_nil_r; reflexivity|]. intros _. split; [reflexivity|constructor]. }
  destruct (f a _) as [[x k2]|] eqn:E1; injection E as <- <-.
  2: { exists []. split; [rewrite app_nil_r; reflexivity|]. intros _. split; [reflexivity|constructor]. }
  cbn. eexists. split; [reflexivity|]. intros _. rewrite (Hf _ _ _ _ E1). split; [intros _; apply acts_sigint|].
  constructor; [|constructor]. unfold Interruptible. cbn. destruct c; try exact I; contradiction.
Qed.

(** [sys_read] or [sys_write], or nothing, in between. *)
Definition Inside {A} (m : M A) : Prop := forall w o w', m w = (o, w') ->
  o <> Panicked /\ exists evs, w_trace w' = w_trace w ++ evs /\ k_sigint (w_k w') = k_sigint (w_k w)
  /\ Forall (fun ev => match e_call ev with CSigGet | CSigSet _ => False | _ => k_sigint (e_pre ev) = k_sigint (w_k w) end) evs.

Lemma inside_sys {A} c (f : answer -> kernel -> option (A * kernel)) :
  match c with CSigGet | CSigSet _ => False | _ => True end ->
  (forall a k x k', f a k = Some (x, k') -> k_sigint k' = k_sigint k) -> Inside (sys c f).
Proof.
  intros Hc Hf w o w' E. unfold sys in E. destruct (w_script w) as [|[acts a] rest].
  { injection E as <- <-. split; [discriminate|]. exists []. split; [rewrite app_nil_r; reflexivity|]. split; [reflexivity|constructor]. }
  destruct (f a _) as [[x k2]|] eqn:E1; injection E as <- <-; (split; [discriminate|]).
  2: { exists []. split; [rewrite app_nil_r; reflexivity|]. split; [reflexivity|constructor]. }
  cbn. eexists. split; [reflexivity|]. rewrite (Hf _ _ _ _ E1). split; [apply acts_sigint|].
  constructor; [|constructor]. cbn. destruct c; try contradiction; apply acts_sigint.
Qed.

Lemma inside_ret A (x : A) : Inside (ret x).
Proof.
  intros w o w' E. injection E as <- <-. split; [discriminate|]. exists []. split; [rewrite app_nil_r; reflexivity|]. split; [reflexivity|constructor].
Qed.

Lemma ss_ctrl {A} (m : M A) : Inside m -> SigSafe (ctrl_c_aborts_syscalls m).
Proof.
  intros Hm w o w' E. unfold ctrl_c_aborts_syscalls, bind, sys_sigget, sys_sigset in E. unfold sys at 1 in E.
  destruct (w_script w) as [|[acts a] rest].
  { injection E as <- <-. exists []. split; [rewrite app_nil_r; reflexivity|]. intros _. split; [reflexivity|constructor]. }
  set (k1 := fold_left act acts (w_k w)) in *.
  assert (HK1 : k_sigint k1 = k_sigint (w_k w)) by apply acts_sigint. clearbody k1.
  assert (Bad : forall es an tl, SigactionWorks (es ++ an :: tl) ->
    match e_call an with CSigGet | CSigSet _ => True | _ => False end -> e_ans an = AOk).
  { intros es an tl W Hc. apply Forall_app in W as [_ W]. apply Forall_inv in W. destruct (e_call an); try contradiction; exact W. }
  destruct a as [|e|z|d].
  2: { destruct (e =? EINTR).
       { injection E as <- <-. exists []. split; [rewrite app_nil_r; reflexivity|]. intros _. split; [reflexivity|constructor]. }
       injection E as <- <-. cbn. eexists. split; [reflexivity|]. intros W. discriminate (Bad [] _ _ W I). }
  2,3: injection E as <- <-; exists []; split; [rewrite app_nil_r; reflexivity|]; intros _; split; [reflexivity|constructor].
  unfold sys at 1 in E. cbn [w_script w_k w_trace] in E.
  assert (Int1 : Forall (Interruptible (k_sigint (w_k w))) [mkEvent CSigGet AOk k1 k1]) by (constructor; [exact I|constructor]).
  destruct rest as [|[acts2 a2] rest].
  { injection E as <- <-. cbn. eexists. split; [reflexivity|]. intros _. split; [congruence|exact Int1]. }
  set (k2 := fold_left act acts2 k1) in *.
  assert (HK2 : k_sigint k2 = k_sigint k1) by apply acts_sigint. clearbody k2.
  destruct a2 as [|e|z|d].
  2: { destruct (e =? EINTR).
       { injection E as <- <-. cbn. eexists. split; [reflexivity|]. intros _. split; [congruence|exact Int1]. }
       injection E as <- <-. cbn. eexists. split; [rewrite <- app_assoc; reflexivity|]. intros W. discriminate (Bad [_] _ _ W I). }
  2,3: injection E as <- <-; cbn; eexists; (split; [reflexivity|]); intros _; split; [congruence|exact Int1].
  destruct (m _) as [om w3] eqn:E3 in E. destruct (Hm _ _ _ E3) as (NP & e3 & T3 & K3 & F3). cbn [w_k w_trace] in T3, K3, F3.
  cbn [set_sigint k_sigint] in K3, F3. rewrite HK1 in *.
  set (quiet := mkSigact false (sa_rest (k_sigint (w_k w)))) in *.
  assert (Pre : w_trace w3 = w_trace w ++ ([mkEvent CSigGet AOk k1 k1; mkEvent (CSigSet quiet) AOk k2 (set_sigint quiet k2)] ++ e3))
    by (rewrite T3, !app_assoc, <- (app_assoc (w_trace w)); reflexivity).
  assert (Int3 : Forall (Interruptible (k_sigint (w_k w)))
                   ([mkEvent CSigGet AOk k1 k1; mkEvent (CSigSet quiet) AOk k2 (set_sigint quiet k2)] ++ e3)).
  { constructor; [exact I|]. constructor; [right; reflexivity|]. revert F3. apply Forall_impl. intros ev.
    unfold Interruptible. destruct (e_call ev); tauto. }
  destruct om as [x| |]; [|congruence|].
  2: { injection E as <- <-. eexists. split; [exact Pre|]. intros _. split; [congruence|exact Int3]. }
  unfold sys in E. destruct (w_script w3) as [|[acts4 a4] rest4].
  { injection E as <- <-. eexists. split; [exact Pre|]. intros _. split; [congruence|exact Int3]. }
  destruct a4 as [|e|z|d].
  - injection E as <- <-. cbn [w_k w_trace]. rewrite Pre. eexists. split; [rewrite <- app_assoc; reflexivity|]. intros _.
    split; [reflexivity|]. apply Forall_app. split; [exact Int3|]. constructor; [left; reflexivity|constructor].
  - destruct (e =? EINTR).
    { injection E as <- <-. eexists. split; [exact Pre|]. intros _. split; [congruence|exact Int3]. }
    injection E as <- <-. cbn [w_k w_trace]. rewrite Pre. eexists. split; [rewrite <- app_assoc; reflexivity|].
    intros W. discriminate (Bad _ _ _ W I).
  - injection E as <- <-. eexists. split; [exact Pre|]. intros _. split; [congruence|exact Int3].
  - injection E as <- <-. eexists. split; [exact Pre|]. intros _. split; [congruence|exact Int3].
Qed.

Ltac keeps := intros a k x k' H;
  repeat match type of H with
  | match ?y with _ => _ end = Some _ => destruct y; try discriminate
  | (if ?y then _ else _) = Some _ => destruct y; try discriminate
  | (let '_ := ?y in _) = Some _ => destruct y; try discriminate
  end; try (injection H as <- <-; reflexivity).

Lemma ss_read c : SigSafe (socket_read c).
Proof. apply ss_bind; [|intros; apply ss_same; reflexivity]. apply ss_ctrl. apply inside_sys; [exact I|]. keeps. Qed.
Lemma ss_write c d : SigSafe (socket_write c d).
Proof. apply ss_bind; [|intros; apply ss_same; reflexivity]. apply ss_ctrl. apply inside_sys; [exact I|]. keeps. Qed.
Lemma ss_flush c : SigSafe (socket_flush c).
Proof. apply ss_bind; [|intros; apply ss_same; reflexivity]. apply ss_ctrl. apply inside_ret. Qed.

Lemma ss_history pl h st : SigSafe (run_history SudoPair pl h st).
Proof.
  apply (st_run_history (@SigSafe)) with (euid := pl_euid pl) (PF := fun _ => True); try reflexivity; try exact (fun _ => I);
    try (intros; first [apply ss_read|apply ss_write|apply ss_flush|apply ss_bind; assumption|apply ss_catch; assumption
                       |apply ss_unwind; assumption|apply ss_same; reflexivity]).
  all: intros; repeat match goal with H : _ |- _ => match type of H with CleanPath _ => clear H | _ = _ => clear H | True => clear H end end; apply ss_sys; [exact I|]; unfold ok_or_err; keeps.
Qed.

Lemma safe_given {A} (m : M A) w o w' evs : SigSafe m -> m w = (o, w') -> w_trace w' = w_trace w ++ evs -> SigactionWorks evs ->
  (o <> Stopped -> k_sigint (w_k w') = k_sigint (w_k w)) /\ Forall (Interruptible (k_sigint (w_k w))) evs.
Proof.
  intros S E T W. destruct (S _ _ _ E) as (evs' & T' & H). rewrite T in T'. apply app_inv_head in T'. subst evs'. exact (H W).
Qed.

Lemma history_safe pl h st w o w' evs :
  run_history SudoPair pl h st w = (o, w') -> w_trace w' = w_trace w ++ evs -> SigactionWorks evs ->
  (o <> Stopped -> k_sigint (w_k w') = k_sigint (w_k w))
  /\ Forall (Interruptible (k_sigint (w_k w))) evs.
Proof. intros. eapply safe_given; eauto. apply ss_history. Qed.

Lemma only_interrupted pl a rq st c s d w z w' evs :
  PairedSession pl a rq st c -> OutputStream s -> rq_log rq s = true ->
  core_log SudoPair pl s d st w = (Done z, w') -> w_trace w' = w_trace w ++ evs ->
  Forall (fun ev => match e_ans ev with AErr e => e = EINTR | ANum n => 0 < n | _ => True end) evs ->
  z = 1 /\ delivered c evs = d.
Proof.
  intros P S L H T F. destruct (paired_output _ _ _ _ _ _ _ _ _ _ _ P S L H T) as [_ [G|(_ & _ & X)]]; [exact G|].
  exfalso. rewrite Forall_forall in F. apply Exists_exists in X as (ev & Hin & HF). specialize (F _ Hin).
  unfold Failed in HF. destruct (e_ans ev); try contradiction. destruct (e_call ev); try contradiction; lia.
Qed.
