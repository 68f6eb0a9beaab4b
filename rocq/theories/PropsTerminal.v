(** Property theorems about the terminal of the pair: C93. *)
From Verif Require Import Base World Options Env Core Pair Spec TraceSpec SessionSpec Samples Worlds SessionFacts CallbackSpec CallbackFacts PropsApproval PropsSession PropsFront Terminal TerminalFacts
  Frontend FrontSpec LeaveSpec LeaveFacts PropsLeave.
Local Open Scope Z_scope.

(** *** C93: what the pair types *)

(** The keys are sent one by one as they are typed, up to the one that ends
    it. *)
Theorem C93_keys : forall ok t0 keys e, pr_ending (pair_function ok (Some t0) keys) = Some e ->
  let r := pair_function ok (Some t0) keys in
  exists rest, keys = pr_sent r ++ rest
  /\ (tm_isig t0 = true -> forall k, In k (pr_sent r) -> k <> x04 /\ tm_quit t0 <> Some k /\ tm_susp t0 <> Some k)
  /\ match e with
     | Open => rest = []
     | Interrupted => tm_isig t0 = true /\ exists rest', rest = x04 :: rest'
     | Killed => tm_isig t0 = true /\ exists k rest', rest = k :: rest' /\ tm_quit t0 = Some k /\ k <> x04
     | Paused => tm_isig t0 = true /\ exists k rest', rest = k :: rest' /\ tm_susp t0 = Some k /\ k <> x04
     | EndOfFile => False
     end.
Proof. exact keys_sent. Qed.
Print Assumptions C93_keys.

(** Other keys, Ctrl-C among them, leave the connection open. *)
Theorem C93_other_keys : forall ok t0 keys, pr_connected (pair_function ok (Some t0) keys) = true ->
  Forall (fun k => k <> x04 /\ tm_quit t0 <> Some k /\ tm_susp t0 <> Some k) keys ->
  pr_ending (pair_function ok (Some t0) keys) = Some Open /\ pr_sent (pair_function ok (Some t0) keys) = keys.
Proof. exact plain_keys. Qed.
Print Assumptions C93_other_keys.

(** A session that was opened at the other end was approved by a single key,
    the first, typed at a terminal. *)
Theorem C93_approved : forall pl a rq w st' w' evs ok tty keys,
  Describes pl a rq -> ~ Exempt rq -> rq_command rq <> [] ->
  core_open SudoPair pl a (pstate0 _) w = (Done (1, st'), w') -> w_trace w' = w_trace w ++ evs ->
  (forall rd c d, In rd evs -> e_call rd = CRead c -> e_ans rd = AData d -> d = firstn 1 (pr_sent (pair_function ok tty keys))) ->
  exists t0 k ks, tty = Some t0 /\ keys = k :: ks /\ (k = "y"%byte \/ k = "Y"%byte)
    /\ pr_connected (pair_function ok tty keys) = true.
Proof. exact approved_by_key. Qed.
Print Assumptions C93_approved.

(** What else the pair types, Ctrl-C among it, is never read: while the session
    lasts the plugin only writes to them, and to the user. *)
Theorem C93_unheard : forall pl a rq st c h g w o w' evs,
  PairedSession pl a rq st c ->
  front_steps (exported SudoPair pl) h (mkFront st [] g true) w = (o, w') -> w_trace w' = w_trace w ++ evs ->
  forall ev, In ev evs ->
    (exists d, e_call ev = CWrite c d) \/ e_call ev = CSigGet \/ (exists x, e_call ev = CSigSet x) \/ (exists d, e_call ev = CPrintf 3 d).
Proof. exact only_writes. Qed.
Print Assumptions C93_unheard.

(** Without a terminal the script does not connect. *)
Theorem C93_terminal : forall ok keys, let r := pair_function ok None keys in pr_connected r = false /\ pr_sent r = [].
Proof. exact needs_terminal. Qed.
Print Assumptions C93_terminal.

(** What is typed is not shown by the terminal itself; other settings stay. *)
Theorem C93_no_echo : forall ok tty keys t, pr_watching (pair_function ok tty keys) = Some t ->
  tm_echo t = false /\ exists t0, tty = Some t0 /\ tm_other t = tm_other t0 /\ tm_quit t = tm_quit t0.
Proof. exact no_echo. Qed.
Print Assumptions C93_no_echo.

(** However the function is left, the terminal is as it was. *)
Theorem C93_restored : forall ok t0 keys, ok SttySave = true -> ok SttyRestore = true ->
  let r := pair_function ok (Some t0) keys in
  pr_ending r <> Some Open -> pr_ending r <> Some Paused -> pr_after r = Some t0.
Proof. exact restored. Qed.
Print Assumptions C93_restored.

(** Ctrl-D ends the connection, if the terminal sends signals at all and no
    other key has ended or suspended it before. *)
Theorem C93_ctrl_d : forall ok t0 keys,
  pr_connected (pair_function ok (Some t0) keys) = true -> tm_isig t0 = true -> In x04 keys ->
  pr_ending (pair_function ok (Some t0) keys) <> Some Open.
Proof. exact ctrl_d_ends. Qed.
Print Assumptions C93_ctrl_d.

(** sudo_pair/README.md:197-199 and sudo_pair.prompt.pair:7 say so of every terminal. *)
Definition C93_full : Prop := forall ok t0 keys,
  pr_connected (pair_function ok (Some t0) keys) = true -> In x04 keys ->
  pr_ending (pair_function ok (Some t0) keys) <> Some Open.

Definition usual : termios := mkTermios true true true (Some x03) (Some x1c) (Some x1a) (Some x04) 35387.
Definition no_signals : termios := mkTermios true true false (Some x03) (Some x1c) (Some x1a) (Some x04) 35387.
Definition works : program -> bool := fun _ => true.

Theorem C93_refuted : exists ok t0 keys,
  pr_connected (pair_function ok (Some t0) keys) = true /\ In x04 keys
  /\ pr_ending (pair_function ok (Some t0) keys) = Some Open.
Proof. exists works, no_signals, [x79; x04]. split; [reflexivity|]. split; [right; left; reflexivity|reflexivity]. Qed.
Print Assumptions C93_refuted.

Theorem C93_not_full : ~ C93_full.
Proof. intros F. destruct C93_refuted as (ok & t0 & keys & C & I & E). exact (F ok t0 keys C I E). Qed.
Print Assumptions C93_not_full.

Example C93_example :
  pair_function works (Some usual) [x79; x03; x03; x04; x79]
    = mkPairing true [x79; x03; x03] (Some Interrupted)
        (Some (mkTermios false false true (Some x04) (Some x1c) (Some x1a) (Some x04) 35387)) (Some usual)
  /\ pair_function works (Some usual) [x04; x79] = mkPairing true [] (Some Interrupted)
        (Some (mkTermios false false true (Some x04) (Some x1c) (Some x1a) (Some x04) 35387)) (Some usual)
  /\ pr_ending (pair_function works (Some usual) [x79; x1a]) = Some Paused
  /\ pr_after (pair_function works (Some usual) [x79; x1a]) <> Some usual
  /\ pair_function (fun p => match p with Clear => false | _ => true end) (Some usual) [x79] = mkPairing false [] None None (Some usual)
  /\ typed usual [] [x79; x03] = ([], Interrupted)
  /\ typed usual [] [x79; x0a; x79; x04; x04] = ([x79; x0a; x79], EndOfFile).
Proof. repeat split. cbn. discriminate. Qed.

(** The session of C20, approved by "y". *)
Example C93_approved_example : exists st' w', Describes release to_root to_root_rq /\ ~ Exempt to_root_rq
  /\ rq_command to_root_rq <> []
  /\ core_open SudoPair release to_root (pstate0 _) yes_world = (Done (1, st'), w')
  /\ (forall rd c d, In rd (w_trace w') -> e_call rd = CRead c -> e_ans rd = AData d ->
       d = firstn 1 (pr_sent (pair_function works (Some usual) [x79; x03]))).
Proof.
  destruct (code_run (core_open SudoPair release to_root (pstate0 _) yes_world) 1) as [st' H]; [vm_compute; reflexivity|].
  exists st', (snd (core_open SudoPair release to_root (pstate0 _) yes_world)).
  split; [exact to_root_describes|]. split; [exact to_root_not_exempt|]. split; [discriminate|]. split; [exact H|].
  assert (K : forallb (fun ev => match e_call ev, e_ans ev with CRead _, AData d => bytes_eqb d [x79] | _, _ => true end)
                (w_trace (snd (core_open SudoPair release to_root (pstate0 _) yes_world))) = true) by (vm_compute; reflexivity).
  rewrite forallb_forall in K. intros rd c d HI E1 E2. specialize (K rd HI). rewrite E1, E2 in K. clear HI H.
  apply BaseLemmas.bytes_eqb_eq in K. exact K.
Qed.

(** In the session of C92 the plugin writes, fails, and tells the user. *)
Example C93_unheard_example : PairedSession release to_root to_root_rq yes_state 0
  /\ map (fun ev => match e_call ev with CWrite _ _ => 1 | CPrintf 3 _ => 2 | CSigGet | CSigSet _ => 3 | _ => 0 end) (w_trace (snd left_run))
     = [3; 3; 1; 3; 2; 2; 2].
Proof. split; [exact yes_paired|]. vm_compute. reflexivity. Qed.
