(** Property theorems about Ctrl-C: C45, C62. *)
From Verif Require Import Base Num Path Options World Sys Io Socket Env Core Pair Spec TraceSpec SessionSpec CallbackSpec
  CallbackFacts SigFacts Samples Worlds PropsSession.
Local Open Scope Z_scope.

(** *** C45: the disposition of SIGINT is put back *)

(** One operation on the connection, whatever it returns. *)
Theorem C45_read : forall c w o w' evs,
  socket_read c w = (o, w') -> w_trace w' = w_trace w ++ evs -> SigactionWorks evs ->
  (o <> Stopped -> k_sigint (w_k w') = k_sigint (w_k w))
  /\ Forall (Interruptible (k_sigint (w_k w))) evs.
Proof. exact (fun c w o w' evs => safe_given _ w o w' evs (ss_read c)). Qed.
Print Assumptions C45_read.

Theorem C45_write : forall c d w o w' evs,
  socket_write c d w = (o, w') -> w_trace w' = w_trace w ++ evs -> SigactionWorks evs ->
  (o <> Stopped -> k_sigint (w_k w') = k_sigint (w_k w))
  /\ Forall (Interruptible (k_sigint (w_k w))) evs.
Proof. exact (fun c d w o w' evs => safe_given _ w o w' evs (ss_write c d)). Qed.
Print Assumptions C45_write.

Theorem C45_flush : forall c w o w' evs,
  socket_flush c w = (o, w') -> w_trace w' = w_trace w ++ evs -> SigactionWorks evs ->
  (o <> Stopped -> k_sigint (w_k w') = k_sigint (w_k w))
  /\ Forall (Interruptible (k_sigint (w_k w))) evs.
Proof. exact (fun c w o w' evs => safe_given _ w o w' evs (ss_flush c)). Qed.
Print Assumptions C45_flush.

(** Any history of callbacks. *)
Theorem C45_history : forall pl h st w o w' evs,
  run_history SudoPair pl h st w = (o, w') -> w_trace w' = w_trace w ++ evs -> SigactionWorks evs ->
  (o <> Stopped -> k_sigint (w_k w') = k_sigint (w_k w))
  /\ Forall (Interruptible (k_sigint (w_k w))) evs.
Proof. exact history_safe. Qed.
Print Assumptions C45_history.

(** A handler that restarts calls is in place before and after; while root's
    answer is read, it is the same without SA_RESTART. *)
Example C45_example : exists ev,
  In ev (w_trace (snd yes_run)) /\ e_call ev = CRead 0
  /\ k_sigint (w_k yes_world) = mkSigact true 7 /\ k_sigint (e_pre ev) = mkSigact false 7
  /\ k_sigint (w_k (snd yes_run)) = mkSigact true 7
  /\ In (CSigSet (mkSigact false 7), AOk) (seen (w_trace (snd yes_run))).
Proof.
  exists (nth 28 (w_trace (snd yes_run)) (mkEvent CSelect AOk k_root k_root)).
  split; [apply nth_In; vm_compute; repeat constructor|]. split; [vm_compute; reflexivity|].
  split; [reflexivity|]. split; [vm_compute; reflexivity|]. split; [vm_compute; reflexivity|].
  vm_compute (seen _). do 20 right. left. reflexivity.
Qed.

(** *** C62: Ctrl-C while output is sent to the pair *)

(** One would expect it to end the session, as it does while waiting. *)
Definition C62_full : Prop := forall pl a rq st c s d w z w' evs ev d',
  PairedSession pl a rq st c -> OutputStream s -> rq_log rq s = true ->
  core_log SudoPair pl s d st w = (Done z, w') -> w_trace w' = w_trace w ++ evs ->
  In ev evs -> Is (CWrite c d') (AErr EINTR) ev -> z = 0.

(** Interruptions alone never end it: the write is simply made again. *)
Theorem C62_write_made_again : forall pl a rq st c s d w z w' evs,
  PairedSession pl a rq st c -> OutputStream s -> rq_log rq s = true ->
  core_log SudoPair pl s d st w = (Done z, w') -> w_trace w' = w_trace w ++ evs ->
  Forall (fun ev => match e_ans ev with
                    | AErr e => e = EINTR
                    | ANum n => 0 < n
                    | _ => True
                    end) evs ->
  z = 1 /\ delivered c evs = d.
Proof. exact only_interrupted. Qed.
Print Assumptions C62_write_made_again.

Definition interrupted_world : world := world_of k_root
  ([t AOk; t AOk; t (AErr EINTR); t AOk] ++ [t AOk; t AOk; t (AErr EINTR); t AOk] ++ write_turns 5).

Theorem C62_refuted : exists pl a rq st c s d w w' evs ev d',
  PairedSession pl a rq st c /\ OutputStream s /\ rq_log rq s = true
  /\ core_log SudoPair pl s d st w = (Done 1, w') /\ w_trace w' = w_trace w ++ evs
  /\ In ev evs /\ Is (CWrite c d') (AErr EINTR) ev.
Proof.
  pose (r := core_log SudoPair release Stdout (B "hello") yes_state interrupted_world).
  assert (H : fst r = Done 1) by (vm_compute; reflexivity).
  assert (N : nth_error (seen (w_trace (snd r))) 2 = Some (CWrite 0 (B "hello"), AErr EINTR)) by (vm_compute; reflexivity).
  apply nth_error_In in N. apply seen_In in N as (ev & Hin & Hc & Ha).
  exists release, to_root, to_root_rq, yes_state, 0%nat, Stdout, (B "hello"), interrupted_world, (snd r), (w_trace (snd r)), ev, (B "hello").
  split; [exact yes_paired|]. split; [right; left; reflexivity|]. split; [reflexivity|].
  split; [|split; [exact (no_trace interrupted_world _ eq_refl)|split; [exact Hin|split; assumption]]].
  clear - H. change (r = (Done 1, snd r)). destruct r as [o w]. cbn in H |- *. rewrite H. reflexivity.
Qed.
Print Assumptions C62_refuted.

Theorem C62_not_full : ~ C62_full.
Proof.
  intros F. destruct C62_refuted as (pl & a & rq & st & c & s & d & w & w' & evs & ev & d' & P & S & L & H & T & Hin & HI).
  discriminate (F _ _ _ _ _ _ _ _ _ _ _ _ _ P S L H T Hin HI).
Qed.
Print Assumptions C62_not_full.

Example C62_example : PairedSession release to_root to_root_rq yes_state 0
  /\ fst (core_log SudoPair release Stdout (B "hello") yes_state interrupted_world) = Done 1
  /\ delivered 0 (w_trace (snd (core_log SudoPair release Stdout (B "hello") yes_state interrupted_world))) = B "hello"
  /\ List.length (w_trace (snd (core_log SudoPair release Stdout (B "hello") yes_state interrupted_world))) = 12%nat.
Proof. split; [exact yes_paired|]. repeat split; vm_compute; reflexivity. Qed.
