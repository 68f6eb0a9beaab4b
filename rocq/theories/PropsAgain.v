(** Property theorems about opening again while a session is active: C86. *)
From Verif Require Import Base Options World Sys Io Socket Env Core Pair Spec TraceSpec CallbackSpec SessionSpec
  CallbackFacts SessionFacts AgainFacts Samples Worlds PropsSession.
Local Open Scope Z_scope.

(** *** C86: a repeated opening does not displace the session *)

(** Whatever the arguments, the answers and the outcome: connections made
    earlier are neither used nor closed; when the call returns the plugin and
    its environment are those of before, and every connection accepted in the
    call is closed. *)
Theorem C86_repeated_open : forall pl a st p w o w' evs,
  st_plugin st = Some p ->
  core_open SudoPair pl a st w = (o, w') -> w_trace w' = w_trace w ++ evs ->
  (forall c, (c < List.length (k_conns (w_k w)))%nat ->
     (forall ev, In ev evs -> ~ UsesConnection c (e_call ev))
     /\ (In c (k_open (w_k w)) -> In c (k_open (w_k w'))))
  /\ (o = Stopped
      \/ exists z st', o = Done (z, st')
         /\ st_plugin st' = Some p /\ (forall e, st_env st = Some e -> st_env st' = Some e)
         /\ forall acc, In acc evs -> Is CAccept AOk acc -> ~ In (List.length (k_conns (e_pre acc))) (k_open (w_k w'))).
Proof. exact open_again. Qed.
Print Assumptions C86_repeated_open.

(** The state of a paired session is the same afterwards. *)
Theorem C86_same_session : forall pl a rq st c a2 w z st' w',
  PairedSession pl a rq st c ->
  core_open SudoPair pl a2 st w = (Done (z, st'), w') -> st' = st.
Proof. exact same_session. Qed.
Print Assumptions C86_same_session.

(** The first pair keeps receiving all output, whatever openings come in
    between. *)
Theorem C86_pair_keeps_watching : forall pl a rq st c h w zs st' w' evs,
  PairedSession pl a rq st c -> Forall NotClose h -> (c < List.length (k_conns (w_k w)))%nat ->
  run_history SudoPair pl h st w = (Done (zs, st'), w') -> w_trace w' = w_trace w ++ evs ->
  st' = st /\ ReceivedAmidOpens rq h zs (delivered c evs).
Proof. exact (fun pl a rq st c h => watched_amid_opens pl a rq st c h). Qed.
Print Assumptions C86_pair_keeps_watching.

(** A second pair approves over connection 1 and is shut out again; the output
    that follows goes to the first. *)
Definition again_world : world :=
  world_of (w_k (snd yes_run)) (local_turns ++ socket_turns [(root, Connect sock)] ++ talk 67 (B "y") ++ [t AOk; t AOk] ++ write_turns 2).
Notation again_run := (run_history SudoPair release [CbOpen to_root; CbLog Stdout (B "hi")] yes_state again_world).

Example C86_example :
  PairedSession release to_root to_root_rq yes_state 0
  /\ Forall NotClose [CbOpen to_root; CbLog Stdout (B "hi")]
  /\ (0 < List.length (k_conns (w_k again_world)))%nat /\ In 0%nat (k_open (w_k again_world))
  /\ codes again_run = Some [1; 1]
  /\ k_open (w_k (snd again_run)) = [0%nat] /\ List.length (k_conns (w_k (snd again_run))) = 2%nat
  /\ delivered 0 (w_trace (snd again_run)) = B "hi"
  /\ existsb (fun ev => match e_call ev with CAccept => true | _ => false end) (w_trace (snd again_run)) = true.
Proof.
  split; [exact yes_paired|]. split; [repeat constructor|].
  split; [apply Nat.ltb_lt; vm_compute; reflexivity|]. split; [vm_compute; left; reflexivity|].
  split; [vm_compute; reflexivity|]. split; [vm_compute; reflexivity|]. split; [vm_compute; reflexivity|].
  split; vm_compute; reflexivity.
Qed.
