(** Property theorems about the records of a session: C98 and C99. *)
From Verif Require Import Base Num Path Template Options World Sys Io Socket Env Core Pair Log Spec TraceSpec SessionSpec LogSpec Samples
  RequestProofs InputFacts SessionFacts Worlds LogFacts PropsSocket PropsFirst.
Local Open Scope Z_scope.

(** *** C98: the records of a session *)

(** Whatever an opening comes to, what is recorded of it at the levels every
    build keeps is the beginning of one of four stories. *)
Theorem C98_story : forall mx pl s a rq w, Describes pl a rq -> rq_command rq <> [] -> kept mx LInfo = true -> discards s = false ->
  exists story rest, Story story /\ story = messages (recorded mx s (open_records mx pl a w)) ++ rest.
Proof.
  intros mx pl s a rq w D NC MX HS. rewrite (recorded_messages mx s _ MX HS).
  destruct (trail_story mx pl a rq D NC w) as (st & H & r & E). exists st, r. split; [exact H|exact E].
Qed.
Print Assumptions C98_story.

(** The records of an accepted opening tell it to the end. *)
Theorem C98_accepted : forall mx pl s a rq w st' w', Describes pl a rq -> rq_command rq <> [] -> kept mx LInfo = true -> discards s = false ->
  core_open SudoPair pl a (pstate0 _) w = (Done (1, st'), w') ->
  (Exempt rq -> messages (recorded mx s (open_records mx pl a w)) = [EXEMPT])
  /\ (~ Exempt rq -> messages (recorded mx s (open_records mx pl a w)) = [REQUIRED; WAITING; CONNECTED; APPROVED; STARTED]).
Proof.
  intros mx pl s a rq w st' w' D NC MX HS. rewrite (recorded_messages mx s _ MX HS). exact (trail_accepted mx pl a rq D NC w st' w').
Qed.
Print Assumptions C98_accepted.

(** Nothing is done but telling the user, in particular no socket is created,
    without a record that a pair is waited for: even if nobody ever answers. *)
Theorem C98_waiting : forall mx pl s a rq w o w' evs ev, Describes pl a rq -> rq_command rq <> [] -> kept mx LInfo = true -> discards s = false ->
  core_open SudoPair pl a (pstate0 _) w = (o, w') -> w_trace w' = w_trace w ++ evs ->
  In ev evs -> ~ LocalPrompt (e_call ev) -> In WAITING (messages (recorded mx s (open_records mx pl a w))).
Proof.
  intros mx pl s a rq w o w' evs ev D NC MX HS. rewrite (recorded_messages mx s _ MX HS). exact (trail_waiting mx pl a rq D NC w o w' evs ev).
Qed.
Print Assumptions C98_waiting.

(** carol's stalled conversation of C97 *)
Example C98_waiting_example : code (root_run stalled_world) = None
  /\ messages (recorded (default_max release) Journald (open_records (default_max release) release to_root stalled_world)) = [REQUIRED; WAITING; CONNECTED]
  /\ e_call (nth 8 (w_trace (snd (root_run stalled_world))) no_event) = CBind sock.
Proof. split; [vm_compute; reflexivity|]. split; vm_compute; reflexivity. Qed.

(** An approval on record took place: somebody able to was asked and said yes. *)
Theorem C98_approved : forall mx pl s a rq w o w' evs, Describes pl a rq -> rq_command rq <> [] ->
  core_open SudoPair pl a (pstate0 _) w = (o, w') -> w_trace w' = w_trace w ++ evs ->
  In APPROVED (messages (recorded mx s (open_records mx pl a w))) \/ In STARTED (messages (recorded mx s (open_records mx pl a w))) ->
  (exists st', o = Done (1, st')) /\ exists c, Approved rq c evs.
Proof.
  intros mx pl s a rq w o w' evs D NC H T HA.
  refine (trail_approved mx pl a rq D NC w o w' evs H T _).
  destruct HA as [HA|HA]; [left|right]; exact (recorded_message mx s _ _ HA).
Qed.
Print Assumptions C98_approved.

(** So did a refusal on record, and the command was not run. *)
Theorem C98_declined : forall mx pl s a rq w o w' evs, Describes pl a rq -> rq_command rq <> [] ->
  core_open SudoPair pl a (pstate0 _) w = (o, w') -> w_trace w' = w_trace w ++ evs ->
  In DECLINED (messages (recorded mx s (open_records mx pl a w))) ->
  (o = Stopped \/ exists st', o = Done (-1, st')) /\ exists d, answered d evs /\ d <> B "y" /\ d <> B "Y".
Proof.
  intros mx pl s a rq w o w' evs D NC H T HA.
  exact (trail_declined mx pl a rq D NC w o w' evs H T (recorded_message mx s _ _ HA)).
Qed.
Print Assumptions C98_declined.

(** Conversely, an answer other than yes is on record as a refusal, unless a
    disposition of SIGINT could not be set. *)
Theorem C98_answered : forall mx pl s a rq w z st' w' evs d, Describes pl a rq -> rq_command rq <> [] -> kept mx LInfo = true -> discards s = false ->
  core_open SudoPair pl a (pstate0 _) w = (Done (z, st'), w') -> w_trace w' = w_trace w ++ evs ->
  answered d evs -> d <> B "y" -> d <> B "Y" ->
  messages (recorded mx s (open_records mx pl a w)) = [REQUIRED; WAITING; CONNECTED; DECLINED] \/ Unrestored evs.
Proof.
  intros mx pl s a rq w z st' w' evs d D NC MX HS. rewrite (recorded_messages mx s _ MX HS). exact (trail_answered mx pl a rq D NC w z st' w' evs d).
Qed.
Print Assumptions C98_answered.

(** Every such record, of the opening and of all that follows, says who wanted
    to run what as whom. *)
Theorem C98_identity : forall mx pl s a rq h w r, Describes pl a rq -> Forall Continues h ->
  In r (recorded mx s (history_records mx pl (CbOpen a :: h) (pstate0 _) w)) -> important r = true -> Identifies rq r.
Proof. intros mx pl s a rq h w r D F H. exact (identity mx pl a rq w h r D F (recorded_In mx s _ _ H)). Qed.
Print Assumptions C98_identity.

(** A session from its opening to its end, whatever happens in between. *)
Theorem C98_session : forall mx pl s a rq x y h w zs st' w', Describes pl a rq -> rq_command rq <> [] -> kept mx LInfo = true -> discards s = false -> Forall During h ->
  run_history SudoPair pl (CbOpen a :: h ++ [CbClose x y]) (pstate0 _) w = (Done (1 :: zs, st'), w') ->
  (Exempt rq -> messages (recorded mx s (history_records mx pl (CbOpen a :: h ++ [CbClose x y]) (pstate0 _) w)) = [EXEMPT])
  /\ (~ Exempt rq -> messages (recorded mx s (history_records mx pl (CbOpen a :: h ++ [CbClose x y]) (pstate0 _) w))
       = [REQUIRED; WAITING; CONNECTED; APPROVED; STARTED; ENDED]).
Proof. exact session_told. Qed.
Print Assumptions C98_session.

(** The end of a session is on record only after its connection was shut down. *)
Theorem C98_ended : forall mx pl s x y st w o w' evs, run_callback SudoPair pl (CbClose x y) st w = (o, w') -> w_trace w' = w_trace w ++ evs ->
  In ENDED (messages (recorded mx s (callback_records mx pl (CbClose x y) st w))) ->
  exists p c ev rest, st_plugin st = Some p /\ sp_socket p = Some c /\ evs = ev :: rest /\ e_call ev = CShutdown c.
Proof.
  intros mx pl s x y st w o w' evs H T HE.
  exact (ended_closed mx pl x y st w o w' evs H T (recorded_message mx s _ _ HE)).
Qed.
Print Assumptions C98_ended.

(** root approves, output is forwarded, and the session ends. *)
Definition ended_world : world := world_of k_root
  (local_turns ++ socket_turns [(root, Connect sock)] ++ talk 67 (B "y") ++ write_turns 5 ++ flush_turns ++ [t AOk; t AOk; t AOk]).
Definition whole_session : list callback := [CbOpen to_root; CbLog Ttyout (B "hello"); CbClose 0 0].
Example C98_example :
  Describes release to_root to_root_rq /\ rq_command to_root_rq <> [] /\ ~ Exempt to_root_rq
  /\ codes (run_history SudoPair release whole_session (pstate0 _) ended_world) = Some [1; 1; 0]
  /\ messages (recorded (default_max release) (Syslog true) (history_records (default_max release) release whole_session (pstate0 _) ended_world))
     = [B "pair session required"; B "socket waiting for pair to connect..."; B "socket connected";
        B "remote pair approved session"; B "pair session started"; B "pair session ended"]
  /\ messages (recorded (default_max release) Journald (open_records (default_max release) release to_root no_world))
     = [B "pair session required"; B "socket waiting for pair to connect..."; B "socket connected"; B "remote pair declined session"]
  /\ map r_level (recorded (default_max release) Journald (open_records (default_max release) release to_root no_world)) = [LInfo; LInfo; LInfo; LWarn]
  /\ map (fun r => nth 0 (r_values r) (B "", VNum 0)) (recorded (default_max release) Journald (history_records (default_max release) release whole_session (pstate0 _) ended_world))
     = let p := (B "socket_path", VLossy (B "/var/run/sudo_pair/1000.4242.sock")) in let u := (B "uid", VNum 1000) in [u; p; p; u; u; u].
Proof.
  split; [exact to_root_describes|]. split; [discriminate|]. split; [apply to_root_not_exempt|].
  split; [vm_compute; reflexivity|]. split; [vm_compute; reflexivity|]. split; [vm_compute; reflexivity|].
  split; vm_compute; reflexivity.
Qed.

(** It would be well if the records of an approved session said who approved. *)
Definition C98_peer_full : Prop := forall mx pl a rq w1 w2 st1 st2 w1' w2', Describes pl a rq -> ~ Exempt rq ->
  k_conns (w_k w1) = [] -> k_conns (w_k w2) = [] ->
  core_open SudoPair pl a (pstate0 _) w1 = (Done (1, st1), w1') -> core_open SudoPair pl a (pstate0 _) w2 = (Done (1, st2), w2') ->
  open_records mx pl a w1 = open_records mx pl a w2 -> k_conns (w_k w1') = k_conns (w_k w2').

(** carol approves, or dave does: the records are the same, even those that are
    not kept. *)
Definition said_by (c : cred) : world := world_of k_root (local_turns ++ socket_turns [(c, Connect sock)] ++ talk 67 (B "y")).
Theorem C98_peer_refuted : exists mx pl a rq w1 w2 st1 st2 w1' w2', Describes pl a rq /\ ~ Exempt rq
  /\ k_conns (w_k w1) = [] /\ k_conns (w_k w2) = []
  /\ core_open SudoPair pl a (pstate0 _) w1 = (Done (1, st1), w1') /\ core_open SudoPair pl a (pstate0 _) w2 = (Done (1, st2), w2')
  /\ open_records mx pl a w1 = open_records mx pl a w2
  /\ k_conns (w_k w1') = [carol] /\ k_conns (w_k w2') = [dave].
Proof.
  destruct (code_run (root_run (said_by carol)) 1) as [st1 H1]; [vm_compute; reflexivity|].
  destruct (code_run (root_run (said_by dave)) 1) as [st2 H2]; [vm_compute; reflexivity|].
  exists (default_max release), release, to_root, to_root_rq, (said_by carol), (said_by dave), st1, st2, (snd (root_run (said_by carol))), (snd (root_run (said_by dave))).
  split; [exact to_root_describes|]. split; [apply to_root_not_exempt|]. split; [reflexivity|]. split; [reflexivity|].
  split; [exact H1|]. split; [exact H2|].
  split; [vm_compute; reflexivity|]. split; vm_compute; reflexivity.
Qed.
Print Assumptions C98_peer_refuted.

Theorem C98_peer_not_full : ~ C98_peer_full.
Proof.
  intros F. destruct C98_peer_refuted as (mx & pl & a & rq & w1 & w2 & st1 & st2 & w1' & w2' & D & N & K1 & K2 & H1 & H2 & R & P1 & P2).
  pose proof (F mx pl a rq w1 w2 st1 st2 w1' w2' D N K1 K2 H1 H2 R) as X. rewrite P1, P2 in X. discriminate X.
Qed.
Print Assumptions C98_peer_not_full.

(** It would be well if every refused command left a warning or an error. *)
Definition C98_refusal_full : Prop := forall mx pl s a rq w st' w', Describes pl a rq -> rq_command rq <> [] -> kept mx LInfo = true -> discards s = false ->
  core_open SudoPair pl a (pstate0 _) w = (Done (-1, st'), w') ->
  exists r, In r (recorded mx s (open_records mx pl a w)) /\ (r_level r = LWarn \/ r_level r = LError).

(** The socket directory belongs to alice, and the command is refused. The last
    that is recorded is that a pair is waited for. *)
Definition alices_world : world := world_of (dir_kernel (mkInode KDir 1000 0 493))
  (local_turns ++ [t AOk; t (ANum 1); t (ANum 11); t (ANum 47); t (ANum 1)]).
Theorem C98_refusal_refuted : exists mx pl s a rq w st' w', Describes pl a rq /\ rq_command rq <> [] /\ kept mx LInfo = true /\ discards s = false
  /\ core_open SudoPair pl a (pstate0 _) w = (Done (-1, st'), w')
  /\ messages (recorded mx s (open_records mx pl a w)) = [REQUIRED; WAITING]
  /\ map r_level (recorded mx s (open_records mx pl a w)) = [LInfo; LInfo].
Proof.
  destruct (code_run (root_run alices_world) (-1)) as [st H]; [vm_compute; reflexivity|].
  exists (default_max release), release, Journald, to_root, to_root_rq, alices_world, st, (snd (root_run alices_world)).
  split; [exact to_root_describes|]. split; [discriminate|]. split; [reflexivity|]. split; [reflexivity|]. split; [exact H|].
  split; vm_compute; reflexivity.
Qed.
Print Assumptions C98_refusal_refuted.

Theorem C98_refusal_not_full : ~ C98_refusal_full.
Proof.
  intros F. destruct C98_refusal_refuted as (mx & pl & s & a & rq & w & st & w' & D & N & K & S & H & _ & L).
  destruct (F mx pl s a rq w st w' D N K S H) as (r & Hin & HL). apply (in_map r_level) in Hin. rewrite L in Hin.
  destruct Hin as [E|[E|[]]]; rewrite <- E in HL; destruct HL; discriminate.
Qed.
Print Assumptions C98_refusal_not_full.

(** *** C99: keeping records changes nothing and gives nothing away *)

(** The computations that make records are those of [Pair]. *)
Theorem C99_same : forall mx pl e s t d x y w,
  snd (lpair_open mx pl e w) = pair_open pl e w
  /\ snd (lpair_close s w) = pair_close s w
  /\ snd (lpair_log pl t s d w) = pair_log pl t s d w
  /\ snd (lpair_winsize s x y w) = pair_winsize pl s x y w
  /\ snd (lpair_drop s w) = pair_drop s w.
Proof.
  intros. split; [apply runs_open|]. split; [apply runs_close|]. split; [apply runs_log|]. split; [apply runs_winsize|apply runs_drop].
Qed.
Print Assumptions C99_same.

(** What arrives does not depend on what the user types or sees, nor on
    whether it could be forwarded. *)
Theorem C99_data : forall mx pl s t d d' st w w', kept mx LTrace = false ->
  recorded mx s (callback_records mx pl (CbLog t d) st w) = recorded mx s (callback_records mx pl (CbLog t d') st w').
Proof. exact data_unrecorded. Qed.
Print Assumptions C99_data.

(** Not even the records that are discarded tell more than its length. *)
Theorem C99_length : forall mx pl t d d' st w w', List.length d = List.length d' ->
  callback_records mx pl (CbLog t d) st w = callback_records mx pl (CbLog t d') st w'
  \/ callback_records mx pl (CbLog t d) st w = [] \/ callback_records mx pl (CbLog t d') st w' = [].
Proof. exact data_length. Qed.
Print Assumptions C99_length.

(** Unless the build says otherwise, as the sample's does, what arrives are the
    records from info up, and in debug builds those from debug up. *)
Theorem C99_builds : forall pl s l r, discards s = false -> (In r (recorded (default_max pl) s l) <->
  In r l /\ match r_level r with LError | LWarn | LInfo => True | LDebug => pl_debug pl = true | LTrace => False end).
Proof. exact default_exactly. Qed.
Print Assumptions C99_builds.

Example C99_levels : kept (default_max release) LTrace = false /\ kept (default_max debug) LTrace = false
  /\ kept (default_max release) LInfo = true /\ kept (default_max debug) LInfo = true /\ kept sample_max LInfo = true.
Proof. repeat split. Qed.

(** The plugin as sample/Makefile:18 builds it does: there, the length of what
    is shown to the user is recorded. *)
Theorem C99_sample_refuted : exists pl s t d d' st w w',
  fst (core_log SudoPair pl t d st w) = Done 1 /\ fst (core_log SudoPair pl t d' st w') = Done 1
  /\ recorded sample_max s (callback_records sample_max pl (CbLog t d) st w)
     <> recorded sample_max s (callback_records sample_max pl (CbLog t d') st w').
Proof.
  exists release, Journald, Ttyout, (B "hello"), (B "bye"), yes_state, (world_of k_root (write_turns 5 ++ flush_turns)), (world_of k_root (write_turns 3 ++ flush_turns)).
  split; [vm_compute; reflexivity|]. split; [vm_compute; reflexivity|].
  intros H. apply (f_equal (map r_message)) in H. vm_compute in H. discriminate H.
Qed.
Print Assumptions C99_sample_refuted.

Example C99_example :
  let st := state_of (pstate0 _) (root_run ended_world) in
  let w := snd (root_run ended_world) in
  map r_message (callback_records (default_max release) release (CbLog Ttyout (B "hello")) st w) = [B "{5 bytes sent}"]
  /\ map r_message (callback_records (default_max release) release (CbLog Ttyout (B "pass!")) st w) = [B "{5 bytes sent}"]
  /\ map r_message (recorded (default_max debug) Journald (callback_records (default_max debug) debug (CbLog Stdin (B "x")) st w)) = [B "sudo session requires a pair"]
  /\ map r_message (recorded (default_max debug) Journald (open_records (default_max debug) debug to_root no_world))
     = [B "plugin initializing"; B "initialized with plugin options:"; B "sudo session requires a pair"; B "pair session required";
        B "socket initializing"; B "socket waiting for pair to connect..."; B "socket connected";
        B "remote prompt awaiting response..."; B "remote pair responded"; B "remote pair declined session"; B "plugin exiting"].
Proof.
  split; [vm_compute; reflexivity|]. split; [vm_compute; reflexivity|]. split; vm_compute; reflexivity.
Qed.

(** It would be well if no command ran without a record of it. *)
Definition C99_full : Prop := forall mx pl s a rq w st' w', Describes pl a rq -> rq_command rq <> [] -> s <> Nowhere ->
  core_open SudoPair pl a (pstate0 _) w = (Done (1, st'), w') -> recorded mx s (open_records mx pl a w) <> [].

(** If syslog cannot be reached when the session is opened, nothing of an
    approved session is recorded. *)
Theorem C99_unreachable_refuted : exists mx pl s a rq w st' w', Describes pl a rq /\ rq_command rq <> [] /\ s <> Nowhere /\ ~ Exempt rq
  /\ core_open SudoPair pl a (pstate0 _) w = (Done (1, st'), w') /\ recorded mx s (open_records mx pl a w) = [].
Proof.
  exists (default_max release), release, (Syslog false), to_root, to_root_rq, yes_world, yes_state, (snd yes_run).
  split; [exact to_root_describes|]. split; [discriminate|]. split; [discriminate|]. split; [apply to_root_not_exempt|].
  split; [exact yes_opens|reflexivity].
Qed.
Print Assumptions C99_unreachable_refuted.

Theorem C99_not_full : ~ C99_full.
Proof.
  intros F. destruct C99_unreachable_refuted as (mx & pl & s & a & rq & w & st & w' & D & N & S & _ & H & R).
  exact (F mx pl s a rq w st w' D N S H R).
Qed.
Print Assumptions C99_not_full.
