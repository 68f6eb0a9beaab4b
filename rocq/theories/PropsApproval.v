(** Property theorems about who must be asked and what an answer leads to:
    C17, C19, C20, C21, C34, C57, C58, C59, C60. *)
From Verif Require Import Base Num Path Options World Sys Io Socket Env Core Pair Spec TraceSpec SessionSpec
  RequestProofs OptionProofs Utf8Proofs PairPure InputFacts OpenFacts AskFacts SessionFacts Samples Worlds.
Local Open Scope Z_scope.

(** *** C20: no approval, no session *)
Theorem C20_approval_needed : forall pl a rq w st' w' evs,
  Describes pl a rq -> ~ Exempt rq -> rq_command rq <> [] ->
  core_open SudoPair pl a (pstate0 _) w = (Done (1, st'), w') ->
  w_trace w' = w_trace w ++ evs ->
  exists c, Approved rq c evs.
Proof. exact approval_needed. Qed.
Print Assumptions C20_approval_needed.

Example C20_example : exists st' w', Describes release to_root to_root_rq /\ ~ Exempt to_root_rq
  /\ rq_command to_root_rq <> []
  /\ core_open SudoPair release to_root (pstate0 _) yes_world = (Done (1, st'), w')
  /\ delivered 0 (w_trace w') =
     B "alice@web1:/home/alice$ sudo --user root cat /etc/shadow" ++ [x0a] ++ B "y/n? [n]: y" ++ [x0a].
Proof.
  destruct (code_run (core_open SudoPair release to_root (pstate0 _) yes_world) 1) as [st' H]; [vm_compute; reflexivity|].
  exists st', (snd (core_open SudoPair release to_root (pstate0 _) yes_world)).
  split; [exact to_root_describes|]. split; [exact to_root_not_exempt|]. split; [discriminate|].
  split; [exact H|vm_compute; reflexivity].
Qed.

(** *** C21: anything but y/Y refuses *)
Theorem C21_other_answers_refuse : forall pl a rq w z st' w' evs rd c,
  Describes pl a rq ->
  core_open SudoPair pl a (pstate0 _) w = (Done (z, st'), w') ->
  w_trace w' = w_trace w ++ evs ->
  In rd evs -> e_call rd = CRead c -> e_ans rd <> AData (B "y") -> e_ans rd <> AData (B "Y") ->
  z = -1 /\ st_plugin st' = None.
Proof. exact other_answers_refuse. Qed.
Print Assumptions C21_other_answers_refuse.

Theorem C21_one_read : forall pl a rq w o w' evs,
  Describes pl a rq ->
  core_open SudoPair pl a (pstate0 _) w = (o, w') -> w_trace w' = w_trace w ++ evs ->
  (List.length (reads evs) <= 1)%nat.
Proof. exact one_read. Qed.
Print Assumptions C21_one_read.

(** Without any read there is no session either. *)
Theorem C21_no_answer_refuses : forall pl a rq w z st' w' evs,
  Describes pl a rq -> ~ Exempt rq -> rq_command rq <> [] ->
  core_open SudoPair pl a (pstate0 _) w = (Done (z, st'), w') ->
  w_trace w' = w_trace w ++ evs -> reads evs = [] ->
  z = -1 /\ st_plugin st' = None.
Proof. exact no_answer_refuses. Qed.
Print Assumptions C21_no_answer_refuses.

Example C21_example : exists st' w',
  core_open SudoPair release to_root (pstate0 _) no_world = (Done (-1, st'), w')
  /\ seen (reads (w_trace w')) = [(CRead 0, AData (B "n"))].
Proof.
  destruct (code_run (core_open SudoPair release to_root (pstate0 _) no_world) (-1)) as [st' H]; [vm_compute; reflexivity|].
  exists st', (snd (core_open SudoPair release to_root (pstate0 _) no_world)).
  split; [exact H|vm_compute; reflexivity].
Qed.

(** *** C34: the whole prompt before the question *)
Theorem C34_prompt_before_answer : forall pl a rq w o w' before rd after c,
  Describes pl a rq ->
  core_open SudoPair pl a (pstate0 _) w = (o, w') ->
  w_trace w' = w_trace w ++ before ++ rd :: after -> e_call rd = CRead c ->
  exists e1 acc e2 n peer,
    before = e1 ++ acc :: e2 /\ Accepts n c peer acc /\ PairPrompt rq e2 (delivered c e2).
Proof. exact prompt_before_answer. Qed.
Print Assumptions C34_prompt_before_answer.

(** Short writes, an interrupted one, and a template from a file. *)
Definition short_world : world :=
  world_of k_root (local_turns ++ socket_turns [(root, Connect sock)]
    ++ [t (AData (B "%U: "))]
    ++ write_turns 3 ++ [t AOk; t AOk; t (AErr EINTR); t AOk] ++ write_turns 4
    ++ flush_turns ++ read_turns (B "Y") ++ echo_turns).

Example C34_example : exists st' w' before rd after,
  core_open SudoPair release to_root (pstate0 _) short_world = (Done (1, st'), w')
  /\ w_trace w' = before ++ rd :: after /\ e_call rd = CRead 0 /\ delivered 0 before = B "alice: ".
Proof.
  destruct (code_run (core_open SudoPair release to_root (pstate0 _) short_world) 1) as [st' H]; [vm_compute; reflexivity|].
  set (d := mkEvent CSelect AOk k_root k_root).
  exists st', (snd (core_open SudoPair release to_root (pstate0 _) short_world)).
  exists (firstn 36 (w_trace (snd (core_open SudoPair release to_root (pstate0 _) short_world)))).
  exists (nth 36 (w_trace (snd (core_open SudoPair release to_root (pstate0 _) short_world))) d).
  exists (skipn 37 (w_trace (snd (core_open SudoPair release to_root (pstate0 _) short_world)))).
  split; [exact H|]. split; [apply split_at, Nat.ltb_lt; vm_compute; reflexivity|].
  split; vm_compute; reflexivity.
Qed.

(** *** C17: when a pair is needed *)
Theorem C17_pairing_required_iff : forall pl a rq w st' w' evs,
  Describes pl a rq -> rq_command rq <> [] ->
  core_open SudoPair pl a (pstate0 _) w = (Done (1, st'), w') ->
  w_trace w' = w_trace w ++ evs ->
  (Exempt rq <-> forall ev, In ev evs -> e_call ev <> CAccept).
Proof. exact pairing_required_iff. Qed.
Print Assumptions C17_pairing_required_iff.

(** An exempt request does proceed: in a release build always; in a debug
    build when sudo's data are consistent enough for the assertions of
    lib.rs:482 and command_info.rs to hold. *)
Theorem C17_exempt_proceeds : forall pl a rq w,
  Describes pl a rq -> rq_command rq <> [] -> Exempt rq ->
  ~ MasklessAddr pl (oa_settings a) -> pl_debug pl = false \/ Consistent rq ->
  exists st', core_open SudoPair pl a (pstate0 _) w = (Done (1, st'), w) /\ st_plugin st' <> None.
Proof. exact exempt_proceeds. Qed.
Print Assumptions C17_exempt_proceeds.

(** Examples: the same command by a member of an exempted group, and by
    anyone else. *)
Definition to_root_exempted : open_args := {|
  oa_version := oa_version to_root; oa_printf := oa_printf to_root; oa_settings := oa_settings to_root;
  oa_user_info := oa_user_info to_root; oa_command_info := oa_command_info to_root; oa_argv := oa_argv to_root;
  oa_user_env := oa_user_env to_root; oa_plugin_options := Some [B "gids_exempted=5,27"] |}.

Lemma to_root_exempted_exempt : exists rq, Describes release to_root_exempted rq /\ Exempt rq /\ rq_command rq <> []
  /\ ~ MasklessAddr release (oa_settings to_root_exempted).
Proof.
  destruct (io_env_new release (B "sudo_pair") (B "1.2.0") to_root_exempted) as [[e|]|] eqn:E;
    [|vm_compute in E; discriminate|vm_compute in E; discriminate].
  exists (request_of e). pose proof (env_Describes _ _ _ _ _ E) as D. pose proof (env_Matches _ _ _ _ _ _ D E) as M.
  assert (X : is_exempt (pair0 e) release = Some true /\ rq_command (request_of e) <> [])
    by (vm_compute in E; injection E as <-; split; [vm_compute; reflexivity|discriminate]).
  split; [exact D|]. split; [apply (is_exempt_sound e _ release M true); [apply X|reflexivity]|].
  split; [apply X|]. apply not_maskless. vm_compute. discriminate.
Qed.

Example C17_example : exists rq st', Describes release to_root_exempted rq /\ Exempt rq /\ rq_command rq <> []
  /\ core_open SudoPair release to_root_exempted (pstate0 _) yes_world = (Done (1, st'), yes_world).
Proof.
  destruct to_root_exempted_exempt as (rq & D & X & C & N).
  destruct (C17_exempt_proceeds release to_root_exempted rq yes_world D C X N (or_introl eq_refl)) as (st' & H & _).
  exists rq, st'. auto.
Qed.

Example C17_paired_example : Describes release to_root to_root_rq /\ ~ Exempt to_root_rq /\ rq_command to_root_rq <> []
  /\ code (core_open SudoPair release to_root (pstate0 _) yes_world) = Some 1
  /\ existsb (fun ev => match e_call ev with CAccept => true | _ => false end)
       (w_trace (snd (core_open SudoPair release to_root (pstate0 _) yes_world))) = true.
Proof.
  split; [exact to_root_describes|]. split; [exact to_root_not_exempt|]. split; [discriminate|].
  split; vm_compute; reflexivity.
Qed.

(** *** C19: -u together with -g *)
Theorem C19_both_refused : forall pl a rq w o w' evs,
  Describes pl a rq -> ~ Exempt rq -> rq_command rq <> [] ->
  rq_uid rq <> rq_to_uid rq -> rq_f_group rq <> None ->
  core_open SudoPair pl a (pstate0 _) w = (o, w') -> w_trace w' = w_trace w ++ evs ->
  Only ErrorText evs /\ (o = Stopped \/ exists st', o = Done (-1, st') /\ st_plugin st' = None).
Proof. exact both_refused. Qed.
Print Assumptions C19_both_refused.

(** alice: sudo -u root -g wheel cat /etc/shadow *)
Definition to_both (group : bytes) : open_args := {|
  oa_version := oa_version to_root; oa_printf := oa_printf to_root;
  oa_settings := Some (settings0 ++ [B "runas_user=root"; B "runas_group=" ++ group]);
  oa_user_info := oa_user_info to_root; oa_command_info := oa_command_info to_root; oa_argv := oa_argv to_root;
  oa_user_env := oa_user_env to_root; oa_plugin_options := oa_plugin_options to_root |}.

(** The error is reported with four printf calls. *)
Definition report_world : world := world_of k_root [t (ANum 1); t (ANum 11); t (ANum 47); t (ANum 1)].

Example C19_example : exists rq st' w', Describes release (to_both (B "wheel")) rq /\ ~ Exempt rq
  /\ rq_command rq <> [] /\ rq_uid rq <> rq_to_uid rq /\ rq_f_group rq <> None
  /\ core_open SudoPair release (to_both (B "wheel")) (pstate0 _) report_world = (Done (-1, st'), w')
  /\ printed 3 (w_trace w') =
     [x0a] ++ B "sudo_pair: the -u and -g options may not both be specified" ++ [x0a].
Proof.
  destruct (io_env_new release (B "n") (B "v") (to_both (B "wheel"))) as [[e|]|] eqn:E;
    [|vm_compute in E; discriminate|vm_compute in E; discriminate].
  exists (request_of e). pose proof (env_Describes _ _ _ _ _ E) as D. pose proof (env_Matches _ _ _ _ _ _ D E) as M.
  destruct (code_run (core_open SudoPair release (to_both (B "wheel")) (pstate0 _) report_world) (-1)) as [st' H];
    [vm_compute; reflexivity|].
  exists st', (snd (core_open SudoPair release (to_both (B "wheel")) (pstate0 _) report_world)). split; [exact D|].
  split; [apply (not_exempt_by release e _ M); vm_compute in E; injection E as <-; vm_compute; reflexivity|].
  vm_compute in E; injection E as <-.
  split; [discriminate|]. split; [discriminate|]. split; [discriminate|].
  split; [exact H|vm_compute; reflexivity].
Qed.

(** *** C57: a command that is not text *)
Definition C57_full : Prop := forall pl a rq v w st' w' evs,
  Describes pl a rq -> Provides (oa_command_info a) (B "command") v -> v <> [] ->
  core_open SudoPair pl a (pstate0 _) w = (Done (1, st'), w') -> w_trace w' = w_trace w ++ evs ->
  Exempt rq \/ exists c, Approved rq c evs.

(** alice: sudo -u root /bin/c\xff *)
Definition to_root_latin : open_args := {|
  oa_version := oa_version to_root; oa_printf := oa_printf to_root; oa_settings := oa_settings to_root;
  oa_user_info := oa_user_info to_root;
  oa_command_info := Some ([B "command=/bin/c" ++ [xff]; B "runas_uid=0"; B "runas_gid=0"; B "runas_groups=0"] ++ log_hints);
  oa_argv := [B "c" ++ [xff]]; oa_user_env := oa_user_env to_root; oa_plugin_options := oa_plugin_options to_root |}.

Theorem C57_refuted : exists pl a rq v w st' w' evs,
  Describes pl a rq /\ Provides (oa_command_info a) (B "command") v /\ v <> []
  /\ core_open SudoPair pl a (pstate0 _) w = (Done (1, st'), w') /\ w_trace w' = w_trace w ++ evs
  /\ ~ Exempt rq /\ forall c, ~ Approved rq c evs.
Proof.
  destruct (io_env_new release (B "n") (B "v") to_root_latin) as [[e|]|] eqn:E;
    [|vm_compute in E; discriminate|vm_compute in E; discriminate].
  pose proof (env_Describes _ _ _ _ _ E) as D. pose proof (env_Matches _ _ _ _ _ _ D E) as M.
  exists release, to_root_latin, (request_of e), (B "/bin/c" ++ [xff]), yes_world.
  destruct (code_run (core_open SudoPair release to_root_latin (pstate0 _) yes_world) 1) as [st' H];
    [vm_compute; reflexivity|].
  exists st', (snd (core_open SudoPair release to_root_latin (pstate0 _) yes_world)), []. split; [exact D|].
  split; [apply get_bytes_Provides; vm_compute; reflexivity|]. split; [discriminate|].
  split; [exact H|].
  split; [apply length_zero_iff_nil; vm_compute; reflexivity|].
  split; [apply (not_exempt_by release e _ M); vm_compute in E; injection E as <-; vm_compute; reflexivity|].
  intros c HA. apply Approved_reads in HA. apply HA. reflexivity.
Qed.
Print Assumptions C57_refuted.

Theorem C57_not_full : ~ C57_full.
Proof.
  intros H. destruct C57_refuted as (pl & a & rq & v & w & st' & w' & evs & D & P & N & O & T & NE & NA).
  destruct (H pl a rq v w st' w' evs D P N O T) as [HE|[c HA]]; [exact (NE HE)|exact (NA c HA)].
Qed.
Print Assumptions C57_not_full.

(** What does hold: the claim for commands that are text. *)
Theorem C57_textual_command_paired : forall pl a rq w st' w' evs v,
  Describes pl a rq -> Provides (oa_command_info a) (B "command") v -> Utf8 v -> v <> [] ->
  core_open SudoPair pl a (pstate0 _) w = (Done (1, st'), w') -> w_trace w' = w_trace w ++ evs ->
  Exempt rq \/ exists c, Approved rq c evs.
Proof. exact textual_command_paired. Qed.
Print Assumptions C57_textual_command_paired.

Example C57_example : exists st' w', Describes release to_root to_root_rq
  /\ Provides (oa_command_info to_root) (B "command") (B "/bin/cat") /\ Utf8 (B "/bin/cat")
  /\ core_open SudoPair release to_root (pstate0 _) yes_world = (Done (1, st'), w').
Proof.
  destruct C20_example as (st' & w' & D & _ & _ & H & _). exists st', w'.
  split; [exact D|]. split; [apply get_bytes_Provides; vm_compute; reflexivity|].
  split; [apply valid_utf8_iff; reflexivity|exact H].
Qed.

(** *** C60: a group name that is not text *)
Definition C60_full : Prop := forall pl a rq v w o w',
  Describes pl a rq -> Provides (oa_settings a) (B "runas_group") v ->
  ~ Exempt rq -> rq_command rq <> [] -> rq_uid rq <> rq_to_uid rq ->
  core_open SudoPair pl a (pstate0 _) w = (o, w') -> forall st', o <> Done (1, st').

Theorem C60_refuted : exists pl a rq v w st' w',
  Describes pl a rq /\ Provides (oa_settings a) (B "runas_group") v
  /\ ~ Exempt rq /\ rq_command rq <> [] /\ rq_uid rq <> rq_to_uid rq
  /\ core_open SudoPair pl a (pstate0 _) w = (Done (1, st'), w').
Proof.
  destruct (io_env_new release (B "n") (B "v") (to_both [xff])) as [[e|]|] eqn:E;
    [|vm_compute in E; discriminate|vm_compute in E; discriminate].
  pose proof (env_Describes _ _ _ _ _ E) as D. pose proof (env_Matches _ _ _ _ _ _ D E) as M.
  exists release, (to_both [xff]), (request_of e), [xff], yes_world.
  destruct (code_run (core_open SudoPair release (to_both [xff]) (pstate0 _) yes_world) 1) as [st' H];
    [vm_compute; reflexivity|].
  exists st', (snd (core_open SudoPair release (to_both [xff]) (pstate0 _) yes_world)). split; [exact D|].
  split; [apply get_bytes_Provides; vm_compute; reflexivity|].
  split; [apply (not_exempt_by release e _ M); vm_compute in E; injection E as <-; vm_compute; reflexivity|].
  vm_compute in E; injection E as <-.
  split; [discriminate|]. split; [discriminate|]. exact H.
Qed.
Print Assumptions C60_refuted.

Theorem C60_not_full : ~ C60_full.
Proof.
  intros H. destruct C60_refuted as (pl & a & rq & v & w & st' & w' & D & P & NE & NC & NU & O).
  exact (H pl a rq v w _ w' D P NE NC NU O st' eq_refl).
Qed.
Print Assumptions C60_not_full.

(** What does hold: the claim for group names that are text. *)
Theorem C60_textual_group_refused : forall pl a rq w o w' evs v,
  Describes pl a rq -> Provides (oa_settings a) (B "runas_group") v -> Utf8 v ->
  ~ Exempt rq -> rq_command rq <> [] -> rq_uid rq <> rq_to_uid rq ->
  core_open SudoPair pl a (pstate0 _) w = (o, w') -> w_trace w' = w_trace w ++ evs ->
  Only ErrorText evs /\ (o = Stopped \/ exists st', o = Done (-1, st') /\ st_plugin st' = None).
Proof. exact textual_group_refused. Qed.
Print Assumptions C60_textual_group_refused.

Example C60_example : Provides (oa_settings (to_both (B "wheel"))) (B "runas_group") (B "wheel") /\ Utf8 (B "wheel").
Proof. split; [apply get_bytes_Provides; vm_compute; reflexivity|apply valid_utf8_iff; reflexivity]. Qed.

(** *** C59: only the primary group changes *)
Theorem C59_primary_group_refused : forall pl a rq w o w' evs,
  Describes pl a rq -> ~ Exempt rq -> rq_command rq <> [] ->
  rq_uid rq = rq_to_uid rq -> rq_f_group rq = None ->
  core_open SudoPair pl a (pstate0 _) w = (o, w') -> w_trace w' = w_trace w ++ evs ->
  Only LocalPrompt evs /\ (o = Stopped \/ exists st', o = Done (-1, st') /\ st_plugin st' = None).
Proof. exact primary_refused. Qed.
Print Assumptions C59_primary_group_refused.

(** A policy that runs the command as alice but with group 0. *)
Definition to_primary : open_args := {|
  oa_version := oa_version to_root; oa_printf := oa_printf to_root; oa_settings := oa_settings to_root;
  oa_user_info := oa_user_info to_root;
  oa_command_info := Some ([B "command=/bin/cat"; B "runas_uid=1000"; B "runas_gid=0"] ++ log_hints);
  oa_argv := oa_argv to_root; oa_user_env := oa_user_env to_root; oa_plugin_options := oa_plugin_options to_root |}.

Example C59_example : exists rq st' w', Describes release to_primary rq /\ ~ Exempt rq
  /\ rq_command rq <> [] /\ rq_uid rq = rq_to_uid rq /\ rq_f_group rq = None
  /\ core_open SudoPair release to_primary (pstate0 _) yes_world = (Done (-1, st'), w')
  /\ List.length (w_trace w') = 4%nat.
Proof.
  destruct (io_env_new release (B "n") (B "v") to_primary) as [[e|]|] eqn:E;
    [|vm_compute in E; discriminate|vm_compute in E; discriminate].
  exists (request_of e). pose proof (env_Describes _ _ _ _ _ E) as D. pose proof (env_Matches _ _ _ _ _ _ D E) as M.
  destruct (code_run (core_open SudoPair release to_primary (pstate0 _) yes_world) (-1)) as [st' H];
    [vm_compute; reflexivity|].
  exists st', (snd (core_open SudoPair release to_primary (pstate0 _) yes_world)). split; [exact D|].
  split; [apply (not_exempt_by release e _ M); vm_compute in E; injection E as <-; vm_compute; reflexivity|].
  vm_compute in E; injection E as <-.
  split; [discriminate|]. split; [reflexivity|]. split; [reflexivity|].
  split; [exact H|vm_compute; reflexivity].
Qed.

(** *** C58: exempt sessions *)
Theorem C58_exempt_left_alone : forall pl a rq w h,
  Describes pl a rq -> rq_command rq <> [] -> Exempt rq ->
  ~ MasklessAddr pl (oa_settings a) -> pl_debug pl = false \/ Consistent rq ->
  Forall OutputCallback h ->
  exists st', run_history SudoPair pl (CbOpen a :: h) (pstate0 _) w
              = (Done (1 :: repeat 1 (List.length h), st'), w).
Proof. exact exempt_history. Qed.
Print Assumptions C58_exempt_left_alone.

Example C58_example : exists st', run_history SudoPair release
    [CbOpen to_root_exempted; CbLog Stdin (B "secret"); CbLog Ttyout (B "hello"); CbWinsize 24 80] (pstate0 _) yes_world
  = (Done ([1; 1; 1; 1], st'), yes_world).
Proof.
  destruct to_root_exempted_exempt as (rq & D & X & C & N).
  apply (C58_exempt_left_alone release to_root_exempted rq yes_world
           [CbLog Stdin (B "secret"); CbLog Ttyout (B "hello"); CbWinsize 24 80] D C X N (or_introl eq_refl)).
  repeat constructor.
Qed.
