(** Property theorems about openings that end while the arguments are read:
    C07, C09, C10. *)
From Verif Require Import Base Num Path Options World Sys Io Socket Env Core Pair Spec TraceSpec
  RequestProofs OptionProofs NumProofs VersionProofs ReadProofs PairPure InitFacts OpenFacts AskFacts SessionFacts Samples Worlds.
Local Open Scope Z_scope.

(** *** C07: incomplete user information *)
Theorem C07_user_info_required : forall pl a st w o w' evs,
  UserInfoIncomplete (oa_user_info a) ->
  core_open SudoPair pl a st w = (o, w') -> w_trace w' = w_trace w ++ evs ->
  Only ErrorText evs /\ (o = Stopped \/ o = Done (-1, st)).
Proof. exact user_info_aborts. Qed.
Print Assumptions C07_user_info_required.

(** The same arguments with one user-info entry replaced. *)
Definition with_user_info (u : list bytes) : open_args := {|
  oa_version := oa_version to_root; oa_printf := oa_printf to_root; oa_settings := oa_settings to_root;
  oa_user_info := Some u; oa_command_info := oa_command_info to_root; oa_argv := oa_argv to_root;
  oa_user_env := oa_user_env to_root; oa_plugin_options := oa_plugin_options to_root |}.

(** A negative uid, overriding the valid one. *)
Definition bad_uid : open_args := with_user_info (user_info0 ++ [B "uid=-1"]).
Definition print_world (l : list Z) : world := world_of k_root (map (fun n => t (ANum n)) l).

Example C07_example : UserInfoIncomplete (oa_user_info bad_uid)
  /\ exists st' w', core_open SudoPair release bad_uid (pstate0 _) (print_world [1; 11; 56; 1]) = (Done (-1, st'), w')
     /\ printed 3 (w_trace w') =
        [x0a] ++ B "sudo_pair: sudo called plugin with an unparseable value for uid: -1" ++ [x0a].
Proof.
  split.
  - do 9 right. left. apply (get_req_Err _ _ parse_u32).
    vm_compute. eexists. reflexivity.
  - destruct (code_run (core_open SudoPair release bad_uid (pstate0 _) (print_world [1; 11; 56; 1])) (-1)) as [st' H];
      [vm_compute; reflexivity|].
    exists st', (snd (core_open SudoPair release bad_uid (pstate0 _) (print_world [1; 11; 56; 1]))).
    split; [exact H|vm_compute; reflexivity].
Qed.

(** *** C10: the API version *)
Theorem C10_old_versions_refused : forall pl a st w o w' evs,
  ~ ApiAtLeast_1_9 (oa_version a) ->
  core_open SudoPair pl a st w = (o, w') -> w_trace w' = w_trace w ++ evs ->
  Only ErrorText evs /\ (o = Stopped \/ o = Done (-1, st))
  /\ (HonestPrintf evs -> exists major minor text,
        Decimal ((oa_version a / 65536) mod 65536) major /\ Decimal (oa_version a mod 65536) minor
        /\ text = [x0a] ++ B "sudo_pair: sudo called plugin with an API version of " ++ major ++ B "." ++ minor
                  ++ B ", but a minimum of 1.9 is required" ++ [x0a]
        /\ Prefix (printed 3 evs) text
        /\ (oa_printf a = true -> ~ Exists Failed evs -> o = Stopped \/ printed 3 evs = text)).
Proof. exact old_api_aborts. Qed.
Print Assumptions C10_old_versions_refused.

(** Any two supported versions lead to the same answers and the same calls. *)
Theorem C10_version_irrelevant : forall pl a v1 v2 w,
  ApiAtLeast_1_9 v1 -> ApiAtLeast_1_9 v2 ->
  let r1 := core_open SudoPair pl (with_version v1 a) (pstate0 _) w in
  let r2 := core_open SudoPair pl (with_version v2 a) (pstate0 _) w in
  returned (fst r1) = returned (fst r2) /\ snd r1 = snd r2.
Proof. exact version_irrelevant. Qed.
Print Assumptions C10_version_irrelevant.

Example C10_example : exists st' w',
  ~ ApiAtLeast_1_9 65544
  /\ core_open SudoPair release (with_version 65544 to_root) (pstate0 _) (print_world [1; 11; 79; 1]) = (Done (-1, st'), w')
  /\ printed 3 (w_trace w') =
     [x0a] ++ B "sudo_pair: sudo called plugin with an API version of 1.8, but a minimum of 1.9 is required" ++ [x0a]
  /\ ApiAtLeast_1_9 65545 /\ ApiAtLeast_1_9 131072
  /\ code (core_open SudoPair release (with_version 131072 to_root) (pstate0 _) yes_world) = Some 1.
Proof.
  destruct (code_run (core_open SudoPair release (with_version 65544 to_root) (pstate0 _) (print_world [1; 11; 79; 1])) (-1)) as [st' H];
    [vm_compute; reflexivity|].
  exists st', (snd (core_open SudoPair release (with_version 65544 to_root) (pstate0 _) (print_world [1; 11; 79; 1]))).
  split. { intros C. apply supported_iff in C. vm_compute in C. discriminate. }
  split; [exact H|]. split; [vm_compute; reflexivity|].
  split; [apply supported_iff; vm_compute; reflexivity|]. split; [apply supported_iff; vm_compute; reflexivity|].
  vm_compute; reflexivity.
Qed.

(** *** C09: optional settings *)
(** The full claim: complete arrays never make opening stop early. *)
Definition C09_full : Prop := forall pl a, ApiAtLeast_1_9 (oa_version a) -> SettingsComplete (oa_settings a) ->
  UserInfoComplete (oa_user_info a) ->
  forall w z st' w', core_open SudoPair pl a (pstate0 _) w = (Done (z, st'), w') -> st_env st' <> None.

(** It holds when no network address lacks its mask. *)
Theorem C09_optional_ignored : forall pl a,
  ApiAtLeast_1_9 (oa_version a) -> SettingsComplete (oa_settings a) -> UserInfoComplete (oa_user_info a) ->
  ~ MasklessAddr pl (oa_settings a) ->
  (exists rq, Describes pl a rq)
  /\ forall w z st' w', core_open SudoPair pl a (pstate0 _) w = (Done (z, st'), w') -> st_env st' <> None.
Proof. exact complete_initialises. Qed.
Print Assumptions C09_optional_ignored.

(** Every array with such an address makes opening fail without a word. *)
Theorem C09_maskless_aborts : forall pl a rq w,
  Describes pl a rq -> MasklessAddr pl (oa_settings a) ->
  core_open SudoPair pl a (pstate0 _) w = (Done (-1, pstate0 _), w).
Proof. exact maskless_aborts. Qed.
Print Assumptions C09_maskless_aborts.

Definition with_settings (s : list bytes) : open_args := {|
  oa_version := oa_version to_root; oa_printf := oa_printf to_root; oa_settings := Some s;
  oa_user_info := oa_user_info to_root; oa_command_info := oa_command_info to_root; oa_argv := oa_argv to_root;
  oa_user_env := oa_user_env to_root; oa_plugin_options := oa_plugin_options to_root |}.
Definition maskless : open_args := with_settings (settings0 ++ [B "network_addrs=10.0.0.1"]).
(** Malformed in other ways *)
Definition malformed : open_args :=
  with_settings (settings0 ++ [B "runas_user=root"; B "network_addrs=10.0.0.1/ff x"; B "closefrom=-3"; B "sudoedit=maybe"; B "junk"]).

Lemma complete_of s d : get_req parse_string (from_raw s) "plugin_dir"%string = Ok d ->
  forall p, get_req parse_string (from_raw s) "plugin_path"%string = Ok p ->
  forall n, get_req parse_string (from_raw s) "progname"%string = Ok n -> SettingsComplete s.
Proof.
  intros Hd p Hp n Hn. repeat split; eexists; apply (get_req_Ok parse_string Text parse_string_spec); eassumption.
Qed.

Lemma to_root_user_info : UserInfoComplete (oa_user_info to_root).
Proof.
  destruct (user_info_try_from (from_raw (oa_user_info to_root))) as [ui|] eqn:E; [|vm_compute in E; discriminate].
  apply user_info_Ok in E. decompose [and] E. repeat split; eexists; eassumption.
Qed.

Theorem C09_refuted : exists pl a, ApiAtLeast_1_9 (oa_version a) /\ SettingsComplete (oa_settings a)
  /\ UserInfoComplete (oa_user_info a)
  /\ forall w, core_open SudoPair pl a (pstate0 _) w = (Done (-1, pstate0 _), w).
Proof.
  exists release, maskless. split; [apply supported_iff; vm_compute; reflexivity|].
  split; [eapply complete_of; vm_compute; reflexivity|]. split; [exact to_root_user_info|]. intros w.
  apply core_open_None. vm_compute. reflexivity.
Qed.
Print Assumptions C09_refuted.

Theorem C09_not_full : ~ C09_full.
Proof.
  intros F. destruct C09_refuted as (pl & a & HV & HS & HU & H).
  exact (F pl a HV HS HU (world_of k_root []) _ _ _ (H _) eq_refl).
Qed.
Print Assumptions C09_not_full.

Example C09_example : ApiAtLeast_1_9 (oa_version malformed) /\ SettingsComplete (oa_settings malformed)
  /\ UserInfoComplete (oa_user_info malformed) /\ ~ MasklessAddr release (oa_settings malformed)
  /\ code (core_open SudoPair release malformed (pstate0 _) yes_world) = Some 1.
Proof.
  split; [apply supported_iff; vm_compute; reflexivity|].
  split; [eapply complete_of; vm_compute; reflexivity|]. split; [exact to_root_user_info|]. split.
  - intros C. apply get_net_addrs_None in C. vm_compute in C. discriminate.
  - vm_compute. reflexivity.
Qed.
