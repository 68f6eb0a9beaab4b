(** Property theorems about what the user is told when the arrays handed over
    by sudo are incomplete: C85. *)
From Verif Require Import Base Num Path Options World Sys Io Socket Env Core Pair Spec TraceSpec TellSpec
  OptionProofs NumProofs Utf8Proofs VersionProofs ReadProofs RequestProofs InitFacts OpenFacts OutputFacts SessionFacts TellFacts
  Samples Worlds PropsInit.
Local Open Scope Z_scope.

(** *** C85: the first unusable entry is named *)

(** Incomplete settings. *)
Theorem C85_settings : forall pl a text st w o w' evs,
  ApiAtLeast_1_9 (oa_version a) -> FirstComplaint (oa_settings a) SettingsEntries text ->
  core_open SudoPair pl a st w = (o, w') -> w_trace w' = w_trace w ++ evs ->
  ToldAndDenied a st text o evs.
Proof. exact told_settings. Qed.
Print Assumptions C85_settings.

(** Incomplete user information, with usable settings. *)
Theorem C85_user_info : forall pl a text st w o w' evs,
  ApiAtLeast_1_9 (oa_version a) -> SettingsComplete (oa_settings a) -> ~ MasklessAddr pl (oa_settings a) ->
  FirstComplaint (oa_user_info a) UserInfoEntries text ->
  core_open SudoPair pl a st w = (o, w') -> w_trace w' = w_trace w ++ evs ->
  ToldAndDenied a st text o evs.
Proof. exact told_user_info. Qed.
Print Assumptions C85_user_info.

(** Every array is complete or gives rise to exactly one complaint. *)
Theorem C85_one_complaint : forall r,
  (SettingsComplete r \/ exists text, FirstComplaint r SettingsEntries text)
  /\ (UserInfoComplete r \/ exists text, FirstComplaint r UserInfoEntries text)
  /\ (forall es t1 t2, FirstComplaint r es t1 -> FirstComplaint r es t2 -> t1 = t2)
  /\ (forall text, FirstComplaint r SettingsEntries text -> ~ SettingsComplete r)
  /\ (forall text, FirstComplaint r UserInfoEntries text -> UserInfoIncomplete r).
Proof. exact one_complaint. Qed.
Print Assumptions C85_one_complaint.

(** Two faults: the uid is not a number, and further down the list of required
    entries the user is missing; only the uid is mentioned. *)
Definition two_faults : open_args :=
  with_user_info [B "cwd=/home/alice"; B "egid=1000"; B "euid=1000"; B "gid=1000"; B "groups=1000,27"; B "host=web1";
                  B "pgid=4242"; B "pid=4242"; B "ppid=4000"; B "uid=alice"].

Definition no_settings : open_args := {|
  oa_version := oa_version to_root; oa_printf := true; oa_settings := None;
  oa_user_info := oa_user_info to_root; oa_command_info := oa_command_info to_root; oa_argv := oa_argv to_root;
  oa_user_env := oa_user_env to_root; oa_plugin_options := oa_plugin_options to_root |}.

Lemma to_root_settings : ApiAtLeast_1_9 (oa_version to_root) /\ SettingsComplete (oa_settings to_root)
  /\ ~ MasklessAddr release (oa_settings to_root).
Proof.
  split; [apply supported_iff; vm_compute; reflexivity|]. split.
  - destruct (settings_complaint release (oa_settings to_root)) as [F|(er & E & _)].
    + apply settings_entries. exact F.
    + vm_compute in E. discriminate.
  - intros H. apply get_net_addrs_None in H. vm_compute in H. discriminate.
Qed.

Example C85_example :
  FirstComplaint (oa_user_info two_faults) UserInfoEntries (B "sudo called plugin with an unparseable value for uid: alice")
  /\ ApiAtLeast_1_9 (oa_version two_faults) /\ SettingsComplete (oa_settings two_faults)
  /\ ~ MasklessAddr release (oa_settings two_faults)
  /\ printed 3 (w_trace (snd (core_open SudoPair release two_faults (pstate0 _) (print_world [1; 11; 59; 1]))))
     = [x0a] ++ B "sudo_pair: sudo called plugin with an unparseable value for uid: alice" ++ [x0a]
  /\ FirstComplaint (oa_settings no_settings) SettingsEntries (B "sudo called plugin without providing a value for plugin_dir")
  /\ printed 3 (w_trace (snd (core_open SudoPair release no_settings (pstate0 _) (print_world [1; 11; 59; 1]))))
     = [x0a] ++ B "sudo_pair: sudo called plugin without providing a value for plugin_dir" ++ [x0a].
Proof.
  split; [|split; [exact (proj1 to_root_settings)|split; [exact (proj1 (proj2 to_root_settings))|
    split; [exact (proj2 (proj2 to_root_settings))|split; [vm_compute; reflexivity|split; [|vm_compute; reflexivity]]]]]].
  - destruct (user_info_complaint (oa_user_info two_faults)) as [[_ [ui E]]|(er & E & C)]; vm_compute in E; [discriminate|].
    injection E as <-. exact C.
  - destruct (settings_complaint release (oa_settings no_settings)) as [F|(er & E & C)].
    + inversion F as [|? ? (v & (b & x & a & H & _) & _) _]. discriminate H.
    + vm_compute in E. injection E as <-. exact C.
Qed.

(** The claim that a complaint about an absent value means there was none. *)
Definition C85_absent_full : Prop := forall pl a key st w z st' w' v,
  core_open SudoPair pl a st w = (Done (z, st'), w') -> w_trace w = [] ->
  printed 3 (w_trace w') = [x0a] ++ B "sudo_pair: sudo called plugin without providing a value for " ++ key ++ [x0a] ->
  ~ Provides (oa_user_info a) key v.

(** A directory whose name is not UTF-8. *)
Definition latin_dir : bytes := B "/home/caf" ++ [xe9].
Definition in_latin_dir : open_args := with_user_info (user_info0 ++ [B "cwd=" ++ latin_dir]).

Theorem C85_absent_refuted : exists st' w',
  core_open SudoPair release in_latin_dir (pstate0 _) (print_world [1; 11; 52; 1]) = (Done (-1, st'), w')
  /\ printed 3 (w_trace w') = [x0a] ++ B "sudo_pair: sudo called plugin without providing a value for " ++ B "cwd" ++ [x0a]
  /\ Provides (oa_user_info in_latin_dir) (B "cwd") latin_dir.
Proof.
  destruct (code_run (core_open SudoPair release in_latin_dir (pstate0 _) (print_world [1; 11; 52; 1])) (-1)) as [st' H];
    [vm_compute; reflexivity|].
  exists st', (snd (core_open SudoPair release in_latin_dir (pstate0 _) (print_world [1; 11; 52; 1]))).
  split; [exact H|]. split; [vm_compute; reflexivity|]. apply get_bytes_Provides. vm_compute. reflexivity.
Qed.
Print Assumptions C85_absent_refuted.

Theorem C85_absent_not_full : ~ C85_absent_full.
Proof.
  intros F. destruct C85_absent_refuted as (st' & w' & H & P & Q).
  exact (F _ _ _ _ _ _ _ _ _ H eq_refl P Q).
Qed.
Print Assumptions C85_absent_not_full.

(** The claim that the complaint is text printf prints as it is. *)
Definition C85_format_full : Prop := forall pl a text st w o w' ev d,
  FirstComplaint (oa_user_info a) UserInfoEntries text ->
  core_open SudoPair pl a st w = (o, w') -> w_trace w = [] ->
  In ev (w_trace w') -> e_call ev = CPrintf 3 d -> CFormat d d.

(** The value is a conversion that writes to memory. *)
Definition percent_uid : open_args := with_user_info (user_info0 ++ [B "uid=%n"]).

Theorem C85_format_refuted : exists w' ev,
  FirstComplaint (oa_user_info percent_uid) UserInfoEntries (B "sudo called plugin with an unparseable value for uid: %n")
  /\ snd (core_open SudoPair release percent_uid (pstate0 _) (print_world [1; 11; 56; 1])) = w'
  /\ In ev (w_trace w') /\ e_call ev = CPrintf 3 (B "sudo called plugin with an unparseable value for uid: %n")
  /\ forall out, ~ CFormat (B "sudo called plugin with an unparseable value for uid: %n") out.
Proof.
  set (w' := snd (core_open SudoPair release percent_uid (pstate0 _) (print_world [1; 11; 56; 1]))).
  assert (X : nth_error (seen (w_trace w')) 2 = Some (CPrintf 3 (B "sudo called plugin with an unparseable value for uid: %n"), ANum 56))
    by (vm_compute; reflexivity).
  apply nth_error_In in X. destruct (seen_In _ _ _ X) as (ev & Hin & Hc & _).
  exists w', ev. split.
  { destruct (user_info_complaint (oa_user_info percent_uid)) as [[_ [ui E]]|(er & E & C)]; vm_compute in E; [discriminate|].
    injection E as <-. exact C. }
  split; [reflexivity|]. split; [exact Hin|]. split; [exact Hc|].
  intros out C. apply cformat_complete in C. vm_compute in C. discriminate.
Qed.
Print Assumptions C85_format_refuted.

Theorem C85_format_not_full : ~ C85_format_full.
Proof.
  intros F. destruct C85_format_refuted as (w' & ev & C & H & Hin & Hc & N).
  destruct (core_open SudoPair release percent_uid (pstate0 _) (print_world [1; 11; 56; 1])) as [o w1] eqn:E.
  cbn [snd] in H. subst w1. exact (N _ (F _ _ _ _ _ _ _ _ _ C E eq_refl Hin Hc)).
Qed.
Print Assumptions C85_format_not_full.
