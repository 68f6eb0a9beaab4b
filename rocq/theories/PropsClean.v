(** C strings and the printf function. *)
From Verif Require Import Base Path Options World Sys Io Env Core Pair Spec TraceSpec CallbackSpec Samples Worlds Structure CleanFacts
  PropsApproval PropsLocal.
Local Open Scope Z_scope.

(** *** C82: no C string is cut short *)

(** Whatever the callbacks, their arguments and the answers of the environment,
    no path and no text handed to the system has a NUL in it. *)
Theorem C82_whole_strings : forall pl h st w o w' evs,
  run_history SudoPair pl h st w = (o, w') -> w_trace w' = w_trace w ++ evs -> Only WholeStrings evs.
Proof. exact (fun pl h st w o w' evs => onl_given _ _ w o w' evs (whole_history pl h st)). Qed.
Print Assumptions C82_whole_strings.

(** The template of the user's prompt has a NUL in it and the terminal cannot be
    opened: the prompt is not printed, not even its beginning, and the session
    goes on. *)
Definition nul_turns : list turn := [t (AData (B "ab" ++ x00 :: B "cd")); t (AErr 6)].
Example C82_example : code (local_run nul_turns) = Some 1 /\ printed 3 (w_trace (snd (local_run nul_turns))) = []
  /\ local_until 2 nul_turns = true /\ stat_at 2 nul_turns = true.
Proof. repeat split; vm_compute; reflexivity. Qed.

(** *** C83: a printf that sudo did not give is not called *)
Theorem C83_no_printf : forall pl h w o w' evs,
  Forall WithoutPrintf h ->
  run_history SudoPair pl h (pstate0 _) w = (o, w') -> w_trace w' = w_trace w ++ evs ->
  Only (fun c => ~ Prints c) evs.
Proof. exact silent_given. Qed.
Print Assumptions C83_no_printf.

(** Refused input, with and without printf. *)
Definition to_root_mute : open_args := {|
  oa_version := oa_version to_root; oa_printf := false; oa_settings := oa_settings to_root;
  oa_user_info := oa_user_info to_root; oa_command_info := oa_command_info to_root; oa_argv := oa_argv to_root;
  oa_user_env := oa_user_env to_root; oa_plugin_options := oa_plugin_options to_root |}.
Definition mute_history : list callback := [CbOpen to_root_mute; CbShowVersion 0; CbLog Stdin (B "x"); CbClose 0 0].
Definition mute_run := run_history SudoPair release mute_history (pstate0 _)
  (world_of k_root ([t (AErr ENOENT); t (AErr 6)] ++ peer_turns ++ [t AOk; t AOk; t AOk])).
Definition codes {A} (r : outcome (list Z * A) * world) : list Z :=
  match fst r with Done (z, _) => z | _ => [] end.

Example C83_example : Forall WithoutPrintf mute_history /\ codes mute_run = [1; 1; 0; 0].
Proof. split; [repeat constructor|]. vm_compute. reflexivity. Qed.
