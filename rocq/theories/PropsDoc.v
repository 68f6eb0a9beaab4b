(** Properties of the plugin in the documentation: C104. *)
From Verif Require Import Base Num Path Options World Sys Io Env Core Spec TraceSpec SessionSpec
  RequestProofs Frontend FrontSpec Samples Worlds PropsFront PropsDefault DocExample DocSpec DocFacts.
Local Open Scope Z_scope.

(** *** C104: the plugin of the documentation *)
(** It does nothing but print at the level of information, lets everything
    pass, and if no call failed has printed one line for its opening and one
    for each piece of marked standard output. *)
Theorem C104_session : forall pl a rq h w o w' evs,
  Describes pl a rq -> rq_command rq <> [] -> ~ MasklessAddr pl (oa_settings a) ->
  front_run (exported Example_plugin pl) a h w = (o, w') -> w_trace w' = w_trace w ++ evs ->
  Only (fun x => exists d, x = CPrintf 4 d) evs /\
  (HonestPrintf evs -> o = Stopped \/ exists f, o = Done (Some f) /\ f_live f = true /\ f_off f = []
    /\ f_given f = flat_map data_of h
    /\ (rq_printf rq = true -> ~ Exists Failed evs ->
        printed 4 evs = B "example sudo plugin initialized" ++ [x0a] ++ flat_map (heard rq) h)).
Proof. exact example_run_short. Qed.
Print Assumptions C104_session.

(** Closing after any session prints the last line and forgets everything. *)
Theorem C104_close : forall pl a rq h f w w1 evs1 z err o w2 evs2,
  Describes pl a rq -> rq_command rq <> [] -> ~ MasklessAddr pl (oa_settings a) ->
  front_run (exported Example_plugin pl) a h w = (Done (Some f), w1) -> w_trace w1 = w_trace w ++ evs1 -> HonestPrintf evs1 ->
  front_close (exported Example_plugin pl) z err f w1 = (o, w2) -> w_trace w2 = w_trace w1 ++ evs2 ->
  Only (fun x => exists d, x = CPrintf 4 d) evs2 /\
  (HonestPrintf evs2 -> o = Stopped \/ o = Done (pstate0 Example_plugin)
    /\ (rq_printf rq = true -> ~ Exists Failed evs2 -> printed 4 evs2 = B "example sudo plugin exited" ++ [x0a])).
Proof. exact example_run_close. Qed.
Print Assumptions C104_close.

(** "Reports the command's standard output": not if sudo did not mark it. *)
Definition C104_full : Prop := forall pl a rq d w f w' evs,
  Describes pl a rq -> rq_command rq <> [] -> rq_printf rq = true ->
  front_run (exported Example_plugin pl) a [Moved Stdout d] w = (Done (Some f), w') -> w_trace w' = w_trace w ++ evs ->
  HonestPrintf evs -> ~ Exists Failed evs ->
  printed 4 evs = B "example sudo plugin initialized" ++ [x0a] ++ B "example sudo plugin received output on stdout" ++ [x0a].

(** The sample request as sudo makes it when it does not log: the policy sends
    no iolog_* entries. *)
Definition unlogged : open_args := {|
  oa_version := oa_version to_root; oa_printf := true; oa_settings := oa_settings to_root;
  oa_user_info := oa_user_info to_root;
  oa_command_info := Some [B "command=/bin/cat"; B "runas_uid=0"; B "runas_gid=0"];
  oa_argv := oa_argv to_root; oa_user_env := oa_user_env to_root; oa_plugin_options := oa_plugin_options to_root |}.

Definition prints_world : world := world_of k_root [t (ANum 32); t (ANum 20); t (ANum 26); t (ANum 27)].

Theorem C104_refuted : exists pl a rq d w f w' evs,
  Describes pl a rq /\ rq_command rq <> [] /\ rq_printf rq = true
  /\ front_run (exported Example_plugin pl) a [Moved Stdout d] w = (Done (Some f), w') /\ w_trace w' = w_trace w ++ evs
  /\ HonestPrintf evs /\ ~ Exists Failed evs
  /\ d <> [] /\ f_given f = [(Stdout, d)] /\ printed 4 evs = B "example sudo plugin initialized" ++ [x0a].
Proof.
  destruct (io_env_new release (B "example") (B "1.2.0") unlogged) as [[e|]|] eqn:E;
    [|vm_compute in E; discriminate|vm_compute in E; discriminate].
  set (r := front_run (exported Example_plugin release) unlogged [Moved Stdout (B "root:x:0:0")] prints_world).
  assert (X : match fst r with Done (Some f) => f_given f = [(Stdout, B "root:x:0:0")] | _ => False end) by (vm_compute; reflexivity).
  destruct (fst r) as [[f|]| |] eqn:F; try contradiction.
  exists release, unlogged, (request_of e), (B "root:x:0:0"), prints_world, f, (snd r), (w_trace (snd r)).
  split; [exact (env_Describes _ _ _ _ _ E)|].
  split; [vm_compute in E; injection E as <-; vm_compute; discriminate|].
  split; [vm_compute in E; injection E as <-; vm_compute; reflexivity|].
  split; [change (r = (Done (Some f), snd r)); rewrite <- F; apply surjective_pairing|].
  split; [reflexivity|].
  split; [vm_compute; repeat constructor; discriminate|].
  split; [intros HX; vm_compute in HX; inversion HX as [? ? HY|? ? HY]; [exact (HY eq_refl)|inversion HY]|].
  split; [discriminate|]. split; [exact X|]. vm_compute. reflexivity.
Qed.
Print Assumptions C104_refuted.

Theorem C104_not_full : ~ C104_full.
Proof.
  intros F. destruct C104_refuted as (pl & a & rq & d & w & f & w' & evs & D & C & P & H & T & HH & N & _ & _ & E).
  specialize (F pl a rq d w f w' evs D C P H T HH N). rewrite E in F. vm_compute in F. discriminate.
Qed.
Print Assumptions C104_not_full.

(** A session in which the output comes in two pieces, the second line is
    printed in two, and what goes to the terminal is not mentioned. *)
Example C104_example :
  Describes release to_root to_root_rq /\ rq_command to_root_rq <> [] /\ ~ MasklessAddr release (oa_settings to_root)
  /\ rq_printf to_root_rq = true
  /\ (let r := front_run (exported Example_plugin release) to_root
        [Moved Stdout (B "root:"); Resized 24 80; Moved Ttyout (B "$ "); Moved Stderr (B "?"); Moved Stdout (B "x")]
        (world_of k_root [t (ANum 32); t (ANum 20); t (ANum 26); t (ANum 46)]) in
      glance r = Some ([(Stdout, B "root:"); (Ttyout, B "$ "); (Stderr, B "?"); (Stdout, B "x")], true)
      /\ printed 4 (w_trace (snd r)) = B "example sudo plugin initialized" ++ [x0a]
          ++ B "example sudo plugin received output on stdout" ++ [x0a]
          ++ B "example sudo plugin received output on stdout" ++ [x0a])
  /\ (let r := front_run (exported Example_plugin release) to_root [] (world_of k_root [t (ANum 32); t (ANum 27)]) in
      match fst r with
      | Done (Some f) => let c := front_close (exported Example_plugin release) 0 0 f (snd r) in
          printed 4 (w_trace (snd c)) = B "example sudo plugin initialized" ++ [x0a] ++ B "example sudo plugin exited" ++ [x0a]
      | _ => False
      end).
Proof.
  split; [exact to_root_describes|]. split; [discriminate|]. split; [exact no_maskless|]. split; [reflexivity|].
  split; [cbv zeta; split; vm_compute; reflexivity|]. vm_compute. reflexivity.
Qed.
