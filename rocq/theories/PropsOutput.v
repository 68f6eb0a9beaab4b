(** Property theorems about what is printed: C47, C48, C49. *)
From Verif Require Import Base Num Path Options World Sys Io Socket Env Core Pair Spec TraceSpec SessionSpec CallbackSpec
  RequestProofs RunProofs IoProofs OpenFacts SessionFacts CallbackFacts OutputFacts Samples Worlds PropsApproval PropsSession.
Local Open Scope Z_scope.

(** *** C47: the version banner *)
Theorem C47_banner : forall P v st e w o w' evs,
  st_env st = Some e ->
  core_show_version P v st w = (o, w') -> w_trace w' = w_trace w ++ evs ->
  let text := pg_name P ++ B " I/O plugin version " ++ pg_version P ++ [x0a] in
  Only (fun x => exists d, x = CPrintf (pf_level (en_stdout e)) d) evs
  /\ (HonestPrintf evs -> (o = Done 1 \/ o = Stopped) /\ Prefix (printed (pf_level (en_stdout e)) evs) text)
  /\ (pf_present (en_stdout e) = true -> has_nul (pg_name P) = false -> has_nul (pg_version P) = false ->
      HonestPrintf evs -> ~ Exists Failed evs ->
      o = Stopped \/ (o = Done 1 /\ printed (pf_level (en_stdout e)) evs = text)).
Proof. exact version_shown. Qed.
Print Assumptions C47_banner.

Theorem C47_no_environment : forall P v st w,
  st_env st = None -> core_show_version P v st w = (Done (-1), w).
Proof. exact version_no_env. Qed.
Print Assumptions C47_no_environment.

(** The pairing plugin, after any first opening whose arguments could be read:
    4 is sudo's level for information. *)
Theorem C47_pairing_plugin : forall pl a w0 z st w0' v w o w' evs,
  core_open SudoPair pl a (pstate0 _) w0 = (Done (z, st), w0') -> st_env st <> None ->
  core_show_version SudoPair v st w = (o, w') -> w_trace w' = w_trace w ++ evs ->
  Only (fun x => exists d, x = CPrintf 4 d) evs
  /\ (HonestPrintf evs -> (o = Done 1 \/ o = Stopped)
       /\ Prefix (printed 4 evs) (B "sudo_pair I/O plugin version 1.2.0" ++ [x0a]))
  /\ (oa_printf a = true -> HonestPrintf evs -> ~ Exists Failed evs ->
       o = Stopped \/ (o = Done 1 /\ printed 4 evs = B "sudo_pair I/O plugin version 1.2.0" ++ [x0a])).
Proof. exact pair_version. Qed.
Print Assumptions C47_pairing_plugin.

Definition banner_world : world := world_of k_root [t (ANum 9); t (ANum 20); t (ANum 5); t (ANum 1)].

Example C47_example : core_open SudoPair release to_root (pstate0 _) yes_world = (Done (1, yes_state), snd yes_run)
  /\ fst (core_show_version SudoPair 1 yes_state banner_world) = Done 1
  /\ printed 4 (w_trace (snd (core_show_version SudoPair 1 yes_state banner_world)))
     = B "sudo_pair I/O plugin version 1.2.0" ++ [x0a].
Proof. split; [exact yes_opens|]. split; vm_compute; reflexivity. Qed.

(** The version of the sudo_pair crate is 1.0.0 (sudo_pair/Cargo.toml:3). *)
Definition C47_own_version : Prop := forall pl a w0 z st w0' v w w' evs,
  core_open SudoPair pl a (pstate0 _) w0 = (Done (z, st), w0') -> st_env st <> None ->
  core_show_version SudoPair v st w = (Done 1, w') -> w_trace w' = w_trace w ++ evs ->
  HonestPrintf evs -> Prefix (printed 4 evs) (B "sudo_pair I/O plugin version 1.0.0" ++ [x0a]).

Theorem C47_refuted : ~ C47_own_version.
Proof.
  intros F. set (r := core_show_version SudoPair 1 yes_state banner_world).
  assert (H : fst r = Done 1) by (vm_compute; reflexivity).
  assert (Hp : printed 4 (w_trace (snd r)) = B "sudo_pair I/O plugin version 1.2.0" ++ [x0a]) by (vm_compute; reflexivity).
  assert (Hh : HonestPrintf (w_trace (snd r))).
  { assert (Hs : seen (w_trace (snd r)) = [(CPrintf 4 (B "sudo_pair"), ANum 9); (CPrintf 4 (B " I/O plugin version "), ANum 20);
       (CPrintf 4 (B "1.2.0"), ANum 5); (CPrintf 4 [x0a], ANum 1)]) by (vm_compute; reflexivity).
    apply seen_honest. rewrite Hs. repeat constructor; cbn; discriminate. }
  assert (Hn : st_env yes_state <> None).
  { destruct (paired_state _ _ _ _ _ yes_paired) as (e & _ & _ & ->). discriminate. }
  assert (Hr : r = (Done 1, snd r)) by (destruct r as [o w]; cbn in H |- *; rewrite H; reflexivity).
  destruct (F release to_root yes_world 1 yes_state (snd yes_run) 1 banner_world (snd r) (w_trace (snd r))
    yes_opens Hn Hr (no_trace banner_world _ eq_refl) Hh) as [x Hx].
  rewrite Hp in Hx. vm_compute in Hx. discriminate.
Qed.
Print Assumptions C47_refuted.

(** *** C48: error reports *)
Theorem C48_report : forall euid pf display w o w',
  write_error pf display None w = (o, w') ->
  exists evs, Ran euid w evs w'
  /\ Only (fun x => exists d, x = CPrintf (pf_level pf) d) evs
  /\ (HonestPrintf evs ->
      let text := [x0a] ++ pf_tag pf ++ display ++ [x0a] in
      match o with
      | Done (Ok _) => printed (pf_level pf) evs = text
      | Panicked => False
      | _ => Prefix (printed (pf_level pf) evs) text
      end)
  /\ (pf_present pf = true -> has_nul (pf_tag pf) = false -> has_nul display = false ->
      ~ Exists Failed evs -> forall e, o <> Done (Err e)).
Proof. exact report_exact. Qed.
Print Assumptions C48_report.

(** With a source the report never ends by itself: as long as printf does its
    job it goes on, repeating the source. *)
Theorem C48_endless : forall pf s display w o w',
  pf_present pf = true -> has_nul (pf_tag pf) = false -> has_nul s = false -> has_nul display = false ->
  write_error pf display (Some s) w = (o, w') ->
  exists evs, w_trace w' = w_trace w ++ evs
  /\ (HonestPrintf evs -> ~ Exists Failed evs ->
      o = Stopped
      /\ exists n, Prefix (printed (pf_level pf) evs)
           ([x0a] ++ pf_tag pf ++ display ++ [x0a] ++ List.concat (repeat (pf_tag pf ++ s ++ [x0a]) n))).
Proof. exact report_endless. Qed.
Print Assumptions C48_endless.

(** ... and it does make any number of calls. *)
Theorem C48_refuted : forall pf display s k n,
  pf_present pf = true -> has_nul (pf_tag pf) = false -> has_nul display = false -> has_nul s = false ->
  exists tr, List.length tr = n
  /\ write_error pf display (Some s) (mkWorld k (repeat ([], ANum 1) n) []) = (Stopped, mkWorld k [] tr).
Proof. exact (fun pf display s k n HP Ht Hd Hs => write_error_spends pf display s HP Ht Hd Hs k n). Qed.
Print Assumptions C48_refuted.

Example C48_example :
  let pf := mkPf true 3 (B "p: ") in
  let w := world_of k_root (map (fun n => t (ANum n)) [1; 3; 4; 1; 3; 5; 1; 3; 5; 1; 3]) in
  pf_present pf = true /\ has_nul (pf_tag pf) = false
  /\ printed 3 (w_trace (snd (write_error pf (B "oops") (Some (B "cause")) w)))
     = [x0a] ++ B "p: oops" ++ [x0a] ++ B "p: cause" ++ [x0a] ++ B "p: cause" ++ [x0a] ++ B "p: ".
Proof. split; [reflexivity|]. split; [reflexivity|]. vm_compute. reflexivity. Qed.

(** *** C49: printf takes a format *)
(** Printed verbatim: exactly the texts without '%'. *)
Theorem C49_verbatim : forall text, CFormat text text <-> PercentFree text.
Proof. exact CFormat_id. Qed.
Print Assumptions C49_verbatim.

(** Every text handed to printf by a first opening is without '%', or part of
    the prompt for the user made from the template read before. *)
Theorem C49_opening : forall pl a rq w o w' evs e1 ev e2 l d,
  Describes pl a rq ->
  core_open SudoPair pl a (pstate0 _) w = (o, w') -> w_trace w' = w_trace w ++ evs ->
  evs = e1 ++ ev :: e2 -> e_call ev = CPrintf l d ->
  PercentFree d \/ exists out, UserPrompt rq e1 out /\ Infix d out.
Proof. exact (fun pl a rq w o w' evs e1 ev e2 l d D => open_texts pl a rq D w o w' evs e1 ev e2 l d). Qed.
Print Assumptions C49_opening.

(** The callbacks of a paired session only hand it texts without '%'. *)
Theorem C49_session : forall pl a rq st c cb w o w' evs ev l d,
  PairedSession pl a rq st c -> InSession cb ->
  run_callback SudoPair pl cb st w = (o, w') -> w_trace w' = w_trace w ++ evs ->
  In ev evs -> e_call ev = CPrintf l d -> PercentFree d.
Proof. exact paired_texts. Qed.
Print Assumptions C49_session.

Example C49_example : PairedSession release to_root to_root_rq yes_state 0 /\ InSession (CbLog Stdin (B "%n"))
  /\ seen (w_trace (snd (core_log SudoPair release Stdin (B "%n") yes_state reject_world)))
     = [(CPrintf 3 [x0a], ANum 1); (CPrintf 3 (B "sudo_pair: "), ANum 11);
        (CPrintf 3 (B "redirection of stdin to paired sessions is prohibited"), ANum 53); (CPrintf 3 [x0a], ANum 1)].
Proof. split; [exact yes_paired|]. split; [exact I|]. vm_compute. reflexivity. Qed.

(** Refutation: the template for the user shows the command line (%C), the
    terminal cannot be opened, and the command has the argument "%n". *)
Definition to_root_percent : open_args := {|
  oa_version := oa_version to_root; oa_printf := oa_printf to_root; oa_settings := oa_settings to_root;
  oa_user_info := oa_user_info to_root; oa_command_info := oa_command_info to_root; oa_argv := [B "cat"; B "%n%n"];
  oa_user_env := oa_user_env to_root; oa_plugin_options := oa_plugin_options to_root |}.

Definition percent_world : world := world_of k_root
  ([t (AData (B "%C")); t (AErr ENOENT); t (ANum 25)] ++ socket_turns [(root, Connect sock)] ++ talk 60 (B "y")).

Definition C49_full : Prop := forall pl a rq w z st w' evs ev l d,
  Describes pl a rq ->
  core_open SudoPair pl a (pstate0 _) w = (Done (z, st), w') -> w_trace w' = w_trace w ++ evs ->
  In ev evs -> e_call ev = CPrintf l d -> CFormat d d.

Theorem C49_refuted : exists pl a rq w st w' ev,
  Describes pl a rq
  /\ core_open SudoPair pl a (pstate0 _) w = (Done (1, st), w') /\ w_trace w = []
  /\ In ev (w_trace w') /\ e_call ev = CPrintf 3 (B "sudo --user root cat %n%n")
  /\ forall out, ~ CFormat (B "sudo --user root cat %n%n") out.
Proof.
  destruct (io_env_new release (B "sudo_pair") (B "1.2.0") to_root_percent) as [[e|]|] eqn:E;
    [|vm_compute in E; discriminate|vm_compute in E; discriminate].
  pose proof (env_Describes _ _ _ _ _ E) as D.
  destruct (code_run (core_open SudoPair release to_root_percent (pstate0 _) percent_world) 1) as [st H]; [vm_compute; reflexivity|].
  set (w' := snd (core_open SudoPair release to_root_percent (pstate0 _) percent_world)) in *.
  assert (Hs : In (CPrintf 3 (B "sudo --user root cat %n%n"), ANum 25) (seen (w_trace w'))).
  { assert (X : nth_error (seen (w_trace w')) 2 = Some (CPrintf 3 (B "sudo --user root cat %n%n"), ANum 25)) by (vm_compute; reflexivity).
    apply nth_error_In in X. exact X. }
  clearbody w'. destruct (seen_In _ _ _ Hs) as (ev & Hin & Hc & Ha).
  exists release, to_root_percent, (request_of e), percent_world, st, w', ev.
  split; [exact D|]. split; [exact H|]. split; [reflexivity|]. split; [exact Hin|]. split; [exact Hc|].
  intros out X. apply cformat_complete in X. vm_compute in X. discriminate.
Qed.
Print Assumptions C49_refuted.

Theorem C49_not_full : ~ C49_full.
Proof.
  intros F. destruct C49_refuted as (pl & a & rq & w & st & w' & ev & D & H & Hw & Hin & Hc & N).
  apply (N (B "sudo --user root cat %n%n")). apply (F pl a rq w 1 st w' (w_trace w') ev 3 _ D H); [exact (no_trace w _ Hw)|exact Hin|exact Hc].
Qed.
Print Assumptions C49_not_full.
