(** Property theorems about the configured groups: C94, and C16 for the sample
    configuration. *)
From Verif Require Import Base Num Path Version Options World Sys Io Socket Env Core Pair Spec TraceSpec SessionSpec
  NumProofs OptionProofs RequestProofs PairPure SessionFacts Samples Worlds SameSpec PropsInput PropsApproval ConfigSpec ConfigFacts.
Local Open Scope Z_scope.

(** *** C94: stricter configurations *)

(** What runs without a pair under the stricter configuration does so under
    the other. *)
Theorem C94_stricter : forall pl a b rq rq' w st' w' evs,
  Describes pl a rq -> Describes pl b rq' -> Stricter rq rq' -> rq_command rq <> [] ->
  ~ MasklessAddr pl (oa_settings a) -> pl_debug pl = false \/ Consistent rq ->
  core_open SudoPair pl b (pstate0 _) w = (Done (1, st'), w') -> w_trace w' = w_trace w ++ evs ->
  (forall ev, In ev evs -> e_call ev <> CAccept) ->
  forall w0, exists st0, core_open SudoPair pl a (pstate0 _) w0 = (Done (1, st0), w0) /\ st_plugin st0 <> None.
Proof. exact stricter_sessions. Qed.
Print Assumptions C94_stricter.

(** One element that is not a number makes the whole list as if it had not
    been given, which for the enforced groups is as if it were 0: no callback
    answers differently, no system call is different. *)
Theorem C94_bad_entry : forall pl a rq x buf y v,
  Describes pl a rq -> oa_plugin_options a = Some (x ++ buf :: y) -> ~ MasklessAddr pl (oa_settings a) -> NotANumber v ->
  let same l := forall h w, Indistinguishable (run_history SudoPair pl (CbOpen a :: h) (pstate0 _) w)
    (run_history SudoPair pl (CbOpen (with_entries a l) :: h) (pstate0 _) w) in
  (EntryMeans buf (B "gids_enforced") v ->
     (NoneFor (B "gids_enforced") y -> same (x ++ B "gids_enforced=0" :: y))
     /\ (NoneFor (B "gids_enforced") (x ++ y) -> same (x ++ y)))
  /\ (EntryMeans buf (B "gids_exempted") v -> NoneFor (B "gids_exempted") (x ++ y) -> same (x ++ y)).
Proof. exact bad_entry. Qed.
Print Assumptions C94_bad_entry.

(** sudo_pair/README.md:133-135: a list of the groups access to which is gated. It would
    follow that writing more into it never lets anyone run without a pair. *)
Definition with_options (a : open_args) (o : bytes) : open_args := with_entries a [o].

Definition C94_full : Prop := forall pl a v more w st' w',
  core_open SudoPair pl (with_options a (B "gids_enforced=" ++ v ++ B "," ++ more)) (pstate0 _) w = (Done (1, st'), w') ->
  w' = w ->
  exists st0, core_open SudoPair pl (with_options a (B "gids_enforced=" ++ v)) (pstate0 _) w = (Done (1, st0), w).

(** alice: sudo -g wheel id, under another list of enforced groups. *)
Definition enforcing (v : bytes) : open_args := with_options (to_group []) (B "gids_enforced=" ++ v).
Definition enforcing_rq (l : list Z) : request := let rq := to_group_rq [1000; 27] in {|
  rq_uid := rq_uid rq; rq_euid := rq_euid rq; rq_gid := rq_gid rq; rq_groups := rq_groups rq; rq_pid := rq_pid rq;
  rq_user := rq_user rq; rq_host := rq_host rq; rq_user_cwd := rq_user_cwd rq;
  rq_lines := rq_lines rq; rq_cols := rq_cols rq; rq_tty := rq_tty rq;
  rq_command := rq_command rq; rq_policy_cwd := rq_policy_cwd rq;
  rq_to_uid := rq_to_uid rq; rq_to_gid := rq_to_gid rq; rq_to_groups := rq_to_groups rq;
  rq_preserve_groups := rq_preserve_groups rq; rq_log := rq_log rq;
  rq_progname := rq_progname rq; rq_args := rq_args rq;
  rq_f_sudoedit := rq_f_sudoedit rq; rq_f_user := rq_f_user rq; rq_f_group := rq_f_group rq;
  rq_f_prompt := rq_f_prompt rq; rq_f_login := rq_f_login rq; rq_f_shell := rq_f_shell rq;
  rq_f_set_home := rq_f_set_home rq; rq_f_preserve_env := rq_f_preserve_env rq;
  rq_f_preserve_groups := rq_f_preserve_groups rq; rq_f_reset := rq_f_reset rq;
  rq_f_noninteractive := rq_f_noninteractive rq; rq_f_class := rq_f_class rq;
  rq_f_role := rq_f_role rq; rq_f_type := rq_f_type rq; rq_f_auth := rq_f_auth rq;
  rq_f_close_from := rq_f_close_from rq;
  rq_binary_path := rq_binary_path rq; rq_user_prompt_path := rq_user_prompt_path rq;
  rq_pair_prompt_path := rq_pair_prompt_path rq; rq_socket_dir := rq_socket_dir rq;
  rq_enforced := l; rq_exempted := rq_exempted rq; rq_printf := rq_printf rq |}.

Ltac enforced v l b :=
  let e := fresh "e" in let E := fresh "E" in let H := fresh "H" in let X := fresh "X" in
  destruct (io_env_new release (B "n") (B "v") (enforcing v)) as [[e|]|] eqn:E;
    [|vm_compute in E; discriminate|vm_compute in E; discriminate];
  assert (H : request_of e = enforcing_rq l) by (vm_compute in E; injection E as <-; vm_compute; reflexivity);
  assert (X : is_exempt (pair0 e) release = Some b) by (vm_compute in E; injection E as <-; vm_compute; reflexivity);
  pose proof (env_Describes _ _ _ _ _ E) as D; pose proof (env_Matches _ _ _ _ _ _ D E) as M;
  rewrite H in D, M; apply (is_exempt_sound e _ release M b) in X.

Lemma named_rq : Describes release (enforcing (B "10,wheel")) (enforcing_rq [0]) /\ Exempt (enforcing_rq [0]).
Proof. enforced (B "10,wheel") [0] true. split; [exact D|]. apply X. reflexivity. Qed.
Lemma more_rq : Describes release (enforcing (B "0,99")) (enforcing_rq [0; 99]) /\ Exempt (enforcing_rq [0; 99]).
Proof. enforced (B "0,99") [0; 99] true. split; [exact D|]. apply X. reflexivity. Qed.
Lemma numbered_rq : Describes release (enforcing (B "10")) (enforcing_rq [10]) /\ ~ Exempt (enforcing_rq [10]).
Proof. enforced (B "10") [10] false. split; [exact D|]. intros Y. apply X in Y. discriminate Y. Qed.

Lemma enforcing_not_maskless v : ~ MasklessAddr release (oa_settings (enforcing v)).
Proof. apply not_maskless. vm_compute. discriminate. Qed.

Theorem C94_refuted : exists pl a v more, forall w, exists st',
  core_open SudoPair pl (with_options a (B "gids_enforced=" ++ v ++ B "," ++ more)) (pstate0 _) w = (Done (1, st'), w)
  /\ forall st0, core_open SudoPair pl (with_options a (B "gids_enforced=" ++ v)) (pstate0 _) w <> (Done (1, st0), w).
Proof.
  exists release, (to_group []), (B "10"), (B "wheel"). intros w. destruct named_rq as [D X]. destruct numbered_rq as [D2 X2].
  destruct (C17_exempt_proceeds release (enforcing (B "10,wheel")) _ w D) as (st' & H & _);
    [discriminate|exact X|apply enforcing_not_maskless|left; reflexivity|].
  exists st'. split; [exact H|]. intros st0 H0. apply X2.
  apply (C17_pairing_required_iff release (enforcing (B "10")) _ w st0 w [] D2); [discriminate|exact H0|symmetry; apply app_nil_r|].
  intros ev [].
Qed.
Print Assumptions C94_refuted.

Theorem C94_not_full : ~ C94_full.
Proof.
  intros F. destruct C94_refuted as (pl & a & v & more & R). destruct (R yes_world) as (st' & H & N).
  destruct (F pl a v more yes_world st' yes_world H eq_refl) as (st0 & H0). exact (N st0 H0).
Qed.
Print Assumptions C94_not_full.

(** Enforcing group 99 as well. *)
Example C94_stricter_example : Describes release (enforcing (B "10,wheel")) (enforcing_rq [0])
  /\ Describes release (enforcing (B "0,99")) (enforcing_rq [0; 99]) /\ Stricter (enforcing_rq [0]) (enforcing_rq [0; 99])
  /\ ~ MasklessAddr release (oa_settings (enforcing (B "10,wheel")))
  /\ exists st', core_open SudoPair release (enforcing (B "0,99")) (pstate0 _) yes_world = (Done (1, st'), yes_world).
Proof.
  destruct named_rq as [D X]. destruct more_rq as [D2 X2]. split; [exact D|]. split; [exact D2|].
  split; [constructor; [constructor; reflexivity| |]; cbn; tauto|]. split; [apply enforcing_not_maskless|].
  destruct (C17_exempt_proceeds release (enforcing (B "0,99")) _ yes_world D2) as (st' & H & _);
    [discriminate|exact X2|apply enforcing_not_maskless|left; reflexivity|]. exists st'. exact H.
Qed.

(** The list of sample/etc/sudo.conf:11 is empty; so it is not a list. *)
Example C94_bad_entry_example :
  Describes release (enforcing (B "10,wheel")) (enforcing_rq [0])
  /\ oa_plugin_options (enforcing (B "10,wheel")) = Some ([] ++ B "gids_enforced=10,wheel" :: [])
  /\ ~ MasklessAddr release (oa_settings (enforcing (B "10,wheel")))
  /\ NotANumber (B "10,wheel") /\ EntryMeans (B "gids_enforced=10,wheel") (B "gids_enforced") (B "10,wheel")
  /\ NoneFor (B "gids_enforced") []
  /\ NotANumber [] /\ EntryMeans (B "gids_enforced=") (B "gids_enforced") [].
Proof.
  split; [apply named_rq|]. split; [reflexivity|]. split; [apply enforcing_not_maskless|].
  split; [exists [B "10"; B "wheel"], (B "wheel"); split; [apply Separated_split; reflexivity|]; split; [right; left; reflexivity|];
          intros n K; apply parse_u32 in K; discriminate K|].
  split; [apply EntryMeans_split; reflexivity|]. split; [intros e u []|].
  split; [exact empty_not_a_number|].
  apply EntryMeans_split. reflexivity.
Qed.

(** *** C16: the sample configuration *)

(** Its only option is "gids_enforced=" (sample/etc/sudo.conf:11). Everything is
    as with "gids_enforced=0". *)
Theorem C16_sample : forall pl a rq, Describes pl a rq -> oa_plugin_options a = Some [B "gids_enforced="] ->
  ~ MasklessAddr pl (oa_settings a) ->
  forall h w, Indistinguishable (run_history SudoPair pl (CbOpen a :: h) (pstate0 _) w)
    (run_history SudoPair pl (CbOpen (with_entries a [B "gids_enforced=0"]) :: h) (pstate0 _) w).
Proof. exact sample_run. Qed.
Print Assumptions C16_sample.

(** alice: sudo -u root cat /etc/shadow, under the sample configuration. *)
Definition to_sample : open_args := with_entries to_root [B "gids_enforced="].
Example C16_sample_example : (exists rq, Describes release to_sample rq) /\ ~ MasklessAddr release (oa_settings to_sample)
  /\ codes (run_history SudoPair release [CbOpen to_sample] (pstate0 _) yes_world) = Some [1]
  /\ List.length (reads (w_trace (snd (run_history SudoPair release [CbOpen to_sample] (pstate0 _) yes_world)))) = 1%nat.
Proof.
  split; [|split; [apply not_maskless; vm_compute; discriminate|split; vm_compute; reflexivity]].
  destruct (io_env_new release (B "n") (B "v") to_sample) as [[e|]|] eqn:E;
    [|vm_compute in E; discriminate|vm_compute in E; discriminate].
  exists (request_of e). exact (env_Describes _ _ _ _ _ E).
Qed.
