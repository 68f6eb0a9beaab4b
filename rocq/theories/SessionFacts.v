(** Facts about whole openings, in the form in which the property theorems
    state them. *)
From Verif Require Import Base BaseLemmas Num Path Template Options World Sys Io Socket Env Core Pair
  Spec TraceSpec SessionSpec ReadProofs OptionProofs Utf8Proofs RequestProofs PairPure RunProofs IoProofs
  SocketProofs PairProofs KernelFacts OpenFacts AskFacts Samples.
Local Open Scope Z_scope.

Lemma approval_needed pl a rq w st' w' evs :
  Describes pl a rq -> ~ Exempt rq -> rq_command rq <> [] ->
  core_open SudoPair pl a (pstate0 _) w = (Done (1, st'), w') ->
  w_trace w' = w_trace w ++ evs ->
  exists c, Approved rq c evs.
Proof.
  intros D NE NC H T. destruct (open_yes pl a rq D w 1 st' w' evs H T eq_refl NE NC) as (e & c & _ & _ & HA).
  exists c. exact HA.
Qed.

Lemma other_answers_refuse pl a rq w z st' w' evs rd c :
  Describes pl a rq ->
  core_open SudoPair pl a (pstate0 _) w = (Done (z, st'), w') ->
  w_trace w' = w_trace w ++ evs ->
  In rd evs -> e_call rd = CRead c -> e_ans rd <> AData (B "y") -> e_ans rd <> AData (B "Y") ->
  z = -1 /\ st_plugin st' = None.
Proof. intros D. exact (open_no pl a rq D w z st' w' evs rd c). Qed.

Lemma one_read pl a rq w o w' evs :
  Describes pl a rq ->
  core_open SudoPair pl a (pstate0 _) w = (o, w') -> w_trace w' = w_trace w ++ evs ->
  (List.length (reads evs) <= 1)%nat.
Proof. intros D. exact (open_one_read pl a rq D w o w' evs). Qed.

Lemma Approved_reads rq c evs : Approved rq c evs -> reads evs <> [].
Proof.
  intros (q & e1 & b & e2 & acc & e3 & rd & e4 & peer & _ & -> & _ & _ & _ & Hr & _) R.
  assert (Hin : In rd (reads (e1 ++ b :: e2 ++ acc :: e3 ++ rd :: e4))).
  { apply filter_In. split.
    - rewrite in_app_iff. right. right. rewrite in_app_iff. right. right. rewrite in_app_iff. right. left. reflexivity.
    - unfold is_read. destruct Hr as [[-> _]|[-> _]]; reflexivity. }
  rewrite R in Hin. exact Hin.
Qed.

Lemma no_answer_refuses pl a rq w z st' w' evs :
  Describes pl a rq -> ~ Exempt rq -> rq_command rq <> [] ->
  core_open SudoPair pl a (pstate0 _) w = (Done (z, st'), w') ->
  w_trace w' = w_trace w ++ evs -> reads evs = [] ->
  z = -1 /\ st_plugin st' = None.
Proof.
  intros D NE NC H T R. destruct (open_codes pl a rq D w z st' w' H) as [-> | ->].
  - exfalso. destruct (approval_needed pl a rq w st' w' evs D NE NC H T) as [c HA].
    exact (Approved_reads _ _ _ HA R).
  - split; [reflexivity|]. exact (open_refused_state pl a rq D w st' w' H).
Qed.

Lemma prompt_before_answer pl a rq w o w' before rd after c :
  Describes pl a rq ->
  core_open SudoPair pl a (pstate0 _) w = (o, w') ->
  w_trace w' = w_trace w ++ before ++ rd :: after -> e_call rd = CRead c ->
  exists e1 acc e2 n peer,
    before = e1 ++ acc :: e2 /\ Accepts n c peer acc /\ PairPrompt rq e2 (delivered c e2).
Proof. intros D. exact (open_read_prompted pl a rq D w o w' before rd after c). Qed.

Lemma pairing_required_iff pl a rq w st' w' evs :
  Describes pl a rq -> rq_command rq <> [] ->
  core_open SudoPair pl a (pstate0 _) w = (Done (1, st'), w') ->
  w_trace w' = w_trace w ++ evs ->
  (Exempt rq <-> forall ev, In ev evs -> e_call ev <> CAccept).
Proof.
  intros D NC H T. destruct (opened_given pl a rq D w _ w' evs H T) as [_ HO].
  inversion HO as [|e M HC| |e M HC HE| | |e o ls es M Ee HC HE HB HN]; subst; try contradiction.
  - split; [intros _ ev []|intros _; exact HE].
  - split; [contradiction|]. intros HA. exfalso.
    destruct (approval_needed pl a rq w st' w' _ D HE NC H T) as
      (c & q & e1 & b & e2 & acc & e3 & rd & e4 & peer & _ & Eq & _ & [[Hc _] _] & _).
    apply (HA acc); [|exact Hc]. rewrite Eq. rewrite in_app_iff. right. right. rewrite in_app_iff. right. left. reflexivity.
Qed.

Lemma exempt_proceeds pl a rq w :
  Describes pl a rq -> rq_command rq <> [] -> Exempt rq ->
  ~ MasklessAddr pl (oa_settings a) -> pl_debug pl = false \/ Consistent rq ->
  exists st', core_open SudoPair pl a (pstate0 _) w = (Done (1, st'), w) /\ st_plugin st' <> None.
Proof.
  intros D NC HE HM HD. destruct (core_open SudoPair pl a (pstate0 _) w) as [o w'] eqn:E.
  destruct (open_exempt pl a rq D w o w' E NC HE HM HD) as (e & M & -> & ->).
  eexists. split; [reflexivity|discriminate].
Qed.

Lemma both_refused pl a rq w o w' evs :
  Describes pl a rq -> ~ Exempt rq -> rq_command rq <> [] ->
  rq_uid rq <> rq_to_uid rq -> rq_f_group rq <> None ->
  core_open SudoPair pl a (pstate0 _) w = (o, w') -> w_trace w' = w_trace w ++ evs ->
  Only ErrorText evs /\ (o = Stopped \/ exists st', o = Done (-1, st') /\ st_plugin st' = None).
Proof. intros D NE NC HU HG H T. exact (open_both pl a rq D w o w' evs H T NE NC HU HG). Qed.

Lemma primary_refused pl a rq w o w' evs :
  Describes pl a rq -> ~ Exempt rq -> rq_command rq <> [] ->
  rq_uid rq = rq_to_uid rq -> rq_f_group rq = None ->
  core_open SudoPair pl a (pstate0 _) w = (o, w') -> w_trace w' = w_trace w ++ evs ->
  Only LocalPrompt evs /\ (o = Stopped \/ exists st', o = Done (-1, st') /\ st_plugin st' = None).
Proof. intros D NE NC HU HG H T. exact (open_primary pl a rq D w o w' evs H T NE NC HU HG). Qed.

(** A command that is text is a command. *)
Lemma command_textual pl a rq v : Describes pl a rq ->
  Provides (oa_command_info a) (B "command") v -> Utf8 v -> v <> [] -> rq_command rq <> [].
Proof.
  intros D HP HU HN. destruct (d_command _ _ _ D) as [(v' & HP' & _ & Ht)|[HU' _]].
  - unfold Text in Ht. rewrite <- Ht, (Provides_unique _ _ _ _ HP' HP). exact HN.
  - exfalso. apply (HU' v). exists v. split; [exact HP|]. split; [exact HU|reflexivity].
Qed.

Lemma textual_command_paired pl a rq w st' w' evs v : Describes pl a rq ->
  Provides (oa_command_info a) (B "command") v -> Utf8 v -> v <> [] ->
  core_open SudoPair pl a (pstate0 _) w = (Done (1, st'), w') -> w_trace w' = w_trace w ++ evs ->
  Exempt rq \/ exists c, Approved rq c evs.
Proof.
  intros D HP HU HN H T. pose proof (command_textual _ _ _ _ D HP HU HN) as NC.
  destruct (opened_given pl a rq D w _ w' evs H T) as [_ HO].
  inversion HO as [|e M HC| |e M HC HE| | |e o ls es M Ee HC HE HB HN']; subst; try contradiction.
  - left. exact HE.
  - right. eapply approval_needed; eassumption.
Qed.

Lemma exempt_or_approved pl a rq w st' w' evs : Describes pl a rq -> rq_command rq <> [] ->
  core_open SudoPair pl a (pstate0 _) w = (Done (1, st'), w') -> w_trace w' = w_trace w ++ evs ->
  Exempt rq \/ exists c, Approved rq c evs.
Proof.
  intros D NC H T.
  destruct (opened_given pl a rq D w _ w' evs H T) as [_ HO].
  inversion HO as [|e M HC| |e M HC HE| | |e o ls es M Ee HC HE HB HN']; subst; try contradiction.
  - left. exact HE.
  - right. eapply approval_needed; eassumption.
Qed.

Lemma approved_nil rq c : ~ Approved rq c [].
Proof. intros (q & e1 & b & e2 & acc & e3 & rd & e4 & peer & _ & E & _). destruct e1; discriminate. Qed.

(** A group name that is text counts. *)
Lemma textual_group_refused pl a rq w o w' evs v : Describes pl a rq ->
  Provides (oa_settings a) (B "runas_group") v -> Utf8 v ->
  ~ Exempt rq -> rq_command rq <> [] -> rq_uid rq <> rq_to_uid rq ->
  core_open SudoPair pl a (pstate0 _) w = (o, w') -> w_trace w' = w_trace w ++ evs ->
  Only ErrorText evs /\ (o = Stopped \/ exists st', o = Done (-1, st') /\ st_plugin st' = None).
Proof.
  intros D HP HU NE NC HUid H T. refine (both_refused pl a rq w o w' evs D NE NC HUid _ H T).
  pose proof (d_f_group _ _ _ D) as HG. destruct (rq_f_group rq); [discriminate|].
  exfalso. apply (HG v). exists v. split; [exact HP|]. split; [exact HU|reflexivity].
Qed.

(** ** Exempt sessions afterwards *)
Definition OutputCallback (c : callback) : Prop :=
  match c with CbLog _ _ | CbWinsize _ _ => True | _ => False end.

Lemma exempt_callback pl e w c :
  is_exempt (pair0 e) pl = Some true -> OutputCallback c ->
  run_callback SudoPair pl c (ps e (Some (pair0 e))) w = (Done (1, ps e (Some (pair0 e))), w).
Proof.
  intros HE HC. destruct c; try contradiction; cbn [run_callback].
  - unfold core_log, catch_log. cbn [ps st_env st_plugin].
    destruct (negb _ && negb _); [reflexivity|].
    unfold report. cbn [pg_log SudoPair]. unfold pair_log.
    destruct s; try reflexivity. unfold bind, catch. rewrite HE. reflexivity.
  - reflexivity.
Qed.

Lemma bind_Done {A C} (m : M A) (f : A -> M C) w x w' : m w = (Done x, w') -> bind m f w = f x w'.
Proof. unfold bind. intros ->. reflexivity. Qed.

Lemma exempt_callbacks pl e w h :
  is_exempt (pair0 e) pl = Some true -> Forall OutputCallback h ->
  run_history SudoPair pl h (ps e (Some (pair0 e))) w
    = (Done (repeat 1 (List.length h), ps e (Some (pair0 e))), w).
Proof.
  intros HE. induction 1 as [|c h Hc _ IH]; [reflexivity|]. cbn [run_history].
  rewrite (bind_Done _ _ _ _ _ (exempt_callback pl e w c HE Hc)).
  rewrite (bind_Done _ _ _ _ _ IH). reflexivity.
Qed.

Lemma exempt_history pl a rq w h :
  Describes pl a rq -> rq_command rq <> [] -> Exempt rq ->
  ~ MasklessAddr pl (oa_settings a) -> pl_debug pl = false \/ Consistent rq ->
  Forall OutputCallback h ->
  exists st', run_history SudoPair pl (CbOpen a :: h) (pstate0 _) w
              = (Done (1 :: repeat 1 (List.length h), st'), w).
Proof.
  intros D NC HE HM HD Hh. destruct (core_open SudoPair pl a (pstate0 _) w) as [o w'] eqn:E.
  destruct (open_exempt pl a rq D w o w' E NC HE HM HD) as (e & M & -> & ->).
  assert (HX : is_exempt (pair0 e) pl = Some true).
  { destruct (is_exempt (pair0 e) pl) as [[|]|] eqn:X.
    - reflexivity.
    - apply (is_exempt_sound e rq pl M false X) in HE. discriminate.
    - apply (is_exempt_None e rq pl M) in X as [Hd Hc]. destruct HD; [congruence|contradiction]. }
  exists (ps e (Some (pair0 e))). cbn [run_history run_callback].
  rewrite (bind_Done _ _ _ _ _ E).
  rewrite (bind_Done _ _ _ _ _ (exempt_callbacks pl e w h HX Hh)). reflexivity.
Qed.

Lemma not_exempt_by pl e rq : Matches e rq -> is_exempt (pair0 e) pl = Some false -> ~ Exempt rq.
Proof. intros M X HE. apply (is_exempt_sound e rq pl M false X) in HE. discriminate. Qed.

Lemma to_root_not_exempt : ~ Exempt to_root_rq.
Proof.
  destruct (io_env_new release (B "n") (B "v") to_root) as [[e|]|] eqn:E;
    [|vm_compute in E; discriminate|vm_compute in E; discriminate].
  apply (not_exempt_by release e); [exact (env_Matches _ _ _ _ _ _ to_root_describes E)|].
  vm_compute in E. injection E as <-. vm_compute. reflexivity.
Qed.

Lemma not_maskless pl r : get_net_addrs pl (from_raw r) (B "network_addrs") <> None -> ~ MasklessAddr pl r.
Proof. intros H HM. apply H. apply get_net_addrs_None. exact HM. Qed.
