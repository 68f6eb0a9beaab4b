(** Openings that fail, or cannot fail, while the arguments are read. *)
From Verif Require Import Base BaseLemmas Num Path Version Template Options World Sys Io Socket Env Core Pair
  Spec TraceSpec OptionProofs NumProofs VersionProofs ReadProofs RequestProofs PairPure RunProofs IoProofs SocketProofs
  PairProofs OpenFacts.
Local Open Scope Z_scope.

Lemma printed_ErrorText a b o es : printed_all (stderr_of a) b o es -> Only ErrorText es.
Proof.
  intros H. apply printed_all_calls in H. revert H. apply Only_weaken. intros c [d ->]. exists d. reflexivity.
Qed.

Lemma printed_Prefix a b o es : printed_all (stderr_of a) b o es -> HonestPrintf es -> Prefix (printed 3 es) b.
Proof.
  intros [_ H] HH. destruct o as [[?|?]| |]; try exact H.
  - change (pf_level (stderr_of a)) with 3 in H. rewrite H. apply Prefix_refl.
  - contradiction.
Qed.

Definition report_text (display : bytes) : bytes := [x0a] ++ B "sudo_pair: " ++ display ++ [x0a].

(** What an error report prints. *)
Lemma reported_text a d r es : reported a d r es ->
  Only ErrorText es
  /\ (HonestPrintf es -> Prefix (printed 3 es) (report_text d)
      /\ (oa_printf a = true -> has_nul d = false -> ~ Exists Failed es -> r <> Stopped -> printed 3 es = report_text d)).
Proof.
  intros [HP HF]. split; [eapply printed_ErrorText; exact HP|]. intros HH.
  split; [exact (printed_Prefix _ _ _ _ HP HH)|]. intros Hp Hn Hf Hr. specialize (HF Hp Hn).
  destruct HP as [_ H]. destruct r as [[?|?]| |]; [exact H| | |contradiction].
  - exfalso. exact (Hf HF).
  - contradiction.
Qed.

Lemma has_nul_app a b : has_nul (a ++ b) = has_nul a || has_nul b.
Proof. apply existsb_app. Qed.

Lemma has_nul_dec n : has_nul (to_dec n) = false.
Proof.
  unfold has_nul. destruct (existsb _ (to_dec n)) eqn:E; [|reflexivity].
  apply existsb_exists in E as (b & Hin & Hb). apply byte_eqb_eq in Hb. subst b.
  apply to_dec_bytes in Hin as [[H _]|H]; [cbv in H; congruence|discriminate].
Qed.

Lemma user_info_aborts pl a st w o w' evs :
  UserInfoIncomplete (oa_user_info a) ->
  core_open SudoPair pl a st w = (o, w') -> w_trace w' = w_trace w ++ evs ->
  Only ErrorText evs /\ (o = Stopped \/ o = Done (-1, st)).
Proof.
  intros HU H T. destruct (core_open_yields pl a st w o w' H) as (evs' & R & HC).
  rewrite (Ran_given _ _ _ _ _ R T). clear H T R evs.
  inversion HC as [E|er ps r E [Hr Hp]|er ps E Hp|e' e o1 es E He HR]; subst.
  - split; [constructor|auto].
  - split; [eapply printed_ErrorText; exact (proj1 Hp)|auto].
  - split; [eapply printed_ErrorText; exact (proj1 Hp)|auto].
  - exfalso. apply user_info_Err in HU as [er Hu]. unfold io_env_new in E.
    destruct (version_check _); [|discriminate]. cbn [pf_new] in E.
    destruct (settings_try_from _ _) as [[?|]|]; try discriminate. rewrite Hu in E. discriminate.
Qed.

Lemma old_api_aborts pl a st w o w' evs :
  ~ ApiAtLeast_1_9 (oa_version a) ->
  core_open SudoPair pl a st w = (o, w') -> w_trace w' = w_trace w ++ evs ->
  Only ErrorText evs /\ (o = Stopped \/ o = Done (-1, st))
  /\ (HonestPrintf evs -> exists major minor text,
        Decimal ((oa_version a / 65536) mod 65536) major /\ Decimal (oa_version a mod 65536) minor
        /\ text = [x0a] ++ B "sudo_pair: sudo called plugin with an API version of " ++ major ++ B "." ++ minor
                  ++ B ", but a minimum of 1.9 is required" ++ [x0a]
        /\ Prefix (printed 3 evs) text
        /\ (oa_printf a = true -> ~ Exists Failed evs -> o = Stopped \/ printed 3 evs = text)).
Proof.
  intros HV H T. destruct (core_open_yields pl a st w o w' H) as (evs' & R & HC).
  rewrite (Ran_given _ _ _ _ _ R T). clear H T R evs.
  set (er := UnsupportedApiVersion MINIMUM (from_ffi (oa_version a))).
  assert (E : io_env_new pl (B "sudo_pair") (B "1.2.0") a = Some (Err er)).
  { unfold io_env_new, version_check. destruct (supported (from_ffi (oa_version a))) eqn:Es; [|reflexivity].
    apply supported_iff in Es. contradiction. }
  set (ma := to_dec ((oa_version a / 65536) mod 65536)). set (mi := to_dec (oa_version a mod 65536)).
  assert (Ed : display_error er = B "sudo called plugin with an API version of " ++ ma ++ B "." ++ mi
                 ++ B ", but a minimum of 1.9 is required").
  { unfold er. cbn [display_error]. rewrite from_ffi_eq. unfold display_version. cbn [v_major v_minor].
    fold ma mi. rewrite <- !app_assoc. reflexivity. }
  assert (En : has_nul (display_error er) = false).
  { rewrite Ed, !has_nul_app. unfold ma, mi. rewrite !has_nul_dec. reflexivity. }
  assert (HP : forall r es (o' : outcome (Z * pstate SudoPair)), reported a (display_error er) r es -> (o' = Stopped \/ r <> Stopped) ->
      HonestPrintf es -> exists major minor text,
        Decimal ((oa_version a / 65536) mod 65536) major /\ Decimal (oa_version a mod 65536) minor
        /\ text = [x0a] ++ B "sudo_pair: sudo called plugin with an API version of " ++ major ++ B "." ++ minor
                  ++ B ", but a minimum of 1.9 is required" ++ [x0a]
        /\ Prefix (printed 3 es) text
        /\ (oa_printf a = true -> ~ Exists Failed es -> o' = Stopped \/ printed 3 es = text)).
  { intros r es o' Hp Ho Hh. exists ma, mi, (report_text (display_error er)).
    split; [apply Decimal_iff; reflexivity|]. split; [apply Decimal_iff; reflexivity|].
    split; [unfold report_text; rewrite Ed, <- !app_assoc; reflexivity|].
    destruct (proj2 (reported_text _ _ _ _ Hp) Hh) as [X Y]. split; [exact X|]. intros Hp' Hf.
    destruct Ho as [Ho|Ho]; [left; exact Ho|right]. apply Y; assumption. }
  inversion HC as [E'|er' ps r E' [Hr Hp]|er' ps E' Hp|e' e o1 es E' He HR]; subst;
    rewrite E in E'; try discriminate; injection E' as <-.
  - split; [eapply printed_ErrorText; exact (proj1 Hp)|]. split; [auto|]. eapply HP; [exact Hp|right; exact Hr].
  - split; [eapply printed_ErrorText; exact (proj1 Hp)|]. split; [auto|]. eapply HP; [exact Hp|left; reflexivity].
Qed.

(** ** The version plays no further part *)
Definition with_version (v : Z) (a : open_args) : open_args := {|
  oa_version := v; oa_printf := oa_printf a; oa_settings := oa_settings a; oa_user_info := oa_user_info a;
  oa_command_info := oa_command_info a; oa_argv := oa_argv a; oa_user_env := oa_user_env a;
  oa_plugin_options := oa_plugin_options a |}.

(** What sudo sees of a callback. *)
Definition returned {A} (o : outcome (Z * A)) : outcome Z :=
  match o with Done (z, _) => Done z | Panicked => Panicked | Stopped => Stopped end.

Definition setv (v : version) (e : io_env) : io_env := {|
  en_plugin_name := en_plugin_name e; en_plugin_version := en_plugin_version e; en_api_version := v;
  en_cmdline := en_cmdline e; en_settings := en_settings e; en_user_info := en_user_info e;
  en_command_info := en_command_info e; en_user_env := en_user_env e; en_plugin_options := en_plugin_options e;
  en_stdout := en_stdout e; en_stderr := en_stderr e |}.

Lemma io_env_new_version pl name vers a v1 v2 : ApiAtLeast_1_9 v1 -> ApiAtLeast_1_9 v2 ->
  io_env_new pl name vers (with_version v2 a) =
  match io_env_new pl name vers (with_version v1 a) with
  | None => None
  | Some (Err e) => Some (Err e)
  | Some (Ok e) => Some (Ok (setv (from_ffi v2) e))
  end.
Proof.
  intros H1 H2. unfold io_env_new, version_check. cbn [with_version oa_version oa_printf oa_settings oa_user_info oa_argv oa_command_info oa_user_env oa_plugin_options].
  rewrite (proj2 (supported_iff _) H1), (proj2 (supported_iff _) H2). cbn [pf_new].
  destruct (settings_try_from _ _) as [[?|]|]; try reflexivity. destruct (user_info_try_from _); reflexivity.
Qed.

Definition map_ok {A} (f : A -> A) {E} (o : outcome (result A E)) : outcome (result A E) :=
  match o with Done (Ok x) => Done (Ok (f x)) | r => r end.

Definition resp (v : version) (s : sudo_pair) : sudo_pair := mkSudoPair (setv v (sp_env s)) (sp_options s) (sp_socket s).

Lemma pair_open_version pl v e w :
  pair_open pl (setv v e) w = (map_ok (resp v) (fst (pair_open pl e w)), snd (pair_open pl e w)).
Proof.
  unfold pair_open. cbn [setv en_plugin_options].
  set (s1 := mkSudoPair (setv v e) _ None). set (s := mkSudoPair e _ None).
  change (is_exempt s1 pl) with (is_exempt s pl).
  destruct (is_exempt s pl) as [[|]|]; try reflexivity.
  change (is_sudoing_to_user_and_group s1) with (is_sudoing_to_user_and_group s).
  destruct (is_sudoing_to_user_and_group s); [reflexivity|].
  change (template_spec s1) with (template_spec s).
  change (local_pair_prompt s1 (template_spec s)) with (local_pair_prompt s (template_spec s)).
  unfold bind. destruct (local_pair_prompt s (template_spec s) w) as [[[]| |] w1]; try reflexivity.
  unfold remote_pair_connect. cbn [s s1 sp_socket].
  change (socket_mode s1) with (socket_mode s). change (socket_path s1) with (socket_path s).
  change (socket_uid s1) with (socket_uid s). change (socket_gid s1) with (socket_gid s).
  destruct (socket_mode s) as [mode|]; [|reflexivity].
  unfold bind. destruct (socket_open _ _ _ _ _ w1) as [[[c|er]| |] w2]; try reflexivity.
  cbn [ret].
  change (remote_pair_prompt (mkSudoPair (sp_env s1) (sp_options s1) (Some c)) (template_spec s))
    with (remote_pair_prompt (mkSudoPair (sp_env s) (sp_options s) (Some c)) (template_spec s)).
  change (pair_drop (mkSudoPair (sp_env s1) (sp_options s1) (Some c)))
    with (pair_drop (mkSudoPair (sp_env s) (sp_options s) (Some c))).
  destruct (unwind_with _ _ w2) as [[[[]|er]| |] w3]; try reflexivity.
  destruct (pair_drop _ w3) as [[[]| |] w4]; reflexivity.
Qed.

Lemma version_irrelevant pl a v1 v2 w : ApiAtLeast_1_9 v1 -> ApiAtLeast_1_9 v2 ->
  let r1 := core_open SudoPair pl (with_version v1 a) (pstate0 _) w in
  let r2 := core_open SudoPair pl (with_version v2 a) (pstate0 _) w in
  returned (fst r1) = returned (fst r2) /\ snd r1 = snd r2.
Proof.
  intros H1 H2. cbv zeta. unfold core_open. cbn [pf_new with_version oa_printf].
  rewrite (io_env_new_version pl (pg_name SudoPair) (pg_version SudoPair) a v1 v2 H1 H2).
  destruct (io_env_new pl (pg_name SudoPair) (pg_version SudoPair) (with_version v1 a)) as [[e|er]|]; [| |split; reflexivity].
  - cbn [pstate0 st_env st_plugin setv en_command_info]. destruct (path_eqb _ []); [split; reflexivity|].
    cbn [pg_open SudoPair pg_display pg_source pg_open_status].
    unfold bind, catch. rewrite pair_open_version.
    destruct (pair_open pl e w) as [[[p|er]| |] w1]; cbn [fst snd map_ok]; try (split; reflexivity).
    destruct (write_error _ _ _ w1) as [[?| |] w2]; split; reflexivity.
  - split; reflexivity.
Qed.

(** ** Complete arrays *)
Lemma complete_described pl a : ApiAtLeast_1_9 (oa_version a) -> SettingsComplete (oa_settings a) ->
  UserInfoComplete (oa_user_info a) -> ~ MasklessAddr pl (oa_settings a) ->
  exists e, io_env_new pl (B "sudo_pair") (B "1.2.0") a = Some (Ok e) /\ Describes pl a (request_of e).
Proof.
  intros HV ((d & Hd) & (p & Hp) & (n & Hn)) HU HM.
  destruct HU as ((u1 & U1) & (u2 & U2) & (u3 & U3) & (u4 & U4) & (u5 & U5) & (u6 & U6) & (u7 & U7) & (u8 & U8) & (u9 & U9) & (u10 & U10) & (u11 & U11)).
  assert (E : exists e, io_env_new pl (B "sudo_pair") (B "1.2.0") a = Some (Ok e)).
  { unfold io_env_new, version_check. rewrite (proj2 (supported_iff _) HV). cbn [pf_new].
    destruct (settings_cases pl _ d p n Hd Hp Hn) as [[se Es]|[_ Es]]; [rewrite Es|contradiction].
    destruct (user_info_exists _ _ _ _ _ _ _ _ _ _ _ _ U1 U2 U3 U4 U5 U6 U7 U8 U9 U10 U11) as [ui Eu]. rewrite Eu.
    eexists. reflexivity. }
  destruct E as [e E]. exists e. split; [exact E|]. exact (env_Describes _ _ _ _ _ E).
Qed.

Lemma complete_initialises pl a : ApiAtLeast_1_9 (oa_version a) -> SettingsComplete (oa_settings a) ->
  UserInfoComplete (oa_user_info a) -> ~ MasklessAddr pl (oa_settings a) ->
  (exists rq, Describes pl a rq)
  /\ forall w z st' w', core_open SudoPair pl a (pstate0 _) w = (Done (z, st'), w') -> st_env st' <> None.
Proof.
  intros HV HS HU HM. destruct (complete_described pl a HV HS HU HM) as (e & E & D). split; [eauto|].
  intros w z st' w' H. destruct (core_open_yields pl a _ w _ w' H) as (evs & R & HC).
  inversion HC as [E'|er ps r E' Hp|er ps E' Hp|e' e1 o1 es E' He HR]; subst; try congruence.
  inversion HR; subst; try discriminate.
Qed.

Lemma core_open_None pl a w : io_env_new pl (B "sudo_pair") (B "1.2.0") a = None ->
  core_open SudoPair pl a (pstate0 _) w = (Done (-1, pstate0 _), w).
Proof.
  intros E. unfold core_open. cbn [pf_new]. change (pg_name SudoPair) with (B "sudo_pair").
  change (pg_version SudoPair) with (B "1.2.0"). rewrite E. reflexivity.
Qed.

Lemma maskless_aborts pl a rq w : Describes pl a rq -> MasklessAddr pl (oa_settings a) ->
  core_open SudoPair pl a (pstate0 _) w = (Done (-1, pstate0 _), w).
Proof.
  intros D HM.
  assert (E : io_env_new pl (B "sudo_pair") (B "1.2.0") a = None).
  { unfold io_env_new, version_check. rewrite (proj2 (supported_iff _) (d_version _ _ _ D)). cbn [pf_new].
    destruct (d_plugin_dir _ _ _ D) as [d Hd]. destruct (d_plugin_path _ _ _ D) as [p Hp].
    assert (Es : settings_try_from pl (from_raw (oa_settings a)) = None).
    { unfold settings_try_from. pose proof (d_progname _ _ _ D) as Hn.
      apply (get_req_Ok parse_string Text parse_string_spec) in Hd, Hp, Hn. rewrite Hd, Hp, Hn.
      apply get_net_addrs_None in HM. rewrite HM. reflexivity. }
    rewrite Es. reflexivity. }
  exact (core_open_None pl a w E).
Qed.
