(** The arrays handed over by sudo against the model's environment. *)
From Verif Require Import Base BaseLemmas Num Path Version Template Options World Sys Io Env Core Pair Spec.
From Verif Require Import OptionProofs NumProofs Utf8Proofs PathProofs TemplateProofs VersionProofs ReadProofs.
Local Open Scope Z_scope.

(** The environment holds the request. *)
Record Matches (e : io_env) (rq : request) : Prop := {
  m_printf_out : pf_present (en_stdout e) = rq_printf rq;
  m_printf_err : pf_present (en_stderr e) = rq_printf rq;
  m_args : en_cmdline e = rq_args rq;
  m_progname : se_progname (en_settings e) = rq_progname rq;
  m_sudoedit : se_sudoedit (en_settings e) = rq_f_sudoedit rq;
  m_f_user : se_runas_user (en_settings e) = rq_f_user rq;
  m_f_group : se_runas_group (en_settings e) = rq_f_group rq;
  m_f_prompt : se_prompt (en_settings e) = rq_f_prompt rq;
  m_f_login : se_login_shell (en_settings e) = rq_f_login rq;
  m_f_shell : se_run_shell (en_settings e) = rq_f_shell rq;
  m_f_set_home : se_set_home (en_settings e) = rq_f_set_home rq;
  m_f_preserve_env : se_preserve_environment (en_settings e) = rq_f_preserve_env rq;
  m_f_preserve_groups : se_preserve_groups (en_settings e) = rq_f_preserve_groups rq;
  m_f_reset : se_ignore_ticket (en_settings e) = rq_f_reset rq;
  m_f_noninteractive : se_noninteractive (en_settings e) = rq_f_noninteractive rq;
  m_f_class : se_login_class (en_settings e) = rq_f_class rq;
  m_f_role : se_selinux_role (en_settings e) = rq_f_role rq;
  m_f_type : se_selinux_type (en_settings e) = rq_f_type rq;
  m_f_auth : se_bsd_auth_type (en_settings e) = rq_f_auth rq;
  m_f_close_from : se_close_from (en_settings e) = rq_f_close_from rq;
  m_user_cwd : ui_cwd (en_user_info e) = rq_user_cwd rq;
  m_euid : ui_euid (en_user_info e) = rq_euid rq;
  m_gid : ui_gid (en_user_info e) = rq_gid rq;
  m_groups : ui_groups (en_user_info e) = rq_groups rq;
  m_host : ui_host (en_user_info e) = rq_host rq;
  m_pid : ui_pid (en_user_info e) = rq_pid rq;
  m_uid : ui_uid (en_user_info e) = rq_uid rq;
  m_user : ui_user (en_user_info e) = rq_user rq;
  m_lines : ui_lines (en_user_info e) = rq_lines rq;
  m_cols : ui_cols (en_user_info e) = rq_cols rq;
  m_tty : ui_tty (en_user_info e) = rq_tty rq;
  m_command : ci_command (en_command_info e) = rq_command rq;
  m_policy_cwd : ci_cwd (en_command_info e) = rq_policy_cwd rq;
  m_to_uid : ci_runas_euid (en_command_info e) = rq_to_uid rq;
  m_to_gid : ci_runas_egid (en_command_info e) = rq_to_gid rq;
  m_to_groups : ci_runas_groups (en_command_info e) = rq_to_groups rq;
  m_preserve_groups : ci_preserve_groups (en_command_info e) = rq_preserve_groups rq;
  m_log : forall s, hint s (en_command_info e) = rq_log rq s;
  m_options : plugin_options_from (en_plugin_options e) =
    mkPluginOptions (rq_binary_path rq) (rq_user_prompt_path rq) (rq_pair_prompt_path rq)
      (rq_socket_dir rq) (rq_enforced rq) (rq_exempted rq)
}.

Definition request_of (e : io_env) : request :=
  let se := en_settings e in let ui := en_user_info e in let ci := en_command_info e in
  let po := plugin_options_from (en_plugin_options e) in
  {| rq_uid := ui_uid ui; rq_euid := ui_euid ui; rq_gid := ui_gid ui; rq_groups := ui_groups ui;
     rq_pid := ui_pid ui; rq_user := ui_user ui; rq_host := ui_host ui; rq_user_cwd := ui_cwd ui;
     rq_lines := ui_lines ui; rq_cols := ui_cols ui; rq_tty := ui_tty ui;
     rq_command := ci_command ci; rq_policy_cwd := ci_cwd ci; rq_to_uid := ci_runas_euid ci;
     rq_to_gid := ci_runas_egid ci; rq_to_groups := ci_runas_groups ci;
     rq_preserve_groups := ci_preserve_groups ci; rq_log := fun s => hint s ci;
     rq_progname := se_progname se; rq_args := en_cmdline e;
     rq_f_sudoedit := se_sudoedit se; rq_f_user := se_runas_user se; rq_f_group := se_runas_group se;
     rq_f_prompt := se_prompt se; rq_f_login := se_login_shell se; rq_f_shell := se_run_shell se;
     rq_f_set_home := se_set_home se; rq_f_preserve_env := se_preserve_environment se;
     rq_f_preserve_groups := se_preserve_groups se; rq_f_reset := se_ignore_ticket se;
     rq_f_noninteractive := se_noninteractive se; rq_f_class := se_login_class se;
     rq_f_role := se_selinux_role se; rq_f_type := se_selinux_type se;
     rq_f_auth := se_bsd_auth_type se; rq_f_close_from := se_close_from se;
     rq_binary_path := po_binary_path po; rq_user_prompt_path := po_user_prompt_path po;
     rq_pair_prompt_path := po_pair_prompt_path po; rq_socket_dir := po_socket_dir po;
     rq_enforced := po_gids_enforced po; rq_exempted := po_gids_exempted po;
     rq_printf := pf_present (en_stderr e) |}.

Lemma path_spec s t : parse_path s = Some t <-> Text s t.
Proof. apply parse_string_spec. Qed.

Lemma settings_Ok pl r se : settings_try_from pl (from_raw r) = Some (Ok se) ->
  Reads r "plugin_dir" Text (se_plugin_dir se)
  /\ Reads r "plugin_path" Text (se_plugin_path se)
  /\ Reads r "progname" Text (se_progname se)
  /\ se_bsd_auth_type se = get_opt parse_string (from_raw r) "bsd_auth_type"
  /\ se_close_from se = get_opt (parse_int u64T) (from_raw r) "closefrom"
  /\ se_ignore_ticket se = get_or parse_bool (from_raw r) "ignore_ticket" false
  /\ se_login_class se = get_opt parse_string (from_raw r) "login_class"
  /\ se_login_shell se = get_or parse_bool (from_raw r) "login_shell" false
  /\ se_noninteractive se = get_or parse_bool (from_raw r) "noninteractive" false
  /\ se_preserve_environment se = get_or parse_bool (from_raw r) "preserve_environment" false
  /\ se_preserve_groups se = get_or parse_bool (from_raw r) "preserve_groups" false
  /\ se_prompt se = get_opt parse_string (from_raw r) "prompt"
  /\ se_run_shell se = get_or parse_bool (from_raw r) "run_shell" false
  /\ se_runas_group se = get_opt parse_string (from_raw r) "runas_group"
  /\ se_runas_user se = get_opt parse_string (from_raw r) "runas_user"
  /\ se_selinux_role se = get_opt parse_string (from_raw r) "selinux_role"
  /\ se_selinux_type se = get_opt parse_string (from_raw r) "selinux_type"
  /\ se_set_home se = get_or parse_bool (from_raw r) "set_home" false
  /\ se_sudoedit se = get_or parse_bool (from_raw r) "sudoedit" false.
Proof.
  unfold settings_try_from.
  destruct (get_req parse_string (from_raw r) "plugin_dir") as [d|] eqn:E1; [|discriminate].
  destruct (get_req parse_string (from_raw r) "plugin_path") as [p|] eqn:E2; [|discriminate].
  destruct (get_req parse_string (from_raw r) "progname") as [n|] eqn:E3; [|discriminate].
  destruct (get_net_addrs pl (from_raw r) (B "network_addrs")); [|discriminate].
  intros H. injection H as <-. cbn.
  apply (get_req_Ok parse_string Text parse_string_spec) in E1, E2, E3. tauto.
Qed.

Lemma settings_cases pl r :
  (forall d p n, Reads r "plugin_dir" Text d -> Reads r "plugin_path" Text p ->
     Reads r "progname" Text n ->
     (exists se, settings_try_from pl (from_raw r) = Some (Ok se))
     \/ (settings_try_from pl (from_raw r) = None /\ MasklessAddr pl r)).
Proof.
  intros d p n H1 H2 H3.
  apply (get_req_Ok parse_string Text parse_string_spec) in H1, H2, H3.
  unfold settings_try_from. rewrite H1, H2, H3.
  destruct (get_net_addrs pl (from_raw r) (B "network_addrs")) eqn:E; [eauto|].
  right. split; [reflexivity|]. apply get_net_addrs_None. exact E.
Qed.

Lemma settings_None pl r : settings_try_from pl (from_raw r) = None -> MasklessAddr pl r.
Proof.
  unfold settings_try_from.
  destruct (get_req parse_string (from_raw r) "plugin_dir"); [|discriminate].
  destruct (get_req parse_string (from_raw r) "plugin_path"); [|discriminate].
  destruct (get_req parse_string (from_raw r) "progname"); [|discriminate].
  destruct (get_net_addrs pl (from_raw r) (B "network_addrs")) eqn:E; [discriminate|].
  intros _. apply get_net_addrs_None. exact E.
Qed.

Lemma user_info_Ok r ui : user_info_try_from (from_raw r) = Ok ui <->
  Reads r "cwd" Text (ui_cwd ui)
  /\ Reads r "egid" (UInt 32) (ui_egid ui)
  /\ Reads r "euid" (UInt 32) (ui_euid ui)
  /\ Reads r "gid" (UInt 32) (ui_gid ui)
  /\ Reads r "groups" (UIntList 32) (ui_groups ui)
  /\ Reads r "host" Text (ui_host ui)
  /\ Reads r "pgid" (SInt 32) (ui_pgid ui)
  /\ Reads r "pid" (SInt 32) (ui_pid ui)
  /\ Reads r "ppid" (SInt 32) (ui_ppid ui)
  /\ Reads r "uid" (UInt 32) (ui_uid ui)
  /\ Reads r "user" Text (ui_user ui)
  /\ ui_umask ui = get_opt parse_string (from_raw r) "umask"
  /\ ui_cols ui = get_or (parse_int u64T) (from_raw r) "cols" 80
  /\ ui_lines ui = get_or (parse_int u64T) (from_raw r) "lines" 24
  /\ ui_sid ui = get_or (parse_int i32T) (from_raw r) "sid" 0
  /\ ui_tcpgid ui = get_or (parse_int i32T) (from_raw r) "tcpgid" (-1)
  /\ ui_tty ui = get_opt parse_path (from_raw r) "tty"
  /\ ui_raw ui = from_raw r.
Proof.
  unfold user_info_try_from.
  repeat rewrite <- (get_req_Ok parse_path Text path_spec).
  repeat rewrite <- (get_req_Ok parse_string Text parse_string_spec).
  repeat rewrite <- (get_req_Ok (parse_int u32T) (UInt 32) parse_u32).
  repeat rewrite <- (get_req_Ok (parse_int i32T) (SInt 32) parse_i32).
  repeat rewrite <- (get_req_Ok (parse_ints u32T) (UIntList 32) parse_u32s).
  change (@get_req bytes parse_path) with (@get_req bytes parse_string).
  repeat match goal with
  | |- (match ?x with Ok _ => _ | Err _ => _ end = _ <-> _) =>
      destruct x; [|split; [discriminate|intros H; decompose [and] H; discriminate]]
  end.
  split.
  - intros H. injection H as <-. cbn. tauto.
  - intros H. decompose [and] H. clear H.
    repeat match goal with H : Ok _ = Ok _ |- _ => injection H as -> end.
    f_equal. destruct ui; cbn in *. subst. reflexivity.
Qed.

Lemma user_info_Err r : UserInfoIncomplete r -> exists e, user_info_try_from (from_raw r) = Err e.
Proof.
  intros H. destruct (user_info_try_from (from_raw r)) as [ui|e] eqn:E; [|eauto].
  apply user_info_Ok in E. decompose [and] E.
  unfold UserInfoIncomplete, Unreadable in H. exfalso.
  decompose [or] H; match goal with H : forall x, ~ Reads _ _ _ x |- _ => eapply H; eassumption end.
Qed.

Lemma user_info_exists r cwd egid euid gid groups host pgid pid ppid uid user :
  Reads r "cwd" Text cwd -> Reads r "egid" (UInt 32) egid -> Reads r "euid" (UInt 32) euid ->
  Reads r "gid" (UInt 32) gid -> Reads r "groups" (UIntList 32) groups -> Reads r "host" Text host ->
  Reads r "pgid" (SInt 32) pgid -> Reads r "pid" (SInt 32) pid -> Reads r "ppid" (SInt 32) ppid ->
  Reads r "uid" (UInt 32) uid -> Reads r "user" Text user ->
  exists ui, user_info_try_from (from_raw r) = Ok ui.
Proof.
  intros. eexists (mkUserInfo _ cwd egid euid gid groups host _ pgid pid ppid _ _ _ uid _ user _).
  apply user_info_Ok. cbn. repeat (split; [eassumption|]). repeat split; reflexivity.
Qed.

Lemma Reads_unique {A} r k (p : bytes -> option A) (R : bytes -> A -> Prop) x y :
  (forall s z, p s = Some z <-> R s z) -> Reads r k R x -> Reads r k R y -> x = y.
Proof.
  intros HR Hx Hy. apply (get_req_Ok p R HR) in Hx, Hy. congruence.
Qed.

(** From a successful construction to the description. *)
Lemma env_Describes pl name vers a e :
  io_env_new pl name vers a = Some (Ok e) -> Describes pl a (request_of e).
Proof.
  unfold io_env_new, version_check.
  destruct (supported (from_ffi (oa_version a))) eqn:Ev; [|discriminate].
  cbn [pf_new]. destruct (settings_try_from pl (from_raw (oa_settings a))) as [[se|]|] eqn:Es; try discriminate.
  destruct (user_info_try_from (from_raw (oa_user_info a))) as [ui|] eqn:Eu; [|discriminate].
  intros H. injection H as <-.
  apply settings_Ok in Es. decompose [and] Es. clear Es.
  apply user_info_Ok in Eu. decompose [and] Eu. clear Eu.
  constructor; cbn -[command_info_try_from plugin_options_from];
    try (eapply (get_opt_iff parse_string Text parse_string_spec); congruence);
    try (eapply (get_opt_iff (parse_int u64T) (UInt 64) parse_u64); congruence);
    try (eapply (get_or_iff (parse_int u64T) (UInt 64) parse_u64); congruence);
    try (eapply (get_or_iff parse_bool Bool parse_bool_spec); congruence);
    try (eapply (get_opt_iff parse_path Text path_spec); congruence);
    try eassumption; try reflexivity; try (eexists; eassumption).
  - apply supported_iff. exact Ev.
  - apply Forall2_CString. reflexivity.
  - apply (get_or_iff parse_path Text path_spec). reflexivity.
  - apply (get_opt_iff parse_path Text path_spec). reflexivity.
  - eexists. split; apply (get_or_iff (parse_int u32T) (UInt 32) parse_u32); reflexivity.
  - eexists. split; apply (get_or_iff (parse_int u32T) (UInt 32) parse_u32); reflexivity.
  - apply (get_opt_iff (parse_ints u32T) (UIntList 32) parse_u32s). reflexivity.
  - apply (get_or_iff parse_bool Bool parse_bool_spec). reflexivity.
  - apply (get_or_iff parse_bool Bool parse_bool_spec). reflexivity.
  - apply (get_or_iff parse_bool Bool parse_bool_spec). reflexivity.
  - apply (get_or_iff parse_bool Bool parse_bool_spec). reflexivity.
  - apply (get_or_iff parse_bool Bool parse_bool_spec). reflexivity.
  - apply (get_or_iff parse_bool Bool parse_bool_spec). reflexivity.
  - apply (get_or_iff parse_path Text path_spec). reflexivity.
  - apply (get_or_iff parse_path Text path_spec). reflexivity.
  - apply (get_or_iff parse_path Text path_spec). reflexivity.
  - apply (get_or_iff parse_path Text path_spec). reflexivity.
  - apply (get_or_iff (parse_int_set u32T) (UIntList 32) parse_u32s). reflexivity.
  - apply (get_or_iff (parse_int_set u32T) (UIntList 32) parse_u32s). reflexivity.
Qed.

Ltac uopt := apply (get_opt_iff parse_string Text parse_string_spec).
Ltac uoptp := apply (get_opt_iff parse_path Text path_spec).
Ltac uoptn := apply (get_opt_iff (parse_int u64T) (UInt 64) parse_u64).
Ltac uor := apply (get_or_iff parse_bool Bool parse_bool_spec).
Ltac uorn := apply (get_or_iff (parse_int u64T) (UInt 64) parse_u64).
Ltac uors := apply (get_or_iff parse_path Text path_spec).
Ltac uorl := apply (get_or_iff (parse_int_set u32T) (UIntList 32) parse_u32s).

(** From the description to the environment. *)
Lemma env_Matches pl a rq name vers e : Describes pl a rq ->
  io_env_new pl name vers a = Some (Ok e) -> Matches e rq.
Proof.
  intros D. unfold io_env_new, version_check.
  destruct (supported (from_ffi (oa_version a))) eqn:Ev; [|discriminate].
  cbn [pf_new]. destruct (settings_try_from pl (from_raw (oa_settings a))) as [[se|]|] eqn:Es; try discriminate.
  destruct (user_info_try_from (from_raw (oa_user_info a))) as [ui|] eqn:Eu; [|discriminate].
  intros H. injection H as <-.
  apply settings_Ok in Es as (S1 & S2 & S3 & S4 & S5 & S6 & S7 & S8 & S9 & S10 & S11 & S12 & S13 & S14 & S15 & S16 & S17 & S18 & S19).
  apply user_info_Ok in Eu as (U1 & U2 & U3 & U4 & U5 & U6 & U7 & U8 & U9 & U10 & U11 & U12 & U13 & U14 & U15 & U16 & U17 & U18).
  constructor; cbn [en_stdout en_stderr en_cmdline en_settings en_user_info en_command_info en_plugin_options pf_present].
  - symmetry. apply (d_printf _ _ _ D).
  - symmetry. apply (d_printf _ _ _ D).
  - symmetry. apply Forall2_CString. apply (d_args _ _ _ D).
  - exact (Reads_unique _ _ parse_string _ _ _ parse_string_spec S3 (d_progname _ _ _ D)).
  - rewrite S19. uor. apply (d_sudoedit _ _ _ D).
  - rewrite S15. uopt. apply (d_f_user _ _ _ D).
  - rewrite S14. uopt. apply (d_f_group _ _ _ D).
  - rewrite S12. uopt. apply (d_f_prompt _ _ _ D).
  - rewrite S8. uor. apply (d_f_login _ _ _ D).
  - rewrite S13. uor. apply (d_f_shell _ _ _ D).
  - rewrite S18. uor. apply (d_f_set_home _ _ _ D).
  - rewrite S10. uor. apply (d_f_preserve_env _ _ _ D).
  - rewrite S11. uor. apply (d_f_preserve_groups _ _ _ D).
  - rewrite S6. uor. apply (d_f_reset _ _ _ D).
  - rewrite S9. uor. apply (d_f_noninteractive _ _ _ D).
  - rewrite S7. uopt. apply (d_f_class _ _ _ D).
  - rewrite S16. uopt. apply (d_f_role _ _ _ D).
  - rewrite S17. uopt. apply (d_f_type _ _ _ D).
  - rewrite S4. uopt. apply (d_f_auth _ _ _ D).
  - rewrite S5. uoptn. apply (d_f_close_from _ _ _ D).
  - exact (Reads_unique _ _ parse_string _ _ _ parse_string_spec U1 (d_user_cwd _ _ _ D)).
  - exact (Reads_unique _ _ (parse_int u32T) _ _ _ parse_u32 U3 (d_euid _ _ _ D)).
  - exact (Reads_unique _ _ (parse_int u32T) _ _ _ parse_u32 U4 (d_gid _ _ _ D)).
  - exact (Reads_unique _ _ (parse_ints u32T) _ _ _ parse_u32s U5 (d_groups _ _ _ D)).
  - exact (Reads_unique _ _ parse_string _ _ _ parse_string_spec U6 (d_host _ _ _ D)).
  - exact (Reads_unique _ _ (parse_int i32T) _ _ _ parse_i32 U8 (d_pid _ _ _ D)).
  - exact (Reads_unique _ _ (parse_int u32T) _ _ _ parse_u32 U10 (d_uid _ _ _ D)).
  - exact (Reads_unique _ _ parse_string _ _ _ parse_string_spec U11 (d_user _ _ _ D)).
  - rewrite U14. uorn. apply (d_lines _ _ _ D).
  - rewrite U13. uorn. apply (d_cols _ _ _ D).
  - rewrite U17. uoptp. apply (d_tty _ _ _ D).
  - uors. apply (d_command _ _ _ D).
  - uoptp. apply (d_policy_cwd _ _ _ D).
  - destruct (d_to_uid _ _ _ D) as (u & H1 & H2).
    apply (get_or_iff (parse_int u32T) (UInt 32) parse_u32) in H1, H2.
    unfold command_info_try_from; cbn [ci_runas_euid]. rewrite H1. exact H2.
  - destruct (d_to_gid _ _ _ D) as (u & H1 & H2).
    apply (get_or_iff (parse_int u32T) (UInt 32) parse_u32) in H1, H2.
    unfold command_info_try_from; cbn [ci_runas_egid]. rewrite H1. exact H2.
  - apply (get_opt_iff (parse_ints u32T) (UIntList 32) parse_u32s). apply (d_to_groups _ _ _ D).
  - uor. apply (d_preserve_groups _ _ _ D).
  - intros []; cbn [hint].
    + uor. apply (d_log_ttyin _ _ _ D).
    + uor. apply (d_log_ttyout _ _ _ D).
    + uor. apply (d_log_stdin _ _ _ D).
    + uor. apply (d_log_stdout _ _ _ D).
    + uor. apply (d_log_stderr _ _ _ D).
  - unfold plugin_options_from. f_equal.
    + uors. apply (d_binary_path _ _ _ D).
    + uors. apply (d_user_prompt_path _ _ _ D).
    + uors. apply (d_pair_prompt_path _ _ _ D).
    + uors. apply (d_socket_dir _ _ _ D).
    + uorl. apply (d_enforced _ _ _ D).
    + uorl. apply (d_exempted _ _ _ D).
Qed.

Lemma io_env_new_not_Err pl a rq name vers er : Describes pl a rq ->
  io_env_new pl name vers a <> Some (Err er).
Proof.
  intros D. unfold io_env_new, version_check.
  rewrite (proj2 (supported_iff _) (d_version _ _ _ D)). cbn [pf_new].
  destruct (d_plugin_dir _ _ _ D) as [d Hd]. destruct (d_plugin_path _ _ _ D) as [p Hp].
  destruct (settings_cases pl _ d p _ Hd Hp (d_progname _ _ _ D)) as [[se Es]|[Es _]];
    rewrite Es; [|discriminate].
  destruct (d_egid _ _ _ D) as [eg Heg]. destruct (d_pgid _ _ _ D) as [pg Hpg].
  destruct (d_ppid _ _ _ D) as [pp Hpp].
  destruct (user_info_exists _ _ _ _ _ _ _ _ _ _ _ _ (d_user_cwd _ _ _ D) Heg (d_euid _ _ _ D)
    (d_gid _ _ _ D) (d_groups _ _ _ D) (d_host _ _ _ D) Hpg (d_pid _ _ _ D) Hpp (d_uid _ _ _ D)
    (d_user _ _ _ D)) as [ui Eu].
  rewrite Eu. discriminate.
Qed.

Lemma env_printf pl name vers a e : io_env_new pl name vers a = Some (Ok e) ->
  en_stderr e = mkPf (oa_printf a) LEVEL_ERROR (name ++ B ": ")
  /\ en_stdout e = mkPf (oa_printf a) LEVEL_INFO (name ++ B ": ").
Proof.
  unfold io_env_new. destruct (version_check _); [|discriminate]. cbn [pf_new].
  destruct (settings_try_from _ _) as [[?|]|]; try discriminate.
  destruct (user_info_try_from _); [|discriminate]. intros E. injection E as <-. split; reflexivity.
Qed.

Lemma io_env_new_None pl name vers a : io_env_new pl name vers a = None -> MasklessAddr pl (oa_settings a).
Proof.
  unfold io_env_new. destruct (version_check _); [|discriminate]. cbn [pf_new].
  destruct (settings_try_from _ _) as [[?|]|] eqn:Es; try discriminate.
  - destruct (user_info_try_from _); discriminate.
  - intros _. exact (settings_None _ _ Es).
Qed.

Lemma Describes_env pl a rq name vers : Describes pl a rq ->
  (exists e, io_env_new pl name vers a = Some (Ok e) /\ Matches e rq)
  \/ (io_env_new pl name vers a = None /\ MasklessAddr pl (oa_settings a)).
Proof.
  intros D. destruct (io_env_new pl name vers a) as [[e|er]|] eqn:E.
  - left. exists e. split; [reflexivity|]. exact (env_Matches _ _ _ _ _ _ D E).
  - exfalso. exact (io_env_new_not_Err _ _ _ _ _ _ D E).
  - right. split; [reflexivity|]. exact (io_env_new_None _ _ _ _ E).
Qed.

Lemma Matches_request_of pl name vers a e :
  io_env_new pl name vers a = Some (Ok e) -> Matches e (request_of e).
Proof.
  intros E. exact (env_Matches _ _ _ _ _ _ (env_Describes _ _ _ _ _ E) E).
Qed.
