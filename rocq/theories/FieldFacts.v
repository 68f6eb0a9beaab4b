(** Facts behind PropsFields.v. *)
From Coq Require Import Lia.
From Verif Require Import Base BaseLemmas Num Utf8 Path Version Template Options World Sys Io Env Core Pair Spec.
From Verif Require Import OptionProofs NumProofs Utf8Proofs PathProofs TemplateProofs VersionProofs
  ReadProofs RequestProofs PairPure InputFacts Samples FieldSpec.
Local Open Scope Z_scope.

Lemma same_map r : SameMap r (from_raw r).
Proof. intros k v. apply get_bytes_Provides. Qed.

Lemma opt_text r k : ReadsOpt r k Text (get_opt parse_string (from_raw r) k).
Proof. apply (get_opt_iff parse_string Text parse_string_spec). reflexivity. Qed.
Lemma opt_path r k : ReadsOpt r k Text (get_opt parse_path (from_raw r) k).
Proof. apply (get_opt_iff parse_path Text path_spec). reflexivity. Qed.
Lemma opt_u64 r k : ReadsOpt r k (UInt 64) (get_opt (parse_int u64T) (from_raw r) k).
Proof. apply (get_opt_iff _ _ parse_u64). reflexivity. Qed.
Lemma opt_u32s r k : ReadsOpt r k (UIntList 32) (get_opt (parse_ints u32T) (from_raw r) k).
Proof. apply (get_opt_iff _ _ parse_u32s). reflexivity. Qed.
Lemma opt_bool r k : ReadsOpt r k Bool (get_opt parse_bool (from_raw r) k).
Proof. apply (get_opt_iff _ _ parse_bool_spec). reflexivity. Qed.
Lemma or_bool r k d : ReadsOr r k Bool d (get_or parse_bool (from_raw r) k d).
Proof. apply (get_or_iff _ _ parse_bool_spec). reflexivity. Qed.
Lemma or_path r k d : ReadsOr r k Text d (get_or parse_path (from_raw r) k d).
Proof. apply (get_or_iff _ _ path_spec). reflexivity. Qed.
Lemma or_u32 r k d : ReadsOr r k (UInt 32) d (get_or (parse_int u32T) (from_raw r) k d).
Proof. apply (get_or_iff _ _ parse_u32). reflexivity. Qed.
Lemma or_u64 r k d : ReadsOr r k (UInt 64) d (get_or (parse_int u64T) (from_raw r) k d).
Proof. apply (get_or_iff _ _ parse_u64). reflexivity. Qed.
Lemma or_i32 r k d : ReadsOr r k (SInt 32) d (get_or (parse_int i32T) (from_raw r) k d).
Proof. apply (get_or_iff _ _ parse_i32). reflexivity. Qed.
Lemma or_i32s r k d :
  ReadsOr r k (ListOf ","%byte (SInt 32)) d (get_or (parse_ints i32T) (from_raw r) k d).
Proof.
  apply (get_or_iff (parse_ints i32T) (ListOf ","%byte (SInt 32))); [|reflexivity].
  apply (parse_list_spec ","%byte (parse_int i32T) (SInt 32) parse_i32).
Qed.

Ltac field :=
  first [ apply opt_text | apply opt_path | apply opt_u64 | apply opt_u32s | apply opt_bool
        | apply or_bool | apply or_path | apply or_u32 | apply or_u64 | apply or_i32 | apply or_i32s
        | apply same_map ].

Lemma command_info_read pl r : CommandInfoRead pl r (command_info_try_from pl (from_raw r)).
Proof. unfold CommandInfoRead, command_info_try_from. cbn. repeat (split; [field|]). field. Qed.

Lemma user_info_read r ui : user_info_try_from (from_raw r) = Ok ui -> UserInfoRead r ui.
Proof.
  intros H. apply user_info_Ok in H. decompose [and] H. clear H. unfold UserInfoRead.
  repeat (split; [assumption|]).
  repeat match goal with H : _ = _ |- _ => rewrite H; clear H end.
  repeat (split; [field|]). field.
Qed.

(** *** Network addresses *)
Lemma parse_net_addr_exact pl s n : parse_net_addr pl s = Some (Some n) <-> NetAddr pl s n.
Proof.
  unfold parse_net_addr, NetAddr. destruct (span _ s) as [a b] eqn:E.
  pose proof (span_app _ _ _ _ E) as Happ. pose proof (span_fst _ _ _ _ E) as Ha.
  apply Forall_neq_In in Ha.
  destruct b as [|x b].
  - rewrite app_nil_r in Happ. subst a. split.
    + intros H. destruct (pl_parse_ip pl s); discriminate.
    + intros (a & m & -> & _). exfalso. apply Ha. apply in_or_app. right. left. reflexivity.
  - pose proof (span_snd _ _ _ _ _ E) as Hx. apply byte_eqb_eq in Hx as ->. split.
    + intros H. exists a, b. destruct (pl_parse_ip pl a); [|discriminate].
      destruct (pl_parse_ip pl b); [|discriminate]. injection H as <-. auto.
    + intros (a' & m & E' & Ha' & H1 & H2). rewrite Happ in E'.
      apply first_split_unique in E' as [<- <-]; auto. rewrite H1, H2.
      destruct n; reflexivity.
Qed.

Lemma parse_net_all_exact pl l : forall ns,
  parse_net_all pl l = Some (Some ns) <-> Forall2 (NetAddr pl) l ns.
Proof.
  induction l as [|s l IH]; intros ns; cbn.
  - split; [intros H; injection H as <-; constructor|]. inversion 1. reflexivity.
  - destruct (parse_net_addr pl s) as [[n|]|] eqn:E.
    + apply parse_net_addr_exact in E. split.
      * intros H. destruct (parse_net_all pl l) as [[r|]|]; try discriminate.
        injection H as <-. constructor; [exact E|]. apply IH. reflexivity.
      * inversion 1 as [|? n' ? ns' H1 H2]; subst. apply IH in H2. rewrite H2.
        apply parse_net_addr_exact in E, H1. congruence.
    + split; [discriminate|]. inversion 1 as [|? n' ? ns' H1 H2]; subst.
      apply parse_net_addr_exact in H1. congruence.
    + split; [discriminate|]. inversion 1 as [|? n' ? ns' H1 H2]; subst.
      apply parse_net_addr_exact in H1. congruence.
Qed.

Lemma net_addrs_read pl r l : get_net_addrs pl (from_raw r) (B "network_addrs") = Some l ->
  ReadsOr r "network_addrs" (ListOf " "%byte (NetAddr pl)) [] l.
Proof.
  unfold get_net_addrs, get_str, ReadsOr, Unreadable, Reads, ReadsKey.
  destruct (get_bytes (from_raw r) (B "network_addrs")) as [v|] eqn:E.
  2:{ intros H. injection H as <-. right. split; [|reflexivity]. intros x (v & Hv & _).
      apply get_bytes_Provides in Hv. congruence. }
  apply get_bytes_Provides in E. destruct (valid_utf8 v) eqn:U.
  2:{ intros H. injection H as <-. right. split; [|reflexivity]. intros x (v' & Hv & Hu & _).
      rewrite (Provides_unique _ _ _ _ Hv E) in Hu. apply valid_utf8_iff in Hu. congruence. }
  apply valid_utf8_iff in U. unfold parse_net_addrs.
  destruct (parse_net_all pl (split_on " "%byte v)) as [[ns|]|] eqn:P; [| |discriminate].
  - intros H. injection H as <-. left. exists v. split; [exact E|]. split; [exact U|].
    exists (split_on " "%byte v). split; [apply Separated_split; reflexivity|].
    apply parse_net_all_exact. exact P.
  - intros H. injection H as <-. right. split; [|reflexivity].
    intros x (v' & Hv & _ & ps & Hs & Hf). rewrite (Provides_unique _ _ _ _ Hv E) in Hs.
    apply Separated_split in Hs as ->. apply parse_net_all_exact in Hf. congruence.
Qed.

Lemma settings_read pl r se :
  settings_try_from pl (from_raw r) = Some (Ok se) -> SettingsRead pl r se.
Proof.
  unfold settings_try_from.
  destruct (get_req parse_string (from_raw r) "plugin_dir") as [d|] eqn:E1; [|discriminate].
  destruct (get_req parse_string (from_raw r) "plugin_path") as [p|] eqn:E2; [|discriminate].
  destruct (get_req parse_string (from_raw r) "progname") as [n|] eqn:E3; [|discriminate].
  destruct (get_net_addrs pl (from_raw r) (B "network_addrs")) as [l|] eqn:E4; [|discriminate].
  intros H. injection H as <-. unfold SettingsRead. cbn.
  apply (get_req_Ok parse_string Text parse_string_spec) in E1, E2, E3.
  apply net_addrs_read in E4.
  repeat (split; [first [assumption|field]|]). field.
Qed.

Lemma env_read pl name vers a e : io_env_new pl name vers a = Some (Ok e) ->
  SettingsRead pl (oa_settings a) (en_settings e)
  /\ UserInfoRead (oa_user_info a) (en_user_info e)
  /\ CommandInfoRead pl (oa_command_info a) (en_command_info e)
  /\ SameMap (oa_user_env a) (en_user_env e)
  /\ SameMap (oa_plugin_options a) (en_plugin_options e)
  /\ Forall2 CString (oa_argv a) (en_cmdline e)
  /\ en_plugin_name e = name /\ en_plugin_version e = vers
  /\ v_major (en_api_version e) = (oa_version a mod 2 ^ 32) / 2 ^ 16
  /\ v_minor (en_api_version e) = oa_version a mod 2 ^ 16.
Proof.
  unfold io_env_new, version_check.
  destruct (supported (from_ffi (oa_version a))) eqn:Ev; [|discriminate].
  cbn [pf_new]. destruct (settings_try_from pl (from_raw (oa_settings a))) as [[se|]|] eqn:Es; try discriminate.
  destruct (user_info_try_from (from_raw (oa_user_info a))) as [ui|] eqn:Eu; [|discriminate].
  intros H. injection H as <-. rewrite from_ffi_eq. cbn -[Z.div Z.modulo Z.pow].
  split; [apply settings_read; exact Es|]. split; [apply user_info_read; exact Eu|].
  split; [apply command_info_read|]. split; [apply same_map|]. split; [apply same_map|].
  split; [apply Forall2_CString; reflexivity|].
  split; [reflexivity|]. split; [reflexivity|].
  split.
  - change (2 ^ 32) with (65536 * 65536). change (2 ^ 16) with 65536.
    rewrite Z.rem_mul_r by lia. rewrite (Z.mul_comm 65536 (_ mod _)).
    rewrite Z.div_add by lia. rewrite (Z.div_small (_ mod _)); [reflexivity|].
    apply Z.mod_pos_bound. lia.
  - reflexivity.
Qed.

(** *** Formats the sudo plugin manual uses and the code does not read *)
Definition mask_022 : raw := Some [B "umask=022"].
Definition nice_minus_5 : raw := Some [B "nice=-5"].

Lemma one_entry k v : ~ In "="%byte k -> ~ In x00 (k ++ "="%byte :: v) ->
  Provides (Some [k ++ "="%byte :: v]) k v.
Proof.
  intros Hk Hn. exists [], (k ++ "="%byte :: v), []. split; [reflexivity|]. split.
  - exists (k ++ "="%byte :: v). split; [split; [exact Hn|left; reflexivity]|]. left. auto.
  - intros ? ? [].
Qed.

(** *** Preserved groups *)
Definition keeps_groups : open_args := {|
  oa_version := 65553; oa_printf := true;
  oa_settings := Some [B "plugin_dir=/usr/libexec/sudo/"; B "plugin_path=/usr/libexec/sudo/sudo_pair.so";
                       B "progname=sudo"; B "preserve_groups=true"];
  oa_user_info := Some [B "user=alice"; B "pid=4242"; B "ppid=4000"; B "pgid=4242"; B "uid=1000";
                        B "euid=0"; B "gid=1000"; B "egid=1000"; B "groups=1000,27,10"; B "cwd=/home/alice";
                        B "host=web1"];
  oa_command_info := Some [B "command=/usr/bin/id"; B "runas_uid=1001"; B "runas_gid=1001";
                           B "preserve_groups=true"; B "runas_groups=1001"; B "iolog_ttyout=true"];
  oa_argv := [B "id"];
  oa_user_env := Some [];
  oa_plugin_options := Some [B "gids_enforced=10"] |}.

(** The same without the contradictory entry. *)
Definition keeps_groups_plain : open_args := {|
  oa_version := oa_version keeps_groups; oa_printf := true;
  oa_settings := oa_settings keeps_groups; oa_user_info := oa_user_info keeps_groups;
  oa_command_info := Some [B "command=/usr/bin/id"; B "runas_uid=1001"; B "runas_gid=1001";
                           B "preserve_groups=true"; B "iolog_ttyout=true"];
  oa_argv := [B "id"]; oa_user_env := Some []; oa_plugin_options := Some [B "gids_enforced=10"] |}.

Lemma kept_groups_overlooked : exists pl a rq name vers e gs g,
  Describes pl a rq /\ io_env_new pl name vers a = Some (Ok e) /\ runas_gids pl e = Some gs
  /\ rq_preserve_groups rq = true /\ In g (rq_groups rq) /\ In g (rq_enforced rq) /\ ~ In g gs.
Proof.
  destruct (io_env_new release (B "sudo_pair") (B "1.2.0") keeps_groups) as [[e|]|] eqn:E;
    [|vm_compute in E; discriminate|vm_compute in E; discriminate].
  exists release, keeps_groups, (request_of e), (B "sudo_pair"), (B "1.2.0"), e, [1001; 1001], 10.
  split; [exact (env_Describes _ _ _ _ _ E)|]. split; [exact E|].
  vm_compute in E. injection E as <-. vm_compute. intuition discriminate.
Qed.

Lemma kept_groups pl a rq name vers e gs :
  Describes pl a rq -> io_env_new pl name vers a = Some (Ok e) -> runas_gids pl e = Some gs ->
  rq_preserve_groups rq = true -> rq_to_groups rq = None \/ pl_debug pl = true ->
  forall g, In g gs <-> g = rq_to_gid rq \/ In g (rq_groups rq).
Proof.
  intros D E G P H g.
  assert (T : rq_to_groups rq = None).
  { destruct H as [H|H]; [exact H|].
    destruct (rq_to_groups rq) eqn:X; [|reflexivity]. exfalso.
    assert (runas_gids pl e = None) as N; [|congruence].
    apply (runas_gids_None e rq pl (env_matches _ _ _ _ _ _ D E)). split; [exact H|].
    intros [Hi _]. rewrite X in Hi. discriminate (Hi P). }
  rewrite (groups_gained _ _ _ _ _ _ D E gs G). unfold GainsGroup. rewrite T. reflexivity.
Qed.

(** *** Reading is a function *)
Lemma reading_unique A p R : OptionType A p R -> forall r k d x y o o',
  (ReadsOr r k R d x -> ReadsOr r k R d y -> x = y)
  /\ (ReadsOpt r k R o -> ReadsOpt r k R o' -> o = o').
Proof.
  intros T r k d x y o o'. pose proof (OptionType_spec A p R T) as HR. split.
  - intros H1 H2. apply (get_or_iff p R HR) in H1, H2. congruence.
  - intros H1 H2. apply (get_opt_iff p R HR) in H1, H2. congruence.
Qed.

(** *** Terminals *)
Lemma no_terminal : exists r ui,
  user_info_try_from (from_raw r) = Ok ui /\ Provides r (B "tty") [] /\ ui_tty ui = Some [].
Proof.
  exists (Some ([B "user=alice"; B "pid=4242"; B "ppid=4000"; B "pgid=4242"; B "uid=1000"; B "euid=0";
                 B "gid=1000"; B "egid=1000"; B "groups=1000,27"; B "cwd=/"; B "host=web1"] ++ [B "tty="])).
  destruct (user_info_try_from _) as [ui|] eqn:E; [|vm_compute in E; discriminate].
  exists ui. split; [reflexivity|]. split.
  - eexists _, (B "tty="), []. split; [reflexivity|]. split; [|intros ? ? []].
    exists (B "tty="). split; [split; [cbn; intuition discriminate|left; reflexivity]|].
    left. split; [cbn; intuition discriminate|reflexivity].
  - vm_compute in E. injection E as <-. reflexivity.
Qed.

Lemma tty_absent r ui : user_info_try_from (from_raw r) = Ok ui ->
  (ui_tty ui = None <-> forall v, Provides r (B "tty") v -> ~ Utf8 v).
Proof.
  intros H. apply user_info_read in H. assert (T : ReadsOpt r "tty" Text (ui_tty ui)) by apply H.
  unfold ReadsOpt, Unreadable, Reads, ReadsKey, Text in T. destruct (ui_tty ui) as [t|].
  - split; [discriminate|]. intros N. destruct T as (v & P & U & _). exfalso. exact (N v P U).
  - split; [|reflexivity]. intros _ v P U. apply (T v). eauto.
Qed.

(** *** Numbers *)
Lemma unsigned_numbers pl r :
  (forall v n, Provides r (B "nice") v -> UInt 64 v n ->
     ci_nice (command_info_try_from pl (from_raw r)) = Some n)
  /\ (forall v m, Provides r (B "umask") v -> UInt 32 v m ->
        ci_umask (command_info_try_from pl (from_raw r)) = m).
Proof.
  assert (U : forall b v n, UInt b v n -> Utf8 v).
  { intros b v n [N _].
    assert (A : forall s, (forall x, In x s -> bz x < 128) -> Utf8 s).
    { intros s Hs. exists (map bz s). split.
      - apply Forall_forall. intros c Hc. apply in_map_iff in Hc as (x & <- & Hx).
        specialize (Hs x Hx). pose proof (bz_range x). unfold Scalar. lia.
      - clear N. induction s as [|x s IH]; [reflexivity|]. cbn [map flat_map].
        rewrite <- IH by (intros y Hy; apply Hs; right; exact Hy).
        unfold utf8_encode. pose proof (Hs x (or_introl eq_refl)) as Hx.
        apply Z.ltb_lt in Hx. rewrite Hx, zb_bz. reflexivity. }
    apply A. intros x Hx.
    assert (Dg : forall t k, Digits t k -> In x t -> bz x < 128).
    { intros t k (_ & F & _) Hin. rewrite Forall_forall in F. specialize (F x Hin). unfold IsDigit in F. lia. }
    destruct N as [Hd|[(t & -> & Hd)|(Hf & _)]]; [exact (Dg _ _ Hd Hx)| |discriminate].
    destruct Hx as [<-|Hx]; [vm_compute; reflexivity|exact (Dg _ _ Hd Hx)]. }
  split.
  - intros v n P N. change (get_opt (parse_int u64T) (from_raw r) "nice" = Some n).
    apply (get_opt_iff _ _ parse_u64). exists v. eauto.
  - intros v n P N. change (get_or (parse_int u32T) (from_raw r) "umask" 4095 = n).
    apply (get_or_iff _ _ parse_u32). left. exists v. eauto.
Qed.

(** *** Staying oneself *)
Definition joins_root : open_args := {|
  oa_version := 65553; oa_printf := true;
  oa_settings := oa_settings keeps_groups; oa_user_info := oa_user_info keeps_groups;
  oa_command_info := Some [B "command=/usr/bin/id"; B "runas_uid=1000"; B "runas_gid=1000";
                           B "runas_groups=1000,0"; B "iolog_ttyout=true"];
  oa_argv := [B "id"]; oa_user_env := Some []; oa_plugin_options := None |}.

Lemma themselves_debug pl a rq name vers e :
  Describes pl a rq -> io_env_new pl name vers a = Some (Ok e) -> pl_debug pl = true ->
  is_exempt (pair0 e) pl = Some true ->
  rq_uid rq = rq_to_uid rq -> rq_gid rq = rq_to_gid rq -> rq_uid rq <> rq_euid rq ->
  forall g, GainsGroup rq g <-> In g (rq_groups rq).
Proof.
  intros D E Hd X Hu Hg Hr g. pose proof (env_matches _ _ _ _ _ _ D E) as M.
  unfold is_exempt in X.
  destruct (is_sudoing_from_root (pair0 e)) eqn:R; [apply (from_root_iff e rq M) in R; contradiction|].
  unfold is_sudoing_to_themselves in X.
  destruct (is_sudoing_to_user (pair0 e)) eqn:X1; [apply (to_user_iff e rq M) in X1; contradiction|].
  destruct (is_sudoing_to_group (pair0 e)) eqn:X2; [apply (to_group_iff e rq M) in X2; contradiction|].
  cbn [negb andb] in X. rewrite Hd in X. cbn [sp_env pair0] in X.
  destruct (runas_gids pl e) as [gs|] eqn:G; [|discriminate].
  destruct (subset_z gs (ui_groups (en_user_info e)) && subset_z (ui_groups (en_user_info e)) gs) eqn:S; [|discriminate].
  apply andb_true_iff in S as [S1 S2]. rewrite subset_z_iff, (m_groups _ _ M) in S1, S2.
  rewrite <- (groups_gained _ _ _ _ _ _ D E gs G). split; [apply S1|apply S2].
Qed.

Lemma joins_root_describes : exists rq, Describes release joins_root rq
  /\ rq_command rq = B "/usr/bin/id" /\ rq_enforced rq = [0] /\ rq_exempted rq = []
  /\ rq_groups rq = [1000; 27; 10] /\ rq_gid rq = 1000 /\ rq_to_gid rq = 1000 /\ rq_uid rq = 1000
  /\ rq_to_uid rq = 1000 /\ rq_euid rq = 0 /\ rq_log rq Ttyout = true /\ rq_to_groups rq = Some [1000; 0]
  /\ rq_binary_path rq = B "/usr/bin/sudo_approve".
Proof.
  destruct (io_env_new release (B "sudo_pair") (B "1.2.0") joins_root) as [[e|]|] eqn:E;
    [|vm_compute in E; discriminate|vm_compute in E; discriminate].
  exists (request_of e). split; [exact (env_Describes _ _ _ _ _ E)|].
  vm_compute in E. injection E as <-. vm_compute. repeat split; reflexivity.
Qed.
