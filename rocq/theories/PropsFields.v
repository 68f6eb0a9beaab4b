(** Properties of the four arrays as a whole: every field comes from its own
    key, with its own type and default. *)
From Coq Require Import Lia.
From Verif Require Import Base BaseLemmas Num Version Options World Sys Io Env Core Pair Spec.
From Verif Require Import OptionProofs NumProofs PathProofs ReadProofs RequestProofs PairPure InputFacts Samples
  RunProofs TraceSpec SessionSpec Worlds SessionFacts PropsApproval FieldSpec FieldFacts.
Local Open Scope Z_scope.

(** *** C63: every field is read from its own key *)
Theorem C63_fields : forall pl name vers a e,
  io_env_new pl name vers a = Some (Ok e) ->
  SettingsRead pl (oa_settings a) (en_settings e)
  /\ UserInfoRead (oa_user_info a) (en_user_info e)
  /\ CommandInfoRead pl (oa_command_info a) (en_command_info e)
  /\ SameMap (oa_user_env a) (en_user_env e)
  /\ SameMap (oa_plugin_options a) (en_plugin_options e)
  /\ Forall2 CString (oa_argv a) (en_cmdline e)
  /\ en_plugin_name e = name /\ en_plugin_version e = vers
  /\ v_major (en_api_version e) = (oa_version a mod 2 ^ 32) / 2 ^ 16
  /\ v_minor (en_api_version e) = oa_version a mod 2 ^ 16.
Proof. exact env_read. Qed.
Print Assumptions C63_fields.

(** An array determines the record: two readings agree on every field but
    the raw map, whose entries they agree on. *)
Theorem C63_determined : forall A p R, OptionType A p R -> forall r k d x y o o',
  (ReadsOr r k R d x -> ReadsOr r k R d y -> x = y)
  /\ (ReadsOpt r k R o -> ReadsOpt r k R o' -> o = o').
Proof. exact reading_unique. Qed.
Print Assumptions C63_determined.

Example C63_example : exists e,
  io_env_new release (B "sudo_pair") (B "1.2.0") to_root = Some (Ok e)
  /\ se_runas_user (en_settings e) = Some (B "root") /\ se_timeout (en_settings e) = None
  /\ ui_sid (en_user_info e) = 4000 /\ ui_tcpgid (en_user_info e) = 4242
  /\ ci_umask (en_command_info e) = 4095 /\ ci_sudoedit_checkdir (en_command_info e) = true
  /\ ci_runas_egid (en_command_info e) = 0 /\ en_cmdline e = [B "cat"; B "/etc/shadow"]
  /\ en_api_version e = mkVersion 1 17.
Proof. eexists. split; [vm_compute; reflexivity|]. vm_compute. repeat split; reflexivity. Qed.

(** *** C64: numbers in the formats of the sudo plugin manual *)
(** One or more octal digits denoting [n]. *)
Definition Octal (s : bytes) (n : Z) : Prop :=
  s <> [] /\ Forall (fun b => 48 <= bz b <= 55) s
  /\ n = fold_left (fun n b => 8 * n + (bz b - 48)) s 0.

Definition C64_full : Prop := forall pl r,
  (forall v n, Provides r (B "umask") v -> Octal v n -> n <= 4095 ->
     ci_umask (command_info_try_from pl (from_raw r)) = n)
  /\ (forall v n, Provides r (B "nice") v -> SInt 32 v n ->
        ci_nice (command_info_try_from pl (from_raw r)) = Some n).

(** An octal mask is taken for a decimal number, a negative priority is lost. *)
Theorem C64_umask_refuted : exists pl r v n,
  Provides r (B "umask") v /\ Octal v n /\ n <= 4095
  /\ ci_umask (command_info_try_from pl (from_raw r)) <> n.
Proof.
  exists release, mask_022, (B "022"), 18.
  split; [apply (one_entry (B "umask") (B "022")); cbn; intuition discriminate|].
  split; [|split; [lia|vm_compute; discriminate]].
  split; [discriminate|]. split; [|reflexivity].
  repeat constructor; vm_compute; discriminate.
Qed.
Print Assumptions C64_umask_refuted.

Theorem C64_nice_refuted : exists pl r v n,
  Provides r (B "nice") v /\ SInt 32 v n
  /\ ci_nice (command_info_try_from pl (from_raw r)) = None.
Proof.
  exists release, nice_minus_5, (B "-5"), (-5).
  split; [apply (one_entry (B "nice") (B "-5")); cbn; intuition discriminate|].
  split; [apply parse_i32; vm_compute; reflexivity|vm_compute; reflexivity].
Qed.
Print Assumptions C64_nice_refuted.

Theorem C64_not_full : ~ C64_full.
Proof.
  intros H. destruct C64_umask_refuted as (pl & r & v & n & Hp & Ho & Hn & N).
  exact (N (proj1 (H pl r) v n Hp Ho Hn)).
Qed.
Print Assumptions C64_not_full.

(** What does hold: an unsigned decimal number is read as such. *)
Theorem C64_unsigned : forall pl r,
  (forall v n, Provides r (B "nice") v -> UInt 64 v n ->
     ci_nice (command_info_try_from pl (from_raw r)) = Some n)
  /\ (forall v m, Provides r (B "umask") v -> UInt 32 v m ->
        ci_umask (command_info_try_from pl (from_raw r)) = m).
Proof. exact unsigned_numbers. Qed.
Print Assumptions C64_unsigned.

Example C64_example :
  Provides (Some [B "nice=5"]) (B "nice") (B "5") /\ UInt 64 (B "5") 5
  /\ ci_nice (command_info_try_from release (from_raw (Some [B "nice=5"]))) = Some 5
  /\ Octal (B "007") 7 /\ UInt 32 (B "007") 7.
Proof.
  split; [apply (one_entry (B "nice") (B "5")); cbn; intuition discriminate|].
  split; [apply parse_u64; vm_compute; reflexivity|]. split; [vm_compute; reflexivity|].
  split; [|apply parse_u32; vm_compute; reflexivity].
  split; [discriminate|]. split; [|reflexivity]. repeat constructor; vm_compute; discriminate.
Qed.

(** *** C65: a user without a terminal *)
Definition C65_full : Prop := forall r ui,
  user_info_try_from (from_raw r) = Ok ui -> Provides r (B "tty") [] -> ui_tty ui = None.

(** "tty=" is taken for a terminal whose path is empty. *)
Theorem C65_refuted : exists r ui,
  user_info_try_from (from_raw r) = Ok ui /\ Provides r (B "tty") [] /\ ui_tty ui = Some [].
Proof. exact no_terminal. Qed.
Print Assumptions C65_refuted.

Theorem C65_not_full : ~ C65_full.
Proof. intros H. destruct C65_refuted as (r & ui & E & P & T). rewrite (H r ui E P) in T. discriminate. Qed.
Print Assumptions C65_not_full.

(** What does hold: without a readable tty entry there is no terminal. *)
Theorem C65_absent : forall r ui,
  user_info_try_from (from_raw r) = Ok ui -> (ui_tty ui = None <-> forall v, Provides r (B "tty") v -> ~ Utf8 v).
Proof. exact tty_absent. Qed.
Print Assumptions C65_absent.

Example C65_example : exists ui,
  user_info_try_from (from_raw (oa_user_info keeps_groups)) = Ok ui /\ ui_tty ui = None.
Proof. eexists. split; vm_compute; reflexivity. Qed.

(** *** C66: preserved groups *)
Definition C66_full : Prop := forall pl a rq name vers e gs,
  Describes pl a rq -> io_env_new pl name vers a = Some (Ok e) -> runas_gids pl e = Some gs ->
  rq_preserve_groups rq = true -> forall g, In g gs <-> g = rq_to_gid rq \/ In g (rq_groups rq).

(** If sudo passes target groups although the invoking user's are preserved,
    a release build counts the target groups; a group for which pairing is
    configured and which the command does keep is overlooked. *)
Theorem C66_refuted : exists pl a rq name vers e gs g,
  Describes pl a rq /\ io_env_new pl name vers a = Some (Ok e) /\ runas_gids pl e = Some gs
  /\ rq_preserve_groups rq = true /\ In g (rq_groups rq) /\ In g (rq_enforced rq) /\ ~ In g gs.
Proof. exact kept_groups_overlooked. Qed.
Print Assumptions C66_refuted.

Theorem C66_not_full : ~ C66_full.
Proof.
  intros H. destruct C66_refuted as (pl & a & rq & name & vers & e & gs & g & D & E & G & P & I1 & _ & N).
  apply N. apply (H pl a rq name vers e gs D E G P). right. exact I1.
Qed.
Print Assumptions C66_not_full.

(** What does hold: everywhere without target groups, and in a debug build
    with or without them (it panics on the contradiction). *)
Theorem C66_consistent : forall pl a rq name vers e gs,
  Describes pl a rq -> io_env_new pl name vers a = Some (Ok e) -> runas_gids pl e = Some gs ->
  rq_preserve_groups rq = true -> rq_to_groups rq = None \/ pl_debug pl = true ->
  forall g, In g gs <-> g = rq_to_gid rq \/ In g (rq_groups rq).
Proof. exact kept_groups. Qed.
Print Assumptions C66_consistent.

Example C66_example : exists rq e, Describes debug keeps_groups_plain rq
  /\ io_env_new debug (B "sudo_pair") (B "1.2.0") keeps_groups_plain = Some (Ok e)
  /\ runas_gids debug e = Some [1001; 1000; 27; 10] /\ rq_preserve_groups rq = true
  /\ rq_to_groups rq = None.
Proof.
  destruct (io_env_new debug (B "sudo_pair") (B "1.2.0") keeps_groups_plain) as [[e|]|] eqn:E;
    [|vm_compute in E; discriminate|vm_compute in E; discriminate].
  exists (request_of e), e. split; [exact (env_Describes _ _ _ _ _ E)|].
  vm_compute in E. injection E as <-. vm_compute. auto.
Qed.

(** *** C67: staying oneself gives no new enforced group *)
Definition C67_full : Prop := forall pl a rq w st' w' evs,
  Describes pl a rq -> rq_command rq <> [] ->
  core_open SudoPair pl a (pstate0 _) w = (Done (1, st'), w') -> w_trace w' = w_trace w ++ evs ->
  rq_uid rq = rq_to_uid rq -> rq_uid rq <> rq_euid rq ->
  rq_log rq Ttyout = true -> rq_exempted rq = [] -> ~ SamePath (rq_command rq) (rq_binary_path rq) ->
  forall g, In g (rq_enforced rq) -> GainsGroup rq g ->
    g = rq_gid rq \/ In g (rq_groups rq) \/ exists c, Approved rq c evs.

(** A policy that runs the command as the requester, with their primary group
    but an additional supplementary group 0, needs no pair. *)
Theorem C67_refuted : exists pl a rq w st' w' evs g,
  Describes pl a rq /\ rq_command rq <> []
  /\ core_open SudoPair pl a (pstate0 _) w = (Done (1, st'), w') /\ w_trace w' = w_trace w ++ evs
  /\ rq_uid rq = rq_to_uid rq /\ rq_uid rq <> rq_euid rq
  /\ rq_log rq Ttyout = true /\ rq_exempted rq = [] /\ ~ SamePath (rq_command rq) (rq_binary_path rq)
  /\ In g (rq_enforced rq) /\ GainsGroup rq g /\ g <> rq_gid rq /\ ~ In g (rq_groups rq) /\ evs = [].
Proof.
  destruct joins_root_describes as (rq & D & Hc & He & Hx & Hg & H1 & H2 & H3 & H4 & H5 & H6 & H7 & H8).
  assert (C : rq_command rq <> []) by (rewrite Hc; discriminate).
  assert (X : Exempt rq) by (right; left; split; congruence).
  assert (N : ~ MasklessAddr release (oa_settings joins_root)).
  { intros M. apply get_net_addrs_None in M. vm_compute in M. discriminate. }
  destruct (C17_exempt_proceeds release joins_root rq yes_world D C X N (or_introl eq_refl)) as (st' & H & _).
  exists release, joins_root, rq, yes_world, st', yes_world, [], 0.
  split; [exact D|]. split; [exact C|]. split; [exact H|]. split; [symmetry; apply app_nil_r|].
  split; [congruence|]. split; [rewrite H3, H5; discriminate|]. split; [exact H6|]. split; [exact Hx|].
  split; [rewrite Hc, H8; intros S; apply SamePath_iff in S; vm_compute in S; discriminate|].
  split; [rewrite He; left; reflexivity|].
  split; [right; rewrite H7; right; left; reflexivity|].
  split; [rewrite H1; discriminate|]. split; [rewrite Hg; cbn; intuition discriminate|reflexivity].
Qed.
Print Assumptions C67_refuted.

Theorem C67_not_full : ~ C67_full.
Proof.
  intros H. destruct C67_refuted as
    (pl & a & rq & w & st' & w' & evs & g & D & C & O & T & A1 & A2 & A3 & A4 & A5 & A6 & A7 & A8 & A9 & A10).
  destruct (H pl a rq w st' w' evs D C O T A1 A2 A3 A4 A5 g A6 A7) as [G|[G|[c G]]];
    [exact (A8 G)|exact (A9 G)|].
  subst evs. exact (approved_nil rq c G).
Qed.
Print Assumptions C67_not_full.

(** What does hold: without a list of target groups, and (as its assertion
    says) in a debug build. *)
Theorem C67_no_list : forall pl a rq w st' w' evs,
  Describes pl a rq -> rq_command rq <> [] ->
  core_open SudoPair pl a (pstate0 _) w = (Done (1, st'), w') -> w_trace w' = w_trace w ++ evs ->
  rq_uid rq = rq_to_uid rq -> rq_uid rq <> rq_euid rq ->
  rq_log rq Ttyout = true -> rq_exempted rq = [] -> ~ SamePath (rq_command rq) (rq_binary_path rq) ->
  rq_to_groups rq = None ->
  forall g, In g (rq_enforced rq) -> GainsGroup rq g ->
    g = rq_gid rq \/ In g (rq_groups rq) \/ exists c, Approved rq c evs.
Proof.
  intros pl a rq w st' w' evs D C O T Hu Hr Hl Hx Hb N g He Hg.
  pose proof Hg as Hg'. unfold GainsGroup in Hg. rewrite N in Hg. destruct Hg as [Hg|Hg]; [|auto].
  destruct (exempt_or_approved _ _ _ _ _ _ _ D C O T) as [X|A]; [|auto].
  destruct X as [X|[[_ X]|[X|[(X & _)|[X|X]]]]].
  - contradiction.
  - left. congruence.
  - contradiction.
  - congruence.
  - exfalso. rewrite Hx in X. destruct X as (h & [] & _).
  - exfalso. exact (X g He Hg').
Qed.
Print Assumptions C67_no_list.

Theorem C67_debug : forall pl a rq name vers e,
  Describes pl a rq -> io_env_new pl name vers a = Some (Ok e) -> pl_debug pl = true ->
  is_exempt (pair0 e) pl = Some true ->
  rq_uid rq = rq_to_uid rq -> rq_gid rq = rq_to_gid rq -> rq_uid rq <> rq_euid rq ->
  forall g, GainsGroup rq g <-> In g (rq_groups rq).
Proof. exact themselves_debug. Qed.
Print Assumptions C67_debug.

(** alice runs a command as themselves, with all their groups, one of which
    is enforced. *)
Definition stays : open_args := {|
  oa_version := 65553; oa_printf := true;
  oa_settings := oa_settings keeps_groups; oa_user_info := oa_user_info keeps_groups;
  oa_command_info := Some [B "command=/usr/bin/id"; B "runas_uid=1000"; B "runas_gid=1000";
                           B "preserve_groups=true"; B "iolog_ttyout=true"];
  oa_argv := [B "id"]; oa_user_env := Some []; oa_plugin_options := Some [B "gids_enforced=10"] |}.

Example C67_example : exists rq e, Describes debug stays rq
  /\ io_env_new debug (B "sudo_pair") (B "1.2.0") stays = Some (Ok e)
  /\ is_exempt (pair0 e) debug = Some true /\ rq_command rq = B "/usr/bin/id"
  /\ rq_uid rq = rq_to_uid rq /\ rq_gid rq = rq_to_gid rq /\ rq_uid rq <> rq_euid rq
  /\ rq_log rq Ttyout = true /\ rq_exempted rq = [] /\ rq_to_groups rq = None
  /\ In 10 (rq_enforced rq) /\ GainsGroup rq 10.
Proof.
  destruct (io_env_new debug (B "sudo_pair") (B "1.2.0") stays) as [[e|]|] eqn:E;
    [|vm_compute in E; discriminate|vm_compute in E; discriminate].
  exists (request_of e), e. split; [exact (env_Describes _ _ _ _ _ E)|]. split; [reflexivity|].
  vm_compute in E. injection E as <-. vm_compute. intuition discriminate.
Qed.
