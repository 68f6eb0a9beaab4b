(** Properties of what the plugin reads from sudo and of what it shows. *)
From Verif Require Import Base Num Utf8 Path Version Template Options World Sys Io Env Core Pair Spec.
From Verif Require Import OptionProofs NumProofs Utf8Proofs PathProofs TemplateProofs VersionProofs
  RequestProofs PairPure InputFacts Samples.
Local Open Scope Z_scope.

(** *** C01: option lookup *)
Theorem C01_lookup : forall r k v, get_bytes (from_raw r) k = Some v <-> Provides r k v.
Proof. exact get_bytes_Provides. Qed.
Print Assumptions C01_lookup.

Theorem C01_null_array : forall k, get_bytes (from_raw None) k = None.
Proof. reflexivity. Qed.
Print Assumptions C01_null_array.

(** A duplicate key, an embedded '=', bytes after the NUL, a bare entry. *)
Example C01_example :
  Provides (Some [B "k=a"; B "k=b=c"; B "x" ++ x00 :: B "k=z"; B "flag"]) (B "k") (B "b=c")
  /\ Provides (Some [B "k=a"; B "flag"]) (B "flag") (B "flag").
Proof. split; apply C01_lookup; reflexivity. Qed.

(** *** C02: typed reads *)
Theorem C02_typed_read : forall A p R, OptionType A p R -> forall r k,
  (forall x, get p (from_raw r) k = Ok x <-> ReadsKey r k R x)
  /\ (get p (from_raw r) k = Err (OptionMissing k) <-> forall v, Provides r k v -> ~ Utf8 v)
  /\ (forall v, get p (from_raw r) k = Err (OptionInvalid k v)
        <-> Provides r k v /\ Utf8 v /\ forall x, ~ R v x)
  /\ (forall e, get p (from_raw r) k = Err e -> e = OptionMissing k \/ exists v, e = OptionInvalid k v).
Proof. exact typed_read. Qed.
Print Assumptions C02_typed_read.

Example C02_example :
  OptionType (list Z) (parse_ints u32T) (UIntList 32)
  /\ get (parse_ints u32T) (from_raw (Some [B "groups=1,2"])) (B "groups") = Ok [1; 2]
  /\ get (parse_ints u32T) (from_raw (Some [B "groups=1,,2"])) (B "groups") = Err (OptionInvalid (B "groups") (B "1,,2"))
  /\ get (parse_ints u32T) (from_raw (Some [B "groups=" ++ [xff]])) (B "groups") = Err (OptionMissing (B "groups")).
Proof. split; [apply OT_list; apply OT_u32|]. repeat split; reflexivity. Qed.

(** *** C03: text is UTF-8 *)
Theorem C03_text : forall r k v, get_str (from_raw r) k = Some v <-> Provides r k v /\ Utf8 v.
Proof. exact text_read. Qed.
Print Assumptions C03_text.

(** The decoding is unique, so [Utf8] does identify a text. *)
Theorem C03_unique : forall cs1 cs2, Forall Scalar cs1 -> Forall Scalar cs2 ->
  flat_map utf8_encode cs1 = flat_map utf8_encode cs2 -> cs1 = cs2.
Proof. exact utf8_decode_unique. Qed.
Print Assumptions C03_unique.

Example C03_example :
  (* U+00E9, U+20AC, U+1F600; an overlong '/'; a surrogate *)
  get_str (from_raw (Some [B "k=" ++ [xc3; xa9; xe2; x82; xac; xf0; x9f; x98; x80]])) (B "k")
    = Some [xc3; xa9; xe2; x82; xac; xf0; x9f; x98; x80]
  /\ get_str (from_raw (Some [B "k=" ++ [xc0; xaf]])) (B "k") = None
  /\ get_str (from_raw (Some [B "k=" ++ [xed; xa0; x80]])) (B "k") = None.
Proof. repeat split; reflexivity. Qed.

(** *** C04: integers *)
Theorem C04_integers : forall t signed bits, IntType t signed bits -> forall s n,
  parse_int t s = Some n <-> Numeral signed s n /\ InRange signed bits n.
Proof. exact int_parse. Qed.
Print Assumptions C04_integers.

Example C04_example :
  IntType u32T false 32 /\ parse_int u32T (B "4294967295") = Some 4294967295
  /\ parse_int u32T (B "4294967296") = None /\ parse_int u32T (B "-0") = None
  /\ parse_int i32T (B "-2147483648") = Some (-2147483648) /\ parse_int u32T (B "+007") = Some 7
  /\ parse_int u32T (B " 1") = None.
Proof. split; [constructor|]. repeat split; reflexivity. Qed.

(** *** C05: printed numbers *)
Theorem C05_print_parse : forall t signed bits n, IntType t signed bits -> InRange signed bits n ->
  parse_int t (to_dec n) = Some n /\ Decimal n (to_dec n).
Proof. exact int_print. Qed.
Print Assumptions C05_print_parse.

Theorem C05_decimal_unique : forall n s t, Decimal n s -> Decimal n t -> s = t.
Proof. exact Decimal_unique. Qed.
Print Assumptions C05_decimal_unique.

Example C05_example : InRange true 64 (-9223372036854775808)
  /\ to_dec (-9223372036854775808) = B "-9223372036854775808" /\ to_dec 0 = B "0".
Proof. split; [unfold InRange; lia|]. split; reflexivity. Qed.

(** *** C06: list options *)
Theorem C06_lists : forall t signed bits, IntType t signed bits -> forall s l,
  parse_ints t s = Some l
  <-> ListOf ","%byte (fun piece n => Numeral signed piece n /\ InRange signed bits n) s l.
Proof. exact list_parse. Qed.
Print Assumptions C06_lists.

Theorem C06_empty_rejected : forall t signed bits, IntType t signed bits -> parse_ints t [] = None.
Proof. exact list_parse_empty. Qed.
Print Assumptions C06_empty_rejected.

Theorem C06_trailing_comma_rejected : forall t signed bits s, IntType t signed bits ->
  parse_ints t (s ++ B ",") = None.
Proof. exact list_parse_trailing. Qed.
Print Assumptions C06_trailing_comma_rejected.

Example C06_example : parse_ints u32T (B "1000,27,0") = Some [1000; 27; 0].
Proof. reflexivity. Qed.

(** *** C08: target identity *)
Theorem C08_target_uid : forall pl r, exists u,
  ReadsOr r "runas_uid" (UInt 32) (pl_euid pl) u
  /\ ReadsOr r "runas_euid" (UInt 32) u (ci_runas_euid (command_info_try_from pl (from_raw r))).
Proof. exact target_uid. Qed.
Print Assumptions C08_target_uid.

Theorem C08_target_gid : forall pl r, exists g,
  ReadsOr r "runas_gid" (UInt 32) (pl_egid pl) g
  /\ ReadsOr r "runas_egid" (UInt 32) g (ci_runas_egid (command_info_try_from pl (from_raw r))).
Proof. exact target_gid. Qed.
Print Assumptions C08_target_gid.

Example C08_example :
  ci_runas_euid (command_info_try_from release (from_raw (Some [B "runas_uid=7"]))) = 7
  /\ ci_runas_euid (command_info_try_from release (from_raw (Some [B "runas_uid=7"; B "runas_euid=8"]))) = 8
  /\ ci_runas_euid (command_info_try_from release (from_raw (Some [B "runas_euid=x"]))) = 0.
Proof. repeat split; reflexivity. Qed.

(** *** C11: version words *)
Theorem C11_versions :
  (forall major minor, 0 <= major < 65536 -> 0 <= minor < 65536 ->
     from_ffi (into_ffi (mkVersion major minor)) = mkVersion major minor
     /\ sudo_api_version_get_major (sudo_api_mkversion major minor) = major
     /\ sudo_api_version_get_minor (sudo_api_mkversion major minor) = minor)
  /\ (forall w, 0 <= w < 2 ^ 32 -> into_ffi (from_ffi w) = w)
  /\ (forall a b, 0 <= a < 2 ^ 32 -> 0 <= b < 2 ^ 32 ->
        (version_leb (from_ffi a) (from_ffi b) = true <-> a <= b)).
Proof. exact version_facts. Qed.
Print Assumptions C11_versions.

Example C11_example : into_ffi (mkVersion 1 9) = 65545 /\ from_ffi 4294967295 = mkVersion 65535 65535.
Proof. split; reflexivity. Qed.

(** *** C12: templates *)
Theorem C12_expansion : forall esc defs template out,
  Expands esc (Defined defs) template out
  <-> out = expand (define_all defs (spec_with_escape esc)) template.
Proof. exact Defined_expand. Qed.
Print Assumptions C12_expansion.

Example C12_example :
  expand (define_all [("U"%byte, B "old"); ("U"%byte, B "alice")] (spec_with_escape "%")) (B "%U: 100%% %x%")
  = B "alice: 100% x".
Proof. reflexivity. Qed.

(** *** C13: substituted text is not interpreted *)
Theorem C13_verbatim : forall esc defs c x t1 t2, Closed esc t1 -> Defined defs c x ->
  let s := define_all defs (spec_with_escape esc) in
  expand s (t1 ++ esc :: c :: t2) = expand s t1 ++ x ++ expand s t2.
Proof. exact expand_verbatim. Qed.
Print Assumptions C13_verbatim.

Theorem C13_composition : forall s t1 t2, Closed (sp_escape s) t1 ->
  expand s (t1 ++ t2) = expand s t1 ++ expand s t2.
Proof. exact expand_compose. Qed.
Print Assumptions C13_composition.

Example C13_example :
  Closed "%" (B "%%run ")
  /\ expand (define_all [("C"%byte, B "echo %C %u"); ("u"%byte, B "0")] (spec_with_escape "%")) (B "%%run %C as %u")
     = B "%run echo %C %u as 0".
Proof.
  split; [|reflexivity].
  apply Cl_dir. repeat (apply Cl_lit; [discriminate|]). constructor.
Qed.

(** *** C14: the directives *)
Theorem C14_directives : forall pl a rq name vers e,
  Describes pl a rq -> io_env_new pl name vers a = Some (Ok e) ->
  forall template out,
    Expands "%" (Directive rq) template out
    <-> out = expand (template_spec (mkSudoPair e (plugin_options_from (en_plugin_options e)) None)) template.
Proof. exact directives_shown. Qed.
Print Assumptions C14_directives.

Example C14_example : exists e, Describes release to_root to_root_rq
  /\ io_env_new release (B "sudo_pair") (B "1.2.0") to_root = Some (Ok e)
  /\ expand (template_spec (pair0 e)) (B "%U@%h:%d$ %C [%u %g %p %Hx%W %b %B %q]")
     = B "alice@web1:/home/alice$ sudo --user root cat /etc/shadow [1000 1000 4242 50x132 sudo_approve /usr/bin/sudo_approve q]".
Proof.
  eexists. split; [exact to_root_describes|].
  split; [vm_compute; reflexivity|vm_compute; reflexivity].
Qed.

(** *** C15: plugin options *)
Theorem C15_plugin_options : forall r, let o := plugin_options_from (from_raw r) in
  ReadsOr r "binary_path" Text (B "/usr/bin/sudo_approve") (po_binary_path o)
  /\ ReadsOr r "user_prompt_path" Text (B "/etc/sudo_pair.prompt.user") (po_user_prompt_path o)
  /\ ReadsOr r "pair_prompt_path" Text (B "/etc/sudo_pair.prompt.pair") (po_pair_prompt_path o)
  /\ ReadsOr r "socket_dir" Text (B "/var/run/sudo_pair") (po_socket_dir o)
  /\ ReadsOr r "gids_enforced" (UIntList 32) [0] (po_gids_enforced o)
  /\ ReadsOr r "gids_exempted" (UIntList 32) [] (po_gids_exempted o).
Proof. exact plugin_options_read. Qed.
Print Assumptions C15_plugin_options.

Example C15_example :
  po_socket_dir (plugin_options_from (from_raw (Some [B "socket_dir=/run/sp"; B "gids_exempted=5,6"]))) = B "/run/sp"
  /\ po_gids_exempted (plugin_options_from (from_raw (Some [B "socket_dir=/run/sp"; B "gids_exempted=5,6"]))) = [5; 6].
Proof. split; reflexivity. Qed.

(** *** C16: enforcement lists *)

(** The full claim: every gid written in the option is enforced. *)
Definition C16_full : Prop := forall r v g,
  Provides r (B "gids_enforced") v -> Lists v g ->
  In g (po_gids_enforced (plugin_options_from (from_raw r))).

Theorem C16_refuted : exists r v g, Provides r (B "gids_enforced") v /\ Lists v g
  /\ ~ In g (po_gids_enforced (plugin_options_from (from_raw r))).
Proof.
  exists (Some [B "gids_enforced=10, 20"]), (B "10, 20"), 10. split; [|split].
  - apply C01_lookup. reflexivity.
  - exists [B "10"; B " 20"], (B "10"). split; [|split].
    + apply Separated_split. reflexivity.
    + left. reflexivity.
    + apply parse_u32. reflexivity.
  - vm_compute. intuition discriminate.
Qed.
Print Assumptions C16_refuted.

Theorem C16_not_full : ~ C16_full.
Proof.
  intros H. destruct C16_refuted as (r & v & g & H1 & H2 & H3). exact (H3 (H r v g H1 H2)).
Qed.
Print Assumptions C16_not_full.

(** What does hold: a list all of whose elements are numbers is enforced. *)
Theorem C16_wellformed_enforced : forall r v l,
  Provides r (B "gids_enforced") v -> Utf8 v -> UIntList 32 v l ->
  forall g, Lists v g <-> In g (po_gids_enforced (plugin_options_from (from_raw r))).
Proof. exact enforced_complete. Qed.
Print Assumptions C16_wellformed_enforced.

Example C16_example : Provides (Some [B "gids_enforced=10,20"]) (B "gids_enforced") (B "10,20")
  /\ Utf8 (B "10,20") /\ UIntList 32 (B "10,20") [10; 20].
Proof.
  split; [apply C01_lookup; reflexivity|]. split; [apply valid_utf8_iff; reflexivity|].
  apply parse_u32s. reflexivity.
Qed.

(** *** C18: the approval program *)
Theorem C18_approval_program : forall pl a rq name vers e,
  Describes pl a rq -> io_env_new pl name vers a = Some (Ok e) ->
  (is_sudoing_approval_command (mkSudoPair e (plugin_options_from (en_plugin_options e)) None) = true
   <-> SamePath (rq_command rq) (rq_binary_path rq)).
Proof. intros pl a rq name vers e D E. exact (approval_iff e rq (env_matches _ _ _ _ _ _ D E)). Qed.
Print Assumptions C18_approval_program.

(** [SamePath] identifies neither "..", nor a relative with an absolute path,
    nor different names. *)
Theorem C18_distinguishes : forall p q, SamePath p q -> components p = components q.
Proof. exact SamePath_components. Qed.
Print Assumptions C18_distinguishes.

Example C18_example :
  SamePath (B "/usr//bin/./sudo_approve/") (B "/usr/bin/sudo_approve")
  /\ ~ SamePath (B "/usr/bin/../bin/sudo_approve") (B "/usr/bin/sudo_approve")
  /\ ~ SamePath (B "usr/bin/sudo_approve") (B "/usr/bin/sudo_approve")
  /\ ~ SamePath (B "./sudo_approve") (B "sudo_approve").
Proof.
  split; [apply SamePath_iff; reflexivity|].
  repeat split; intros H; apply SamePath_iff in H; vm_compute in H; discriminate.
Qed.

(** *** C33: socket names *)

Theorem C33_child_of_socket_dir : forall pl a rq name vers e,
  Describes pl a rq -> io_env_new pl name vers a = Some (Ok e) ->
  let p := socket_path (mkSudoPair e (plugin_options_from (en_plugin_options e)) None) in
  exists n, SocketName rq n /\ FileName p n
    /\ ((rq_socket_dir rq = [] /\ p = n)
        \/ (rq_socket_dir rq <> [] /\ SamePath p (rq_socket_dir rq ++ "/"%byte :: n))).
Proof.
  intros pl a rq name vers e D E p. pose proof (env_matches _ _ _ _ _ _ D E) as M.
  unfold p. change (mkSudoPair e _ None) with (pair0 e). rewrite (socket_path_eq e rq M).
  exists (sock_name (rq_uid rq) (rq_pid rq)). split; [|split].
  - exists (to_dec (rq_uid rq)), (to_dec (rq_pid rq)).
    split; [apply to_dec_Decimal|]. split; [apply to_dec_Decimal|reflexivity].
  - apply file_name_iff. unfold path_file_name.
    destruct (socket_path_components (rq_socket_dir rq) (rq_uid rq) (rq_pid rq)) as [x ->].
    rewrite rev_app_distr. reflexivity.
  - apply socket_path_child.
Qed.
Print Assumptions C33_child_of_socket_dir.

Theorem C33_no_collision : forall pl a a' rq rq' name vers e e',
  Describes pl a rq -> io_env_new pl name vers a = Some (Ok e) ->
  Describes pl a' rq' -> io_env_new pl name vers a' = Some (Ok e') ->
  rq_socket_dir rq = rq_socket_dir rq' ->
  SamePath (socket_path (mkSudoPair e (plugin_options_from (en_plugin_options e)) None))
           (socket_path (mkSudoPair e' (plugin_options_from (en_plugin_options e')) None)) ->
  rq_uid rq = rq_uid rq' /\ rq_pid rq = rq_pid rq'.
Proof.
  intros pl a a' rq rq' name vers e e' D E D' E' Hd H.
  pose proof (env_matches _ _ _ _ _ _ D E) as M. pose proof (env_matches _ _ _ _ _ _ D' E') as M'.
  change (mkSudoPair e _ None) with (pair0 e) in H. change (mkSudoPair e' _ None) with (pair0 e') in H.
  rewrite (socket_path_eq e rq M), (socket_path_eq e' rq' M'), Hd in H.
  exact (socket_path_inj _ _ _ _ _ H).
Qed.
Print Assumptions C33_no_collision.

Example C33_example : exists e, Describes release to_root to_root_rq
  /\ io_env_new release (B "sudo_pair") (B "1.2.0") to_root = Some (Ok e)
  /\ socket_path (pair0 e) = B "/var/run/sudo_pair/1000.4242.sock".
Proof.
  eexists. split; [exact to_root_describes|].
  split; [vm_compute; reflexivity|vm_compute; reflexivity].
Qed.

(** *** C50: the invocation *)
Theorem C50_invocation : forall pl a rq name vers e,
  Describes pl a rq -> io_env_new pl name vers a = Some (Ok e) ->
  forall line, Invocation rq line <-> line = invocation e.
Proof. exact invocation_shown. Qed.
Print Assumptions C50_invocation.

Theorem C50_arguments_verbatim : forall pl a rq name vers e,
  Describes pl a rq -> io_env_new pl name vers a = Some (Ok e) ->
  forall arg, In arg (rq_args rq) -> exists l r, invocation e = l ++ " "%byte :: arg ++ r.
Proof.
  intros pl a rq name vers e D E arg H. pose proof (env_matches _ _ _ _ _ _ D E) as M.
  unfold invocation. rewrite (m_args _ _ M).
  apply in_split in H as (l1 & l2 & ->). rewrite flat_map_app. cbn [flat_map].
  set (x := se_progname (en_settings e)). set (y := if is_nil _ then _ else _).
  exists (x ++ y ++ flat_map (fun entry => space ++ entry) l1), (flat_map (fun entry => space ++ entry) l2).
  rewrite <- !app_assoc. reflexivity.
Qed.
Print Assumptions C50_arguments_verbatim.

Example C50_example : exists e, Describes release to_root to_root_rq
  /\ io_env_new release (B "sudo_pair") (B "1.2.0") to_root = Some (Ok e)
  /\ invocation e = B "sudo --user root cat /etc/shadow".
Proof.
  eexists. split; [exact to_root_describes|].
  split; [vm_compute; reflexivity|vm_compute; reflexivity].
Qed.

(** *** C51: different commands look different *)

(** The full claim: requests that differ only in their arguments show
    different lines. *)
Definition with_args (args : list bytes) (a : open_args) : open_args :=
  mkOpenArgs (oa_version a) (oa_printf a) (oa_settings a) (oa_user_info a) (oa_command_info a)
    args (oa_user_env a) (oa_plugin_options a).

Definition C51_full : Prop := forall pl a args args' rq rq' name vers e e',
  Describes pl (with_args args a) rq -> Describes pl (with_args args' a) rq' ->
  io_env_new pl name vers (with_args args a) = Some (Ok e) -> io_env_new pl name vers (with_args args' a) = Some (Ok e') ->
  invocation e = invocation e' -> rq_args rq = rq_args rq'.

Theorem C51_refuted : exists pl a args args' rq rq' name vers e e',
  Describes pl (with_args args a) rq /\ Describes pl (with_args args' a) rq'
  /\ io_env_new pl name vers (with_args args a) = Some (Ok e) /\ io_env_new pl name vers (with_args args' a) = Some (Ok e')
  /\ invocation e = invocation e' /\ rq_args rq <> rq_args rq'.
Proof.
  pose (a1 := with_args [B "rm"; B "a b"] to_root). pose (a2 := with_args [B "rm"; B "a"; B "b"] to_root).
  destruct (io_env_new release [] [] a1) as [[e1|]|] eqn:E1;
    [|vm_compute in E1; discriminate|vm_compute in E1; discriminate].
  destruct (io_env_new release [] [] a2) as [[e2|]|] eqn:E2;
    [|vm_compute in E2; discriminate|vm_compute in E2; discriminate].
  exists release, to_root, [B "rm"; B "a b"], [B "rm"; B "a"; B "b"], (request_of e1), (request_of e2), [], [], e1, e2.
  split; [exact (env_Describes _ _ _ _ _ E1)|]. split; [exact (env_Describes _ _ _ _ _ E2)|].
  split; [exact E1|]. split; [exact E2|].
  vm_compute in E1, E2. injection E1 as <-. injection E2 as <-. split; vm_compute; [reflexivity|discriminate].
Qed.
Print Assumptions C51_refuted.

Theorem C51_not_full : ~ C51_full.
Proof.
  intros H. destruct C51_refuted as (pl & a & s & s' & rq & rq' & name & vers & e & e' & D & D' & E & E' & I & N).
  exact (N (H pl a s s' rq rq' name vers e e' D D' E E' I)).
Qed.
Print Assumptions C51_not_full.

(** What does hold: without spaces inside arguments, the line determines them. *)
Theorem C51_without_spaces : forall pl a args args' rq rq' name vers e e',
  Describes pl (with_args args a) rq -> Describes pl (with_args args' a) rq' ->
  io_env_new pl name vers (with_args args a) = Some (Ok e) -> io_env_new pl name vers (with_args args' a) = Some (Ok e') ->
  Forall (fun w => ~ In " "%byte w) (rq_args rq) -> Forall (fun w => ~ In " "%byte w) (rq_args rq') ->
  invocation e = invocation e' -> rq_args rq = rq_args rq'.
Proof. exact (fun pl a => same_line_args pl a). Qed.
Print Assumptions C51_without_spaces.

Example C51_example : with_args (oa_argv to_root) to_root = to_root /\ Describes release to_root to_root_rq
  /\ rq_args to_root_rq = [B "cat"; B "/etc/shadow"] /\ Forall (fun w => ~ In " "%byte w) (rq_args to_root_rq).
Proof.
  split; [reflexivity|]. split; [exact to_root_describes|]. split; [reflexivity|].
  repeat constructor; cbn; intuition discriminate.
Qed.

(** An argument can be taken for a flag of sudo, also without spaces:
    sudo -u root id, and a program named '--user' with arguments root and id. *)
Definition posing (user : list bytes) (args : list bytes) : open_args := {|
  oa_version := oa_version to_root; oa_printf := true; oa_settings := Some (settings0 ++ user);
  oa_user_info := oa_user_info to_root; oa_command_info := oa_command_info to_root; oa_argv := args;
  oa_user_env := Some []; oa_plugin_options := None |}.
Theorem C51_flags_refuted : exists pl a a' rq rq' name vers e e',
  Describes pl a rq /\ Describes pl a' rq'
  /\ io_env_new pl name vers a = Some (Ok e) /\ io_env_new pl name vers a' = Some (Ok e')
  /\ Forall (fun w => ~ In " "%byte w) (rq_args rq) /\ Forall (fun w => ~ In " "%byte w) (rq_args rq')
  /\ invocation e = invocation e' /\ rq_f_user rq <> rq_f_user rq' /\ rq_args rq <> rq_args rq'.
Proof.
  destruct (io_env_new release [] [] (posing [B "runas_user=root"] [B "id"])) as [[e1|]|] eqn:E1;
    [|vm_compute in E1; discriminate|vm_compute in E1; discriminate].
  destruct (io_env_new release [] [] (posing [] [B "--user"; B "root"; B "id"])) as [[e2|]|] eqn:E2;
    [|vm_compute in E2; discriminate|vm_compute in E2; discriminate].
  exists release, (posing [B "runas_user=root"] [B "id"]), (posing [] [B "--user"; B "root"; B "id"]), (request_of e1), (request_of e2), [], [], e1, e2.
  split; [exact (env_Describes _ _ _ _ _ E1)|]. split; [exact (env_Describes _ _ _ _ _ E2)|].
  split; [exact E1|]. split; [exact E2|].
  vm_compute in E1, E2. injection E1 as <-. injection E2 as <-.
  split; [repeat constructor; cbn; intuition discriminate|]. split; [repeat constructor; cbn; intuition discriminate|].
  split; [vm_compute; reflexivity|]. split; vm_compute; discriminate.
Qed.
Print Assumptions C51_flags_refuted.

(** *** C52: groups *)
Theorem C52_groups : forall pl a rq name vers e,
  Describes pl a rq -> io_env_new pl name vers a = Some (Ok e) ->
  forall gs, runas_gids pl e = Some gs -> forall g, In g gs <-> GainsGroup rq g.
Proof. exact groups_gained. Qed.
Print Assumptions C52_groups.

(** In a release build the set is always computed; in a debug build it is
    unless sudo contradicts itself about preserving the groups. *)
Theorem C52_total : forall pl a rq name vers e,
  Describes pl a rq -> io_env_new pl name vers a = Some (Ok e) ->
  (runas_gids pl e = None
   <-> pl_debug pl = true /\ ~ (rq_preserve_groups rq = true <-> rq_to_groups rq = None)).
Proof. intros pl a rq name vers e D E. exact (runas_gids_None e rq pl (env_matches _ _ _ _ _ _ D E)). Qed.
Print Assumptions C52_total.

Example C52_example : exists e, Describes release (to_group []) (to_group_rq [1000; 27])
  /\ io_env_new release (B "sudo_pair") (B "1.2.0") (to_group []) = Some (Ok e)
  /\ runas_gids release e = Some [10; 1000; 27; 10].
Proof.
  eexists. split; [exact to_group_describes|].
  split; [vm_compute; reflexivity|vm_compute; reflexivity].
Qed.

(** A list of groups together with [preserve_groups]: a debug build panics, a
    release build goes by the list. *)
Definition to_group_both : open_args := {|
  oa_version := oa_version (to_group []); oa_printf := true; oa_settings := oa_settings (to_group []);
  oa_user_info := oa_user_info (to_group []);
  oa_command_info := Some ([B "command=/usr/bin/id"; B "preserve_groups=true"; B "runas_uid=1000"; B "runas_gid=10";
                            B "runas_groups=1000,27,10"] ++ log_hints);
  oa_argv := [B "id"]; oa_user_env := Some []; oa_plugin_options := oa_plugin_options (to_group []) |}.

Example C52_total_example :
  match io_env_new debug (B "sudo_pair") (B "1.2.0") to_group_both with
  | Some (Ok e) => Describes debug to_group_both (request_of e) /\ runas_gids debug e = None
  | _ => False
  end
  /\ match io_env_new release (B "sudo_pair") (B "1.2.0") to_group_both with
     | Some (Ok e) => exists g, runas_gids release e = Some g
     | _ => False
     end.
Proof.
  split.
  - destruct (io_env_new debug (B "sudo_pair") (B "1.2.0") to_group_both) as [[e|]|] eqn:E;
      [|vm_compute in E; discriminate E|vm_compute in E; discriminate E].
    split; [exact (env_Describes _ _ _ _ _ E)|]. vm_compute in E. injection E as <-. vm_compute. reflexivity.
  - vm_compute. eexists. reflexivity.
Qed.

(** *** C53: working directory *)
Theorem C53_cwd : forall pl a rq name vers e,
  Describes pl a rq -> io_env_new pl name vers a = Some (Ok e) ->
  forall d, env_cwd e = d <->
    (ReadsOpt (oa_command_info a) "cwd" Text (Some d))
    \/ (ReadsOpt (oa_command_info a) "cwd" Text None /\ Reads (oa_user_info a) "cwd" Text d).
Proof. exact cwd_shown. Qed.
Print Assumptions C53_cwd.

Example C53_example : exists e, Describes release to_root to_root_rq
  /\ io_env_new release (B "sudo_pair") (B "1.2.0") to_root = Some (Ok e) /\ env_cwd e = B "/home/alice".
Proof.
  eexists. split; [exact to_root_describes|].
  split; [vm_compute; reflexivity|vm_compute; reflexivity].
Qed.
