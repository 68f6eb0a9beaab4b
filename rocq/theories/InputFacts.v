(** Facts behind PropsInput.v. *)
From Verif Require Import Base BaseLemmas Num Utf8 Path Version Template Options World Sys Io Env Core Pair Spec.
From Verif Require Import OptionProofs NumProofs Utf8Proofs PathProofs TemplateProofs VersionProofs
  ReadProofs RequestProofs PairPure.
Local Open Scope Z_scope.

(** The types an option can be read as (sudo_plugin/src/options/traits.rs):
    the parser, and what the text has to mean. *)
Inductive OptionType : forall A : Type, (bytes -> option A) -> (bytes -> A -> Prop) -> Prop :=
| OT_bool : OptionType bool parse_bool Bool
| OT_i8 : OptionType Z (parse_int i8T) (SInt 8)
| OT_u8 : OptionType Z (parse_int u8T) (UInt 8)
| OT_i16 : OptionType Z (parse_int i16T) (SInt 16)
| OT_u16 : OptionType Z (parse_int u16T) (UInt 16)
| OT_i32 : OptionType Z (parse_int i32T) (SInt 32)
| OT_u32 : OptionType Z (parse_int u32T) (UInt 32)
| OT_i64 : OptionType Z (parse_int i64T) (SInt 64)
| OT_u64 : OptionType Z (parse_int u64T) (UInt 64)
| OT_string : OptionType bytes parse_string Text
| OT_path : OptionType bytes parse_path Text
| OT_list A p R sep : OptionType A p R -> OptionType (list A) (parse_list sep p) (ListOf sep R).

Lemma OptionType_spec A p R : OptionType A p R -> forall s x, p s = Some x <-> R s x.
Proof.
  induction 1; intros s x.
  - apply parse_bool_spec.
  - apply parse_i8.
  - apply parse_u8.
  - apply parse_i16.
  - apply parse_u16.
  - apply parse_i32.
  - apply parse_u32.
  - apply parse_i64.
  - apply parse_u64.
  - apply parse_string_spec.
  - apply path_spec.
  - apply parse_list_spec. assumption.
Qed.

Lemma typed_read A p R : OptionType A p R -> forall r k,
  (forall x, get p (from_raw r) k = Ok x <-> ReadsKey r k R x)
  /\ (get p (from_raw r) k = Err (OptionMissing k) <-> forall v, Provides r k v -> ~ Utf8 v)
  /\ (forall v, get p (from_raw r) k = Err (OptionInvalid k v)
        <-> Provides r k v /\ Utf8 v /\ forall x, ~ R v x)
  /\ (forall e, get p (from_raw r) k = Err e -> e = OptionMissing k \/ exists v, e = OptionInvalid k v).
Proof.
  intros H r k. pose proof (OptionType_spec A p R H) as HR. split; [|split; [|split]].
  - intros x. apply get_Ok. exact HR.
  - apply get_Missing.
  - intros v. apply get_Invalid. exact HR.
  - intros e E. destruct (get_cases p r k) as [[x E']|[E'|[v E']]]; rewrite E' in E; try discriminate;
      injection E as <-; eauto.
Qed.

Lemma text_read r k v : get_str (from_raw r) k = Some v <-> Provides r k v /\ Utf8 v.
Proof.
  unfold get_str. split.
  - destruct (get_bytes (from_raw r) k) as [w|] eqn:E; [|discriminate].
    destruct (valid_utf8 w) eqn:Ev; [|discriminate]. intros H. injection H as ->.
    apply get_bytes_Provides in E. apply valid_utf8_iff in Ev. auto.
  - intros [H1 H2]. apply get_bytes_Provides in H1. rewrite H1.
    apply valid_utf8_iff in H2. rewrite H2. reflexivity.
Qed.

(** The integer types with their signedness and width. *)
Inductive IntType : ity -> bool -> Z -> Prop :=
| IT_i8 : IntType i8T true 8 | IT_u8 : IntType u8T false 8
| IT_i16 : IntType i16T true 16 | IT_u16 : IntType u16T false 16
| IT_i32 : IntType i32T true 32 | IT_u32 : IntType u32T false 32
| IT_i64 : IntType i64T true 64 | IT_u64 : IntType u64T false 64.

Definition InRange (signed : bool) (bits n : Z) : Prop :=
  if signed then - 2 ^ (bits - 1) <= n < 2 ^ (bits - 1) else 0 <= n < 2 ^ bits.

Lemma int_parse t sg bits : IntType t sg bits -> forall s n,
  parse_int t s = Some n <-> Numeral sg s n /\ InRange sg bits n.
Proof.
  destruct 1; intros s n; unfold InRange.
  - apply parse_i8. - apply parse_u8. - apply parse_i16. - apply parse_u16.
  - apply parse_i32. - apply parse_u32. - apply parse_i64. - apply parse_u64.
Qed.

Lemma int_print t sg bits n : IntType t sg bits -> InRange sg bits n ->
  parse_int t (to_dec n) = Some n /\ Decimal n (to_dec n).
Proof.
  intros H Hr. split; [|apply to_dec_Decimal].
  apply (int_parse t sg bits H). split; [|exact Hr].
  apply to_dec_Numeral. intros Hn. destruct sg; [reflexivity|]. unfold InRange in Hr. lia.
Qed.

Lemma Separated_app_comma sep s pieces : Separated sep s pieces ->
  Separated sep (s ++ [sep]) (pieces ++ [[]]).
Proof.
  induction 1 as [x Hx|x s l Hx H IH]; cbn.
  - apply Sep_more; [exact Hx|]. apply Sep_one. intros [].
  - rewrite <- app_assoc. cbn. apply Sep_more; [exact Hx|exact IH].
Qed.

Lemma UInt_nil b n : ~ UInt b [] n.
Proof.
  intros [[[H _]|[(t & H & _)|(H & _)]] _]; [congruence|discriminate|discriminate].
Qed.

Lemma list_parse t sg bits : IntType t sg bits -> forall s l,
  parse_ints t s = Some l
  <-> ListOf ","%byte (fun piece n => Numeral sg piece n /\ InRange sg bits n) s l.
Proof. intros H s l. apply parse_list_spec. apply int_parse. exact H. Qed.

Lemma Numeral_nil sg n : ~ Numeral sg [] n.
Proof. intros [[H _]|[(t & H & _)|(_ & t & m & H & _)]]; [congruence|discriminate|discriminate]. Qed.

Lemma list_parse_trailing t sg bits s : IntType t sg bits -> parse_ints t (s ++ B ",") = None.
Proof.
  intros H. destruct (parse_ints t (s ++ B ",")) as [l|] eqn:E; [|reflexivity].
  apply (list_parse t sg bits H) in E as (pieces & Hs & Hf).
  pose proof (proj2 (Separated_split "," s (split_on "," s)) eq_refl) as Hs'.
  apply Separated_app_comma in Hs'.
  apply Separated_split in Hs. apply Separated_split in Hs'.
  change [","%byte] with (B ",") in Hs'. rewrite <- Hs' in Hs. subst pieces.
  apply Forall2_app_inv_l in Hf as (l1 & l2 & _ & Hf & _).
  inversion Hf as [|? y ? ? [Hy _] ?]; subst. exfalso. exact (Numeral_nil _ _ Hy).
Qed.

Lemma list_parse_empty t sg bits : IntType t sg bits -> parse_ints t [] = None.
Proof.
  intros H. destruct (parse_ints t []) as [l|] eqn:E; [|reflexivity].
  apply (list_parse t sg bits H) in E as (pieces & Hs & Hf).
  apply Separated_split in Hs. cbn in Hs. subst pieces.
  inversion Hf as [|? y ? ? [Hy _] ?]; subst. exfalso. exact (Numeral_nil _ _ Hy).
Qed.

(** ** Target identity *)
Lemma target_uid pl r : exists u,
  ReadsOr r "runas_uid" (UInt 32) (pl_euid pl) u
  /\ ReadsOr r "runas_euid" (UInt 32) u (ci_runas_euid (command_info_try_from pl (from_raw r))).
Proof.
  eexists. split; apply (get_or_iff (parse_int u32T) (UInt 32) parse_u32); reflexivity.
Qed.

Lemma target_gid pl r : exists g,
  ReadsOr r "runas_gid" (UInt 32) (pl_egid pl) g
  /\ ReadsOr r "runas_egid" (UInt 32) g (ci_runas_egid (command_info_try_from pl (from_raw r))).
Proof.
  eexists. split; apply (get_or_iff (parse_int u32T) (UInt 32) parse_u32); reflexivity.
Qed.

(** ** Versions *)
Lemma version_facts :
  (forall M m, 0 <= M < 65536 -> 0 <= m < 65536 ->
     from_ffi (into_ffi (mkVersion M m)) = mkVersion M m
     /\ sudo_api_version_get_major (sudo_api_mkversion M m) = M
     /\ sudo_api_version_get_minor (sudo_api_mkversion M m) = m)
  /\ (forall w, 0 <= w < 2 ^ 32 -> into_ffi (from_ffi w) = w)
  /\ (forall a b, 0 <= a < 2 ^ 32 -> 0 <= b < 2 ^ 32 ->
        (version_leb (from_ffi a) (from_ffi b) = true <-> a <= b)).
Proof.
  split; [|split].
  - intros M m HM Hm. unfold into_ffi. cbn [v_major v_minor].
    rewrite mkversion_eq, from_ffi_eq by assumption. split; [|split].
    + f_equal; lia.
    + unfold sudo_api_version_get_major. rewrite Z.shiftr_div_pow2 by lia. change (2 ^ 16) with 65536. lia.
    + unfold sudo_api_version_get_minor. change 65535 with (Z.ones 16). rewrite Z.land_ones by lia.
      change (2 ^ 16) with 65536. lia.
  - intros w Hw. change (2 ^ 32) with 4294967296 in Hw.
    rewrite from_ffi_eq. unfold into_ffi. cbn [v_major v_minor].
    rewrite mkversion_eq; lia.
  - intros a b Ha Hb. change (2 ^ 32) with 4294967296 in Ha, Hb.
    rewrite !from_ffi_eq. unfold version_leb. cbn [v_major v_minor].
    rewrite orb_true_iff, andb_true_iff, Z.ltb_lt, Z.eqb_eq, Z.leb_le. lia.
Qed.

(** ** Templates *)
Lemma expand_compose s t1 t2 : Closed (sp_escape s) t1 -> expand s (t1 ++ t2) = expand s t1 ++ expand s t2.
Proof. intros H. rewrite !expand_eq. apply expand_spec_app. exact H. Qed.

Lemma expand_verbatim esc defs c x t1 t2 : Closed esc t1 -> Defined defs c x ->
  let s := define_all defs (spec_with_escape esc) in
  expand s (t1 ++ esc :: c :: t2) = expand s t1 ++ x ++ expand s t2.
Proof.
  intros Hc Hd s. assert (Es : sp_escape s = esc) by (unfold s; rewrite define_all_escape; reflexivity).
  rewrite expand_compose by (rewrite Es; exact Hc). f_equal.
  rewrite !expand_eq, Es. cbn [expand_spec]. rewrite byte_eqb_refl.
  apply (Defined_meaning esc) in Hd as ->. reflexivity.
Qed.

(** ** Plugin options *)
Lemma plugin_options_read r : let o := plugin_options_from (from_raw r) in
  ReadsOr r "binary_path" Text (B "/usr/bin/sudo_approve") (po_binary_path o)
  /\ ReadsOr r "user_prompt_path" Text (B "/etc/sudo_pair.prompt.user") (po_user_prompt_path o)
  /\ ReadsOr r "pair_prompt_path" Text (B "/etc/sudo_pair.prompt.pair") (po_pair_prompt_path o)
  /\ ReadsOr r "socket_dir" Text (B "/var/run/sudo_pair") (po_socket_dir o)
  /\ ReadsOr r "gids_enforced" (UIntList 32) [0] (po_gids_enforced o)
  /\ ReadsOr r "gids_exempted" (UIntList 32) [] (po_gids_exempted o).
Proof.
  cbn zeta. repeat split.
  - apply (get_or_iff parse_path Text path_spec). reflexivity.
  - apply (get_or_iff parse_path Text path_spec). reflexivity.
  - apply (get_or_iff parse_path Text path_spec). reflexivity.
  - apply (get_or_iff parse_path Text path_spec). reflexivity.
  - apply (get_or_iff (parse_int_set u32T) (UIntList 32) parse_u32s). reflexivity.
  - apply (get_or_iff (parse_int_set u32T) (UIntList 32) parse_u32s). reflexivity.
Qed.

(** [g] is written in the list [v]. *)
Definition Lists (v : bytes) (g : Z) : Prop :=
  exists pieces piece, Separated ","%byte v pieces /\ In piece pieces /\ UInt 32 piece g.

Lemma enforced_complete r v l : Provides r (B "gids_enforced") v -> Utf8 v -> UIntList 32 v l ->
  forall g, Lists v g <-> In g (po_gids_enforced (plugin_options_from (from_raw r))).
Proof.
  intros Hp Hu Hl.
  assert (E : po_gids_enforced (plugin_options_from (from_raw r)) = l).
  { unfold plugin_options_from. cbn [po_gids_enforced].
    apply (get_or_iff (parse_int_set u32T) (UIntList 32) parse_u32s). left. exists v. auto. }
  intros g. rewrite E. clear E. destruct Hl as (pieces & Hs & Hf). unfold Lists. split.
  - intros (pieces' & piece & Hs' & Hin & Hg).
    apply Separated_split in Hs, Hs'. subst pieces'. subst pieces.
    revert Hin. induction Hf as [|x y lx ly Hxy Hf IH]; intros Hin; [destruct Hin|].
    destruct Hin as [->|Hin]; [|right; auto]. left.
    apply parse_u32 in Hxy, Hg. congruence.
  - intros Hin. exists pieces.
    assert (Hx : exists piece, In piece pieces /\ UInt 32 piece g).
    { clear Hs. induction Hf as [|x y lx ly Hxy Hf IH]; [destruct Hin|].
      destruct Hin as [->|Hin]; [exists x; split; [left; reflexivity|exact Hxy]|].
      destruct (IH Hin) as (q & Hq & Hg). exists q. split; [right; exact Hq|exact Hg]. }
    destruct Hx as (piece & Hx & Hg). exists piece. auto.
Qed.

(** ** Requests *)
Section Requests.
Variables (pl : platform) (a : open_args) (rq : request) (name vers : bytes) (e : io_env).
Hypothesis D : Describes pl a rq.
Hypothesis E : io_env_new pl name vers a = Some (Ok e).

Lemma env_matches : Matches e rq.
Proof. exact (env_Matches _ _ _ _ _ _ D E). Qed.

Lemma directives_shown t out :
  Expands "%" (Directive rq) t out <-> out = expand (template_spec (pair0 e)) t.
Proof. apply prompt_iff. exact env_matches. Qed.

Lemma invocation_shown line : Invocation rq line <-> line = invocation e.
Proof. apply Invocation_iff. exact env_matches. Qed.

Lemma groups_gained gs : runas_gids pl e = Some gs -> forall g, In g gs <-> GainsGroup rq g.
Proof.
  intros H g. rewrite (runas_gids_gained e rq pl env_matches gs H), GainsGroup_in. reflexivity.
Qed.

Lemma cwd_shown d : env_cwd e = d <->
  (ReadsOpt (oa_command_info a) "cwd" Text (Some d))
  \/ (ReadsOpt (oa_command_info a) "cwd" Text None /\ Reads (oa_user_info a) "cwd" Text d).
Proof.
  pose proof (d_policy_cwd _ _ _ D) as H1. pose proof (d_user_cwd _ _ _ D) as H2.
  unfold env_cwd. rewrite (m_policy_cwd _ _ env_matches), (m_user_cwd _ _ env_matches).
  destruct (rq_policy_cwd rq) as [x|].
  - split.
    + intros ->. left. exact H1.
    + intros [H|[H _]].
      * exact (Reads_unique _ _ _ _ _ _ parse_string_spec H1 H).
      * exfalso. exact (H x H1).
  - split.
    + intros <-. right. split; [exact H1|exact H2].
    + intros [H|[_ H]].
      * exfalso. exact (H1 d H).
      * exact (Reads_unique _ _ _ _ _ _ parse_string_spec H2 H).
Qed.
End Requests.

Lemma in_flat_map_verbatim x ws : In x ws ->
  exists l r, flat_map (fun y => space ++ y) ws = l ++ x ++ r.
Proof.
  induction ws as [|w ws IH]; intros H; [destruct H|]. destruct H as [->|H].
  - exists space, (flat_map (fun y => space ++ y) ws). cbn [flat_map]. rewrite <- app_assoc. reflexivity.
  - destruct (IH H) as (l & r & E). cbn [flat_map]. rewrite E.
    exists ((space ++ w) ++ l), r. rewrite <- !app_assoc. reflexivity.
Qed.

Lemma spaced_args_inj l : forall l', Forall (fun w => ~ In " "%byte w) l -> Forall (fun w => ~ In " "%byte w) l' ->
  flat_map (fun y => space ++ y) l = flat_map (fun y => space ++ y) l' -> l = l'.
Proof.
  induction l as [|w l IH]; intros [|w' l'] H H' E; try reflexivity; try discriminate E.
  inversion H as [|? ? Hw Hl]; subst. inversion H' as [|? ? Hw' Hl']; subst.
  change (" "%byte :: w ++ flat_map (fun y => space ++ y) l = " "%byte :: w' ++ flat_map (fun y => space ++ y) l') in E.
  injection E as E.
  destruct l as [|v l], l' as [|v' l'].
  - rewrite !app_nil_r in E. congruence.
  - exfalso. apply Hw. cbn in E. rewrite app_nil_r in E. subst w. apply in_or_app. right. left. reflexivity.
  - exfalso. apply Hw'. cbn in E. rewrite app_nil_r in E. subst w'. apply in_or_app. right. left. reflexivity.
  - set (f := flat_map (fun y : bytes => space ++ y)) in *.
    assert (F : forall x k, f (x :: k) = " "%byte :: x ++ f k) by reflexivity.
    rewrite !F in E. apply first_split_unique in E as [-> E]; try assumption. f_equal. apply IH; try assumption.
    rewrite !F, E. reflexivity.
Qed.

Lemma same_line_args pl a args args' rq rq' name vers e e' :
  let with_args l := mkOpenArgs (oa_version a) (oa_printf a) (oa_settings a) (oa_user_info a) (oa_command_info a)
    l (oa_user_env a) (oa_plugin_options a) in
  Describes pl (with_args args) rq -> Describes pl (with_args args') rq' ->
  io_env_new pl name vers (with_args args) = Some (Ok e) -> io_env_new pl name vers (with_args args') = Some (Ok e') ->
  Forall (fun w => ~ In " "%byte w) (rq_args rq) -> Forall (fun w => ~ In " "%byte w) (rq_args rq') ->
  invocation e = invocation e' -> rq_args rq = rq_args rq'.
Proof.
  intros with_args D D' E E' H H' L.
  pose proof (env_matches _ _ _ _ _ _ D E) as M. pose proof (env_matches _ _ _ _ _ _ D' E') as M'.
  assert (S : en_settings e = en_settings e').
  { revert E E'. unfold io_env_new. subst with_args. cbn [oa_version oa_printf oa_settings oa_user_info oa_command_info oa_plugin_options oa_argv oa_user_env].
    destruct (version_check _); [|discriminate]. destruct (pf_new _ _).
    destruct (settings_try_from _ _) as [[se|]|]; try discriminate. destruct (user_info_try_from _); [|discriminate].
    intros X Y. injection X as <-. injection Y as <-. reflexivity. }
  unfold invocation in L. rewrite <- S, (m_args _ _ M), (m_args _ _ M') in L.
  apply app_inv_head in L. apply app_inv_head in L. apply spaced_args_inj; assumption.
Qed.

(** ** Socket paths *)
Lemma rev_app_case (d : bytes) : d = [] \/ exists i l, d = i ++ [l].
Proof. destruct d as [|l i _] using rev_ind; eauto. Qed.

Lemma path_join_rel d n : hd x00 n <> slash -> n <> [] ->
  (d = [] /\ path_join d n = n)
  \/ (exists i, d = i ++ [slash] /\ path_join d n = d ++ n)
  \/ (d <> [] /\ path_join d n = d ++ slash :: n).
Proof.
  intros Hh Hn. unfold path_join. destruct n as [|c n]; [congruence|]. cbn [hd] in Hh.
  apply byte_eqb_neq in Hh. rewrite Hh.
  destruct (rev_app_case d) as [->|(i & l & ->)]; [left; auto|].
  rewrite rev_app_distr. cbn [rev app].
  destruct (byte_eqb l slash) eqn:E.
  - right. left. apply byte_eqb_eq in E as ->. eauto.
  - right. right. split; [destruct i; discriminate|]. reflexivity.
Qed.

Lemma sock_name_hd u p : hd x00 (sock_name u p) <> slash.
Proof.
  unfold sock_name. pose proof (to_dec_nonempty u). destruct (to_dec u) as [|c t] eqn:Eu; [congruence|].
  cbn. intros ->. apply (slash_not_in_dec u). rewrite Eu. left. reflexivity.
Qed.

Lemma socket_path_eq e rq : Matches e rq ->
  socket_path (pair0 e) = path_join (rq_socket_dir rq) (sock_name (rq_uid rq) (rq_pid rq)).
Proof.
  intros M. unfold socket_path, pair0. cbn [sp_env sp_options].
  rewrite (m_options _ _ M), (m_uid _ _ M), (m_pid _ _ M). reflexivity.
Qed.

Lemma socket_path_components d u p : exists pre,
  components (path_join d (sock_name u p)) = pre ++ [Normal (sock_name u p)].
Proof.
  destruct (sock_name_ok u p) as (N1 & N2 & N3 & N4).
  destruct (path_join_rel d (sock_name u p) (sock_name_hd u p) N1) as [(-> & ->)|[(i & -> & ->)|(Hd & ->)]].
  - exists []. apply components_single; assumption.
  - rewrite <- app_assoc. apply components_child; assumption.
  - apply components_child; assumption.
Qed.

Lemma socket_path_child d u p :
  (d = [] /\ path_join d (sock_name u p) = sock_name u p)
  \/ (d <> [] /\ SamePath (path_join d (sock_name u p)) (d ++ slash :: sock_name u p)).
Proof.
  destruct (sock_name_ok u p) as (N1 & N2 & N3 & N4).
  destruct (path_join_rel d (sock_name u p) (sock_name_hd u p) N1) as [(-> & E)|[(i & -> & E)|(Hd & E)]]; rewrite E.
  - left. auto.
  - right. split; [destruct i; discriminate|].
    rewrite <- !app_assoc. cbn [app]. apply SP_sym. apply SP_slash.
  - right. split; [exact Hd|apply SP_refl].
Qed.

Lemma socket_path_inj d u p u' p' :
  SamePath (path_join d (sock_name u p)) (path_join d (sock_name u' p')) -> u = u' /\ p = p'.
Proof.
  intros H. apply SamePath_components in H.
  destruct (socket_path_components d u p) as [x E1]. destruct (socket_path_components d u' p') as [y E2].
  rewrite E1, E2 in H. apply app_inj_tail in H as [_ H]. injection H as H.
  apply sock_name_inj. exact H.
Qed.
