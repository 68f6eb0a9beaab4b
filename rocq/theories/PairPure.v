(** The pure parts of sudo_pair against Spec.v: numbers shown, file names,
    invocation, directives, exemption, socket path. *)
From Verif Require Import Base BaseLemmas Num Path Version Template Options World Sys Io Env Core Pair Spec.
From Verif Require Import OptionProofs NumProofs Utf8Proofs PathProofs TemplateProofs VersionProofs
  ReadProofs RequestProofs.
Local Open Scope Z_scope.

(** ** Decimal text is unique *)
Lemma horner_app a b n : horner n (a ++ b) = horner (horner n a) b.
Proof. unfold horner. apply fold_left_app. Qed.

Lemma horner_inj s : forall t n m, List.length s = List.length t ->
  Forall IsDigit s -> Forall IsDigit t -> 0 <= n -> 0 <= m -> horner n s = horner m t -> n = m /\ s = t.
Proof.
  induction s as [|b s IH] using rev_ind; intros t n m Hl Hs Ht Hn Hm H.
  - destruct t; [|discriminate]. cbn in H. auto.
  - destruct t as [|c t _] using rev_ind; [rewrite app_length in Hl; cbn in Hl; lia|].
    rewrite !app_length in Hl. cbn in Hl.
    apply Forall_app in Hs as [Hs Hb]. apply Forall_app in Ht as [Ht Hc].
    inversion Hb as [|? ? Hb' _]; subst. inversion Hc as [|? ? Hc' _]; subst.
    rewrite !horner_app in H. cbn in H.
    unfold IsDigit in Hb', Hc'.
    assert (E : horner n s = horner m t /\ bz b = bz c) by lia. destruct E as [E1 E2].
    destruct (IH t n m) as [-> ->]; try assumption; [lia|].
    apply bz_inj in E2 as ->. auto.
Qed.

Lemma Digits_canonical_unique s t n : Digits s n -> Digits t n ->
  (hd x00 s = "0"%byte -> s = B "0") -> (hd x00 t = "0"%byte -> t = B "0") -> s = t.
Proof.
  intros (Hs0 & Hs & Es) (Ht0 & Ht & Et) Cs Ct.
  assert (Z0 : digits_value (B "0") = 0) by reflexivity.
  assert (Pos : forall u, u <> [] -> Forall IsDigit u -> hd x00 u <> "0"%byte ->
                 10 ^ Z.of_nat (List.length u - 1) <= digits_value u < 10 ^ Z.of_nat (List.length u)).
  { intros u Hu Hd H0. destruct u as [|b u]; [congruence|]. inversion Hd as [|? ? Hb Hd']; subst.
    unfold IsDigit in Hb. cbn [hd] in H0.
    assert (bz b <> 48). { intros E. apply H0. apply bz_inj. exact E. }
    pose proof (digits_len_bound (b :: u) Hd 0 ltac:(lia)) as [Hub _].
    pose proof (digits_len_bound u Hd' (bz b - 48) ltac:(lia)) as [_ Hlb].
    change (digits_value (b :: u)) with (horner 0 (b :: u)).
    split.
    - change (horner 0 (b :: u)) with (horner (10 * 0 + (bz b - 48)) u).
      replace (10 * 0 + (bz b - 48)) with (bz b - 48) by lia.
      replace (List.length (b :: u) - 1)%nat with (List.length u) by (cbn; lia).
      eapply Z.le_trans; [|exact Hlb].
      assert (0 < 10 ^ Z.of_nat (List.length u)) by (apply Z.pow_pos_nonneg; lia). nia.
    - lia. }
  destruct (Byte.byte_eq_dec (hd x00 s) "0") as [Hz|Hz];
    destruct (Byte.byte_eq_dec (hd x00 t) "0") as [Hz'|Hz'].
  - rewrite (Cs Hz), (Ct Hz'). reflexivity.
  - exfalso. rewrite (Cs Hz), Z0 in Es. pose proof (Pos t Ht0 Ht Hz') as [H1 _].
    assert (0 < 10 ^ Z.of_nat (List.length t - 1)) by (apply Z.pow_pos_nonneg; lia). lia.
  - exfalso. rewrite (Ct Hz'), Z0 in Et. pose proof (Pos s Hs0 Hs Hz) as [H1 _].
    assert (0 < 10 ^ Z.of_nat (List.length s - 1)) by (apply Z.pow_pos_nonneg; lia). lia.
  - pose proof (Pos s Hs0 Hs Hz) as [L1 U1]. pose proof (Pos t Ht0 Ht Hz') as [L2 U2].
    rewrite <- Es in L1, U1. rewrite <- Et in L2, U2.
    assert (List.length s <> 0%nat) by (destruct s; [congruence|cbn; lia]).
    assert (List.length t <> 0%nat) by (destruct t; [congruence|cbn; lia]).
    assert (List.length s = List.length t).
    { destruct (Nat.lt_trichotomy (List.length s) (List.length t)) as [Hlt|[Heq|Hlt]]; [|exact Heq|].
      - assert (10 ^ Z.of_nat (List.length s) <= 10 ^ Z.of_nat (List.length t - 1))
          by (apply Z.pow_le_mono_r; lia). lia.
      - assert (10 ^ Z.of_nat (List.length t) <= 10 ^ Z.of_nat (List.length s - 1))
          by (apply Z.pow_le_mono_r; lia). lia. }
    apply (horner_inj s t 0 0); auto; try lia. change (digits_value s = digits_value t). congruence.
Qed.

Lemma Decimal_unique n s t : Decimal n s -> Decimal n t -> s = t.
Proof.
  intros [(H0 & Hd & Hc)|(H0 & s' & -> & Hd & Hc)] [(H1 & Hd' & Hc')|(H1 & t' & -> & Hd' & Hc')]; try lia.
  - eapply Digits_canonical_unique; eauto.
  - f_equal. eapply Digits_canonical_unique; eauto; congruence.
Qed.

Lemma Decimal_iff n s : Decimal n s <-> s = to_dec n.
Proof.
  split; [|intros ->; apply to_dec_Decimal].
  intros H. eapply Decimal_unique; [exact H|apply to_dec_Decimal].
Qed.

(** ** File names *)
Lemma Normal_in_components p n : In (Normal n) (components p) ->
  n <> [] /\ n <> B "." /\ n <> B ".." /\ ~ In slash n.
Proof.
  rewrite components_lead. intros H. apply in_app_or in H as [H|H].
  - exfalso. unfold lead in H. destruct p as [|c p]; [destruct H|].
    destruct (byte_eqb c slash); [destruct H as [H|[]]; discriminate|].
    destruct (split_on slash (c :: p)) as [|s l]; [destruct H|].
    destruct (bytes_eqb s (B ".")); [destruct H as [H|[]]; discriminate|destruct H].
  - apply in_flat_map in H as (s & Hs & H).
    pose proof (split_on_pieces slash p) as Hp. rewrite Forall_forall in Hp. specialize (Hp s Hs).
    unfold seg_comp in H.
    destruct (bytes_eqb s []) eqn:E1; [destruct H|].
    destruct (bytes_eqb s (B ".")) eqn:E2; [destruct H|].
    destruct (bytes_eqb s (B "..")) eqn:E3; [destruct H as [H|[]]; discriminate|].
    destruct H as [H|[]]. injection H as <-.
    apply bytes_eqb_neq in E1, E2, E3. auto.
Qed.

Lemma seg_comp_Normal n : n <> [] -> n <> B "." -> n <> B ".." -> seg_comp n = [Normal n].
Proof.
  intros H1 H2 H3. unfold seg_comp.
  apply bytes_eqb_neq in H1, H2, H3. rewrite H1, H2, H3. reflexivity.
Qed.

Lemma components_single n : n <> [] -> n <> B "." -> n <> B ".." -> ~ In slash n ->
  components n = [Normal n].
Proof.
  intros H1 H2 H3 H4. rewrite components_lead, split_on_single by exact H4.
  cbn [flat_map]. rewrite seg_comp_Normal, app_nil_r by assumption.
  unfold lead. destruct n as [|c n]; [congruence|].
  destruct (byte_eqb c slash) eqn:E.
  { apply byte_eqb_eq in E as ->. exfalso. apply H4. left. reflexivity. }
  rewrite split_on_single by exact H4. apply bytes_eqb_neq in H2. rewrite H2. reflexivity.
Qed.

Lemma components_child d n : n <> [] -> n <> B "." -> n <> B ".." -> ~ In slash n ->
  exists r, components (d ++ slash :: n) = r ++ [Normal n].
Proof.
  intros H1 H2 H3 H4. rewrite components_sep, (split_on_single slash n) by exact H4.
  cbn [flat_map]. rewrite seg_comp_Normal, app_nil_r by assumption.
  eexists. rewrite app_assoc. reflexivity.
Qed.

Lemma tail_text_snoc l c : tail_text (l ++ [c]) = tail_text l ++ slash :: comp_text c.
Proof.
  induction l as [|a l IH]; cbn [app tail_text]; [rewrite app_nil_r; reflexivity|].
  rewrite IH, <- !app_assoc. reflexivity.
Qed.

Lemma text_snoc r n : (r = [] /\ text (r ++ [Normal n]) = n)
  \/ exists d, text (r ++ [Normal n]) = d ++ slash :: n.
Proof.
  destruct r as [|c r]; [left; split; [reflexivity|]; cbn; apply app_nil_r|right].
  pose proof (tail_text_snoc r (Normal n)) as T. cbn [comp_text] in T.
  destruct c; cbn [app].
  - exists (tail_text r). rewrite <- T.
    destruct r; reflexivity.
  - exists (comp_text CurDir ++ tail_text r). rewrite <- app_assoc, <- T. reflexivity.
  - exists (comp_text ParentDir ++ tail_text r). rewrite <- app_assoc, <- T. reflexivity.
  - exists (s ++ tail_text r). rewrite <- app_assoc, <- T. reflexivity.
Qed.

Lemma file_name_iff p n : path_file_name p = Some n <-> FileName p n.
Proof.
  unfold path_file_name, FileName. split.
  - destruct (rev (components p)) as [|[| | |s] r] eqn:E; try discriminate.
    intros H. injection H as ->.
    assert (Ec : components p = rev r ++ [Normal n]).
    { rewrite <- (rev_involutive (components p)), E. reflexivity. }
    destruct (Normal_in_components p n) as (H1 & H2 & H3 & H4).
    { rewrite Ec. apply in_or_app. right. left. reflexivity. }
    repeat (split; [assumption|]).
    pose proof (SamePath_text p) as Ht. rewrite Ec in Ht.
    destruct (text_snoc (rev r) n) as [[_ E']|[d E']]; rewrite E' in Ht; eauto.
  - intros (H1 & H2 & H3 & H4 & H).
    assert (Ec : exists r, components p = r ++ [Normal n]).
    { destruct H as [H|[d H]]; apply SamePath_components in H; rewrite H.
      - exists []. apply components_single; assumption.
      - apply components_child; assumption. }
    destruct Ec as [r Ec]. rewrite Ec, rev_app_distr. reflexivity.
Qed.

(** ** The invocation *)
Lemma Spaced_unique ws a : Spaced ws a -> forall b, Spaced ws b -> a = b.
Proof.
  induction 1 as [w|w ws line H IH]; intros b Hb; inversion Hb; subst; auto.
  - inversion H2.
  - inversion H.
  - f_equal. f_equal. apply IH. assumption.
Qed.

Lemma Spaced_head w ws : Spaced (w :: ws) (w ++ flat_map (fun x => space ++ x) ws).
Proof.
  revert w. induction ws as [|x ws IH]; intros w; cbn [flat_map].
  - rewrite app_nil_r. constructor.
  - change (w ++ (space ++ x) ++ flat_map (fun x => space ++ x) ws)
      with (w ++ " "%byte :: (x ++ flat_map (fun x => space ++ x) ws)).
    constructor. apply IH.
Qed.

Lemma join_spaces fl : (if is_nil fl then [] else space ++ join_with space fl)
  = flat_map (fun x => space ++ x) fl.
Proof.
  destruct fl as [|x fl]; [reflexivity|]. cbn [is_nil].
  revert x. induction fl as [|y fl IH]; intros x; [cbn; rewrite app_nil_r; reflexivity|].
  change (join_with space (x :: y :: fl)) with (x ++ space ++ join_with space (y :: fl)).
  change (flat_map (fun x => space ++ x) (x :: y :: fl))
    with ((space ++ x) ++ flat_map (fun x => space ++ x) (y :: fl)).
  rewrite <- IH, <- app_assoc. reflexivity.
Qed.

Lemma Shown_iff b f l : Shown b f l <-> l = flag_if b f.
Proof. unfold Shown, flag_if. destruct b; intuition congruence. Qed.

Lemma ShownWith_iff o f l : ShownWith o f l <-> l = flag_arg (f ++ " ") o.
Proof.
  assert (HB : forall v, B (f ++ " ") ++ v = B f ++ " "%byte :: v).
  { intros v. assert (B (f ++ " ") = B f ++ [" "%byte]) as ->.
    { unfold B, list_byte_of_string. induction f as [|c f IH]; [reflexivity|]. cbn. f_equal. exact IH. }
    rewrite <- app_assoc. reflexivity. }
  unfold ShownWith, flag_arg. destruct o as [v|].
  - rewrite HB. split.
    + intros [(v' & E & ->)|(E & _)]; [injection E as ->; reflexivity|discriminate].
    + intros ->. left. eauto.
  - split; [intros [(v' & E & _)|(_ & ->)]; [discriminate|reflexivity]|auto].
Qed.

Definition words_of (e : io_env) : list bytes :=
  se_progname (en_settings e) :: flags (en_settings e) ++ en_cmdline e.

Lemma invocation_Spaced e : Spaced (words_of e) (invocation e).
Proof.
  unfold words_of, invocation. rewrite join_spaces, <- flat_map_app. apply Spaced_head.
Qed.

Lemma InvocationWords_iff e rq ws : Matches e rq -> (InvocationWords rq ws <-> ws = words_of e).
Proof.
  intros M. unfold InvocationWords, words_of, flags.
  rewrite (m_progname _ _ M), (m_args _ _ M), (m_sudoedit _ _ M), (m_f_user _ _ M), (m_f_group _ _ M),
    (m_f_prompt _ _ M), (m_f_login _ _ M), (m_f_shell _ _ M), (m_f_set_home _ _ M),
    (m_f_preserve_env _ _ M), (m_f_preserve_groups _ _ M), (m_f_reset _ _ M),
    (m_f_noninteractive _ _ M), (m_f_class _ _ M), (m_f_role _ _ M), (m_f_type _ _ M),
    (m_f_auth _ _ M), (m_f_close_from _ _ M).
  split.
  - intros (f1 & f2 & f3 & f4 & f5 & f6 & f7 & f8 & f9 & f10 & f11 & f12 & f13 & f14 & f15 & f16 & -> & H1
      & H2 & H3 & H4 & H5 & H6 & H7 & H8 & H9 & H10 & H11 & H12 & H13 & H14 & H15 & H16).
    apply ShownWith_iff in H2, H3, H4, H12, H13, H14, H15.
    apply Shown_iff in H5, H6, H7, H8, H9, H10, H11.
    assert (E1 : f1 = flag_if (rq_f_sudoedit rq && negb (bytes_eqb (rq_progname rq) (B "sudoedit"))) "--edit").
    { destruct H1 as [[Hn H1]|[He ->]].
      - apply bytes_eqb_neq in Hn. rewrite Hn. apply Shown_iff in H1. cbn [negb].
        rewrite andb_true_r. exact H1.
      - rewrite He, bytes_eqb_refl. cbn [negb]. rewrite andb_false_r. reflexivity. }
    assert (E16 : f16 = flag_arg "--close-from " (match rq_f_close_from rq with Some n => Some (to_dec n) | None => None end)).
    { destruct H16 as [(n & t & -> & Ht & ->)|(-> & ->)]; [|reflexivity].
      apply Decimal_iff in Ht as ->. reflexivity. }
    subst. rewrite <- !app_assoc. reflexivity.
  - intros ->. do 16 eexists. split; [|split; [|split; [|split; [|split; [|split; [|split; [|split; [|split;
      [|split; [|split; [|split; [|split; [|split; [|split; [|split]]]]]]]]]]]]]]].
    2: { instantiate (1 := flag_if (rq_f_sudoedit rq && negb (bytes_eqb (rq_progname rq) (B "sudoedit"))) "--edit").
         destruct (bytes_eqb (rq_progname rq) (B "sudoedit")) eqn:E.
         - right. apply bytes_eqb_eq in E. split; [exact E|]. cbn [negb]. rewrite andb_false_r. reflexivity.
         - left. apply bytes_eqb_neq in E. split; [exact E|]. apply Shown_iff. cbn [negb].
           rewrite andb_true_r. reflexivity. }
    2-4: apply ShownWith_iff; reflexivity.
    2-8: apply Shown_iff; reflexivity.
    2-5: apply ShownWith_iff; reflexivity.
    2: { instantiate (1 := flag_arg "--close-from " (match rq_f_close_from rq with Some n => Some (to_dec n) | None => None end)).
         destruct (rq_f_close_from rq) as [n|]; [left|right; auto].
         exists n, (to_dec n). split; [reflexivity|]. split; [apply to_dec_Decimal|reflexivity]. }
    cbn [app]. rewrite <- !app_assoc. reflexivity.
Qed.

Lemma Invocation_iff e rq line : Matches e rq -> (Invocation rq line <-> line = invocation e).
Proof.
  intros M. unfold Invocation. split.
  - intros (ws & Hw & Hs). apply (InvocationWords_iff e rq ws M) in Hw as ->.
    eapply Spaced_unique; [exact Hs|apply invocation_Spaced].
  - intros ->. exists (words_of e). split; [apply (InvocationWords_iff e rq _ M); reflexivity|apply invocation_Spaced].
Qed.

(** ** Directives *)
Definition pair0 (e : io_env) : sudo_pair := mkSudoPair e (plugin_options_from (en_plugin_options e)) None.

Definition directive (e : io_env) (c : byte) : bytes := meaning (template_spec (pair0 e)) c.

Lemma Directive_iff e rq c x : Matches e rq -> (Directive rq c x <-> x = directive e c).
Proof.
  intros M. unfold directive, template_spec, pair0. rewrite !meaning_replace.
  cbn [sp_env sp_options].
  unfold binary_name. rewrite (m_options _ _ M). cbn [po_binary_path].
  rewrite (m_cols _ _ M), (m_user _ _ M), (m_uid _ _ M), (m_pid _ _ M), (m_gid _ _ M), (m_lines _ _ M),
    (m_host _ _ M). unfold env_cwd. rewrite (m_policy_cwd _ _ M), (m_user_cwd _ _ M).
  split.
  - intros H. destruct H as [n H|H| |line H|d H|H| |t H|t H|t H|t H| |t H|c H].
    + cbn. apply file_name_iff in H. rewrite H. reflexivity.
    + cbn. destruct (path_file_name (rq_binary_path rq)) as [n|] eqn:E; [|reflexivity].
      apply file_name_iff in E. exfalso. exact (H n E).
    + reflexivity.
    + cbn. apply (Invocation_iff e rq _ M). exact H.
    + cbn. rewrite H. reflexivity.
    + cbn. rewrite H. reflexivity.
    + reflexivity.
    + cbn. apply Decimal_iff. exact H.
    + cbn. apply Decimal_iff. exact H.
    + cbn. apply Decimal_iff. exact H.
    + cbn. apply Decimal_iff. exact H.
    + reflexivity.
    + cbn. apply Decimal_iff. exact H.
    + repeat match goal with
      | |- context [byte_eqb ?k c] =>
          let E := fresh "E" in
          destruct (byte_eqb k c) eqn:E;
          [apply byte_eqb_eq in E; subst c; exfalso; apply H; cbn; tauto|]
      end. reflexivity.
  - intros ->.
    repeat match goal with
    | |- Directive _ _ (if byte_eqb ?k ?c then _ else _) =>
        let E := fresh "E" in destruct (byte_eqb k c) eqn:E; [apply byte_eqb_eq in E; subst c|]
    end.
    + apply D_W. apply to_dec_Decimal.
    + apply D_U.
    + apply D_u. apply to_dec_Decimal.
    + apply D_p. apply to_dec_Decimal.
    + apply D_g. apply to_dec_Decimal.
    + apply D_H. apply to_dec_Decimal.
    + apply D_h.
    + destruct (rq_policy_cwd rq) as [d|] eqn:Ed; [apply D_d|apply D_d']; exact Ed.
    + apply D_C. apply (Invocation_iff e rq _ M). reflexivity.
    + apply D_B.
    + destruct (path_file_name (rq_binary_path rq)) as [n|] eqn:En.
      * apply D_b. apply file_name_iff. exact En.
      * apply D_b'. intros n Hn. apply file_name_iff in Hn. congruence.
    + apply D_other. cbn. intros H.
      repeat match goal with H : byte_eqb ?k c = false |- _ => apply byte_eqb_neq in H end.
      intuition congruence.
Qed.

Lemma prompt_iff e rq t out : Matches e rq ->
  (Expands "%" (Directive rq) t out <-> out = expand (template_spec (pair0 e)) t).
Proof.
  intros M. change "%"%byte with (sp_escape (template_spec (pair0 e))).
  apply Expands_expand. intros c x. apply (Directive_iff e rq c x M).
Qed.

(** ** Exemption *)
Lemma mem_z_iff x l : mem_z x l = true <-> In x l.
Proof.
  unfold mem_z. rewrite existsb_exists. split.
  - intros (y & Hy & E). apply Z.eqb_eq in E as ->. exact Hy.
  - intros H. exists x. split; [exact H|apply Z.eqb_refl].
Qed.

Lemma intersects_iff a b : intersects a b = true <-> Meets a b.
Proof.
  unfold intersects, Meets. rewrite existsb_exists. split.
  - intros (x & Hx & H). apply mem_z_iff in H. eauto.
  - intros (x & Hx & H). exists x. split; [exact Hx|]. apply mem_z_iff. exact H.
Qed.

Lemma bool_false_iff (b : bool) (P : Prop) : (b = true <-> P) -> (b = false <-> ~ P).
Proof. destruct b; intuition congruence. Qed.

Definition gained (rq : request) : list Z :=
  rq_to_gid rq :: match rq_to_groups rq with Some l => l | None => rq_groups rq end.

Lemma GainsGroup_in rq g : GainsGroup rq g <-> In g (gained rq).
Proof. unfold GainsGroup, gained. cbn. intuition congruence. Qed.

(** The assertions of debug builds about what sudo says: supplementary groups
    are listed exactly when they are not preserved, and a request that changes
    nothing lists exactly the user's own groups. *)
Definition Consistent (rq : request) : Prop :=
  (rq_preserve_groups rq = true <-> rq_to_groups rq = None)
  /\ (rq_uid rq = rq_to_uid rq -> rq_gid rq = rq_to_gid rq ->
      forall g, GainsGroup rq g <-> In g (rq_groups rq)).

Section Exemption.
Variables (e : io_env) (rq : request) (pl : platform).
Hypothesis M : Matches e rq.
Let s := pair0 e.

Lemma from_root_iff : is_sudoing_from_root s = true <-> rq_uid rq = rq_euid rq.
Proof.
  unfold is_sudoing_from_root, s, pair0; cbn [sp_env].
  rewrite (m_uid _ _ M), (m_euid _ _ M). apply Z.eqb_eq.
Qed.

Lemma to_user_iff : is_sudoing_to_user s = true <-> rq_uid rq <> rq_to_uid rq.
Proof.
  unfold is_sudoing_to_user, s, pair0; cbn [sp_env].
  rewrite (m_uid _ _ M), (m_to_uid _ _ M), negb_true_iff. apply Z.eqb_neq.
Qed.

Lemma to_group_iff : is_sudoing_to_group s = true <-> rq_gid rq <> rq_to_gid rq.
Proof.
  unfold is_sudoing_to_group, s, pair0; cbn [sp_env].
  rewrite (m_gid _ _ M), (m_to_gid _ _ M), negb_true_iff. apply Z.eqb_neq.
Qed.

Lemma explicit_group_iff : is_sudoing_to_explicit_group s = true <-> rq_f_group rq <> None.
Proof.
  unfold is_sudoing_to_explicit_group, s, pair0; cbn [sp_env].
  rewrite (m_f_group _ _ M). destruct (rq_f_group rq); cbn; intuition congruence.
Qed.

Lemma approval_iff : is_sudoing_approval_command s = true <-> SamePath (rq_command rq) (rq_binary_path rq).
Proof.
  unfold is_sudoing_approval_command, s, pair0; cbn [sp_env sp_options].
  rewrite (m_command _ _ M), (m_options _ _ M). symmetry. apply SamePath_iff.
Qed.

Lemma no_logging_iff : is_exempted_from_logging s = true <->
  rq_log rq Ttyout = false /\ rq_log rq Stdout = false /\ rq_log rq Stderr = false.
Proof.
  unfold is_exempted_from_logging, s, pair0; cbn [sp_env].
  rewrite <- (m_log _ _ M Ttyout), <- (m_log _ _ M Stdout), <- (m_log _ _ M Stderr). cbn [hint].
  rewrite !andb_true_iff, !negb_true_iff. tauto.
Qed.

Lemma exempted_gid_iff : is_sudoing_from_exempted_gid s = true <-> Meets (rq_exempted rq) (rq_groups rq).
Proof.
  unfold is_sudoing_from_exempted_gid, s, pair0; cbn [sp_env sp_options].
  rewrite (m_options _ _ M), (m_groups _ _ M). apply intersects_iff.
Qed.

Lemma runas_gids_gained gs : runas_gids pl e = Some gs -> gs = gained rq.
Proof.
  unfold runas_gids. destruct (_ && _); [discriminate|]. intros H. injection H as <-.
  unfold gained. rewrite (m_to_gid _ _ M), (m_to_groups _ _ M), (m_groups _ _ M). reflexivity.
Qed.

Lemma runas_gids_release : pl_debug pl = false -> runas_gids pl e = Some (gained rq).
Proof.
  intros H. destruct (runas_gids pl e) as [gs|] eqn:E; [rewrite (runas_gids_gained gs E); reflexivity|].
  unfold runas_gids in E. rewrite H in E. discriminate.
Qed.

Lemma runas_gids_None : runas_gids pl e = None <->
  pl_debug pl = true /\ ~ (rq_preserve_groups rq = true <-> rq_to_groups rq = None).
Proof.
  unfold runas_gids. rewrite (m_preserve_groups _ _ M), (m_to_groups _ _ M).
  destruct (pl_debug pl), (rq_preserve_groups rq), (rq_to_groups rq); cbn;
    intuition try congruence; exfalso; intuition congruence.
Qed.

Lemma enforced_iff b : is_sudoing_to_enforced_gid s pl = Some b ->
  (b = false <-> forall g, In g (rq_enforced rq) -> ~ GainsGroup rq g).
Proof.
  unfold is_sudoing_to_enforced_gid, s, pair0; cbn [sp_env sp_options].
  destruct (runas_gids pl e) as [gs|] eqn:E; [|discriminate].
  apply runas_gids_gained in E as ->. rewrite (m_options _ _ M). intros H. injection H as <-.
  cbn [po_gids_enforced].
  rewrite (bool_false_iff _ _ (intersects_iff (rq_enforced rq) (gained rq))). unfold Meets. split.
  - intros H g Hg Hin. apply H. exists g. rewrite <- GainsGroup_in. auto.
  - intros H (g & Hg & Hin). apply (H g Hg). apply GainsGroup_in. exact Hin.
Qed.

Lemma themselves_true : is_sudoing_to_themselves s pl = Some true ->
  rq_uid rq = rq_to_uid rq /\ rq_gid rq = rq_to_gid rq.
Proof.
  unfold is_sudoing_to_themselves.
  destruct (is_sudoing_to_user s) eqn:E1; [cbn; discriminate|].
  destruct (is_sudoing_to_group s) eqn:E2; [cbn; discriminate|]. intros _.
  apply (bool_false_iff _ _ to_user_iff) in E1. apply (bool_false_iff _ _ to_group_iff) in E2. lia.
Qed.

Lemma themselves_false : is_sudoing_to_themselves s pl = Some false ->
  ~ (rq_uid rq = rq_to_uid rq /\ rq_gid rq = rq_to_gid rq).
Proof.
  unfold is_sudoing_to_themselves.
  destruct (is_sudoing_to_user s) eqn:E1.
  { intros _ [H _]. apply to_user_iff in E1. auto. }
  destruct (is_sudoing_to_group s) eqn:E2.
  { intros _ [_ H]. apply to_group_iff in E2. auto. }
  cbn. destruct (pl_debug pl); [|discriminate]. destruct (runas_gids _ _); [|discriminate].
  destruct (_ && _); discriminate.
Qed.

Lemma is_exempt_sound b : is_exempt s pl = Some b -> (b = true <-> Exempt rq).
Proof.
  unfold is_exempt, Exempt.
  destruct (is_sudoing_from_root s) eqn:E1.
  { intros H. injection H as <-. apply from_root_iff in E1. tauto. }
  apply (bool_false_iff _ _ from_root_iff) in E1.
  destruct (is_sudoing_to_themselves s pl) as [[|]|] eqn:E2; [| |discriminate].
  { intros H. injection H as <-. apply themselves_true in E2. tauto. }
  apply themselves_false in E2.
  destruct (is_sudoing_approval_command s) eqn:E3.
  { intros H. injection H as <-. apply approval_iff in E3. tauto. }
  apply (bool_false_iff _ _ approval_iff) in E3.
  destruct (is_exempted_from_logging s) eqn:E4.
  { intros H. injection H as <-. apply no_logging_iff in E4. tauto. }
  apply (bool_false_iff _ _ no_logging_iff) in E4.
  destruct (is_sudoing_from_exempted_gid s) eqn:E5.
  { intros H. injection H as <-. apply exempted_gid_iff in E5. tauto. }
  apply (bool_false_iff _ _ exempted_gid_iff) in E5.
  destruct (is_sudoing_to_enforced_gid s pl) as [b'|] eqn:E6; [|discriminate].
  intros H. injection H as <-. apply enforced_iff in E6. rewrite negb_true_iff. tauto.
Qed.

Lemma subset_z_iff a b : subset_z a b = true <-> forall g, In g a -> In g b.
Proof.
  unfold subset_z. rewrite forallb_forall. split; intros H g Hg.
  - apply mem_z_iff. apply H. exact Hg.
  - apply mem_z_iff. apply H. exact Hg.
Qed.

Lemma is_exempt_None : is_exempt s pl = None -> pl_debug pl = true /\ ~ Consistent rq.
Proof.
  unfold is_exempt, Consistent.
  destruct (is_sudoing_from_root s); [discriminate|].
  destruct (is_sudoing_to_themselves s pl) as [[|]|] eqn:E2; [discriminate| |].
  - destruct (is_sudoing_approval_command s); [discriminate|].
    destruct (is_exempted_from_logging s); [discriminate|].
    destruct (is_sudoing_from_exempted_gid s); [discriminate|].
    unfold is_sudoing_to_enforced_gid. cbn [sp_env s pair0].
    destruct (runas_gids pl e) eqn:E; [discriminate|]. intros _.
    apply runas_gids_None in E. tauto.
  - intros _. unfold is_sudoing_to_themselves in E2.
    destruct (is_sudoing_to_user s) eqn:Eu; [discriminate|].
    destruct (is_sudoing_to_group s) eqn:Eg; [discriminate|]. cbn [negb andb] in E2.
    destruct (pl_debug pl) eqn:Ed; [|discriminate]. split; [reflexivity|].
    cbn [sp_env s pair0] in E2.
    destruct (runas_gids pl e) as [gs|] eqn:E.
    + apply runas_gids_gained in E as ->.
      destruct (subset_z _ _ && subset_z _ _) eqn:Es; [discriminate|].
      intros [_ H]. apply (bool_false_iff _ _ to_user_iff) in Eu. apply (bool_false_iff _ _ to_group_iff) in Eg.
      assert (Hs : subset_z (gained rq) (ui_groups (en_user_info e)) && subset_z (ui_groups (en_user_info e)) (gained rq) = true).
      { rewrite andb_true_iff, !subset_z_iff, (m_groups _ _ M).
        split; intros g Hg; [apply H|apply GainsGroup_in, H]; auto; try lia.
        apply GainsGroup_in. exact Hg. }
      congruence.
    + apply runas_gids_None in E. tauto.
Qed.

Lemma is_exempt_release : pl_debug pl = false -> exists b, is_exempt s pl = Some b.
Proof.
  intros H. destruct (is_exempt s pl) as [b|] eqn:E; [eauto|].
  apply is_exempt_None in E. intuition congruence.
Qed.

Lemma both_iff : is_sudoing_to_user_and_group s = true <->
  rq_uid rq <> rq_to_uid rq /\ rq_f_group rq <> None.
Proof.
  unfold is_sudoing_to_user_and_group. rewrite andb_true_iff.
  rewrite to_user_iff, explicit_group_iff. tauto.
Qed.
End Exemption.

(** ** The socket path *)
Definition sock_name (uid pid : Z) : bytes := to_dec uid ++ B "." ++ to_dec pid ++ B ".sock".

Lemma not_in_dec n b : ~ IsDigit b -> b <> "-"%byte -> ~ In b (to_dec n).
Proof. intros H1 H2 H. apply to_dec_bytes in H as [H|H]; auto. Qed.

Lemma dot_not_in_dec n : ~ In "."%byte (to_dec n).
Proof. apply not_in_dec; [intros [H1 H2]; vm_compute in H1, H2; auto|discriminate]. Qed.

Lemma slash_not_in_dec n : ~ In slash (to_dec n).
Proof. apply not_in_dec; [intros [H1 H2]; vm_compute in H1, H2; auto|discriminate]. Qed.

Lemma nul_not_in_dec n : ~ In x00 (to_dec n).
Proof. apply not_in_dec; [intros [H1 H2]; vm_compute in H1, H2; auto|discriminate]. Qed.

Lemma sock_name_inj u p u' p' : sock_name u p = sock_name u' p' -> u = u' /\ p = p'.
Proof.
  unfold sock_name. intros H.
  change (to_dec u ++ "."%byte :: to_dec p ++ B ".sock" = to_dec u' ++ "."%byte :: to_dec p' ++ B ".sock") in H.
  apply first_split_unique in H as [H1 H2]; try apply dot_not_in_dec.
  apply to_dec_inj in H1. split; [exact H1|].
  change (B ".sock") with ("."%byte :: B "sock") in H2.
  apply first_split_unique in H2 as [H2 _]; try apply dot_not_in_dec.
  apply to_dec_inj. exact H2.
Qed.

Lemma sock_name_ok u p : sock_name u p <> [] /\ sock_name u p <> B "." /\ sock_name u p <> B ".."
  /\ ~ In slash (sock_name u p).
Proof.
  assert (L : (5 < List.length (sock_name u p))%nat).
  { unfold sock_name. rewrite !app_length.
    change (List.length (B ".")) with 1%nat. change (List.length (B ".sock")) with 5%nat. lia. }
  repeat split; try (intros E; rewrite E in L; cbn in L; lia).
  unfold sock_name. intros H.
  repeat (apply in_app_or in H; destruct H as [H|H]); try (eapply slash_not_in_dec; exact H).
  - cbn in H. intuition discriminate.
  - cbn in H. intuition discriminate.
Qed.
