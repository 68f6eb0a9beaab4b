(** Facts about the arguments of the approval script. *)
From Coq Require Import Lia.
From Verif Require Import Base BaseLemmas Num NumProofs Script Spec PairPure ScriptFacts ArithSpec.
Local Open Scope Z_scope.

Lemma radix_snoc r l c : forall acc,
  radix_value r acc (l ++ [c]) = match radix_value r acc l with Some v => radix_value r v [c] | None => None end.
Proof.
  induction l as [|b l IH]; intros acc; [reflexivity|]. cbn [app radix_value].
  destruct (digit b) as [d|]; [|reflexivity]. destruct (d <? r); [apply IH|reflexivity].
Qed.

Lemma radix_iff r l : forall v, radix_value r 0 l = Some v <-> InRadix r l v.
Proof.
  induction l as [|c l IH] using rev_ind; intros v.
  - split; [intros [= <-]; constructor|]. intros H. inversion H as [|l0 ? ? ? ? ? E]; [reflexivity|]. destruct l0; discriminate.
  - rewrite radix_snoc. split.
    + destruct (radix_value r 0 l) as [u|] eqn:E; [|discriminate]. cbn [radix_value].
      destruct (digit c) as [d|] eqn:D; [|discriminate]. apply digit_Some in D as [D ->].
      destruct (bz c - 48 <? r) eqn:L; [|discriminate]. intros [= <-]. apply Z.ltb_lt in L.
      replace (u * r + (bz c - 48)) with (r * u + (bz c - 48)) by lia. constructor; [apply IH; reflexivity|assumption|assumption].
    + intros H. inversion H as [E|l0 u c0 H1 H2 H3 E]; [destruct l; discriminate|].
      apply app_inj_tail in E as [-> ->]. apply IH in H1. rewrite H1. cbn [radix_value].
      rewrite (proj2 (digit_Some c (bz c - 48)) (conj H2 eq_refl)). apply Z.ltb_lt in H3. rewrite H3. f_equal. lia.
Qed.

Lemma wrap64_iff v z : wrap64 v = z <-> In64 v z.
Proof.
  unfold wrap64, In64. pose proof (Z.div_mod (v + 9223372036854775808) 18446744073709551616 ltac:(lia)) as E.
  pose proof (Z.mod_pos_bound (v + 9223372036854775808) 18446744073709551616 ltac:(lia)) as H.
  split.
  - intros <-. split; [lia|]. exists (- ((v + 9223372036854775808) / 18446744073709551616)). lia.
  - intros [R [k K]]. assert (X : (v + 9223372036854775808) mod 18446744073709551616 = z + 9223372036854775808).
    { symmetry. apply Z.mod_unique with (q := - k); lia. }
    rewrite X. lia.
Qed.

Lemma numeral_iff l z : bash_numeral l = Some z <-> exists v, Unsigned l v /\ In64 v z.
Proof.
  assert (W : forall o, option_map wrap64 o = Some z <-> exists v, o = Some v /\ In64 v z).
  { intros [v|]; cbn [option_map]; split.
    - intros [= <-]. exists v. split; [reflexivity|]. apply wrap64_iff. reflexivity.
    - intros (v' & [= <-] & K). apply wrap64_iff in K. rewrite K. reflexivity.
    - discriminate.
    - intros (v & E & _). discriminate. }
  destruct l as [|c l]; cbn [bash_numeral].
  - split.
    + intros [= <-]. exists 0. split; [constructor|]. apply wrap64_iff. reflexivity.
    + intros (v & H & K). inversion H; subst. apply wrap64_iff in K. rewrite <- K. reflexivity.
  - destruct (byte_eqb c "0" && negb (is_nil l)) eqn:E; rewrite W; split; intros (v & H & K); exists v; split; try exact K.
    + apply andb_true_iff in E as [E1 E2]. apply byte_eqb_eq in E1. subst c. apply U_octal; [intros ->; discriminate|].
      apply radix_iff. exact H.
    + apply andb_true_iff in E as [E1 E2]. apply byte_eqb_eq in E1. subst c. apply radix_iff.
      inversion H; subst; [assumption|]. match goal with X : _ -> l = [] |- _ => rewrite (X eq_refl) in E2 end. discriminate.
    + apply U_decimal; [|apply radix_iff; exact H]. intros ->. rewrite byte_eqb_refl in E. destruct l; [reflexivity|discriminate].
    + apply radix_iff. inversion H; subst; [|assumption]. rewrite byte_eqb_refl in E. destruct l; [congruence|discriminate].
Qed.

Lemma arith_number l z : bash_arith l = ANumber z <-> Means l z.
Proof.
  unfold bash_arith.
  assert (X : forall o, (match o with Some z => ANumber z | None => match subscript l with Some cmd => ARuns cmd | None => AUnknown end end = ANumber z)
    <-> o = Some z).
  { intros [v|]; split; [intros [= ->]; reflexivity|intros [= ->]; reflexivity| |discriminate]. destruct (subscript l); discriminate. }
  rewrite X. clear X. destruct l as [|c r].
  - rewrite numeral_iff. split.
    + intros (v & H & K). exact (M_plain _ _ _ H K).
    + intros H. inversion H; subst. eauto.
  - destruct (byte_eqb c "-" && negb (is_nil r)) eqn:E.
    + apply andb_true_iff in E as [E1 E2]. apply byte_eqb_eq in E1. subst c. split.
      * destruct (bash_numeral r) as [u|] eqn:N; [|discriminate]. cbn [option_map]. intros [= K].
        apply numeral_iff in N as (v & HU & HK). eapply M_minus; [intros ->; discriminate|exact HU|].
        apply wrap64_iff in K as [K0 [k1 K1]]. destruct HK as [_ [k2 K2]]. split; [exact K0|]. exists (k1 - k2). lia.
      * intros H. inversion H as [l v z0 HU HK|l v z0 HN HU HK]; subst.
        -- exfalso. inversion HU as [| |c l v0 H1 H2]; subst. apply radix_iff in H2. cbn in H2. discriminate.
        -- assert (N : bash_numeral r = Some (wrap64 v)) by (apply numeral_iff; exists v; split; [exact HU|apply wrap64_iff; reflexivity]).
           rewrite N. cbn [option_map]. f_equal. apply wrap64_iff. destruct HK as [K0 [k K]]. split; [exact K0|].
           pose proof (proj1 (wrap64_iff v _) eq_refl) as [_ [k2 K2]]. exists (k + k2). lia.
    + rewrite numeral_iff. split.
      * intros (v & H & K). exact (M_plain _ _ _ H K).
      * intros H. inversion H as [l v z0 HU HK|l v z0 HN HU HK]; subst; [eauto|].
        rewrite byte_eqb_refl in E. destruct r; [congruence|discriminate].
Qed.

Lemma alpha_iff b : is_alpha b = true <-> Letter b.
Proof.
  unfold is_alpha, Letter. rewrite !orb_true_iff, !andb_true_iff, !Z.leb_le, Z.eqb_eq.
  assert (X : bz b = 95 <-> b = "_"%byte) by (split; [intros H; apply bz_inj; exact H|intros ->; reflexivity]). tauto.
Qed.

Lemma letters_not_numeral name rest : name <> [] -> Forall Letter name -> forall z, ~ Means (name ++ rest) z.
Proof.
  intros N F z H. destruct name as [|c name]; [congruence|]. inversion F as [|? ? L _]; subst. cbn [app] in H.
  assert (ND : ~ IsDigit c) by (unfold IsDigit; destruct L as [L|[L| ->]]; [lia|lia|cbv; intuition lia]).
  inversion H as [l v z0 HU HK|l v z0 HN HU HK]; subst.
  - inversion HU as [|l v0 H1 H2|c0 l v0 H1 H2]; subst.
    + apply ND. cbv. intuition discriminate.
    + apply radix_iff in H2. cbn [radix_value] in H2. destruct (digit c) eqn:D; [|discriminate]. apply digit_Some in D as [D _]. exact (ND D).
  - destruct L as [L|[L|L]]; [cbv in L; intuition|cbv in L; intuition|discriminate].
Qed.

Lemma subscript_iff l cmd : subscript l = Some cmd <-> Runs l cmd.
Proof.
  unfold subscript, Runs. split.
  - destruct (span (fun b => negb (is_alpha b)) l) as [name rest] eqn:S.
    destruct name as [|n name]; [discriminate|]. cbn [is_nil].
    destruct rest as [|x1 [|x2 [|x3 r]]]; try discriminate.
    destruct (byte_eqb x1 "[" && byte_eqb x2 "$" && byte_eqb x3 "(") eqn:E; [|discriminate].
    apply andb_true_iff in E as [E E3]. apply andb_true_iff in E as [E1 E2].
    apply byte_eqb_eq in E1, E2, E3. subst x1 x2 x3.
    destruct (span (fun x => byte_eqb x "(" || byte_eqb x ")") r) as [cmd' tl] eqn:S2.
    destruct (bytes_eqb tl (B ")]")) eqn:ET; [|discriminate]. intros [= ->]. apply bytes_eqb_eq in ET. subst tl.
    exists (n :: name). split; [rewrite (span_app _ _ _ _ S), (span_app _ _ _ _ S2); reflexivity|]. split; [discriminate|].
    split; [eapply Forall_impl; [|exact (span_fst _ _ _ _ S)]; intros b Hb; apply alpha_iff; apply negb_false_iff; exact Hb|].
    pose proof (span_fst _ _ _ _ S2) as F. rewrite Forall_forall in F.
    split; intros I; specialize (F _ I); discriminate.
  - intros (name & -> & N & F & P1 & P2).
    rewrite (span_intro (fun b => negb (is_alpha b)) name (B "[$(" ++ cmd ++ B ")]")).
    2: { eapply Forall_impl; [|exact F]. intros b Hb. apply negb_false_iff. apply alpha_iff. exact Hb. }
    2: { reflexivity. }
    destruct name as [|n name]; [congruence|]. cbn [is_nil].
    change (B "[$(" ++ cmd ++ B ")]") with ("["%byte :: "$"%byte :: "("%byte :: (cmd ++ B ")]")). cbv iota.
    change (byte_eqb "[" "[" && byte_eqb "$" "$" && byte_eqb "(" "(") with true. cbv iota.
    rewrite (span_intro (fun x => byte_eqb x "(" || byte_eqb x ")") cmd (B ")]")).
    + reflexivity.
    + apply Forall_forall. intros x I. apply orb_false_iff.
      split; apply byte_eqb_neq; intros ->; contradiction.
    + reflexivity.
Qed.

Lemma arith_runs l cmd : bash_arith l = ARuns cmd <-> Runs l cmd.
Proof.
  rewrite <- subscript_iff. split.
  - unfold bash_arith. destruct (match l with [] => _ | _ => _ end) as [z|]; [discriminate|].
    destruct (subscript l); [|discriminate]. intros [= ->]. reflexivity.
  - intros H. pose proof H as R. apply subscript_iff in R. destruct R as (name & E & N & F & _).
    destruct (bash_arith l) as [z|c|] eqn:A.
    + apply arith_number in A. rewrite E in A. exfalso. exact (letters_not_numeral _ _ N F _ A).
    + unfold bash_arith in A. destruct (match l with [] => _ | _ => _ end) as [z|]; [discriminate|]. rewrite H in A. exact (eq_sym A).
    + unfold bash_arith in A. destruct (match l with [] => _ | _ => _ end) as [z|]; [discriminate|]. rewrite H in A. discriminate.
Qed.

Lemma commands_exactly uid pid cmds : script_commands uid pid = Some cmds <->
  (exists c, Runs uid c /\ cmds = [c])
  \/ (exists u c, Means uid u /\ Runs pid c /\ cmds = [c])
  \/ (exists u p, Means uid u /\ Means pid p /\ cmds = []).
Proof.
  unfold script_commands. split.
  - destruct (bash_arith uid) as [u|c|] eqn:U; [|intros [= <-]; left; exists c; split; [apply arith_runs; exact U|reflexivity]|discriminate].
    apply arith_number in U. destruct (bash_arith pid) as [p|c|] eqn:P; intros [= <-].
    + apply arith_number in P. eauto 9.
    + apply arith_runs in P. eauto 9.
  - intros [(c & U & ->)|[(u & c & U & P & ->)|(u & p & U & P & ->)]].
    + apply arith_runs in U. rewrite U. reflexivity.
    + apply arith_number in U. apply arith_runs in P. rewrite U, P. reflexivity.
    + apply arith_number in U. apply arith_number in P. rewrite U, P. reflexivity.
Qed.

Lemma socket_exactly uid pid s : script_socket uid pid = Some s <->
  exists u p du dp, Means uid u /\ Means pid p /\ Decimal u du /\ Decimal p dp
    /\ s = B "/var/run/sudo_pair/" ++ du ++ B "." ++ dp ++ B ".sock".
Proof.
  unfold script_socket. split.
  - destruct (bash_arith uid) as [u|c|] eqn:U; try discriminate. destruct (bash_arith pid) as [p|c|] eqn:P; try discriminate.
    intros [= <-]. exists u, p, (to_dec u), (to_dec p). apply arith_number in U, P.
    split; [exact U|]. split; [exact P|]. split; [apply Decimal_iff; reflexivity|]. split; [apply Decimal_iff; reflexivity|]. reflexivity.
  - intros (u & p & du & dp & U & P & DU & DP & ->). apply arith_number in U, P. rewrite U, P.
    apply Decimal_iff in DU, DP. subst. reflexivity.
Qed.
