(** Lemmas about the vocabulary of Base.v. *)
From Verif Require Import Base.
Local Open Scope Z_scope.

Global Arguments Z.mul : simpl never.
Global Arguments Z.add : simpl never.
Global Arguments Z.sub : simpl never.
Global Arguments Z.opp : simpl never.
Global Arguments Z.pow : simpl never.
Global Arguments Z.div : simpl never.
Global Arguments Z.modulo : simpl never.
Global Arguments Z.land : simpl never.
Global Arguments Z.lor : simpl never.
Global Arguments Z.ldiff : simpl never.
Global Arguments Z.of_nat : simpl never.
Global Arguments Z.to_nat : simpl never.
Global Arguments Z.leb : simpl never.
Global Arguments Z.ltb : simpl never.
Global Arguments Z.eqb : simpl never.
Global Arguments bz : simpl never.
Global Arguments zb : simpl never.

Lemma byte_eqb_eq a b : byte_eqb a b = true <-> a = b.
Proof.
  unfold byte_eqb. split.
  - intros H. apply Byte.byte_dec_bl. exact H.
  - intros ->. apply Byte.byte_dec_lb. reflexivity.
Qed.

Lemma byte_eqb_refl a : byte_eqb a a = true.
Proof. apply byte_eqb_eq. reflexivity. Qed.

Lemma byte_eqb_neq a b : byte_eqb a b = false <-> a <> b.
Proof.
  split.
  - intros H E. apply byte_eqb_eq in E. congruence.
  - intros H. destruct (byte_eqb a b) eqn:E; [|reflexivity].
    apply byte_eqb_eq in E. contradiction.
Qed.

Lemma byte_eqb_sym a b : byte_eqb a b = byte_eqb b a.
Proof.
  destruct (byte_eqb a b) eqn:E.
  - apply byte_eqb_eq in E as ->. symmetry. apply byte_eqb_refl.
  - symmetry. apply byte_eqb_neq. apply byte_eqb_neq in E. congruence.
Qed.

Lemma bytes_eqb_eq a b : bytes_eqb a b = true <-> a = b.
Proof.
  revert b. induction a as [|x a IH]; intros [|y b]; cbn; split; try congruence; try reflexivity.
  - intros H. apply andb_true_iff in H as [H1 H2].
    apply byte_eqb_eq in H1 as ->. apply IH in H2 as ->. reflexivity.
  - intros H. injection H as -> ->. apply andb_true_iff. split.
    + apply byte_eqb_refl. + apply IH. reflexivity.
Qed.

Lemma bytes_eqb_refl a : bytes_eqb a a = true.
Proof. apply bytes_eqb_eq. reflexivity. Qed.

Lemma bytes_eqb_neq a b : bytes_eqb a b = false <-> a <> b.
Proof.
  split.
  - intros H E. apply bytes_eqb_eq in E. congruence.
  - intros H. destruct (bytes_eqb a b) eqn:E; [|reflexivity].
    apply bytes_eqb_eq in E. contradiction.
Qed.

Lemma bz_range b : 0 <= bz b <= 255.
Proof.
  unfold bz. pose proof (Byte.to_N_bounded b). lia.
Qed.

Lemma zb_bz b : zb (bz b) = b.
Proof.
  unfold zb, bz. rewrite N2Z.id. rewrite Byte.of_to_N. reflexivity.
Qed.

Lemma bz_zb z : 0 <= z <= 255 -> bz (zb z) = z.
Proof.
  intros H. unfold zb, bz.
  destruct (Byte.of_N (Z.to_N z)) as [b|] eqn:E.
  - apply Byte.to_of_N in E. rewrite E. lia.
  - apply Byte.of_N_None_iff in E. lia.
Qed.

Lemma bz_inj a b : bz a = bz b -> a = b.
Proof. intros H. rewrite <- (zb_bz a), <- (zb_bz b), H. reflexivity. Qed.

Lemma zb_inj x y : 0 <= x <= 255 -> 0 <= y <= 255 -> zb x = zb y -> x = y.
Proof. intros Hx Hy H. rewrite <- (bz_zb x Hx), <- (bz_zb y Hy), H. reflexivity. Qed.

(** [span] *)
Lemma span_app p l : forall a b, span p l = (a, b) -> l = a ++ b.
Proof.
  induction l as [|x l IH]; cbn; intros a b H.
  - injection H as <- <-. reflexivity.
  - destruct (p x).
    + injection H as <- <-. reflexivity.
    + destruct (span p l) as [a' b']. injection H as <- <-. cbn. f_equal. apply IH. reflexivity.
Qed.

Lemma span_fst p l : forall a b, span p l = (a, b) -> Forall (fun x => p x = false) a.
Proof.
  induction l as [|x l IH]; cbn; intros a b H.
  - injection H as <- <-. constructor.
  - destruct (p x) eqn:E.
    + injection H as <- <-. constructor.
    + destruct (span p l) as [a' b']. injection H as <- <-. constructor; [exact E|].
      eapply IH. reflexivity.
Qed.

Lemma span_snd p l : forall a x b, span p l = (a, x :: b) -> p x = true.
Proof.
  induction l as [|y l IH]; cbn; intros a x b H.
  - discriminate.
  - destruct (p y) eqn:E.
    + injection H as <- <- <-. exact E.
    + destruct (span p l) as [a' b']. injection H as <- ->. eapply IH. reflexivity.
Qed.

Lemma span_intro p a b :
  Forall (fun x => p x = false) a ->
  match b with [] => True | x :: _ => p x = true end ->
  span p (a ++ b) = (a, b).
Proof.
  intros Ha Hb. induction Ha as [|x a Hx Ha IH]; cbn.
  - destruct b as [|x b]; cbn; [reflexivity|]. rewrite Hb. reflexivity.
  - rewrite Hx, IH. reflexivity.
Qed.

Lemma Forall_neq_In (c : byte) a :
  Forall (fun x => byte_eqb x c = false) a <-> ~ In c a.
Proof.
  rewrite Forall_forall. split.
  - intros H Hin. specialize (H c Hin). rewrite byte_eqb_refl in H. discriminate.
  - intros H x Hx. apply byte_eqb_neq. intros ->. contradiction.
Qed.

(** Splitting at the first occurrence is unique. *)
Lemma first_split_unique (c : byte) a1 b1 a2 b2 :
  ~ In c a1 -> ~ In c a2 -> a1 ++ c :: b1 = a2 ++ c :: b2 -> a1 = a2 /\ b1 = b2.
Proof.
  revert a2. induction a1 as [|x a1 IH]; intros [|y a2] H1 H2 E; cbn in *.
  - injection E as ->. auto.
  - injection E as -> _. exfalso. apply H2. left. reflexivity.
  - injection E as -> _. exfalso. apply H1. left. reflexivity.
  - injection E as -> E. apply IH in E as [-> ->]; auto.
Qed.

(** [split_on] and [join_with] *)
Lemma split_on_nonempty sep l : split_on sep l <> [].
Proof.
  destruct l as [|x l]; cbn; [discriminate|].
  destruct (byte_eqb x sep); [discriminate|].
  destruct (split_on sep l); discriminate.
Qed.

Lemma split_on_join sep l : join_with [sep] (split_on sep l) = l.
Proof.
  induction l as [|x l IH]; cbn; [reflexivity|].
  destruct (byte_eqb x sep) eqn:E.
  - apply byte_eqb_eq in E as ->. cbn.
    destruct (split_on sep l) as [|s r] eqn:F.
    + exfalso. eapply split_on_nonempty. exact F.
    + rewrite IH. reflexivity.
  - destruct (split_on sep l) as [|s r] eqn:F.
    + exfalso. eapply split_on_nonempty. exact F.
    + cbn in *. destruct r; cbn in *; rewrite IH; reflexivity.
Qed.

Lemma split_on_pieces sep l : Forall (fun s => ~ In sep s) (split_on sep l).
Proof.
  induction l as [|x l IH]; cbn.
  - constructor; [intros []|constructor].
  - destruct (byte_eqb x sep) eqn:E.
    + constructor; [intros []|exact IH].
    + apply byte_eqb_neq in E.
      destruct (split_on sep l) as [|s r] eqn:F.
      * constructor; [|constructor]. intros [H|[]]. congruence.
      * inversion IH as [|? ? Hs Hr]; subst. constructor; [|exact Hr].
        intros [H|H]; [congruence|contradiction].
Qed.

Lemma split_on_app_sep sep a b :
  ~ In sep a -> split_on sep (a ++ sep :: b) = a :: split_on sep b.
Proof.
  intros H. induction a as [|x a IH]; cbn.
  - rewrite byte_eqb_refl. reflexivity.
  - assert (E : byte_eqb x sep = false).
    { apply byte_eqb_neq. intros ->. apply H. left. reflexivity. }
    rewrite E, IH; [reflexivity|]. intros Hin. apply H. right. exact Hin.
Qed.

Lemma split_on_single sep a : ~ In sep a -> split_on sep a = [a].
Proof.
  intros H. induction a as [|x a IH]; cbn; [reflexivity|].
  assert (E : byte_eqb x sep = false).
  { apply byte_eqb_neq. intros ->. apply H. left. reflexivity. }
  rewrite E, IH; [reflexivity|]. intros Hin. apply H. right. exact Hin.
Qed.
