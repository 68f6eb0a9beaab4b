(** [valid_utf8] accepts exactly the encodings of scalar values. *)
From Coq Require Import ZifyBool.
From Verif Require Import Base BaseLemmas Utf8 Spec.
Local Open Scope Z_scope.
Ltac Zify.zify_post_hook ::= Z.div_mod_to_equations.

Lemma in_range_iff lo hi b : in_range lo hi b = true <-> lo <= bz b <= hi.
Proof. unfold in_range. lia. Qed.

Lemma ok3_iff a b : ok3 a b = true <->
  (bz a = 224 /\ 160 <= bz b <= 191) \/ (225 <= bz a <= 236 /\ 128 <= bz b <= 191)
  \/ (bz a = 237 /\ 128 <= bz b <= 159) \/ (238 <= bz a <= 239 /\ 128 <= bz b <= 191).
Proof. unfold ok3, cont, in_range. lia. Qed.

Lemma ok4_iff a b : ok4 a b = true <->
  (bz a = 240 /\ 144 <= bz b <= 191) \/ (241 <= bz a <= 243 /\ 128 <= bz b <= 191)
  \/ (bz a = 244 /\ 128 <= bz b <= 143).
Proof. unfold ok4, cont, in_range. lia. Qed.

Lemma cont_iff b : cont b = true <-> 128 <= bz b <= 191.
Proof. apply in_range_iff. Qed.

Lemma bool_eq_iff (a b : bool) : (a = true <-> b = true) -> a = b.
Proof. destruct a, b; intuition congruence. Qed.

Lemma encode_valid c s : Scalar c -> valid_utf8 (utf8_encode c ++ s) = valid_utf8 s.
Proof.
  intros [H1 H2]. unfold utf8_encode.
  destruct (c <? 128) eqn:E1; [|destruct (c <? 2048) eqn:E2; [|destruct (c <? 65536) eqn:E3]];
    cbn [app valid_utf8].
  - rewrite bz_zb by lia. destruct (c <=? 127) eqn:E; [reflexivity|lia].
  - set (a := zb (192 + c / 64)). set (b := zb (128 + c mod 64)).
    assert (Ha : bz a = 192 + c / 64) by (apply bz_zb; lia).
    assert (Hb : bz b = 128 + c mod 64) by (apply bz_zb; lia).
    destruct (bz a <=? 127) eqn:E; [lia|].
    destruct (in_range 194 223 a) eqn:F; [|unfold in_range in F; lia].
    destruct (cont b) eqn:G; [reflexivity|]. unfold cont, in_range in G. lia.
  - set (a := zb (224 + c / 4096)). set (b := zb (128 + (c / 64) mod 64)). set (d := zb (128 + c mod 64)).
    assert (Ha : bz a = 224 + c / 4096) by (apply bz_zb; lia).
    assert (Hb : bz b = 128 + (c / 64) mod 64) by (apply bz_zb; lia).
    assert (Hd : bz d = 128 + c mod 64) by (apply bz_zb; lia).
    destruct (bz a <=? 127) eqn:E; [lia|].
    destruct (in_range 194 223 a) eqn:F; [unfold in_range in F; lia|].
    destruct (in_range 224 239 a) eqn:F'; [|unfold in_range in F'; lia].
    assert (G1 : ok3 a b = true) by (apply ok3_iff; lia).
    assert (G2 : cont d = true) by (apply cont_iff; lia).
    rewrite G1, G2. reflexivity.
  - set (a := zb (240 + c / 262144)). set (b := zb (128 + (c / 4096) mod 64)).
    set (d := zb (128 + (c / 64) mod 64)). set (e := zb (128 + c mod 64)).
    assert (Ha : bz a = 240 + c / 262144) by (apply bz_zb; lia).
    assert (Hb : bz b = 128 + (c / 4096) mod 64) by (apply bz_zb; lia).
    assert (Hd : bz d = 128 + (c / 64) mod 64) by (apply bz_zb; lia).
    assert (He : bz e = 128 + c mod 64) by (apply bz_zb; lia).
    destruct (bz a <=? 127) eqn:E; [lia|].
    destruct (in_range 194 223 a) eqn:F; [unfold in_range in F; lia|].
    destruct (in_range 224 239 a) eqn:F'; [unfold in_range in F'; lia|].
    assert (G1 : ok4 a b = true) by (apply ok4_iff; lia).
    assert (G2 : cont d = true) by (apply cont_iff; lia).
    assert (G3 : cont e = true) by (apply cont_iff; lia).
    rewrite G1, G2, G3. reflexivity.
Qed.

Lemma zb_eq b z : z = bz b -> zb z = b.
Proof. intros ->. apply zb_bz. Qed.

Lemma valid_decode n : forall s, (List.length s <= n)%nat -> valid_utf8 s = true -> Utf8 s.
Proof.
  induction n as [|n IH]; intros s Hn Hv.
  { destruct s; [|cbn in Hn; lia]. exists []. split; [constructor|reflexivity]. }
  destruct s as [|a l1]; [exists []; split; [constructor|reflexivity]|].
  assert (step : forall c l, Scalar c -> a :: l1 = utf8_encode c ++ l ->
            (List.length l <= n)%nat -> valid_utf8 l = true -> Utf8 (a :: l1)).
  { intros c l Hc E Hl Hvl. destruct (IH l Hl Hvl) as (cs & Hcs & ->).
    exists (c :: cs). split; [constructor; assumption|]. exact E. }
  cbn in Hn. cbn [valid_utf8] in Hv.
  pose proof (bz_range a) as Ra.
  destruct (bz a <=? 127) eqn:E1.
  { apply (step (bz a) l1); [split; lia| |lia|exact Hv].
    unfold utf8_encode. destruct (bz a <? 128) eqn:E; [|lia]. rewrite zb_bz. reflexivity. }
  destruct l1 as [|b l2]; [discriminate|].
  pose proof (bz_range b) as Rb.
  destruct (in_range 194 223 a) eqn:E2.
  { apply in_range_iff in E2. apply andb_true_iff in Hv as [Hb Hv]. apply cont_iff in Hb.
    apply (step ((bz a - 192) * 64 + (bz b - 128)) l2); [split; lia| |cbn in Hn; lia|exact Hv].
    unfold utf8_encode. set (c := (bz a - 192) * 64 + (bz b - 128)).
    destruct (c <? 128) eqn:F1; [subst c; lia|]. destruct (c <? 2048) eqn:F2; [|subst c; lia].
    cbn [app]. rewrite (zb_eq a), (zb_eq b) by (subst c; lia). reflexivity. }
  destruct l2 as [|d l3]; [discriminate|].
  pose proof (bz_range d) as Rd.
  destruct (in_range 224 239 a) eqn:E3.
  { apply in_range_iff in E3. apply andb_true_iff in Hv as [Hv1 Hv].
    apply andb_true_iff in Hv1 as [Hab Hd]. apply ok3_iff in Hab. apply cont_iff in Hd.
    apply (step ((bz a - 224) * 4096 + (bz b - 128) * 64 + (bz d - 128)) l3);
      [split; lia| |cbn in Hn; lia|exact Hv].
    unfold utf8_encode. set (c := (bz a - 224) * 4096 + (bz b - 128) * 64 + (bz d - 128)).
    destruct (c <? 128) eqn:F1; [subst c; lia|]. destruct (c <? 2048) eqn:F2; [subst c; lia|].
    destruct (c <? 65536) eqn:F3; [|subst c; lia].
    cbn [app]. rewrite (zb_eq a), (zb_eq b), (zb_eq d) by (subst c; lia). reflexivity. }
  destruct l3 as [|e l4]; [discriminate|].
  pose proof (bz_range e) as Re.
  apply andb_true_iff in Hv as [Hv1 Hv]. apply andb_true_iff in Hv1 as [Hv1 He].
  apply andb_true_iff in Hv1 as [Hab Hd]. apply ok4_iff in Hab. apply cont_iff in Hd, He.
  apply (step ((bz a - 240) * 262144 + (bz b - 128) * 4096 + (bz d - 128) * 64 + (bz e - 128)) l4);
    [split; lia| |cbn in Hn; lia|exact Hv].
  unfold utf8_encode.
  set (c := (bz a - 240) * 262144 + (bz b - 128) * 4096 + (bz d - 128) * 64 + (bz e - 128)).
  destruct (c <? 128) eqn:F1; [subst c; lia|]. destruct (c <? 2048) eqn:F2; [subst c; lia|].
  destruct (c <? 65536) eqn:F3; [subst c; lia|].
  cbn [app]. rewrite (zb_eq a), (zb_eq b), (zb_eq d), (zb_eq e) by (subst c; lia). reflexivity.
Qed.

Lemma valid_utf8_iff s : valid_utf8 s = true <-> Utf8 s.
Proof.
  split.
  - apply (valid_decode (List.length s)). lia.
  - intros (cs & Hcs & ->). induction Hcs as [|c cs Hc _ IH]; [reflexivity|].
    cbn [flat_map]. rewrite encode_valid; assumption.
Qed.

(** Decoding is unambiguous. *)
Lemma encode_first c1 c2 s1 s2 : Scalar c1 -> Scalar c2 ->
  utf8_encode c1 ++ s1 = utf8_encode c2 ++ s2 -> c1 = c2 /\ s1 = s2.
Proof.
  intros [R1 _] [R2 _]. unfold utf8_encode.
  destruct (c1 <? 128) eqn:A1; [|destruct (c1 <? 2048) eqn:A2; [|destruct (c1 <? 65536) eqn:A3]];
  (destruct (c2 <? 128) eqn:B1; [|destruct (c2 <? 2048) eqn:B2; [|destruct (c2 <? 65536) eqn:B3]]);
  cbn [app]; intros E; injection E; intros;
  repeat match goal with H : zb _ = zb _ |- _ => apply zb_inj in H; [|lia|lia] end;
  split; try assumption; lia.
Qed.

Lemma utf8_decode_unique cs1 : forall cs2, Forall Scalar cs1 -> Forall Scalar cs2 ->
  flat_map utf8_encode cs1 = flat_map utf8_encode cs2 -> cs1 = cs2.
Proof.
  assert (NE : forall c, utf8_encode c <> []).
  { intros c. unfold utf8_encode. destruct (c <? 128), (c <? 2048), (c <? 65536); discriminate. }
  induction cs1 as [|c1 cs1 IH]; intros [|c2 cs2] H1 H2 E; cbn in E.
  - reflexivity.
  - exfalso. symmetry in E. apply app_eq_nil in E as [E _]. exact (NE _ E).
  - exfalso. apply app_eq_nil in E as [E _]. exact (NE _ E).
  - inversion H1; inversion H2; subst. apply encode_first in E as [-> E]; [|assumption|assumption].
    f_equal. apply IH; assumption.
Qed.
