(** API version words. *)
From Coq Require Import ZifyBool.
From Verif Require Import Base BaseLemmas Version Spec.
Local Open Scope Z_scope.
Ltac Zify.zify_post_hook ::= Z.div_mod_to_equations.

Lemma lor_shift a b : 0 <= b < 65536 -> Z.lor (a * 65536) b = a * 65536 + b.
Proof.
  intros Hb. rewrite Z.add_nocarry_lxor, Z.lxor_lor; [reflexivity| |];
  apply Z.bits_inj'; intros i Hi; rewrite Z.land_spec, Z.bits_0;
  change 65536 with (2 ^ 16); rewrite <- Z.shiftl_mul_pow2 by lia;
  (destruct (Z.ltb_spec i 16) as [H|H];
   [rewrite Z.shiftl_spec_low by lia; reflexivity|]);
  rewrite <- (Z.mod_small b (2 ^ 16)) by lia; rewrite Z.mod_pow2_bits_high by lia; apply andb_false_r.
Qed.

Lemma mkversion_eq M m : 0 <= M < 65536 -> 0 <= m < 65536 -> sudo_api_mkversion M m = M * 65536 + m.
Proof.
  intros HM Hm. unfold sudo_api_mkversion, u32_wrap. rewrite Z.shiftl_mul_pow2 by lia.
  change (2 ^ 16) with 65536. rewrite Z.mod_small by lia. apply lor_shift. exact Hm.
Qed.

Lemma from_ffi_eq v : from_ffi v = mkVersion ((v / 65536) mod 65536) (v mod 65536).
Proof.
  unfold from_ffi, sudo_api_version_get_major, sudo_api_version_get_minor.
  rewrite Z.shiftr_div_pow2 by lia. change 65535 with (Z.ones 16). rewrite Z.land_ones by lia.
  change (2 ^ 16) with 65536. rewrite Z.mod_mod by lia. reflexivity.
Qed.

Lemma supported_iff v : supported (from_ffi v) = true <-> ApiAtLeast_1_9 v.
Proof.
  rewrite from_ffi_eq. unfold supported, version_leb, ApiAtLeast_1_9. cbn.
  change (2 ^ 32) with 4294967296. split; intros H; lia.
Qed.
