(** Facts about the address parser. *)
From Coq Require Import Lia.
From Verif Require Import Base BaseLemmas Num Version VersionProofs Options Spec FieldSpec ReadProofs OptionProofs World Sys Io Env Core Pair
  NumProofs RequestProofs InitFacts FieldFacts Net NetSpec.
Local Open Scope Z_scope.

Lemma to_digit_Some radix b d : radix <= 16 -> (to_digit radix b = Some d <-> HexDigit b d /\ d < radix).
Proof.
  intros R. unfold to_digit. split.
  - destruct ((48 <=? bz b) && (bz b <=? 57)) eqn:E1.
    { destruct (bz b - 48 <? radix) eqn:E; [|discriminate]. intros H. injection H as <-. split; [constructor; lia|lia]. }
    destruct ((97 <=? bz b) && (bz b <=? 122)) eqn:E2.
    { destruct (bz b - 97 + 10 <? radix) eqn:E; [|discriminate]. intros H. injection H as <-.
      split; [|lia]. replace (bz b - 97 + 10) with (bz b - 87) by lia. constructor 2. lia. }
    destruct ((65 <=? bz b) && (bz b <=? 90)) eqn:E3; [|discriminate].
    destruct (bz b - 65 + 10 <? radix) eqn:E; [|discriminate]. intros H. injection H as <-.
    split; [|lia]. replace (bz b - 65 + 10) with (bz b - 55) by lia. constructor 3. lia.
  - intros [H L]. destruct H as [b H|b H|b H].
    + replace ((48 <=? bz b) && (bz b <=? 57)) with true by lia.
      replace (bz b - 48 <? radix) with true by lia. reflexivity.
    + replace ((48 <=? bz b) && (bz b <=? 57)) with false by lia.
      replace ((97 <=? bz b) && (bz b <=? 122)) with true by lia.
      replace (bz b - 97 + 10 <? radix) with true by lia. f_equal. lia.
    + replace ((48 <=? bz b) && (bz b <=? 57)) with false by lia.
      replace ((97 <=? bz b) && (bz b <=? 122)) with false by lia.
      replace ((65 <=? bz b) && (bz b <=? 90)) with true by lia.
      replace (bz b - 65 + 10 <? radix) with true by lia. f_equal. lia.
Qed.

Lemma HexDigit_range b d : HexDigit b d -> 0 <= d < 16.
Proof. intros [x H|x H|x H]; lia. Qed.

(** ** Numbers *)
Inductive DF (radix : Z) : Z -> bytes -> Z -> Prop :=
| DF_nil acc : DF radix acc [] acc
| DF_cons acc b d s z : HexDigit b d -> d < radix -> DF radix (acc * radix + d) s z -> DF radix acc (b :: s) z.

Lemma DF_snoc radix acc s z b d : DF radix acc s z -> HexDigit b d -> d < radix ->
  DF radix acc (s ++ [b]) (z * radix + d).
Proof.
  intros H Hb Hd. induction H as [acc|acc b' d' s z Hb' Hd' H IH].
  - cbn. econstructor; eauto. constructor.
  - cbn. econstructor; eauto.
Qed.

Lemma InRadix_DF radix s z : InRadix radix s z -> DF radix 0 s z.
Proof. intros H. induction H; [constructor|apply DF_snoc; assumption]. Qed.

Lemma DF_InRadix radix s acc z : DF radix acc s z -> forall p, InRadix radix p acc -> InRadix radix (p ++ s) z.
Proof.
  intros H. induction H as [acc|acc b d s z Hb Hd H IH]; intros p Hp.
  - rewrite app_nil_r. exact Hp.
  - replace (p ++ b :: s) with ((p ++ [b]) ++ s) by (rewrite <- app_assoc; reflexivity).
    apply IH. econstructor; eassumption.
Qed.

Lemma InRadix_iff radix s z : InRadix radix s z <-> DF radix 0 s z.
Proof.
  split; [apply InRadix_DF|]. intros H. apply (DF_InRadix _ _ _ _ H []). constructor.
Qed.

Lemma DF_low radix acc s z : 0 < radix -> 0 <= acc -> DF radix acc s z -> acc * radix ^ Z.of_nat (List.length s) <= z.
Proof.
  intros R A H. induction H as [acc|acc b d s z Hb Hd H IH].
  - cbn. lia.
  - apply HexDigit_range in Hb. specialize (IH ltac:(nia)). cbn [List.length].
    rewrite Nat2Z.inj_succ, Z.pow_succ_r by lia. eapply Z.le_trans; [|exact IH].
    pose proof (Z.pow_pos_nonneg radix (Z.of_nat (List.length s)) R ltac:(lia)). nia.
Qed.

Lemma DF_high radix acc s z : 0 < radix -> 0 <= acc -> DF radix acc s z ->
  z < (acc + 1) * radix ^ Z.of_nat (List.length s).
Proof.
  intros R A H. induction H as [acc|acc b d s z Hb Hd H IH].
  - cbn. lia.
  - apply HexDigit_range in Hb. specialize (IH ltac:(nia)). cbn [List.length].
    rewrite Nat2Z.inj_succ, Z.pow_succ_r by lia. eapply Z.lt_le_trans; [exact IH|].
    pose proof (Z.pow_pos_nonneg radix (Z.of_nat (List.length s)) R ltac:(lia)). nia.
Qed.

Definition Ends (radix : Z) (r : bytes) : Prop :=
  match r with [] => True | b :: _ => to_digit radix b = None end.

Definition within (max : option nat) (n : nat) : Prop := match max with Some m => (n <= m)%nat | None => True end.

Lemma number_loop_sound radix hi max l : 0 < radix <= 16 -> forall n acc z m r, 0 <= acc ->
  number_loop radix hi max n acc l = Some (z, m, r) ->
  exists s, l = s ++ r /\ Ends radix r /\ m = (n + List.length s)%nat /\ DF radix acc s z
    /\ (s = [] \/ z <= hi /\ within max m).
Proof.
  intros R. induction l as [|b l IH]; intros n acc z m r A; cbn [number_loop].
  - intros H. injection H as <- <- <-. exists []. split; [reflexivity|]. split; [exact I|]. split; [cbn; lia|]. split; [constructor|left; reflexivity].
  - destruct (to_digit radix b) as [d|] eqn:D.
    2:{ intros H. injection H as <- <- <-. exists []. split; [reflexivity|]. split; [exact D|]. split; [cbn; lia|]. split; [constructor|left; reflexivity]. }
    destruct (hi <? acc * radix) eqn:E1; [discriminate|].
    destruct (hi <? acc * radix + d) eqn:E2; [discriminate|].
    destruct (match max with Some m0 => (m0 <? S n)%nat | None => false end) eqn:E3; [discriminate|].
    apply to_digit_Some in D; [|lia]. destruct D as [D1 D2]. pose proof (HexDigit_range _ _ D1).
    intros H0. apply IH in H0; [|nia]. destruct H0 as (s & -> & He & -> & Hs & Hb).
    exists (b :: s). split; [reflexivity|]. split; [exact He|]. split; [cbn; lia|]. split; [econstructor; eassumption|]. cbn [List.length].
    right. destruct Hb as [->|Hb]; [|replace (n + S (List.length s))%nat with (S n + List.length s)%nat by lia; exact Hb].
    inversion Hs; subst. split; [lia|]. cbn. unfold within. destruct max as [m0|]; [|exact I].
    apply Nat.ltb_ge in E3. lia.
Qed.

Lemma number_loop_complete radix hi max s : 0 < radix <= 16 -> forall n acc z r, 0 <= acc ->
  DF radix acc s z -> Ends radix r -> (z <= hi) -> within max (n + List.length s) ->
  number_loop radix hi max n acc (s ++ r) = Some (z, (n + List.length s)%nat, r).
Proof.
  intros R. induction s as [|b s IH]; intros n acc z r A H He Hz Hm.
  - inversion H; subst. cbn. rewrite Nat.add_0_r. destruct r as [|x r]; [reflexivity|].
    cbn in *. rewrite He. reflexivity.
  - inversion H as [|? ? d ? ? Hb Hd Hs]; subst. cbn [app number_loop].
    rewrite (proj2 (to_digit_Some radix b d ltac:(lia)) (conj Hb Hd)).
    pose proof (HexDigit_range _ _ Hb). pose proof (DF_low radix (acc * radix + d) s z ltac:(lia) ltac:(nia) Hs) as L.
    pose proof (Z.pow_pos_nonneg radix (Z.of_nat (List.length s)) ltac:(lia) ltac:(lia)).
    replace (hi <? acc * radix) with false by nia. replace (hi <? acc * radix + d) with false by nia.
    replace (match max with Some m0 => (m0 <? S n)%nat | None => false end) with false.
    2:{ destruct max as [m0|]; [|reflexivity]. cbn in Hm. symmetry. apply Nat.ltb_ge. lia. }
    rewrite (IH (S n) _ z r); [f_equal; f_equal; f_equal; cbn; lia|nia|exact Hs|exact He|exact Hz|].
    cbn [List.length] in Hm. replace (S n + List.length s)%nat with (n + S (List.length s))%nat by lia. exact Hm.
Qed.

Definition NoPrefix (zp : bool) (s : bytes) : Prop :=
  zp = true \/ s = B "0" \/ forall r, s <> "0"%byte :: r.

Lemma read_number_iff radix hi max zp l z r : 0 < radix <= 16 ->
  (read_number radix hi max zp l = Some (z, r)
   <-> exists s, l = s ++ r /\ Ends radix r /\ s <> [] /\ InRadix radix s z /\ z <= hi
         /\ within max (List.length s) /\ NoPrefix zp s).
Proof.
  intros R. unfold read_number. split.
  - destruct (number_loop radix hi max 0 0 l) as [[[z' m] r']|] eqn:E; [|discriminate].
    apply number_loop_sound in E; [|lia|lia]. destruct E as (s & -> & He & -> & Hs & Hb). cbn [Nat.add].
    destruct (List.length s =? 0)%nat eqn:E0; [discriminate|].
    assert (N : s <> []) by (intros ->; discriminate).
    destruct (negb zp && match s ++ r' with b :: _ => byte_eqb b "0" | [] => false end && (1 <? List.length s)%nat) eqn:E1;
      [discriminate|].
    intros H. injection H as <- <-. exists s. destruct Hb as [Hb|[Hb1 Hb2]]; [contradiction|].
    repeat split; try assumption; [apply InRadix_iff; exact Hs|]. unfold NoPrefix.
    destruct zp; [left; reflexivity|]. right. cbn in E1. destruct s as [|b [|c s]]; [contradiction| |].
    + cbn in E1. destruct (byte_eqb b "0") eqn:Eb.
      * apply byte_eqb_eq in Eb as ->. left. reflexivity.
      * right. intros x Hx. injection Hx as -> _. discriminate.
    + right. intros x Hx. injection Hx as -> _. cbn in E1. discriminate.
  - intros (s & -> & He & N & Hs & Hz & Hm & Hp). apply InRadix_iff in Hs.
    rewrite (number_loop_complete radix hi max s R 0 0 z r ltac:(lia) Hs He Hz Hm). cbn [Nat.add].
    destruct s as [|b s]; [contradiction|]. cbn [List.length Nat.eqb app].
    replace (negb zp && byte_eqb b "0" && (1 <? S (List.length s))%nat) with false; [reflexivity|].
    destruct Hp as [->|[Hp|Hp]]; [reflexivity| |].
    + injection Hp as -> ->. destruct zp; reflexivity.
    + destruct (byte_eqb b "0") eqn:Eb; [apply byte_eqb_eq in Eb as ->; exfalso; eapply Hp; reflexivity|].
      destruct zp; reflexivity.
Qed.

Lemma Octet_short s z : Octet false s z -> (List.length s <= 3)%nat.
Proof.
  intros (N & D & Hz & [Hp|[Hp|Hp]]); [discriminate|rewrite Hp; cbn; lia|].
  apply InRadix_iff in D. destruct s as [|b s]; [contradiction|].
  inversion D as [|? ? d ? ? Hb Hd Hs]; subst. pose proof (HexDigit_range _ _ Hb).
  assert (d <> 0).
  { intros ->. apply (Hp s). f_equal. apply bz_inj. change (bz "0"%byte) with 48.
    inversion Hb; subst; lia. }
  cbn [Z.mul Z.add] in Hs. pose proof (DF_low 10 d s z ltac:(lia) ltac:(lia) Hs) as L.
  cbn [List.length]. destruct (Nat.le_gt_cases (S (List.length s)) 3) as [|G]; [assumption|].
  exfalso. assert (10 ^ 3 <= 10 ^ Z.of_nat (List.length s)) by (apply Z.pow_le_mono_r; lia). nia.
Qed.

Lemma read_octet_iff zeros l z r :
  read_octet zeros l = Some (z, r) <-> exists s, l = s ++ r /\ Ends 10 r /\ Octet zeros s z.
Proof.
  unfold read_octet. destruct zeros; rewrite read_number_iff by lia; split; intros (s & H).
  - exists s. destruct H as (-> & He & N & D & Hz & _ & Hp). repeat split; assumption.
  - exists s. destruct H as (-> & He & N & D & Hz & Hp). repeat split; assumption.
  - exists s. destruct H as (-> & He & N & D & Hz & _ & Hp). repeat split; assumption.
  - exists s. destruct H as (-> & He & O). pose proof (Octet_short _ _ O). destruct O as (N & D & Hz & Hp).
    repeat split; assumption.
Qed.

Lemma read_group_iff l z r :
  read_number 16 65535 (Some 4%nat) true l = Some (z, r)
  <-> exists s, l = s ++ r /\ Ends 16 r /\ Group s z.
Proof.
  rewrite read_number_iff by lia. split; intros (s & H); exists s.
  - destruct H as (-> & He & N & D & Hz & Hm & _). repeat split; assumption.
  - destruct H as (-> & He & N & L & D). repeat split; try assumption; [|left; reflexivity].
    apply InRadix_iff in D. apply DF_high in D; [|lia|lia].
    assert (16 ^ Z.of_nat (List.length s) <= 16 ^ 4) by (apply Z.pow_le_mono_r; lia). lia.
Qed.

(** ** The letters of an address *)
Definition Hexs (s : bytes) : Prop := Forall (fun b => to_digit 16 b <> None) s.

Lemma DF_Hexs radix acc s z : radix <= 16 -> DF radix acc s z -> Hexs s.
Proof.
  intros R H. induction H as [|acc b d s z Hb Hd H IH]; constructor; [|exact IH].
  assert (D : HexDigit b d /\ d < 16) by (split; [exact Hb|lia]).
  apply to_digit_Some in D; [|lia]. rewrite D. discriminate.
Qed.

Lemma Octet_Hexs zeros s z : Octet zeros s z -> Hexs s.
Proof. intros (_ & D & _). apply InRadix_iff in D. eapply DF_Hexs; [|exact D]. lia. Qed.
Lemma Group_Hexs s z : Group s z -> Hexs s.
Proof. intros (_ & _ & D). apply InRadix_iff in D. eapply DF_Hexs; [|exact D]. lia. Qed.

Lemma Hexs_split s1 s2 r1 r2 : Hexs s1 -> Hexs s2 -> Ends 16 r1 -> Ends 16 r2 ->
  s1 ++ r1 = s2 ++ r2 -> s1 = s2 /\ r1 = r2.
Proof.
  intros H1. revert s2. induction H1 as [|b s1 Hb H1 IH]; intros [|c s2] H2 E1 E2 E; cbn in E.
  - auto.
  - subst r1. inversion H2; subst. cbn in E1. congruence.
  - subst r2. cbn in E2. congruence.
  - injection E as -> E. inversion H2; subst. apply IH in E as [-> ->]; auto.
Qed.

(** ** IPv4 *)
Lemma read_sep_S {A} sep i (inner : reader A) l x : read_sep sep (S i) inner l = Some x <->
  exists l', l = sep :: l' /\ inner l' = Some x.
Proof.
  cbn. split.
  - destruct l as [|b l]; [discriminate|]. destruct (byte_eqb b sep) eqn:E; [|discriminate].
    apply byte_eqb_eq in E as ->. intros H. exists l. auto.
  - intros (l' & -> & H). rewrite byte_eqb_refl. exact H.
Qed.

Lemma read_octets_S zeros n i l zs r : read_octets zeros (S n) i l = Some (zs, r) <->
  exists z l1 zs', zs = z :: zs' /\ read_sep "."%byte i (read_octet zeros) l = Some (z, l1)
    /\ read_octets zeros n (S i) l1 = Some (zs', r).
Proof.
  cbn [read_octets]. split.
  - destruct (read_sep "."%byte i (read_octet zeros) l) as [[z l1]|]; [|discriminate].
    destruct (read_octets zeros n (S i) l1) as [[zs' l2]|] eqn:E; [|discriminate].
    intros H. injection H as <- <-. exists z, l1, zs'. auto.
  - intros (z & l1 & zs' & -> & E1 & E2). rewrite E1, E2. reflexivity.
Qed.

Lemma read_ipv4_iff zeros l zs r :
  read_ipv4 zeros l = Some (zs, r) <-> exists s, l = s ++ r /\ Ends 10 r /\ V4 zeros s zs.
Proof.
  unfold read_ipv4. split.
  - intros H.
    apply read_octets_S in H. destruct H as (a & l1 & za & -> & Ha & H).
    apply read_octets_S in H. destruct H as (b & l2 & zb & -> & Hb & H).
    apply read_octets_S in H. destruct H as (c & l3 & zc & -> & Hc & H).
    apply read_octets_S in H. destruct H as (d & l4 & zd & -> & Hd & H).
    cbn in H. injection H as <- <-. cbn [read_sep] in Ha.
    apply read_sep_S in Hb, Hc, Hd. destruct Hb as (k1 & -> & Hb), Hc as (k2 & -> & Hc), Hd as (k3 & -> & Hd).
    apply read_octet_iff in Ha, Hb, Hc, Hd.
    destruct Ha as (sa & -> & _ & Ha), Hb as (sb & -> & _ & Hb), Hc as (sc & -> & _ & Hc), Hd as (sd & -> & He & Hd).
    exists (sa ++ B "." ++ sb ++ B "." ++ sc ++ B "." ++ sd). split; [|split; [exact He|constructor; assumption]].
    cbn. rewrite <- app_assoc. cbn. rewrite <- app_assoc. cbn. rewrite <- app_assoc. cbn. reflexivity.
  - intros (s & -> & He & H). destruct H as [sa sb sc sd a b c d Ha Hb Hc Hd]. 
    rewrite <- !app_assoc.
    assert (D : forall x, Ends 10 ("."%byte :: x)) by (intros x; reflexivity).
    apply read_octets_S. do 3 eexists. split; [reflexivity|]. split.
    { cbn [read_sep]. apply read_octet_iff. exists sa. split; [reflexivity|]. split; [apply D|exact Ha]. }
    apply read_octets_S. do 3 eexists. split; [reflexivity|]. split.
    { apply read_sep_S. eexists. split; [reflexivity|]. apply read_octet_iff. exists sb. split; [reflexivity|]. split; [apply D|exact Hb]. }
    apply read_octets_S. do 3 eexists. split; [reflexivity|]. split.
    { apply read_sep_S. eexists. split; [reflexivity|]. apply read_octet_iff. exists sc. split; [reflexivity|]. split; [apply D|exact Hc]. }
    apply read_octets_S. do 3 eexists. split; [reflexivity|]. split.
    { apply read_sep_S. eexists. split; [reflexivity|]. apply read_octet_iff. exists sd. split; [reflexivity|]. split; [exact He|exact Hd]. }
    reflexivity.
Qed.

(** An IPv4 address is not mistaken for a group and conversely. *)
Definition AfterGroup (r : bytes) : Prop := r = [] \/ exists r', r = ":"%byte :: r'.

Lemma AfterGroup_ends radix r : radix <= 16 -> AfterGroup r -> Ends radix r.
Proof.
  intros R [->|[r' ->]]; [exact I|]. cbn. destruct (to_digit radix ":") eqn:E; [|reflexivity].
  apply to_digit_Some in E; [|exact R]. destruct E as [E _]. inversion E; subst;
  change (bz ":"%byte) with 58 in *; lia.
Qed.

Lemma read_ipv4_group zeros s r : Hexs s -> AfterGroup r -> read_ipv4 zeros (s ++ r) = None.
Proof.
  intros Hs Hr. destruct (read_ipv4 zeros (s ++ r)) as [[zs r']|] eqn:E; [|reflexivity].
  apply read_ipv4_iff in E. destruct E as (t & E & _ & H). destruct H as [sa sb sc sd a b c d Ha _ _ _].
  rewrite <- app_assoc in E. apply Hexs_split in E; [|exact Hs|eapply Octet_Hexs; exact Ha| |reflexivity].
  2:{ apply AfterGroup_ends; [lia|exact Hr]. }
  destruct E as [_ ->]. destruct Hr as [Hr|[r'' Hr]]; discriminate.
Qed.

Lemma read_group_colon r : AfterGroup r -> read_number 16 65535 (Some 4%nat) true r = None.
Proof.
  intros Hr. destruct (read_number 16 65535 (Some 4%nat) true r) as [[z r']|] eqn:E; [|reflexivity].
  apply read_group_iff in E. destruct E as (s & E & He & G). pose proof (Group_Hexs _ _ G) as Hs.
  apply AfterGroup_ends with (radix := 16) in Hr; [|lia].
  change r with ([] ++ r) in E. apply Hexs_split in E; [|constructor|exact Hs|exact Hr|exact He].
  destruct E as [<- _]. destruct G as [N _]. contradiction.
Qed.

(** ** IPv6 *)
Definition pre (i : nat) : bytes := match i with O => [] | S _ => B ":" end.

Lemma read_sep_pre {A} i (inner : reader A) l : read_sep ":"%byte i inner (pre i ++ l) = inner l.
Proof. destruct i; reflexivity. Qed.

Lemma read_sep_Some {A} i (inner : reader A) l x : read_sep ":"%byte i inner l = Some x ->
  exists l', l = pre i ++ l' /\ inner l' = Some x.
Proof.
  destruct i; [intros H; exists l; split; [reflexivity|exact H]|]. intros H. apply read_sep_S in H. exact H.
Qed.

Lemma V4_four zeros s zs : V4 zeros s zs -> exists a b c d, zs = [a; b; c; d].
Proof. intros [sa sb sc sd a b c d _ _ _ _]. eauto. Qed.

Lemma read_groups_sound zeros n : forall i l gs t r, read_groups zeros n i l = (gs, t, r) ->
  (List.length gs <= n)%nat
  /\ ((gs = [] /\ t = false /\ l = r) \/ exists s, l = pre i ++ s ++ r /\ Groups zeros t s gs).
Proof.
  induction n as [|n IH]; intros i l gs t r.
  - cbn. intros H. injection H as <- <- <-. split; [cbn; lia|left; auto].
  - cbn [read_groups].
    set (v4 := match n with O => None | S _ => read_sep ":"%byte i (read_ipv4 zeros) l end).
    assert (V : forall zs l1, v4 = Some (zs, l1) -> (2 <= S n)%nat /\ exists s, l = pre i ++ s ++ l1 /\ V4 zeros s zs).
    { intros zs l1. unfold v4. destruct n as [|n]; [discriminate|]. intros H. split; [lia|].
      apply read_sep_Some in H. destruct H as (l' & -> & H). apply read_ipv4_iff in H.
      destruct H as (s & -> & _ & H). eauto. }
    assert (G : match read_sep ":"%byte i (read_number 16 65535 (Some 4%nat) true) l with
          | None => ([], false, l)
          | Some (g, l1) => let '(gs, t, l2) := read_groups zeros n (S i) l1 in (g :: gs, t, l2)
          end = (gs, t, r) ->
       (List.length gs <= S n)%nat
       /\ ((gs = [] /\ t = false /\ l = r) \/ exists s, l = pre i ++ s ++ r /\ Groups zeros t s gs)).
    { destruct (read_sep ":"%byte i (read_number 16 65535 (Some 4%nat) true) l) as [[g l1]|] eqn:E.
      2:{ intros H. injection H as <- <- <-. split; [cbn; lia|left; auto]. }
      destruct (read_groups zeros n (S i) l1) as [[gs' t'] l2] eqn:F.
      intros H. injection H as <- <- <-. apply read_sep_Some in E. destruct E as (l' & -> & E).
      apply read_group_iff in E. destruct E as (s & -> & _ & E).
      apply IH in F. destruct F as [L F]. split; [cbn; lia|]. right.
      destruct F as [(-> & -> & ->)|(s' & -> & F)].
      - exists s. split; [reflexivity|constructor; exact E].
      - exists (s ++ B ":" ++ s'). split; [|constructor; assumption]. cbn. rewrite <- app_assoc. reflexivity. }
    clearbody v4. destruct v4 as [[[|a [|b [|c [|d [|x y]]]]] l1]|]; try exact G.
    destruct (V _ _ eq_refl) as (L & s & -> & H). intros E. injection E as <- <- <-.
    split; [cbn; lia|]. right. exists s. split; [reflexivity|constructor; exact H].
Qed.

(** The text that may follow the groups. *)
Definition Stop (r : bytes) : Prop := r = [] \/ exists r', r = ":"%byte :: ":"%byte :: r'.
Lemma Stop_after r : Stop r -> AfterGroup r.
Proof. intros [->|[r' ->]]; [left; reflexivity|right; eauto]. Qed.

Lemma read_groups_stop zeros n i r : Stop r -> read_groups zeros n i r = ([], false, r).
Proof.
  intros Hr. destruct n as [|n]; [reflexivity|]. cbn [read_groups].
  assert (E : forall A (inner : reader A), (forall x, AfterGroup x -> inner x = None) ->
    read_sep ":"%byte i inner r = None).
  { intros A inner HI. destruct i.
    - apply HI. apply Stop_after. exact Hr.
    - cbn. destruct Hr as [->|[r' ->]]; [reflexivity|]. rewrite byte_eqb_refl. apply HI. right. eauto. }
  rewrite (E _ (read_ipv4 zeros)).
  2:{ intros x Hx. apply (read_ipv4_group zeros [] x); [constructor|exact Hx]. }
  rewrite (E _ (read_number 16 65535 (Some 4%nat) true)) by apply read_group_colon.
  destruct n; reflexivity.
Qed.

Lemma Groups_nonempty zeros t s gs : Groups zeros t s gs -> gs <> [].
Proof. intros H. destruct H; discriminate. Qed.

Lemma read_groups_complete zeros t s gs : Groups zeros t s gs -> forall n i r, (List.length gs <= n)%nat -> Stop r ->
  read_groups zeros n i (pre i ++ s ++ r) = (gs, t, r).
Proof.
  intros H. induction H as [s g G|s a b c d V|t s g rs gs G H IH]; intros n i r L Hr;
    (destruct n as [|n]; [cbn in L; lia|]); cbn [read_groups]; rewrite !read_sep_pre.
  - rewrite read_ipv4_group by (eauto using Group_Hexs, Stop_after).
    rewrite (proj2 (read_group_iff (s ++ r) g r)).
    2:{ exists s. split; [reflexivity|]. split; [apply AfterGroup_ends; [lia|apply Stop_after; exact Hr]|exact G]. }
    rewrite read_groups_stop by exact Hr. destruct n; reflexivity.
  - rewrite (proj2 (read_ipv4_iff zeros (s ++ r) [a; b; c; d] r)).
    2:{ exists s. split; [reflexivity|]. split; [apply AfterGroup_ends; [lia|apply Stop_after; exact Hr]|exact V]. }
    destruct n; [cbn in L; lia|reflexivity].
  - rewrite <- app_assoc. rewrite read_ipv4_group.
    2:{ eapply Group_Hexs. exact G. } 2:{ right. eexists. reflexivity. }
    rewrite (proj2 (read_group_iff (s ++ (B ":" ++ rs) ++ r) g ((B ":" ++ rs) ++ r))).
    2:{ exists s. split; [reflexivity|]. split; [|exact G]. apply AfterGroup_ends; [lia|]. right. eexists. reflexivity. }
    rewrite <- app_assoc. change (B ":" ++ rs ++ r) with (pre (S i) ++ rs ++ r).
    rewrite (IH n (S i) r); [destruct n; reflexivity| |exact Hr]. cbn in L. lia.
Qed.

Lemma read_ipv6_sound zeros s gs : read_ipv6 zeros s = Some (gs, []) -> V6 zeros s gs.
Proof.
  unfold read_ipv6. destruct (read_groups zeros 8 0 s) as [[hs h4] l1] eqn:E.
  apply read_groups_sound in E. destruct E as [L E].
  destruct (List.length hs =? 8)%nat eqn:E8.
  - intros H. injection H as -> ->. destruct E as [(-> & _)|(t & -> & E)]; [discriminate|].
    cbn. rewrite app_nil_r. econstructor; [exact E|]. apply Nat.eqb_eq in E8. exact E8.
  - apply Nat.eqb_neq in E8. destruct h4; [discriminate|]. unfold read_char.
    destruct l1 as [|b l2]; [discriminate|]. destruct (byte_eqb b ":") eqn:Eb; [|discriminate]. apply byte_eqb_eq in Eb as ->.
    destruct l2 as [|b l3]; [discriminate|]. destruct (byte_eqb b ":") eqn:Eb; [|discriminate]. apply byte_eqb_eq in Eb as ->.
    destruct (read_groups zeros (8 - (List.length hs + 1)) 0 l3) as [[ts t4] l4] eqn:F.
    apply read_groups_sound in F. destruct F as [LT F]. intros H. injection H as <- ->.
    assert (T : exists t, l3 = t /\ (t = [] /\ ts = [] \/ Groups zeros t4 t ts)).
    { destruct F as [(-> & -> & ->)|(t & -> & F)]; [exists []; auto|].
      exists t. cbn. rewrite app_nil_r. auto. }
    destruct T as (t & -> & T). destruct E as [(-> & _ & ->)|(h & -> & E)].
    + change (V6 zeros ([] ++ B "::" ++ t) ([] ++ repeat 0 (8 - List.length (@nil Z) - List.length ts) ++ ts)).
      eapply V6_gap; [left; auto|exact T| |]; cbn [List.length] in *; lia.
    + change (V6 zeros (h ++ B "::" ++ t) (hs ++ repeat 0 (8 - List.length hs - List.length ts) ++ ts)).
      eapply V6_gap; [right; exact E|exact T|lia|lia].
Qed.

Lemma read_ipv6_complete zeros s gs : V6 zeros s gs -> read_ipv6 zeros s = Some (gs, []).
Proof.
  intros [t s' gs' H L|h hs t4 t ts k H T K L]; unfold read_ipv6.
  - replace s' with (pre 0 ++ s' ++ []) by (cbn; apply app_nil_r).
    rewrite (read_groups_complete zeros t s' gs' H 8 0 []); [|lia|left; reflexivity].
    rewrite L. reflexivity.
  - assert (E : read_groups zeros 8 0 (h ++ B "::" ++ t) = (hs, false, B "::" ++ t)).
    { destruct H as [[-> ->]|H].
      - apply read_groups_stop. right. eexists. reflexivity.
      - apply (read_groups_complete zeros false h hs H 8 0); [lia|]. right. eexists. reflexivity. }
    rewrite E. replace (List.length hs =? 8)%nat with false by (symmetry; apply Nat.eqb_neq; lia).
    change (read_char ":" (B "::" ++ t)) with (Some (":"%byte :: t)). cbv iota beta.
    change (read_char ":" (":"%byte :: t)) with (Some t). cbv iota beta.
    assert (F : exists x, read_groups zeros (8 - (List.length hs + 1)) 0 t = (ts, x, [])).
    { destruct T as [[-> ->]|T].
      - exists false. apply read_groups_stop. left. reflexivity.
      - exists t4. replace t with (pre 0 ++ t ++ []) at 1 by (cbn; apply app_nil_r).
        apply (read_groups_complete zeros t4 t ts T); [lia|left; reflexivity]. }
    destruct F as [x ->]. replace (8 - List.length hs - List.length ts)%nat with k by lia. reflexivity.
Qed.

Lemma V6_start zeros s gs : V6 zeros s gs -> exists g r, s = g ++ r /\ Hexs g /\ AfterGroup r.
Proof.
  assert (A : forall t s gs, Groups zeros t s gs -> t = false \/ List.length gs = 8%nat ->
     exists g r, s = g ++ r /\ Hexs g /\ AfterGroup r).
  { intros t s' gs' H D. destruct H as [s' g G|s' a b c d V|t s' g rs gs' G H].
    - exists s', []. rewrite app_nil_r. split; [reflexivity|]. split; [eapply Group_Hexs; exact G|left; reflexivity].
    - exfalso. destruct D; discriminate.
    - exists s', (B ":" ++ rs). split; [reflexivity|]. split; [eapply Group_Hexs; exact G|right; eexists; reflexivity]. }
  intros [t s' gs' H L|h hs t4 t ts k H T K L].
  - apply (A _ _ _ H). auto.
  - destruct H as [[-> ->]|H].
    + exists [], (B "::" ++ t). split; [reflexivity|]. split; [constructor|right; eexists; reflexivity].
    + destruct (A _ _ _ H (or_introl eq_refl)) as (g & r & -> & Hg & Hr). exists g, (r ++ B "::" ++ t).
      rewrite <- app_assoc. split; [reflexivity|]. split; [exact Hg|]. right.
      destruct Hr as [->|[r' ->]]; eexists; reflexivity.
Qed.

Theorem parse_ip_iff zeros s l : parse_ip zeros s = Some l <-> Address zeros s l.
Proof.
  unfold parse_ip, Address. split.
  - destruct (read_ipv4 zeros s) as [[zs r]|] eqn:E.
    + destruct r; [|discriminate]. intros H. injection H as <-. left. apply read_ipv4_iff in E.
      destruct E as (t & -> & _ & H). rewrite app_nil_r. exact H.
    + destruct (read_ipv6 zeros s) as [[gs [|x r]]|] eqn:F; try discriminate. intros H. injection H as <-. right.
      apply read_ipv6_sound. exact F.
  - intros [H|H].
    + rewrite (proj2 (read_ipv4_iff zeros s l [])); [reflexivity|]. exists s. rewrite app_nil_r. split; [reflexivity|]. split; [exact I|exact H].
    + destruct (V6_start _ _ _ H) as (g & r & E & Hg & Hr). rewrite E at 1. rewrite read_ipv4_group by assumption.
      rewrite (read_ipv6_complete _ _ _ H). reflexivity.
Qed.

(** ** No slash or blank inside an address *)
Definition Plain (s : bytes) : Prop := Forall (fun b => b <> "/"%byte /\ b <> " "%byte) s.
Lemma Hexs_Plain s : Hexs s -> Plain s.
Proof. apply Forall_impl. intros b H. split; intros ->; apply H; reflexivity. Qed.
Lemma Plain_app a b : Plain a -> Plain b -> Plain (a ++ b).
Proof. intros Ha Hb. apply Forall_app. split; assumption. Qed.
Lemma V4_Plain zeros s l : V4 zeros s l -> Plain s.
Proof.
  intros [sa sb sc sd a b c d Ha Hb Hc Hd].
  assert (D : Plain (B ".")) by (constructor; [split; discriminate|constructor]).
  repeat apply Plain_app; try exact D; apply Hexs_Plain; eapply Octet_Hexs; eassumption.
Qed.
Lemma Groups_Plain zeros t s gs : Groups zeros t s gs -> Plain s.
Proof.
  intros H. induction H as [s g G|s a b c d V|t s g rs gs G H IH].
  - apply Hexs_Plain. eapply Group_Hexs. exact G.
  - eapply V4_Plain. exact V.
  - apply Plain_app; [apply Hexs_Plain; eapply Group_Hexs; exact G|]. apply Plain_app; [|exact IH].
    constructor; [split; discriminate|constructor].
Qed.
Lemma Address_Plain zeros s l : Address zeros s l -> Plain s.
Proof.
  intros [H|H]; [eapply V4_Plain; exact H|]. destruct H as [t s' gs' H L|h hs t4 t ts k H T K L].
  - eapply Groups_Plain. exact H.
  - apply Plain_app; [|apply Plain_app].
    + destruct H as [[-> ->]|H]; [constructor|eapply Groups_Plain; exact H].
    + repeat constructor; discriminate.
    + destruct T as [[-> ->]|T]; [constructor|eapply Groups_Plain; exact T].
Qed.
Lemma Address_no_slash zeros s l : Address zeros s l -> ~ In "/"%byte s.
Proof. intros H Hi. apply Address_Plain in H. eapply Forall_forall in H; [|exact Hi]. destruct H as [H _]. contradiction. Qed.
Lemma Address_no_blank zeros s l : Address zeros s l -> ~ In " "%byte s.
Proof. intros H Hi. apply Address_Plain in H. eapply Forall_forall in H; [|exact Hi]. destruct H as [_ H]. contradiction. Qed.

(** ** The dotted notation *)
Lemma digits_DF s : Forall IsDigit s -> forall acc, DF 10 acc s (fold_left (fun n b => 10 * n + (bz b - 48)) s acc).
Proof.
  intros H. induction H as [|b s Hb H IH]; intros acc; cbn [fold_left]; [constructor|].
  apply DF_cons with (d := bz b - 48); [constructor; exact Hb|unfold IsDigit in Hb; lia|].
  replace (acc * 10 + (bz b - 48)) with (10 * acc + (bz b - 48)) by lia. apply IH.
Qed.

Lemma Decimal_Octet zeros n s : 0 <= n <= 255 -> Decimal n s -> Octet zeros s n.
Proof.
  intros Hn [(_ & (N & F & ->) & Hz)|(Hl & _)]; [|lia]. split; [exact N|]. split.
  - apply InRadix_iff. unfold digits_value. apply digits_DF. exact F.
  - split; [lia|]. right. destruct (byte_eqb (hd x00 s) "0") eqn:E.
    + apply byte_eqb_eq in E. left. apply Hz. exact E.
    + right. intros r ->. cbn [hd] in E. rewrite byte_eqb_refl in E. discriminate.
Qed.

Lemma dotted zeros a b c d sa sb sc sd :
  0 <= a <= 255 -> 0 <= b <= 255 -> 0 <= c <= 255 -> 0 <= d <= 255 ->
  Decimal a sa -> Decimal b sb -> Decimal c sc -> Decimal d sd ->
  parse_ip zeros (sa ++ B "." ++ sb ++ B "." ++ sc ++ B "." ++ sd) = Some [a; b; c; d].
Proof.
  intros Ha Hb Hc Hd Da Db Dc Dd. apply parse_ip_iff. left. constructor; apply Decimal_Octet; assumption.
Qed.

(** ** The two versions of the library *)
Lemma Octet_mono s z : Octet false s z -> Octet true s z.
Proof. intros (N & D & H & _). repeat split; try assumption. left. reflexivity. Qed.
Lemma V4_mono s l : V4 false s l -> V4 true s l.
Proof. intros [sa sb sc sd a b c d Ha Hb Hc Hd]. constructor; apply Octet_mono; assumption. Qed.
Lemma Groups_mono t s gs : Groups false t s gs -> Groups true t s gs.
Proof. intros H. induction H; [constructor; assumption|constructor; apply V4_mono; assumption|constructor; assumption]. Qed.
Lemma parse_ip_mono s l : parse_ip false s = Some l -> parse_ip true s = Some l.
Proof.
  rewrite !parse_ip_iff. intros [H|H]; [left; apply V4_mono; exact H|right].
  destruct H as [t s' gs' H L|h hs t4 t ts k H T K L].
  - eapply V6_full; [apply Groups_mono; exact H|exact L].
  - eapply V6_gap with (mixed := t4); [|destruct T as [T|T]; [left; exact T|right; apply Groups_mono; exact T]|exact K|exact L].
    destruct H as [H|H]; [left; exact H|right; apply Groups_mono; exact H].
Qed.

Lemma parse_ip_standard zeros : Standard zeros (parse_ip zeros).
Proof. exact (parse_ip_iff zeros). Qed.

(** ** The setting *)


Section Std.
Context (zeros : bool) (pl : platform) (HP : Standard zeros (pl_parse_ip pl)).

Lemma NetAddr_iff s n : NetAddr pl s n <-> AddressWithMask zeros s n.
Proof.
  unfold NetAddr, AddressWithMask. split.
  - intros (a & m & -> & _ & Ha & Hm). apply HP in Ha, Hm. exists a, m. auto.
  - intros (a & m & -> & Ha & Hm). exists a, m. split; [reflexivity|].
    split; [eapply Address_no_slash; exact Ha|]. split; apply HP; assumption.
Qed.

Lemma Forall2_impl {A B} (P Q : A -> B -> Prop) l m : (forall x y, P x y -> Q x y) -> Forall2 P l m -> Forall2 Q l m.
Proof. intros H F. induction F; constructor; auto. Qed.

Lemma ListOf_iff s l : ListOf " "%byte (NetAddr pl) s l <-> ListOf " "%byte (AddressWithMask zeros) s l.
Proof.
  unfold ListOf. split; intros (ps & H & F); exists ps; (split; [exact H|]).
  - eapply Forall2_impl; [|exact F]. intros x y. apply NetAddr_iff.
  - eapply Forall2_impl; [|exact F]. intros x y. apply NetAddr_iff.
Qed.

Lemma AddrMask_iff s : AddrMask pl s <-> exists n, AddressWithMask zeros s n.
Proof.
  split.
  - intros H. apply parse_net_addr_Some in H. destruct H as [n H]. exists n. apply NetAddr_iff.
    apply parse_net_addr_exact. exact H.
  - intros [n H]. apply parse_net_addr_Some. exists n. apply parse_net_addr_exact. apply NetAddr_iff. exact H.
Qed.

Lemma bare_iff r : MasklessAddr pl r <-> BareAddress zeros r.
Proof.
  split.
  - intros (v & b & p & a & HV & U & S & F & _ & N).
    destruct (pl_parse_ip pl p) as [l|] eqn:E; [|contradiction]. apply HP in E.
    exists v, b, p, a, l. repeat split; try assumption. eapply Forall_impl; [|exact F]. intros s. apply AddrMask_iff.
  - intros (v & b & p & a & l & HV & U & S & F & A). exists v, b, p, a. repeat split; try assumption.
    + eapply Forall_impl; [|exact F]. intros s. apply AddrMask_iff.
    + eapply Address_no_slash. exact A.
    + apply HP in A. congruence.
Qed.

Lemma network_read name vers a e : io_env_new pl name vers a = Some (Ok e) ->
  ReadsOr (oa_settings a) "network_addrs" (ListOf " "%byte (AddressWithMask zeros)) [] (se_network_addrs (en_settings e))
  /\ forall ns, Reads (oa_settings a) "network_addrs" (ListOf " "%byte (AddressWithMask zeros)) ns ->
       se_network_addrs (en_settings e) = ns.
Proof.
  intros H. apply env_read in H. destruct H as [(_ & _ & _ & H & _) _].
  assert (X : ReadsOr (oa_settings a) "network_addrs" (ListOf " "%byte (AddressWithMask zeros)) []
                (se_network_addrs (en_settings e))).
  { destruct H as [(v & Hv & U & H)|[H E]].
    - left. exists v. split; [exact Hv|]. split; [exact U|]. apply ListOf_iff. exact H.
    - right. split; [|exact E]. intros x (v & Hv & U & Hx). apply (H x). exists v. split; [exact Hv|].
      split; [exact U|]. apply ListOf_iff. exact Hx. }
  split; [exact X|]. intros ns Hn. destruct X as [X|[X _]]; [|destruct (X ns Hn)].
  destruct X as (v & Hv & U & ps & S & F), Hn as (v' & Hv' & U' & ps' & S' & F').
  rewrite (Provides_unique _ _ _ _ Hv' Hv) in *. apply Separated_split in S, S'. subst ps ps'.
  assert (E : forall l x y, Forall2 (AddressWithMask zeros) l x -> Forall2 (AddressWithMask zeros) l y -> x = y).
  { intros l x y HX. revert y. induction HX as [|s n l x Hs HX IH]; intros y HY; inversion HY as [|? m ? y' Hm HY']; subst; [reflexivity|].
    apply NetAddr_iff, parse_net_addr_exact in Hs, Hm. f_equal; [congruence|]. apply IH. exact HY'. }
  eapply E; eassumption.
Qed.

Lemma bare_aborts a w : ApiAtLeast_1_9 (oa_version a) -> SettingsComplete (oa_settings a) ->
  BareAddress zeros (oa_settings a) ->
  core_open SudoPair pl a (pstate0 _) w = (Done (-1, pstate0 _), w).
Proof.
  intros HV ((d & Hd) & (p & Hp) & (n & Hn)) H. apply bare_iff in H. apply core_open_None.
  unfold io_env_new, version_check. rewrite (proj2 (supported_iff _) HV). cbn [pf_new].
  apply get_net_addrs_None in H. unfold settings_try_from.
  apply (get_req_Ok parse_string Text parse_string_spec) in Hd, Hp, Hn. rewrite Hd, Hp, Hn, H. reflexivity.
Qed.

Lemma not_bare_opens a : ApiAtLeast_1_9 (oa_version a) -> SettingsComplete (oa_settings a) ->
  UserInfoComplete (oa_user_info a) -> ~ BareAddress zeros (oa_settings a) ->
  (exists rq, Describes pl a rq)
  /\ forall w z st' w', core_open SudoPair pl a (pstate0 _) w = (Done (z, st'), w') -> st_env st' <> None.
Proof. intros V S U N. apply complete_initialises; try assumption. intros C. apply N, bare_iff, C. Qed.
End Std.
