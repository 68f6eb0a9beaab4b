(** Integer, boolean and list options against Spec.v; decimal printing. *)
From Coq Require Import ZifyBool.
From Verif Require Import Base BaseLemmas Num Options Spec.
Local Open Scope Z_scope.

Lemma digit_Some b d : digit b = Some d <-> IsDigit b /\ d = bz b - 48.
Proof.
  unfold digit, IsDigit. destruct ((48 <=? bz b) && (bz b <=? 57)) eqn:E; split.
  - intros H. injection H as <-. lia.
  - intros [_ ->]. reflexivity.
  - discriminate.
  - intros [H _]. lia.
Qed.

Lemma digit_None b : digit b = None <-> ~ IsDigit b.
Proof.
  unfold digit, IsDigit. destruct ((48 <=? bz b) && (bz b <=? 57)) eqn:E; split; try discriminate; try reflexivity; lia.
Qed.

Definition horner (n : Z) (s : bytes) : Z := fold_left (fun n b => 10 * n + (bz b - 48)) s n.

Lemma horner_ge s : forall n, 0 <= n -> Forall IsDigit s -> n <= horner n s.
Proof.
  induction s as [|b s IH]; intros n Hn Hs; [cbn; lia|].
  inversion Hs as [|? ? Hb Hs']; subst. unfold IsDigit in Hb.
  change (horner n (b :: s)) with (horner (10 * n + (bz b - 48)) s).
  specialize (IH (10 * n + (bz b - 48)) ltac:(lia) Hs'). lia.
Qed.

Lemma parse_pos_spec hi s : forall acc n, 0 <= acc <= hi ->
  (parse_pos hi acc s = Some n <-> Forall IsDigit s /\ n = horner acc s /\ n <= hi).
Proof.
  induction s as [|b s IH]; intros acc n Hacc; cbn.
  - split.
    + intros H. injection H as <-. split; [constructor|lia].
    + intros (_ & -> & _). reflexivity.
  - destruct (digit b) as [d|] eqn:Ed.
    + apply digit_Some in Ed as [Hb ->]. pose proof Hb as Hb'. unfold IsDigit in Hb'.
      replace (acc * 10 + (bz b - 48)) with (10 * acc + (bz b - 48)) by lia.
      destruct (hi <? acc * 10) eqn:E1.
      * split; [discriminate|]. intros (Hs & -> & Hle). exfalso.
        inversion Hs; subst.
        pose proof (horner_ge s (10 * acc + (bz b - 48)) ltac:(lia) ltac:(assumption)).
        unfold horner in *. cbn in *. lia.
      * destruct (hi <? 10 * acc + (bz b - 48)) eqn:E2.
        -- split; [discriminate|]. intros (Hs & -> & Hle). exfalso.
           inversion Hs; subst.
           pose proof (horner_ge s (10 * acc + (bz b - 48)) ltac:(lia) ltac:(assumption)).
           unfold horner in *. cbn in *. lia.
        -- rewrite IH by lia. unfold horner; cbn. split.
           ++ intros (Hs & -> & Hle). split; [constructor; assumption|]. auto.
           ++ intros (Hs & -> & Hle). inversion Hs; subst. auto.
    + apply digit_None in Ed. split; [discriminate|].
      intros (Hs & _). inversion Hs; subst. contradiction.
Qed.

Lemma parse_neg_pos lo s : forall acc, parse_neg lo acc s =
  match parse_pos (- lo) (- acc) s with Some n => Some (- n) | None => None end.
Proof.
  induction s as [|b s IH]; intros acc; cbn.
  - f_equal. lia.
  - destruct (digit b) as [d|]; [|reflexivity].
    destruct (acc * 10 <? lo) eqn:E1; destruct (- lo <? - acc * 10) eqn:E2; try lia; [reflexivity|].
    destruct (acc * 10 - d <? lo) eqn:E3; destruct (- lo <? - acc * 10 + d) eqn:E4; try lia; [reflexivity|].
    rewrite IH. replace (- (acc * 10 - d)) with (- acc * 10 + d) by lia. reflexivity.
Qed.

(** Well-formed integer types. *)
Definition ity_ok (t : ity) : Prop :=
  0 <= it_max t /\ it_min t <= 0 /\ (it_signed t = false -> it_min t = 0).

Lemma plus_not_digit : ~ IsDigit "+"%byte.
Proof. unfold IsDigit, bz. cbn. lia. Qed.
Lemma minus_not_digit : ~ IsDigit "-"%byte.
Proof. unfold IsDigit, bz. cbn. lia. Qed.

Lemma Digits_unique s n m : Digits s n -> Digits s m -> n = m.
Proof. intros (_ & _ & ->) (_ & _ & ->). reflexivity. Qed.

Lemma Digits_nonneg s n : Digits s n -> 0 <= n.
Proof.
  intros (_ & Hs & ->). pose proof (horner_ge s 0 ltac:(lia) Hs). unfold horner in *.
  unfold digits_value. lia.
Qed.

Lemma Numeral_unique sg s n m : Numeral sg s n -> Numeral sg s m -> n = m.
Proof.
  intros [H1|[(t1 & E1 & H1)|(_ & t1 & m1 & E1 & H1 & ->)]]
         [H2|[(t2 & E2 & H2)|(_ & t2 & m2 & E2 & H2 & ->)]]; subst;
    try (injection E2 as <-); try congruence;
    try (eapply Digits_unique; eassumption);
    try (f_equal; eapply Digits_unique; eassumption);
    exfalso;
    repeat match goal with
    | H : Digits ("+"%byte :: _) _ |- _ => destruct H as (_ & H & _); inversion H; subst
    | H : Digits ("-"%byte :: _) _ |- _ => destruct H as (_ & H & _); inversion H; subst
    end; try (apply plus_not_digit; assumption); try (apply minus_not_digit; assumption).
Qed.

Lemma parse_int_spec t s n : ity_ok t ->
  (parse_int t s = Some n <-> Numeral (it_signed t) s n /\ it_min t <= n <= it_max t).
Proof.
  intros (Hmax & Hmin & Hun).
  assert (HD : forall u, u <> [] ->
    (parse_pos (it_max t) 0 u = Some n <-> Digits u n /\ n <= it_max t)).
  { intros u Hu. rewrite parse_pos_spec by lia. unfold Digits, digits_value, horner. tauto. }
  unfold parse_int. destruct s as [|c rest].
  - split; [discriminate|].
    intros [[H|[(u & E & _)|(_ & u & m & E & _)]] _]; try discriminate.
    destruct H as (H & _). congruence.
  - destruct (byte_eqb c "+") eqn:Ep.
    { apply byte_eqb_eq in Ep as ->. cbn [orb].
      destruct rest as [|r0 rest0]; cbn [andb is_nil].
      - split; [discriminate|].
        intros [[H|[(u & E & H)|(_ & u & m & E & _)]] _].
        + destruct H as (_ & H & _). inversion H; subst. exfalso. apply plus_not_digit. assumption.
        + injection E as <-. destruct H as (H & _). congruence.
        + discriminate.
      - rewrite HD by discriminate. split.
        + intros [H Hle]. pose proof (Digits_nonneg _ _ H). split; [|lia].
          right. left. eexists. split; [reflexivity|exact H].
        + intros [[H|[(u & E & H)|(_ & u & m & E & _)]] Hle].
          * destruct H as (_ & H & _). inversion H; subst. exfalso. apply plus_not_digit. assumption.
          * injection E as <-. split; [exact H|lia].
          * discriminate. }
    cbn [orb]. destruct (byte_eqb c "-") eqn:Em.
    + apply byte_eqb_eq in Em as ->. destruct rest as [|r0 rest0]; cbn [andb is_nil].
      * split; [discriminate|].
        intros [[H|[(u & E & H)|(_ & u & m & E & H & _)]] _].
        -- destruct H as (_ & H & _). inversion H; subst. exfalso. apply minus_not_digit. assumption.
        -- discriminate.
        -- injection E as <-. destruct H as (H & _). congruence.
      * destruct (it_signed t) eqn:Es.
        -- rewrite parse_neg_pos. change (- 0) with 0.
           destruct (parse_pos (- it_min t) 0 (r0 :: rest0)) as [m|] eqn:E.
           ++ apply parse_pos_spec in E as (Hs & Hm & Hle); [|lia].
              split.
              ** intros H. injection H as <-.
                 assert (HDm : Digits (r0 :: rest0) m) by (split; [discriminate|auto]).
                 pose proof (Digits_nonneg _ _ HDm).
                 split; [|lia]. right. right. split; [reflexivity|].
                 exists (r0 :: rest0), m. auto.
              ** intros [[H|[(u & Eu & _)|(_ & u & m' & Eu & H & ->)]] Hr].
                 --- destruct H as (_ & H & _). inversion H; subst. exfalso. apply minus_not_digit. assumption.
                 --- discriminate.
                 --- injection Eu as <-. f_equal. f_equal. destruct H as (_ & _ & ->). exact Hm.
           ++ split; [discriminate|].
              intros [[H|[(u & Eu & _)|(_ & u & m' & Eu & H & ->)]] Hr].
              ** destruct H as (_ & H & _). inversion H; subst. exfalso. apply minus_not_digit. assumption.
              ** discriminate.
              ** injection Eu as <-. exfalso.
                 assert (E' : parse_pos (- it_min t) 0 (r0 :: rest0) = Some m').
                 { apply parse_pos_spec; [lia|]. destruct H as (_ & Hs & Hm). split; [exact Hs|].
                   split; [exact Hm|lia]. }
                 congruence.
        -- rewrite HD by discriminate. split.
           ++ intros [H _]. destruct H as (_ & H & _). inversion H; subst. exfalso. apply minus_not_digit. assumption.
           ++ intros [[H|[(u & E & H)|(E & _)]] _].
              ** destruct H as (_ & H & _). inversion H; subst. exfalso. apply minus_not_digit. assumption.
              ** discriminate.
              ** discriminate.
    + cbn [andb]. rewrite HD by discriminate. split.
      * intros [H Hle]. pose proof (Digits_nonneg _ _ H). split; [left; exact H|lia].
      * intros [[H|[(u & E & H)|(_ & u & m & E & _)]] Hle].
        -- split; [exact H|lia].
        -- injection E as -> _. rewrite byte_eqb_refl in Ep. discriminate.
        -- injection E as -> _. rewrite byte_eqb_refl in Em. discriminate.
Qed.

Ltac ity := unfold ity_ok; cbn; repeat split; try lia; try (intros; congruence).

Lemma parse_u32 s n : parse_int u32T s = Some n <-> UInt 32 s n.
Proof. rewrite parse_int_spec by ity. unfold UInt. cbn [it_signed it_min it_max u32T].
  change (2 ^ 32) with 4294967296. intuition lia. Qed.
Lemma parse_u64 s n : parse_int u64T s = Some n <-> UInt 64 s n.
Proof. rewrite parse_int_spec by ity. unfold UInt. cbn [it_signed it_min it_max u64T].
  change (2 ^ 64) with 18446744073709551616. intuition lia. Qed.
Lemma parse_u16 s n : parse_int u16T s = Some n <-> UInt 16 s n.
Proof. rewrite parse_int_spec by ity. unfold UInt. cbn [it_signed it_min it_max u16T].
  change (2 ^ 16) with 65536. intuition lia. Qed.
Lemma parse_u8 s n : parse_int u8T s = Some n <-> UInt 8 s n.
Proof. rewrite parse_int_spec by ity. unfold UInt. cbn [it_signed it_min it_max u8T].
  change (2 ^ 8) with 256. intuition lia. Qed.
Lemma parse_i32 s n : parse_int i32T s = Some n <-> SInt 32 s n.
Proof. rewrite parse_int_spec by ity. unfold SInt. cbn [it_signed it_min it_max i32T].
  change (2 ^ (32 - 1)) with 2147483648. intuition lia. Qed.
Lemma parse_i64 s n : parse_int i64T s = Some n <-> SInt 64 s n.
Proof. rewrite parse_int_spec by ity. unfold SInt. cbn [it_signed it_min it_max i64T].
  change (2 ^ (64 - 1)) with 9223372036854775808. intuition lia. Qed.
Lemma parse_i16 s n : parse_int i16T s = Some n <-> SInt 16 s n.
Proof. rewrite parse_int_spec by ity. unfold SInt. cbn [it_signed it_min it_max i16T].
  change (2 ^ (16 - 1)) with 32768. intuition lia. Qed.
Lemma parse_i8 s n : parse_int i8T s = Some n <-> SInt 8 s n.
Proof. rewrite parse_int_spec by ity. unfold SInt. cbn [it_signed it_min it_max i8T].
  change (2 ^ (8 - 1)) with 128. intuition lia. Qed.

Lemma parse_bool_spec s b : parse_bool s = Some b <-> Bool s b.
Proof.
  unfold parse_bool, Bool. destruct (bytes_eqb s (B "true")) eqn:E1.
  - apply bytes_eqb_eq in E1 as ->. split.
    + intros H. injection H as <-. auto.
    + intros [[_ ->]|[H _]]; [reflexivity|]. discriminate.
  - apply bytes_eqb_neq in E1. destruct (bytes_eqb s (B "false")) eqn:E2.
    + apply bytes_eqb_eq in E2 as ->. split.
      * intros H. injection H as <-. auto.
      * intros [[H _]|[_ ->]]; [contradiction|reflexivity].
    + apply bytes_eqb_neq in E2. split; [discriminate|]. intros [[H _]|[H _]]; contradiction.
Qed.

Lemma parse_string_spec s t : parse_string s = Some t <-> Text s t.
Proof. unfold parse_string, Text. split; congruence. Qed.

(** Lists. *)
Lemma Separated_split sep s l : Separated sep s l <-> l = split_on sep s.
Proof.
  split.
  - induction 1 as [x Hx|x s l Hx _ IH].
    + symmetry. apply split_on_single. exact Hx.
    + rewrite split_on_app_sep by exact Hx. f_equal. exact IH.
  - intros ->. pose proof (split_on_pieces sep s) as Hp.
    pose proof (split_on_join sep s) as Hj. pose proof (split_on_nonempty sep s) as Hn.
    remember (split_on sep s) as l eqn:El. rewrite <- Hj. clear El Hj s.
    induction l as [|x [|y l] IH]; [congruence| |].
    + inversion Hp; subst. constructor. assumption.
    + inversion Hp; subst. change (join_with [sep] (x :: y :: l)) with (x ++ sep :: join_with [sep] (y :: l)).
      constructor; [assumption|]. apply IH; [assumption|discriminate].
Qed.

Lemma parse_all_spec {A} (p : bytes -> option A) (R : bytes -> A -> Prop) :
  (forall s x, p s = Some x <-> R s x) ->
  forall l xs, parse_all p l = Some xs <-> Forall2 R l xs.
Proof.
  intros HR l. induction l as [|s l IH]; intros xs; cbn.
  - split.
    + intros H. injection H as <-. constructor.
    + intros H. inversion H. reflexivity.
  - destruct (p s) as [a|] eqn:E.
    + destruct (parse_all p l) as [r|] eqn:Er.
      * split.
        -- intros H. injection H as <-. constructor; [apply HR; exact E|apply IH; reflexivity].
        -- intros H. inversion H as [|? b ? r' Hb Hr]; subst. apply HR in Hb. apply IH in Hr. congruence.
      * split; [discriminate|]. intros H. inversion H as [|? b ? r' Hb Hr]; subst. apply IH in Hr. congruence.
    + split; [discriminate|]. intros H. inversion H as [|? b ? r' Hb Hr]; subst. apply HR in Hb. congruence.
Qed.

Lemma parse_list_spec {A} sep (p : bytes -> option A) (R : bytes -> A -> Prop) :
  (forall s x, p s = Some x <-> R s x) ->
  forall s xs, parse_list sep p s = Some xs <-> ListOf sep R s xs.
Proof.
  intros HR s xs. unfold parse_list, ListOf. rewrite (parse_all_spec p R HR). split.
  - intros H. exists (split_on sep s). split; [|exact H]. apply Separated_split. reflexivity.
  - intros (pieces & Hs & H). apply Separated_split in Hs as ->. exact H.
Qed.

Lemma parse_u32s s l : parse_ints u32T s = Some l <-> UIntList 32 s l.
Proof. apply parse_list_spec. apply parse_u32. Qed.

(** ** Decimal printing *)
Lemma zb_digit d : 0 <= d < 10 -> IsDigit (zb (48 + d)) /\ bz (zb (48 + d)) - 48 = d.
Proof. intros H. unfold IsDigit. rewrite bz_zb by lia. lia. Qed.

Lemma zb_zero d : 0 <= d < 10 -> zb (48 + d) = "0"%byte -> d = 0.
Proof.
  intros H E. change "0"%byte with (zb 48) in E. apply zb_inj in E; lia.
Qed.

(** [dec_digits] prepends to [acc] digits denoting [n], without leading zero. *)
Lemma dec_digits_spec fuel : forall n acc, 0 <= n -> n < 2 ^ Z.of_nat fuel ->
  fuel <> O ->
  exists ds, dec_digits fuel n acc = ds ++ acc
    /\ Digits ds n /\ (hd x00 ds = "0"%byte -> ds = B "0").
Proof.
  induction fuel as [|f IH]; intros n acc Hn Hf H0; [congruence|].
  cbn [dec_digits]. pose proof (Z.mod_pos_bound n 10 ltac:(lia)) as Hm.
  destruct (zb_digit (n mod 10) Hm) as [Hd1 Hd2].
  destruct (n <? 10) eqn:E.
  - exists [zb (48 + n mod 10)]. split; [reflexivity|]. split.
    + split; [discriminate|]. split; [constructor; [exact Hd1|constructor]|].
      unfold digits_value. cbn [fold_left]. rewrite Hd2. rewrite Z.mod_small; lia.
    + cbn [hd]. intros Hz. apply zb_zero in Hz; [|exact Hm]. rewrite Hz. reflexivity.
  - assert (Hdiv : 0 < n / 10) by (apply Z.div_str_pos; lia).
    destruct f as [|f'].
    { exfalso. change (2 ^ Z.of_nat 1) with 2 in Hf. lia. }
    destruct (IH (n / 10) (zb (48 + n mod 10) :: acc)) as (ds & E1 & HD & Hz).
    + lia.
    + rewrite Nat2Z.inj_succ, Z.pow_succ_r in Hf by lia.
      apply Z.div_lt_upper_bound; lia.
    + discriminate.
    + exists (ds ++ [zb (48 + n mod 10)]). split.
      { rewrite E1, <- app_assoc. reflexivity. }
      destruct HD as (Hne & Hall & Hv). split.
      * split; [destruct ds; discriminate|]. split.
        -- apply Forall_app. split; [exact Hall|]. constructor; [exact Hd1|constructor].
        -- unfold digits_value in *. rewrite fold_left_app, <- Hv. cbn [fold_left]. rewrite Hd2.
           pose proof (Z.div_mod n 10 ltac:(lia)). lia.
      * destruct ds as [|d0 ds]; [congruence|]. cbn [hd app] in *. intros Hd0.
        specialize (Hz Hd0). injection Hz as -> ->. exfalso.
        unfold digits_value in Hv. cbn in Hv. change (bz "0") with 48 in Hv. lia.
Qed.

Lemma log2_fuel n : 0 <= n -> n < 2 ^ Z.of_nat (dec_fuel n).
Proof.
  intros Hn. unfold dec_fuel. rewrite Nat2Z.inj_succ, Z2Nat.id by apply Z.log2_nonneg.
  destruct (Z.eq_dec n 0) as [->|H]; [reflexivity|].
  apply Z.log2_spec. lia.
Qed.

Lemma to_dec_nonneg n : 0 <= n ->
  Digits (to_dec n) n /\ (hd x00 (to_dec n) = "0"%byte -> to_dec n = B "0").
Proof.
  intros Hn. unfold to_dec. destruct (n <? 0) eqn:E; [lia|].
  destruct (dec_digits_spec (dec_fuel n) n []) as (ds & -> & HD & Hz);
    [lia|apply log2_fuel; lia|discriminate|].
  rewrite app_nil_r. auto.
Qed.

Lemma to_dec_Decimal n : Decimal n (to_dec n).
Proof.
  unfold Decimal. destruct (Z.ltb_spec n 0) as [H|H].
  - right. split; [exact H|]. unfold to_dec. destruct (n <? 0) eqn:E; [|lia].
    destruct (dec_digits_spec (dec_fuel (- n)) (- n) []) as (ds & E1 & HD & Hz);
      [lia|apply log2_fuel; lia|discriminate|].
    rewrite E1, app_nil_r. exists ds. split; [reflexivity|]. split; [exact HD|].
    intros Hd. specialize (Hz Hd). subst ds. destruct HD as (_ & _ & HD). change (digits_value (B "0")) with 0 in HD. lia.
  - left. split; [exact H|]. apply to_dec_nonneg. exact H.
Qed.

Lemma to_dec_Numeral n sg : (n < 0 -> sg = true) -> Numeral sg (to_dec n) n.
Proof.
  intros Hs. destruct (to_dec_Decimal n) as [(Hn & HD & _)|(Hn & t & E & HD & _)].
  - left. exact HD.
  - right. right. split; [apply Hs; exact Hn|]. exists t, (- n). rewrite E. split; [reflexivity|]. split; [exact HD|lia].
Qed.

Lemma parse_to_dec t n : ity_ok t -> it_min t <= n <= it_max t -> parse_int t (to_dec n) = Some n.
Proof.
  intros Hok Hr. apply parse_int_spec; [exact Hok|]. split; [|exact Hr].
  apply to_dec_Numeral. intros Hn. destruct Hok as (_ & _ & H).
  destruct (it_signed t); [reflexivity|]. specialize (H eq_refl). lia.
Qed.

Lemma to_dec_inj n m : to_dec n = to_dec m -> n = m.
Proof.
  intros E. eapply (Numeral_unique true).
  - apply to_dec_Numeral. reflexivity.
  - rewrite E. apply to_dec_Numeral. reflexivity.
Qed.

(** The bytes of a printed number. *)
Lemma to_dec_bytes n b : In b (to_dec n) -> IsDigit b \/ b = "-"%byte.
Proof.
  destruct (to_dec_Decimal n) as [(_ & (_ & H & _) & _)|(_ & t & E & (_ & H & _) & _)].
  - rewrite Forall_forall in H. auto.
  - rewrite E. intros [<-|Hin]; [auto|]. rewrite Forall_forall in H. auto.
Qed.

Lemma to_dec_nonempty n : to_dec n <> [].
Proof.
  destruct (to_dec_Decimal n) as [(_ & (H & _) & _)|(_ & t & E & _)]; [exact H|].
  rewrite E. discriminate.
Qed.

(** There is only one decimal text for a number. *)
Lemma digits_len_bound s : Forall IsDigit s -> forall n, 0 <= n -> 
  horner n s < (n + 1) * 10 ^ Z.of_nat (List.length s) /\ n * 10 ^ Z.of_nat (List.length s) <= horner n s.
Proof.
  induction 1 as [|b s Hb Hs IH]; intros n Hn.
  - cbn. lia.
  - cbn [List.length]. rewrite Nat2Z.inj_succ, Z.pow_succ_r by lia.
    change (horner n (b :: s)) with (horner (10 * n + (bz b - 48)) s).
    unfold IsDigit in Hb. destruct (IH (10 * n + (bz b - 48)) ltac:(lia)) as [H1 H2].
    assert (0 < 10 ^ Z.of_nat (List.length s)) by (apply Z.pow_pos_nonneg; lia).
    split; nia.
Qed.
