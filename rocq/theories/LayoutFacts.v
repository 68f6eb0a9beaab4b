(** Facts about structures in memory. *)
From Coq Require Import Lia.
From Verif Require Import Base BaseLemmas Path Version Options World Env Core Frontend Layout.
Local Open Scope Z_scope.

(** ** Offsets *)

Lemma align_ge n k : (n <= align n k)%nat.
Proof. unfold align. lia. Qed.

Lemma size_pos a t : (0 < size_of a t)%nat.
Proof. destruct t, a; cbn; lia. Qed.

Lemma align_multiple n k : (0 < k)%nat -> (align n k mod k = 0)%nat.
Proof.
  intros H. unfold align. pose proof (Nat.div_mod n k ltac:(lia)) as E. pose proof (Nat.mod_upper_bound n k ltac:(lia)) as U.
  destruct (Nat.eq_dec (n mod k) 0) as [Z|N].
  - rewrite Z, Nat.sub_0_r, Nat.mod_same, Nat.add_0_r by lia. exact Z.
  - rewrite (Nat.mod_small (k - n mod k)) by lia.
    replace (n + (k - n mod k))%nat with ((n / k + 1) * k)%nat by nia. apply Nat.mod_mul. lia.
Qed.

Lemma extent_ge a s : forall p, (p <= extent a p s)%nat.
Proof.
  induction s as [|[g t] s IH]; intros p; cbn [extent]; [lia|].
  specialize (IH (align p (size_of a t) + size_of a t)%nat). pose proof (align_ge p (size_of a t)). lia.
Qed.

Lemma place_bounds a s : forall p f o t, place a p s f = Some (o, t) -> (p <= o /\ o + size_of a t <= extent a p s)%nat.
Proof.
  induction s as [|[g t] s IH]; intros p f o u H; cbn [place extent] in *; [discriminate|].
  pose proof (align_ge p (size_of a t)). destruct (g =? f)%string.
  - injection H as <- <-. split; [assumption|]. apply extent_ge.
  - apply IH in H. lia.
Qed.

Lemma place_multiple a s : forall p f o t, place a p s f = Some (o, t) -> (o mod size_of a t = 0)%nat.
Proof.
  induction s as [|[g t] s IH]; intros p f o u H; cbn [place] in *; [discriminate|]. destruct (g =? f)%string.
  - injection H as <- <-. apply align_multiple, size_pos.
  - eauto.
Qed.

Lemma place_in a s : forall p f o t, place a p s f = Some (o, t) -> In (f, t) s.
Proof.
  induction s as [|[g t] s IH]; intros p f o u H; cbn [place] in *; [discriminate|].
  destruct (g =? f)%string eqn:E; [apply String.eqb_eq in E; subst; injection H as _ <-; left; reflexivity|]. right. eauto.
Qed.

Lemma place_some a s f : forall p, In f (map fst s) -> exists o t, place a p s f = Some (o, t).
Proof.
  induction s as [|[g t] s IH]; intros p HI; cbn [place map In fst] in *; [destruct HI|].
  destruct (g =? f)%string eqn:E; [eauto|]. apply String.eqb_neq in E. destruct HI as [HI|HI]; [congruence|]. auto.
Qed.

Lemma place_app a s m f r : forall p, place a p s f = Some r -> place a p (s ++ m) f = Some r.
Proof.
  induction s as [|[g t] s IH]; intros p H; cbn [place app] in *; [discriminate|]. destruct (g =? f)%string; auto.
Qed.

Lemma place_apart a s : forall p f g o t o' t', place a p s f = Some (o, t) -> place a p s g = Some (o', t') -> f <> g ->
  (o + size_of a t <= o' \/ o' + size_of a t' <= o)%nat.
Proof.
  induction s as [|[h u] s IH]; intros p f g o t o' t' Hf Hg N; cbn [place] in *; [discriminate|].
  destruct (h =? f)%string eqn:Ef, (h =? g)%string eqn:Eg.
  - apply String.eqb_eq in Ef, Eg. congruence.
  - injection Hf as <- <-. apply place_bounds in Hg. left. lia.
  - injection Hg as <- <-. apply place_bounds in Hf. right. lia.
  - eauto.
Qed.

Lemma align_divides a s f t : In (f, t) s -> (align_of a s mod size_of a t = 0)%nat.
Proof.
  intros HI. unfold align_of.
  assert (M : forall l, (forall x, In x l -> x = 4 \/ x = 8)%nat -> (fold_right Nat.max 1 l = 1 /\ l = [] \/ fold_right Nat.max 1 l = 4 /\ ~ In 8 l \/ fold_right Nat.max 1 l = 8)%nat).
  { induction l as [|x l IH]; intros HL; [left; auto|]. right. cbn [fold_right].
    destruct (HL x (or_introl eq_refl)) as [-> | ->].
    - destruct (IH (fun y Hy => HL y (or_intror Hy))) as [[-> ->]|[[-> N]| ->]]; [left; split; [reflexivity|]; intros [K|[]]; discriminate K| |right; reflexivity].
      left. split; [reflexivity|]. intros [K|K]; [discriminate K|auto].
    - right. destruct (IH (fun y Hy => HL y (or_intror Hy))) as [[-> ->]|[[-> N]| ->]]; reflexivity. }
  assert (S4 : forall x, In x (map (fun f => size_of a (snd f)) s) -> x = 4%nat \/ x = 8%nat).
  { intros x HX. apply in_map_iff in HX as ([g u] & <- & _). destruct u, a; cbn; auto. }
  assert (HS : In (size_of a t) (map (fun f => size_of a (snd f)) s)) by (apply in_map_iff; exists (f, t); auto).
  destruct (M _ S4) as [[_ E]|[[-> N]| ->]].
  - rewrite E in HS. destruct HS.
  - destruct (S4 _ HS) as [E|E]; rewrite E in *; [reflexivity|contradiction].
  - destruct (S4 _ HS) as [E|E]; rewrite E; reflexivity.
Qed.

Lemma size_fits a s : (extent a 0 s <= sizeof a s)%nat.
Proof. apply align_ge. Qed.

(** ** Bytes *)

Lemma le_length n z : List.length (le_bytes n z) = n.
Proof. revert z. induction n as [|n IH]; intros z; cbn; [reflexivity|]. rewrite IH. reflexivity. Qed.

Lemma le_round n : forall z, 0 <= z < 256 ^ Z.of_nat n -> le_value (le_bytes n z) = z.
Proof.
  induction n as [|n IH]; intros z H.
  - cbn in *. lia.
  - cbn [le_bytes le_value]. rewrite Nat2Z.inj_succ, Z.pow_succ_r in H by lia.
    rewrite bz_zb by (pose proof (Z.mod_pos_bound z 256 ltac:(lia)); lia).
    rewrite IH; [pose proof (Z.div_mod z 256 ltac:(lia)); lia|].
    split; [apply Z.div_pos; lia|]. apply Z.div_lt_upper_bound; lia.
Qed.

Lemma store_length o n z img : (o + n <= List.length img)%nat -> List.length (store o n z img) = List.length img.
Proof. intros H. unfold store. rewrite !app_length, le_length, firstn_length, skipn_length. lia. Qed.

Lemma load_store_same o n z img : (o + n <= List.length img)%nat -> 0 <= z < 256 ^ Z.of_nat n -> load o n (store o n z img) = z.
Proof.
  intros H R. unfold load, store.
  rewrite skipn_app, firstn_length, Nat.min_l by lia. rewrite (skipn_all2 (firstn o img)) by (rewrite firstn_length; lia).
  rewrite Nat.sub_diag. cbn [skipn app]. rewrite firstn_app, le_length, Nat.sub_diag. cbn [firstn]. rewrite app_nil_r.
  rewrite <- (le_length n z) at 1. rewrite firstn_all. apply le_round. exact R.
Qed.

Lemma nth_load o n (img : bytes) d : firstn n (skipn o img) = map (fun i => nth (o + i) img d) (seq 0 (Nat.min n (List.length img - o))).
Proof.
  revert o img. induction n as [|n IH]; intros o img; [reflexivity|].
  destruct (skipn o img) as [|b r] eqn:E.
  - assert (L : (List.length img - o = 0)%nat) by (rewrite <- skipn_length, E; reflexivity). rewrite L, Nat.min_0_r. reflexivity.
  - assert (L : (List.length img - o = S (List.length r))%nat) by (rewrite <- skipn_length, E; reflexivity).
    rewrite L. cbn [firstn Nat.min seq map]. f_equal.
    + rewrite Nat.add_0_r. pose proof (firstn_skipn o img) as F. rewrite E in F. rewrite <- F.
      rewrite app_nth2; rewrite firstn_length, Nat.min_l by lia; [|lia]. rewrite Nat.sub_diag. reflexivity.
    + assert (R : r = skipn (S o) img).
      { pose proof (firstn_skipn o img) as F. rewrite E in F. rewrite <- F at 1. change (S o) with (1 + o)%nat. rewrite skipn_app, firstn_length, Nat.min_l by lia. rewrite skipn_all2 by (rewrite firstn_length; lia). replace (1 + o - o)%nat with 1%nat by lia. reflexivity. }
      rewrite R at 1. rewrite IH. rewrite <- seq_shift, map_map.
      replace (List.length img - S o)%nat with (List.length r) by lia. apply map_ext. intros i. f_equal. lia.
Qed.

Lemma nth_store o n z img i d : (o + n <= List.length img)%nat -> (i < o \/ o + n <= i)%nat -> nth i (store o n z img) d = nth i img d.
Proof.
  intros H [L|G]; unfold store.
  - rewrite app_nth1 by (rewrite firstn_length; lia). pose proof (firstn_skipn o img) as F. rewrite <- F at 2.
    rewrite app_nth1 by (rewrite firstn_length; lia). reflexivity.
  - rewrite app_nth2; rewrite firstn_length, Nat.min_l by lia; [|lia].
    rewrite app_nth2; rewrite le_length; [|lia].
    pose proof (firstn_skipn (o + n) img) as F. rewrite <- F at 2.
    rewrite (app_nth2 (firstn (o + n) img)); rewrite firstn_length, Nat.min_l by lia; [|lia]. f_equal. lia.
Qed.

Lemma load_store_other o n z img p m : (o + n <= List.length img)%nat -> (p + m <= List.length img)%nat ->
  (p + m <= o \/ o + n <= p)%nat -> load p m (store o n z img) = load p m img.
Proof.
  intros H1 H2 D. unfold load. f_equal. rewrite !(nth_load _ _ _ x00), store_length by exact H1.
  apply map_ext_in. intros i HI. apply in_seq in HI. apply nth_store; [exact H1|]. lia.
Qed.

(** ** Fields *)

Lemma field_fits a s f o t (img : bytes) : place a 0 s f = Some (o, t) -> (sizeof a s <= List.length img)%nat -> (o + size_of a t <= List.length img)%nat.
Proof. intros H L. apply place_bounds in H. pose proof (size_fits a s). lia. Qed.

Lemma set_length a s f z img : (sizeof a s <= List.length img)%nat -> List.length (set_field a s f z img) = List.length img.
Proof.
  intros L. unfold set_field. destruct (place a 0 s f) as [[o t]|] eqn:E; [|reflexivity].
  apply store_length. eapply field_fits; eassumption.
Qed.

Lemma get_set_same a s f t z img : In f (map fst s) -> (sizeof a s <= List.length img)%nat ->
  (forall o u, place a 0 s f = Some (o, u) -> u = t) -> 0 <= z < 256 ^ Z.of_nat (size_of a t) ->
  get_field a s f (set_field a s f z img) = Some z.
Proof.
  intros HI L T R. unfold get_field, set_field. destruct (place_some a s f 0 HI) as (o & u & E). rewrite E.
  pose proof (T o u E) as K. subst u. f_equal. apply load_store_same; [|exact R]. eapply field_fits; eassumption.
Qed.

Lemma get_set_other a s f g z img : f <> g -> (sizeof a s <= List.length img)%nat ->
  get_field a s g (set_field a s f z img) = get_field a s g img.
Proof.
  intros N L. unfold get_field, set_field. destruct (place a 0 s f) as [[o t]|] eqn:E; [|reflexivity].
  destruct (place a 0 s g) as [[p u]|] eqn:F; [|reflexivity]. f_equal.
  apply load_store_other; [eapply field_fits; eassumption|eapply field_fits; eassumption|].
  pose proof (place_apart a s 0 _ _ _ _ _ _ E F N). lia.
Qed.

Lemma place_type a s f t : NoDup (map fst s) -> In (f, t) s -> forall p o u, place a p s f = Some (o, u) -> u = t.
Proof.
  induction s as [|[g w] s IH]; intros ND HI p o u H; cbn [place] in H; [discriminate|].
  cbn [map fst] in ND. inversion ND as [|? ? NI ND2]; subst. destruct HI as [HI|HI].
  - injection HI as -> ->. rewrite String.eqb_refl in H. injection H as _ <-. reflexivity.
  - destruct (g =? f)%string eqn:E.
    + apply String.eqb_eq in E. subst g. exfalso. apply NI. apply in_map_iff. exists (f, t). auto.
    + eapply IH; eassumption.
Qed.

Lemma fold_fields a s v l : forall img, (sizeof a s <= List.length img)%nat -> incl l s -> NoDup (map fst s) -> NoDup (map fst l) ->
  let img' := fold_left (fun i f => set_field a s (fst f) (v (fst f)) i) l img in
  List.length img' = List.length img
  /\ (forall g, ~ In g (map fst l) -> get_field a s g img' = get_field a s g img)
  /\ (forall f t, In (f, t) l -> 0 <= v f < 256 ^ Z.of_nat (size_of a t) -> get_field a s f img' = Some (v f)).
Proof.
  induction l as [|[f t] l IH]; intros img L I NDs NDl; cbv zeta; cbn [fold_left].
  - split; [reflexivity|]. split; [reflexivity|]. intros ? ? [].
  - cbn [map fst] in NDl. inversion NDl as [|? ? NI ND2]; subst.
    assert (L2 : List.length (set_field a s f (v f) img) = List.length img) by (apply set_length; exact L).
    destruct (IH (set_field a s f (v f) img)) as (E1 & E2 & E3);
      [lia|intros x Hx; apply I; right; exact Hx|exact NDs|exact ND2|]. cbn [fst].
    split; [lia|]. split.
    + intros g N. rewrite E2 by (intros K; apply N; right; exact K). apply get_set_other; [|exact L].
      intros ->. apply N. left. reflexivity.
    + intros g u [K|K] R.
      * injection K as -> ->. rewrite E2 by exact NI.
        apply (get_set_same a s g u); [apply in_map_iff; exists (g, u); split; [reflexivity|apply I; left; reflexivity]|exact L| |exact R].
        intros o w. apply (place_type a s g u NDs). apply I. left. reflexivity.
      * apply E3 with u; assumption.
Qed.

(** ** Header and bindings *)

Definition as_rust (s : structure) : structure := map (fun f => (rust_name (fst f), snd f)) s.

Lemma rust_name_inj f g : f <> "type_"%string -> g <> "type_"%string -> rust_name f = rust_name g -> f = g.
Proof.
  unfold rust_name. destruct (f =? "type")%string eqn:E, (g =? "type")%string eqn:F;
    try apply String.eqb_eq in E; try apply String.eqb_eq in F; congruence.
Qed.

Lemma place_as_rust a s f : ~ In "type_"%string (map fst s) -> f <> "type_"%string ->
  forall p, place a p (as_rust s) (rust_name f) = place a p s f.
Proof.
  intros N NF. induction s as [|[g t] s IH]; intros p; [reflexivity|].
  cbn [as_rust map place fst snd]. cbn [map fst In] in N.
  destruct (g =? f)%string eqn:E.
  - apply String.eqb_eq in E. subst g. rewrite String.eqb_refl. reflexivity.
  - apply String.eqb_neq in E. destruct (rust_name g =? rust_name f)%string eqn:F.
    + apply String.eqb_eq in F. apply rust_name_inj in F; [congruence|tauto|exact NF].
    + apply IH. tauto.
Qed.

Fixpoint distinct (l : list string) : bool :=
  match l with [] => true | x :: l' => negb (existsb (String.eqb x) l') && distinct l' end.
Lemma distinct_NoDup l : distinct l = true -> NoDup l.
Proof.
  induction l as [|x l IH]; intros H; [constructor|]. cbn in H. apply andb_prop in H as [H1 H2]. constructor; [|auto].
  intros HI. apply negb_true_iff in H1. rewrite <- not_true_iff_false in H1. apply H1. apply existsb_exists. exists x.
  split; [exact HI|apply String.eqb_refl].
Qed.

Lemma structures_agree h b : In (h, b) structures ->
  b = as_rust h /\ NoDup (map fst h) /\ NoDup (map fst b) /\ ~ In "type_"%string (map fst h).
Proof.
  assert (D : forallb (fun x => distinct (map fst (fst x)) && distinct (map fst (snd x))
    && negb (existsb (String.eqb "type_") (map fst (fst x)))) structures = true) by (vm_compute; reflexivity).
  assert (E : forall x, In x structures -> snd x = as_rust (fst x)).
  { intros x HX. cbn in HX. repeat (destruct HX as [<-|HX]; [reflexivity|]). destruct HX. }
  intros HI. split; [exact (E _ HI)|]. rewrite forallb_forall in D. specialize (D _ HI). cbn [fst snd] in D.
  apply andb_prop in D as [D D3]. apply andb_prop in D as [D1 D2].
  split; [apply distinct_NoDup; exact D1|]. split; [apply distinct_NoDup; exact D2|].
  intros K. apply negb_true_iff in D3. rewrite <- not_true_iff_false in D3. apply D3. apply existsb_exists.
  exists "type_"%string. split; [exact K|reflexivity].
Qed.

Lemma found h b a old more f t v img : In (h, b) structures -> h = old ++ more -> In (f, t) old ->
  List.length img = sizeof a b -> 0 <= v (rust_name f) < 256 ^ Z.of_nat (size_of a t) ->
  get_field a old f (initialised a b v img) = Some (v (rust_name f)).
Proof.
  intros HS E HI L R. destruct (structures_agree h b HS) as (B & N1 & N2 & NT).
  destruct (fold_fields a b v b img) as (_ & _ & G); [lia|apply incl_refl|exact N2|exact N2|].
  assert (NF : f <> "type_"%string).
  { intros ->. apply NT. rewrite E, map_app. apply in_or_app. left. apply in_map_iff. exists ("type_"%string, t). auto. }
  assert (HB : In (rust_name f, t) b).
  { rewrite B. unfold as_rust. apply in_map_iff. exists (f, t). split; [reflexivity|]. rewrite E. apply in_or_app. left. exact HI. }
  specialize (G _ _ HB R). rewrite <- G. unfold get_field.
  assert (HF : In f (map fst old)) by (apply in_map_iff; exists (f, t); auto).
  destruct (place_some a old f 0 HF) as (o & u & P). rewrite P.
  assert (P2 : place a 0 b (rust_name f) = Some (o, u)).
  { rewrite B, place_as_rust by assumption. rewrite E. apply place_app. exact P. }
  rewrite P2. reflexivity.
Qed.

(** sudo stores into a field. *)
Lemma written h b a f t z img : In (h, b) structures -> In (f, t) h -> List.length img = sizeof a b ->
  0 <= z < 256 ^ Z.of_nat (size_of a t) ->
  let img' := set_field a h f z img in
  List.length img' = sizeof a b
  /\ get_field a b (rust_name f) img' = Some z
  /\ forall g, In g (map fst b) -> g <> rust_name f -> get_field a b g img' = get_field a b g img.
Proof.
  intros HS HI L R. cbv zeta. destruct (structures_agree h b HS) as (B & N1 & N2 & NT).
  assert (NF : f <> "type_"%string) by (intros ->; apply NT; apply in_map_iff; exists ("type_"%string, t); auto).
  assert (SE : set_field a h f z img = set_field a b (rust_name f) z img).
  { unfold set_field. rewrite B, place_as_rust by assumption. reflexivity. }
  rewrite SE.
  assert (HB : In (rust_name f, t) b) by (rewrite B; unfold as_rust; apply in_map_iff; exists (f, t); auto).
  split; [rewrite set_length by lia; exact L|]. split.
  - apply (get_set_same a b _ t); [apply in_map_iff; exists (rust_name f, t); auto|lia| |exact R].
    intros o u. apply (place_type a b _ t N2 HB).
  - intros g _ NG. apply get_set_other; [congruence|lia].
Qed.

Lemma aligned a s f o t base : place a 0 s f = Some (o, t) -> (base mod align_of a s = 0)%nat -> ((base + o) mod size_of a t = 0)%nat.
Proof.
  intros P H. pose proof (place_multiple a s 0 f o t P) as M. pose proof (align_divides a s f t (place_in _ _ _ _ _ _ P)) as D.
  pose proof (size_pos a t) as S0. assert (A0 : align_of a s <> 0%nat).
  { unfold align_of. generalize (map (fun f0 : string * ctype => size_of a (snd f0)) s). intros l. induction l; cbn [fold_right]; lia. }
  apply Nat.mod_divides in M as [x Ex]; [|lia]. apply Nat.mod_divides in D as [y Ey]; [|lia]. apply Nat.mod_divides in H as [w Ew]; [|lia].
  rewrite Ew, Ey, Ex. replace (size_of a t * y * w + size_of a t * x)%nat with ((y * w + x) * size_of a t)%nat by lia. apply Nat.mod_mul. lia.
Qed.

(** ** The exported table *)

Definition set_by_plugin : list string :=
  ["open"; "close"; "show_version"; "log_ttyin"; "log_ttyout"; "log_stdin"; "log_stdout"; "log_stderr"; "change_winsize"]%string.

Lemma table_found P pl a A old more f t img : h_io_plugin = old ++ more -> In (f, t) old ->
  List.length img = sizeof a b_io_plugin -> (forall g, 0 < A g < 256 ^ Z.of_nat (size_of a Pointer)) ->
  get_field a old f (table_bytes a A (exported P pl) img)
  = Some (if (f =? "type")%string then 2 else if (f =? "version")%string then 65553
          else if in_dec String.string_dec f set_by_plugin then A f else 0).
Proof.
  intros E HI L HA.
  assert (HS : In (h_io_plugin, b_io_plugin) structures) by (vm_compute; tauto).
  assert (HH : In (f, t) h_io_plugin) by (rewrite E; apply in_or_app; left; exact HI).
  assert (V : table_value A (exported P pl) (rust_name f)
    = (if (f =? "type")%string then 2 else if (f =? "version")%string then 65553
       else if in_dec String.string_dec f set_by_plugin then A f else 0)).
  { clear - HH. cbn in HH. repeat (destruct HH as [HH|HH]; [injection HH as <- <-; reflexivity|]). destruct HH. }
  rewrite <- V. apply (found h_io_plugin b_io_plugin a old more f t); try assumption. rewrite V.
  pose proof (HA f) as HF.
  assert (W : (f = "type"%string \/ f = "version"%string) \/ t = Pointer).
  { clear - HH. cbn in HH. repeat (destruct HH as [HH|HH]; [injection HH as <- <-; tauto|]). destruct HH. }
  destruct W as [[-> | ->]| ->].
  - cbn. destruct t, a; cbn; lia.
  - cbn. destruct t, a; cbn; lia.
  - destruct (f =? "type")%string; [destruct a; cbn; lia|]. destruct (f =? "version")%string; [destruct a; cbn; lia|].
    destruct (in_dec String.string_dec f set_by_plugin); [lia|]. destruct a; cbn; lia.
Qed.

Lemma same_size h b a : In (h, b) structures -> sizeof a h = sizeof a b /\ align_of a h = align_of a b.
Proof.
  intros HI. cbn in HI. repeat (destruct HI as [HI|HI]; [injection HI as <- <-; destruct a; split; reflexivity|]). destruct HI.
Qed.
