(** Reading the arguments from memory. *)
From Coq Require Import Lia.
From Verif Require Import Base BaseLemmas Path Version Options World Sys Io Env Core Spec OptionProofs VersionProofs Memory MemorySpec.
Local Open Scope Z_scope.

(** Reading succeeds with [a] and touches only addresses in [P]. *)
Definition gives {A} (mem : memory) (m : rd A) (a : A) (P : Z -> Prop) : Prop :=
  exists l, m mem = (RDone a, l) /\ Forall P l.

Lemma gives_ret {A} mem (a : A) P : gives mem (rret a) a P.
Proof. exists []. split; [reflexivity | constructor]. Qed.

Lemma gives_bind {A C} mem (m : rd A) (f : A -> rd C) a c P :
  gives mem m a P -> gives mem (f a) c P -> gives mem (rbind m f) c P.
Proof.
  intros (l & E & F) (l' & E' & F'). exists (l ++ l'). unfold rbind. rewrite E, E'.
  split; [reflexivity | apply Forall_app; split; assumption].
Qed.

Lemma gives_weaken {A} mem (m : rd A) a (P Q : Z -> Prop) :
  gives mem m a P -> (forall x, P x -> Q x) -> gives mem m a Q.
Proof. intros (l & E & F) H. exists l. split; [exact E | eapply Forall_impl; eauto]. Qed.

Lemma load_gives mem p b (P : Z -> Prop) : mem p = Some b -> P p -> gives mem (load p) b P.
Proof. intros E H. exists [p]. unfold load. rewrite E. split; [reflexivity | repeat constructor; exact H]. Qed.

Lemma load_n_gives mem l : forall p,
  (forall i b, nth_error l i = Some b -> mem (p + Z.of_nat i) = Some b) ->
  gives mem (load_n (List.length l) p) l (fun x => p <= x < p + Z.of_nat (List.length l)).
Proof.
  induction l as [|b l IH]; intros p H; [apply gives_ret|].
  cbn [List.length load_n]. eapply gives_bind.
  { apply load_gives with (b := b); [|lia]. specialize (H 0%nat b eq_refl). rewrite Z.add_0_r in H. exact H. }
  eapply gives_bind; [|apply gives_ret].
  eapply gives_weaken.
  { apply IH. intros i c Hi. specialize (H (S i) c Hi). rewrite <- H. f_equal. lia. }
  cbn. intros x. lia.
Qed.

Lemma le_value_bytes n : forall q, 0 <= q < 256 ^ Z.of_nat n ->
  forall l, List.length l = n -> (forall i b, nth_error l i = Some b -> b = byte_of q i) -> le_value l = q.
Proof.
  induction n as [|n IH]; intros q Hq l Hl Hb.
  - destruct l; [|discriminate]. cbn in *. lia.
  - destruct l as [|b l]; [discriminate|]. cbn [le_value].
    pose proof (Hb 0%nat b eq_refl) as H0. unfold byte_of in H0. cbn [Z.of_nat] in H0.
    rewrite Z.pow_0_r, Z.div_1_r in H0.
    rewrite Nat2Z.inj_succ, Z.pow_succ_r in Hq by lia.
    rewrite (IH (q / 256)).
    + rewrite H0, bz_zb by (pose proof (Z.mod_pos_bound q 256); lia). pose proof (Z.div_mod q 256). lia.
    + split; [apply Z.div_pos; lia | apply Z.div_lt_upper_bound; lia].
    + now injection Hl.
    + intros i c Hi. rewrite (Hb (S i) c Hi). unfold byte_of.
      rewrite Nat2Z.inj_succ, Z.pow_succ_r by lia. rewrite Z.div_div by lia. reflexivity.
Qed.

Section Word.
Variable word : nat.

Lemma load_ptr_gives mem p q : PointerAt word mem p q ->
  gives mem (load_ptr word p) q (fun x => p <= x < p + Z.of_nat word).
Proof.
  intros (N & A & R & H). unfold load_ptr, wordz.
  destruct (Z.eqb_spec p 0) as [?|_]; [contradiction|]. cbn [orb]. rewrite A. cbn [Z.eqb negb].
  assert (L : List.length (map (byte_of q) (seq 0 word)) = word) by (now rewrite map_length, seq_length).
  assert (NT : forall i b, nth_error (map (byte_of q) (seq 0 word)) i = Some b -> (i < word)%nat /\ b = byte_of q i).
  { intros i b Hi. rewrite nth_error_map in Hi.
    destruct (nth_error (seq 0 word) i) as [j|] eqn:E; [|discriminate]. cbn in Hi. injection Hi as <-.
    assert (i < word)%nat by (rewrite <- (seq_length word 0); apply nth_error_Some; congruence).
    split; [assumption|]. rewrite nth_error_nth' with (d := 0%nat) in E by (now rewrite seq_length).
    rewrite seq_nth in E by assumption. injection E as <-. reflexivity. }
  pose proof (load_n_gives mem (map (byte_of q) (seq 0 word)) p) as G. rewrite L in G.
  eapply gives_bind.
  - apply G. intros i b Hi. destruct (NT i b Hi) as [Hw ->]. apply H. exact Hw.
  - cbn beta. rewrite (le_value_bytes word q R _ L); [apply gives_ret|]. intros i b Hi. apply (NT i b Hi).
Qed.

Lemma cstr_from_gives mem s : forall q n, (List.length s < n)%nat -> ~ In x00 s ->
  (forall i b, nth_error (s ++ [x00]) i = Some b -> mem (q + Z.of_nat i) = Some b) ->
  gives mem (cstr_from n q) s (fun x => q <= x <= q + Z.of_nat (List.length s)).
Proof.
  induction s as [|b s IH]; intros q n Hn Hz H; (destruct n as [|n]; [lia|]); cbn [cstr_from].
  - eapply gives_bind.
    { apply load_gives with (b := x00); [|cbn [List.length]; lia].
      specialize (H 0%nat x00 eq_refl). rewrite Z.add_0_r in H. exact H. }
    cbn. apply gives_ret.
  - eapply gives_bind.
    { apply load_gives with (b := b); [|cbn [List.length]; lia].
      specialize (H 0%nat b eq_refl). rewrite Z.add_0_r in H. exact H. }
    cbn beta. assert (byte_eqb b NUL = false) as ->.
    { destruct (byte_eqb b NUL) eqn:E; [|reflexivity]. exfalso. apply Hz. left.
      unfold byte_eqb in E. apply Byte.byte_dec_bl in E. exact E. }
    eapply gives_bind; [|apply gives_ret].
    eapply gives_weaken.
    { apply IH; [cbn in Hn; lia | intros K; apply Hz; right; exact K |].
      intros i c Hi. specialize (H (S i) c Hi). rewrite <- H. f_equal. lia. }
    cbn [List.length]. intros x. lia.
Qed.

Lemma cstr_at_gives mem q s n : StringAt mem q s -> (List.length s < n)%nat ->
  gives mem (cstr_at n q) s (fun x => q <= x <= q + Z.of_nat (List.length s)).
Proof.
  intros (N & Z & H) L. unfold cstr_at. destruct (Z.eqb_spec q 0); [contradiction|].
  apply cstr_from_gives; assumption.
Qed.

(** ** Arrays *)
Fixpoint need (l : list bytes) : nat :=
  match l with [] => 1 | s :: l' => S (List.length s + 1 + need l') end%nat.

Lemma cstr_plain s : ~ In x00 s -> cstr s = s.
Proof.
  intros H. unfold cstr. induction s as [|b s IH]; [reflexivity|]. cbn.
  assert (byte_eqb b NUL = false) as ->.
  { destruct (byte_eqb b NUL) eqn:E; [|reflexivity]. exfalso. apply H. left.
    unfold byte_eqb in E. apply Byte.byte_dec_bl in E. exact E. }
  assert (IH' : fst (span (fun b0 : byte => byte_eqb b0 NUL) s) = s) by (apply IH; intros K; apply H; right; exact K).
  destruct (span (fun b0 : byte => byte_eqb b0 NUL) s) as [x y]. cbn in *. congruence.
Qed.

Lemma PointerAt_word mem p q : PointerAt word mem p q -> word <> 0%nat.
Proof.
  intros (N & A & _) ->. cbn in A. rewrite Zmod_0_r in A. contradiction.
Qed.

(** The array from its [k]-th element on. *)
Lemma entry_shift mem p i q s : EntryAt word mem p (S i) q s -> EntryAt word mem (p + Z.of_nat word) i q s.
Proof.
  unfold EntryAt. intros [H K]. split; [|exact K].
  replace (p + Z.of_nat word + Z.of_nat word * Z.of_nat i) with (p + Z.of_nat word * Z.of_nat (S i)) by lia. exact H.
Qed.

Lemma loop_gives mem l : forall p m n,
  (forall i s, nth_error l i = Some s -> exists q, EntryAt word mem p i q s) ->
  PointerAt word mem (p + Z.of_nat word * Z.of_nat (List.length l)) 0 ->
  (need l <= n)%nat ->
  gives mem (from_raw_mem_loop word n p m) (from_raw_loop l m)
    (fun x => InSlots word p (S (List.length l)) x \/ InStrings word mem p l x).
Proof.
  induction l as [|s l IH]; intros p m n E T L; (destruct n as [|n]; [cbn in L; lia|]); cbn [from_raw_mem_loop from_raw_loop].
  - eapply gives_bind.
    { eapply gives_weaken; [apply load_ptr_gives with (q := 0)|].
      - cbn [List.length] in T. rewrite Z.mul_0_r, Z.add_0_r in T. exact T.
      - cbn. intros x Hx. left. unfold InSlots. lia. }
    cbn. apply gives_ret.
  - destruct (E 0%nat s eq_refl) as (q & En). pose proof En as [Pt St]. rewrite Z.mul_0_r, Z.add_0_r in Pt.
    assert (Q : q <> 0) by (destruct St; assumption).
    assert (Z0 : ~ In x00 s) by (destruct St as (_ & K & _); exact K).
    cbn [List.length] in *. cbn [need] in L.
    assert (G : gives mem (load_ptr word p) q (fun x => InSlots word p (S (S (List.length l))) x \/ InStrings word mem p (s :: l) x)).
    { eapply gives_weaken; [apply load_ptr_gives; exact Pt|]. cbn. intros x Hx. left. unfold InSlots. lia. }
    eapply gives_bind; [exact G|]. cbn beta. destruct (Z.eqb_spec q 0); [contradiction|].
    eapply gives_bind; [exact G|]. cbn beta.
    eapply gives_bind.
    { eapply gives_weaken; [apply cstr_at_gives with (s := s); [exact St | lia]|].
      intros x Hx. right. exists 0%nat, q, s. split; [reflexivity|]. split; [exact En | exact Hx]. }
    cbn beta. rewrite (cstr_plain s Z0). destruct (split_entry s) as [k v].
    eapply gives_weaken; [apply IH|].
    + intros i s' Hi. destruct (E (S i) s' Hi) as (q' & En'). exists q'. apply entry_shift. exact En'.
    + replace (p + wordz word + Z.of_nat word * Z.of_nat (List.length l))
        with (p + Z.of_nat word * Z.of_nat (S (List.length l))) by (unfold wordz; lia). exact T.
    + lia.
    + unfold wordz. intros x [Hx | (i & q' & s' & Hi & En' & Hx)].
      * left. unfold InSlots in *. lia.
      * right. exists (S i), q', s'. split; [exact Hi|]. split; [|exact Hx].
        destruct En' as [A C]. split; [|exact C].
        replace (p + Z.of_nat word * Z.of_nat (S i)) with (p + Z.of_nat word + Z.of_nat word * Z.of_nat i) by lia. exact A.
Qed.

Definition need_raw (r : raw) : nat := match r with None => 0 | Some l => need l end.

Lemma from_raw_gives mem p r n : Passed word mem p r -> (need_raw r <= n)%nat ->
  gives mem (from_raw_mem word n p) (from_raw r) (InPassed word mem p r).
Proof.
  unfold Passed, from_raw_mem, from_raw, need_raw. destruct r as [l|]; intros H L.
  - destruct H as [(N & A & E) T]. destruct (Z.eqb_spec p 0); [contradiction|].
    apply loop_gives; assumption.
  - rewrite H. cbn. apply gives_ret.
Qed.

(** ** argv *)
Lemma load_ptrs_gives mem l : forall p,
  (forall i s, nth_error l i = Some s -> exists q, EntryAt word mem p i q s) ->
  exists qs, gives mem (load_ptrs word (List.length l) p) qs (InSlots word p (List.length l))
    /\ Forall2 (fun q s => exists i, nth_error l i = Some s /\ EntryAt word mem p i q s) qs l.
Proof.
  induction l as [|s l IH]; intros p E.
  - exists []. split; [apply gives_ret | constructor].
  - destruct (E 0%nat s eq_refl) as (q & En). pose proof En as [Pt St]. rewrite Z.mul_0_r, Z.add_0_r in Pt.
    destruct (IH (p + Z.of_nat word)) as (qs & G & F).
    { intros i s' Hi. destruct (E (S i) s' Hi) as (q' & En'). exists q'. apply entry_shift. exact En'. }
    exists (q :: qs). split.
    + cbn [List.length load_ptrs]. eapply gives_bind.
      { eapply gives_weaken; [apply load_ptr_gives; exact Pt|]. cbn. intros x Hx. unfold InSlots. lia. }
      eapply gives_bind; [|apply gives_ret].
      eapply gives_weaken; [exact G|]. unfold InSlots. intros x. lia.
    + constructor; [exists 0%nat; split; [reflexivity | exact En]|].
      clear -F. revert F. generalize l at 1 3. intros l0 F. induction F as [|q' s' qs l1 (i & Hi & A & C) F IHF]; constructor; [|exact IHF]. exists (S i). split; [exact Hi|].
      split; [|exact C].
      replace (p + Z.of_nat word * Z.of_nat (S i)) with (p + Z.of_nat word + Z.of_nat word * Z.of_nat i) by lia. exact A.
Qed.

Lemma cstrs_gives mem p l0 n : forall qs l,
  Forall2 (fun q s => exists i, nth_error l0 i = Some s /\ EntryAt word mem p i q s) qs l ->
  Forall (fun s => List.length s < n)%nat l ->
  gives mem (cstrs n qs) l (InStrings word mem p l0) /\ map cstr l = l.
Proof.
  intros qs l F. induction F as [|q s qs l (i & Hi & En) F IH]; intros L.
  - split; [apply gives_ret | reflexivity].
  - inversion L as [|? ? L1 L2]; subst. destruct (IH L2) as [G M]. pose proof En as [_ St]. split.
    + cbn [cstrs]. eapply gives_bind.
      { eapply gives_weaken; [apply cstr_at_gives; [exact St | exact L1]|].
        intros x Hx. exists i, q, s. split; [exact Hi|]. split; [exact En | exact Hx]. }
      eapply gives_bind; [exact G | apply gives_ret].
    + cbn [map]. rewrite M, cstr_plain; [reflexivity|]. destruct St as (_ & K & _). exact K.
Qed.

Lemma need_lengths l n : (need l <= n)%nat -> Forall (fun s => List.length s < n)%nat l.
Proof.
  revert n. induction l as [|s l IH]; intros n H; constructor; cbn in H.
  - lia.
  - apply IH. lia.
Qed.

Lemma cmdline_gives mem argc argv l n : argc = Z.of_nat (List.length l) -> ArrayAt word mem argv l -> (need l <= n)%nat ->
  gives mem (cmdline_mem word n argc argv) (map cstr l)
    (fun x => InSlots word argv (List.length l) x \/ InStrings word mem argv l x).
Proof.
  intros -> (N & A & E) L. unfold cmdline_mem, wordz.
  destruct (Z.eqb_spec argv 0); [contradiction|]. cbn [orb]. rewrite A. cbn [Z.eqb negb orb].
  destruct (Z.ltb_spec (Z.of_nat (List.length l)) 0); [lia|]. rewrite Nat2Z.id.
  destruct (load_ptrs_gives mem l argv E) as (qs & G & F).
  destruct (cstrs_gives mem argv l n qs l F (need_lengths l n L)) as [G' M]. rewrite M.
  eapply gives_bind; (eapply gives_weaken; [eassumption|]); auto.
Qed.

(** ** The environment *)
Definition bound (a : open_args) : nat :=
  (need_raw (oa_settings a) + need_raw (oa_user_info a) + need_raw (oa_command_info a) + need (oa_argv a)
   + need_raw (oa_user_env a) + need_raw (oa_plugin_options a))%nat.

Lemma io_env_gives mem c a n pl name vers : Represents word mem c a -> (bound a <= n)%nat ->
  gives mem (io_env_new_mem word n pl name vers c) (io_env_new pl name vers a) (InArguments word mem c a).
Proof.
  intros [RV RP RS RU RC RA RB RE RO] L. unfold bound in L. unfold io_env_new_mem, io_env_new. rewrite RV, RP.
  destruct (version_check (from_ffi (oa_version a))) as [v|e]; [|apply gives_ret].
  destruct (pf_new (Some name) (oa_printf a)) as [out err].
  eapply gives_bind.
  { eapply gives_weaken; [apply cmdline_gives; [exact RA | exact RB | lia]|]. intros x Hx. unfold InArguments. tauto. }
  eapply gives_bind.
  { eapply gives_weaken; [apply from_raw_gives; [exact RS | lia]|]. intros x Hx. unfold InArguments. tauto. }
  cbn beta. destruct (settings_try_from pl (from_raw (oa_settings a))) as [[se|e]|]; try apply gives_ret.
  eapply gives_bind.
  { eapply gives_weaken; [apply from_raw_gives; [exact RU | lia]|]. intros x Hx. unfold InArguments. tauto. }
  cbn beta. destruct (user_info_try_from (from_raw (oa_user_info a))) as [ui|e]; try apply gives_ret.
  eapply gives_bind.
  { eapply gives_weaken; [apply from_raw_gives; [exact RC | lia]|]. intros x Hx. unfold InArguments. tauto. }
  eapply gives_bind.
  { eapply gives_weaken; [apply from_raw_gives; [exact RE | lia]|]. intros x Hx. unfold InArguments. tauto. }
  eapply gives_bind.
  { eapply gives_weaken; [apply from_raw_gives; [exact RO | lia]|]. intros x Hx. unfold InArguments. tauto. }
  apply gives_ret.
Qed.

Lemma core_open_with_eq P pl a st :
  core_open_with P pl (oa_printf a) (io_env_new pl (pg_name P) (pg_version P) a) st = core_open P pl a st.
Proof. reflexivity. Qed.

Lemma open_mem_gives P mem c a pl st : Represents word mem c a ->
  exists n0, forall n, (n0 <= n)%nat ->
    gives mem (core_open_mem word P n pl c st) (core_open P pl a st) (InArguments word mem c a).
Proof.
  intros R. exists (bound a). intros n L. unfold core_open_mem.
  eapply gives_bind; [apply io_env_gives; [exact R | exact L]|].
  rewrite (rp_printf _ _ _ _ R), core_open_with_eq. apply gives_ret.
Qed.
End Word.

(** ** The log callbacks *)
Lemma log_mem_gives P mem pl s buf len data st :
  buf <> 0 -> len = Z.of_nat (List.length data) ->
  (forall i b, nth_error data i = Some b -> mem (buf + Z.of_nat i) = Some b) ->
  gives mem (core_log_mem P pl s buf len st) (core_log P pl s data st)
    (fun x => buf <= x < buf + len).
Proof.
  intros N -> H. unfold core_log_mem, core_log. destruct (st_env st) as [env|]; [|apply gives_ret].
  destruct (st_plugin st) as [p|]; [|apply gives_ret].
  destruct (negb (hint s (en_command_info env)) && negb (pg_ignore_hints P)); [apply gives_ret|].
  eapply gives_bind; [|apply gives_ret]. unfold slice_mem. destruct (Z.eqb_spec buf 0); [contradiction|].
  rewrite Nat2Z.id. apply load_n_gives. exact H.
Qed.

(** An unmarked stream, or one of a session that was not opened. *)
Lemma log_mem_nothing P mem pl s buf len st :
  pg_ignore_hints P = false ->
  (forall env p, st_env st = Some env -> st_plugin st = Some p -> hint s (en_command_info env) = false) ->
  core_log_mem P pl s buf len st mem = (RDone (core_log P pl s [] st), []).
Proof.
  intros I H. unfold core_log_mem, core_log. destruct (st_env st) as [env|]; [|reflexivity].
  destruct (st_plugin st) as [p|]; [|reflexivity]. rewrite (H env p eq_refl eq_refl), I. reflexivity.
Qed.

Lemma old_version_nothing word P mem n pl c st :
  ~ ApiAtLeast_1_9 (co_version c) ->
  exists r, core_open_mem word P n pl c st mem = (RDone r, []).
Proof.
  intros H. unfold core_open_mem, rbind, io_env_new_mem, version_check.
  destruct (supported (from_ffi (co_version c))) eqn:V; [apply supported_iff in V; contradiction|]. eexists. reflexivity.
Qed.

(** ** Arguments that break the contract *)
Lemma negative_argc_undefined word P mem n pl c st :
  ApiAtLeast_1_9 (co_version c) -> co_argc c < 0 ->
  core_open_mem word P n pl c st mem = (RUndefined (co_argv c), []).
Proof.
  intros V%supported_iff H. unfold core_open_mem, rbind, io_env_new_mem, version_check. rewrite V.
  destruct (pf_new (Some (pg_name P)) (co_printf c)) as [out err]. unfold cmdline_mem.
  destruct (Z.ltb_spec (co_argc c) 0); [|lia]. rewrite orb_true_r. reflexivity.
Qed.

(** ** Checking a concrete layout *)
Definition is_byte (o : option byte) (b : byte) : bool :=
  match o with Some c => Byte.eqb c b | None => false end.
Lemma is_byte_eq o b : is_byte o b = true -> o = Some b.
Proof. destruct o as [c|]; cbn; [|discriminate]. intros H. apply Byte.byte_dec_bl in H. congruence. Qed.

Fixpoint bytes_at (mem : memory) (p : Z) (l : bytes) : bool :=
  match l with [] => true | b :: l' => is_byte (mem p) b && bytes_at mem (p + 1) l' end.
Lemma bytes_at_nth mem l : forall p, bytes_at mem p l = true ->
  forall i b, nth_error l i = Some b -> mem (p + Z.of_nat i) = Some b.
Proof.
  induction l as [|c l IH]; intros p H i b Hi; [destruct i; discriminate|].
  cbn in H. apply andb_prop in H as [H1 H2]. destruct i as [|i].
  - injection Hi as <-. rewrite Z.add_0_r. apply is_byte_eq. exact H1.
  - cbn in Hi. rewrite <- (IH _ H2 i b Hi). f_equal. lia.
Qed.

Definition pointer_b (word : nat) (mem : memory) (p q : Z) : bool :=
  negb (p =? 0) && (p mod Z.of_nat word =? 0) && (0 <=? q) && (q <? 256 ^ Z.of_nat word)
  && bytes_at mem p (map (byte_of q) (seq 0 word)).
Lemma pointer_b_sound word mem p q : pointer_b word mem p q = true -> PointerAt word mem p q.
Proof.
  unfold pointer_b. rewrite !andb_true_iff. intros ((((A & C) & D) & E) & F).
  apply negb_true_iff in A. repeat split; try lia.
  intros i Hi. apply (bytes_at_nth _ _ _ F). rewrite nth_error_map.
  rewrite nth_error_nth' with (d := 0%nat) by (now rewrite seq_length). rewrite seq_nth by assumption. reflexivity.
Qed.

Definition string_b (mem : memory) (q : Z) (s : bytes) : bool :=
  negb (q =? 0) && negb (existsb (Byte.eqb x00) s) && bytes_at mem q (s ++ [x00]).
Lemma string_b_sound mem q s : string_b mem q s = true -> StringAt mem q s.
Proof.
  unfold string_b. rewrite !andb_true_iff, !negb_true_iff. intros ((A & C) & D). split; [lia|]. split.
  - intros H. assert (existsb (Byte.eqb x00) s = true); [|congruence].
    apply existsb_exists. exists x00. split; [exact H | reflexivity].
  - apply bytes_at_nth. exact D.
Qed.

Fixpoint array_b (word : nat) (mem : memory) (p : Z) (qs : list Z) (l : list bytes) : bool :=
  match qs, l with
  | [], [] => true
  | q :: qs', s :: l' => pointer_b word mem p q && string_b mem q s && array_b word mem (p + Z.of_nat word) qs' l'
  | _, _ => false
  end.
Lemma array_b_sound word mem : forall qs l p, array_b word mem p qs l = true ->
  forall i s, nth_error l i = Some s -> exists q, EntryAt word mem p i q s.
Proof.
  induction qs as [|q qs IH]; intros [|s l] p H i s' Hi; try discriminate H; [destruct i; discriminate|].
  cbn in H. apply andb_prop in H as [H H2]. apply andb_prop in H as [H0 H1]. destruct i as [|i].
  - injection Hi as <-. exists q. split; [|apply string_b_sound; exact H1].
    rewrite Z.mul_0_r, Z.add_0_r. apply pointer_b_sound. exact H0.
  - cbn in Hi. destruct (IH l _ H2 i s' Hi) as (q' & A & C). exists q'. split; [|exact C].
    replace (p + Z.of_nat word * Z.of_nat (S i)) with (p + Z.of_nat word + Z.of_nat word * Z.of_nat i) by lia. exact A.
Qed.

Definition aligned_b (word : nat) (p : Z) : bool := negb (p =? 0) && (p mod Z.of_nat word =? 0).
Definition passed_b (word : nat) (mem : memory) (p : Z) (qs : list Z) (r : raw) : bool :=
  match r with
  | None => p =? 0
  | Some l => aligned_b word p && array_b word mem p qs l
              && pointer_b word mem (p + Z.of_nat word * Z.of_nat (List.length l)) 0
  end.
Lemma aligned_b_sound word p : aligned_b word p = true -> p <> 0 /\ p mod Z.of_nat word = 0.
Proof. unfold aligned_b. rewrite andb_true_iff, negb_true_iff. lia. Qed.
Lemma array_at_sound word mem p qs l : aligned_b word p && array_b word mem p qs l = true -> ArrayAt word mem p l.
Proof.
  rewrite andb_true_iff. intros [A C]. destruct (aligned_b_sound _ _ A) as [N Al]. split; [exact N|]. split; [exact Al|].
  eapply array_b_sound. exact C.
Qed.
Lemma passed_b_sound word mem p qs r : passed_b word mem p qs r = true -> Passed word mem p r.
Proof.
  unfold passed_b, Passed. destruct r as [l|]; [|lia]. intros H. apply andb_prop in H as [H1 H2]. split.
  - eapply array_at_sound. exact H1.
  - apply pointer_b_sound. exact H2.
Qed.

(** ** Arrays that are too short *)
Definition breaks {A} (mem : memory) (m : rd A) : Prop := exists p l, m mem = (RUndefined p, l).

Lemma breaks_first {A C} mem (m : rd A) (f : A -> rd C) : breaks mem m -> breaks mem (rbind m f).
Proof. intros (p & l & E). exists p, l. unfold rbind. rewrite E. reflexivity. Qed.
Lemma breaks_then {A C} mem (m : rd A) (f : A -> rd C) a P : gives mem m a P -> breaks mem (f a) -> breaks mem (rbind m f).
Proof. intros (l & E & _) (p & l' & E'). exists p, (l ++ l'). unfold rbind. rewrite E, E'. reflexivity. Qed.

Lemma load_n_total mem n : forall p, breaks mem (load_n n p) \/ exists l, gives mem (load_n n p) l (fun _ => True).
Proof.
  induction n as [|n IH]; intros p; [right; exists []; apply gives_ret|]. cbn [load_n].
  destruct (mem p) as [b|] eqn:E.
  - assert (G : gives mem (load p) b (fun _ => True)) by (apply load_gives; auto).
    destruct (IH (p + 1)) as [K | (l & K)].
    + left. eapply breaks_then; [exact G|]. apply breaks_first. exact K.
    + right. exists (b :: l). eapply gives_bind; [exact G|]. eapply gives_bind; [exact K | apply gives_ret].
  - left. apply breaks_first. exists p, []. unfold load. rewrite E. reflexivity.
Qed.
Lemma load_ptr_total word mem p : breaks mem (load_ptr word p) \/ exists q, gives mem (load_ptr word p) q (fun _ => True).
Proof.
  unfold load_ptr. destruct ((p =? 0) || negb (p mod wordz word =? 0)).
  - left. exists p, []. reflexivity.
  - destruct (load_n_total mem word p) as [K | (l & K)]; [left; apply breaks_first; exact K|].
    right. exists (le_value l). eapply gives_bind; [exact K | apply gives_ret].
Qed.
Lemma load_ptrs_total word mem n : forall p,
  breaks mem (load_ptrs word n p) \/ exists l, gives mem (load_ptrs word n p) l (fun _ => True).
Proof.
  induction n as [|n IH]; intros p; [right; exists []; apply gives_ret|]. cbn [load_ptrs].
  destruct (load_ptr_total word mem p) as [K | (q & K)]; [left; apply breaks_first; exact K|].
  destruct (IH (p + wordz word)) as [K' | (l & K')].
  - left. eapply breaks_then; [exact K|]. apply breaks_first. exact K'.
  - right. exists (q :: l). eapply gives_bind; [exact K|]. eapply gives_bind; [exact K' | apply gives_ret].
Qed.

Lemma load_ptrs_beyond word mem l : forall p k,
  (forall i s, nth_error l i = Some s -> exists q, EntryAt word mem p i q s) ->
  PointerAt word mem (p + Z.of_nat word * Z.of_nat (List.length l)) 0 ->
  breaks mem (load_ptrs word (List.length l + S k) p)
  \/ exists qs rest, gives mem (load_ptrs word (List.length l + S k) p) (qs ++ 0 :: rest) (fun _ => True)
     /\ Forall2 (StringAt mem) qs l.
Proof.
  induction l as [|s l IH]; intros p k E T.
  - cbn [List.length] in *. cbn [plus load_ptrs]. rewrite Z.mul_0_r, Z.add_0_r in T.
    assert (G : gives mem (load_ptr word p) 0 (fun _ => True))
      by (eapply gives_weaken; [apply load_ptr_gives; exact T | auto]).
    destruct (load_ptrs_total word mem k (p + wordz word)) as [K | (r & K)].
    + left. eapply breaks_then; [exact G|]. apply breaks_first. exact K.
    + right. exists [], r. split; [|constructor]. eapply gives_bind; [exact G|]. eapply gives_bind; [exact K | apply gives_ret].
  - destruct (E 0%nat s eq_refl) as (q & Pt & St). rewrite Z.mul_0_r, Z.add_0_r in Pt.
    cbn [List.length plus load_ptrs].
    assert (G : gives mem (load_ptr word p) q (fun _ => True))
      by (eapply gives_weaken; [apply load_ptr_gives; exact Pt | auto]).
    destruct (IH (p + wordz word) k) as [K | (qs & rest & K & F)].
    + intros i s' Hi. destruct (E (S i) s' Hi) as (q' & En'). exists q'. apply entry_shift. exact En'.
    + unfold wordz. replace (p + Z.of_nat word + Z.of_nat word * Z.of_nat (List.length l))
        with (p + Z.of_nat word * Z.of_nat (S (List.length l))) by lia. exact T.
    + left. eapply breaks_then; [exact G|]. apply breaks_first. exact K.
    + right. exists (q :: qs), rest. split; [|constructor; assumption].
      eapply gives_bind; [exact G|]. eapply gives_bind; [exact K | apply gives_ret].
Qed.

Lemma cstrs_null mem n rest : forall qs l, Forall2 (StringAt mem) qs l -> Forall (fun s => List.length s < n)%nat l ->
  breaks mem (cstrs n (qs ++ 0 :: rest)).
Proof.
  intros qs l F. induction F as [|q s qs l St F IH]; intros L.
  - cbn. apply breaks_first. exists 0, []. reflexivity.
  - inversion L as [|? ? L1 L2]; subst. cbn [app cstrs].
    eapply breaks_then; [apply (cstr_at_gives 0%nat); [exact St | exact L1]|]. apply breaks_first. apply IH. exact L2.
Qed.

Lemma many_arguments_undefined word P mem pl c st l :
  ApiAtLeast_1_9 (co_version c) -> Terminated word mem (co_argv c) l ->
  Z.of_nat (List.length l) < co_argc c ->
  exists n0, forall n, (n0 <= n)%nat -> breaks mem (core_open_mem word P n pl c st).
Proof.
  intros V%supported_iff [(N & A & E) T] H. exists (need l). intros n L.
  unfold core_open_mem, io_env_new_mem, version_check. rewrite V.
  destruct (pf_new (Some (pg_name P)) (co_printf c)) as [out err].
  apply breaks_first, breaks_first. unfold cmdline_mem.
  destruct (_ || _); [exists (co_argv c), []; reflexivity|].
  replace (Z.to_nat (co_argc c)) with (List.length l + S (Z.to_nat (co_argc c) - List.length l - 1))%nat by lia.
  destruct (load_ptrs_beyond word mem l (co_argv c) (Z.to_nat (co_argc c) - List.length l - 1) E T)
    as [K | (qs & rest & K & F)].
  - apply breaks_first. exact K.
  - eapply breaks_then; [exact K|]. eapply cstrs_null; [exact F | apply need_lengths; exact L].
Qed.

(** The array of settings lacks the NULL at its end, and ends where its memory ends. *)
Lemma loop_unterminated word mem l : forall p m n,
  (forall i s, nth_error l i = Some s -> exists q, EntryAt word mem p i q s) ->
  mem (p + Z.of_nat word * Z.of_nat (List.length l)) = None -> word <> 0%nat ->
  (need l <= n)%nat -> breaks mem (from_raw_mem_loop word n p m).
Proof.
  induction l as [|s l IH]; intros p m n E T W L; (destruct n as [|n]; [cbn in L; lia|]); cbn [from_raw_mem_loop].
  - apply breaks_first. unfold load_ptr. destruct (_ || _); [exists p, []; reflexivity|].
    apply breaks_first. cbn [List.length] in T. rewrite Z.mul_0_r, Z.add_0_r in T.
    destruct word as [|k]; [contradiction|]. cbn [load_n]. apply breaks_first.
    exists p, []. unfold load. rewrite T. reflexivity.
  - destruct (E 0%nat s eq_refl) as (q & Pt & St). rewrite Z.mul_0_r, Z.add_0_r in Pt.
    assert (Q : q <> 0) by (destruct St; assumption). cbn [List.length] in *. cbn [need] in L.
    pose proof (load_ptr_gives word mem p q Pt) as G.
    eapply breaks_then; [exact G|]. destruct (Z.eqb_spec q 0); [contradiction|].
    eapply breaks_then; [exact G|].
    eapply breaks_then; [apply (cstr_at_gives 0%nat) with (s := s); [exact St | lia]|].
    destruct (split_entry s) as [k v]. apply IH; [| |exact W|lia].
    + intros i s' Hi. destruct (E (S i) s' Hi) as (q' & En'). exists q'. apply entry_shift. exact En'.
    + unfold wordz. replace (p + Z.of_nat word + Z.of_nat word * Z.of_nat (List.length l))
        with (p + Z.of_nat word * Z.of_nat (S (List.length l))) by lia. exact T.
Qed.

Lemma unterminated_undefined word P mem pl c st args l :
  ApiAtLeast_1_9 (co_version c) -> word <> 0%nat ->
  co_argc c = Z.of_nat (List.length args) -> ArrayAt word mem (co_argv c) args ->
  ArrayAt word mem (co_settings c) l -> mem (co_settings c + Z.of_nat word * Z.of_nat (List.length l)) = None ->
  exists n0, forall n, (n0 <= n)%nat -> breaks mem (core_open_mem word P n pl c st).
Proof.
  intros V%supported_iff W RA RB (N & A & E) T. exists (need args + need l)%nat. intros n L.
  unfold core_open_mem, io_env_new_mem, version_check. rewrite V.
  destruct (pf_new (Some (pg_name P)) (co_printf c)) as [out err].
  apply breaks_first. eapply breaks_then; [apply cmdline_gives; [exact RA | exact RB | lia]|].
  apply breaks_first. unfold from_raw_mem. destruct (Z.eqb_spec (co_settings c) 0); [contradiction|].
  eapply loop_unterminated; [exact E | exact T | exact W | lia].
Qed.
