(** A guarded name stays guarded. *)
From Coq Require Import Lia.
From Verif Require Import Base BaseLemmas Num Path Template Options World Sys Io Socket Env Core Pair
  Spec TraceSpec SessionSpec AdversarySpec PathProofs RequestProofs PairPure InputFacts RunProofs IoProofs SocketProofs PairProofs
  KernelFacts OpenFacts AskFacts MiscFacts SplitFacts CleanupFacts FilesFacts ShapeFacts AdversaryFacts.
Local Open Scope Z_scope.

Section Guard.
Variable euid : Z.
Variables Adm T : cred -> Prop.
Variable S : path -> Prop.
Variable q : path.

Lemma resolve_same k k' : GuardedBy T S q k ->
  (forall p, S p -> k_names k' p = k_names k p) ->
  (forall n, (n < k_next k)%nat -> i_kind (k_inodes k' n) = i_kind (k_inodes k n)) ->
  forall f p, S p -> resolve_fuel f k' p = resolve_fuel f k p.
Proof.
  intros G HN HK. induction f as [|f IH]; intros p HS; [reflexivity|]. cbn. rewrite (HN _ HS).
  destruct (k_names k p) as [n|] eqn:E; [|reflexivity].
  rewrite (HK _ (gd_known _ _ _ _ G _ _ HS E)). destruct (i_kind (k_inodes k n)) eqn:EK; try reflexivity.
  apply IH. eapply (gd_link _ _ _ _ G); eassumption.
Qed.

Lemma resolve_known k : GuardedBy T S q k -> forall f p n, S p -> resolve_fuel f k p = Some n -> (n < k_next k)%nat.
Proof.
  intros G. induction f as [|f IH]; intros p n HS; [discriminate|]. cbn.
  destruct (k_names k p) as [n'|] eqn:E; [|discriminate].
  pose proof (gd_known _ _ _ _ G _ _ HS E) as HL.
  destruct (i_kind (k_inodes k n')) eqn:EK; try (intros H; injection H as <-; exact HL).
  apply IH. eapply (gd_link _ _ _ _ G); eassumption.
Qed.

Lemma dir_S k p : GuardedBy T S q k -> S p \/ p = q -> S (dir_path p).
Proof. intros G [H| ->]; [apply (gd_up _ _ _ _ G); exact H|apply (gd_dir _ _ _ _ G)]. Qed.

Lemma dir_same k k' p : GuardedBy T S q k ->
  (forall p, S p -> k_names k' p = k_names k p) ->
  (forall n, (n < k_next k)%nat -> i_kind (k_inodes k' n) = i_kind (k_inodes k n)) ->
  S p \/ p = q -> dir_inode k' p = dir_inode k p.
Proof.
  intros G HN HK Hp. unfold dir_inode. destruct p as [|c p']; [reflexivity|].
  unfold resolve. rewrite (resolve_same _ _ G HN HK) by (eapply dir_S; eassumption).
  destruct (resolve_fuel 40 k (dir_path (c :: p'))) as [d|] eqn:E; [|reflexivity].
  rewrite HK; [reflexivity|]. eapply resolve_known; [exact G| |exact E]. eapply dir_S; eassumption.
Qed.

Lemma dir_known k p d : GuardedBy T S q k -> S p \/ p = q -> dir_inode k p = Some d ->
  (d < k_next k)%nat /\ i_kind (k_inodes k d) = KDir.
Proof.
  intros G Hp. unfold dir_inode. destruct p as [|c p']; [discriminate|]. unfold resolve.
  destruct (resolve_fuel 40 k (dir_path (c :: p'))) as [d'|] eqn:E; [|discriminate].
  destruct (i_kind (k_inodes k d')) eqn:EK; try discriminate. intros H. injection H as <-.
  split; [|exact EK]. eapply resolve_known; [exact G| |exact E]. eapply dir_S; eassumption.
Qed.

Lemma guard_step k k' : GuardedBy T S q k ->
  (forall p, S p -> k_names k' p = k_names k p) ->
  (forall n, (n < k_next k)%nat -> i_kind (k_inodes k' n) = i_kind (k_inodes k n)) ->
  (forall p d, S p \/ p = q -> dir_inode k p = Some d -> k_inodes k' d = k_inodes k d) ->
  (k_next k <= k_next k')%nat -> GuardedBy T S q k'.
Proof.
  intros G HN HK HD HX. constructor.
  - exact (gd_dir _ _ _ _ G).
  - exact (gd_self _ _ _ _ G).
  - exact (gd_up _ _ _ _ G).
  - intros p n t Hp. rewrite (HN _ Hp). intros E. rewrite HK by (eapply (gd_known _ _ _ _ G); eassumption).
    eapply (gd_link _ _ _ _ G); eassumption.
  - intros p n Hp. rewrite (HN _ Hp). intros E. pose proof (gd_known _ _ _ _ G _ _ Hp E). lia.
  - intros p d c Hp. rewrite (dir_same _ _ _ G HN HK Hp). intros E Hc. rewrite (HD _ _ Hp E).
    eapply (gd_safe _ _ _ _ G); eassumption.
Qed.

Lemma guard_names k k' : GuardedBy T S q k -> (forall p, S p -> k_names k' p = k_names k p) ->
  k_inodes k' = k_inodes k -> k_next k' = k_next k -> GuardedBy T S q k'.
Proof. intros G HN HI HX. apply (guard_step k); auto; [intros; rewrite HI; reflexivity..|lia]. Qed.

Lemma guard_files k k' : GuardedBy T S q k -> SameFiles k k' -> GuardedBy T S q k'.
Proof. intros G (A & B & C). apply (guard_names k); auto. intros p _. rewrite A. reflexivity. Qed.

Lemma no_edit k c p : GuardedBy T S q k -> T c -> can_edit k c p = true -> ~ (S p \/ p = q).
Proof.
  intros G HT HE Hp. unfold can_edit in HE. destruct (dir_inode k p) as [d|] eqn:E; [|discriminate].
  apply andb_true_iff in HE as [HE _]. destruct (gd_safe _ _ _ _ G _ _ _ Hp E HT) as (_ & _ & W). congruence.
Qed.

Lemma no_own k c p d n : GuardedBy T S q k -> T c -> S p \/ p = q -> dir_inode k p = Some d ->
  is_owner k c n = true -> d <> n.
Proof.
  intros G HT Hp E HO ->. destruct (gd_safe _ _ _ _ G _ _ _ Hp E HT) as (P & U & _).
  unfold is_owner in HO. rewrite P in HO. apply Z.eqb_neq in U. rewrite U in HO. discriminate.
Qed.

Lemma put_outside r o (f : path -> option nat) p : ~ (S r \/ r = q) -> S p \/ p = q -> put_name r o f p = f p.
Proof. intros N H. apply put_name_other. intros ->. contradiction. Qed.

Lemma guard_inode k n i : GuardedBy T S q k -> i_kind i = i_kind (k_inodes k n) ->
  (forall p d, S p \/ p = q -> dir_inode k p = Some d -> d <> n) ->
  GuardedBy T S q (set_inodes (put_inode n i (k_inodes k)) k).
Proof.
  intros G HK HD. apply (guard_step k); auto.
  - intros m _. cbn. destruct (Nat.eq_dec m n) as [->|NE]; [rewrite put_inode_same; exact HK|rewrite put_inode_other by exact NE; reflexivity].
  - intros p d Hp E. cbn. apply put_inode_other. eapply HD; eassumption.
Qed.

Lemma guard_call k c a : GuardedBy T S q k -> GCall q k c -> GuardedBy T S q (effect euid c a k).
Proof.
  intros G HC. pose proof (gd_self _ _ _ _ G) as NS.
  destruct c; cbn [GCall] in HC; try (eapply guard_files; [exact G|apply effect_files; exact Logic.I]);
    cbn [effect]; destruct a; try exact G.
  - subst p. destruct (k_names k q); [|exact G]. apply (guard_names k); auto.
    intros s Hs. cbn. apply put_name_other. intros ->. contradiction.
  - subst p. destruct (k_listen k); [|exact G]. destruct (k_names k q); [exact G|]. destruct (dir_inode k q); [|exact G].
    apply (guard_step k); auto.
    + intros s Hs. cbn. apply put_name_other. intros ->. contradiction.
    + intros m Hm. cbn. rewrite put_inode_other by lia. reflexivity.
    + intros s d Hs Hd. cbn. apply put_inode_other. destruct (dir_known _ _ _ G Hs Hd). lia.
    + cbn. lia.
  - destruct HC as (-> & n & HH). rewrite (Holds_resolve _ _ _ HH). apply guard_inode; [exact G|reflexivity|].
    intros s d Hs Hd ->. destruct (dir_known _ _ _ G Hs Hd) as [_ X]. destruct HH. congruence.
  - destruct HC as (-> & n & HH). rewrite (Holds_resolve _ _ _ HH). apply guard_inode; [exact G|reflexivity|].
    intros s d Hs Hd ->. destruct (dir_known _ _ _ G Hs Hd) as [_ X]. destruct HH. congruence.
Qed.

(** ** With the sockets of other sessions beside it *)
Variable Side : path -> Prop.
Hypothesis Side_beside : forall p, Side p -> Beside q p /\ ~ S p.

Definition Plain (k : kernel) : Prop := forall p n, Side p -> k_names k p = Some n ->
  (n < k_next k)%nat /\ PlainFile (i_kind (k_inodes k n)).
Definition G (k : kernel) : Prop := GuardedBy T S q k /\ Plain k.

Lemma side_resolve k p : Plain k -> Side p -> resolve k p = k_names k p.
Proof.
  intros HP HS. unfold resolve. cbn. destruct (k_names k p) as [n|] eqn:E; [|reflexivity].
  destruct (HP _ _ HS E) as [_ HK]. destruct (i_kind (k_inodes k n)); try reflexivity. destruct HK.
Qed.

Lemma plain_step k k' : Plain k -> (forall p, Side p -> k_names k' p = k_names k p) ->
  (forall n, (n < k_next k)%nat -> i_kind (k_inodes k' n) = i_kind (k_inodes k n)) ->
  (k_next k <= k_next k')%nat -> Plain k' /\ forall n, Off Side n k -> Off Side n k'.
Proof.
  intros HP HN HK HX.
  assert (HP' : Plain k').
  { intros p n HS. rewrite (HN _ HS). intros E. destruct (HP _ _ HS E) as [H1 H2]. split; [lia|]. rewrite HK by exact H1. exact H2. }
  split; [exact HP'|]. intros n HO p HS. rewrite (side_resolve _ _ HP' HS), (HN _ HS), <- (side_resolve _ _ HP HS). apply HO. exact HS.
Qed.

Lemma side_edit k c p : Side p -> can_edit k c p = can_edit k c q.
Proof.
  intros HS. destruct (Side_beside p HS) as [(N1 & N2 & ED & _) _]. unfold can_edit.
  rewrite (can_search_beside k c p q N1 N2 ED). unfold dir_inode.
  destruct p; [destruct (N1 eq_refl)|]. destruct q; [destruct (N2 eq_refl)|]. rewrite ED. reflexivity.
Qed.

Definition Kept (k : kernel) (k' : kernel) : Prop :=
  G k' /\ k_names k' q = k_names k q /\ forall n, (n < k_next k)%nat -> Off Side n k -> Off Side n k'.

Lemma kept_refl k : G k -> Kept k k.
Proof. intros H. split; [exact H|]. auto. Qed.

Lemma kept_step k k' : G k -> (forall p, S p \/ p = q \/ Side p -> k_names k' p = k_names k p) ->
  (forall n, (n < k_next k)%nat -> i_kind (k_inodes k' n) = i_kind (k_inodes k n)) ->
  (forall p d, S p \/ p = q -> dir_inode k p = Some d -> k_inodes k' d = k_inodes k d) ->
  (k_next k <= k_next k')%nat -> Kept k k'.
Proof.
  intros [HG HP] HN HK HD HX. destruct (plain_step k k' HP) as [P' HO]; auto.
  split; [split; [apply (guard_step k); auto|exact P']|]. split; [apply HN; auto|]. intros n _. apply HO.
Qed.

Lemma outside k c p : G k -> T c -> can_edit k c p = true -> ~ (S p \/ p = q \/ Side p).
Proof.
  intros [HG _] HT HE [H|[H|H]].
  - exact (no_edit _ _ _ HG HT HE (or_introl H)).
  - exact (no_edit _ _ _ HG HT HE (or_intror H)).
  - rewrite (side_edit _ _ _ H) in HE. exact (no_edit _ _ q HG HT HE (or_intror eq_refl)).
Qed.

Lemma put_out r o (f : path -> option nat) p : ~ (S r \/ r = q \/ Side r) -> S p \/ p = q \/ Side p -> put_name r o f p = f p.
Proof. intros N H. apply put_name_other. intros ->. contradiction. Qed.

Lemma kept_inode k n i : G k -> i_kind i = i_kind (k_inodes k n) ->
  (forall p d, S p \/ p = q -> dir_inode k p = Some d -> d <> n) ->
  Kept k (set_inodes (put_inode n i (k_inodes k)) k).
Proof.
  intros HG HK HD. apply kept_step; auto.
  - intros m _. cbn. destruct (Nat.eq_dec m n) as [->|NE]; [rewrite put_inode_same; exact HK|rewrite put_inode_other by exact NE; reflexivity].
  - intros p d Hp E. cbn. apply put_inode_other. eapply HD; eassumption.
Qed.

Lemma side_not_dir k p n : G k -> Side p -> resolve k p = Some n ->
  forall r d, S r \/ r = q -> dir_inode k r = Some d -> d <> n.
Proof.
  intros [HG HP] HS HR r d Hr Hd ->. rewrite (side_resolve _ _ HP HS) in HR.
  destruct (HP _ _ HS HR) as [_ HK]. destruct (dir_known _ _ _ HG Hr Hd) as [_ X]. rewrite X in HK. exact HK.
Qed.

Lemma kept_act k ca : Tame Adm T Side ca -> G k -> Kept k (act k ca).
Proof.
  destruct ca as [c a]. intros HT HG. unfold Tame in HT. cbn [fst snd] in HT.
  assert (TA : (forall p, a <> Connect p) -> T c \/ SideAct Side a).
  { intros NC. destruct HT as [[_ [X|[p E]]]|X]; [left; exact X|destruct (NC p E)|right; exact X]. }
  assert (SQ : forall p r, Side p -> S r \/ r = q -> r <> p).
  { intros p r Hp Hr ->. destruct (Side_beside p Hp) as [(_ & _ & _ & NQ) NS]. destruct Hr; [contradiction|congruence]. }
  destruct a as [p|p|p kd g m|p r|p r|p m|p u g].
  - pose proof (connect_files k c p) as (A & B & C).
    apply kept_step; auto; [intros; rewrite A; reflexivity|intros; rewrite B; reflexivity|intros; rewrite B; reflexivity|lia].
  - cbn [act]. destruct (can_edit k c p) eqn:E; [|apply kept_refl; exact HG].
    destruct (TA ltac:(discriminate)) as [Tc|HS].
    + pose proof (outside _ _ _ HG Tc E) as NE. apply kept_step; auto. intros s Hs. cbn. apply put_out; auto.
    + cbn in HS. destruct HG as [HG HP].
      assert (HP' : Plain (set_names (put_name p None (k_names k)) k)).
      { intros s n Hs. cbn. destruct (comps_eqb s p) eqn:EE; [unfold put_name; rewrite EE; discriminate|].
        unfold put_name. rewrite EE. apply HP. exact Hs. }
      split; [split; [|exact HP']|split].
      * apply (guard_names k); auto. intros s Hs. cbn. apply put_name_other. apply SQ; auto.
      * cbn. apply put_name_other. apply SQ; auto.
      * intros n _ HO s Hs. rewrite (side_resolve _ _ HP' Hs). cbn. unfold put_name. destruct (comps_eqb s p); [discriminate|].
        rewrite <- (side_resolve _ _ HP Hs). apply HO. exact Hs.
  - cbn [act]. destruct (can_edit k c p) eqn:E; [|apply kept_refl; exact HG].
    destruct (k_names k p) as [x|] eqn:EN; [apply kept_refl; exact HG|].
    destruct (TA ltac:(discriminate)) as [Tc|HS].
    + pose proof (outside _ _ _ HG Tc E) as NE. apply kept_step; auto.
      * intros s Hs. cbn. apply put_out; auto.
      * intros n Hn. cbn. rewrite put_inode_other by lia. reflexivity.
      * intros s d Hs Hd. cbn. apply put_inode_other. destruct (dir_known _ _ _ (proj1 HG) Hs Hd). lia.
      * cbn. lia.
    + cbn in HS. destruct HS as [HS ->]. destruct HG as [HG HP].
      assert (HP' : Plain (add_file p (mkInode KSock (cr_uid c) g m) k)).
      { intros s n Hs. cbn. unfold put_name. destruct (comps_eqb s p).
        - intros H. injection H as <-. split; [lia|]. rewrite put_inode_same. exact Logic.I.
        - intros H. destruct (HP _ _ Hs H) as [H1 H2]. split; [lia|]. rewrite put_inode_other by lia. exact H2. }
      split; [split; [|exact HP']|split].
      * apply (guard_step k); auto.
        -- intros s Hs. cbn. apply put_name_other. apply SQ; auto.
        -- intros n Hn. cbn. rewrite put_inode_other by lia. reflexivity.
        -- intros s d Hs Hd. cbn. apply put_inode_other. destruct (dir_known _ _ _ HG Hs Hd). lia.
        -- cbn. lia.
      * cbn. apply put_name_other. apply SQ; auto.
      * intros n Hn HO s Hs. rewrite (side_resolve _ _ HP' Hs). cbn. unfold put_name. destruct (comps_eqb s p).
        -- intros H. injection H as H. lia.
        -- rewrite <- (side_resolve _ _ HP Hs). apply HO. exact Hs.
  - destruct (TA ltac:(discriminate)) as [Tc|[]]. cbn [act].
    destruct (can_edit k c p) eqn:E1; [|apply kept_refl; exact HG]. destruct (can_edit k c r) eqn:E2; [|apply kept_refl; exact HG]. cbn [andb].
    pose proof (outside _ _ _ HG Tc E1) as N1. pose proof (outside _ _ _ HG Tc E2) as N2.
    destruct (k_names k p); [|apply kept_refl; exact HG].
    apply kept_step; auto. intros s Hs. cbn. rewrite !put_out; auto.
  - destruct (TA ltac:(discriminate)) as [Tc|[]]. cbn [act].
    destruct (can_search k c p); [|apply kept_refl; exact HG]. cbn [andb].
    destruct (can_edit k c r) eqn:E; [|apply kept_refl; exact HG]. pose proof (outside _ _ _ HG Tc E) as NE.
    destruct (k_names k p); [|apply kept_refl; exact HG]. destruct (k_names k r); [apply kept_refl; exact HG|].
    apply kept_step; auto. intros s Hs. cbn. apply put_out; auto.
  - cbn [act]. destruct (finds k c p) as [n|] eqn:ER; [|apply kept_refl; exact HG].
    destruct (is_owner k c n) eqn:EO; [|apply kept_refl; exact HG].
    apply kept_inode; [exact HG|reflexivity|]. destruct (TA ltac:(discriminate)) as [Tc|HS].
    + intros s d Hs Hd. eapply no_own; [exact (proj1 HG)|exact Tc|exact Hs|exact Hd|exact EO].
    + exact (side_not_dir k p n HG HS (finds_resolve _ _ _ _ ER)).
  - cbn [act]. destruct (finds k c p) as [n|] eqn:ER; [|apply kept_refl; exact HG].
    match goal with |- Kept _ (if ?b then _ else _) => destruct b eqn:EO end; [|apply kept_refl; exact HG].
    apply kept_inode; [exact HG|reflexivity|]. destruct (TA ltac:(discriminate)) as [Tc|HS].
    + intros s d Hs Hd. eapply no_own; [exact (proj1 HG)|exact Tc|exact Hs|exact Hd|].
      unfold is_owner. destruct (cr_priv c); [reflexivity|]. cbn in *. apply andb_true_iff in EO as [EO _].
      apply andb_true_iff in EO as [EO _]. exact EO.
    + exact (side_not_dir k p n HG HS (finds_resolve _ _ _ _ ER)).
Qed.

Lemma plain_call k c a : G k -> GCall q k c ->
  Plain (effect euid c a k) /\ forall n, Off Side n k -> Off Side n (effect euid c a k).
Proof.
  intros [HG HP] HC.
  assert (SN : forall p, Side p -> p <> q). { intros p Hp. destruct (Side_beside p Hp) as [(_ & _ & _ & NQ) _]. exact NQ. }
  destruct c; cbn [GCall] in HC;
    try (match goal with |- Plain (effect _ ?c ?a _) /\ _ => destruct (effect_files euid c a k Logic.I) as (A & X & C) end;
         apply (plain_step k); auto; [intros; rewrite A; reflexivity|intros; rewrite X; reflexivity|lia]);
    cbn [effect]; destruct a; try (split; [exact HP|auto]; fail).
  - subst p. destruct (k_names k q); [|auto]. apply (plain_step k); auto.
    intros s Hs. cbn. apply put_name_other. apply SN. exact Hs.
  - subst p. destruct (k_listen k); [|auto]. destruct (k_names k q); [auto|]. destruct (dir_inode k q); [|auto].
    apply (plain_step k); auto.
    + intros s Hs. cbn. apply put_name_other. apply SN. exact Hs.
    + intros m Hm. cbn. rewrite put_inode_other by lia. reflexivity.
    + cbn. lia.
  - destruct HC as (-> & n & HH). rewrite (Holds_resolve _ _ _ HH). apply (plain_step k); auto.
    intros m _. cbn. destruct (Nat.eq_dec m n) as [->|NE]; [rewrite put_inode_same|rewrite put_inode_other by exact NE]; reflexivity.
  - destruct HC as (-> & n & HH). rewrite (Holds_resolve _ _ _ HH). apply (plain_step k); auto.
    intros m0 _. cbn. destruct (Nat.eq_dec m0 n) as [->|NE]; [rewrite put_inode_same|rewrite put_inode_other by exact NE]; reflexivity.
Qed.

Lemma guard_guarding : Guarding euid Adm T Side q G.
Proof.
  constructor.
  - intros k ca HG H. exact (kept_act k ca H HG).
  - intros k c a HG HC. destruct (plain_call k c a HG HC) as [A X]. split; [|exact X]. split; [apply guard_call; [exact (proj1 HG)|exact HC]|exact A].
  - intros k [HG HP] p HS. rewrite (side_resolve _ _ HP HS). intros E. destruct (HP _ _ HS E). lia.
Qed.
End Guard.

(** With connections only, nothing needs guarding. *)
Lemma free_guarding euid Adm q : Guarding euid Adm (fun _ => False) (fun _ => False) q (fun _ => True).
Proof.
  constructor.
  - intros k [c a] _ [[_ [[]|[p E]]]|H].
    + cbn in E. subst a. split; [exact Logic.I|]. split; [|intros n _ _ r []].
      destruct (connect_files k c p) as (-> & _). reflexivity.
    + destruct a; cbn in H; tauto.
  - intros k c a _ _. split; [exact Logic.I|]. intros n _ r [].
  - intros k _ r [].
Qed.
