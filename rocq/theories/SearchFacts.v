(** Who can get to the socket when its directory may not be searched. *)
From Coq Require Import Lia.
From Verif Require Import Base BaseLemmas Num Path Template Options World Sys Io Socket Env Core Pair
  Spec TraceSpec SessionSpec AdversarySpec HonourSpec PathProofs RequestProofs PairPure InputFacts RunProofs IoProofs SocketProofs PairProofs
  KernelFacts OpenFacts AskFacts MiscFacts SplitFacts CleanupFacts FilesFacts ShapeFacts AdversaryFacts GuardFacts SessionFacts
  PeerFacts ForwardFacts.
Local Open Scope Z_scope.

(** Whoever finds an inode has found its name. *)
Lemma finds_name k c n : forall f p, find_fuel f k c p = Some n -> exists r, k_names k r = Some n /\ can_search k c r = true.
Proof.
  induction f as [|f IH]; intros p H; [discriminate|]. cbn [find_fuel] in H.
  destruct (can_search k c p) eqn:EC; [|discriminate]. destruct (k_names k p) as [m|] eqn:E; [|discriminate].
  destruct (i_kind (k_inodes k m)); try (injection H as <-; eauto). eapply IH. exact H.
Qed.

Lemma search_dir k c p d : can_search k c p = true -> dir_inode k p = Some d -> may_search c (k_inodes k d) = true.
Proof.
  intros H. unfold dir_inode. destruct p as [|x p']; [discriminate|]. set (p := x :: p') in *.
  destruct (resolve k (dir_path p)) as [m|] eqn:E; [|discriminate].
  intros Hd. assert (m = d) by (destruct (i_kind (k_inodes k m)); congruence). subst m.
  assert (Hp : p <> []) by discriminate. destruct (exists_last Hp) as (q & y & Ep). clearbody p. subst p.
  unfold can_search in H. rewrite forallb_forall in H. specialize (H (List.length q)).
  unfold dir_path in E. rewrite removelast_last in E. rewrite firstn_app, firstn_all, Nat.sub_diag, firstn_O, app_nil_r, E in H.
  apply H. apply in_seq. rewrite app_length. cbn. lia.
Qed.

Section Search.
Variable euid : Z.
Variable S : path -> Prop.
Variable q : path.
(** The socket's directory. *)
Variable dn : nat.
Variable di : inode.
(** Those who act at all, and those who may do more than connect; the latter
    cannot search the directory. *)
Variables Adm T : cred -> Prop.
Hypothesis T_barred : forall c, T c -> may_search c di = false.

Definition Bar (k : kernel) : Prop :=
  GuardedBy T S q k /\ Numbered k /\ dir_inode k q = Some dn /\ k_inodes k dn = di.

(** What is known about the listener. *)
Definition Lst (k : kernel) : Prop := forall l, k_listen k = Some l ->
  Forall (fun c => may_search c di = true /\ Adm c) (l_queue l)
  /\ forall n, l_ino l = Some n -> (n < k_next k)%nat /\ i_kind (k_inodes k n) = KSock
       /\ forall p, k_names k p = Some n -> p = q.

Definition Timid (ca : cred * action) : Prop := Adm (fst ca) /\ (T (fst ca) \/ OnlyConnects (snd ca)).

Lemma bar_step k k' : Bar k -> (forall p, S p \/ p = q -> k_names k' p = k_names k p) ->
  (forall n, (n < k_next k)%nat -> i_kind (k_inodes k' n) = i_kind (k_inodes k n)) ->
  (forall p d, S p \/ p = q -> dir_inode k p = Some d -> k_inodes k' d = k_inodes k d) ->
  (k_next k <= k_next k')%nat -> Numbered k' -> Bar k'.
Proof.
  intros (G & N & D & I0) HN HK HD HX HNum. assert (HS : forall p, S p -> k_names k' p = k_names k p) by auto.
  split; [eapply guard_step; eassumption|]. split; [exact HNum|].
  split; [rewrite (dir_same _ _ _ _ _ _ G HS HK (or_intror eq_refl)); exact D|].
  rewrite (HD q dn (or_intror eq_refl) D). exact I0.
Qed.

Lemma bar_names k k' : Bar k -> (forall p, S p -> k_names k' p = k_names k p) ->
  k_inodes k' = k_inodes k -> (k_next k <= k_next k')%nat -> Numbered k' -> Bar k'.
Proof.
  intros (G & N & D & I0) HN HI HX HNum. assert (HK : forall n, (n < k_next k)%nat -> i_kind (k_inodes k' n) = i_kind (k_inodes k n)) by (intros; rewrite HI; reflexivity).
  split; [eapply guard_step; try eassumption; intros; rewrite HI; reflexivity|]. split; [exact HNum|].
  split; [rewrite (dir_same _ _ _ _ _ _ G HN HK (or_intror eq_refl)); exact D|]. rewrite HI. exact I0.
Qed.

Lemma bar_files k k' : Bar k -> SameFiles k k' -> Bar k'.
Proof.
  intros HB (A & X & C). apply (bar_names k); [exact HB|intros; rewrite A; reflexivity|exact X|lia|].
  destruct HB as (_ & N & _). intros p n. rewrite A, C. apply N.
Qed.

Lemma bar_inode k n i : Bar k -> i_kind i = i_kind (k_inodes k n) ->
  (forall p d, S p \/ p = q -> dir_inode k p = Some d -> d <> n) ->
  Bar (set_inodes (put_inode n i (k_inodes k)) k).
Proof.
  intros HB HK HD. apply (bar_step k); auto.
  - intros m _. cbn. destruct (Nat.eq_dec m n) as [->|NE]; [rewrite put_inode_same; exact HK|rewrite put_inode_other by exact NE; reflexivity].
  - intros p d Hp E. cbn. apply put_inode_other. eapply HD; eassumption.
  - exact (proj1 (proj2 HB)).
Qed.

Lemma lst_inode k n i : Lst k -> i_kind i = i_kind (k_inodes k n) -> Lst (set_inodes (put_inode n i (k_inodes k)) k).
Proof.
  intros HL HK l El. destruct (HL l El) as [Q X]. split; [exact Q|]. intros m Em. destruct (X m Em) as (X1 & X2 & X3).
  split; [exact X1|]. split; [|exact X3]. cbn. destruct (Nat.eq_dec m n) as [->|NE]; [rewrite put_inode_same; congruence|rewrite put_inode_other by exact NE; exact X2].
Qed.

Lemma numbered_put k p o : Numbered k -> (forall n, o = Some n -> (n < k_next k)%nat) ->
  Numbered (set_names (put_name p o (k_names k)) k).
Proof.
  intros N Ho r n. cbn. unfold put_name. destruct (comps_eqb r p); [apply Ho|apply N].
Qed.

(** A name given to an inode that is not the socket, or taken away. *)
Lemma lst_names k f : Lst k -> (forall p n, f p = Some n -> k_names k p = Some n \/ exists r, r <> q /\ k_names k r = Some n) ->
  Lst (set_names f k).
Proof.
  intros HL Hf l El. destruct (HL l El) as [Q X]. split; [exact Q|]. intros n En. destruct (X n En) as (X1 & X2 & X3).
  split; [exact X1|]. split; [exact X2|]. cbn. intros p Hp. destruct (Hf p n Hp) as [H|(r & Nr & H)]; [exact (X3 _ H)|].
  destruct (Nr (X3 _ H)).
Qed.

Lemma bar_act k ca : Timid ca -> Bar k ->
  Bar (act k ca) /\ k_names (act k ca) q = k_names k q /\ (Lst k -> Lst (act k ca)).
Proof.
  destruct ca as [c a]. intros HT HB. unfold Timid in HT. cbn [fst snd] in HT.
  assert (TA : (forall p, a <> Connect p) -> T c).
  { intros NC. destruct HT as [_ [X|[p E]]]; [exact X|destruct (NC p E)]. }
  assert (R : Bar k /\ k_names k q = k_names k q /\ (Lst k -> Lst k)) by auto.
  pose proof HB as (G & N & D & I0).
  destruct a as [p|p|p kd g m|p r|p r|p m|p u g].
  - pose proof (connect_files k c p) as F. split; [exact (bar_files _ _ HB F)|].
    split; [destruct F as (-> & _); reflexivity|]. intros HL. cbn [act].
    destruct (finds k c p) as [n|] eqn:EF; [|exact HL]. destruct (k_listen k) as [l|] eqn:El; [|exact HL].
    destruct (reaches l n && may_write c (k_inodes k n)) eqn:E; [|exact HL].
    apply andb_true_iff in E as [ER _]. unfold reaches in ER. apply andb_true_iff in ER as [_ ER].
    destruct (HL l El) as [Q X]. destruct (l_ino l) as [m|] eqn:Ei; [|discriminate]. apply Nat.eqb_eq in ER. subst m.
    destruct (X n eq_refl) as (X1 & X2 & X3).
    intros l' E. cbn in E. injection E as <-. cbn. split; [|intros m Em; apply X; congruence].
    apply Forall_app. split; [exact Q|]. constructor; [|constructor].
    unfold finds in EF. destruct (finds_name _ _ _ _ _ EF) as (r & Hr & Hs). apply X3 in Hr. subst r.
    split; [rewrite <- I0; eapply search_dir; eassumption|exact (proj1 HT)].
  - specialize (TA ltac:(discriminate)). cbn [act]. destruct (can_edit k c p) eqn:E; [|exact R].
    pose proof (no_edit _ _ _ _ _ _ G TA E) as NE. split; [|split].
    + apply (bar_names k); auto; [intros s Hs; cbn; apply put_name_other; intros ->; tauto|].
      apply numbered_put; [exact N|discriminate].
    + cbn. apply put_name_other. intros E'. apply NE. right. congruence.
    + intros HL. apply lst_names; [exact HL|]. intros s n. unfold put_name. destruct (comps_eqb s p); [discriminate|auto].
  - specialize (TA ltac:(discriminate)). cbn [act]. destruct (can_edit k c p) eqn:E; [|exact R].
    destruct (k_names k p) as [x|] eqn:EN; [exact R|].
    pose proof (no_edit _ _ _ _ _ _ G TA E) as NE. split; [|split].
    + apply (bar_step k); [exact HB| | | | |].
      * intros s Hs. cbn. apply put_name_other. intros ->. contradiction.
      * intros n Hn. cbn. rewrite put_inode_other by lia. reflexivity.
      * intros s d Hs Hd. cbn. apply put_inode_other. destruct (dir_known _ _ _ _ _ _ G Hs Hd). lia.
      * cbn. lia.
      * intros s n. cbn. unfold put_name. destruct (comps_eqb s p); [intros H; injection H as <-; lia|].
        intros H. apply N in H. lia.
    + cbn. apply put_name_other. intros E'. apply NE. right. congruence.
    + intros HL l El. cbn in El. destruct (HL l El) as [Q X]. split; [exact Q|]. intros n En.
      destruct (X n En) as (X1 & X2 & X3). cbn. split; [lia|]. split; [rewrite put_inode_other by lia; exact X2|].
      intros s. unfold put_name. destruct (comps_eqb s p); [intros H; injection H as H; lia|apply X3].
  - specialize (TA ltac:(discriminate)). cbn [act].
    destruct (can_edit k c p) eqn:E1; [|exact R]. destruct (can_edit k c r) eqn:E2; [|exact R]. cbn [andb].
    pose proof (no_edit _ _ _ _ _ _ G TA E1) as N1. pose proof (no_edit _ _ _ _ _ _ G TA E2) as N2.
    destruct (k_names k p) as [n|] eqn:EN; [|exact R]. split; [|split].
    + apply (bar_names k); auto.
      * intros s Hs. cbn. rewrite !put_name_other; [reflexivity|intros ->; tauto|intros ->; tauto].
      * intros s x. cbn. unfold put_name. destruct (comps_eqb s p); [discriminate|].
        destruct (comps_eqb s r); [intros H; injection H as <-; exact (N _ _ EN)|apply N].
    + cbn. rewrite !put_name_other; [reflexivity|intros E'; apply N2; right; congruence|intros E'; apply N1; right; congruence].
    + intros HL. apply lst_names; [exact HL|]. intros s x. unfold put_name. destruct (comps_eqb s p); [discriminate|].
      destruct (comps_eqb s r); [|auto]. intros H. injection H as <-. right. exists p. split; [intros E'; apply N1; right; exact E'|exact EN].
  - specialize (TA ltac:(discriminate)). cbn [act].
    destruct (can_search k c p) eqn:ES; [|exact R]. destruct (can_edit k c r) eqn:E; [|exact R]. cbn [andb].
    pose proof (no_edit _ _ _ _ _ _ G TA E) as NE.
    destruct (k_names k p) as [n|] eqn:EN; [|exact R]. destruct (k_names k r) eqn:ER; [exact R|]. split; [|split].
    + apply (bar_names k); auto; [intros s Hs; cbn; apply put_name_other; intros ->; tauto|].
      apply numbered_put; [exact N|]. intros x H. injection H as <-. exact (N _ _ EN).
    + cbn. apply put_name_other. intros E'. apply NE. right. congruence.
    + intros HL. apply lst_names; [exact HL|]. intros s x. unfold put_name. destruct (comps_eqb s r); [|auto].
      intros H. injection H as <-. right. exists p. split; [|exact EN]. intros ->.
      pose proof (search_dir _ _ _ _ ES D) as HS. rewrite I0, (T_barred _ TA) in HS. discriminate.
  - specialize (TA ltac:(discriminate)). cbn [act]. destruct (finds k c p) as [n|]; [|exact R].
    destruct (is_owner k c n) eqn:EO; [|exact R]. split; [|split; [reflexivity|]].
    + apply bar_inode; [exact HB|reflexivity|]. intros s d Hs Hd. eapply no_own; eassumption.
    + intros HL. apply lst_inode; [exact HL|reflexivity].
  - specialize (TA ltac:(discriminate)). cbn [act]. destruct (finds k c p) as [n|]; [|exact R].
    match goal with |- Bar (if ?b then _ else _) /\ _ => destruct b eqn:EO end; [|exact R]. split; [|split; [reflexivity|]].
    + apply bar_inode; [exact HB|reflexivity|]. intros s d Hs Hd. eapply (no_own _ _ _ _ c); [exact G|exact TA|exact Hs|exact Hd|].
      unfold is_owner. destruct (cr_priv c); [reflexivity|]. cbn in *. apply andb_true_iff in EO as [EO _].
      apply andb_true_iff in EO as [EO _]. exact EO.
    + intros HL. apply lst_inode; [exact HL|reflexivity].
Qed.

Definition Timids (ts : list turn) : Prop := Forall (fun t : turn => Forall Timid (fst t)) ts.

Lemma bar_acts acts : Forall Timid acts -> forall k, Bar k ->
  Bar (fold_left act acts k) /\ k_names (fold_left act acts k) q = k_names k q /\ (Lst k -> Lst (fold_left act acts k)).
Proof.
  induction acts as [|ca acts IH]; intros H k HB; [auto|]. cbn.
  destruct (bar_act k ca (Forall_inv H) HB) as (B1 & N1 & L1).
  destruct (IH (Forall_inv_tail H) _ B1) as (B2 & N2 & L2). split; [exact B2|]. split; [congruence|auto].
Qed.

Lemma bar_unlink k : Bar k -> Bar (set_names (put_name q None (k_names k)) k) /\ (Lst k -> Lst (set_names (put_name q None (k_names k)) k)).
Proof.
  intros HB. pose proof HB as (G & N & D & I0). split.
  - apply (bar_names k); auto.
    + intros s Hs. cbn. apply put_name_other. intros ->. destruct (gd_self _ _ _ _ G Hs).
    + apply numbered_put; [exact N|discriminate].
  - intros HL. apply lst_names; [exact HL|]. intros s n. unfold put_name. destruct (comps_eqb s q); [discriminate|auto].
Qed.

(** Calls that change neither attributes nor listener, or that fail. *)
Lemma bar_rest ev : Rest ev -> Unlinks q ev -> Bar (e_pre ev) ->
  Bar (effect euid (e_call ev) (e_ans ev) (e_pre ev)) /\ (Lst (e_pre ev) -> Lst (effect euid (e_call ev) (e_ans ev) (e_pre ev))).
Proof.
  unfold Rest, Unlinks. intros HR HU HB. set (k := e_pre ev) in *.
  assert (R : Bar k /\ (Lst k -> Lst k)) by auto.
  destruct (e_call ev) eqn:EC; try contradiction; destruct (e_ans ev) eqn:EA; cbn [effect];
    try (match goal with |- Bar ?x /\ _ => constr_eq x k end; exact R).
  - subst p. destruct (k_names k q); [|exact R]. apply bar_unlink. exact HB.
  - split; [apply (bar_files k); [exact HB|repeat split]|auto].
  - split; [apply (bar_files k); [exact HB|destruct (k_listen k); repeat split]|].
    destruct (k_listen k) as [l|] eqn:El; [|auto]. intros HL l' E. cbn in E. injection E as <-. cbn. exact (HL l El).
  - destruct HR as [[e E]|[_ E]]; [congruence|]. unfold k. rewrite E. exact R.
  - destruct HR as [[e E]|[_ E]]; [congruence|]. unfold k. rewrite E. exact R.
  - split; [apply (bar_files k); [exact HB|destruct (k_listen k) as [l|]; [destruct (l_queue l)|]; repeat split]|].
    destruct (k_listen k) as [l|] eqn:El; [|auto]. destruct (l_queue l) as [|c0 q0] eqn:Eq; [auto|].
    intros HL l' E. cbn in E. injection E as <-. cbn. destruct (HL l El) as [Q X]. rewrite Eq in Q. split; [exact (Forall_inv_tail Q)|exact X].
  - split; [apply (bar_files k); [exact HB|repeat split]|]. intros _ l E. discriminate.
  - split; [apply (bar_files k); [exact HB|repeat split]|auto].
  - split; [apply (bar_files k); [exact HB|repeat split]|auto].
Qed.

Lemma PreBind_Rest c ev : PreBind q (e_call ev) -> e_call ev = c -> Rest ev /\ Unlinks q ev.
Proof. intros H _. unfold Rest, Unlinks. destruct (e_call ev); cbn in *; auto; contradiction. Qed.

Lemma bar_pre k ts evs k' : Linked euid k ts evs k' -> Timids ts -> Only (PreBind q) evs -> Bar k -> Bar k'.
Proof.
  induction 1 as [|k acts a c k1 k2 ts evs k' E1 E2 HL IH]; intros HT HF HK; [exact HK|].
  apply IH; [exact (Forall_inv_tail HT)|exact (Forall_inv_tail HF)|]. subst k2.
  destruct (PreBind_Rest c (mkEvent c a k1 k1) (Forall_inv HF) eq_refl) as [R1 R2].
  apply (bar_rest (mkEvent c a k1 k1) R1 R2). subst k1. exact (proj1 (bar_acts _ (Forall_inv HT) _ HK)).
Qed.

Lemma bar_rests k ts evs k' : Linked euid k ts evs k' -> Timids ts -> Forall Rest evs -> Forall (Unlinks q) evs -> Bar k -> Lst k ->
  forall ev, In ev evs -> Lst (e_pre ev).
Proof.
  induction 1 as [|k acts a c k1 k2 ts evs k' E1 E2 HL IH]; intros HT HF HU HB HLs; [intros ev []|].
  destruct (bar_acts _ (Forall_inv HT) _ HB) as (B1 & _ & L1). specialize (L1 HLs). cbn [fst] in B1, L1. rewrite <- E1 in B1, L1.
  intros ev [<-|Hin]; [exact L1|].
  destruct (bar_rest (mkEvent c a k1 k2) (Forall_inv HF) (Forall_inv HU) B1) as [B2 L2]. cbn [e_call e_ans e_pre] in B2, L2.
  rewrite <- E2 in B2, L2. apply (IH (Forall_inv_tail HT) (Forall_inv_tail HF) (Forall_inv_tail HU) B2 (L2 L1) ev Hin).
Qed.

(** The name leads to the plugin's socket. *)
Definition Own (k : kernel) : Prop := exists l n, k_listen k = Some l /\ l_ino l = Some n /\ k_names k q = Some n.

Lemma own_acts acts k : Forall Timid acts -> Bar k -> Lst k -> Own k -> Own (fold_left act acts k).
Proof.
  intros HA HB HL (l & n & El & Ei & En). destruct (bar_acts _ HA _ HB) as (_ & N1 & _).
  pose proof (acts_keep listen_ino act_listen_ino acts k) as E. unfold listen_ino in E. rewrite El in E. cbn in E.
  destruct (k_listen (fold_left act acts k)) as [l'|] eqn:El'; [|discriminate]. cbn in E. injection E as E.
  exists l', n. repeat split; congruence.
Qed.
Lemma own_holds k : Lst k -> Own k -> exists n, Holds q n k.
Proof. intros HL (l & n & El & Ei & En). exists n. split; [exact En|]. destruct (HL l El) as [_ X]. apply (X n Ei). Qed.

(** Changing the attributes of the socket through its name. *)
Lemma bar_change k n i : Holds q n k -> i_kind i = KSock -> Bar k ->
  Bar (set_inodes (put_inode n i (k_inodes k)) k) /\ (Lst k -> Lst (set_inodes (put_inode n i (k_inodes k)) k)).
Proof.
  intros [H1 H2] Hi HB. split.
  - apply bar_inode; [exact HB|congruence|]. intros s d Hs Hd ->. destruct HB as (G & _).
    destruct (dir_known _ _ _ _ _ _ G Hs Hd) as [_ X]. congruence.
  - intros HL. apply lst_inode; [exact HL|congruence].
Qed.

Lemma bar_tail k ts ev evs k' : Linked euid k ts (ev :: evs) k' -> Timids ts -> Bar k -> Lst k -> Own k ->
  (Is CListen AOk ev \/ (exists x y, Is (CChown q x y) AOk ev) \/ (exists x, Is (CChmod q x) AOk ev)) ->
  Lst (e_pre ev) /\ exists ts2, Timids ts2 /\ Bar (e_post ev) /\ Lst (e_post ev) /\ Own (e_post ev) /\ Linked euid (e_post ev) ts2 evs k'.
Proof.
  intros HL HT HB HLs HO HC.
  change (ev :: evs) with ([] ++ ev :: evs) in HL.
  apply Linked_at in HL as (ts1 & acts & a & ts2 & k1 & -> & L1 & P1 & A1 & Q1 & L2). apply Linked_nil in L1. subst k1.
  unfold Timids in HT. apply Forall_app in HT as [_ HT]. pose proof (Forall_inv HT) as HA. apply Forall_inv_tail in HT. cbn in HA.
  destruct (bar_acts _ HA _ HB) as (B1 & N1 & X1). specialize (X1 HLs). pose proof (own_acts _ _ HA HB HLs HO) as O1.
  rewrite <- P1 in B1, N1, X1, O1. split; [exact X1|]. exists ts2. split; [exact HT|].
  destruct O1 as (l & n & El & Ei & En). destruct (X1 l El) as [Q X]. destruct (X n Ei) as (Y1 & Y2 & Y3).
  assert (HH : Holds q n (e_pre ev)) by (split; assumption).
  destruct HC as [[Ec Ea]|[(x & y & Ec & Ea)|(x & Ec & Ea)]]; rewrite Ec, Ea in Q1; cbn [effect] in Q1.
  - rewrite El in Q1. rewrite Q1. split; [apply (bar_files (e_pre ev)); [exact B1|repeat split]|]. split; [|split; [|rewrite <- Q1; exact L2]].
    + intros l' E. cbn in E. injection E as <-. cbn. split; [exact Q|exact X].
    + eexists _, n. split; [reflexivity|]. split; [exact Ei|exact En].
  - rewrite (Holds_resolve _ _ _ HH) in Q1. unfold chown_inode in Q1.
    destruct (bar_change _ n (mkInode (i_kind (k_inodes (e_pre ev) n)) (if x =? NO_ID then i_uid (k_inodes (e_pre ev) n) else x)
      (if y =? NO_ID then i_gid (k_inodes (e_pre ev) n) else y) (i_perm (k_inodes (e_pre ev) n))) HH Y2 B1) as [B2 L2'].
    rewrite <- Q1 in B2, L2'. split; [exact B2|]. split; [exact (L2' X1)|]. split; [|exact L2].
    exists l, n. rewrite Q1. repeat split; assumption.
  - rewrite (Holds_resolve _ _ _ HH) in Q1. unfold chmod_inode in Q1.
    destruct (bar_change _ n (mkInode (i_kind (k_inodes (e_pre ev) n)) (i_uid (k_inodes (e_pre ev) n)) (i_gid (k_inodes (e_pre ev) n)) (Z.land x 4095)) HH Y2 B1) as [B2 L2'].
    rewrite <- Q1 in B2, L2'. split; [exact B2|]. split; [exact (L2' X1)|]. split; [|exact L2].
    exists l, n. rewrite Q1. repeat split; assumption.
Qed.

Variables (p : bytes) (u g m : Z).
Hypothesis Hq : components p = q.

Lemma barred_lst evs k ts k' acc : Shape p u g m evs -> Linked euid k ts evs k' -> Timids ts -> Bar k -> Forall (Unlinks q) evs ->
  In acc evs -> Is CAccept AOk acc -> Lst (e_pre acc).
Proof.
  intros [HQ|(pre & um & fd & sk & b & tr & -> & Hp & Hu & Hs & Hb & HT)] HL HTT HB HUn Hin HAc.
  { rewrite Forall_forall in HQ. destruct (HQ _ Hin) as [_ H]. destruct H. exact HAc. }
  assert (Hin' : In acc tr).
  { pose proof (proj1 HAc) as EC. apply in_app_iff in Hin as [Hin|[<-|[<-|[<-|Hin]]]].
    - unfold Only in Hp. rewrite Forall_forall in Hp. apply Hp in Hin. rewrite EC in Hin. destruct Hin.
    - destruct Hu; congruence.
    - destruct Hs; congruence.
    - destruct Hb; congruence.
    - exact Hin. }
  rewrite Hq in Hp.
  pose proof (bound_state euid _ _ _ _ _ _ _ _ _ _ HL Hu Hs Hb) as (fd' & gb & Ea & El & HPost). rewrite Hq in HPost.
  assert (UT : Forall (Unlinks q) tr).
  { apply Forall_app in HUn as [_ H0]. do 3 apply Forall_inv_tail in H0. exact H0. }
  (* the socket is made *)
  change (pre ++ um :: sk :: b :: tr) with (pre ++ [um] ++ sk :: b :: tr) in HL. rewrite app_assoc in HL.
  apply Linked_at in HL as (ts1 & acts & a & ts2 & k1 & -> & L1 & P1 & _ & Q1 & L2).
  unfold Timids in HTT. apply Forall_app in HTT as [HT1 HTT]. pose proof (Forall_inv HTT) as HA1. apply Forall_inv_tail in HTT. cbn in HA1.
  assert (B1 : Bar k1).
  { eapply bar_pre; [exact L1|exact HT1| |exact HB]. apply Forall_app. split; [exact Hp|].
    constructor; [rewrite (proj1 Hu); exact Logic.I|constructor]. }
  destruct (bar_acts _ HA1 _ B1) as (B2 & _ & _). rewrite <- P1 in B2.
  rewrite (proj1 Hs), (proj2 Hs) in Q1. cbn [effect] in Q1.
  assert (B3 : Bar (e_post sk)) by (rewrite Q1; apply (bar_files (e_pre sk)); [exact B2|repeat split]).
  (* it is bound *)
  change (b :: tr) with ([] ++ b :: tr) in L2.
  apply Linked_at in L2 as (ts3 & acts2 & a2 & ts4 & k2 & -> & L3 & P2 & _ & Q2 & L4). apply Linked_nil in L3. subst k2.
  apply Forall_app in HTT as [_ HTT]. pose proof (Forall_inv HTT) as HA2. apply Forall_inv_tail in HTT. cbn in HA2.
  destruct (bar_acts _ HA2 _ B3) as (B4 & _ & _). rewrite <- P2 in B4.
  pose proof B4 as (G4 & N4 & D4 & I4).
  destruct Hb as (_ & _ & _ & Nn & _). rewrite Hq in Nn.
  assert (B5 : Bar (e_post b)).
  { rewrite HPost. apply (bar_files (add_file q (mkInode KSock euid gb 0) (e_pre b))); [|repeat split].
    destruct B4 as (_ & _ & _ & _).
    assert (HN : forall s, S s -> k_names (add_file q (mkInode KSock euid gb 0) (e_pre b)) s = k_names (e_pre b) s).
    { intros s Hs'. cbn. apply put_name_other. intros ->. destruct (gd_self _ _ _ _ G4 Hs'). }
    assert (HK : forall n, (n < k_next (e_pre b))%nat -> i_kind (k_inodes (add_file q (mkInode KSock euid gb 0) (e_pre b)) n) = i_kind (k_inodes (e_pre b) n)).
    { intros n Hn. cbn. rewrite put_inode_other by lia. reflexivity. }
    assert (HD : forall s d, S s \/ s = q -> dir_inode (e_pre b) s = Some d ->
      k_inodes (add_file q (mkInode KSock euid gb 0) (e_pre b)) d = k_inodes (e_pre b) d).
    { intros s d Hs' Hd. cbn. apply put_inode_other. destruct (dir_known _ _ _ _ _ _ G4 Hs' Hd). lia. }
    split; [eapply guard_step; [exact G4|exact HN|exact HK|exact HD|cbn; lia]|]. split; [|split].
    - intros s n. cbn. unfold put_name. destruct (comps_eqb s q); [intros H; injection H as <-; lia|]. intros H. apply N4 in H. lia.
    - rewrite (dir_same _ _ _ _ _ _ G4 HN HK (or_intror eq_refl)). exact D4.
    - rewrite (HD q dn (or_intror eq_refl) D4). exact I4. }
  assert (L5 : Lst (e_post b)).
  { rewrite HPost. intros l E. cbn in E. injection E as <-. cbn. split; [constructor|]. intros n E. injection E as <-.
    split; [lia|]. split; [rewrite put_inode_same; reflexivity|]. intros s. unfold put_name.
    destruct (comps_eqb s q) eqn:Es; [intros _; apply comps_eqb_eq; exact Es|]. intros H. apply N4 in H. lia. }
  assert (O5 : Own (e_post b)).
  { rewrite HPost. eexists _, _. split; [reflexivity|]. split; [reflexivity|]. cbn. apply put_name_same. }
  destruct HT as [HR|(li & co & es & -> & Hl & Hc & H)].
  { eapply bar_rests; eassumption. }
  destruct (bar_tail _ _ _ _ _ L4 HTT B5 L5 O5 (or_introl Hl)) as (X1 & ts5 & T5 & B6 & L6 & O6 & K6).
  destruct Hc as [Hc _]. rewrite Hq in Hc.
  destruct (bar_tail _ _ _ _ _ K6 T5 B6 L6 O6 ltac:(right; left; eauto)) as (X2 & ts6 & T6 & B7 & L7 & O7 & K7).
  apply Forall_inv_tail in UT. apply Forall_inv_tail in UT.
  destruct Hin' as [<-|[<-|Hin']]; [exact X1|exact X2|].
  destruct H as [HR|(cm & es2 & -> & Hm & HR)].
  { eapply bar_rests; eassumption. }
  destruct Hm as [Hm _]. rewrite Hq in Hm.
  destruct (bar_tail _ _ _ _ _ K7 T6 B7 L7 O7 ltac:(right; right; eauto)) as (X3 & ts7 & T7 & B8 & L8 & O8 & K8).
  apply Forall_inv_tail in UT. destruct Hin' as [<-|Hin']; [exact X3|]. eapply bar_rests; eassumption.
Qed.
End Search.

Section Claims.
Variables (pl : platform) (a : open_args) (rq : request) (w w' : world) (o : outcome (Z * pstate SudoPair)) (evs : list event).
Hypothesis D : Describes pl a rq.
Hypothesis HR : core_open SudoPair pl a (pstate0 _) w = (o, w').
Hypothesis HT : w_trace w' = w_trace w ++ evs.

Lemma searchers (Adm T : cred -> Prop) q d : SocketPath rq q -> Numbered (w_k w) -> Guarded T q (w_k w) ->
  resolve (w_k w) (dir_path q) = Some d -> i_kind (k_inodes (w_k w) d) = KDir ->
  (forall c, T c -> ~ MaySearch c (k_inodes (w_k w) d)) ->
  Everyone (fun c x => Adm c /\ (T c \/ OnlyConnects x)) w ->
  forall n c peer acc, In acc evs -> Accepts n c peer acc -> MaySearch peer (k_inodes (w_k w) d) /\ Adm peer.
Proof.
  intros Hq HN [S HG] Hd Hk HB HE n c peer acc Hin HA. pose proof (SocketPath_unique rq q Hq) as Eq. subst q.
  assert (Dn : dir_inode (w_k w) (sock_comps rq) = Some d).
  { unfold dir_inode. destruct (sock_comps rq) eqn:E.
    - exfalso. pose proof (gd_self _ _ _ _ HG) as X. pose proof (gd_dir _ _ _ _ HG) as Y. exact (X Y).
    - rewrite Hd, Hk. reflexivity. }
  assert (X : exists u g m, OpenShape pl rq w w' evs u g m \/ Only LocalPrompt evs).
  { destruct (Z.eq_dec (rq_uid rq) (rq_to_uid rq)) as [E|E]; eexists _, _, _;
      [exact (opened_group_shape pl a rq D w w' o evs HR HT E)|exact (opened_shape pl a rq D w w' o evs HR HT E)]. }
  destruct X as (u & g & m & [(ts & p & Ep & Es & HL & HSh)|HO]); [|destruct (local_no_accept _ _ _ _ _ HO Hin HA)].
  assert (HL' : Lst (sock_comps rq) (k_inodes (w_k w) d) Adm (e_pre acc)).
  { eapply (barred_lst (pl_euid pl) S (sock_comps rq) d (k_inodes (w_k w) d) Adm T) with (p := p);
      [|exact Ep|exact HSh|exact HL| | | |exact Hin|exact (proj1 HA)].
    - intros c0 Hc. destruct (may_search c0 (k_inodes (w_k w) d)) eqn:E; [|reflexivity]. apply may_search_iff in E. destruct (HB _ Hc E).
    - unfold Everyone in HE. rewrite Es in HE. apply Forall_app in HE as [HE _]. exact HE.
    - split; [exact HG|]. split; [exact HN|]. split; [exact Dn|reflexivity].
    - exact (unlinks_own pl a rq D w w' o evs HR HT). }
  destruct HA as (_ & _ & l & q' & El & _ & Eq'). destruct (HL' l El) as [Q _]. rewrite Eq' in Q.
  destruct (Forall_inv Q) as [Q1 Q2]. split; [apply may_search_iff; exact Q1|exact Q2].
Qed.

Lemma everyone_impl (P Q : cred -> action -> Prop) : (forall c x, P c x -> Q c x) -> Everyone P w -> Everyone Q w.
Proof. intros H. unfold Everyone. apply Forall_impl. intros t. apply Forall_impl. auto. Qed.

Lemma searchers_accepted (T : cred -> Prop) q d : SocketPath rq q -> Numbered (w_k w) -> Guarded T q (w_k w) ->
  resolve (w_k w) (dir_path q) = Some d -> i_kind (k_inodes (w_k w) d) = KDir ->
  (forall c, T c -> ~ MaySearch c (k_inodes (w_k w) d)) ->
  Everyone (fun c x => T c \/ OnlyConnects x) w ->
  forall n c peer acc, In acc evs -> Accepts n c peer acc -> MaySearch peer (k_inodes (w_k w) d).
Proof.
  intros Hq HN HG Hd Hk HB HE n c peer acc Hin HA.
  eapply (searchers (fun _ => True) T); try eassumption. revert HE. apply everyone_impl. auto.
Qed.

Lemma closed_search c i : Z.land (i_perm i) 73 = 0 -> MaySearch c i -> cr_priv c = true.
Proof.
  intros H HM. assert (X : forall n, Z.testbit 73 n = true -> Z.testbit (i_perm i) n = false).
  { intros n Hn. assert (E : Z.testbit (Z.land (i_perm i) 73) n = false) by (rewrite H; apply Z.bits_0).
    rewrite Z.land_spec, Hn, andb_true_r in E. exact E. }
  destruct HM as [HM|[[_ HM]|[(_ & _ & HM)|(_ & _ & HM)]]]; [exact HM|rewrite X in HM by reflexivity; discriminate..].
Qed.

Section Closed.
Variables (q : path) (d : nat).
Hypothesis Hq : SocketPath rq q.
Hypothesis HN : Numbered (w_k w).
Hypothesis HG : Guarded (Unprivileged (pl_euid pl)) q (w_k w).
Hypothesis Hd : resolve (w_k w) (dir_path q) = Some d.
Hypothesis Hk : i_kind (k_inodes (w_k w) d) = KDir.
Hypothesis HP : Z.land (i_perm (k_inodes (w_k w) d)) 73 = 0.

Lemma closed_accepted : Everyone (fun c x => Unprivileged (pl_euid pl) c \/ OnlyConnects x) w ->
  forall n c peer acc, In acc evs -> Accepts n c peer acc -> cr_priv peer = true.
Proof.
  intros HE n c peer acc Hin HA. eapply closed_search; [exact HP|].
  eapply searchers_accepted; try eassumption. intros c0 [P _] HM. apply (closed_search _ _ HP) in HM. congruence.
Qed.

Lemma closed_never : Everyone (fun c x => cr_priv c = false /\ (cr_uid c <> pl_euid pl \/ OnlyConnects x)) w ->
  ~ Exempt rq -> rq_command rq <> [] -> forall st', o <> Done (1, st').
Proof.
  intros HE NE NC st' Eo. assert (HR' := HR). rewrite Eo in HR'.
  destruct (approval_needed pl a rq w st' w' evs D NE NC HR' HT) as (c & q' & e1 & b & e2 & acc & e3 & rd & e4 & peer & _ & E & _ & HA & _).
  assert (Hin : In acc evs) by (rewrite E; apply in_or_app; right; right; apply in_elt).
  destruct (searchers (fun c => cr_priv c = false) (Unprivileged (pl_euid pl)) q d Hq HN HG Hd Hk
    ltac:(intros c0 [P _] HM; apply (closed_search _ _ HP) in HM; congruence)
    ltac:(revert HE; apply everyone_impl; intros c0 x [P X]; split; [exact P|]; destruct X as [X|X]; [left; split; assumption|right; exact X])
    _ c peer acc Hin HA) as [H1 H2].
  apply (closed_search _ _ HP) in H1. congruence.
Qed.
End Closed.
End Claims.
