(** Running the plugin forwards: environments in which a request gets through. *)
From Coq Require Import Lia.
From Verif Require Import Base BaseLemmas Num Path Template Options World Sys Io Socket Env Core Pair
  Spec TraceSpec SessionSpec PathProofs RequestProofs PairPure InputFacts RunProofs SocketProofs PairProofs
  OpenFacts AskFacts MiscFacts SplitFacts FilesFacts HonourSpec HonourFacts.
Local Open Scope Z_scope.

(** [m], started in [k] and given the turns [ts] (and whatever comes after),
    uses exactly those turns, returns [x] and leaves [k']. *)
Definition Goes {A} (m : M A) (k : kernel) (ts : list turn) (x : A) (k' : kernel) : Prop :=
  forall s tr, exists tr', m (mkWorld k (ts ++ s) tr) = (Done x, mkWorld k' s tr').

Lemma goes_ret {A} (x : A) k : Goes (ret x) k [] x k.
Proof. intros s tr. exists tr. reflexivity. Qed.

Lemma goes_bind {A C} (m : M A) (f : A -> M C) k t1 x k1 t2 y k2 :
  Goes m k t1 x k1 -> Goes (f x) k1 t2 y k2 -> Goes (bind m f) k (t1 ++ t2) y k2.
Proof.
  intros H1 H2 s tr. rewrite <- app_assoc. destruct (H1 (t2 ++ s) tr) as [tr1 E1]. destruct (H2 s tr1) as [tr2 E2].
  exists tr2. unfold bind. rewrite E1. exact E2.
Qed.

Lemma goes_sys {A} c (f : answer -> kernel -> option (A * kernel)) k acts a x k' :
  f a (fold_left act acts k) = Some (x, k') -> Goes (sys c f) k [(acts, a)] x k'.
Proof. intros H s tr. eexists. cbn. rewrite H. reflexivity. Qed.

Lemma goes_catch {A} (m : M A) k ts x k' : Goes m k ts x k' -> Goes (catch m) k ts (Some x) k'.
Proof. intros H s tr. destruct (H s tr) as [tr' E]. exists tr'. unfold catch. rewrite E. reflexivity. Qed.

Lemma goes_unwind {A} (m : M A) c k ts x k' : Goes m k ts x k' -> Goes (unwind_with m c) k ts x k'.
Proof. intros H s tr. destruct (H s tr) as [tr' E]. exists tr'. unfold unwind_with. rewrite E. reflexivity. Qed.

(** [m] can return [x] from any state, undisturbed, without touching a file. *)
Definition Can {A} (m : M A) (x : A) : Prop := forall k, exists ts k', Calm ts /\ SameFiles k k' /\ Goes m k ts x k'.

Lemma same_refl k : SameFiles k k.
Proof. repeat split. Qed.

Lemma can_ret {A} (x : A) : Can (ret x) x.
Proof. intros k. exists [], k. split; [constructor|]. split; [apply same_refl|apply goes_ret]. Qed.

Lemma can_bind {A C} (m : M A) (f : A -> M C) x y : Can m x -> Can (f x) y -> Can (bind m f) y.
Proof.
  intros H1 H2 k. destruct (H1 k) as (t1 & k1 & C1 & (A1 & A2 & A3) & G1).
  destruct (H2 k1) as (t2 & k2 & C2 & (B1 & B2 & B3) & G2).
  exists (t1 ++ t2), k2. split; [apply Forall_app; split; assumption|]. split; [repeat split; congruence|]. eapply goes_bind; eassumption.
Qed.

Lemma can_sys {A} c (f : answer -> kernel -> option (A * kernel)) a x :
  (forall k, exists k', f a k = Some (x, k') /\ SameFiles k k') -> Can (sys c f) x.
Proof.
  intros H k. destruct (H k) as (k' & E & HS). exists [([], a)], k'. split; [repeat constructor|]. split; [exact HS|]. apply goes_sys. exact E.
Qed.

Lemma can_unwind {A} (m : M A) c x : Can m x -> Can (unwind_with m c) x.
Proof.
  intros H k. destruct (H k) as (ts & k' & C & HS & G). exists ts, k'. split; [exact C|]. split; [exact HS|]. apply goes_unwind. exact G.
Qed.

(** Writing everything: in one go, or not at all. *)
Lemma can_write_all write b : (b <> [] -> Can (write b) (Ok (zlen b))) -> Can (write_all write b) (Ok tt).
Proof.
  intros H k. destruct b as [|x b].
  - exists [], k. split; [constructor|]. split; [apply same_refl|]. intros s tr. exists tr. reflexivity.
  - destruct (H ltac:(discriminate) k) as (ts & k' & C & HS & G). exists ts, k'. split; [exact C|]. split; [exact HS|]. intros s tr.
    destruct (G s tr) as [tr' E]. exists tr'. unfold write_all, bind, turns_left. cbn [write_all_loop w_script]. unfold bind.
    rewrite E. cbn beta iota.
    assert (Hz : (zlen (x :: b) =? 0) = false) by (apply Z.eqb_neq; unfold zlen; cbn [List.length]; lia). rewrite Hz.
    rewrite Z.ltb_irrefl.
    assert (Hs : skipn (Z.to_nat (zlen (x :: b))) (x :: b) = []) by (unfold zlen; rewrite Nat2Z.id; apply skipn_all).
    rewrite Hs. cbn [w_script]. destruct (List.length (ts ++ s)); reflexivity.
Qed.

Lemma can_write_fail write b e : e <> Os EINTR -> (b <> [] -> Can (write b) (Err e)) ->
  exists r, Can (write_all write b) r.
Proof.
  intros He H. destruct b as [|x b].
  - exists (Ok tt). intros k. exists [], k. split; [constructor|]. split; [apply same_refl|]. intros s tr. exists tr. reflexivity.
  - exists (Err e). intros k. destruct (H ltac:(discriminate) k) as (ts & k' & C & HS & G). exists ts, k'. split; [exact C|]. split; [exact HS|].
    intros s tr. destruct (G s tr) as [tr' E]. exists tr'. unfold write_all, bind, turns_left. cbn [write_all_loop w_script].
    unfold bind. rewrite E. cbn beta iota. destruct e; try reflexivity. destruct (errno =? EINTR) eqn:X; [|reflexivity].
    apply Z.eqb_eq in X. congruence.
Qed.

Lemma can_write c b : b <> [] -> Can (socket_write c b) (Ok (zlen b)).
Proof.
  intros Hb. unfold socket_write. eapply can_bind; [|apply can_ret with (x := flatten (Ok (Ok (zlen b))))].
  unfold ctrl_c_aborts_syscalls. intros k.
  exists [([], AOk); ([], AOk); ([], ANum (zlen b)); ([], AOk)]. eexists. split; [repeat constructor|]. split; [shelve|].
  change [([], AOk); ([], AOk); ([], ANum (zlen b)); ([], AOk)]
    with ([(@nil (cred * action), AOk)] ++ [([], AOk)] ++ [([], ANum (zlen b))] ++ [([], AOk)] ++ []).
  eapply goes_bind; [apply goes_sys; reflexivity|]. cbv beta iota.
  eapply goes_bind; [apply goes_sys; reflexivity|]. cbv beta iota.
  eapply goes_bind; [apply goes_sys; cbn [fold_left]|]. 
  { assert (X : (0 <=? zlen b) && (zlen b <=? zlen b) = true) by (apply andb_true_iff; unfold zlen; split; apply Z.leb_le; lia).
    rewrite X. reflexivity. }
  eapply goes_bind; [apply goes_sys; reflexivity|]. cbv beta iota. apply goes_ret.
  Unshelve. repeat split.
Qed.

Lemma can_flush c : Can (socket_flush c) (Ok tt).
Proof.
  unfold socket_flush. eapply can_bind; [|apply can_ret with (x := flatten (Ok (Ok tt)))].
  unfold ctrl_c_aborts_syscalls. intros k.
  exists [([], AOk); ([], AOk); ([], AOk)]. eexists. split; [repeat constructor|]. split; [shelve|].
  change [([], AOk); ([], AOk); ([], AOk)]
    with ([(@nil (cred * action), AOk)] ++ [([], AOk)] ++ [] ++ [([], AOk)] ++ []).
  eapply goes_bind; [apply goes_sys; reflexivity|]. cbv beta iota.
  eapply goes_bind; [apply goes_sys; reflexivity|]. cbv beta iota.
  eapply goes_bind; [apply goes_ret|].
  eapply goes_bind; [apply goes_sys; reflexivity|]. cbv beta iota. apply goes_ret.
  Unshelve. repeat split.
Qed.

Lemma can_read c b : Can (socket_read c) (Ok [b]).
Proof.
  unfold socket_read. eapply can_bind; [|apply can_ret with (x := flatten (Ok (Ok [b])))].
  unfold ctrl_c_aborts_syscalls. intros k.
  exists [([], AOk); ([], AOk); ([], AData [b]); ([], AOk)]. eexists. split; [repeat constructor|]. split; [shelve|].
  change [([], AOk); ([], AOk); ([], AData [b]); ([], AOk)]
    with ([(@nil (cred * action), AOk)] ++ [([], AOk)] ++ [([], AData [b])] ++ [([], AOk)] ++ []).
  eapply goes_bind; [apply goes_sys; reflexivity|]. cbv beta iota.
  eapply goes_bind; [apply goes_sys; reflexivity|]. cbv beta iota.
  eapply goes_bind; [apply goes_sys; reflexivity|].
  eapply goes_bind; [apply goes_sys; reflexivity|]. cbv beta iota. apply goes_ret.
  Unshelve. repeat split.
Qed.

(** ** The local prompt: every step may fail *)
Lemma can_load p d : Can (load_template p d) d.
Proof.
  unfold load_template. destruct (has_nul p); [apply can_ret|].
  eapply can_bind; [apply can_sys with (a := AErr ENOENT); intros k; eexists; split; [reflexivity|apply same_refl]|]. apply can_ret.
Qed.

Lemma can_print pf b : exists r, Can (pf_write_all pf b) r.
Proof.
  destruct (pf_present pf) eqn:HP; [destruct (has_nul b) eqn:HN|].
  - apply can_write_fail with (e := InvalidData); [discriminate|]. intros _. unfold pf_write. rewrite HP, HN. apply can_ret.
  - apply can_write_fail with (e := Os 5); [discriminate|]. intros _. unfold pf_write. rewrite HP, HN. cbn [negb].
    apply can_sys with (a := AErr 5). intros k. eexists. split; [reflexivity|apply same_refl].
  - apply can_write_fail with (e := NotConnected); [discriminate|]. intros _. unfold pf_write. rewrite HP. apply can_ret.
Qed.

Lemma can_local s sp : Can (local_pair_prompt s sp) tt.
Proof.
  unfold local_pair_prompt. eapply can_bind; [apply can_load|]. cbv beta zeta.
  eapply can_bind with (x := false).
  { destruct (ui_tty _) as [p|]; [|apply can_ret]. unfold tty_open. destruct (has_nul p).
    - eapply can_bind; [apply can_ret|]. apply can_ret.
    - eapply can_bind; [apply can_sys with (a := AErr ENOENT); intros k; eexists; split; [reflexivity|apply same_refl]|]. apply can_ret. }
  cbv beta iota. eapply can_bind with (x := false); [apply can_ret|]. cbv beta iota zeta.
  eapply can_bind with (x := tt); [|apply can_ret]. apply can_unwind.
  destruct (can_print (en_stderr (sp_env s)) (expand sp DEFAULT_USER_PROMPT)) as [r H].
  eapply can_bind; [exact H|apply can_ret].
Qed.

(** ** The conversation *)
Lemma can_talk s sp c b : sp_socket s = Some c -> b = "y"%byte \/ b = "Y"%byte -> Can (remote_pair_prompt s sp) (Ok tt).
Proof.
  intros Hs Hb. unfold remote_pair_prompt. rewrite Hs. eapply can_bind; [apply can_load|]. cbv beta zeta.
  eapply can_bind; [apply can_write_all; intros X; apply can_write; exact X|]. cbv beta iota.
  eapply can_bind; [apply can_flush|]. cbv beta iota.
  eapply can_bind; [apply (can_read c b)|]. cbv beta iota.
  eapply can_bind; [apply can_write_all; intros X; apply can_write; exact X|].
  eapply can_bind; [apply can_write_all; intros X; apply can_write; exact X|].
  destruct Hb as [-> | ->]; apply can_ret.
Qed.

(** ** The socket *)

Lemma resolve_more f : forall g k p n, (f <= g)%nat -> resolve_fuel f k p = Some n -> resolve_fuel g k p = Some n.
Proof.
  induction f as [|f IH]; intros g k p n Hg H; [discriminate|]. destruct g as [|g]; [lia|]. cbn in *.
  destruct (k_names k p) as [m|]; [|discriminate]. destruct (i_kind (k_inodes k m)); try exact H. apply IH; [lia|exact H].
Qed.

(** Removing a name that leads to a socket does not change what leads to a directory. *)
Lemma resolve_unlinked k q m p n : resolve k q = Some m -> i_kind (k_inodes k m) = KSock ->
  resolve k p = Some n -> i_kind (k_inodes k n) = KDir ->
  resolve (set_names (put_name q None (k_names k)) k) p = Some n.
Proof.
  unfold resolve. intros HQ HS HP HD. assert (Hf : (40 <= 40)%nat) by lia. revert Hf HP. generalize 40%nat at 1 3 4. intros f. revert p.
  induction f as [|f IH]; intros p Hf HP; [discriminate|].
  assert (Hne : p <> q).
  { intros ->. apply (resolve_more _ 40) in HP; [|exact Hf]. rewrite HQ in HP. injection HP as ->. congruence. }
  cbn [resolve_fuel] in *. cbn [k_names k_inodes set_names]. rewrite put_name_other by exact Hne.
  destruct (k_names k p) as [l|]; [|discriminate].
  destruct (i_kind (k_inodes k l)); try exact HP. apply IH; [lia|exact HP].
Qed.
Lemma resolve_no_name k p n : k_names k p = None -> resolve k p = Some n -> False.
Proof. unfold resolve. cbn. intros ->. discriminate. Qed.

(** Adding a file does not change what other names lead to. *)
Lemma resolve_added k k' q m p n : k_names k' = put_name q (Some m) (k_names k) -> k_names k q = None ->
  (forall x, x <> m -> k_inodes k' x = k_inodes k x) -> (forall r x, k_names k r = Some x -> x <> m) ->
  resolve k p = Some n -> resolve k' p = Some n.
Proof.
  unfold resolve. intros EN HQ EI HM. generalize 40%nat. intros f. revert p.
  induction f as [|f IH]; intros p HP; [discriminate|].
  cbn [resolve_fuel] in *. destruct (k_names k p) as [l|] eqn:E; [|discriminate].
  assert (Hne : p <> q) by (intros ->; congruence).
  rewrite EN, put_name_other, E by exact Hne. rewrite EI by (eapply HM; exact E).
  destruct (i_kind (k_inodes k l)); try exact HP. apply IH. exact HP.
Qed.
Lemma resolve_named k p n : resolve k p = Some n -> exists l, k_names k p = Some l.
Proof. unfold resolve. cbn [resolve_fuel]. destruct (k_names k p) as [l|]; [eauto|discriminate]. Qed.
Lemma resolve_no k p : k_names k p = None -> resolve k p = None.
Proof. unfold resolve. cbn [resolve_fuel]. intros ->. reflexivity. Qed.
Lemma resolve_has_name k n : forall f p, resolve_fuel f k p = Some n -> exists r, k_names k r = Some n.
Proof.
  induction f as [|f IH]; intros p H; [discriminate|]. cbn [resolve_fuel] in H.
  destruct (k_names k p) as [l|] eqn:E; [|discriminate].
  destruct (i_kind (k_inodes k l)); try (injection H as <-; eauto). eapply IH. exact H.
Qed.
Lemma resolve_name k p n : resolve k p = Some n -> exists r, k_names k r = Some n.
Proof. apply resolve_has_name. Qed.
Local Opaque resolve.

Lemma land_testbit x n : 0 <= n -> (Z.land x (2 ^ n) =? 0) = negb (Z.testbit x n).
Proof.
  intros Hn. destruct (Z.testbit x n) eqn:E; cbn.
  - apply Z.eqb_neq. intros H. assert (X : Z.testbit (Z.land x (2 ^ n)) n = true).
    { rewrite Z.land_spec, E, Z.pow2_bits_true by exact Hn. reflexivity. }
    rewrite H, Z.bits_0 in X. discriminate.
  - apply Z.eqb_eq. apply Z.bits_inj. intros i. rewrite Z.land_spec, Z.bits_0.
    destruct (Z.eq_dec i n) as [->|NE]; [rewrite E; reflexivity|]. rewrite Z.pow2_bits_false by congruence. apply andb_false_r.
Qed.
Lemma may_search_iff c i : may_search c i = true <-> MaySearch c i.
Proof.
  unfold may_search, MaySearch, S_IXUSR, S_IXGRP, S_IXOTH.
  change 64 with (2 ^ 6). change 8 with (2 ^ 3). change 1 with (2 ^ 0) at 1. rewrite !land_testbit by lia. rewrite !negb_involutive.
  destruct (cr_priv c); [split; auto|]. cbn [orb].
  destruct (Z.eqb_spec (cr_uid c) (i_uid i)) as [E|E].
  - split; [intros; auto 10|]. intros [H|[[_ H]|[[H _]|[H _]]]]; [discriminate|exact H|contradiction|contradiction].
  - destruct (mem_z (i_gid i) (cr_gids c)) eqn:Em.
    + apply mem_z_iff in Em. split; [intros; auto 10|]. intros [H|[[H _]|[(_ & _ & H)|(_ & H & _)]]]; try discriminate; try contradiction. exact H.
    + assert (Hn : ~ In (i_gid i) (cr_gids c)) by (intros X; apply mem_z_iff in X; congruence).
      split; [intros; auto 10|]. intros [H|[[H _]|[(_ & H & _)|(_ & _ & H)]]]; try discriminate; try contradiction. exact H.
Qed.

Lemma firstn_above (q : path) n : (n < List.length q)%nat -> q = firstn n q ++ skipn n q /\ skipn n q <> [] /\ firstn n q <> q.
Proof.
  intros H. split; [symmetry; apply firstn_skipn|]. split.
  - intros E. apply (f_equal (@List.length _)) in E. rewrite skipn_length in E. cbn in E. lia.
  - intros E. apply (f_equal (@List.length _)) in E. rewrite firstn_length in E. lia.
Qed.

Lemma way_search c q k : OpenWay c q k -> can_search k c q = true.
Proof.
  intros H. unfold can_search. apply forallb_forall. intros j Hj. apply in_seq in Hj.
  destruct (firstn_above q j ltac:(lia)) as (Eq & Ne & _).
  destruct (k_names k (firstn j q)) as [n|] eqn:En.
  - destruct (H _ _ _ Eq Ne En) as (m & -> & _ & Hm). apply may_search_iff. exact Hm.
  - rewrite (resolve_no _ _ En). reflexivity.
Qed.
Lemma way_finds c q k n : OpenWay c q k -> k_names k q = Some n -> i_kind (k_inodes k n) = KSock -> finds k c q = Some n.
Proof.
  intros H Hn Hk. unfold finds. change 40%nat with (S 39). cbn [find_fuel]. rewrite (way_search _ _ _ H), Hn, Hk. reflexivity.
Qed.

(** A check that decides whether the way is open. *)
Definition way_check (c : cred) (q : path) (k : kernel) : bool :=
  forallb (fun n => match k_names k (firstn n q), resolve k (firstn n q) with
    | None, _ => true
    | Some _, Some m => match i_kind (k_inodes k m) with KDir => may_search c (k_inodes k m) | _ => false end
    | Some _, None => false end) (seq 0 (List.length q)).
Lemma way_checked c q k : way_check c q k = true -> OpenWay c q k.
Proof.
  intros H d r n Eq Hr Hn. unfold way_check in H. rewrite forallb_forall in H.
  specialize (H (List.length d)). assert (Ed : firstn (List.length d) q = d).
  { rewrite Eq, firstn_app, Nat.sub_diag, firstn_O, app_nil_r. apply firstn_all. }
  rewrite Ed, Hn in H. assert (Hl : In (List.length d) (seq 0 (List.length q))).
  { apply in_seq. rewrite Eq, app_length. destruct r; [congruence|cbn; lia]. }
  specialize (H Hl). destruct (resolve k d) as [m|]; [|discriminate]. exists m. split; [reflexivity|].
  destruct (i_kind (k_inodes k m)); try discriminate. split; [reflexivity|]. apply may_search_iff. exact H.
Qed.

(** A way open to everybody. *)
Definition way_check_all (q : path) (k : kernel) : bool :=
  forallb (fun n => match k_names k (firstn n q), resolve k (firstn n q) with
    | None, _ => true
    | Some _, Some m => match i_kind (k_inodes k m) with KDir => Z.land (i_perm (k_inodes k m)) 73 =? 73 | _ => false end
    | Some _, None => false end) (seq 0 (List.length q)).
Lemma search_all c i : Z.land (i_perm i) 73 = 73 -> may_search c i = true.
Proof.
  intros H.
  assert (B : forall m, Z.land 73 m = m -> m <> 0 -> negb (Z.land (i_perm i) m =? 0) = true).
  { intros m E N. apply negb_true_iff, Z.eqb_neq. intros X. apply N. rewrite <- E, <- H, <- Z.land_assoc, E. exact X. }
  unfold may_search. rewrite !(B S_IXUSR eq_refl), !(B S_IXGRP eq_refl), !(B S_IXOTH eq_refl) by discriminate.
  destruct (cr_priv c), (cr_uid c =? i_uid i), (mem_z (i_gid i) (cr_gids c)); reflexivity.
Qed.
Lemma way_checked_all q k : way_check_all q k = true -> forall c, OpenWay c q k.
Proof.
  intros H c. apply way_checked. unfold way_check. unfold way_check_all in H. rewrite forallb_forall in *.
  intros n Hn. specialize (H n Hn). destruct (k_names k (firstn n q)); [|reflexivity].
  destruct (resolve k (firstn n q)) as [m|]; [|discriminate]. destruct (i_kind (k_inodes k m)); try discriminate.
  apply search_all, Z.eqb_eq, H.
Qed.

Section Opening.
Variables (euid : Z) (p : bytes) (uid gid mode : Z) (par : path) (peer : cred).
Let q := components p.
Hypothesis Hpar : path_parent p = Some par.
Hypothesis Hne : par <> [].
Hypothesis Hnul : has_nul p = false.
Hypothesis Hlen : zlen p < 108.
Hypothesis Hq : exists x, q = par ++ [x].

(** The new socket once chown and chmod have been done. *)
Definition final_inode (g : Z) : inode :=
  mkInode KSock (if uid =? NO_ID then euid else uid) (if gid =? NO_ID then g else gid) (Z.land mode 4095).
Hypothesis Hpeer : may_write peer (final_inode 0) = true.

(** What stood at the name is gone before the socket is made. *)
Lemma goes_unlink k n : (k_names k q = None \/ exists m, resolve k q = Some m /\ i_kind (k_inodes k m) = KSock) ->
  resolve k par = Some n -> PrivateDir euid (k_inodes k n) ->
  exists ts k0, Calm ts /\ Goes (unlink_socket p) k ts (Ok tt) k0
    /\ k_names k0 q = None /\ k_inodes k0 = k_inodes k /\ k_next k0 = k_next k
    /\ (forall r, r <> q -> k_names k0 r = k_names k r)
    /\ (forall r x, resolve k r = Some x -> i_kind (k_inodes k x) = KDir -> resolve k0 r = Some x).
Proof.
  intros [HN|(m & HM & HS)] HR HD.
  - exists [([], AErr ENOENT)], k. split; [repeat constructor|]. split; [|auto 10].
    unfold unlink_socket, metadata. rewrite Hnul. change [(@nil (cred * action), AErr ENOENT)] with ([(@nil (cred * action), AErr ENOENT)] ++ []).
    eapply goes_bind; [apply goes_sys; reflexivity|]. cbv beta iota. apply goes_ret.
  - exists [([], AOk); ([], AOk)], (set_names (put_name q None (k_names k)) k). split; [repeat constructor|].
    split; [|split; [apply put_name_same|split; [reflexivity|split; [reflexivity|split]]]].
    2: { intros r Hr. cbn. apply put_name_other. exact Hr. }
    2: { intros r x Hx Hd. eapply resolve_unlinked; eassumption. }
    unfold unlink_socket, metadata, remove_file. rewrite Hnul. fold q.
    change [(@nil (cred * action), AOk); ([], AOk)] with ([(@nil (cred * action), AOk)] ++ [([], AOk)]).
    eapply goes_bind; [apply goes_sys; cbn [fold_left ok_or_err]; rewrite HM; reflexivity|]. cbv beta iota.
    unfold is_socket. rewrite HS. apply goes_sys. cbn [fold_left ok_or_err].
    destruct (k_names k q) as [l|] eqn:E; [reflexivity|]. exfalso. exact (resolve_no_name _ _ _ E HM).
Qed.

Lemma goes_open k00 n : (k_names k00 q = None \/ exists m, resolve k00 q = Some m /\ i_kind (k_inodes k00 m) = KSock) ->
  resolve k00 par = Some n -> PrivateDir euid (k_inodes k00 n) -> Numbered k00 -> OpenWay peer q k00 ->
  exists t1 t2 c k', Calm t1 /\ Calm t2
    /\ Goes (socket_open euid p uid gid mode) k00 (t1 ++ ([(peer, Connect q)], ANum 1) :: t2) (Ok c) k'.
Proof.
  intros HN0 HR0 HD0 HNum HWay. destruct (goes_unlink k00 n HN0 HR0 HD0) as (tu & k & Cu & E2 & HN & HI & HX & HNm & HRs).
  assert (HD : PrivateDir euid (k_inodes k n)) by (rewrite HI; exact HD0).
  assert (HR : resolve k par = Some n) by (apply HRs; [exact HR0|exact (proj1 HD0)]).
  set (K1 := set_umask (Z.land 511 511) k).
  set (K2 := set_listen (Some (mkListener 3 None false [])) K1).
  set (i0 := mkInode KSock euid 0 (Z.ldiff 511 511)).
  set (m := k_next k).
  set (K3 := set_listen (Some (mkListener 3 (Some m) false [])) (add_file q i0 K2)).
  set (K4 := set_listen (Some (mkListener 3 (Some m) true [])) K3).
  set (K5 := chown_inode m uid gid K4).
  set (K6 := chmod_inode m mode K5).
  set (K7 := set_listen (Some (mkListener 3 (Some m) true [peer])) K6).
  set (c := List.length (k_conns k)).
  set (K8 := set_listen (Some (mkListener 3 (Some m) true [])) (set_conns (k_conns k ++ [peer]) (c :: k_open k) K7)).
  set (K9 := set_listen None K8).
  set (K10 := set_names (put_name q None (k_names K9)) K9).
  set (K11 := set_umask (Z.land (k_umask k) 511) K10).
  assert (R3 : forall k', k_names k' = put_name q (Some m) (k_names k) -> i_kind (k_inodes k' m) = KSock -> resolve k' q = Some m).
  { intros k' H1 H2. apply (Holds_resolve q). split; [rewrite H1; apply put_name_same|exact H2]. }
  assert (I4 : k_inodes K4 m = i0) by (cbn; apply put_inode_same).
  assert (I5 : k_inodes K5 m = mkInode KSock (if uid =? NO_ID then euid else uid) (if gid =? NO_ID then 0 else gid) (Z.ldiff 511 511)).
  { unfold K5, chown_inode. rewrite I4. cbn [k_inodes set_inodes]. rewrite put_inode_same. reflexivity. }
  assert (I6 : k_inodes K6 m = final_inode 0).
  { unfold K6, chmod_inode. rewrite I5. cbn [k_inodes set_inodes]. rewrite put_inode_same. reflexivity. }
  assert (Hdir : dir_inode K2 q = Some n).
  { destruct Hq as [x Ex]. unfold dir_inode. rewrite Ex. destruct (par ++ [x]) eqn:E; [destruct par; discriminate|].
    rewrite <- E. unfold dir_path. rewrite removelast_last. rewrite (SameFiles_resolve k K2) by (repeat split). rewrite HR.
    change (k_inodes K2 n) with (k_inodes k n). destruct HD as (-> & _). reflexivity. }
  exists ([([], AOk)] ++ tu ++ [([], AOk); ([], ANum 3); ([], ANum 0); ([], AOk); ([], AOk); ([], AOk)]).
  exists [([], AOk); ([], AOk); ([], AOk); ([], AOk); ([], AOk)], c, K11.
  split; [constructor; [reflexivity|apply Forall_app; split; [exact Cu|repeat constructor]]|]. split; [repeat constructor|].
  pose proof (PrivateDir_ok _ _ HD0) as (D1 & D2 & D3).
  assert (E1 : Goes (enforce_ownership euid p) k00 [([], AOk)] (Ok tt) k00).
  { unfold enforce_ownership. rewrite Hpar, Hnul. destruct par as [|x0 par'] eqn:Epar; [congruence|]. cbn [is_nil].
    rewrite <- Epar in *. change [(@nil (cred * action), AOk)] with ([(@nil (cred * action), AOk)] ++ []).
    eapply goes_bind; [apply goes_sys; cbn [fold_left ok_or_err]; rewrite HR0; reflexivity|]. cbv beta iota.
    apply Z.eqb_neq in D1. rewrite D1. rewrite D2, Z.eqb_refl. cbn [negb]. rewrite D3. cbn. apply goes_ret. }
  assert (E3 : Goes (listener_bind euid p) K1 [([], ANum 3); ([], ANum 0); ([], AOk)] (Ok 3) K4).
  { unfold listener_bind. rewrite Hnul. unfold SUN_PATH_MAX. assert (X : (108 <=? zlen p) = false) by (apply Z.leb_gt; exact Hlen).
    rewrite X.
    change [(@nil (cred * action), ANum 3); ([], ANum 0); ([], AOk)]
      with ([(@nil (cred * action), ANum 3)] ++ [([], ANum 0)] ++ [([], AOk)] ++ []).
    eapply goes_bind; [apply goes_sys with (k' := K2); reflexivity|]. cbv beta iota.
    eapply goes_bind; [apply goes_sys with (k' := K3) (x := Ok tt)|].
    { cbn [fold_left]. change (k_listen K2) with (Some (mkListener 3 None false [])). change (k_names K2) with (k_names k).
      fold q. rewrite HN, Hdir. reflexivity. }
    cbv beta iota. eapply goes_bind; [apply goes_sys with (k' := K4) (x := Ok tt); reflexivity|]. cbv beta iota. apply goes_ret. }
  assert (E4 : Goes (serve_one 3 p uid gid mode) K4 [([], AOk); ([], AOk); ([(peer, Connect q)], ANum 1); ([], AOk)] (Ok c) K8).
  { unfold serve_one. rewrite Hnul.
    change [(@nil (cred * action), AOk); ([], AOk); ([(peer, Connect q)], ANum 1); ([], AOk)]
      with ([(@nil (cred * action), AOk)] ++ [([], AOk)] ++ [([(peer, Connect q)], ANum 1)] ++ [([], AOk)]).
    eapply goes_bind; [apply goes_sys with (k' := K5) (x := Ok tt)|].
    { cbn [fold_left ok_or_err]. fold q. rewrite (R3 K4); [reflexivity|reflexivity|rewrite I4; reflexivity]. }
    cbv beta iota.
    eapply goes_bind; [apply goes_sys with (k' := K6) (x := Ok tt)|].
    { cbn [fold_left ok_or_err]. fold q. rewrite (R3 K5); [reflexivity|reflexivity|rewrite I5; reflexivity]. }
    cbv beta iota. change (FD_SETSIZE <=? 3) with false. cbv iota.
    assert (Old : forall r x, k_names k r = Some x -> x <> m).
    { intros r x Hr ->. destruct (comps_eqb r q) eqn:Er; [apply comps_eqb_eq in Er; congruence|]. assert (Nr : r <> q) by (intros X; apply comps_eqb_eq in X; congruence).
      rewrite HNm in Hr by exact Nr. apply HNum in Hr. unfold m in Hr. rewrite HX in Hr. lia. }
    assert (OI : forall x, x <> m -> k_inodes K6 x = k_inodes k x).
    { intros x Nx. unfold K6, chmod_inode, K5, chown_inode. cbn [k_inodes set_inodes]. rewrite !put_inode_other by exact Nx.
      cbn. apply put_inode_other. exact Nx. }
    assert (S6 : can_search K6 peer q = true).
    { unfold can_search. apply forallb_forall. intros j Hj. apply in_seq in Hj.
      destruct (firstn_above q j ltac:(lia)) as (Eq & Ne & Nq). set (d := firstn j q) in *.
      destruct (k_names k00 d) as [l|] eqn:El.
      - destruct (HWay d (skipn j q) l Eq Ne El) as (x & Hx & Hd & Hs).
        pose proof (HRs _ _ Hx Hd) as Hk.
        assert (X6 : resolve K6 d = Some x) by (eapply (resolve_added k K6 q m); [reflexivity|exact HN|exact OI|exact Old|exact Hk]).
        rewrite X6. rewrite OI by (destruct (resolve_name _ _ _ Hk) as [r Hr]; eapply Old; exact Hr).
        rewrite HI. apply may_search_iff. exact Hs.
      - assert (X6 : k_names K6 d = None).
        { change (k_names K6) with (put_name q (Some m) (k_names k)). rewrite put_name_other by exact Nq. rewrite HNm by exact Nq. exact El. }
        rewrite (resolve_no K6 d X6). reflexivity. }
    assert (F6 : finds K6 peer q = Some m).
    { unfold finds. change 40%nat with (S 39). cbn [find_fuel]. rewrite S6.
      change (k_names K6 q) with (put_name q (Some m) (k_names k) q). rewrite put_name_same, I6. reflexivity. }
    assert (A6 : act K6 (peer, Connect q) = K7).
    { cbn [act]. rewrite F6.
      change (k_listen K6) with (Some (mkListener 3 (Some m) true [])). cbv iota. rewrite I6, Hpeer.
      unfold reaches. cbn [l_on l_ino]. rewrite Nat.eqb_refl. reflexivity. }
    eapply goes_bind; [apply goes_sys with (k' := K7) (x := Ok 1)|].
    { cbn [fold_left]. rewrite A6. reflexivity. }
    cbv beta iota. change (1 =? 1) with true. cbv iota.
    intros s tr. unfold bind, turns_left. cbn [w_script app List.length accept_loop]. unfold bind.
    eexists. reflexivity. }
  assert (E5 : Goes (unlink_socket p) K9 [([], AOk); ([], AOk)] (Ok tt) K10).
  { unfold unlink_socket, metadata, remove_file. rewrite Hnul. fold q.
    change [(@nil (cred * action), AOk); ([], AOk)] with ([(@nil (cred * action), AOk)] ++ [([], AOk)]).
    assert (X : resolve K9 q = Some m) by (apply R3; [reflexivity|change (k_inodes K9 m) with (k_inodes K6 m); rewrite I6; reflexivity]).
    eapply goes_bind; [apply goes_sys; cbn [fold_left ok_or_err]; rewrite X; reflexivity|]. cbv beta iota.
    assert (Y : is_socket (k_inodes K9 m) = true) by (unfold is_socket; change (k_inodes K9 m) with (k_inodes K6 m); rewrite I6; reflexivity).
    rewrite Y. apply goes_sys. cbn [fold_left ok_or_err].
    assert (Z : k_names K9 q = Some m) by (apply put_name_same). rewrite Z. reflexivity. }
  unfold socket_open.
  match goal with |- Goes _ _ ?l _ _ =>
    replace l with ([(@nil (cred * action), AOk)] ++ tu ++ [([], AOk)]
      ++ ([([], ANum 3); ([], ANum 0); ([], AOk)]
          ++ [([], AOk); ([], AOk); ([(peer, Connect q)], ANum 1); ([], AOk)] ++ [([], AOk)] ++ [])
      ++ [([], AOk); ([], AOk)] ++ [([], AOk)] ++ []) by (cbn [app]; rewrite <- app_assoc; reflexivity) end.
  eapply goes_bind; [exact E1|]. cbv beta iota. eapply goes_bind; [exact E2|]. cbv beta iota.
  eapply goes_bind; [apply goes_sys with (k' := K1); reflexivity|]. cbv beta.
  eapply goes_bind with (k1 := K9) (x := Ok c).
  { eapply goes_bind; [exact E3|]. cbv beta iota. eapply goes_bind; [apply goes_unwind; exact E4|].
    eapply goes_bind; [apply goes_sys with (k' := K9); reflexivity|]. apply goes_ret. }
  eapply goes_bind; [exact E5|]. eapply goes_bind; [apply goes_sys with (k' := K11); reflexivity|]. apply goes_ret.
Qed.
End Opening.

(** ** The whole opening *)
Section Approvable.
Variables (pl : platform) (a : open_args) (rq : request) (q : path) (peer : cred).
Hypothesis D : Describes pl a rq.
Hypothesis K : Askable pl a rq.
Hypothesis HP : SocketPath rq q.
Hypothesis HE : Entitled pl rq peer.

Lemma entitled_writes e mode : Matches e rq -> socket_mode (pair0 e) = Some mode ->
  may_write peer (final_inode (pl_euid pl) (socket_uid (pair0 e)) (socket_gid (pair0 e)) mode 0) = true.
Proof.
  intros M Hm. unfold may_write. destruct HE as [H|[(H1 & H2 & H3)|(H1 & H2 & H3 & H4 & H5)]].
  - rewrite H. reflexivity.
  - apply orb_true_iff. right.
    assert (X : is_sudoing_to_user (pair0 e) = true) by (apply (to_user_iff e rq M); exact H1).
    unfold socket_mode in Hm. rewrite X in Hm. injection Hm as <-.
    assert (Y : socket_uid (pair0 e) = rq_to_uid rq).
    { unfold socket_uid. rewrite X. exact (m_to_uid _ _ M). }
    unfold final_inode. cbn [i_uid i_perm]. rewrite Y. apply Z.eqb_neq in H3. rewrite H3, H2, Z.eqb_refl. reflexivity.
  - apply orb_true_iff. right.
    assert (X : is_sudoing_to_user (pair0 e) = false).
    { destruct (is_sudoing_to_user (pair0 e)) eqn:X; [|reflexivity]. apply (to_user_iff e rq M) in X. contradiction. }
    assert (X2 : is_sudoing_to_explicit_group (pair0 e) = true) by (apply (explicit_group_iff e rq M); exact H1).
    unfold socket_mode in Hm. rewrite X, X2 in Hm. injection Hm as <-.
    assert (Y1 : socket_uid (pair0 e) = NO_ID) by (unfold socket_uid; rewrite X; reflexivity).
    assert (Y2 : socket_gid (pair0 e) = rq_to_gid rq) by (unfold socket_gid; rewrite X2; exact (m_to_gid _ _ M)).
    unfold final_inode. cbn [i_uid i_gid i_perm]. rewrite Y1, Y2, Z.eqb_refl. apply Z.eqb_neq in H3, H4. rewrite H3, H4.
    apply mem_z_iff in H2. rewrite H2. reflexivity.
Qed.

Lemma approvable_goes k : Ready pl rq q k -> Numbered k -> OpenWay peer q k ->
  exists e c t1 t2 k', Calm t1 /\ Calm t2
    /\ Goes (core_open SudoPair pl a (pstate0 _)) k (t1 ++ ([(peer, Connect q)], ANum 1) :: t2)
         (1, ps e (Some (with_conn e c))) k'.
Proof.
  intros (HN & n & HR & HD) HNum HWay. apply (SocketPath_unique rq) in HP. subst q.
  destruct (io_env_new pl (B "sudo_pair") (B "1.2.0") a) as [[e|er]|] eqn:Ee.
  2: { exfalso. eapply io_env_new_not_Err; eassumption. }
  2: { exfalso. apply (ak_addrs _ _ _ K). eapply io_env_new_None. exact Ee. }
  pose proof (env_Matches _ _ _ _ _ _ D Ee) as M.
  assert (X : exists c t1 t2 k', Calm t1 /\ Calm t2
    /\ Goes (core_open SudoPair pl a (pstate0 _)) k (t1 ++ ([(peer, Connect (sock_comps rq))], ANum 1) :: t2)
         (1, ps e (Some (with_conn e c))) k').
  { unfold core_open. cbn [pf_new SudoPair pg_name pg_version]. rewrite Ee. cbn [st_env pstate0 st_plugin].
    assert (Hc : path_eqb (ci_command (en_command_info e)) [] = false).
    { rewrite (m_command _ _ M). apply Bool.not_true_iff_false. rewrite path_eqb_nil. exact (ak_command _ _ _ K). }
    rewrite Hc.
    assert (Y : exists c t1 t2 k', Calm t1 /\ Calm t2
      /\ Goes (pair_open pl e) k (t1 ++ ([(peer, Connect (sock_comps rq))], ANum 1) :: t2) (Ok (with_conn e c)) k').
    { unfold pair_open. fold (pair0 e).
      destruct (is_exempt (pair0 e) pl) as [[|]|] eqn:Ex.
      - exfalso. apply (ak_exempt _ _ _ K). apply (is_exempt_sound e rq pl M true Ex). reflexivity.
      - destruct (is_sudoing_to_user_and_group (pair0 e)) eqn:Eb.
        { exfalso. apply (ak_one _ _ _ K). apply (both_iff e rq M). exact Eb. }
        destruct (socket_mode (pair0 e)) as [mode|] eqn:Em; [|exfalso; exact (mode_Some pl a rq K e M Em)].
        destruct (can_local (pair0 e) (template_spec (pair0 e)) k) as (t0 & k0 & C0 & S0 & G0).
        destruct (goes_open (pl_euid pl) (socket_path (pair0 e)) (socket_uid (pair0 e)) (socket_gid (pair0 e)) mode
          (components (rq_socket_dir rq)) peer (socket_path_parent e rq M)) with (k00 := k0) (n := n)
          as (t1 & t2 & c & k1 & C1 & C2 & G1).
        + intros E. apply (ak_dir _ _ _ K). apply path_eqb_nil, path_eqb_eq. exact E.
        + apply (sock_path_nul e rq M). exact (ak_nul _ _ _ K).
        + apply (sock_path_fits e rq M). exact (ak_fits _ _ _ K).
        + rewrite (socket_path_comps e rq M). eexists. reflexivity.
        + apply entitled_writes; assumption.
        + rewrite (socket_path_comps e rq M). destruct HN as [HN|(m & HM & HS)].
          * left. destruct S0 as (-> & _). exact HN.
          * right. exists m. rewrite (SameFiles_resolve k k0) by exact S0. destruct S0 as (_ & -> & _). auto.
        + rewrite (SameFiles_resolve k k0) by exact S0. exact HR.
        + destruct S0 as (_ & -> & _). exact HD.
        + destruct S0 as (E1 & _ & E3). intros r x. rewrite E1, E3. apply HNum.
        + rewrite (socket_path_comps e rq M). intros d r x Eq Ne. pose proof (SameFiles_resolve k k0 d S0) as E0.
          destruct S0 as (E1 & E2 & _). rewrite E1. intros Hx. rewrite E0, E2. eapply HWay; eassumption.
        + exists c. rewrite (socket_path_comps e rq M) in G1.
          destruct (can_talk (with_conn e c) (template_spec (pair0 e)) c "y"%byte eq_refl (or_introl eq_refl) k1)
            as (t3 & k3 & C3 & _ & G3).
          exists (t0 ++ t1), (t2 ++ t3), k3. split; [apply Forall_app; split; assumption|].
          split; [apply Forall_app; split; assumption|].
          rewrite app_comm_cons, <- app_assoc, app_assoc with (l := t1).
          eapply goes_bind; [exact G0|]. eapply goes_bind.
          { unfold remote_pair_connect. cbn [pair0 sp_socket]. fold (pair0 e). rewrite Em.
            rewrite <- (app_nil_r (t1 ++ _)). eapply goes_bind; [exact G1|]. cbv beta iota. apply goes_ret. }
          cbv beta iota. rewrite <- (app_nil_r t3). eapply goes_bind; [apply goes_unwind; exact G3|]. cbv beta iota. apply goes_ret.
      - exfalso. destruct (is_exempt_None e rq pl M Ex) as [H1 H2]. apply H2. exact (ak_debug _ _ _ K H1). }
    destruct Y as (c & t1 & t2 & k' & C1 & C2 & G). exists c, t1, t2, k'. split; [exact C1|]. split; [exact C2|].
    rewrite <- (app_nil_r (t1 ++ _)). eapply goes_bind; [apply goes_catch; rewrite <- (app_nil_r (t1 ++ _));
      eapply goes_bind; [exact G|]; cbv beta iota; apply goes_ret|]. cbv beta iota. apply goes_ret. }
  destruct X as (c & t1 & t2 & k' & C1 & C2 & G). exists e, c, t1, t2, k'. auto.
Qed.

Lemma approvable k tr : Ready pl rq q k -> Numbered k -> OpenWay peer q k ->
  exists t1 t2 st' w', Calm t1 /\ Calm t2
    /\ core_open SudoPair pl a (pstate0 _) (mkWorld k (t1 ++ ([(peer, Connect q)], ANum 1) :: t2) tr) = (Done (1, st'), w')
    /\ w_script w' = [] /\ st_plugin st' <> None.
Proof.
  intros HR HNum HWay. destruct (approvable_goes k HR HNum HWay) as (e & c & t1 & t2 & k' & C1 & C2 & G).
  destruct (G [] tr) as [tr' E]. rewrite app_nil_r in E.
  exists t1, t2. do 2 eexists. split; [exact C1|]. split; [exact C2|]. split; [exact E|]. split; [reflexivity|discriminate].
Qed.
End Approvable.
