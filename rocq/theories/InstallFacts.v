(** What the installations leave behind. *)
From Coq Require Import Lia.
From Verif Require Import Base BaseLemmas Path World HonourSpec Install InstallSpec PathProofs FilesFacts KernelFacts.
Local Open Scope Z_scope.

(** ** Names that are not touched *)

Lemma act_untouched k ca q : ~ In q (touched (snd ca)) -> k_names (act k ca) q = k_names k q.
Proof.
  destruct ca as [c a]. cbn [snd]. intros H. destruct a; cbn [act touched] in *.
  - destruct (finds k c p); [|reflexivity]. destruct (k_listen k); [|reflexivity]. destruct (_ && _); reflexivity.
  - destruct (can_edit k c p); [|reflexivity]. cbn. apply put_name_other. intros ->. apply H. left. reflexivity.
  - destruct (can_edit k c p); [|reflexivity]. destruct (k_names k p); [reflexivity|]. cbn. apply put_name_other. intros ->. apply H. left. reflexivity.
  - destruct (_ && _); [|reflexivity]. destruct (k_names k p); [|reflexivity]. cbn.
    rewrite put_name_other by (intros ->; apply H; left; reflexivity).
    apply put_name_other. intros ->. apply H. right. left. reflexivity.
  - destruct (_ && _); [|reflexivity]. destruct (k_names k p); [|reflexivity]. destruct (k_names k q0); [reflexivity|].
    cbn. apply put_name_other. intros ->. apply H. left. reflexivity.
  - destruct (finds k c p); [|reflexivity]. destruct (is_owner k c n); reflexivity.
  - destruct (finds k c p); [|reflexivity]. destruct (_ || _); reflexivity.
Qed.

Lemma after_untouched q does : Forall (fun ca => ~ In q (touched (snd ca))) does -> forall k, k_names (after does k) q = k_names k q.
Proof.
  unfold after. induction 1 as [|ca does H _ IH]; intros k; [reflexivity|]. cbn. rewrite IH. apply act_untouched. exact H.
Qed.

Lemma after_app x y k : after (x ++ y) k = after y (after x k).
Proof. apply fold_left_app. Qed.

(** ** One step *)

(** A new file. *)
Definition Put (p : bytes) (i : inode) (k k' : kernel) : Prop :=
  (forall q, k_names k' q = if comps_eqb q (components p) then Some (k_next k) else k_names k q)
  /\ (forall m, k_inodes k' m = if Nat.eqb m (k_next k) then i else k_inodes k m)
  /\ k_next k' = S (k_next k).

(** A file that was there, with other attributes. *)
Definition Alter (n : nat) (i : inode) (k k' : kernel) : Prop :=
  (forall q, k_names k' q = k_names k q)
  /\ (forall m, k_inodes k' m = if Nat.eqb m n then i else k_inodes k m)
  /\ k_next k' = k_next k.

Definition InDirectory (p : bytes) (k : kernel) : Prop :=
  components p <> [] /\ exists d, resolve k (removelast (components p)) = Some d /\ i_kind (k_inodes k d) = KDir.

Lemma root_search k c p : cr_priv c = true -> can_search k c p = true.
Proof.
  intros H. unfold can_search. apply forallb_forall. intros n _. destruct (resolve k (firstn n p)); [|reflexivity].
  unfold may_search. rewrite H. reflexivity.
Qed.

Lemma root_edit k c p : cr_priv c = true -> InDirectory p k -> can_edit k c (components p) = true.
Proof.
  intros H (N & d & R & K). unfold can_edit, dir_inode, dir_path. destruct (components p) eqn:E; [destruct (N eq_refl)|].
  rewrite R, K. rewrite root_search by exact H. unfold may_write. rewrite H. reflexivity.
Qed.

Lemma resolve_off f k k' p : (forall q, q <> components p -> k_names k' q = k_names k q) ->
  (forall m, (m < k_next k)%nat -> k_inodes k' m = k_inodes k m) -> Numbered k -> Vacant k p ->
  forall q n, resolve_fuel f k q = Some n -> i_kind (k_inodes k n) = KDir -> resolve_fuel f k' q = Some n.
Proof.
  intros HN HI NU V. induction f as [|f IH]; intros q n; [discriminate|]. cbn.
  destruct (k_names k q) as [m|] eqn:E; [|discriminate]. intros R K.
  destruct (comps_eqb q (components p)) eqn:Eq.
  - exfalso. apply comps_eqb_eq in Eq. subst q. pose proof (V m E) as KR. rewrite KR in R. injection R as <-. congruence.
  - apply comps_eqb_neq in Eq. rewrite (HN _ Eq), E, (HI m (NU _ _ E)).
    destruct (i_kind (k_inodes k m)); try exact R. exact (IH _ _ R K).
Qed.

Lemma resolve_low f k : Numbered k -> forall q n, resolve_fuel f k q = Some n -> (n < k_next k)%nat.
Proof.
  intros NU. induction f as [|f IH]; intros q n; [discriminate|]. cbn.
  destruct (k_names k q) as [m|] eqn:E; [|discriminate].
  destruct (i_kind (k_inodes k m)); try (intros H; injection H as <-; exact (NU _ _ E)). apply IH.
Qed.

Lemma resolve_kind f k k' : (forall q, k_names k' q = k_names k q) -> (forall m, i_kind (k_inodes k' m) = i_kind (k_inodes k m)) ->
  forall q, resolve_fuel f k' q = resolve_fuel f k q.
Proof.
  intros HN HK. induction f as [|f IH]; intros q; [reflexivity|]. cbn. rewrite HN. destruct (k_names k q); [|reflexivity].
  rewrite HK. destruct (i_kind (k_inodes k n)); try reflexivity. apply IH.
Qed.

(** ** A running account of the installation *)

(** [D]: directories; [F]: names still to be filled; [L]: files that are there. *)
Record Stage (D : list (path * nat * inode)) (F : list bytes) (L : list (bytes * inode)) (k : kernel) : Prop := {
  sg_numbered : Numbered k;
  sg_dirs : forall d n i, In (d, n, i) D -> resolve k d = Some n /\ k_inodes k n = i /\ i_kind i = KDir;
  sg_free : forall p, In p F -> Vacant k p;
  sg_files : forall p i, In (p, i) L -> FileAt k p i
}.

Definition other (p q : bytes) : bool := negb (comps_eqb (components q) (components p)).

Lemma stage_put D F L k k' p i : Stage D (p :: F) L k -> Put p i k k' ->
  forallb (other p) F = true -> forallb (fun x => other p (fst x)) L = true ->
  Stage D F ((p, i) :: L) k'.
Proof.
  intros [NU SD SF SL] (HN & HI & HX) OF OL.
  assert (HN' : forall q, q <> components p -> k_names k' q = k_names k q).
  { intros q Hq. rewrite HN. apply comps_eqb_neq in Hq. rewrite Hq. reflexivity. }
  assert (HI' : forall m, (m < k_next k)%nat -> k_inodes k' m = k_inodes k m).
  { intros m Hm. rewrite HI. replace (Nat.eqb m (k_next k)) with false by (symmetry; apply Nat.eqb_neq; lia). reflexivity. }
  constructor.
  - intros q n. rewrite HN, HX. destruct (comps_eqb q (components p)); [intros E; injection E as <-; lia|]. intros E. apply NU in E. lia.
  - intros d n j Hd. destruct (SD _ _ _ Hd) as (R & E & K).
    assert (R' : resolve k' d = Some n).
    { eapply resolve_off; [exact HN'|exact HI'|exact NU|apply SF; left; reflexivity|exact R|congruence]. }
    split; [exact R'|]. split; [|exact K]. rewrite HI' by (eapply resolve_low; eassumption). exact E.
  - intros q Hq n. rewrite forallb_forall in OF. specialize (OF _ Hq). unfold other in OF. apply negb_true_iff, comps_eqb_neq in OF.
    rewrite (HN' _ OF). intros E. rewrite (HI' _ (NU _ _ E)). exact (SF q (or_intror Hq) n E).
  - intros q j [E|Hq].
    + injection E as <- <-. exists (k_next k). split; [rewrite HN, comps_eqb_refl; reflexivity|].
      split; [rewrite HI, Nat.eqb_refl; reflexivity|]. intros r. rewrite HN. destruct (comps_eqb r (components p)) eqn:Er; [intros _; apply comps_eqb_eq; exact Er|].
      intros E. apply NU in E. lia.
    + rewrite forallb_forall in OL. specialize (OL _ Hq). unfold other in OL. cbn [fst] in OL. apply negb_true_iff, comps_eqb_neq in OL.
      destruct (SL q j Hq) as (n & E & I0 & U). exists n. split; [rewrite (HN' _ OL); exact E|].
      split; [rewrite (HI' _ (NU _ _ E)); exact I0|]. intros r. rewrite HN.
      destruct (comps_eqb r (components p)); [|exact (U r)]. intros X. injection X as <-. apply NU in E. lia.
Qed.

Lemma stage_alter D F L k k' p i j : Stage D F ((p, i) :: L) k -> (forall n, k_names k (components p) = Some n -> Alter n j k k') ->
  i_kind j = i_kind i -> (forall d n x, In (d, n, x) D -> k_names k (components p) <> Some n) ->
  forallb (fun x => other p (fst x)) L = true -> Stage D F ((p, j) :: L) k'.
Proof.
  intros [NU SD SF SL] HA KJ HD OL. destruct (SL p i (or_introl eq_refl)) as (n & E & I0 & U).
  destruct (HA n E) as (HN & HI & HX).
  assert (HK : forall m, i_kind (k_inodes k' m) = i_kind (k_inodes k m)).
  { intros m. rewrite HI. destruct (Nat.eqb m n) eqn:Em; [|reflexivity]. apply Nat.eqb_eq in Em. subst m. congruence. }
  constructor.
  - intros q m. rewrite HN, HX. apply NU.
  - intros d m x Hd. destruct (SD _ _ _ Hd) as (R & X & K). split; [unfold resolve; rewrite (resolve_kind _ _ _ HN HK); exact R|].
    split; [|exact K]. rewrite HI. destruct (Nat.eqb m n) eqn:Em; [|exact X]. apply Nat.eqb_eq in Em. subst m. destruct (HD _ _ _ Hd E).
  - intros q Hq m. rewrite HN, HK. exact (SF q Hq m).
  - intros q x [Eq|Hq].
    + injection Eq as <- <-. exists n. rewrite HN. split; [exact E|]. split; [rewrite HI, Nat.eqb_refl; reflexivity|].
      intros r. rewrite HN. apply U.
    + rewrite forallb_forall in OL. specialize (OL _ Hq). unfold other in OL. cbn [fst] in OL. apply negb_true_iff, comps_eqb_neq in OL.
      destruct (SL q x (or_intror Hq)) as (m & Em & Im & Um). exists m. rewrite HN. split; [exact Em|].
      split; [|intros r; rewrite HN; apply Um]. rewrite HI. destruct (Nat.eqb m n) eqn:X; [|exact Im]. apply Nat.eqb_eq in X. subst m.
      destruct OL. apply U. exact Em.
Qed.

(** Bringing a file to the front of the account. *)
Lemma stage_perm D F L L' k : Stage D F L k -> (forall x, In x L' -> In x L) -> Stage D F L' k.
Proof. intros [A X C E] H. constructor; try assumption. intros p i Hp. apply E. apply H. exact Hp. Qed.

Lemma stage_dir D F L k p d n i : Stage D F L k -> In (d, n, i) D -> components p <> [] -> removelast (components p) = d -> InDirectory p k.
Proof.
  intros [_ SD _ _] Hd N E. split; [exact N|]. destruct (SD _ _ _ Hd) as (R & X & K). exists n. rewrite E. split; [exact R|congruence].
Qed.

(** ** The commands *)
Lemma replace_put D F L k c g m p : Stage D (p :: F) L k -> cr_priv c = true -> InDirectory p k ->
  Put p (mkInode KReg (cr_uid c) g m) k (after [(installer, Unlink (components p)); (c, Create (components p) KReg g m)] k).
Proof.
  intros S HC HI. unfold after. cbn [fold_left]. remember (act k (installer, Unlink (components p))) as k1 eqn:E1.
  cbn [act] in E1. rewrite (root_edit k installer p eq_refl HI) in E1.
  assert (HI1 : InDirectory p k1).
  { destruct HI as (N & d & R & K). split; [exact N|]. exists d. split; [|subst k1; exact K].
    eapply resolve_off; [| | | |exact R|exact K].
    - intros q Hq. subst k1. cbn. apply put_name_other. exact Hq.
    - intros. subst k1. reflexivity.
    - exact (sg_numbered _ _ _ _ S).
    - apply (sg_free _ _ _ _ S). left. reflexivity. }
  cbn [act]. rewrite (root_edit k1 c p HC HI1). assert (E : k_names k1 (components p) = None) by (subst k1; cbn; apply put_name_same).
  rewrite E. subst k1. split; [|split; [|reflexivity]]; cbn.
  - intros q. unfold put_name. destruct (comps_eqb q (components p)); reflexivity.
  - intros q. unfold put_inode. reflexivity.
Qed.

Lemma stage_file D F L k c g m p : Stage D (p :: F) L k -> cr_priv c = true -> InDirectory p k ->
  forallb (other p) F = true -> forallb (fun x => other p (fst x)) L = true ->
  Stage D F ((p, mkInode KReg (cr_uid c) g m) :: L) (after [(installer, Unlink (components p)); (c, Create (components p) KReg g m)] k).
Proof. intros S HC HI. apply (stage_put _ _ _ k); [exact S|]. exact (replace_put _ _ _ _ _ _ _ _ S HC HI). Qed.

Lemma plain_finds k c p n : cr_priv c = true -> k_names k p = Some n -> (forall t, i_kind (k_inodes k n) <> KLink t) -> finds k c p = Some n.
Proof.
  intros HC E K. unfold finds. cbn. rewrite root_search by exact HC. rewrite E. destruct (i_kind (k_inodes k n)) eqn:X; try reflexivity.
  destruct (K _ eq_refl).
Qed.

Lemma chmod_alter k p n m : k_names k p = Some n -> (forall t, i_kind (k_inodes k n) <> KLink t) ->
  Alter n (mkInode (i_kind (k_inodes k n)) (i_uid (k_inodes k n)) (i_gid (k_inodes k n)) (Z.land m 4095)) k (act k (installer, Chmod p m)).
Proof. intros E K. cbn [act]. rewrite (plain_finds k installer p n eq_refl E K). split; [|split]; reflexivity. Qed.

Lemma chown_alter k p n : k_names k p = Some n -> (forall t, i_kind (k_inodes k n) <> KLink t) ->
  Alter n (mkInode (i_kind (k_inodes k n)) 0 0 (i_perm (k_inodes k n))) k (act k (installer, Chown p 0 0)).
Proof. intros E K. cbn [act]. rewrite (plain_finds k installer p n eq_refl E K). split; [|split]; reflexivity. Qed.

Lemma stage_chmod D F L k p i m : Stage D F ((p, i) :: L) k -> (forall t, i_kind i <> KLink t) ->
  (forall d n x, In (d, n, x) D -> k_names k (components p) <> Some n) ->
  forallb (fun x => other p (fst x)) L = true ->
  Stage D F ((p, mkInode (i_kind i) (i_uid i) (i_gid i) (Z.land m 4095)) :: L) (after [(installer, Chmod (components p) m)] k).
Proof.
  intros S K HD OL. unfold after. cbn [fold_left]. eapply stage_alter; [exact S| |reflexivity|exact HD|exact OL].
  intros n E. destruct (sg_files _ _ _ _ S p i (or_introl eq_refl)) as (n' & E' & <- & _). assert (n' = n) as -> by congruence.
  apply chmod_alter; assumption.
Qed.

Lemma stage_chown D F L k p i : Stage D F ((p, i) :: L) k -> (forall t, i_kind i <> KLink t) ->
  (forall d n x, In (d, n, x) D -> k_names k (components p) <> Some n) ->
  forallb (fun x => other p (fst x)) L = true ->
  Stage D F ((p, mkInode (i_kind i) 0 0 (i_perm i)) :: L) (after [(installer, Chown (components p) 0 0)] k).
Proof.
  intros S K HD OL. unfold after. cbn [fold_left]. eapply stage_alter; [exact S| |reflexivity|exact HD|exact OL].
  intros n E. destruct (sg_files _ _ _ _ S p i (or_introl eq_refl)) as (n' & E' & <- & _). assert (n' = n) as -> by congruence.
  apply chown_alter; assumption.
Qed.

(** A regular file is none of the directories. *)
Lemma stage_reg D F L k p i : Stage D F ((p, i) :: L) k -> i_kind i = KReg ->
  forall d n x, In (d, n, x) D -> k_names k (components p) <> Some n.
Proof.
  intros S K d n x Hd E. destruct (sg_dirs _ _ _ _ S _ _ _ Hd) as (_ & X & KD).
  destruct (sg_files _ _ _ _ S p i (or_introl eq_refl)) as (n' & E' & Y & _). congruence.
Qed.

(** Making a directory that may be there. *)
Lemma create_there k c p kd g m : k_names k p <> None -> act k (c, Create p kd g m) = k.
Proof. intros H. cbn [act]. destruct (can_edit k c p); [|reflexivity]. destruct (k_names k p); [reflexivity|destruct (H eq_refl)]. Qed.

Lemma create_put k c p g m : cr_priv c = true -> InDirectory p k -> k_names k (components p) = None ->
  Put p (mkInode KDir (cr_uid c) g m) k (act k (c, Create (components p) KDir g m)).
Proof.
  intros HC HI E. cbn [act]. rewrite (root_edit k c p HC HI), E. split; [|split; [|reflexivity]]; cbn.
  - intros q. unfold put_name. destruct (comps_eqb q (components p)); reflexivity.
  - intros q. unfold put_inode. reflexivity.
Qed.

(** [i]: what a directory at [p] is, made by [c] unless it was there. *)
Definition MadeDir (k : kernel) (p : bytes) (new i : inode) : Prop :=
  (k_names k (components p) = None /\ i = new) \/ FileAt k p i.

Lemma stage_mkdir D F L k c p g m : Stage D F L k -> cr_priv c = true -> InDirectory p k -> MayBeDirectory k p ->
  forallb (other p) F = true -> forallb (fun x => other p (fst x)) L = true ->
  exists i, i_kind i = KDir /\ MadeDir k p (mkInode KDir (cr_uid c) g m) i
    /\ Stage D F ((p, i) :: L) (after [(c, Create (components p) KDir g m)] k).
Proof.
  intros S HC HI [E|(i & FA & K)] OF OL; unfold after; cbn [fold_left].
  - exists (mkInode KDir (cr_uid c) g m). split; [reflexivity|]. split; [left; auto|].
    apply (stage_put _ _ _ k); [|apply create_put; assumption|exact OF|exact OL].
    destruct S as [NU SD SF SL]. constructor; try assumption. intros q [<-|Hq]; [|exact (SF q Hq)]. intros n X. congruence.
  - exists i. split; [exact K|]. split; [right; exact FA|]. rewrite create_there by (destruct FA as (n & -> & _); discriminate).
    destruct S as [NU SD SF SL]. constructor; try assumption. intros q j [X|Hq]; [injection X as <- <-; exact FA|exact (SL q j Hq)].
Qed.

(** ** The recipes *)
Lemma host_stage dirs made files k : Host dirs made files k ->
  exists D, Stage D files [] k /\ (forall d, In d dirs -> exists n i, In (components d, n, i) D)
    /\ (forall d n i, In (d, n, i) D -> In d (map components dirs)).
Proof.
  intros [NU _ HD HF _ _].
  assert (X : exists D, (forall d n i, In (d, n, i) D -> resolve k d = Some n /\ k_inodes k n = i /\ i_kind i = KDir)
    /\ (forall d, In d dirs -> exists n i, In (components d, n, i) D) /\ (forall d n i, In (d, n, i) D -> In d (map components dirs))).
  { induction dirs as [|d dirs IH].
    - exists []. split; [intros ? ? ? []|]. split; [intros ? []|intros ? ? ? []].
    - destruct (IH (Forall_inv_tail HD)) as (D & A & X & C). destruct (Forall_inv HD) as (n & R & K).
      exists ((components d, n, k_inodes k n) :: D). split; [|split].
      + intros e m i [E|H]; [injection E as <- <- <-; auto|exact (A _ _ _ H)].
      + intros e [<-|H]; [exists n, (k_inodes k n); left; reflexivity|destruct (X e H) as (m & i & Hm); exists m, i; right; exact Hm].
      + intros e m i [E|H]; [injection E as <- _ _; left; reflexivity|right; exact (C _ _ _ H)]. }
  destruct X as (D & A & X & C). exists D. split; [|auto]. constructor; [exact NU|exact A| |intros ? ? []].
  intros p Hp. rewrite Forall_forall in HF. exact (HF p Hp).
Qed.

Lemma made_apart dirs made files k D p : Host dirs made files k -> In p made -> Stage D files [] k ->
  (forall d n i, In (d, n, i) D -> In d (map components dirs)) -> ~ In (components p) (map components dirs) ->
  forall d n i, In (d, n, i) D -> k_names k (components p) <> Some n.
Proof.
  intros H Hp S HD HN d n i Hd E. destruct (sg_dirs _ _ _ _ S _ _ _ Hd) as (R & _).
  pose proof (ho_apart _ _ _ _ H p d n Hp R E) as ->. exact (HN (HD _ _ _ Hd)).
Qed.

(** A new inode is none of the directories. *)
Lemma put_apart D F L k k' p i : Stage D F L k -> Put p i k k' ->
  forall d n x, In (d, n, x) D -> k_names k' (components p) <> Some n.
Proof.
  intros S (HN & _) d n x Hd. rewrite HN, comps_eqb_refl. intros E. injection E as <-.
  destruct (sg_dirs _ _ _ _ S _ _ _ Hd) as (R & _). apply (resolve_low _ _ (sg_numbered _ _ _ _ S)) in R. lia.
Qed.

Lemma mkdir_apart D F L k c p g m : Stage D F L k -> cr_priv c = true -> InDirectory p k ->
  (forall d n x, In (d, n, x) D -> k_names k (components p) <> Some n) ->
  forall d n x, In (d, n, x) D -> k_names (after [(c, Create (components p) KDir g m)] k) (components p) <> Some n.
Proof.
  intros S HC HI HA d n x Hd. unfold after. cbn [fold_left]. destruct (k_names k (components p)) as [y|] eqn:E.
  - rewrite create_there by congruence. rewrite E. exact (HA _ _ _ Hd).
  - exact (put_apart _ _ _ _ _ _ _ S (create_put k c p g m HC HI E) d n x Hd).
Qed.


(** install -d for the socket directory. *)
Lemma stage_sockdir D F L k m : Stage D F L k ->
  (exists n i, In (components (B "/var"), n, i) D) -> (exists n i, In (components (B "/var/run"), n, i) D) ->
  MayBeDirectory k sockdir -> (forall d n x, In (d, n, x) D -> k_names k (components sockdir) <> Some n) ->
  forallb (other sockdir) F = true -> forallb (fun x => other sockdir (fst x)) L = true ->
  exists i, i_kind i = KDir /\ MadeDir k sockdir (mkInode KDir 0 0 m) i
    /\ Stage D F ((sockdir, mkInode KDir (i_uid i) (i_gid i) (Z.land m 4095)) :: L) (after (install_dir m sockdir) k)
    /\ (forall d n x, In (d, n, x) D -> k_names (after (install_dir m sockdir) k) (components sockdir) <> Some n).
Proof.
  intros S (n1 & i1 & H1) (n2 & i2 & H2) HM HA OF OL.
  assert (There : forall d n i, In (d, n, i) D -> k_names k d <> None).
  { intros d n i Hd E. destruct (sg_dirs _ _ _ _ S _ _ _ Hd) as (R & _). unfold resolve in R. cbn in R. rewrite E in R. discriminate. }
  assert (E : after (install_dir m sockdir) k = after [(installer, Chmod (components sockdir) m)] (after [(installer, Create (components sockdir) KDir 0 m)] k)).
  { unfold install_dir. change (above_dirs (components sockdir)) with [components (B "/var"); components (B "/var/run")].
    unfold after. cbn [map app fold_left]. rewrite (create_there k installer (components (B "/var"))) by exact (There _ _ _ H1).
    rewrite (create_there k installer (components (B "/var/run"))) by exact (There _ _ _ H2). reflexivity. }
  assert (HI : InDirectory sockdir k) by (eapply stage_dir; [exact S|exact H2|discriminate|reflexivity]).
  destruct (stage_mkdir D F L k installer sockdir 0 m S eq_refl HI HM OF OL) as (i & K & MD & S1).
  pose proof (mkdir_apart D F L k installer sockdir 0 m S eq_refl HI HA) as A1.
  exists i. split; [exact K|]. split; [exact MD|]. rewrite E. split.
  - pose proof (stage_chmod D F L _ sockdir i m S1 ltac:(intros t; rewrite K; discriminate) A1 OL) as S2. rewrite K in S2. exact S2.
  - intros d n x Hd. rewrite (after_untouched (components sockdir) [(installer, Chmod (components sockdir) m)]); [exact (A1 _ _ _ Hd)|].
    constructor; [intros []|constructor].
Qed.


Ltac in_dirs HD d := let n := fresh "n" in let i := fresh "i" in let H := fresh "H" in
  destruct (HD (B d) ltac:(cbn; auto 12)) as (n & i & H).

(** One more file of the recipe. *)
Ltac next_file S c g m H := eapply (stage_file _ _ _ _ c g m) in S;
  [|reflexivity|eapply stage_dir; [exact S|exact H|discriminate|reflexivity]|vm_compute; reflexivity|vm_compute; reflexivity].

Lemma docker_stage k : Host docker_dirs [sockdir] docker_files k ->
  exists D i, (forall d, In d docker_dirs -> exists n x, In (components d, n, x) D)
    /\ Stage D [] [] k
    /\ i_kind i = KDir /\ MadeDir k sockdir (mkInode KDir 0 0 420) i
    /\ Stage D [] [(B "/etc/sudoers.d/sudo_pair", mkInode KReg 0 0 288); (B "/etc/sudo_pair.prompt.user", mkInode KReg 0 0 420);
                   (B "/etc/sudo_pair.prompt.pair", mkInode KReg 0 0 420); (B "/usr/lib/sudo/sudo_pair.so", mkInode KReg 0 0 420);
                   (B "/usr/bin/sudo_approve", mkInode KReg 0 0 493); (sockdir, mkInode KDir (i_uid i) (i_gid i) 420)]
         (after make_docker k).
Proof.
  intros H. destruct (host_stage _ _ _ _ H) as (D & S & HD & HO).
  pose proof (made_apart _ _ _ _ _ sockdir H (or_introl eq_refl) S HO ltac:(vm_compute; intuition discriminate)) as HA.
  pose proof (Forall_inv (ho_made _ _ _ _ H)) as HM.
  destruct (stage_sockdir D docker_files [] k 420 S (HD (B "/var") ltac:(cbn; auto)) (HD (B "/var/run") ltac:(cbn; auto)) HM HA eq_refl eq_refl)
    as (i & K & MD & S1 & _).
  exists D, i. split; [exact HD|]. split. { destruct S as [A X C E]. constructor; auto. intros p []. }
  split; [exact K|]. split; [exact MD|].
  in_dirs HD "/usr/bin"%string. in_dirs HD "/usr/lib/sudo"%string. in_dirs HD "/etc"%string. in_dirs HD "/etc/sudoers.d"%string.
  unfold docker_files in S1.
  next_file S1 installer 0 493 H0. next_file S1 installer 0 420 H1. next_file S1 installer 0 420 H2. next_file S1 installer 0 420 H2.
  next_file S1 installer 0 288 H3.
  assert (E : make_docker = install_dir 420 sockdir ++ install_file 493 (B "/usr/bin/sudo_approve")
    ++ install_file 420 (B "/usr/lib/sudo/sudo_pair.so") ++ install_file 420 (B "/etc/sudo_pair.prompt.pair")
    ++ install_file 420 (B "/etc/sudo_pair.prompt.user") ++ install_file 288 (B "/etc/sudoers.d/sudo_pair")) by (vm_compute; reflexivity).
  rewrite E, !after_app. exact S1.
Qed.


Lemma put_maybe k k' p i q : Numbered k -> Put p i k k' -> other p q = true -> MayBeDirectory k q -> MayBeDirectory k' q.
Proof.
  intros NU (P1 & P2 & _) O HM. unfold other in O. apply negb_true_iff in O.
  destruct HM as [E|(j & (n & E & X & U) & K)]; [left; rewrite P1, O; exact E|right]. exists j. split; [|exact K]. exists n.
  split; [rewrite P1, O; exact E|]. pose proof (NU _ _ E) as LT.
  split; [rewrite P2; replace (Nat.eqb n (k_next k)) with false by (symmetry; apply Nat.eqb_neq; lia); exact X|].
  intros r. rewrite P1. destruct (comps_eqb r _); [intros Y; injection Y as Y; lia|]. apply U.
Qed.

Lemma readme_stage k : Host readme_dirs [sockdir] readme_files k ->
  exists D, (forall d, In d readme_dirs -> exists n x, In (components d, n, x) D)
    /\ Stage D [] [] k
    /\ Stage D [] [(B "/etc/sudo.conf", mkInode KReg 0 0 420); (B "/usr/bin/sudo_approve", mkInode KReg 0 0 493);
                   (sockdir, mkInode KDir 0 0 420); (B "/usr/libexec/sudo/libsudopair.dylib", mkInode KReg 0 0 420)]
         (after readme_install k).
Proof.
  intros H. destruct (host_stage _ _ _ _ H) as (D & S & HD & HO). exists D. split; [exact HD|].
  split. { destruct S as [A X C E]. constructor; auto. intros p []. }
  pose proof (made_apart _ _ _ _ _ sockdir H (or_introl eq_refl) S HO ltac:(vm_compute; intuition discriminate)) as HA.
  pose proof (Forall_inv (ho_made _ _ _ _ H)) as HM.
  in_dirs HD "/usr/bin"%string. in_dirs HD "/usr/libexec/sudo"%string. in_dirs HD "/etc"%string.
  set (k1 := after (install_file 420 (B "/usr/libexec/sudo/libsudopair.dylib")) k).
  assert (HP : Put (B "/usr/libexec/sudo/libsudopair.dylib") (mkInode KReg 0 0 420) k k1).
  { unfold readme_files in S. eapply (replace_put _ _ _ _ installer 0 420); [exact S|reflexivity|].
    eapply stage_dir; [exact S|exact H1|discriminate|reflexivity]. }
  pose proof (put_maybe _ _ _ _ sockdir (sg_numbered _ _ _ _ S) HP eq_refl HM) as HM1.
  assert (HA1 : forall d n x, In (d, n, x) D -> k_names k1 (components sockdir) <> Some n).
  { intros d m x Hd. rewrite (proj1 HP). exact (HA _ _ _ Hd). }
  unfold readme_files in S. next_file S installer 0 420 H1. change (after _ k) with k1 in S.
  destruct (stage_sockdir D _ _ k1 420 S (HD (B "/var") ltac:(cbn; auto)) (HD (B "/var/run") ltac:(cbn; auto)) HM1 HA1 eq_refl eq_refl)
    as (i2 & K & _ & S1 & A2).
  apply stage_chown in S1; [|cbn; discriminate|exact A2|reflexivity]. cbn [i_kind i_perm] in S1.
  next_file S1 installer 0 493 H0. next_file S1 installer 0 420 H2.
  assert (E : readme_install = install_file 420 (B "/usr/libexec/sudo/libsudopair.dylib") ++ install_dir 420 sockdir
    ++ [(installer, Chown (components sockdir) 0 0)] ++ install_file 493 (B "/usr/bin/sudo_approve") ++ install_file 420 (B "/etc/sudo.conf"))
    by (vm_compute; reflexivity).
  rewrite E, !after_app. exact S1.
Qed.


(** Setting the mode and the owner of a file that may not be there. *)
Lemma stage_alter_free D F L k k' p : Stage D F L k -> In p F -> forallb (fun x => other p (fst x)) L = true ->
  (k_names k (components p) = None -> k' = k) ->
  (forall n, k_names k (components p) = Some n -> i_kind (k_inodes k n) = KReg -> exists j, i_kind j = KReg /\ Alter n j k k') ->
  Stage D F L k'.
Proof.
  intros S Hp OL H0 H1. destruct (k_names k (components p)) as [n|] eqn:E; [|rewrite (H0 eq_refl); exact S].
  pose proof (sg_free _ _ _ _ S p Hp n E) as KR. destruct (H1 n eq_refl KR) as (j & KJ & HN & HI & HX).
  assert (HK : forall m, i_kind (k_inodes k' m) = i_kind (k_inodes k m)).
  { intros m. rewrite HI. destruct (Nat.eqb m n) eqn:Em; [|reflexivity]. apply Nat.eqb_eq in Em. subst m. congruence. }
  destruct S as [NU SD SF SL]. constructor.
  - intros q m. rewrite HN, HX. apply NU.
  - intros d m x Hd. destruct (SD _ _ _ Hd) as (R & X & K). split; [unfold resolve; rewrite (resolve_kind _ _ _ HN HK); exact R|].
    split; [|exact K]. rewrite HI. destruct (Nat.eqb m n) eqn:Em; [|exact X]. apply Nat.eqb_eq in Em. subst m. congruence.
  - intros q Hq m. rewrite HN, HK. exact (SF q Hq m).
  - intros q x Hq. rewrite forallb_forall in OL. specialize (OL _ Hq). unfold other in OL. cbn [fst] in OL. apply negb_true_iff, comps_eqb_neq in OL.
    destruct (SL q x Hq) as (m & Em & Im & Um). exists m. rewrite HN. split; [exact Em|].
    split; [|intros r; rewrite HN; apply Um]. rewrite HI. destruct (Nat.eqb m n) eqn:X; [|exact Im]. apply Nat.eqb_eq in X. subst m.
    destruct OL. symmetry. apply Um. exact E.
Qed.

Lemma no_finds k c p : k_names k p = None -> finds k c p = None.
Proof. intros E. unfold finds. cbn. destruct (can_search k c p); [|reflexivity]. rewrite E. reflexivity. Qed.

Lemma stage_maybe_set D F L k m p : Stage D F L k -> In p F -> forallb (fun x => other p (fst x)) L = true ->
  Stage D F L (after (set_mode_owner m p) k).
Proof.
  intros S Hp OL. unfold after.
  assert (E : set_mode_owner m p = [(installer, Chmod (components p) m); (installer, Chown (components p) 0 0)]) by reflexivity.
  rewrite E. clear E. cbn [fold_left].
  assert (S1 : Stage D F L (act k (installer, Chmod (components p) m))).
  { apply (stage_alter_free D F L k _ p S Hp OL).
    - intros E. cbn [act]. rewrite (no_finds _ _ _ E). reflexivity.
    - intros n E K. eexists. split; [|apply chmod_alter; [exact E|rewrite K; discriminate]]. exact K. }
  apply (stage_alter_free D F L _ _ p S1 Hp OL).
  - intros E. cbn [act]. rewrite (no_finds _ _ _ E). reflexivity.
  - intros n E K. eexists. split; [|apply chown_alter; [exact E|rewrite K; discriminate]]. exact K.
Qed.

Lemma stage_set D F L k m p i : Stage D F ((p, i) :: L) k -> (forall t, i_kind i <> KLink t) ->
  (forall d n x, In (d, n, x) D -> k_names k (components p) <> Some n) ->
  forallb (fun x => other p (fst x)) L = true ->
  Stage D F ((p, mkInode (i_kind i) 0 0 (Z.land m 4095)) :: L) (after (set_mode_owner m p) k).
Proof.
  intros S K HA OL. change (set_mode_owner m p) with ([(installer, Chmod (components p) m)] ++ [(installer, Chown (components p) 0 0)]).
  rewrite after_app. pose proof (stage_chmod D F L k p i m S K HA OL) as S1.
  refine (stage_chown D F L _ p _ S1 K _ OL). intros d n x Hd. rewrite (after_untouched (components p)); [exact (HA _ _ _ Hd)|].
  constructor; [intros []|constructor].
Qed.

Lemma deb_stage u g m k : Host deb_dirs deb_made deb_files k ->
  exists D, (forall d, In d deb_dirs -> exists n x, In (components d, n, x) D)
    /\ Stage D [] [] k
    /\ Stage D [] [(B "/etc/sudo.conf_for_sudo_pair_sample", mkInode KReg 0 0 420); (B "/usr/bin/sudo_approve", mkInode KReg 0 0 493);
                   (B "/usr/lib/sudo/libsudo_pair.so", mkInode KReg 0 0 493); (sockdir, mkInode KDir 0 0 493);
                   (B "/usr/lib/sudo", mkInode KDir 0 0 420)]
         (after (deb_install u g m) k).
Proof.
  intros H. destruct (host_stage _ _ _ _ H) as (D & S & HD & HO). exists D. split; [exact HD|].
  split. { destruct S as [A X C E]. constructor; auto. intros p []. }
  pose proof (made_apart _ _ _ _ _ sockdir H (or_introl eq_refl) S HO ltac:(vm_compute; intuition discriminate)) as HA.
  pose proof (made_apart _ _ _ _ _ (B "/usr/lib/sudo") H (or_intror (or_introl eq_refl)) S HO ltac:(vm_compute; intuition discriminate)) as HB.
  pose proof (Forall_inv (ho_made _ _ _ _ H)) as HM. pose proof (Forall_inv (Forall_inv_tail (ho_made _ _ _ _ H))) as HM2.
  in_dirs HD "/usr/lib"%string. in_dirs HD "/usr/bin"%string. in_dirs HD "/etc"%string. in_dirs HD "/var/run"%string.
  set (c := mkCred u [g] true).
  assert (E : deb_unpack u g m = [(c, Create (components (B "/usr/lib/sudo")) KDir g 493)]
    ++ [(installer, Unlink (components (B "/usr/lib/sudo/libsudo_pair.so"))); (c, Create (components (B "/usr/lib/sudo/libsudo_pair.so")) KReg g 493)]
    ++ [(c, Create (components sockdir) KDir g 493)]
    ++ [(installer, Unlink (components (B "/usr/bin/sudo_approve"))); (c, Create (components (B "/usr/bin/sudo_approve")) KReg g 493)]
    ++ [(installer, Unlink (components (B "/etc/sudo.conf_for_sudo_pair_sample"))); (c, Create (components (B "/etc/sudo.conf_for_sudo_pair_sample")) KReg g m)])
    by (vm_compute; reflexivity).
  unfold deb_install. rewrite E, !after_app. clear E.
  (* /usr/lib/sudo *)
  assert (HI : InDirectory (B "/usr/lib/sudo") k) by (eapply stage_dir; [exact S|exact H0|discriminate|reflexivity]).
  destruct (stage_mkdir D deb_files [] k c (B "/usr/lib/sudo") g 493 S eq_refl HI HM2 eq_refl eq_refl) as (i4 & K4 & _ & S1).
  pose proof (mkdir_apart D deb_files [] k c (B "/usr/lib/sudo") g 493 S eq_refl HI HB) as B1.
  assert (HM1 : MayBeDirectory (after [(c, Create (components (B "/usr/lib/sudo")) KDir g 493)] k) sockdir).
  { unfold after. cbn [fold_left]. destruct (k_names k (components (B "/usr/lib/sudo"))) as [y|] eqn:E.
    - rewrite create_there by congruence. exact HM.
    - exact (put_maybe _ _ _ _ sockdir (sg_numbered _ _ _ _ S) (create_put k c (B "/usr/lib/sudo") g 493 eq_refl HI E) eq_refl HM). }
  assert (A1 : forall d n x, In (d, n, x) D -> k_names (after [(c, Create (components (B "/usr/lib/sudo")) KDir g 493)] k) (components sockdir) <> Some n).
  { intros d n' x Hd. rewrite (after_untouched (components sockdir)); [exact (HA _ _ _ Hd)|].
    constructor; [intros [E|[]]; discriminate|constructor]. }
  set (k1 := after [(c, Create (components (B "/usr/lib/sudo")) KDir g 493)] k) in *.
  (* its file *)
  assert (HI1 : InDirectory (B "/usr/lib/sudo/libsudo_pair.so") k1).
  { split; [discriminate|]. destruct (sg_files _ _ _ _ S1 _ _ (or_introl eq_refl)) as (y & E & X & _). exists y.
    split; [|congruence]. change (removelast (components (B "/usr/lib/sudo/libsudo_pair.so"))) with (components (B "/usr/lib/sudo")).
    unfold resolve. cbn [resolve_fuel]. rewrite E, X, K4. reflexivity. }
  unfold deb_files in S1.
  pose proof (replace_put _ _ _ _ c g 493 _ S1 eq_refl HI1) as P2.
  pose proof (put_maybe _ _ _ _ sockdir (sg_numbered _ _ _ _ S1) P2 eq_refl HM1) as HM3.
  apply (stage_file _ _ _ _ c g 493) in S1; [|reflexivity|exact HI1|reflexivity|reflexivity].
  assert (A2 : forall d n x, In (d, n, x) D -> k_names (after [(installer, Unlink (components (B "/usr/lib/sudo/libsudo_pair.so"))); (c, Create (components (B "/usr/lib/sudo/libsudo_pair.so")) KReg g 493)] k1) (components sockdir) <> Some n).
  { intros d n' x Hd. rewrite (proj1 P2). exact (A1 _ _ _ Hd). }
  assert (B2 : forall d n x, In (d, n, x) D -> k_names (after [(installer, Unlink (components (B "/usr/lib/sudo/libsudo_pair.so"))); (c, Create (components (B "/usr/lib/sudo/libsudo_pair.so")) KReg g 493)] k1) (components (B "/usr/lib/sudo")) <> Some n).
  { intros d n' x Hd. rewrite (proj1 P2). exact (B1 _ _ _ Hd). }
  set (k2 := after [(installer, Unlink (components (B "/usr/lib/sudo/libsudo_pair.so"))); (c, Create (components (B "/usr/lib/sudo/libsudo_pair.so")) KReg g 493)] k1) in *.
  (* the socket directory *)
  assert (HI2 : InDirectory sockdir k2) by (eapply stage_dir; [exact S1|exact H3|discriminate|reflexivity]).
  pose proof (mkdir_apart _ _ _ k2 c sockdir g 493 S1 eq_refl HI2 A2) as A3.
  destruct (stage_mkdir _ _ _ k2 c sockdir g 493 S1 eq_refl HI2 HM3 eq_refl eq_refl) as (i5 & K5 & _ & S2).
  assert (B3 : forall d n x, In (d, n, x) D -> k_names (after [(c, Create (components sockdir) KDir g 493)] k2) (components (B "/usr/lib/sudo")) <> Some n).
  { intros d n' x Hd. rewrite (after_untouched (components (B "/usr/lib/sudo"))); [exact (B2 _ _ _ Hd)|].
    constructor; [intros [E|[]]; discriminate|constructor]. }
  set (k3 := after [(c, Create (components sockdir) KDir g 493)] k2) in *.
  (* the other files *)
  next_file S2 c g 493 H1. next_file S2 c g m H2.
  match type of S2 with Stage _ _ _ ?k' => set (k4 := k') in S2 end.
  assert (A4 : forall d n x, In (d, n, x) D -> k_names k4 (components sockdir) <> Some n).
  { intros d n' x Hd. unfold k4. rewrite !(after_untouched (components sockdir)); [exact (A3 _ _ _ Hd)|..];
      repeat constructor; intros [E|[]]; discriminate. }
  assert (B4 : forall d n x, In (d, n, x) D -> k_names k4 (components (B "/usr/lib/sudo")) <> Some n).
  { intros d n' x Hd. unfold k4. rewrite !(after_untouched (components (B "/usr/lib/sudo"))); [exact (B3 _ _ _ Hd)|..];
      repeat constructor; intros [E|[]]; discriminate. }
  match goal with |- Stage _ _ _ (after deb_postinst ?k') => change k' with k4 end.
  clearbody k4. clear - S2 A4 B4 K4 K5.
  (* postinst *)
  unfold deb_postinst. rewrite !after_app.
  assert (KD : forall i, i_kind i = KDir -> forall t, i_kind i <> KLink t) by (intros i -> t; discriminate).
  apply (stage_perm _ _ _ [(B "/usr/lib/sudo", i4); (B "/etc/sudo.conf_for_sudo_pair_sample", mkInode KReg u g m);
    (B "/usr/bin/sudo_approve", mkInode KReg u g 493); (B "/usr/lib/sudo/libsudo_pair.so", mkInode KReg u g 493); (sockdir, i5)]) in S2;
    [|cbn; intuition].
  apply (stage_set _ _ _ _ 420) in S2; [|exact (KD _ K4)|exact B4|reflexivity].
  assert (A5 : forall d n x, In (d, n, x) D -> k_names (after (set_mode_owner 420 (B "/usr/lib/sudo")) k4) (components sockdir) <> Some n).
  { intros d n' x Hd. rewrite (after_untouched (components sockdir)); [exact (A4 _ _ _ Hd)|repeat constructor; intros []]. }
  set (k5 := after (set_mode_owner 420 (B "/usr/lib/sudo")) k4) in *. clearbody k5.
  change (Z.land 420 4095) with 420 in S2. rewrite K4 in S2.
  apply (stage_perm _ _ _ [(sockdir, i5); (B "/usr/lib/sudo", mkInode KDir 0 0 420); (B "/etc/sudo.conf_for_sudo_pair_sample", mkInode KReg u g m);
    (B "/usr/bin/sudo_approve", mkInode KReg u g 493); (B "/usr/lib/sudo/libsudo_pair.so", mkInode KReg u g 493)]) in S2;
    [|cbn; intuition].
  apply (stage_set _ _ _ _ 493) in S2; [|exact (KD _ K5)|exact A5|reflexivity].
  change (Z.land 493 4095) with 493 in S2. rewrite K5 in S2.
  apply (stage_perm _ _ _ [(B "/usr/lib/sudo/libsudo_pair.so", mkInode KReg u g 493); (sockdir, mkInode KDir 0 0 493); (B "/usr/lib/sudo", mkInode KDir 0 0 420);
    (B "/etc/sudo.conf_for_sudo_pair_sample", mkInode KReg u g m); (B "/usr/bin/sudo_approve", mkInode KReg u g 493)]) in S2;
    [|cbn; intuition].
  apply (stage_set _ _ _ _ 493) in S2; [|discriminate|exact (stage_reg _ _ _ _ _ _ S2 eq_refl)|reflexivity].
  change (Z.land 493 4095) with 493 in S2. cbn [i_kind] in S2.
  apply (stage_perm _ _ _ [(B "/usr/bin/sudo_approve", mkInode KReg u g 493); (B "/usr/lib/sudo/libsudo_pair.so", mkInode KReg 0 0 493);
    (sockdir, mkInode KDir 0 0 493); (B "/usr/lib/sudo", mkInode KDir 0 0 420);
    (B "/etc/sudo.conf_for_sudo_pair_sample", mkInode KReg u g m)]) in S2; [|cbn; intuition].
  apply (stage_set _ _ _ _ 493) in S2; [|discriminate|exact (stage_reg _ _ _ _ _ _ S2 eq_refl)|reflexivity].
  change (Z.land 493 4095) with 493 in S2. cbn [i_kind] in S2.
  apply (stage_perm _ _ _ [(B "/etc/sudo.conf_for_sudo_pair_sample", mkInode KReg u g m); (B "/usr/bin/sudo_approve", mkInode KReg 0 0 493);
    (B "/usr/lib/sudo/libsudo_pair.so", mkInode KReg 0 0 493); (sockdir, mkInode KDir 0 0 493); (B "/usr/lib/sudo", mkInode KDir 0 0 420)]) in S2; [|cbn; intuition].
  apply (stage_set _ _ _ _ 420) in S2; [|discriminate|exact (stage_reg _ _ _ _ _ _ S2 eq_refl)|reflexivity].
  change (Z.land 420 4095) with 420 in S2. cbn [i_kind] in S2.
  apply (stage_maybe_set _ _ _ _ 420 (B "/etc/sudo.prompt.user")) in S2; [|left; reflexivity|reflexivity].
  apply (stage_maybe_set _ _ _ _ 420 (B "/etc/sudo.prompt.pair")) in S2; [|right; left; reflexivity|reflexivity].
  destruct S2 as [X1 X2 X3 X4]. constructor; [exact X1|exact X2|intros ? []|exact X4].
Qed.
