(** Facts about the output facilities. *)
From Verif Require Import Base BaseLemmas Path World Sys Io TraceSpec RunProofs.
Local Open Scope Z_scope.

Lemma Prefix_nil b : Prefix [] b.
Proof. exists b. reflexivity. Qed.
Lemma Prefix_refl b : Prefix b b.
Proof. exists []. rewrite app_nil_r. reflexivity. Qed.
Lemma Prefix_firstn n b : Prefix (firstn n b) b.
Proof. exists (skipn n b). symmetry. apply firstn_skipn. Qed.
Lemma Prefix_app a b c : Prefix b c -> Prefix (a ++ b) (a ++ c).
Proof. intros [x ->]. exists x. apply app_assoc. Qed.
Lemma Prefix_firstn_app n a b : Prefix a (skipn n b) -> Prefix (firstn n b ++ a) b.
Proof. intros H. rewrite <- (firstn_skipn n b) at 2. apply Prefix_app. exact H. Qed.

Lemma zlen_nonneg d : 0 <= zlen d.
Proof. unfold zlen. lia. Qed.
Lemma zlen_firstn n d : zlen d <= n -> firstn (Z.to_nat n) d = d.
Proof. intros H. apply firstn_all2. unfold zlen in H. lia. Qed.

(** [write_all], for any notion [out] of what has been written. *)
Section WriteAll.
Variable euid : Z.
Variable Bad : list event -> Prop.
Hypothesis Bad_r : forall a b, Bad b -> Bad (a ++ b).
Variable C : event -> Prop.
Variable out : list event -> bytes.
Hypothesis out_nil : out [] = [].
Hypothesis out_app : forall a b, out (a ++ b) = out a ++ out b.

Definition one_write (b : bytes) (o : outcome (result Z ioerr)) (evs : list event) : Prop :=
  Forall C evs /\
  match o with
  | Done (Ok n) => 0 <= n /\ (n <= zlen b -> out evs = firstn (Z.to_nat n) b)
                   /\ (n <= zlen b \/ Bad evs)
  | Done (Err (Os e)) => (e = EINTR -> out evs = []) /\ Prefix (out evs) b
  | Done (Err _) => Prefix (out evs) b
  | Panicked => False
  | Stopped => Prefix (out evs) b
  end.

Definition all_written (b : bytes) (o : outcome (result unit ioerr)) (evs : list event) : Prop :=
  Forall C evs /\
  match o with
  | Done (Ok _) => out evs = b
  | Done (Err _) => Prefix (out evs) b
  | Panicked => Bad evs
  | Stopped => Prefix (out evs) b
  end.

(** An invariant of what remains to be written. *)
Variable I : bytes -> Prop.
Hypothesis I_skip : forall n b, I b -> I (skipn n b).
Variable write : bytes -> io Z.
Hypothesis Hw : forall b, I b -> yields euid (write b) (one_write b).

Lemma write_all_loop_yields fuel : forall b, I b -> yields euid (write_all_loop fuel write b) (all_written b).
Proof.
  induction fuel as [|fuel IH]; intros [|x b] Hi; cbn [write_all_loop].
  - apply yields_ret'. split; [constructor|exact out_nil].
  - apply yields_stop'. split; [constructor|]. rewrite out_nil. apply Prefix_nil.
  - apply yields_ret'. split; [constructor|exact out_nil].
  - remember (x :: b) as buf. clear x b Heqbuf.
    eapply yields_seq; [apply Hw; exact Hi| | |].
    + intros r e1 [HC H]. destruct r as [n|er].
      * destruct H as (H0 & H1 & H2). destruct (n =? 0) eqn:En.
        { apply Z.eqb_eq in En. subst n. apply yields_ret'. rewrite app_nil_r. split; [exact HC|].
          rewrite H1 by (pose proof (zlen_nonneg buf); lia). apply Prefix_firstn. }
        destruct (zlen buf <? n) eqn:El.
        { apply Z.ltb_lt in El. apply yields_panic'. rewrite app_nil_r. split; [exact HC|].
          destruct H2 as [H2|H2]; [lia|exact H2]. }
        apply Z.ltb_ge in El. eapply yields_weaken; [apply IH; apply I_skip; exact Hi|]. intros o e2 [HC2 H3].
        split; [apply Forall_app; auto|]. rewrite out_app, (H1 El).
        destruct o as [[u|er]| |].
        -- rewrite H3. apply firstn_skipn.
        -- apply Prefix_firstn_app. exact H3.
        -- apply Bad_r. exact H3.
        -- apply Prefix_firstn_app. exact H3.
      * assert (Hend : yields euid (ret (Err er)) (fun o e2 => all_written buf o (e1 ++ e2))).
        { apply yields_ret'. rewrite app_nil_r. split; [exact HC|]. destruct er; try exact H. apply H. }
        destruct er; try exact Hend. destruct (errno =? EINTR) eqn:Ee; [|exact Hend].
        apply Z.eqb_eq in Ee. destruct H as [H _]. specialize (H Ee).
        eapply yields_weaken; [apply IH; exact Hi|]. intros o e2 [HC2 H3].
        split; [apply Forall_app; auto|]. rewrite out_app, H.
        destruct o as [[u|er]| |]; try exact H3. apply Bad_r. exact H3.
    + intros e1 [HC []].
    + intros e1 [HC H]. split; assumption.
Qed.

Lemma write_all_yields b : I b -> yields euid (write_all write b) (all_written b).
Proof.
  intros Hi. unfold write_all. eapply yields_seq; [apply yields_turns_left| | |].
  - intros n e1 (m & _ & ->). apply write_all_loop_yields. exact Hi.
  - intros e1 (m & ? & _). discriminate.
  - intros e1 (m & ? & _). discriminate.
Qed.
End WriteAll.

Lemma flat_map_nil {X Y} (f : X -> list Y) : flat_map f [] = [].
Proof. reflexivity. Qed.

(** ** sudo's printf *)
Definition dishonest (evs : list event) : Prop := ~ HonestPrintf evs.
Lemma dishonest_l a b : dishonest a -> dishonest (a ++ b).
Proof. intros H Hf. apply Forall_app in Hf as [H1 H2]. apply H. assumption. Qed.
Lemma dishonest_r a b : dishonest b -> dishonest (a ++ b).
Proof. intros H Hf. apply Forall_app in Hf as [H1 H2]. apply H. assumption. Qed.

(** A part of the text [b] was handed to printf. *)
Definition PrintOf (l : Z) (b : bytes) (ev : event) : Prop := exists d, e_call ev = CPrintf l d /\ Infix d b.

Lemma Infix_refl b : Infix b b.
Proof. exists [], []. rewrite app_nil_r. reflexivity. Qed.
Lemma Infix_skipn n a b : Infix a b -> Infix (skipn n a) b.
Proof.
  intros (x & y & ->). exists (x ++ firstn n a), y. rewrite <- !app_assoc, (app_assoc (firstn n a)), firstn_skipn. reflexivity.
Qed.
Lemma Infix_l a b c : Infix a b -> Infix a (b ++ c).
Proof. intros (x & y & ->). exists x, (y ++ c). rewrite <- !app_assoc. reflexivity. Qed.
Lemma Infix_r a b c : Infix a b -> Infix a (c ++ b).
Proof. intros (x & y & ->). exists (c ++ x), y. rewrite <- !app_assoc. reflexivity. Qed.
Lemma PrintOf_l l a b evs : Forall (PrintOf l a) evs -> Forall (PrintOf l (a ++ b)) evs.
Proof. apply Forall_impl. intros ev (d & H1 & H2). exists d. auto using Infix_l. Qed.
Lemma PrintOf_r l a b evs : Forall (PrintOf l a) evs -> Forall (PrintOf l (b ++ a)) evs.
Proof. apply Forall_impl. intros ev (d & H1 & H2). exists d. auto using Infix_r. Qed.

Lemma pf_write_yields euid pf b whole : Infix b whole ->
  yields euid (pf_write pf b) (one_write dishonest (PrintOf (pf_level pf) whole) (printed (pf_level pf)) b).
Proof.
  intros Hi. unfold pf_write. destruct (pf_present pf); cbn [negb].
  2: { apply yields_ret'. split; [constructor|]. apply Prefix_nil. }
  destruct (has_nul b).
  { apply yields_ret'. split; [constructor|]. apply Prefix_nil. }
  eapply yields_weaken; [apply printf_spec|]. intros o evs [[-> ->]|(x & a & k & -> & -> & H)].
  - split; [constructor|]. apply Prefix_nil.
  - split; [repeat constructor; eexists; split; [reflexivity|exact Hi]|].
    unfold printed, printed1. cbn. rewrite Z.eqb_refl. destruct a; try contradiction.
    + subst x. split; [reflexivity|]. apply Prefix_nil.
    + destruct H as [Hr ->]. split; [lia|]. split; [intros _; apply app_nil_r|].
      destruct (Z_le_dec z (zlen b)) as [Hz|Hz]; [left; exact Hz|right]. intros Hf.
      inversion Hf; subst. cbn in H1. apply Hz. exact H1.
Qed.

Definition printed_all (pf : print_facility) (b : bytes) :=
  all_written dishonest (PrintOf (pf_level pf) b) (printed (pf_level pf)) b.

Lemma pf_write_all_yields euid pf b : yields euid (pf_write_all pf b) (printed_all pf b).
Proof.
  apply (write_all_yields _ _ dishonest_r _ _ eq_refl) with (I := fun x => Infix x b).
  - intros; apply flat_map_app.
  - intros n x. apply Infix_skipn.
  - intros b' Hi. apply pf_write_yields. exact Hi.
  - apply Infix_refl.
Qed.

Lemma printed_app l a b : printed l (a ++ b) = printed l a ++ printed l b.
Proof. apply flat_map_app. Qed.

(** Several pieces in a row. *)
Lemma printed_all_seq euid pf (m : io unit) b c :
  yields euid m (printed_all pf c) ->
  yields euid (r <- pf_write_all pf b ;; match r with Err e => ret (Err e) | Ok _ => m end)
    (printed_all pf (b ++ c)).
Proof.
  intros Hm. eapply yields_seq; [apply pf_write_all_yields| | |].
  - intros [[]|er] e1 [HC H].
    + eapply yields_weaken; [exact Hm|]. intros o e2 [HC2 H2]. split; [apply Forall_app; auto using PrintOf_l, PrintOf_r|].
      rewrite printed_app, H. destruct o as [[?|?]| |]; try (apply Prefix_app; exact H2); [rewrite H2; reflexivity|apply dishonest_r; exact H2].
    + apply yields_ret'. rewrite app_nil_r. split; [apply PrintOf_l; exact HC|]. destruct H as [x ->]. exists (x ++ c).
      rewrite app_assoc. reflexivity.
  - intros e1 [HC H]. split; [apply PrintOf_l; exact HC|exact H].
  - intros e1 [HC [x ->]]. split; [apply PrintOf_l; exact HC|]. exists (x ++ c). rewrite app_assoc. reflexivity.
Qed.

Lemma write_line_yields euid pf line :
  yields euid (write_line pf line) (printed_all pf (pf_tag pf ++ line ++ newline)).
Proof.
  unfold write_line. apply printed_all_seq. apply printed_all_seq.
  rewrite <- (app_nil_r newline). eapply yields_weaken.
  - eapply (printed_all_seq euid pf (ret (Ok tt)) newline []). apply yields_ret'. split; [constructor|reflexivity].
  - intros o evs H. rewrite app_nil_r in H. exact H.
Qed.

(** Without a source, an error report is three lines of text. *)
Lemma write_error_yields euid pf display :
  yields euid (write_error pf display None)
    (printed_all pf (newline ++ pf_tag pf ++ display ++ newline)).
Proof.
  unfold write_error. apply printed_all_seq.
  eapply yields_seq; [apply write_line_yields| | |].
  - intros [[]|er] e1 [HC H].
    + eapply yields_seq; [apply yields_turns_left| | |].
      * intros n e2 (m & _ & ->). destruct n; cbn [source_loop]; apply yields_ret'; rewrite !app_nil_r; split; assumption.
      * intros e2 (m & ? & _). discriminate.
      * intros e2 (m & ? & _). discriminate.
    + apply yields_ret'. rewrite app_nil_r. split; assumption.
  - intros e1 H. exact H.
  - intros e1 H. exact H.
Qed.

Lemma write_pieces_yields_nil euid pf : yields euid (ret (Ok tt)) (printed_all pf []).
Proof. apply yields_ret'. split; [constructor|reflexivity]. Qed.

(** ** The terminal *)
Definition never (evs : list event) : Prop := False.
Definition TtyWrite (ev : event) : Prop := exists d, e_call ev = CWriteTty d.

Lemma tty_write_all_yields euid b :
  yields euid (tty_write_all b) (all_written never TtyWrite shown b).
Proof.
  apply write_all_yields with (I := fun _ => True); [intros ? ? []|reflexivity|intros; apply flat_map_app|auto| |exact I].
  intros b' _.
  eapply yields_weaken; [apply write_tty_spec|]. intros o evs [[-> ->]|(x & a & k & -> & -> & H)].
  - split; [constructor|]. apply Prefix_nil.
  - split; [repeat constructor; eexists; reflexivity|].
    unfold shown, shown1. cbn. destruct a; try contradiction.
    + subst x. split; [reflexivity|]. apply Prefix_nil.
    + destruct H as [Hr ->]. split; [lia|]. split; [intros _; apply app_nil_r|left; lia].
Qed.
