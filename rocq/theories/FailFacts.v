(** Writing fails only if some call failed. *)
From Verif Require Import Base BaseLemmas Path World Sys Io Socket TraceSpec RunProofs IoProofs SocketProofs.
Local Open Scope Z_scope.

Definition AnyFailed (evs : list event) : Prop := Exists Failed evs.
Lemma AnyFailed_r a b : AnyFailed b -> AnyFailed (a ++ b).
Proof. intros H. apply Exists_app. auto. Qed.
Lemma AnyFailed_l a b : AnyFailed a -> AnyFailed (a ++ b).
Proof. intros H. apply Exists_app. auto. Qed.

Section WriteFail.
Variable euid : Z.
Definition one_fail (o : outcome (result Z ioerr)) (evs : list event) : Prop :=
  match o with
  | Done (Ok n) => n = 0 -> AnyFailed evs
  | Done (Err (Os e)) => e = EINTR \/ AnyFailed evs
  | Done (Err _) => AnyFailed evs
  | _ => True
  end.
Definition all_fail {A} (o : outcome (result A ioerr)) (evs : list event) : Prop :=
  match o with Done (Err _) => AnyFailed evs | _ => True end.

Variable I : bytes -> Prop.
Hypothesis I_skip : forall n b, I b -> I (skipn n b).
Variable write : bytes -> io Z.
Hypothesis Hw : forall b, I b -> yields euid (write b) one_fail.

Lemma write_all_loop_fail fuel : forall b, I b -> yields euid (write_all_loop fuel write b) all_fail.
Proof.
  induction fuel as [|fuel IH]; intros [|x b] Hi; cbn [write_all_loop];
    try (apply yields_ret'; exact Logic.I); try (apply yields_stop'; exact Logic.I).
  remember (x :: b) as buf. clear x b Heqbuf.
  eapply yields_seq; [apply Hw; exact Hi| | |].
  - intros r e1 H. destruct r as [n|er].
    + destruct (n =? 0) eqn:En.
      * apply Z.eqb_eq in En. subst n. apply yields_ret'. rewrite app_nil_r. exact (H eq_refl).
      * destruct (zlen buf <? n); [apply yields_panic'; exact Logic.I|].
        eapply yields_weaken; [apply IH; apply I_skip; exact Hi|].
        intros o e2 H2. destruct o as [[?|?]| |]; try exact Logic.I. apply AnyFailed_r. exact H2.
    + assert (HE : forall er', er = er' -> one_fail (Done (Err er')) e1 -> (forall e, er' <> Os e) ->
         yields euid (ret (Err er')) (fun o e2 => @all_fail unit o (e1 ++ e2))).
      { intros er' _ H' HN. apply yields_ret'. rewrite app_nil_r. destruct er'; try exact H'. exfalso. eapply HN. reflexivity. }
      destruct er as [e| | | | | |]; try (eapply HE; [reflexivity|exact H|discriminate]).
      destruct (e =? EINTR) eqn:Ee.
      * eapply yields_weaken; [apply IH; exact Hi|].
        intros o e2 H2. destruct o as [[?|?]| |]; try exact Logic.I. apply AnyFailed_r. exact H2.
      * apply Z.eqb_neq in Ee. apply yields_ret'. rewrite app_nil_r. destruct H; [contradiction|assumption].
  - intros; exact Logic.I.
  - intros; exact Logic.I.
Qed.

Lemma write_all_fail b : I b -> yields euid (write_all write b) all_fail.
Proof.
  intros Hi. unfold write_all. eapply yields_seq; [apply yields_turns_left| | |].
  - intros n e1 (m & _ & ->). apply write_all_loop_fail. exact Hi.
  - intros e1 (m & ? & _). discriminate.
  - intros e1 (m & ? & _). discriminate.
Qed.
End WriteFail.

Lemma CtrlT_fail {A} F (o : outcome (result A ioerr)) evs : CtrlT F o evs ->
  match o with
  | Done (Err e) => AnyFailed evs /\ e <> Os EINTR
  | Done (Ok r) => exists a fs b, evs = a ++ fs ++ b /\ F (Done r) fs
  | _ => True
  end.
Proof.
  intros H. inversion H; subst; try exact I.
  - split; [|congruence]. left. destruct H1 as [_ H1]. unfold Failed. rewrite H1. assumption.
  - split; [|congruence]. right. left. destruct H2 as [_ H2]. unfold Failed. rewrite H2. assumption.
  - split; [|congruence]. right. right. apply AnyFailed_r. left. destruct H4 as [_ H4]. unfold Failed. rewrite H4. assumption.
  - exists [g; s], fs, [s2]. split; [reflexivity|assumption].
Qed.

Lemma socket_write_fail euid c b : yields euid (socket_write c b) one_fail.
Proof.
  unfold socket_write. eapply yields_seq; [apply ctrl_c_yields; apply write_spec| | |]; try (intros; exact I).
  intros r e1 H. apply CtrlT_fail in H. apply yields_ret'. rewrite app_nil_r.
  destruct r as [r|er]; cbn [flatten].
  - destruct H as (x & fs & y & -> & [[H _]|(r' & a & k & H & -> & Hx)]); [discriminate|]. injection H as <-.
    destruct a; try contradiction.
    + subst r. cbn. destruct (Z.eq_dec errno EINTR) as [He|He]; [auto|right]. apply AnyFailed_r.
      left. exact He.
    + destruct Hx as [_ ->]. cbn. intros ->. apply AnyFailed_r. left. unfold Failed. cbn. lia.
  - destruct H as [H HN]. cbn. destruct er; try exact H. right. exact H.
Qed.

Lemma socket_write_all_fail euid c b : yields euid (socket_write_all c b) all_fail.
Proof.
  apply (write_all_fail euid (fun _ => True)); [auto| |exact I]. intros b' _. apply socket_write_fail.
Qed.

(** An interrupted read, unlike an interrupted write, is not made again. *)
Lemma socket_read_fail euid c : yields euid (socket_read c)
  (fun o evs => match o with
   | Done (Err e) => AnyFailed evs \/ exists ev, In ev evs /\ Is (CRead c) (AErr EINTR) ev
   | _ => True end).
Proof.
  unfold socket_read. eapply yields_seq; [apply ctrl_c_yields; apply read_spec| | |]; try (intros; exact I).
  intros r e1 H. apply CtrlT_fail in H. apply yields_ret'. rewrite app_nil_r.
  destruct r as [r|er]; cbn [flatten].
  - destruct H as (x & fs & y & -> & [[H _]|(r' & a & k & H & -> & Hx)]); [discriminate|]. injection H as <-.
    destruct r as [d|er]; [exact I|]. destruct a; try contradiction.
    + destruct (Z.eq_dec errno EINTR) as [->|He].
      * right. eexists. split; [apply in_or_app; right; left; reflexivity|split; reflexivity].
      * left. apply AnyFailed_r. left. exact He.
    + destruct Hx as [Hx _]. discriminate.
  - destruct H as [H HN]. left. exact H.
Qed.

Lemma socket_flush_fail euid c : yields euid (socket_flush c) all_fail.
Proof.
  unfold socket_flush. eapply yields_seq; [apply ctrl_c_yields; apply yields_ret| | |]; try (intros; exact I).
  intros r e1 H. apply CtrlT_fail in H. apply yields_ret'. rewrite app_nil_r.
  destruct r as [r|er]; cbn [flatten].
  - destruct H as (x & fs & y & -> & H & ->). injection H as ->. exact I.
  - destruct H as [H HN]. exact H.
Qed.

(** sudo's printf, given text without NUL bytes *)
Lemma has_nul_skipn n b : has_nul b = false -> has_nul (skipn n b) = false.
Proof.
  revert b. induction n as [|n IH]; intros [|x b] H; try exact H. cbn [skipn].
  apply IH. unfold has_nul in *. cbn in H. apply orb_false_iff in H as [_ H]. exact H.
Qed.

Lemma pf_write_all_fail euid pf b : pf_present pf = true -> has_nul b = false ->
  yields euid (pf_write_all pf b) all_fail.
Proof.
  intros HP HN. apply (write_all_fail euid (fun b => has_nul b = false)); [apply has_nul_skipn| |exact HN].
  clear b HN. intros b HN. unfold pf_write. rewrite HP, HN. cbn [negb].
  eapply yields_weaken; [apply printf_spec|]. intros o evs [[-> ->]|(x & a & k & -> & -> & H)]; [exact I|].
  destruct a; try contradiction.
  - subst x. cbn. destruct (Z.eq_dec errno EINTR) as [He|He]; [auto|right]. left. exact He.
  - destruct H as [H ->]. cbn. intros ->. left. unfold Failed. cbn. lia.
Qed.

Lemma tty_write_all_fail euid b : yields euid (tty_write_all b) all_fail.
Proof.
  apply (write_all_fail euid (fun _ => True)); [auto| |exact I]. intros b' _.
  eapply yields_weaken; [apply write_tty_spec|]. intros o evs [[-> ->]|(x & a & k & -> & -> & H)]; [exact I|].
  destruct a; try contradiction.
  - subst x. cbn. destruct (Z.eq_dec errno EINTR) as [He|He]; [auto|right]. left. exact He.
  - destruct H as [H ->]. cbn. intros ->. left. unfold Failed. cbn. lia.
Qed.

Lemma write_line_fail euid pf line : pf_present pf = true -> has_nul (pf_tag pf) = false -> has_nul line = false ->
  yields euid (write_line pf line) all_fail.
Proof.
  intros HP Ht Hl. unfold write_line.
  eapply yields_seq; [apply pf_write_all_fail; assumption| | |]; try (intros; exact I).
  intros [[]|er] e1 H1; [|apply yields_ret'; rewrite app_nil_r; exact H1].
  eapply yields_seq; [apply pf_write_all_fail; assumption| | |]; try (intros; exact I).
  intros [[]|er] e2 H2; [|apply yields_ret'; rewrite app_nil_r; apply AnyFailed_r; exact H2].
  eapply yields_seq; [apply pf_write_all_fail; [assumption|reflexivity]| | |]; try (intros; exact I).
  intros [[]|er] e3 H3; apply yields_ret'; rewrite app_nil_r; [exact I|].
  apply AnyFailed_r. apply AnyFailed_r. exact H3.
Qed.

Lemma write_error_fail euid pf display : pf_present pf = true -> has_nul (pf_tag pf) = false -> has_nul display = false ->
  yields euid (write_error pf display None) all_fail.
Proof.
  intros HP Ht Hd. unfold write_error.
  eapply yields_seq; [apply pf_write_all_fail; [assumption|reflexivity]| | |]; try (intros; exact I).
  intros [[]|er] e1 H1; [|apply yields_ret'; rewrite app_nil_r; exact H1].
  eapply yields_seq; [apply write_line_fail; assumption| | |]; try (intros; exact I).
  intros [[]|er] e2 H2; [|apply yields_ret'; rewrite app_nil_r; apply AnyFailed_r; exact H2].
  eapply yields_seq; [apply yields_turns_left| | |]; try (intros; exact I).
  intros n e3 (k & _ & ->). destruct n; apply yields_ret'; exact I.
Qed.

(** ** Success means that no call failed for good *)
Definition Sound (ev : event) : Prop := forall e, e_ans ev = AErr e -> e = EINTR.

Lemma Is_Sound c ev : Is c AOk ev -> Sound ev.
Proof. intros [_ H] e E. congruence. Qed.

Lemma CtrlT_sound {A} F (r : A) evs : CtrlT F (Done (Ok r)) evs ->
  exists g s fs s2, evs = g :: s :: fs ++ [s2] /\ F (Done r) fs /\ Sound g /\ Sound s /\ Sound s2.
Proof. intros H. inversion H; subst. exists g, s, fs, s2. eauto 8 using Is_Sound. Qed.

Definition one_sound (o : outcome (result Z ioerr)) (evs : list event) : Prop :=
  match o with
  | Done (Ok _) => Forall Sound evs
  | Done (Err (Os e)) => e = EINTR -> Forall Sound evs
  | _ => True
  end.
Definition all_sound {A} (o : outcome (result A ioerr)) (evs : list event) : Prop :=
  match o with Done (Ok _) => Forall Sound evs | _ => True end.

Lemma write_all_loop_sound euid (write : bytes -> io Z) : (forall b, yields euid (write b) one_sound) ->
  forall fuel b, yields euid (write_all_loop fuel write b) all_sound.
Proof.
  intros Hw. induction fuel as [|fuel IH]; intros [|x b]; cbn [write_all_loop];
    try (apply yields_ret'; constructor); try (apply yields_stop'; exact Logic.I).
  remember (x :: b) as buf. clear x b Heqbuf.
  eapply yields_seq; [apply Hw| | |]; try (intros; exact Logic.I).
  intros r e1 H. destruct r as [n|er].
  - destruct (n =? 0); [apply yields_ret'; exact Logic.I|].
    destruct (zlen buf <? n); [apply yields_panic'; exact Logic.I|].
    eapply yields_weaken; [apply IH|]. intros o e2 H2. destruct o as [[?|?]| |]; try exact Logic.I.
    apply Forall_app. split; [exact H|exact H2].
  - destruct er as [e| | | | | |]; try (apply yields_ret'; exact Logic.I).
    destruct (e =? EINTR) eqn:Ee; [|apply yields_ret'; exact Logic.I].
    apply Z.eqb_eq in Ee. eapply yields_weaken; [apply IH|]. intros o e2 H2. destruct o as [[?|?]| |]; try exact Logic.I.
    apply Forall_app. split; [exact (H Ee)|exact H2].
Qed.

Lemma socket_write_sound euid c b : yields euid (socket_write c b) one_sound.
Proof.
  unfold socket_write. eapply yields_seq; [apply yields_and; [apply ctrl_c_yields; apply write_spec|]| | |]; try (intros; exact I).
  { apply ctrl_c_yields; apply write_spec. }
  intros r e1 [H H']. apply yields_ret'. rewrite app_nil_r. destruct r as [r|er]; cbn [flatten].
  - apply CtrlT_sound in H as (g & s & fs & s2 & -> & [[H _]|(r' & a & k & H & -> & Hx)] & Sg & Ss & S2); [discriminate|].
    injection H as <-.
    assert (X : Sound (mkEvent (CWrite c b) a k (effect euid (CWrite c b) a k)) ->
      Forall Sound (g :: s :: [mkEvent (CWrite c b) a k (effect euid (CWrite c b) a k)] ++ [s2])).
    { intros S. repeat constructor; assumption. }
    destruct a; try contradiction.
    + subst r. cbn. intros ->. apply X. intros e E. cbn in E. congruence.
    + destruct Hx as [_ ->]. cbn. apply X. intros e E. discriminate.
  - apply CtrlT_fail in H as [_ H]. cbn. destruct er; try exact I. intros ->. contradiction.
Qed.

Lemma socket_write_all_sound euid c b : yields euid (socket_write_all c b) all_sound.
Proof.
  unfold socket_write_all, write_all. eapply yields_seq; [apply yields_turns_left| | |]; try (intros; exact I).
  intros n e1 (m & _ & ->). apply write_all_loop_sound. intros b'. apply socket_write_sound.
Qed.

Lemma socket_flush_sound euid c : yields euid (socket_flush c) all_sound.
Proof.
  unfold socket_flush. eapply yields_seq; [apply ctrl_c_yields; apply yields_ret| | |]; try (intros; exact I).
  intros r e1 H. apply yields_ret'. rewrite app_nil_r. destruct r as [r|er]; cbn [flatten]; [|exact I].
  apply CtrlT_sound in H as (g & s & fs & s2 & -> & [H ->] & Sg & Ss & S2). injection H as ->.
  repeat constructor; assumption.
Qed.

Lemma socket_read_sound euid c : yields euid (socket_read c) all_sound.
Proof.
  unfold socket_read. eapply yields_seq; [apply ctrl_c_yields; apply read_spec| | |]; try (intros; exact I).
  intros r e1 H. apply yields_ret'. rewrite app_nil_r. destruct r as [r|er]; cbn [flatten]; [|exact I].
  destruct r as [d|er]; [|exact I].
  apply CtrlT_sound in H as (g & s & fs & s2 & -> & [[H _]|(r' & a & k & H & -> & Hx)] & Sg & Ss & S2); [discriminate|].
  injection H as <-. destruct a; try contradiction; try discriminate.
  repeat constructor; try assumption. intros e E. discriminate.
Qed.
