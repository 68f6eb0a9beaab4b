(** Sending output to the pair succeeds only if no call failed. *)
From Coq Require Import Lia.
From Verif Require Import Base BaseLemmas Num Path Options World Sys Io Socket Env Core Pair Spec TraceSpec SessionSpec CallbackSpec
  NumProofs RequestProofs RunProofs IoProofs SocketProofs FailFacts PairProofs PairPure SessionFacts OpenFacts InputFacts CallbackFacts.
Local Open Scope Z_scope.

Definition Fine (evs : list event) : Prop := Forall (fun ev => ~ Failed ev) evs.
Lemma Fine_app a b : Fine a -> Fine b -> Fine (a ++ b).
Proof. intros. apply Forall_app. auto. Qed.

Definition one_fine (o : outcome (result Z ioerr)) (evs : list event) : Prop :=
  match o with
  | Done (Ok n) => n <> 0 -> Fine evs
  | Done (Err (Os e)) => e = EINTR -> Fine evs
  | _ => True
  end.
Definition all_fine {A} (o : outcome (result A ioerr)) (evs : list event) : Prop :=
  match o with Done (Ok _) => Fine evs | _ => True end.

Section WriteFine.
Variable euid : Z.
Variable write : bytes -> io Z.
Hypothesis Hw : forall b, yields euid (write b) one_fine.

Lemma write_all_loop_fine fuel : forall b, yields euid (write_all_loop fuel write b) all_fine.
Proof.
  induction fuel as [|fuel IH]; intros [|x b]; cbn [write_all_loop];
    try (apply yields_ret'; constructor); try (apply yields_stop'; exact I).
  remember (x :: b) as buf. clear x b Heqbuf.
  eapply yields_seq; [apply Hw| | |].
  - intros r e1 H. destruct r as [n|er].
    + destruct (n =? 0) eqn:En.
      * apply yields_ret'. exact I.
      * apply Z.eqb_neq in En. destruct (zlen buf <? n); [apply yields_panic'; exact I|].
        eapply yields_weaken; [apply IH|].
        intros o e2 H2. destruct o as [[?|?]| |]; try exact I. apply Fine_app; [exact (H En)|exact H2].
    + destruct er as [e| | | | | |]; try (apply yields_ret'; exact I).
      destruct (e =? EINTR) eqn:Ee; [|apply yields_ret'; exact I]. apply Z.eqb_eq in Ee.
      eapply yields_weaken; [apply IH|].
      intros o e2 H2. destruct o as [[?|?]| |]; try exact I. apply Fine_app; [exact (H Ee)|exact H2].
  - intros; exact I.
  - intros; exact I.
Qed.

Lemma write_all_fine b : yields euid (write_all write b) all_fine.
Proof.
  unfold write_all. eapply yields_seq; [apply yields_turns_left| | |].
  - intros n e1 (m & _ & ->). apply write_all_loop_fine.
  - intros e1 (m & ? & _). discriminate.
  - intros e1 (m & ? & _). discriminate.
Qed.
End WriteFine.

Lemma ok_fine c ev : Is c AOk ev -> ~ Failed ev.
Proof. intros [_ H] F. unfold Failed in F. rewrite H in F. exact F. Qed.

Lemma socket_write_fine euid c b : yields euid (socket_write c b) one_fine.
Proof.
  unfold socket_write. eapply yields_seq; [apply ctrl_c_yields; apply write_spec| | |]; try (intros; exact I).
  intros r e1 H. apply yields_ret'. rewrite app_nil_r.
  inversion H; subst; clear H; cbn [flatten one_fine]; try (intros E; contradiction).
  destruct H3 as [[H3 _]|(x & a & k & H3 & -> & Hx)]; [discriminate|]. injection H3 as <-.
  assert (K : forall ev, ~ Failed ev -> Fine (g :: s :: [ev] ++ [s2])).
  { intros ev N. repeat constructor; try exact N; eapply ok_fine; eassumption. }
  destruct a; try contradiction.
  - subst r0. intros ->. apply K. unfold Failed. cbn. congruence.
  - destruct Hx as [Hr ->]. intros N. apply K. unfold Failed. cbn. lia.
Qed.

Lemma socket_write_all_fine euid c b : yields euid (socket_write_all c b) all_fine.
Proof. apply write_all_fine. intros b'. apply socket_write_fine. Qed.

Definition passed_fine (o : outcome Z) (evs : list event) : Prop :=
  match o with Done z => z = 1 -> Fine evs | _ => True end.

Lemma out_fine euid e c d :
  yields euid (catch_log (report SudoPair e (log_output (with_conn e c) d))) passed_fine.
Proof.
  eapply yields_weaken.
  - apply yields_catch_log. instantiate (1 := passed_fine).
    unfold report, log_output. cbn [with_conn sp_socket].
    eapply yields_seq with (Q := fun o es => match o with Done (Ok _) => Fine es | _ => True end).
    + eapply yields_seq; [apply socket_write_all_fine| | |]; try (intros; exact I).
      intros [[]|er] es H; apply yields_ret'; [rewrite app_nil_r; exact H|exact I].
    + intros [[]|er] es H.
      * apply yields_ret'. rewrite app_nil_r. intros _. exact H.
      * eapply yields_weaken; [apply report_err_yields|].
        intros o xs (r & _ & HR). destruct o as [z| |]; try exact I. intros E. destruct HR as [-> _]. discriminate E.
    + intros; exact I.
    + intros; exact I.
  - intros [z| |] es H; try exact I. destruct H as [H|[-> _]]; [exact H|discriminate].
Qed.

Lemma output_exactly pl a rq st c s d w z w' evs :
  PairedSession pl a rq st c -> OutputStream s -> rq_log rq s = true ->
  core_log SudoPair pl s d st w = (Done z, w') -> w_trace w' = w_trace w ++ evs ->
  (z = 1 <-> Forall (fun ev => ~ Failed ev) evs).
Proof.
  intros HP HS Hh H T. split.
  - intros E. apply paired_state in HP as (e & M & HE & ->).
    assert (HY : yields 0 (core_log SudoPair pl s d (ps e (Some (with_conn e c)))) passed_fine).
    { unfold core_log. cbn [ps st_env st_plugin]. rewrite (m_log _ _ M), Hh. cbn [negb andb pg_log SudoPair].
      destruct HS as [->|[->| ->]]; cbn [pair_log]; apply out_fine. }
    destruct (HY w _ w' H) as (evs' & R & Q). rewrite (Ran_given _ _ _ _ _ R T). exact (Q E).
  - intros F. destruct (paired_output _ _ _ _ _ _ _ _ _ _ _ HP HS Hh H T) as [_ [[E _]|(_ & _ & X)]]; [exact E|].
    apply Exists_exists in X as (ev & HI & X). rewrite Forall_forall in F. destruct (F ev HI X).
Qed.

Lemma winsize_exactly pl a rq st c l k w z w' evs :
  PairedSession pl a rq st c ->
  core_change_winsize SudoPair pl l k st w = (Done z, w') -> w_trace w' = w_trace w ++ evs ->
  (z = 1 <-> Forall (fun ev => ~ Failed ev) evs).
Proof.
  intros HP H T. split.
  - intros E. apply paired_state in HP as (e & M & HE & ->).
    destruct (out_fine 0 e c (winsize_seq l k) w _ w' H) as (evs' & R & Q). rewrite (Ran_given _ _ _ _ _ R T). exact (Q E).
  - intros F.
    destruct (paired_winsize _ _ _ _ _ l k (to_dec l) (to_dec k) _ _ _ _ HP (proj2 (Decimal_iff _ _) eq_refl) (proj2 (Decimal_iff _ _) eq_refl) H T)
      as [_ [[E _]|(_ & _ & X)]]; [exact E|].
    apply Exists_exists in X as (ev & HI & X). rewrite Forall_forall in F. destruct (F ev HI X).
Qed.
