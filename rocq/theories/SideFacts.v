(** Sessions side by side. *)
From Verif Require Import Base BaseLemmas Num Path Template Options World Sys Io Socket Env Core Pair
  Spec TraceSpec SessionSpec AdversarySpec TalkSpec CallbackSpec SideSpec PathProofs RequestProofs PairPure InputFacts RunProofs SocketProofs PairProofs
  OpenFacts AskFacts ArgFacts AdversaryFacts GuardFacts PeerFacts Structure CleanFacts.
Local Open Scope Z_scope.

(** ** Only opening touches the file system *)
Definition NoFile (c : call) : Prop := forall x, ~ ActsAs c x.

Create HintDb nf.
Ltac nf := repeat first
  [ assumption
  | solve [auto with nf nocore]
  | apply onl_bind; [|intros ?]
  | apply onl_catch
  | apply onl_unwind
  | apply onl_sys; intros ? []
  | apply write_conn_only; intros; intros ? []
  | apply read_conn_only; intros; intros ? []
  | apply flush_conn_only; intros; intros ? []
  | apply onl_same; reflexivity
  | match goal with |- onl _ (match ?x with _ => _ end) => destruct x end
  | match goal with |- onl _ (if ?x then _ else _) => destruct x end
  | match goal with |- onl _ (let '_ := ?x in _) => destruct x end
  | progress cbv zeta ].

Lemma nf_write_all write buf : (forall b, onl NoFile (write b)) -> onl NoFile (write_all write buf).
Proof.
  intros H. unfold write_all. apply onl_bind; [apply onl_same; reflexivity|]. intros n. revert buf.
  induction n as [|n IH]; intros buf; cbn [write_all_loop]; destruct buf; nf; auto.
Qed.
Lemma nf_pf_write pf b : onl NoFile (pf_write pf b).
Proof. unfold pf_write, sys_printf. nf. Qed.
Lemma nf_pf_write_all pf b : onl NoFile (pf_write_all pf b).
Proof. apply nf_write_all. intros. apply nf_pf_write. Qed.
#[local] Hint Resolve nf_pf_write_all : nf.
Lemma nf_write_line pf b : onl NoFile (write_line pf b).
Proof. unfold write_line. nf. Qed.
#[local] Hint Resolve nf_write_line : nf.
Lemma nf_source_loop n pf s : onl NoFile (source_loop n pf s).
Proof. induction n; cbn [source_loop]; nf. Qed.
#[local] Hint Resolve nf_source_loop : nf.
Lemma nf_write_error pf d s : onl NoFile (write_error pf d s).
Proof. unfold write_error. nf. Qed.
Lemma nf_write_pieces pf l : onl NoFile (write_pieces pf l).
Proof. induction l; cbn [write_pieces]; nf. Qed.
Lemma nf_socket_write_all c d : onl NoFile (socket_write_all c d).
Proof. apply nf_write_all. intros. nf. Qed.
#[local] Hint Resolve nf_write_error nf_write_pieces nf_socket_write_all : nf.
Lemma nf_log_output s d : onl NoFile (log_output s d).
Proof. unfold log_output. nf. Qed.
Lemma nf_close c : onl NoFile (socket_close c).
Proof. unfold socket_close. nf. Qed.
Lemma nf_drop c : onl NoFile (socket_drop c).
Proof. unfold socket_drop, sys_shutdown, sys_close. nf. Qed.
#[local] Hint Resolve nf_log_output nf_close nf_drop : nf.

Lemma later_callback pl cb st : (forall a, cb <> CbOpen a) -> onl NoFile (run_callback SudoPair pl cb st).
Proof.
  intros NO. destruct cb; cbn [run_callback]; [destruct (NO a eq_refl)|..].
  - unfold core_close. change (pg_close SudoPair) with (fun s (_ _ : Z) => pair_close s). unfold pair_close. nf.
  - unfold core_show_version, show_version, catch_open. nf.
  - unfold core_log, report, catch_log. change (pg_log SudoPair) with pair_log. unfold pair_log. nf.
  - unfold core_change_winsize, report, catch_log. change (pg_winsize SudoPair) with pair_winsize. unfold pair_winsize. nf.
Qed.

Lemma later_history pl h : Forall (fun cb => forall a', cb <> CbOpen a') h ->
  forall st, onl NoFile (run_history SudoPair pl h st).
Proof.
  induction 1 as [|cb h Hc Hh IH]; intros st; cbn [run_history]; [apply onl_same; reflexivity|].
  apply onl_bind; [apply later_callback; exact Hc|]. intros [z st1].
  apply onl_bind; [apply IH|]. intros [zs st2]. apply onl_same. reflexivity.
Qed.

(** ** The names another session uses *)
Lemma sock_beside rq rq2 : rq_socket_dir rq2 = rq_socket_dir rq ->
  rq_uid rq2 <> rq_uid rq \/ rq_pid rq2 <> rq_pid rq -> Beside (sock_comps rq) (sock_comps rq2).
Proof.
  intros ED N. unfold sock_comps. rewrite ED. unfold Beside.
  split; [intros E; destruct (app_cons_not_nil _ _ _ (eq_sym E))|].
  split; [intros E; destruct (app_cons_not_nil _ _ _ (eq_sym E))|].
  split. { unfold dir_path. rewrite !removelast_last. reflexivity. }
  intros E. apply app_inv_head in E. injection E as E. apply sock_name_inj in E. destruct E, N; contradiction.
Qed.

Lemma argument_side rq rq2 c x : Beside (sock_comps rq) (sock_comps rq2) -> Argument rq2 (sock_comps rq2) c -> ActsAs c x ->
  SideAct (Beside (sock_comps rq)) x.
Proof.
  intros HB HA HX. destruct c; cbn [ActsAs] in HX; try contradiction; cbn [Argument] in HA.
  - subst. exact HB.
  - destruct HX as (g & m & ->). subst. split; [exact HB|reflexivity].
  - destruct HA as [-> _]. subst. exact HB.
  - destruct HA as [-> _]. subst. exact HB.
Qed.

Lemma opening_trace pl a w o w' : core_open SudoPair pl a (pstate0 _) w = (o, w') -> exists evs, w_trace w' = w_trace w ++ evs.
Proof.
  intros H. destruct (whole_history pl [CbOpen a] (pstate0 _) w (match o with Done (z, st) => Done ([z], st) | Panicked => Panicked | Stopped => Stopped end) w') as (evs & T & _).
  - cbn [run_history run_callback]. unfold bind at 1. rewrite H. destruct o as [[z st]| |]; reflexivity.
  - exists evs. exact T.
Qed.

Lemma other_side rq x : OtherSession rq x -> SideAct (Beside (sock_comps rq)) x.
Proof.
  intros (pl & a & rq2 & h & w & o & w' & evs & ev & D & ED & N & Hh & HR & HT & Hin & HX).
  cbn [run_history] in HR. cbn [run_callback] in HR. unfold bind at 1 in HR.
  destruct (core_open SudoPair pl a (pstate0 _) w) as [oo w1] eqn:EO.
  assert (exists e1 e2, evs = e1 ++ e2 /\ w_trace w1 = w_trace w ++ e1 /\ Only NoFile e2) as (e1 & e2 & -> & T1 & O2).
  { destruct (opening_trace pl a w oo w1 EO) as [e1 T1]. exists e1.
    destruct oo as [[z st1]| |].
    - assert (G : onl NoFile (r <- run_history SudoPair pl h st1 ;; let '(zs, st2) := r in ret (z :: zs, st2))).
      { apply onl_bind; [apply later_history; exact Hh|]. intros [zs st2]. apply onl_same. reflexivity. }
      destruct (G _ _ _ HR) as (e2 & T2 & O2). exists e2. rewrite T2, T1, <- app_assoc in HT. apply app_inv_head in HT. auto.
    - injection HR as _ <-. exists []. rewrite app_nil_r. rewrite T1 in HT. apply app_inv_head in HT. repeat split; auto. constructor.
    - injection HR as _ <-. exists []. rewrite app_nil_r. rewrite T1 in HT. apply app_inv_head in HT. repeat split; auto. constructor. }
  apply in_app_or in Hin as [Hin|Hin].
  - pose proof (arguments pl a rq2 D w oo w1 e1 _ EO T1 (SocketPath_intro rq2)) as HA.
    unfold Only in HA. rewrite Forall_forall in HA. exact (argument_side rq rq2 _ x (sock_beside rq rq2 ED N) (HA _ Hin) HX).
  - unfold Only in O2. rewrite Forall_forall in O2. destruct (O2 _ Hin x HX).
Qed.

Lemma apart_guard rq T q k : SocketPath rq q -> Apart T q k -> SideGuard rq (Beside (sock_comps rq)) T k.
Proof.
  intros Hq (S & HG & HB). rewrite (SocketPath_unique rq q Hq) in *. exists S. split; [exact HG|]. split.
  - intros p Hp. split; [exact Hp|exact (proj1 (HB p Hp))].
  - intros p n Hp. exact (proj2 (HB p Hp) n).
Qed.

Section Claims.
Variables (pl : platform) (a : open_args) (rq : request) (w w' : world) (o : outcome (Z * pstate SudoPair)) (evs : list event).
Hypothesis D : Describes pl a rq.
Hypothesis HR : core_open SudoPair pl a (pstate0 _) w = (o, w').
Hypothesis HT : w_trace w' = w_trace w ++ evs.
Notation euid := (pl_euid pl).
Notation UserOut := (UserOutsider euid (rq_to_uid rq)).
Notation GroupOut := (GroupOutsider euid (rq_to_gid rq)).

Lemma among (T : cred -> Prop) : Everyone (fun c x => T c \/ OnlyConnects x \/ OtherSession rq x) w ->
  Everyone (fun c x => T c \/ OnlyConnects x \/ SideAct (Beside (sock_comps rq)) x) w.
Proof.
  apply Forall_impl. intros y. apply Forall_impl. intros ca [H|[H|H]]; [left; exact H|right; left; exact H|].
  right. right. apply other_side. exact H.
Qed.
Lemma among_never (T : cred -> Prop) : Everyone (fun c x => T c \/ OtherSession rq x) w ->
  Everyone (fun c x => T c \/ SideAct (Beside (sock_comps rq)) x) w.
Proof.
  apply Forall_impl. intros y. apply Forall_impl. intros ca [H|H]; [left; exact H|].
  right. apply other_side. exact H.
Qed.

Lemma socket_user_beside : rq_uid rq <> rq_to_uid rq -> rq_to_uid rq <> 4294967295 ->
  forall q, SocketPath rq q -> Apart UserOut q (w_k w) ->
  Everyone (fun c x => UserOut c \/ OnlyConnects x \/ OtherSession rq x) w ->
  forall e1 b e2, evs = e1 ++ b :: e2 -> Creates q b -> forall k, Afterwards (w_k w') b e2 k ->
  i_perm (k_inodes k (k_next (e_pre b))) = 0
  \/ (i_perm (k_inodes k (k_next (e_pre b))) = 128 /\ i_uid (k_inodes k (k_next (e_pre b))) = rq_to_uid rq).
Proof.
  intros HU HN q Hq HG HE e1 b e2 E HC.
  apply (user_inode_side pl a rq w w' o evs D HR HT _ HU HN (apart_guard rq _ q _ Hq HG) (among _ HE) e1 b e2 E).
  rewrite <- (SocketPath_unique rq q Hq). exact HC.
Qed.

Lemma socket_group_beside : rq_uid rq = rq_to_uid rq -> rq_to_gid rq <> 4294967295 ->
  forall q, SocketPath rq q -> Apart (Unprivileged euid) q (w_k w) ->
  Everyone (fun c x => Unprivileged euid c \/ OnlyConnects x \/ OtherSession rq x) w ->
  forall e1 b e2, evs = e1 ++ b :: e2 -> Creates q b -> forall k, Afterwards (w_k w') b e2 k ->
  i_perm (k_inodes k (k_next (e_pre b))) = 0
  \/ (i_perm (k_inodes k (k_next (e_pre b))) = 16 /\ i_gid (k_inodes k (k_next (e_pre b))) = rq_to_gid rq).
Proof.
  intros HU HN q Hq HG HE e1 b e2 E HC.
  apply (group_inode_side pl a rq w w' o evs D HR HT _ HU HN (apart_guard rq _ q _ Hq HG) (among _ HE) e1 b e2 E).
  rewrite <- (SocketPath_unique rq q Hq). exact HC.
Qed.

Lemma accepted_user_beside : rq_uid rq <> rq_to_uid rq -> rq_to_uid rq <> 4294967295 ->
  forall q, SocketPath rq q -> Apart UserOut q (w_k w) ->
  Everyone (fun c x => UserOut c \/ OnlyConnects x \/ OtherSession rq x) w ->
  forall n c peer acc, In acc evs -> Accepts n c peer acc -> cr_priv peer = true \/ cr_uid peer = rq_to_uid rq.
Proof.
  intros HU HN q Hq HG HE.
  exact (user_accepted_side pl a rq w w' o evs D HR HT _ HU HN (apart_guard rq _ q _ Hq HG) (among _ HE)).
Qed.

Lemma accepted_group_beside : rq_uid rq = rq_to_uid rq -> rq_to_gid rq <> 4294967295 ->
  forall q, SocketPath rq q -> Apart GroupOut q (w_k w) ->
  Everyone (fun c x => GroupOut c \/ OnlyConnects x \/ OtherSession rq x) w ->
  forall n c peer acc, In acc evs -> Accepts n c peer acc -> cr_priv peer = true \/ In (rq_to_gid rq) (cr_gids peer).
Proof.
  intros HU HN q Hq HG HE.
  exact (group_accepted_side pl a rq w w' o evs D HR HT _ HU HN (apart_guard rq _ q _ Hq HG) (among _ HE)).
Qed.

Lemma never_user_beside : rq_uid rq <> rq_to_uid rq -> rq_to_uid rq <> 4294967295 ->
  forall q, SocketPath rq q -> Apart UserOut q (w_k w) -> Everyone (fun c x => UserOut c \/ OtherSession rq x) w ->
  ~ Exempt rq -> rq_command rq <> [] -> forall st', o <> Done (1, st').
Proof.
  intros HU HN q Hq HG HE.
  exact (user_never_side pl a rq w w' o evs D HR HT _ HU HN (apart_guard rq _ q _ Hq HG) (among_never _ HE)).
Qed.

Lemma never_group_beside : rq_uid rq = rq_to_uid rq -> rq_to_gid rq <> 4294967295 ->
  forall q, SocketPath rq q -> Apart GroupOut q (w_k w) -> Everyone (fun c x => GroupOut c \/ OtherSession rq x) w ->
  ~ Exempt rq -> rq_command rq <> [] -> forall st', o <> Done (1, st').
Proof.
  intros HU HN q Hq HG HE.
  exact (group_never_side pl a rq w w' o evs D HR HT _ HU HN (apart_guard rq _ q _ Hq HG) (among_never _ HE)).
Qed.
End Claims.
