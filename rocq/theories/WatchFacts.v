(** What callbacks other than open do, and how often the pair is read. *)
From Verif Require Import Base BaseLemmas Path Options World Sys Io Socket Env Core Pair Spec TraceSpec SessionSpec CallbackSpec
  RunProofs SocketProofs PairProofs OpenFacts Structure CleanFacts WatchSpec Frontend.
Local Open Scope Z_scope.

(** ** Callbacks other than open *)
Section Calls.
Variable st : pstate SudoPair.
Variable pl : platform.
Notation Q := (SessionCall st).

Create HintDb wo discriminated.
Ltac piece := repeat first
  [ solve [auto with wo nocore] | apply onl_bind; [|intros ?] | apply onl_catch | apply onl_unwind | apply onl_sys; cbn; eauto; fail | apply onl_same; reflexivity
  | match goal with |- onl _ (match ?x with _ => _ end) => destruct x eqn:? end ].

Lemma wa_only write buf : (forall b, onl Q (write b)) -> onl Q (write_all write buf).
Proof. intros H. apply (st_write_all (@onl Q)); by_structure; assumption. Qed.
Lemma pf_only pf b : onl Q (pf_write pf b).
Proof. unfold pf_write. piece. Qed.
Lemma pfa_only pf b : onl Q (pf_write_all pf b).
Proof. apply wa_only. apply pf_only. Qed.
#[local] Hint Resolve pfa_only : wo.
Lemma line_only pf b : onl Q (write_line pf b).
Proof. unfold write_line. piece. Qed.
#[local] Hint Resolve line_only : wo.
Lemma source_only n pf s : onl Q (source_loop n pf s).
Proof. induction n; cbn [source_loop]; piece; assumption. Qed.
#[local] Hint Resolve source_only : wo.
Lemma error_only pf d s : onl Q (write_error pf d s).
Proof. unfold write_error. piece. Qed.
Lemma pieces_only pf l : onl Q (write_pieces pf l).
Proof. induction l; cbn [write_pieces]; piece; assumption. Qed.

Variable p : sudo_pair.
Hypothesis Hp : st_plugin st = Some p.

Lemma output_only d : onl Q (log_output p d).
Proof.
  unfold log_output. destruct (sp_socket p) as [c|] eqn:E; [|piece].
  apply onl_bind; [|intros ?; piece]. apply wa_only. intros b. apply write_conn_only; cbn; eauto.
Qed.
Lemma log_only s d : onl Q (pair_log pl s p d).
Proof. unfold pair_log. destruct s; try apply output_only; piece. Qed.
Lemma close_only : onl Q (pair_close p).
Proof. unfold pair_close, socket_drop, socket_close. destruct (sp_socket p) as [c|] eqn:E; piece. Qed.
End Calls.

Lemma later_only pl cb st : NotOpen cb -> onl (SessionCall st) (run_callback SudoPair pl cb st).
Proof.
  intros H. destruct cb as [a|x y|v|s d|l c]; [discriminate|..]; cbn [run_callback]; (apply onl_bind; [|intros ?; apply onl_same; reflexivity]).
  - unfold core_close. destruct (st_plugin st) as [p|] eqn:E; [|apply onl_same; reflexivity].
    apply onl_bind; [apply onl_catch; exact (close_only st p E)|]. intros [?|]; apply onl_same; reflexivity.
  - unfold core_show_version, catch_open. apply onl_bind; [apply onl_catch|intros [?|]; apply onl_same; reflexivity].
    destruct (st_env st); [|apply onl_same; reflexivity]. apply onl_bind; [|intros ?; apply onl_same; reflexivity].
    unfold show_version. apply onl_bind; [apply pieces_only|intros ?; apply onl_same; reflexivity].
  - unfold core_log, catch_log. apply onl_bind; [apply onl_catch|intros [?|]; apply onl_same; reflexivity].
    destruct (st_env st); [|apply onl_same; reflexivity]. destruct (st_plugin st) as [p|] eqn:E; [|apply onl_same; reflexivity].
    destruct (_ && _); [apply onl_same; reflexivity|]. unfold report.
    apply onl_bind; [exact (log_only st pl p E s d)|]. intros [?|er]; [apply onl_same; reflexivity|].
    apply onl_bind; [apply error_only|intros ?; apply onl_same; reflexivity].
  - unfold core_change_winsize, catch_log. apply onl_bind; [apply onl_catch|intros [?|]; apply onl_same; reflexivity].
    destruct (st_env st); [|apply onl_same; reflexivity]. destruct (st_plugin st) as [p|] eqn:E; [|apply onl_same; reflexivity].
    unfold report. apply onl_bind; [exact (output_only st p E _)|]. intros [?|er]; [apply onl_same; reflexivity|].
    apply onl_bind; [apply error_only|intros ?; apply onl_same; reflexivity].
Qed.

Lemma later_plugin pl cb st w z st' w' : NotOpen cb -> run_callback SudoPair pl cb st w = (Done (z, st'), w') ->
  st_plugin st' = st_plugin st \/ st_plugin st' = None.
Proof.
  intros H E. destruct cb as [a|x y|v|s d|l c]; [discriminate|..]; cbn [run_callback] in E; unfold bind at 1 in E.
  - unfold core_close in E. destruct (st_plugin st) as [p|].
    + unfold bind at 1 in E. destruct (catch _ w) as [[[?|]| |] ?]; try discriminate; injection E as _ <- _; right; reflexivity.
    + injection E as _ <- _. left. reflexivity.
  - destruct (core_show_version _ _ _ _) as [[?| |] ?]; [|discriminate..]. injection E as _ <- _. auto.
  - destruct (core_log _ _ _ _ _ _) as [[?| |] ?]; [|discriminate..]. injection E as _ <- _. auto.
  - destruct (core_change_winsize _ _ _ _ _ _) as [[?| |] ?]; [|discriminate..]. injection E as _ <- _. auto.
Qed.

Lemma SessionCall_less st st' c : st_plugin st' = st_plugin st \/ st_plugin st' = None -> SessionCall st' c -> SessionCall st c.
Proof.
  intros H. destruct c; cbn; try tauto; intros (p & H1 & H2);
    (exists p; split; [|exact H2]; destruct H as [<-|H]; [exact H1|congruence]).
Qed.

Lemma later_calls pl h : Forall NotOpen h -> forall st w o w' evs, run_history SudoPair pl h st w = (o, w') ->
  w_trace w' = w_trace w ++ evs -> Only (SessionCall st) evs.
Proof.
  intros F. assert (G : forall st, onl (SessionCall st) (run_history SudoPair pl h st)).
  { induction F as [|cb h Hc F IH]; intros st; cbn [run_history]; [apply onl_same; reflexivity|].
    intros w o w' E. unfold bind at 1 in E. destruct (run_callback SudoPair pl cb st w) as [o1 w1] eqn:E1.
    destruct (later_only pl cb st Hc w o1 w1 E1) as (e1 & T1 & O1).
    destruct o1 as [[z st1]| |]; [|injection E as _ <-; eauto..].
    pose proof (later_plugin _ _ _ _ _ _ _ Hc E1) as HS.
    assert (G2 : onl (SessionCall st) (r' <- run_history SudoPair pl h st1 ;; let '(zs, st2) := r' in ret (z :: zs, st2))).
    { apply onl_bind; [|intros [? ?]; apply onl_same; reflexivity]. intros w2 o2 w2' E2.
      destruct (IH st1 w2 o2 w2' E2) as (e2 & T2 & O2). exists e2. split; [exact T2|].
      revert O2. apply Only_weaken. intros c. apply SessionCall_less. exact HS. }
    destruct (G2 _ _ _ E) as (e2 & T2 & O2). exists (e1 ++ e2). rewrite T2, T1, app_assoc. split; [reflexivity|].
    apply Only_app. auto. }
  intros st w o w' evs E T. destruct (G st w o w' E) as (e & T' & O). rewrite T' in T. apply app_inv_head in T. subst. exact O.
Qed.

(** ** Counting the reads *)
Definition rd (n : nat) {A} (m : M A) : Prop := forall w o w', m w = (o, w') ->
  exists evs, w_trace w' = w_trace w ++ evs /\ (List.length (reads evs) <= n)%nat.

Definition NotRead (c : call) : Prop := match c with CRead _ => False | _ => True end.

Lemma NotRead_reads evs : Only NotRead evs -> reads evs = [].
Proof.
  induction 1 as [|ev evs H _ IH]; [reflexivity|]. cbn. unfold is_read at 1. destruct (e_call ev); try contradiction; exact IH.
Qed.
Lemma rd_none {A} (m : M A) n : onl NotRead m -> rd n m.
Proof.
  intros H w o w' E. destruct (H _ _ _ E) as (evs & T & O). exists evs. split; [exact T|]. rewrite (NotRead_reads _ O). cbn. apply Nat.le_0_l.
Qed.
Lemma rd_bind {A C} n1 n2 (m : M A) (f : A -> M C) : rd n1 m -> (forall x, rd n2 (f x)) -> rd (n1 + n2) (bind m f).
Proof.
  intros Hm Hf w o w' E. unfold bind in E. destruct (m w) as [om w1] eqn:Em. destruct (Hm _ _ _ Em) as (e1 & T1 & L1).
  destruct om as [x| |]; [|injection E as _ <-; exists e1; split; [exact T1|lia]..].
  destruct (Hf x _ _ _ E) as (e2 & T2 & L2). exists (e1 ++ e2). rewrite T2, T1, app_assoc. split; [reflexivity|].
  unfold reads in *. rewrite filter_app, app_length. lia.
Qed.
Lemma rd_catch {A} n (m : M A) : rd n m -> rd n (catch m).
Proof.
  intros Hm w o w' E. unfold catch in E. destruct (m w) as [om w1] eqn:Em. destruct (Hm _ _ _ Em) as (e1 & T1 & L1).
  destruct om; injection E as _ <-; eauto.
Qed.
Lemma rd_unwind {A} n (m : M A) c : rd n m -> onl NotRead c -> rd n (unwind_with m c).
Proof.
  intros Hm Hc w o w' E. unfold unwind_with in E. destruct (m w) as [om w1] eqn:Em. destruct (Hm _ _ _ Em) as (e1 & T1 & L1).
  destruct om as [x| |]; try (injection E as _ <-; eauto; fail).
  destruct (c w1) as [oc w2] eqn:Ec. destruct (Hc _ _ _ Ec) as (e2 & T2 & O2).
  assert (X : w_trace w2 = w_trace w ++ e1 ++ e2) by (rewrite T2, T1, app_assoc; reflexivity).
  assert (Y : (List.length (reads (e1 ++ e2)) <= n)%nat).
  { pose proof (NotRead_reads _ O2) as R. unfold reads in *. rewrite filter_app, app_length, R. cbn. lia. }
  destruct oc; injection E as _ <-; eauto.
Qed.

Ltac unread := by_structure; intros; apply onl_sys; exact I.

Lemma nr_load p d : onl NotRead (load_template p d).
Proof. apply (st_load_template (@onl NotRead)); unread. Qed.
Lemma nr_local s sp : onl NotRead (local_pair_prompt s sp).
Proof. apply (st_local (@onl NotRead)) with (PF := fun _ => True); unread. Qed.
Lemma nr_connect pl s : onl NotRead (remote_pair_connect pl s).
Proof. apply (st_connect (@onl NotRead)) with (euid := pl_euid pl); unread. Qed.
Lemma nr_write c b : onl NotRead (socket_write_all c b).
Proof. apply (st_socket_write_all (@onl NotRead)); unread. Qed.
Lemma nr_drop s : onl NotRead (pair_drop s).
Proof. apply (st_drop (@onl NotRead)); unread. Qed.
Lemma nr_error pf d s : onl NotRead (write_error pf d s).
Proof. apply (st_write_error (@onl NotRead)) with (PF := fun _ => True); try exact I; unread. Qed.
Lemma nr_flush c : onl NotRead (socket_flush c).
Proof. apply flush_conn_only; cbn; auto. Qed.
Lemma nr_same {A} (m : M A) : (forall w, w_trace (snd (m w)) = w_trace w) -> onl NotRead m.
Proof. apply onl_same. Qed.

Lemma rd_read c : rd 1 (socket_read c).
Proof.
  assert (Hs : rd 1 (sys_read c)).
  { intros w o w' E. unfold sys_read, sys in E. destruct (w_script w) as [|[acts a] s]; [injection E as _ <-; exists []; rewrite app_nil_r; split; [reflexivity|cbn; lia]|].
    destruct (match a with AData d => _ | _ => _ end) as [[x k]|]; injection E as _ <-.
    - eexists. split; [reflexivity|]. cbn. lia.
    - exists []. rewrite app_nil_r. split; [reflexivity|cbn; lia]. }
  unfold socket_read, ctrl_c_aborts_syscalls.
  assert (G : forall sa, onl NotRead (sys_sigset sa)) by (intros; apply onl_sys; exact I).
  change 1%nat with (1 + 0)%nat. apply rd_bind; [|intros ?; apply rd_none, nr_same; reflexivity].
  change 1%nat with (0 + 1)%nat. apply rd_bind; [apply rd_none, onl_sys; exact I|]. intros [old|?]; [|apply rd_none, nr_same; reflexivity].
  change 1%nat with (0 + 1)%nat. apply rd_bind; [apply rd_none, G|]. intros [?|?]; [|apply rd_none, nr_same; reflexivity].
  change 1%nat with (1 + 0)%nat. apply rd_bind; [exact Hs|]. intros x. apply rd_none. apply onl_bind; [apply G|]. intros [?|?]; apply nr_same; reflexivity.
Qed.

Lemma rd_prompt s sp : rd 1 (remote_pair_prompt s sp).
Proof.
  unfold remote_pair_prompt. change 1%nat with (0 + 1)%nat. apply rd_bind; [apply rd_none, nr_load|]. intros t.
  destruct (sp_socket s) as [c|]; [|apply rd_none, nr_same; reflexivity].
  change 1%nat with (0 + 1)%nat. apply rd_bind; [apply rd_none, nr_write|]. intros [?|?]; [|apply rd_none, nr_same; reflexivity].
  change 1%nat with (0 + 1)%nat. apply rd_bind; [apply rd_none, nr_flush|]. intros [?|?]; [|apply rd_none, nr_same; reflexivity].
  change 1%nat with (1 + 0)%nat. apply rd_bind; [apply rd_read|]. intros [got|?]; [|apply rd_none, nr_same; reflexivity].
  apply rd_none. cbv zeta. apply onl_bind; [apply nr_write|]. intros _. apply onl_bind; [apply nr_write|]. intros _.
  destruct (_ || _); apply nr_same; reflexivity.
Qed.

Lemma rd_pair_open pl e : rd 1 (pair_open pl e).
Proof.
  unfold pair_open. destruct (is_exempt _ pl) as [[|]|]; try (apply rd_none, nr_same; reflexivity).
  destruct (is_sudoing_to_user_and_group _); [apply rd_none, nr_same; reflexivity|]. cbv zeta.
  change 1%nat with (0 + 1)%nat. apply rd_bind; [apply rd_none, nr_local|]. intros _.
  change 1%nat with (0 + 1)%nat. apply rd_bind; [apply rd_none, nr_connect|]. intros [p|?]; [|apply rd_none, nr_same; reflexivity].
  change 1%nat with (1 + 0)%nat. apply rd_bind; [apply rd_unwind; [apply rd_prompt|apply nr_drop]|].
  intros [?|?]; apply rd_none; [apply nr_same; reflexivity|]. apply onl_bind; [apply nr_drop|intros _; apply nr_same; reflexivity].
Qed.

Lemma rd_open pl a st : rd 1 (core_open SudoPair pl a st).
Proof.
  unfold core_open. cbn [pf_new]. change (pg_open SudoPair) with pair_open. change (pg_drop SudoPair) with pair_drop.
  destruct (io_env_new pl _ _ _) as [[e|er]|]; unfold catch_open.
  - destruct (path_eqb _ _); [apply rd_none, nr_same; reflexivity|].
    change 1%nat with (1 + 0)%nat. apply rd_bind.
    + apply rd_catch. change 1%nat with (1 + 0)%nat. apply rd_bind; [apply rd_pair_open|]. intros [?|?]; apply rd_none; [apply nr_same; reflexivity|].
      apply onl_bind; [apply nr_error|intros ?; apply nr_same; reflexivity].
    + intros [[p|?]|]; apply rd_none; try (apply nr_same; reflexivity). destruct (st_plugin st); [|apply nr_same; reflexivity].
      apply onl_bind; [|intros ?; apply nr_same; reflexivity]. apply onl_bind; [|intros [?|]; apply nr_same; reflexivity].
      apply onl_catch. apply onl_bind; [apply nr_drop|intros ?; apply nr_same; reflexivity].
  - apply rd_none. apply onl_bind; [|intros ?; apply nr_same; reflexivity]. apply onl_bind; [|intros [?|]; apply nr_same; reflexivity].
    apply onl_catch. apply onl_bind; [apply nr_error|intros ?; apply nr_same; reflexivity].
  - apply rd_none, nr_same. reflexivity.
Qed.

Lemma later_unread pl cb st : NotOpen cb -> onl NotRead (run_callback SudoPair pl cb st).
Proof.
  intros H w o w' E. destruct (later_only pl cb st H w o w' E) as (evs & T & O). exists evs. split; [exact T|].
  revert O. apply Only_weaken. intros [] X; exact I || exact X.
Qed.

Lemma history_reads pl h st w o w' evs : run_history SudoPair pl h st w = (o, w') -> w_trace w' = w_trace w ++ evs ->
  (List.length (reads evs) <= List.length (opens h))%nat.
Proof.
  assert (G : forall st, rd (List.length (opens h)) (run_history SudoPair pl h st)).
  { induction h as [|cb h IH]; intros s; cbn [run_history]; [apply rd_none, nr_same; reflexivity|].
    assert (R : forall z, rd (List.length (opens h)) (let '(y, s1) := z in r' <- run_history SudoPair pl h s1 ;; let '(zs, s2) := r' in ret (y :: zs, s2))).
    { intros [z s1]. rewrite <- (Nat.add_0_r (List.length (opens h))). apply rd_bind; [apply IH|]. intros [zs s2]. apply rd_none, nr_same. reflexivity. }
    destruct (IsOpen cb) eqn:E.
    - replace (List.length (opens (cb :: h))) with (1 + List.length (opens h))%nat by (unfold opens; cbn [filter]; rewrite E; reflexivity).
      apply rd_bind; [|exact R]. destruct cb; try discriminate. apply rd_open.
    - replace (List.length (opens (cb :: h))) with (0 + List.length (opens h))%nat by (unfold opens; cbn [filter]; rewrite E; reflexivity).
      apply rd_bind; [|exact R]. apply rd_none, later_unread. exact E. }
  intros E T. destruct (G st w o w' E) as (e & T' & L). rewrite T' in T. apply app_inv_head in T. subst. exact L.
Qed.

(** ** The same for a front end *)

Lemma asked_callback pl ev f : asked (exported SudoPair pl) ev = Some f ->
  exists cb, NotOpen cb /\ forall st w, run_callback SudoPair pl cb st w = (z <- f st ;; ret (z, st)) w.
Proof.
  destruct ev as [s d|l c|n]; cbn; intros H; [|injection H as <-; exists (CbWinsize l c); split; reflexivity|discriminate].
  destruct s; injection H as <-; eexists (CbLog _ d); split; reflexivity.
Qed.

Lemma step_only pl ev f : onl (SessionCall (f_state f)) (front_step (exported SudoPair pl) ev f).
Proof.
  unfold front_step. destruct (negb (f_live f)); [apply onl_same; reflexivity|].
  destruct (asked (exported SudoPair pl) ev) as [ask|] eqn:E; [|apply onl_same; reflexivity].
  destruct (in_dec _ _ _); [apply onl_same; reflexivity|]. apply onl_bind; [|intros z; destruct (z =? 1); [|destruct (z =? -1)]; apply onl_same; reflexivity].
  destruct (asked_callback _ _ _ E) as (cb & Hc & He). intros w o w' X.
  destruct (later_only pl cb (f_state f) Hc w (match o with Done z => Done (z, f_state f) | Panicked => Panicked | Stopped => Stopped end) w') as (evs & T & O).
  { rewrite He. unfold bind. rewrite X. destruct o; reflexivity. }
  eauto.
Qed.

Lemma pass_state {P} ev (f : front P) : f_state (pass ev f) = f_state f.
Proof. destruct ev; reflexivity. Qed.

Lemma step_state {P} (T : io_table P) ev f w f' w' : front_step T ev f w = (Done f', w') -> f_state f' = f_state f.
Proof.
  unfold front_step. destruct (negb (f_live f)); [intros H; injection H as <- _; reflexivity|].
  destruct (asked T ev) as [ask|]; [|intros H; injection H as <- _; apply pass_state].
  destruct (in_dec _ _ _); [intros H; injection H as <- _; apply pass_state|].
  unfold bind. destruct (ask _ _) as [[z| |] w1]; [|discriminate..].
  destruct (z =? 1); [|destruct (z =? -1)]; intros H; injection H as <- _; try rewrite pass_state; reflexivity.
Qed.

Lemma steps_state {P} (T : io_table P) h : forall f w f' w', front_steps T h f w = (Done f', w') -> f_state f' = f_state f.
Proof.
  induction h as [|ev h IH]; intros f w f' w' H; cbn [front_steps] in H; [injection H as <- _; reflexivity|].
  unfold bind in H. destruct (front_step T ev f w) as [[f1| |] w1] eqn:E; [|discriminate..].
  rewrite (IH _ _ _ _ H). exact (step_state _ _ _ _ _ _ E).
Qed.

Lemma steps_only pl h : forall f, onl (SessionCall (f_state f)) (front_steps (exported SudoPair pl) h f).
Proof.
  induction h as [|ev h IH]; intros f; cbn [front_steps]; [apply onl_same; reflexivity|].
  intros w o w' E. unfold bind at 1 in E. destruct (front_step (exported SudoPair pl) ev f w) as [o1 w1] eqn:E1.
  destruct (step_only pl ev f _ _ _ E1) as (e1 & T1 & O1). destruct o1 as [f1| |]; [|injection E as _ <-; eauto..].
  destruct (IH f1 _ _ _ E) as (e2 & T2 & O2). rewrite (step_state _ _ _ _ _ _ E1) in O2.
  exists (e1 ++ e2). rewrite T2, T1, app_assoc. split; [reflexivity|]. apply Only_app. auto.
Qed.

Lemma empty_steps {P} h : forall (f : front P) w, exists f', front_steps (empty_table P) h f w = (Done f', w).
Proof.
  induction h as [|ev h IH]; intros f w; cbn [front_steps]; [eexists; reflexivity|].
  unfold bind. unfold front_step. destruct (negb (f_live f)); [apply IH|].
  replace (asked (empty_table P) ev) with (@None (pstate P -> M Z)) by (destruct ev as [[]| |]; reflexivity). apply IH.
Qed.

Lemma front_calls pl a h w f w' evs :
  front_run (exported SudoPair pl) a h w = (Done (Some f), w') -> w_trace w' = w_trace w ++ evs ->
  exists z w1 asking after, core_open SudoPair pl a (pstate0 _) w = (Done (z, f_state f), w1)
    /\ w_trace w1 = w_trace w ++ asking /\ evs = asking ++ after
    /\ (List.length (reads asking) <= 1)%nat /\ Only (SessionCall (f_state f)) after.
Proof.
  intros H T. unfold front_run in H. cbn [exported t_open] in H. unfold bind at 1 in H.
  destruct (core_open SudoPair pl a (pstate0 SudoPair) w) as [[[z st]| |] w1] eqn:E; [|discriminate..].
  destruct (rd_open _ _ _ _ _ _ E) as (asking & T1 & L).
  assert (G : exists after, w_trace w' = w_trace w1 ++ after /\ f_state f = st /\ Only (SessionCall (f_state f)) after).
  { destruct (z =? 1); [|destruct (z =? 0); [|discriminate]]; unfold bind in H.
    - destruct (front_steps (exported SudoPair pl) h (mkFront st [] [] true) w1) as [[f1| |] w2] eqn:E2; [|discriminate..].
      injection H as <- <-. destruct (steps_only pl h _ _ _ _ E2) as (e2 & T2 & O2). exists e2. split; [exact T2|].
      rewrite (steps_state _ _ _ _ _ _ E2). split; [reflexivity|exact O2].
    - destruct (empty_steps h (mkFront st [] [] true) w1) as (f1 & E2). rewrite E2 in H. injection H as <- <-.
      exists []. rewrite app_nil_r. split; [reflexivity|]. split; [exact (steps_state _ _ _ _ _ _ E2)|constructor]. }
  destruct G as (after & T2 & <- & O). exists z, w1, asking, after. split; [reflexivity|]. split; [exact T1|].
  split; [|split; assumption]. rewrite T2, T1, <- app_assoc in T. apply app_inv_head in T. symmetry. exact T.
Qed.
