(** An induction principle over the code: a predicate on computations that is
    preserved by the ways of combining them and holds of every system call
    (connection reads, writes and flushes with their change of the SIGINT
    disposition) holds of every history of callbacks of the pairing plugin. The
    calls that take C strings need only be considered for arguments without NUL,
    printf only where sudo gave one. *)
From Verif Require Import Base BaseLemmas Path Options World Sys Io Socket Env Core Pair.
Local Open Scope Z_scope.

(** No NUL in a path. *)
Definition CleanPath (p : path) : Prop := forall s, In (Normal s) p -> has_nul s = false.

Lemma has_nul_not_in b : has_nul b = false <-> ~ In x00 b.
Proof.
  unfold has_nul. split; intros H.
  - intros Hin. assert (X : existsb (fun c => byte_eqb c x00) b = true); [|congruence].
    apply existsb_exists. exists x00. split; [exact Hin|reflexivity].
  - destruct (existsb _ b) eqn:E; [|reflexivity]. exfalso. apply H. apply existsb_exists in E as (x & Hin & Hx).
    apply byte_eqb_eq in Hx. subst. exact Hin.
Qed.

Lemma join_in sep x (l : list bytes) y : In x l -> In y x -> In y (join_with sep l).
Proof.
  induction l as [|a l IH]; intros Hx Hy; [destruct Hx|]. cbn. destruct l as [|b l].
  - destruct Hx as [->|[]]. exact Hy.
  - destruct Hx as [->|Hx]; apply in_app_iff; [left; exact Hy|right]. apply in_app_iff. right. apply IH; assumption.
Qed.

Lemma components_clean p : has_nul p = false -> CleanPath (components p).
Proof.
  rewrite has_nul_not_in. intros H s Hs. apply has_nul_not_in. intros Hz.
  assert (G : In (Normal s) (flat_map seg_comp (split_on slash p))).
  { unfold components in Hs. apply in_app_iff in Hs as [Hs|Hs]; [|exact Hs]. exfalso.
    destruct p as [|c p]; [destruct Hs|]. destruct (byte_eqb c slash).
    - destruct Hs as [Hs|[]]. discriminate.
    - destruct (split_on slash (c :: p)) as [|g r]; [destruct Hs|]. destruct (bytes_eqb g (B ".")); [|destruct Hs].
      destruct Hs as [Hs|[]]. discriminate. }
  apply in_flat_map in G as (g & Hg & Hs').
  assert (s = g). { unfold seg_comp in Hs'. repeat (match goal with H : context [if ?x then _ else _] |- _ => destruct x end); cbn in Hs'; intuition congruence. }
  subst g. apply H. rewrite <- (split_on_join slash p). eapply join_in; eassumption.
Qed.

Lemma parent_clean p q : path_parent p = Some q -> has_nul p = false -> CleanPath q.
Proof.
  intros H Hn s Hs. apply (components_clean p Hn). unfold path_parent in H. apply in_rev.
  destruct (rev (components p)) as [|c r]; [discriminate|]. destruct c; try discriminate; injection H as <-; right; apply in_rev; exact Hs.
Qed.

Section Structure.
Variable P : forall A, M A -> Prop.
Arguments P {A} _.
Hypothesis P_ret : forall A (x : A), P (ret x).
Hypothesis P_panic : forall A, P (@panic A).
Hypothesis P_stop : forall A, P (@stop A).
Hypothesis P_bind : forall A C (m : M A) (f : A -> M C), P m -> (forall x, P (f x)) -> P (bind m f).
Hypothesis P_catch : forall A (m : M A), P m -> P (catch m).
Hypothesis P_unwind : forall A (m : M A) c, P m -> P c -> P (unwind_with m c).
Hypothesis P_turns : P turns_left.
Variable euid : Z.
Hypothesis P_stat : forall p, CleanPath p -> P (sys_stat p).
Hypothesis P_unlink : forall p, CleanPath p -> P (sys_unlink p).
Hypothesis P_umask : forall m, P (sys_umask m).
Hypothesis P_socket : P sys_socket.
Hypothesis P_bind_call : forall p, CleanPath p -> P (sys_bind euid p).
Hypothesis P_listen : P sys_listen.
Hypothesis P_chown : forall p u g, CleanPath p -> P (sys_chown p u g).
Hypothesis P_chmod : forall p m, CleanPath p -> P (sys_chmod p m).
Hypothesis P_select : P sys_select.
Hypothesis P_accept : P sys_accept.
Hypothesis P_close_listener : P sys_close_listener.
Hypothesis P_write : forall c d, P (socket_write c d).
Hypothesis P_read : forall c, P (socket_read c).
Hypothesis P_flush : forall c, P (socket_flush c).
Hypothesis P_shutdown : forall c, P (sys_shutdown c).
Hypothesis P_close : forall c, P (sys_close c).
Hypothesis P_read_file : forall p, has_nul p = false -> P (sys_read_file p).
Hypothesis P_open_tty : forall p, has_nul p = false -> P (sys_open_tty p).
Hypothesis P_write_tty : forall d, P (sys_write_tty d).
Hypothesis P_close_tty : P sys_close_tty.
Variable PF : print_facility -> Prop.
Hypothesis P_printf : forall pf d, PF pf -> pf_present pf = true -> has_nul d = false -> P (sys_printf (pf_level pf) d).

Hint Resolve P_ret P_panic P_stop P_turns P_stat P_unlink P_umask P_socket P_bind_call P_listen P_chown P_chmod P_select
  P_accept P_close_listener P_write P_read P_flush P_shutdown P_close P_read_file P_open_tty P_write_tty P_close_tty P_printf components_clean parent_clean : st.

Ltac st := repeat first
  [ solve [eauto with st nocore]
  | apply P_bind; [|intros ?]
  | apply P_catch
  | apply P_unwind
  | match goal with |- P (match ?x with _ => _ end) => destruct x eqn:? end
  | match goal with |- P (if ?x then _ else _) => destruct x eqn:? end
  | match goal with |- P (let '_ := ?x in _) => destruct x end
  | progress cbv zeta ].

Lemma st_write_all write buf : (forall b, P (write b)) -> P (write_all write buf).
Proof.
  intros H. unfold write_all. apply P_bind; [auto with st|]. intros n. revert buf.
  induction n as [|n IH]; intros buf; cbn [write_all_loop]; destruct buf; st; auto.
Qed.
Hint Resolve st_write_all : st.
Lemma st_pf_write pf b : PF pf -> P (pf_write pf b).
Proof.
  intros H. unfold pf_write. destruct (pf_present pf) eqn:E1; [|apply P_ret]. cbn [negb].
  destruct (has_nul b) eqn:E2; [apply P_ret|]. apply P_printf; assumption.
Qed.
Hint Resolve st_pf_write : st.
Lemma st_pf_write_all pf b : PF pf -> P (pf_write_all pf b).
Proof. intros. unfold pf_write_all. st. Qed.
Hint Resolve st_pf_write_all : st.
Lemma st_write_line pf b : PF pf -> P (write_line pf b).
Proof. intros. unfold write_line. st. Qed.
Hint Resolve st_write_line : st.
Lemma st_source_loop n pf s : PF pf -> P (source_loop n pf s).
Proof. intros. induction n; cbn [source_loop]; st; auto. Qed.
Hint Resolve st_source_loop : st.
Lemma st_write_error pf d s : PF pf -> P (write_error pf d s).
Proof. intros. unfold write_error. st. Qed.
Hint Resolve st_write_error : st.
Lemma st_write_pieces pf l : PF pf -> P (write_pieces pf l).
Proof. intros. induction l; cbn [write_pieces]; st; auto. Qed.
Hint Resolve st_write_pieces : st.
Lemma st_tty_write_all b : P (tty_write_all b).
Proof. intros. unfold tty_write_all. st. Qed.
Hint Resolve st_tty_write_all : st.
Lemma st_tty_open b : P (tty_open b).
Proof. intros. unfold tty_open. st. Qed.
Hint Resolve st_tty_open : st.

Lemma st_enforce p : P (enforce_ownership euid p).
Proof. intros. unfold enforce_ownership, metadata. st. Qed.
Lemma st_metadata p : P (metadata p).
Proof. intros. unfold metadata. st. Qed.
Lemma st_remove_file p : P (remove_file p).
Proof. intros. unfold remove_file. st. Qed.
Hint Resolve st_enforce st_metadata st_remove_file : st.
Lemma st_unlink_socket p : P (unlink_socket p).
Proof. intros. unfold unlink_socket. st. Qed.
Hint Resolve st_unlink_socket : st.
Lemma st_listener_bind p : P (listener_bind euid p).
Proof. intros. unfold listener_bind. st. Qed.
Lemma st_accept_loop n : P (accept_loop n).
Proof. intros. induction n; cbn [accept_loop]; st; auto. Qed.
Hint Resolve st_listener_bind st_accept_loop : st.
Lemma st_serve_one fd p u g m : P (serve_one fd p u g m).
Proof. intros. unfold serve_one. st. Qed.
Hint Resolve st_serve_one : st.
Lemma st_socket_open p u g m : P (socket_open euid p u g m).
Proof. intros. unfold socket_open. st. Qed.
Hint Resolve st_socket_open : st.
Lemma st_socket_write_all c b : P (socket_write_all c b).
Proof. intros. unfold socket_write_all. st. Qed.
Hint Resolve st_socket_write_all : st.
Lemma st_socket_drop c : P (socket_drop c).
Proof. intros. unfold socket_drop, socket_close. st. Qed.
Hint Resolve st_socket_drop : st.

Variable pl : platform.
Hypothesis Hpl : pl_euid pl = euid.

Lemma st_load_template p d : P (load_template p d).
Proof. intros. unfold load_template. st. Qed.
Hint Resolve st_load_template : st.
Lemma st_local s sp : PF (en_stderr (sp_env s)) -> P (local_pair_prompt s sp).
Proof. intros. unfold local_pair_prompt. st. Qed.
Lemma st_connect s : P (remote_pair_connect pl s).
Proof. intros. unfold remote_pair_connect. rewrite Hpl. st. Qed.
Lemma st_prompt s sp : P (remote_pair_prompt s sp).
Proof. intros. unfold remote_pair_prompt. st. Qed.
Lemma st_drop s : P (pair_drop s).
Proof. intros. unfold pair_drop. st. Qed.
Hint Resolve st_local st_connect st_prompt st_drop : st.
Lemma st_pair_open e : PF (en_stderr e) -> P (pair_open pl e).
Proof. intros. unfold pair_open. st. Qed.
Lemma st_pair_close s : P (pair_close s).
Proof. intros. unfold pair_close, socket_close. st. Qed.
Lemma st_log_output s d : P (log_output s d).
Proof. intros. unfold log_output. st. Qed.
Hint Resolve st_pair_open st_pair_close st_log_output : st.
Lemma st_pair_log x s d : P (pair_log pl x s d).
Proof. intros. unfold pair_log. st. Qed.
Hint Resolve st_pair_log : st.

(** A state whose environment has suitable facilities, and openings that bring suitable ones. *)
Definition EnvOk (e : io_env) : Prop := PF (en_stdout e) /\ PF (en_stderr e).
Definition StateOk {Q} (st : pstate Q) : Prop := forall e, st_env st = Some e -> EnvOk e.
Definition CbOk (c : callback) : Prop := match c with
  | CbOpen a => PF (fst (pf_new (Some (B "sudo_pair")) (oa_printf a))) /\ PF (snd (pf_new (Some (B "sudo_pair")) (oa_printf a)))
  | _ => True end.

Lemma env_ok v a e : CbOk (CbOpen a) -> io_env_new pl (B "sudo_pair") v a = Some (Ok e) -> EnvOk e.
Proof.
  unfold io_env_new. cbn [pf_new CbOk fst snd]. intros [H1 H2]. destruct (version_check _); [|discriminate].
  destruct (settings_try_from _ _) as [[?|]|]; try discriminate.
  destruct (user_info_try_from _); [|discriminate]. intros E. injection E as <-. split; assumption.
Qed.

Lemma st_run_callback c st : StateOk st -> CbOk c -> P (run_callback SudoPair pl c st).
Proof.
  intros HS HC. destruct c; cbn [run_callback].
  - unfold core_open. cbn [pf_new]. change (pg_open SudoPair) with pair_open. change (pg_drop SudoPair) with pair_drop.
    change (pg_name SudoPair) with (B "sudo_pair").
    destruct (io_env_new pl _ _ _) as [[e|er]|] eqn:E; unfold catch_open.
    + pose proof (env_ok _ _ _ HC E) as HE. pose proof (proj2 HC) as HF. cbn [pf_new fst snd] in HF.
      assert (HE' : PF (en_stderr (match st_env st with Some old => old | None => e end))).
      { destruct (st_env st) as [old|] eqn:X; [exact (proj2 (HS _ X))|exact (proj2 HE)]. }
      st.
    + pose proof (proj2 HC) as HF. cbn [pf_new fst snd] in HF. st.
    + st.
  - unfold core_close. change (pg_close SudoPair) with (fun s (_ _ : Z) => pair_close s). st.
  - unfold core_show_version, show_version, catch_open. destruct (st_env st) as [e|] eqn:X.
    + pose proof (proj1 (HS _ X)). st.
    + st.
  - unfold core_log, report, catch_log. change (pg_log SudoPair) with pair_log. destruct (st_env st) as [e|] eqn:X.
    + pose proof (proj2 (HS _ X)). st.
    + st.
  - unfold core_change_winsize, report, catch_log. change (pg_winsize SudoPair) with pair_winsize. unfold pair_winsize.
    destruct (st_env st) as [e|] eqn:X.
    + pose proof (proj2 (HS _ X)). st.
    + st.
Qed.

Lemma state_kept c st w z st' w' : run_callback SudoPair pl c st w = (Done (z, st'), w') ->
  StateOk st -> CbOk c -> StateOk st'.
Proof.
  intros H HS HC. destruct c; cbn [run_callback] in H.
  - unfold core_open in H. cbn [pf_new] in H. change (pg_name SudoPair) with (B "sudo_pair") in H.
    destruct (io_env_new pl _ _ _) as [[e|er]|] eqn:E.
    + pose proof (env_ok _ _ _ HC E) as HE.
      assert (HE' : forall p, StateOk (@mkPstate SudoPair (Some (match st_env st with Some old => old | None => e end)) p)).
      { intros p x X. cbn in X. injection X as <-. destruct (st_env st) as [old|] eqn:Y; [exact (HS _ Y)|exact HE]. }
      destruct (path_eqb _ _); [injection H as _ <- _; apply HE'|].
      unfold bind at 1 in H. destruct (catch _ w) as [[r| |] w1]; [|discriminate..].
      destruct r as [[p|z']|]; [destruct (st_plugin st); [unfold bind at 1 in H; destruct (catch_open _ w1) as [[?| |] ?]; [|discriminate..]|]|..];
        injection H as _ <- _; apply HE'.
    + unfold bind at 1 in H. destruct (catch_open _ w) as [[?| |] ?]; [|discriminate..]. injection H as _ <- _. exact HS.
    + injection H as _ <- _. exact HS.
  - unfold core_close in H. assert (N : StateOk (@mkPstate SudoPair None None)) by (intros x X; discriminate).
    unfold bind at 1 in H. destruct (st_plugin st) as [p|].
    + unfold bind at 1 in H. destruct (catch _ w) as [[[?|]| |] ?]; try discriminate; injection H as _ <- _; [exact N|].
      intros x X. exact (HS x X).
    + injection H as _ <- _. exact N.
  - unfold bind at 1 in H. destruct (core_show_version _ _ _ _) as [[?| |] ?]; [|discriminate..]. injection H as _ <- _. exact HS.
  - unfold bind at 1 in H. destruct (core_log _ _ _ _ _ _) as [[?| |] ?]; [|discriminate..]. injection H as _ <- _. exact HS.
  - unfold bind at 1 in H. destruct (core_change_winsize _ _ _ _ _ _) as [[?| |] ?]; [|discriminate..]. injection H as _ <- _. exact HS.
Qed.

Lemma st_run_history h : (forall pf, PF pf) -> forall st, P (run_history SudoPair pl h st).
Proof.
  intros HA. induction h as [|c h IH]; intros s; cbn [run_history]; [apply P_ret|].
  apply P_bind; [apply st_run_callback; [intros e _; split; apply HA|destruct c; cbn; auto]|].
  intros [z s1]. apply P_bind; [apply IH|]. intros [zs s2]. apply P_ret.
Qed.
End Structure.
