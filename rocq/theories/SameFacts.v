(** The request determines the session. *)
From Verif Require Import Base BaseLemmas Num Path Version Template Options World Sys Io Socket Env Core Pair
  Spec SameSpec NumProofs OptionProofs RequestProofs PairPure HistoryFacts.
Local Open Scope Z_scope.

(** *** Related computations: the same calls, related results *)
Definition Sim {A C} (R : A -> C -> Prop) (m : M A) (n : M C) : Prop := forall w,
  match m w, n w with
  | (Done x, w1), (Done y, w2) => R x y /\ w1 = w2
  | (Panicked, w1), (Panicked, w2) => w1 = w2
  | (Stopped, w1), (Stopped, w2) => w1 = w2
  | _, _ => False
  end.

Lemma Sim_refl {A} (R : A -> A -> Prop) (m : M A) : (forall x, R x x) -> Sim R m m.
Proof. intros H w. destruct (m w) as [[x| |] w1]; auto. Qed.
Lemma Sim_eq {A} (m : M A) : Sim eq m m.
Proof. apply Sim_refl. reflexivity. Qed.
Lemma Sim_ret {A C} (R : A -> C -> Prop) x y : R x y -> Sim R (ret x) (ret y).
Proof. intros H w. cbn. auto. Qed.
Lemma Sim_panic {A C} (R : A -> C -> Prop) : Sim R panic panic.
Proof. intros w. reflexivity. Qed.
Lemma Sim_bind {A C A' C'} (R : A -> C -> Prop) (S : A' -> C' -> Prop) m n f g :
  Sim R m n -> (forall x y, R x y -> Sim S (f x) (g y)) -> Sim S (bind m f) (bind n g).
Proof.
  intros H K w. specialize (H w). unfold bind. destruct (m w) as [[x| |] w1], (n w) as [[y| |] w2]; try contradiction; auto.
  destruct H as [H ->]. exact (K x y H w2).
Qed.
Lemma Sim_seq {A A' C'} (S : A' -> C' -> Prop) (m : M A) f g :
  (forall x, Sim S (f x) (g x)) -> Sim S (bind m f) (bind m g).
Proof. intros H. eapply Sim_bind; [apply Sim_eq|]. intros x y ->. apply H. Qed.
Definition OptRel {A C} (R : A -> C -> Prop) (x : option A) (y : option C) : Prop :=
  match x, y with Some x, Some y => R x y | None, None => True | _, _ => False end.
Lemma Sim_catch {A C} (R : A -> C -> Prop) m n : Sim R m n -> Sim (OptRel R) (catch m) (catch n).
Proof.
  intros H w. specialize (H w). unfold catch. destruct (m w) as [[x| |] w1], (n w) as [[y| |] w2]; try contradiction; auto.
  split; [exact I|exact H].
Qed.
Lemma Sim_unwind {A C} (R : A -> C -> Prop) m n c d : Sim R m n -> Sim eq c d -> Sim R (unwind_with m c) (unwind_with n d).
Proof.
  intros H K w. specialize (H w). unfold unwind_with. destruct (m w) as [[x| |] w1], (n w) as [[y| |] w2]; try contradiction; auto.
  subst w2. specialize (K w1). destruct (c w1) as [[[]| |] w3], (d w1) as [[[]| |] w4]; try contradiction; auto.
  destruct K as [_ ->]. reflexivity.
Qed.
Lemma Sim_weaken {A C} (R S : A -> C -> Prop) m n : (forall x y, R x y -> S x y) -> Sim R m n -> Sim S m n.
Proof.
  intros K H w. specialize (H w). destruct (m w) as [[x| |] w1], (n w) as [[y| |] w2]; try contradiction; auto.
  destruct H as [H ->]. auto.
Qed.

(** *** Environments of the same request *)
Record SameEnv (e f : io_env) : Prop := {
  se_request : exists rq l, Matches e rq /\ Matches f (with_log rq l) /\ forall s, s <> Ttyin -> l s = rq_log rq s;
  se_out : en_stdout e = en_stdout f;
  se_err : en_stderr e = en_stderr f
}.

Record SamePair (s t : sudo_pair) : Prop := {
  sm_env : SameEnv (sp_env s) (sp_env t);
  sm_options : sp_options s = sp_options t;
  sm_socket : sp_socket s = sp_socket t
}.

Definition SameState (s t : pstate SudoPair) : Prop :=
  OptRel SameEnv (st_env s) (st_env t) /\ OptRel SamePair (st_plugin s) (st_plugin t).

Section Fields.
Variables (s t : sudo_pair).
Hypothesis H : SamePair s t.

Lemma same_exempt pl : is_exempt s pl = is_exempt t pl.
Proof.
  destruct H as [[(rq & l & M & N & HL) _ _] HO _].
  pose proof (m_log _ _ M Ttyout) as L1. pose proof (m_log _ _ M Stdout) as L2. pose proof (m_log _ _ M Stderr) as L3.
  pose proof (m_log _ _ N Ttyout) as L4. pose proof (m_log _ _ N Stdout) as L5. pose proof (m_log _ _ N Stderr) as L6.
  cbn [hint rq_log with_log] in L1, L2, L3, L4, L5, L6. rewrite HL in L4, L5, L6 by discriminate.
  unfold is_exempt, is_sudoing_from_root, is_sudoing_to_themselves, is_sudoing_to_user, is_sudoing_to_group, runas_gids,
    is_sudoing_approval_command, is_exempted_from_logging, is_sudoing_from_exempted_gid, is_sudoing_to_enforced_gid, runas_gids.
  rewrite HO, L1, L2, L3, L4, L5, L6, (m_uid _ _ M), (m_uid _ _ N), (m_euid _ _ M), (m_euid _ _ N), (m_gid _ _ M), (m_gid _ _ N),
    (m_to_uid _ _ M), (m_to_uid _ _ N), (m_to_gid _ _ M), (m_to_gid _ _ N), (m_to_groups _ _ M), (m_to_groups _ _ N),
    (m_preserve_groups _ _ M), (m_preserve_groups _ _ N), (m_groups _ _ M), (m_groups _ _ N), (m_command _ _ M), (m_command _ _ N).
  reflexivity.
Qed.

Lemma same_both : is_sudoing_to_user_and_group s = is_sudoing_to_user_and_group t.
Proof.
  destruct H as [[(rq & l & M & N & HL) _ _] HO _].
  unfold is_sudoing_to_user_and_group, is_sudoing_to_user, is_sudoing_to_explicit_group.
  rewrite (m_uid _ _ M), (m_uid _ _ N), (m_to_uid _ _ M), (m_to_uid _ _ N), (m_f_group _ _ M), (m_f_group _ _ N). reflexivity.
Qed.

Lemma same_mode : socket_mode s = socket_mode t.
Proof.
  destruct H as [[(rq & l & M & N & HL) _ _] HO _]. unfold socket_mode, is_sudoing_to_user, is_sudoing_to_explicit_group.
  rewrite (m_uid _ _ M), (m_uid _ _ N), (m_to_uid _ _ M), (m_to_uid _ _ N), (m_f_group _ _ M), (m_f_group _ _ N). reflexivity.
Qed.

Lemma same_path : socket_path s = socket_path t.
Proof.
  destruct H as [[(rq & l & M & N & HL) _ _] HO _]. unfold socket_path.
  rewrite HO, (m_uid _ _ M), (m_uid _ _ N), (m_pid _ _ M), (m_pid _ _ N). reflexivity.
Qed.

Lemma same_owner : socket_uid s = socket_uid t /\ socket_gid s = socket_gid t.
Proof.
  destruct H as [[(rq & l & M & N & HL) _ _] HO _]. unfold socket_uid, socket_gid, is_sudoing_to_user, is_sudoing_to_explicit_group.
  rewrite (m_uid _ _ M), (m_uid _ _ N), (m_to_uid _ _ M), (m_to_uid _ _ N), (m_f_group _ _ M), (m_f_group _ _ N),
    (m_to_gid _ _ M), (m_to_gid _ _ N). auto.
Qed.

Lemma same_invocation : invocation (sp_env s) = invocation (sp_env t).
Proof.
  destruct H as [[(rq & l & M & N & HL) _ _] HO _]. unfold invocation, flags.
  rewrite (m_progname _ _ M), (m_progname _ _ N), (m_args _ _ M), (m_args _ _ N),
    (m_sudoedit _ _ M), (m_sudoedit _ _ N), (m_f_user _ _ M), (m_f_user _ _ N), (m_f_group _ _ M), (m_f_group _ _ N),
    (m_f_prompt _ _ M), (m_f_prompt _ _ N), (m_f_login _ _ M), (m_f_login _ _ N), (m_f_shell _ _ M), (m_f_shell _ _ N),
    (m_f_set_home _ _ M), (m_f_set_home _ _ N), (m_f_preserve_env _ _ M), (m_f_preserve_env _ _ N),
    (m_f_preserve_groups _ _ M), (m_f_preserve_groups _ _ N), (m_f_reset _ _ M), (m_f_reset _ _ N),
    (m_f_noninteractive _ _ M), (m_f_noninteractive _ _ N), (m_f_class _ _ M), (m_f_class _ _ N),
    (m_f_role _ _ M), (m_f_role _ _ N), (m_f_type _ _ M), (m_f_type _ _ N), (m_f_auth _ _ M), (m_f_auth _ _ N),
    (m_f_close_from _ _ M), (m_f_close_from _ _ N).
  reflexivity.
Qed.

Lemma same_spec : template_spec s = template_spec t.
Proof.
  pose proof same_invocation as HI. destruct H as [[(rq & l & M & N & HL) _ _] HO _]. unfold template_spec, env_cwd.
  rewrite HI, HO, (m_cols _ _ M), (m_cols _ _ N), (m_user _ _ M), (m_user _ _ N), (m_uid _ _ M), (m_uid _ _ N), (m_pid _ _ M), (m_pid _ _ N),
    (m_gid _ _ M), (m_gid _ _ N), (m_lines _ _ M), (m_lines _ _ N), (m_host _ _ M), (m_host _ _ N),
    (m_policy_cwd _ _ M), (m_policy_cwd _ _ N), (m_user_cwd _ _ M), (m_user_cwd _ _ N).
  reflexivity.
Qed.

Lemma same_local sp : local_pair_prompt s sp = local_pair_prompt t sp.
Proof.
  destruct H as [[(rq & l & M & N & HL) HU HE] HO _]. unfold local_pair_prompt.
  rewrite HO, HE, (m_tty _ _ M), (m_tty _ _ N). reflexivity.
Qed.

Lemma same_prompt sp : remote_pair_prompt s sp = remote_pair_prompt t sp.
Proof. destruct H as [_ HO HS]. unfold remote_pair_prompt. rewrite HO, HS. reflexivity. Qed.

Lemma same_drop : pair_drop s = pair_drop t.
Proof. destruct H as [_ _ HS]. unfold pair_drop. rewrite HS. reflexivity. Qed.

Lemma same_close : pair_close s = pair_close t.
Proof. destruct H as [_ _ HS]. unfold pair_close. rewrite HS. reflexivity. Qed.

Lemma same_log pl st d : pair_log pl st s d = pair_log pl st t d.
Proof.
  unfold pair_log, log_output. rewrite same_exempt. destruct H as [_ _ HS]. rewrite HS. reflexivity.
Qed.

Lemma same_winsize pl l c : pair_winsize pl s l c = pair_winsize pl t l c.
Proof. destruct H as [_ _ HS]. unfold pair_winsize, log_output. rewrite HS. reflexivity. Qed.
End Fields.

Definition ResRel {A C E} (R : A -> C -> Prop) (x : result A E) (y : result C E) : Prop :=
  match x, y with Ok x, Ok y => R x y | Err e, Err f => e = f | _, _ => False end.

Lemma sim_connect pl s t : SamePair s t -> Sim (ResRel SamePair) (remote_pair_connect pl s) (remote_pair_connect pl t).
Proof.
  intros H. unfold remote_pair_connect. rewrite <- (sm_socket _ _ H), (same_mode s t H), (same_path s t H).
  destruct (same_owner s t H) as [-> ->]. destruct (sp_socket s); [apply Sim_ret; exact H|].
  destruct (socket_mode t); [|apply Sim_panic]. apply Sim_seq. intros [c|er]; apply Sim_ret; [|reflexivity].
  destruct H as [HE HO _]. constructor; [exact HE|exact HO|reflexivity].
Qed.

Lemma sim_pair_open pl e f : SameEnv e f -> Sim (ResRel SamePair) (pair_open pl e) (pair_open pl f).
Proof.
  intros HE. unfold pair_open.
  assert (HO : plugin_options_from (en_plugin_options e) = plugin_options_from (en_plugin_options f)).
  { destruct HE as [(rq & l & M & N & HL) _ _]. rewrite (m_options _ _ M), (m_options _ _ N). reflexivity. }
  rewrite <- HO. set (s := mkSudoPair e _ None). set (t := mkSudoPair f _ None).
  assert (H : SamePair s t) by (constructor; [exact HE|reflexivity|reflexivity]).
  rewrite (same_exempt s t H), (same_both s t H), (same_spec s t H).
  destruct (is_exempt t pl) as [[|]|]; [apply Sim_ret; exact H| |apply Sim_panic].
  destruct (is_sudoing_to_user_and_group t); [apply Sim_ret; reflexivity|].
  rewrite (same_local s t H). apply Sim_seq. intros _.
  eapply Sim_bind; [apply sim_connect; exact H|]. intros [s'|er] [t'|er'] HR; cbn in HR; try contradiction.
  - rewrite (same_prompt s' t' HR), (same_drop s' t' HR).
    apply Sim_seq. intros [u|er]; [apply Sim_ret; exact HR|]. apply Sim_seq. intros _. apply Sim_ret. reflexivity.
  - apply Sim_ret. exact HR.
Qed.

(** *** Callbacks *)
Definition SameResult (x y : Z * pstate SudoPair) : Prop := fst x = fst y /\ SameState (snd x) (snd y).

Lemma sim_open_env pl pf e f st su : SameEnv e f -> SameState st su ->
  forall (k1 := fun (env : io_env) (s : pstate SudoPair) => mkPstate (Some env) (st_plugin s)), 
  Sim SameResult
   (if path_eqb (ci_command (en_command_info e)) [] then ret (OPEN_OK, k1 e st)
    else
      r <- catch (r <- pg_open SudoPair pl e ;;
                  match r with
                  | Ok p => ret (Ok p)
                  | Err er => write_error pf (pg_display SudoPair er) (pg_source SudoPair er) ;;; ret (Err (pg_open_status SudoPair er))
                  end) ;;
      match r with
      | None => ret (OPEN_DENY, k1 e st)
      | Some (Err z) => ret (z, k1 e st)
      | Some (Ok p) =>
          match st_plugin st with
          | None => ret (OPEN_OK, mkPstate (Some e) (Some p))
          | Some old => z <- catch_open (pg_drop SudoPair p ;;; ret OPEN_OK) ;; ret (z, k1 e st)
          end
      end)
   (if path_eqb (ci_command (en_command_info f)) [] then ret (OPEN_OK, k1 f su)
    else
      r <- catch (r <- pg_open SudoPair pl f ;;
                  match r with
                  | Ok p => ret (Ok p)
                  | Err er => write_error pf (pg_display SudoPair er) (pg_source SudoPair er) ;;; ret (Err (pg_open_status SudoPair er))
                  end) ;;
      match r with
      | None => ret (OPEN_DENY, k1 f su)
      | Some (Err z) => ret (z, k1 f su)
      | Some (Ok p) =>
          match st_plugin su with
          | None => ret (OPEN_OK, mkPstate (Some f) (Some p))
          | Some old => z <- catch_open (pg_drop SudoPair p ;;; ret OPEN_OK) ;; ret (z, k1 f su)
          end
      end).
Proof.
  intros HE [HSe HSp] k1. assert (K : SameState (k1 e st) (k1 f su)) by (split; [exact HE|exact HSp]).
  assert (HC : ci_command (en_command_info e) = ci_command (en_command_info f)).
  { destruct HE as [(rq & l & M & N & HL) _ _]. rewrite (m_command _ _ M), (m_command _ _ N). reflexivity. }
  rewrite HC. destruct (path_eqb _ []); [apply Sim_ret; split; [reflexivity|exact K]|].
  eapply Sim_bind with (R := OptRel (ResRel SamePair)).
  - apply Sim_catch. eapply Sim_bind; [apply sim_pair_open; exact HE|].
    intros [p|er] [q|er'] HR; cbn in HR; try contradiction; [apply Sim_ret; exact HR|subst er'].
    apply Sim_seq. intros _. apply Sim_ret. reflexivity.
  - intros [[p|z]|] [[q|z']|] HR; cbn in HR; try contradiction.
    + destruct (st_plugin st) as [old|] eqn:E1, (st_plugin su) as [old'|] eqn:E2; try contradiction.
      * cbn [pg_drop SudoPair]. rewrite (same_drop p q HR). apply Sim_seq. intros z. apply Sim_ret. split; [reflexivity|exact K].
      * apply Sim_ret. split; [reflexivity|]. split; [exact HE|exact HR].
    + subst z'. apply Sim_ret. split; [reflexivity|exact K].
    + apply Sim_ret. split; [reflexivity|exact K].
Qed.

Lemma sim_callback pl cb st su : SameState st su ->
  Sim SameResult (run_callback SudoPair pl cb st) (run_callback SudoPair pl cb su).
Proof.
  intros HS. pose proof HS as [HSe HSp]. destruct cb; cbn [run_callback].
  - unfold core_open. cbn [pf_new pg_name pg_version SudoPair].
    destruct (io_env_new pl (B "sudo_pair") (B "1.2.0") a) as [[e|er]|] eqn:E.
    + destruct (st_env st) as [e1|], (st_env su) as [e2|]; try contradiction.
      * apply (sim_open_env pl _ e1 e2 st su); assumption.
      * assert (HE : SameEnv e e).
        { constructor; try reflexivity. exists (request_of e), (rq_log (request_of e)). pose proof (Matches_request_of _ _ _ _ _ E). auto. }
        apply (sim_open_env pl _ e e st su); assumption.
    + apply Sim_seq. intros z. apply Sim_ret. split; [reflexivity|exact HS].
    + apply Sim_ret. split; [reflexivity|exact HS].
  - unfold core_close. destruct (st_plugin st) as [p|], (st_plugin su) as [q|]; try contradiction.
    + cbn [pg_close SudoPair]. rewrite (same_close p q HSp). eapply Sim_bind with (R := SameState).
      * apply Sim_seq. intros [u|]; apply Sim_ret; split; try exact I. exact HSe.
      * intros x y HR. apply Sim_ret. split; [reflexivity|exact HR].
    + eapply Sim_bind with (R := SameState); [apply Sim_ret; split; exact I|]. intros x y HR. apply Sim_ret. split; [reflexivity|exact HR].
  - eapply Sim_bind with (R := eq).
    + unfold core_show_version. destruct (st_env st) as [e|], (st_env su) as [f|]; try contradiction; [|apply Sim_eq].
      unfold show_version. rewrite (se_out _ _ HSe). apply Sim_eq.
    + intros x y ->. apply Sim_ret. split; [reflexivity|exact HS].
  - eapply Sim_bind with (R := eq).
    + unfold core_log. destruct (st_env st) as [e|], (st_env su) as [f|]; try contradiction; [|apply Sim_eq].
      destruct (st_plugin st) as [p|], (st_plugin su) as [q|]; try contradiction; [|apply Sim_eq].
      destruct (match s with Ttyin => true | _ => false end) eqn:ET.
      { destruct s; try discriminate. cbn [pg_log pg_ignore_hints SudoPair pair_log negb andb].
        destruct (hint Ttyin (en_command_info e)), (hint Ttyin (en_command_info f)); cbn; apply Sim_eq. }
      assert (HT : s <> Ttyin) by (intros ->; discriminate).
      assert (HL : hint s (en_command_info e) = hint s (en_command_info f)).
      { destruct HSe as [(rq & l & M & N & HL) _ _]. rewrite (m_log _ _ M), (m_log _ _ N). cbn [rq_log with_log].
        symmetry. apply HL. exact HT. }
      rewrite HL. cbn [pg_log SudoPair]. rewrite (same_log p q HSp). unfold report. rewrite (se_err _ _ HSe). apply Sim_eq.
    + intros x y ->. apply Sim_ret. split; [reflexivity|exact HS].
  - eapply Sim_bind with (R := eq).
    + unfold core_change_winsize. destruct (st_env st) as [e|], (st_env su) as [f|]; try contradiction; [|apply Sim_eq].
      destruct (st_plugin st) as [p|], (st_plugin su) as [q|]; try contradiction; [|apply Sim_eq].
      cbn [pg_winsize SudoPair]. rewrite (same_winsize p q HSp). unfold report. rewrite (se_err _ _ HSe). apply Sim_eq.
    + intros x y ->. apply Sim_ret. split; [reflexivity|exact HS].
Qed.

Lemma sim_history pl h : forall st su, SameState st su ->
  Sim (fun x y => fst x = fst y /\ SameState (snd x) (snd y)) (run_history SudoPair pl h st) (run_history SudoPair pl h su).
Proof.
  induction h as [|cb h IH]; intros st su HS; cbn [run_history]; [apply Sim_ret; auto|].
  eapply Sim_bind; [apply sim_callback; exact HS|]. intros [z s1] [z' s2] [Hz H]. cbn in Hz, H. subst z'.
  eapply Sim_bind; [apply IH; exact H|]. intros [zs s3] [zs' s4] [Hz' H']. cbn in Hz', H'. subst zs'.
  apply Sim_ret. auto.
Qed.

Lemma pf_same a e name vers pl : io_env_new pl name vers a = Some (Ok e) ->
  en_stdout e = fst (pf_new (Some name) (oa_printf a)) /\ en_stderr e = snd (pf_new (Some name) (oa_printf a)).
Proof.
  unfold io_env_new. destruct (version_check _); [|discriminate]. cbn [pf_new].
  destruct (settings_try_from _ _) as [[se|]|]; try discriminate. destruct (user_info_try_from _); [|discriminate].
  intros E. injection E as <-. auto.
Qed.

Lemma same_request pl a b rq rq' : Describes pl a rq -> Describes pl b rq' -> Alike rq rq' ->
  ~ MasklessAddr pl (oa_settings a) -> ~ MasklessAddr pl (oa_settings b) -> forall h,
  Sim (fun x y => fst x = fst y) (run_history SudoPair pl (CbOpen a :: h) (pstate0 _))
      (run_history SudoPair pl (CbOpen b :: h) (pstate0 _)).
Proof.
  intros Da Db (l & -> & HL) Na Nb h. cbn [run_history].
  eapply Sim_bind with (R := SameResult).
  - cbn [run_callback]. unfold core_open. cbn [pf_new pg_name pg_version SudoPair].
    destruct (described_reads _ _ _ Da Na) as (e & E & M). destruct (described_reads _ _ _ Db Nb) as (f & F & N).
    rewrite E, F. cbn [pstate0 st_env st_plugin].
    assert (HP : oa_printf a = oa_printf b) by (rewrite <- (d_printf _ _ _ Da), <- (d_printf _ _ _ Db); reflexivity).
    destruct (pf_same _ _ _ _ _ E) as [E1 E2]. destruct (pf_same _ _ _ _ _ F) as [F1 F2].
    rewrite HP. apply (sim_open_env pl _ e f (pstate0 _) (pstate0 _)); [|split; exact I].
    constructor; [exists rq, l; auto|rewrite E1, F1, HP; reflexivity|rewrite E2, F2, HP; reflexivity].
  - intros [z s1] [z' s2] [Hz H]. cbn in Hz, H. subst z'.
    eapply Sim_bind; [apply sim_history; exact H|]. intros [zs s3] [zs' s4] [Hz' H']. cbn in Hz', H'. subst zs'.
    apply Sim_ret. reflexivity.
Qed.

Lemma same_request_shown pl a b rq rq' : Describes pl a rq -> Describes pl b rq' -> Alike rq rq' ->
  ~ MasklessAddr pl (oa_settings a) -> ~ MasklessAddr pl (oa_settings b) -> forall h w,
  Indistinguishable (run_history SudoPair pl (CbOpen a :: h) (pstate0 _) w)
    (run_history SudoPair pl (CbOpen b :: h) (pstate0 _) w).
Proof.
  intros Da Db AL Na Nb h w. pose proof (same_request pl a b rq rq' Da Db AL Na Nb h w) as S.
  destruct (run_history SudoPair pl (CbOpen a :: h) _ w) as [[x| |] w1], (run_history SudoPair pl (CbOpen b :: h) _ w) as [[y| |] w2];
    try contradiction; split; cbn; tauto.
Qed.

(** *** Entries nothing depends on *)
Definition EqOn (keys : list string) (r r' : raw) : Prop :=
  forall k, In k keys -> forall v, Provides r (B k) v <-> Provides r' (B k) v.

Lemma Provides_insert x buf y k v : (forall v, ~ EntryMeans buf k v) ->
  Provides (Some (x ++ y)) k v <-> Provides (Some (x ++ buf :: y)) k v.
Proof.
  intros N. split.
  - intros (b & c & d & E & M & L). injection E as E.
    assert (HC : (exists z, x = b ++ c :: z /\ d = z ++ y) \/ (exists z, b = x ++ z /\ y = z ++ c :: d)).
    { revert b E. induction x as [|a0 x IH]; intros b E; [right; exists b; auto|].
      destruct b as [|b0 b]; cbn in E; injection E as -> E.
      - left. exists x. auto.
      - destruct (IH b E) as [(z & -> & ->)|(z & -> & ->)]; [left|right]; exists z; auto. }
    destruct HC as [(z & -> & ->)|(z & -> & ->)].
    + exists b, c, (z ++ buf :: y). split; [rewrite <- app_assoc; reflexivity|]. split; [exact M|].
      intros l v' HI. apply in_app_or in HI. destruct HI as [HI|[<-|HI]].
      * apply L. apply in_or_app. auto.
      * apply N.
      * apply L. apply in_or_app. auto.
    + exists (x ++ buf :: z), c, d. split; [rewrite <- app_assoc; reflexivity|]. split; [exact M|exact L].
  - intros (b & c & d & E & M & L). injection E as E.
    assert (HC : (exists z, x = b ++ c :: z /\ d = z ++ buf :: y) \/ (b = x /\ c = buf) \/ (exists z, b = x ++ buf :: z /\ y = z ++ c :: d)).
    { revert b E. induction x as [|a0 x IH]; intros b E.
      - destruct b as [|b0 b]; cbn in E; injection E as -> E; [auto|]. right. right. exists b. auto.
      - destruct b as [|b0 b]; cbn in E; injection E as -> E.
        + left. exists x. auto.
        + destruct (IH b E) as [(z & -> & ->)|[[-> ->]|(z & -> & ->)]]; [left; exists z; auto|auto|].
          right. right. exists z. auto. }
    destruct HC as [(z & -> & ->)|[[-> ->]|(z & -> & ->)]].
    + exists b, c, (z ++ y). split; [rewrite <- app_assoc; reflexivity|]. split; [exact M|].
      intros l v' HI. apply L. apply in_app_or in HI. apply in_or_app. cbn. tauto.
    + exfalso. exact (N _ M).
    + exists (x ++ z), c, d. split; [rewrite <- app_assoc; reflexivity|]. split; [exact M|exact L].
Qed.

Lemma Padded_EqOn keys r r' : Padded keys r r' -> EqOn keys r r'.
Proof.
  induction 1 as [r|x buf y r' N _ IH]; intros k Hk v; [reflexivity|].
  rewrite <- (IH k Hk v). apply Provides_insert. intros v' HM. apply (N _ _ HM). apply in_map. exact Hk.
Qed.

Section EqOn.
Variables (keys : list string) (r r' : raw).
Hypothesis H : EqOn keys r r'.
Context {A : Type} (k : string) (Hk : In k keys) (R : bytes -> A -> Prop).

Lemma on_iff x : Reads r k R x <-> Reads r' k R x.
Proof. unfold Reads, ReadsKey. split; intros (v & P & U); exists v; (split; [apply (H k Hk); exact P|exact U]). Qed.
Lemma on_Reads x : Reads r k R x -> Reads r' k R x.
Proof. apply on_iff. Qed.
Lemma on_Un : Unreadable r k R -> Unreadable r' k R.
Proof. intros U x X. apply (U x). apply on_iff. exact X. Qed.
Lemma on_Opt o : ReadsOpt r k R o -> ReadsOpt r' k R o.
Proof. destruct o; [apply on_Reads|apply on_Un]. Qed.
Lemma on_Or d x : ReadsOr r k R d x -> ReadsOr r' k R d x.
Proof. intros [X|[X Y]]; [left; apply on_Reads; exact X|right; split; [apply on_Un; exact X|exact Y]]. Qed.
End EqOn.

Lemma EqOn_get keys r r' : EqOn keys r r' -> forall k, In k keys -> get_str (from_raw r) (B k) = get_str (from_raw r') (B k).
Proof.
  intros H k Hk. unfold get_str.
  assert (E : get_bytes (from_raw r) (B k) = get_bytes (from_raw r') (B k)).
  { destruct (get_bytes (from_raw r') (B k)) as [v|] eqn:E.
    - apply get_bytes_Provides. apply (H k Hk). apply get_bytes_Provides. exact E.
    - apply get_bytes_None. intros v P. rewrite get_bytes_None in E. apply (E v). apply (H k Hk). exact P. }
  rewrite E. reflexivity.
Qed.

Ltac key := solve [cbn; repeat (first [left; reflexivity | right])].
Ltac moved P := first
  [ eapply on_Reads; [exact P|key|assumption] | eapply on_Or; [exact P|key|assumption] | eapply on_Opt; [exact P|key|assumption]
  | match goal with X : exists _, Reads _ _ _ _ |- _ => destruct X as [x X]; exists x; eapply on_Reads; [exact P|key|exact X] end
  | match goal with X : exists _, _ /\ _ |- _ => destruct X as (x & X & Y); exists x; split; eapply on_Or; [exact P|key|exact X|exact P|key|exact Y] end ].

Lemma padded_describes pl a a' rq b : PaddedArgs a a' -> Describes pl a rq ->
  ReadsOr (oa_command_info a') "iolog_ttyin" Bool false b ->
  Describes pl a' (with_log rq (fun s => match s with Ttyin => b | s => rq_log rq s end)).
Proof.
  intros [V P G S U C O] D HB.
  apply Padded_EqOn in S. apply Padded_EqOn in U. apply Padded_EqOn in C. apply Padded_EqOn in O.
  constructor.
  - rewrite V. apply D.
  - rewrite P. apply D.
  - rewrite G. apply D.
  - pose proof (d_plugin_dir _ _ _ D). moved S.
  - pose proof (d_plugin_path _ _ _ D). moved S.
  - pose proof (d_progname _ _ _ D). moved S.
  - pose proof (d_sudoedit _ _ _ D). moved S.
  - pose proof (d_f_user _ _ _ D). moved S.
  - pose proof (d_f_group _ _ _ D). moved S.
  - pose proof (d_f_prompt _ _ _ D). moved S.
  - pose proof (d_f_login _ _ _ D). moved S.
  - pose proof (d_f_shell _ _ _ D). moved S.
  - pose proof (d_f_set_home _ _ _ D). moved S.
  - pose proof (d_f_preserve_env _ _ _ D). moved S.
  - pose proof (d_f_preserve_groups _ _ _ D). moved S.
  - pose proof (d_f_reset _ _ _ D). moved S.
  - pose proof (d_f_noninteractive _ _ _ D). moved S.
  - pose proof (d_f_class _ _ _ D). moved S.
  - pose proof (d_f_role _ _ _ D). moved S.
  - pose proof (d_f_type _ _ _ D). moved S.
  - pose proof (d_f_auth _ _ _ D). moved S.
  - pose proof (d_f_close_from _ _ _ D). moved S.
  - pose proof (d_user_cwd _ _ _ D). moved U.
  - pose proof (d_egid _ _ _ D). moved U.
  - pose proof (d_euid _ _ _ D). moved U.
  - pose proof (d_gid _ _ _ D). moved U.
  - pose proof (d_groups _ _ _ D). moved U.
  - pose proof (d_host _ _ _ D). moved U.
  - pose proof (d_pgid _ _ _ D). moved U.
  - pose proof (d_pid _ _ _ D). moved U.
  - pose proof (d_ppid _ _ _ D). moved U.
  - pose proof (d_uid _ _ _ D). moved U.
  - pose proof (d_user _ _ _ D). moved U.
  - pose proof (d_lines _ _ _ D). moved U.
  - pose proof (d_cols _ _ _ D). moved U.
  - pose proof (d_tty _ _ _ D). moved U.
  - pose proof (d_command _ _ _ D). moved C.
  - pose proof (d_policy_cwd _ _ _ D). moved C.
  - pose proof (d_to_uid _ _ _ D). moved C.
  - pose proof (d_to_gid _ _ _ D). moved C.
  - pose proof (d_to_groups _ _ _ D). moved C.
  - pose proof (d_preserve_groups _ _ _ D). moved C.
  - exact HB.
  - pose proof (d_log_ttyout _ _ _ D). moved C.
  - pose proof (d_log_stdin _ _ _ D). moved C.
  - pose proof (d_log_stdout _ _ _ D). moved C.
  - pose proof (d_log_stderr _ _ _ D). moved C.
  - pose proof (d_binary_path _ _ _ D). moved O.
  - pose proof (d_user_prompt_path _ _ _ D). moved O.
  - pose proof (d_pair_prompt_path _ _ _ D). moved O.
  - pose proof (d_socket_dir _ _ _ D). moved O.
  - pose proof (d_enforced _ _ _ D). moved O.
  - pose proof (d_exempted _ _ _ D). moved O.
Qed.

Ltac looked P k := rewrite (EqOn_get _ _ _ P k) by key.

Lemma padded_settings pl r r' : EqOn settings_keys r r' ->
  match settings_try_from pl (from_raw r), settings_try_from pl (from_raw r') with
  | None, None => True
  | Some (Err e), Some (Err f) => e = f
  | Some (Ok _), Some (Ok _) => True
  | _, _ => False
  end.
Proof.
  intros P. unfold settings_try_from, get_req, get, get_net_addrs.
  looked P "plugin_dir"%string. looked P "plugin_path"%string. looked P "progname"%string. looked P "network_addrs"%string.
  destruct (get_str (from_raw r') (B "plugin_dir")); [|reflexivity]. destruct (parse_string b); [|reflexivity].
  destruct (get_str (from_raw r') (B "plugin_path")); [|reflexivity]. destruct (parse_string b1); [|reflexivity].
  destruct (get_str (from_raw r') (B "progname")); [|reflexivity]. destruct (parse_string b3); [|reflexivity].
  destruct (get_str (from_raw r') (B "network_addrs")); [|exact I].
  destruct (parse_net_addrs pl b5) as [[?|]|]; exact I.
Qed.

Lemma padded_user r r' : EqOn user_info_keys r r' ->
  match user_info_try_from (from_raw r), user_info_try_from (from_raw r') with
  | Err e, Err f => e = f
  | Ok _, Ok _ => True
  | _, _ => False
  end.
Proof.
  intros P. unfold user_info_try_from, get_req.
  assert (G : forall A (p : bytes -> option A) k, In k user_info_keys -> get p (from_raw r) (B k) = get p (from_raw r') (B k)).
  { intros A p k Hk. unfold get. rewrite (EqOn_get _ _ _ P k Hk). reflexivity. }
  rewrite !G by key.
  repeat match goal with |- context [match get ?p ?m (B ?k) with Ok _ => _ | Err _ => _ end] =>
    destruct (get p m (B k)); [|reflexivity] end.
  exact I.
Qed.

Lemma padded_env pl a a' : PaddedArgs a a' ->
  match io_env_new pl (B "sudo_pair") (B "1.2.0") a, io_env_new pl (B "sudo_pair") (B "1.2.0") a' with
  | None, None => True
  | Some (Err e), Some (Err f) => e = f
  | Some (Ok e), Some (Ok f) => SameEnv e f
  | _, _ => False
  end.
Proof.
  intros PA.
  assert (K : match io_env_new pl (B "sudo_pair") (B "1.2.0") a, io_env_new pl (B "sudo_pair") (B "1.2.0") a' with
  | None, None => True
  | Some (Err e), Some (Err f) => e = f
  | Some (Ok e), Some (Ok f) => True
  | _, _ => False
  end).
  { destruct PA as [V P G S U C O]. apply Padded_EqOn in S. apply Padded_EqOn in U.
    unfold io_env_new. rewrite V. destruct (version_check _); [|reflexivity]. cbn [pf_new].
    pose proof (padded_settings pl _ _ S) as K. pose proof (padded_user _ _ U) as L.
    destruct (settings_try_from pl (from_raw (oa_settings a))) as [[se|]|],
      (settings_try_from pl (from_raw (oa_settings a'))) as [[se'|]|]; try contradiction; try exact K.
    destruct (user_info_try_from (from_raw (oa_user_info a))), (user_info_try_from (from_raw (oa_user_info a')));
      try contradiction; try exact I. exact L. }
  destruct (io_env_new pl (B "sudo_pair") (B "1.2.0") a) as [[e|er]|] eqn:E,
    (io_env_new pl (B "sudo_pair") (B "1.2.0") a') as [[f|er']|] eqn:F; try contradiction; try exact K.
  pose proof (env_Describes _ _ _ _ _ E) as D. pose proof (padded_describes _ _ _ _ _ PA D (d_log_ttyin _ _ _ (env_Describes _ _ _ _ _ F))) as D'.
  destruct (pf_same _ _ _ _ _ E) as [E1 E2]. destruct (pf_same _ _ _ _ _ F) as [F1 F2].
  constructor.
  - eexists (request_of e), _. split; [exact (env_Matches _ _ _ _ _ _ D E)|]. split; [exact (env_Matches _ _ _ _ _ _ D' F)|].
    intros [| | | |] HN; try reflexivity. contradiction.
  - rewrite E1, F1, (pa_printf _ _ PA). reflexivity.
  - rewrite E2, F2, (pa_printf _ _ PA). reflexivity.
Qed.

Lemma sim_padded_callback pl cb cb' st su : PaddedCall cb cb' -> SameState st su ->
  Sim SameResult (run_callback SudoPair pl cb st) (run_callback SudoPair pl cb' su).
Proof.
  intros [a a' PA|cb0] HS; [|apply sim_callback; exact HS].
  pose proof (padded_env pl a a' PA) as K. pose proof HS as [HSe HSp].
  cbn [run_callback]. unfold core_open. rewrite (pa_printf _ _ PA). cbn [pf_new pg_name pg_version SudoPair].
  destruct (io_env_new pl (B "sudo_pair") (B "1.2.0") a) as [[e|er]|],
    (io_env_new pl (B "sudo_pair") (B "1.2.0") a') as [[f|er']|]; try contradiction.
  - destruct (st_env st) as [e1|], (st_env su) as [e2|]; try contradiction.
    + apply (sim_open_env pl _ e1 e2 st su); assumption.
    + apply (sim_open_env pl _ e f st su); assumption.
  - subst er'. apply Sim_seq. intros z. apply Sim_ret. split; [reflexivity|exact HS].
  - apply Sim_ret. split; [reflexivity|exact HS].
Qed.

Lemma sim_padded_history pl h h' : Forall2 PaddedCall h h' -> forall st su, SameState st su ->
  Sim (fun x y => fst x = fst y /\ SameState (snd x) (snd y)) (run_history SudoPair pl h st) (run_history SudoPair pl h' su).
Proof.
  induction 1 as [|cb cb' h h' PC _ IH]; intros st su HS; cbn [run_history]; [apply Sim_ret; auto|].
  eapply Sim_bind; [apply sim_padded_callback; [exact PC|exact HS]|]. intros [z s1] [z' s2] [Hz H]. cbn in Hz, H. subst z'.
  eapply Sim_bind; [apply IH; exact H|]. intros [zs s3] [zs' s4] [Hz' H']. cbn in Hz', H'. subst zs'.
  apply Sim_ret. auto.
Qed.

Lemma padded_shown pl h h' w : Forall2 PaddedCall h h' ->
  Indistinguishable (run_history SudoPair pl h (pstate0 _) w) (run_history SudoPair pl h' (pstate0 _) w).
Proof.
  intros P. assert (S0 : SameState (pstate0 SudoPair) (pstate0 SudoPair)) by (split; exact I).
  pose proof (sim_padded_history pl h h' P _ _ S0 w) as S.
  destruct (run_history SudoPair pl h _ w) as [[x| |] w1], (run_history SudoPair pl h' _ w) as [[y| |] w2];
    try contradiction; split; cbn; tauto.
Qed.
