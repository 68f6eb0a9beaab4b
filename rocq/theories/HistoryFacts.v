(** Facts about every callback and every history of callbacks, for any plugin
    and for the pairing plugin. *)
From Verif Require Import Base Path World Options Sys Io Socket Env Core Pair Spec TraceSpec SessionSpec
  RequestProofs PairPure RunProofs KernelFacts OpenFacts CallbackSpec CallbackFacts SessionFacts.
Local Open Scope Z_scope.

(** ** Return codes *)

(** The codes sudo documents for each callback. *)
Definition OpenCode (z : Z) : Prop := z = 1 \/ z = -1.
Definition LogCode (z : Z) : Prop := z = 1 \/ z = 0.

Definition Documented (cb : callback) (z : Z) : Prop :=
  match cb with
  | CbOpen _ | CbShowVersion _ => OpenCode z
  | CbLog _ _ | CbWinsize _ _ => LogCode z
  | CbClose _ _ => True
  end.

(** A plugin that converts its errors only to documented codes. *)
Definition StatusesOk (P : plugin) : Prop :=
  (forall e, OpenCode (pg_open_status P e)) /\ (forall e, LogCode (pg_log_status P e)).

Lemma SudoPair_statuses : StatusesOk SudoPair.
Proof. split; intros e; right; reflexivity. Qed.

(** The outcome of a computation is never a panic, and a value satisfies [Q]. *)
Definition Safe {A} (m : M A) (Q : A -> Prop) : Prop :=
  forall w, match fst (m w) with Done a => Q a | Panicked => False | Stopped => True end.
(** The same, panics allowed. *)
Definition Gives {A} (m : M A) (Q : A -> Prop) : Prop :=
  forall w, match fst (m w) with Done a => Q a | _ => True end.

Lemma Gives_True {A} (m : M A) : Gives m (fun _ => True).
Proof. intros w. destruct (fst (m w)); exact I. Qed.
Lemma Gives_ret {A} (a : A) (Q : A -> Prop) : Q a -> Gives (ret a) Q.
Proof. intros H w. exact H. Qed.
Lemma Gives_panic {A} (Q : A -> Prop) : Gives panic Q.
Proof. intros w. exact I. Qed.
Lemma Gives_bind {A C} (m : M A) (f : A -> M C) R Q :
  Gives m R -> (forall a, R a -> Gives (f a) Q) -> Gives (bind m f) Q.
Proof.
  intros Hm Hf w. unfold bind. specialize (Hm w). destruct (m w) as [[a| |] w']; cbn in *; try exact I.
  apply Hf. exact Hm.
Qed.
Lemma Safe_ret {A} (a : A) (Q : A -> Prop) : Q a -> Safe (ret a) Q.
Proof. intros H w. exact H. Qed.
Lemma Safe_bind {A C} (m : M A) (f : A -> M C) R Q :
  Safe m R -> (forall a, R a -> Safe (f a) Q) -> Safe (bind m f) Q.
Proof.
  intros Hm Hf w. unfold bind. specialize (Hm w). destruct (m w) as [[a| |] w']; cbn in *; try tauto.
  apply Hf. exact Hm.
Qed.
Lemma Safe_catch {A} (m : M A) R : Gives m R -> Safe (catch m) (fun r => match r with Some a => R a | None => True end).
Proof. intros Hm w. unfold catch. specialize (Hm w). destruct (m w) as [[a| |] w']; cbn in *; auto. Qed.

Lemma Safe_catch_open m : Gives m OpenCode -> Safe (catch_open m) OpenCode.
Proof.
  intros H. unfold catch_open. eapply Safe_bind; [apply Safe_catch; exact H|].
  intros [z|] Hz; apply Safe_ret; [exact Hz|right; reflexivity].
Qed.
Lemma Safe_catch_log m : Gives m LogCode -> Safe (catch_log m) LogCode.
Proof.
  intros H. unfold catch_log. eapply Safe_bind; [apply Safe_catch; exact H|].
  intros [z|] Hz; apply Safe_ret; [exact Hz|right; reflexivity].
Qed.

Lemma report_codes P env m : StatusesOk P -> Gives (report P env m) LogCode.
Proof.
  intros [_ HS]. unfold report. eapply Gives_bind; [apply Gives_True|]. intros [u|e] _.
  - apply Gives_ret. left. reflexivity.
  - eapply Gives_bind; [apply Gives_True|]. intros ? _. apply Gives_ret. apply HS.
Qed.

Lemma core_open_codes P pl a st : StatusesOk P -> Safe (core_open P pl a st) (fun r => OpenCode (fst r)).
Proof.
  intros HS. unfold core_open. destruct (pf_new _ _) as [so se].
  destruct (io_env_new _ _ _ _) as [[e|er]|].
  - destruct (path_eqb _ _); [apply Safe_ret; left; reflexivity|].
    eapply Safe_bind.
    + apply Safe_catch with (R := fun r => match r with Ok _ => True | Err z => OpenCode z end).
      eapply Gives_bind; [apply Gives_True|]. intros [p|x] _.
      * apply Gives_ret. exact I.
      * eapply Gives_bind; [apply Gives_True|]. intros ? _. apply Gives_ret. apply HS.
    + intros [[p|z]|] H.
      * destruct (st_plugin st); [|apply Safe_ret; left; reflexivity].
        eapply Safe_bind; [apply Safe_catch_open|intros z Hz; apply Safe_ret; exact Hz].
        eapply Gives_bind; [apply Gives_True|]. intros ? _. apply Gives_ret. left. reflexivity.
      * apply Safe_ret. exact H.
      * apply Safe_ret. right. reflexivity.
  - eapply Safe_bind; [apply Safe_catch_open|intros z Hz; apply Safe_ret; exact Hz].
    eapply Gives_bind; [apply Gives_True|]. intros ? _. apply Gives_ret. apply HS.
  - apply Safe_ret. right. reflexivity.
Qed.

Lemma callback_codes P pl cb st : StatusesOk P -> Safe (run_callback P pl cb st) (fun r => Documented cb (fst r)).
Proof.
  intros HS. destruct cb; cbn [run_callback Documented].
  - apply core_open_codes. exact HS.
  - eapply Safe_bind with (R := fun _ => True); [|intros; apply Safe_ret; exact I].
    unfold core_close. destruct (st_plugin st); [|apply Safe_ret; exact I].
    eapply Safe_bind; [apply Safe_catch; apply Gives_True|]. intros [?|] _; apply Safe_ret; exact I.
  - eapply Safe_bind; [apply Safe_catch_open|intros z Hz; apply Safe_ret; exact Hz].
    destruct (st_env st); [|apply Gives_panic]. eapply Gives_bind; [apply Gives_True|]. intros ? _.
    apply Gives_ret. left. reflexivity.
  - eapply Safe_bind; [apply Safe_catch_log|intros z Hz; apply Safe_ret; exact Hz].
    destruct (st_env st); [|apply Gives_panic]. destruct (st_plugin st); [|apply Gives_panic].
    destruct (_ && _); [apply Gives_ret; left; reflexivity|]. apply report_codes. exact HS.
  - eapply Safe_bind; [apply Safe_catch_log|intros z Hz; apply Safe_ret; exact Hz].
    destruct (st_env st); [|apply Gives_panic]. destruct (st_plugin st); [|apply Gives_panic].
    apply report_codes. exact HS.
Qed.

Lemma history_codes P pl h : StatusesOk P -> forall st,
  Safe (run_history P pl h st) (fun r => Forall2 Documented h (fst r)).
Proof.
  intros HS. induction h as [|cb h IH]; intros st; cbn [run_history].
  - apply Safe_ret. constructor.
  - eapply Safe_bind; [apply callback_codes; exact HS|]. intros [z st1] Hz.
    eapply Safe_bind; [apply IH|]. intros [zs st2] Hzs. apply Safe_ret. constructor; assumption.
Qed.

Lemma callback_documented P pl cb st w o w' : StatusesOk P ->
  run_callback P pl cb st w = (o, w') ->
  match o with Done (z, _) => Documented cb z | Panicked => False | Stopped => True end.
Proof.
  intros HS H. pose proof (callback_codes P pl cb st HS w) as X. rewrite H in X. cbn in X.
  destruct o as [[z s]| |]; exact X.
Qed.

Lemma history_documented P pl h st w o w' : StatusesOk P ->
  run_history P pl h st w = (o, w') ->
  match o with Done (zs, _) => Forall2 Documented h zs | Panicked => False | Stopped => True end.
Proof.
  intros HS H. pose proof (history_codes P pl h HS st w) as X. rewrite H in X. cbn in X.
  destruct o as [[z s]| |]; exact X.
Qed.

(** ** Each opening on its own *)
Lemma run_history_app P pl h1 : forall h2 st w zs st2 w2,
  run_history P pl (h1 ++ h2) st w = (Done (zs, st2), w2) ->
  exists zs1 st1 w1 zs2, run_history P pl h1 st w = (Done (zs1, st1), w1)
    /\ run_history P pl h2 st1 w1 = (Done (zs2, st2), w2) /\ zs = zs1 ++ zs2.
Proof.
  induction h1 as [|cb h1 IH]; intros h2 st w zs st2 w2 H.
  - exists [], st, w, zs. cbn in *. auto.
  - cbn [app run_history] in *. unfold bind in H at 1.
    destruct (run_callback P pl cb st w) as [[[z s1]| |] w1] eqn:E1; try discriminate.
    unfold bind in H. destruct (run_history P pl (h1 ++ h2) s1 w1) as [[[zs' s2]| |] w2'] eqn:E2; try discriminate.
    injection H as <- <- <-. destruct (IH _ _ _ _ _ _ E2) as (zs1 & st1 & w1' & zs2 & A & B & ->).
    exists (z :: zs1), st1, w1', zs2. split; [|auto].
    unfold bind. rewrite E1, A. reflexivity.
Qed.

(** For any plugin: unless its close panicked, closing resets everything. *)
Lemma close_resets P x e st w st' w' : core_close P x e st w = (Done st', w') ->
  st' = pstate0 P \/ (st' = mkPstate (st_env st) None /\ exists p w2, st_plugin st = Some p /\ pg_close P p x e w = (Panicked, w2)).
Proof.
  unfold core_close. destruct (st_plugin st) as [p|].
  - unfold bind, catch. destruct (pg_close P p x e w) as [[u| |] w2] eqn:E; intros H; try discriminate;
      injection H as <- <-; [left; reflexivity|]. right. split; [reflexivity|]. eauto.
  - intros H. injection H as <- <-. left. reflexivity.
Qed.

Lemma after_close pl h x e st0 w zs st w' a w2 :
  run_history SudoPair pl (h ++ [CbClose x e]) st0 w = (Done (zs, st), w') ->
  core_open SudoPair pl a st w2 = core_open SudoPair pl a (pstate0 _) w2.
Proof.
  intros H. apply run_history_app in H as (zs1 & st1 & w1 & zs2 & _ & H & _).
  cbn [run_history run_callback] in H. unfold bind in H.
  destruct (core_close SudoPair x e st1 w1) as [[st2| |] w3] eqn:E; try discriminate.
  apply close_clears in E. injection H as _ <- _. rewrite E. reflexivity.
Qed.

(** The first opening whose arguments can be read stores them; later openings
    ignore theirs until the next close. *)
Lemma stale_env P pl a1 a2 e1 e2 st e w :
  io_env_new pl (pg_name P) (pg_version P) a1 = Some (Ok e1) ->
  io_env_new pl (pg_name P) (pg_version P) a2 = Some (Ok e2) ->
  oa_printf a1 = oa_printf a2 -> st_env st = Some e ->
  core_open P pl a1 st w = core_open P pl a2 st w.
Proof. intros E1 E2 Ep Es. unfold core_open. rewrite E1, E2, Ep, Es. reflexivity. Qed.

Lemma open_keeps_env P pl a st w z st' w' : core_open P pl a st w = (Done (z, st'), w') ->
  forall e, st_env st = Some e -> st_env st' = Some e.
Proof.
  intros H e He. unfold core_open in H. destruct (pf_new _ _) as [so se]. rewrite He in H.
  destruct (io_env_new _ _ _ _) as [[e'|er]|].
  - destruct (path_eqb _ _); [injection H as _ <- _; reflexivity|].
    unfold bind at 1 in H. destruct (catch _ w) as [[[[p|z']|]| |] w1]; try discriminate;
      try (injection H as _ <- _; reflexivity).
    destruct (st_plugin st); [|injection H as _ <- _; reflexivity].
    unfold bind at 1 in H. destruct (catch_open _ w1) as [[z1| |] w2]; try discriminate. injection H as _ <- _. reflexivity.
  - unfold bind at 1 in H. destruct (catch_open _ w) as [[z1| |] w2]; try discriminate. injection H as _ <- _. exact He.
  - injection H as _ <- _. exact He.
Qed.

(** Described, no entry without a mask: the arguments are read. *)
Lemma described_reads pl a rq : Describes pl a rq -> ~ MasklessAddr pl (oa_settings a) ->
  exists e, io_env_new pl (B "sudo_pair") (B "1.2.0") a = Some (Ok e) /\ Matches e rq.
Proof.
  intros D N. destruct (io_env_new pl (B "sudo_pair") (B "1.2.0") a) as [[e|er]|] eqn:E.
  - exists e. split; [reflexivity|]. eapply env_Matches; eassumption.
  - exfalso. eapply io_env_new_not_Err; eassumption.
  - exfalso. apply N. eapply io_env_new_None. exact E.
Qed.

Lemma second_open_stale pl a1 a2 rq1 rq2 st w :
  Describes pl a1 rq1 -> Describes pl a2 rq2 ->
  ~ MasklessAddr pl (oa_settings a1) -> ~ MasklessAddr pl (oa_settings a2) ->
  rq_printf rq1 = rq_printf rq2 -> st_env st <> None ->
  core_open SudoPair pl a1 st w = core_open SudoPair pl a2 st w.
Proof.
  intros D1 D2 N1 N2 Ep Es. destruct (described_reads _ _ _ D1 N1) as (e1 & E1 & M1).
  destruct (described_reads _ _ _ D2 N2) as (e2 & E2 & M2). destruct (st_env st) as [e|] eqn:Ee; [|contradiction].
  eapply stale_env; try eassumption.
  rewrite <- (d_printf _ _ _ D1), <- (d_printf _ _ _ D2). exact Ep.
Qed.

(** ** Closing *)
Lemma Linked_last euid k ts evs ev k' : Linked euid k ts (evs ++ [ev]) k' -> k' = effect euid (e_call ev) (e_ans ev) (e_pre ev).
Proof.
  revert k ts. induction evs as [|x evs IH]; intros k ts H; cbn in H; inversion H; subst.
  - match goal with H : Linked _ _ _ [] _ |- _ => inversion H; subst end. reflexivity.
  - eapply IH. eassumption.
Qed.

Lemma closed_last euid w evs c cl w' : Ran euid w (evs ++ [cl]) w' -> Is (CClose c) AOk cl -> ~ In c (k_open (w_k w')).
Proof.
  intros (ts & _ & _ & HL) [Hc Ha]. apply Linked_last in HL. rewrite HL, Hc, Ha. cbn. apply remove_In.
Qed.

Lemma paired_close_gone pl a rq st c x err w o w' evs :
  PairedSession pl a rq st c ->
  core_close SudoPair x err st w = (o, w') -> w_trace w' = w_trace w ++ evs ->
  (o = Stopped /\ Only (fun y => y = CShutdown c \/ y = CClose c) evs)
  \/ (o = Done (pstate0 _) /\ ~ In c (k_open (w_k w'))
      /\ exists s1 s2 cl, evs = [s1; s2; cl]
         /\ e_call s1 = CShutdown c /\ e_call s2 = CShutdown c /\ Is (CClose c) AOk cl).
Proof.
  intros HP H T. destruct (paired_close _ _ _ _ _ _ _ _ _ _ _ HP H T) as [X|(-> & s1 & s2 & cl & -> & C1 & C2 & C3)]; [auto|].
  right. split; [reflexivity|]. split; [|exists s1, s2, cl; auto].
  apply paired_state in HP as (e & M & HE & ->). unfold core_close in H. cbn [ps st_plugin st_env pg_close SudoPair] in H.
  unfold bind, catch in H. destruct (pair_close (with_conn e c) w) as [[u| |] w1] eqn:E; try discriminate.
  - destruct (pair_close_yields 0 e c w _ w1 E) as (es & R & Q). injection H as <-.
    rewrite <- (Ran_given _ _ _ _ _ R T) in R. exact (closed_last 0 w [s1; s2] c cl w1 R C3).
Qed.

(** ** States without an active plugin *)
Lemma inactive_states :
  (forall P, st_plugin (pstate0 P) = None)
  /\ (forall P x e st w st' w', core_close P x e st w = (Done st', w') -> st_plugin st' = None)
  /\ (forall pl a rq w z st' w', Describes pl a rq -> core_open SudoPair pl a (pstate0 _) w = (Done (z, st'), w') ->
       rq_command rq = [] \/ z <> 1 -> st_plugin st' = None).
Proof.
  split; [reflexivity|]. split.
  - intros P x e st w st' w' H. destruct (close_resets _ _ _ _ _ _ _ H) as [->|[-> _]]; reflexivity.
  - intros pl a rq w z st' w' D H X. destruct (opened pl a rq D w _ w' H) as (evs & R & HO).
    inversion HO as [| e M HC | |e M HC HE| | |e o ls es M Ee HC HE HB HN]; subst; try reflexivity.
    + destruct X; contradiction.
    + inversion HN; subst; try reflexivity. destruct X; contradiction.
Qed.

(** ** Opening without a command *)
Lemma no_command pl a rq w : Describes pl a rq -> rq_command rq = [] -> ~ MasklessAddr pl (oa_settings a) ->
  exists st', core_open SudoPair pl a (pstate0 _) w = (Done (1, st'), w) /\ st_plugin st' = None.
Proof.
  intros D HC0 NM. destruct (core_open SudoPair pl a (pstate0 _) w) as [o w'] eqn:H.
  destruct (opened pl a rq D w o w' H) as (evs & R & HO).
  inversion HO as [| e M HC | |e M HC HE| | |e o' ls es M Ee HC HE HB HN]; subst; try contradiction.
  destruct R as (ts & S & T & L). pose proof (Linked_length _ _ _ _ _ L) as Hl.
  destruct ts; [|discriminate Hl]. apply Linked_nil in L. rewrite app_nil_r in T.
  exists (ps e None). split; [|reflexivity]. f_equal. destruct w, w'; cbn in *; congruence.
Qed.

Lemma no_command_history pl a rq h x e w : Describes pl a rq -> rq_command rq = [] -> ~ MasklessAddr pl (oa_settings a) ->
  Forall (fun cb => match cb with CbLog _ _ | CbWinsize _ _ => True | _ => False end) h ->
  run_history SudoPair pl (CbOpen a :: h ++ [CbClose x e]) (pstate0 _) w
  = (Done (1 :: map (fun _ => 0) h ++ [0], pstate0 _), w).
Proof.
  intros D C M F. destruct (no_command pl a rq w D C M) as (st & E & N).
  assert (G : run_history SudoPair pl (h ++ [CbClose x e]) st w = (Done (map (fun _ => 0) h ++ [0], pstate0 _), w)).
  { clear E. induction F as [|cb h Hc _ IH].
    - cbn [app run_history map]. unfold bind. cbn [run_callback]. unfold bind. rewrite (close_none SudoPair x e st w N). reflexivity.
    - cbn [app run_history map]. unfold bind at 1. rewrite (inactive SudoPair pl cb st w (or_introl N) Hc).
      unfold bind. rewrite IH. reflexivity. }
  cbn [run_history]. unfold bind at 1. cbn [run_callback]. rewrite E. unfold bind. rewrite G. reflexivity.
Qed.

(** ** Opening again without closing *)
Lemma exempt_reopen pl a e w : io_env_new pl (B "sudo_pair") (B "1.2.0") a = Some (Ok e) ->
  path_eqb (ci_command (en_command_info e)) [] = false -> is_exempt (pair0 e) pl = Some true ->
  core_open SudoPair pl a (ps e (Some (pair0 e))) w = (Done (1, ps e (Some (pair0 e))), w)
  /\ core_open SudoPair pl a (pstate0 _) w = (Done (1, ps e (Some (pair0 e))), w).
Proof.
  intros E N X. unfold core_open. cbn [pg_name pg_version SudoPair pf_new]. rewrite E. cbn [ps pstate0 st_env st_plugin].
  rewrite N. cbn [pg_open SudoPair]. unfold pair_open. fold (pair0 e). rewrite X.
  split; reflexivity.
Qed.
