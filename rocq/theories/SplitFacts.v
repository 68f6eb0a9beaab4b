(** An opening, cut into what comes before the socket, the work on the socket,
    and what comes after it. *)
From Coq Require Import Lia.
From Verif Require Import Base BaseLemmas Num Path Template Options World Sys Io Socket Env Core Pair
  Spec TraceSpec SessionSpec PathProofs RequestProofs PairPure InputFacts RunProofs IoProofs SocketProofs PairProofs
  KernelFacts OpenFacts AskFacts.
Local Open Scope Z_scope.

Section Split.
Variables (pl : platform) (a : open_args) (rq : request).

Definition refusal (e : io_env) : outcome (Z * pstate SudoPair) := Done (-1, ps e None).

(** What follows the work on the socket, which ended with [oo]. *)
Definition AfterT (e : io_env) (oo : outcome (result nat ioerr)) (o : outcome (Z * pstate SudoPair))
  (post : list event) : Prop :=
  match oo with
  | Stopped => o = Stopped /\ post = []
  | Panicked => o = refusal e /\ post = []
  | Done (Err _) => (o = Stopped \/ o = refusal e) /\ Only ErrorText post
  | Done (Ok c) =>
      exists ro rs fin, post = rs ++ fin
      /\ RemoteT c (po_pair_prompt_path (plugin_options_from (en_plugin_options e))) (template_spec (pair0 e)) ro rs
      /\ match ro with
         | Stopped => o = Stopped /\ fin = []
         | Panicked => False
         | Done (Ok _) => o = Done (1, ps e (Some (with_conn e c))) /\ fin = []
         | Done (Err _) => exists od ds xs, fin = ds ++ xs /\ DropT c od ds /\ Only ErrorText xs
             /\ ((o = Stopped /\ (od = Stopped -> xs = [])) \/ (o = refusal e /\ od = Done tt))
         end
  end.

Inductive SplitT : outcome (Z * pstate SudoPair) -> list event -> Prop :=
| S_none o evs : Only LocalPrompt evs ->
    (o = Stopped
     \/ (exists st', o = Done (-1, st') /\ st_plugin st' = None)
     \/ (exists st', o = Done (1, st') /\ (Exempt rq \/ rq_command rq = []))) ->
    SplitT o evs
| S_socket e mode oo ls os o post :
    Matches e rq -> rq_command rq <> [] -> ~ Exempt rq ->
    ~ (rq_uid rq <> rq_to_uid rq /\ rq_f_group rq <> None) ->
    LocalT (pair0 e) (template_spec (pair0 e)) (Done tt) ls ->
    socket_mode (pair0 e) = Some mode ->
    OpenT (pl_euid pl) (socket_path (pair0 e)) (socket_uid (pair0 e)) (socket_gid (pair0 e)) mode oo os ->
    AfterT e oo o post ->
    SplitT o (ls ++ os ++ post).

Hypothesis D : Describes pl a rq.

Lemma err_local es : Only ErrorText es -> Only LocalPrompt es.
Proof. apply Only_weaken. intros c [d ->]. exact I. Qed.

Lemma OpenedT_SplitT o evs : OpenedT pl a rq o evs -> SplitT o evs.
Proof.
  intros HO.
  inversion HO as [|e M HC| |e M HC HE|e es r M HC NE HU HG Hr Hp|e es M HC NE HU HG Hp|e o' ls es M Ee HC HE HB HN]; subst.
  - apply S_none; [constructor|]. right. left. eexists. split; reflexivity.
  - apply S_none; [constructor|]. right. right. eexists. split; [reflexivity|right; exact HC].
  - apply S_none; [constructor|]. right. left. eexists. split; reflexivity.
  - apply S_none; [constructor|]. right. right. eexists. split; [reflexivity|left; exact HE].
  - apply S_none; [eapply err_local, report_ErrorText; exact Hp|]. right. left. eexists. split; reflexivity.
  - apply S_none; [eapply err_local, report_ErrorText; exact Hp|]. left. reflexivity.
  - inversion HN as [e' ls' es' HA|e' ls' es' HA|e' er ls' es' rs r HA Hr Hp|e' er ls' es' rs HA Hp|e' c ls' es' HA];
      subst; clear HN HO;
      inversion HA as [ls' Hl|ls' Hl|ls' Hl Hm|mode ls' os Hl Hm Ho|mode ls' os Hl Hm Ho|er' mode ls' os Hl Hm Ho|c' mode ls' os rs' Hl Hm Ho Hr'|c' er' mode ls' os rs' ds Hl Hm Ho Hr' Hd|c' er' mode ls' os rs' ds Hl Hm Ho Hr' Hd|c' mode ls' os rs' Hl Hm Ho Hr'];
      subst; fold (pair0 e) in *; clear HA.
    + apply S_none; [rewrite app_nil_r; eapply LocalT_calls; exact Hl|left; reflexivity].
    + rewrite <- (app_nil_r es). eapply S_socket; try eassumption. split; reflexivity.
    + eapply S_socket; try eassumption. do 3 eexists. split; [symmetry; apply app_nil_r|]. split; [exact Hr'|]. split; reflexivity.
    + eapply S_socket; try eassumption. exists (Done (Err er')), rs', ds. split; [reflexivity|]. split; [exact Hr'|].
      exists Stopped, ds, []. split; [symmetry; apply app_nil_r|]. split; [exact Hd|]. split; [constructor|]. left. split; reflexivity.
    + apply S_none; [rewrite app_nil_r; eapply LocalT_calls; exact Hl|]. right. left. eexists. split; reflexivity.
    + apply S_none; [rewrite app_nil_r; eapply LocalT_calls; exact Hl|]. right. left. eexists. split; reflexivity.
    + rewrite <- (app_nil_r es). eapply S_socket; try eassumption. split; reflexivity.
    + eapply S_socket; try eassumption. split; [right; reflexivity|]. eapply report_ErrorText. exact Hp.
    + rewrite <- !app_assoc. eapply S_socket; try eassumption. exists (Done (Err er)), rs', (ds ++ rs).
      split; [reflexivity|]. split; [exact Hr'|]. exists (Done tt), ds, rs. split; [reflexivity|]. split; [exact Hd|].
      split; [eapply report_ErrorText; exact Hp|]. right. split; reflexivity.
    + eapply S_socket; try eassumption. split; [left; reflexivity|]. eapply report_ErrorText. exact Hp.
    + rewrite <- !app_assoc. eapply S_socket; try eassumption. exists (Done (Err er)), rs', (ds ++ rs).
      split; [reflexivity|]. split; [exact Hr'|]. exists (Done tt), ds, rs. split; [reflexivity|]. split; [exact Hd|].
      split; [eapply report_ErrorText; exact Hp|]. left. split; [reflexivity|discriminate].
    + eapply S_socket; try eassumption. exists (Done (Ok tt)), rs', []. split; [symmetry; apply app_nil_r|]. split; [exact Hr'|].
      split; reflexivity.
Qed.

Lemma split_given w o w' evs : core_open SudoPair pl a (pstate0 _) w = (o, w') ->
  w_trace w' = w_trace w ++ evs -> Ran (pl_euid pl) w evs w' /\ SplitT o evs.
Proof.
  intros H T. destruct (opened_given pl a rq D w o w' evs H T) as [R HO].
  split; [exact R|apply OpenedT_SplitT; exact HO].
Qed.

(** Nothing after the work on the socket touches it or the file system. *)
Definition TalkCall (c : call) : Prop :=
  match c with
  | CSigGet | CSigSet _ | CReadFile _ | CWrite _ _ | CRead _ | CShutdown _ | CClose _ | CPrintf _ _ => True
  | _ => False
  end.

Lemma AfterT_calls e oo o post : AfterT e oo o post -> Only TalkCall post.
Proof.
  assert (HE : forall es, Only ErrorText es -> Only TalkCall es)
    by (intros es; apply Only_weaken; intros c [d ->]; exact I).
  destruct oo as [[c|er]| |]; cbn.
  - intros (ro & rs & fin & -> & HR & HF). apply RemoteT_calls in HR. onl.
    + revert HR. apply Only_weaken. intros x. destruct x; cbn; tauto.
    + destruct ro as [[[]|er]| |].
      * destruct HF as [_ ->]. constructor.
      * destruct HF as (od & ds & xs & -> & HD & HX & _). apply DropT_calls in HD. onl; auto.
        revert HD. apply Only_weaken. intros x [->| ->]; exact I.
      * contradiction.
      * destruct HF as [_ ->]. constructor.
  - intros [_ HX]. auto.
  - intros [_ ->]. constructor.
  - intros [_ ->]. constructor.
Qed.
End Split.

(** ** Runs in which the other processes do nothing but connect *)
Definition Connects (acts : list (cred * action)) : Prop := Forall (fun ca => exists p, snd ca = Connect p) acts.
Definition QuietTurns (ts : list turn) : Prop := Forall (fun t : turn => Connects (fst t)) ts.

Lemma ConnectOnly_app w t1 t2 : ConnectOnly w -> w_script w = t1 ++ t2 -> QuietTurns t1.
Proof. unfold ConnectOnly. intros H E. rewrite E in H. apply Forall_app in H as [H _]. exact H. Qed.

Lemma Ran_quiet euid w evs w' : ConnectOnly w -> Ran euid w evs w' ->
  exists ts, QuietTurns ts /\ Linked euid (w_k w) ts evs (w_k w').
Proof. intros Q (ts & S & _ & L). exists ts. split; [eapply ConnectOnly_app; eassumption|exact L]. Qed.

Lemma QuietTurns_app a b : QuietTurns (a ++ b) <-> QuietTurns a /\ QuietTurns b.
Proof. apply Forall_app. Qed.

(** The file system: names, inodes and the next inode number. *)
Definition SameFiles (k k' : kernel) : Prop :=
  k_names k' = k_names k /\ k_inodes k' = k_inodes k /\ k_next k' = k_next k.

Lemma SameFiles_refl k : SameFiles k k.
Proof. repeat split. Qed.
Lemma SameFiles_trans k1 k2 k3 : SameFiles k1 k2 -> SameFiles k2 k3 -> SameFiles k1 k3.
Proof. intros (A & B & C) (A' & B' & C'). repeat split; congruence. Qed.

Lemma connect_files k c p : SameFiles k (act k (c, Connect p)).
Proof.
  cbn [act]. destruct (finds k c p), (k_listen k); try (repeat split; reflexivity).
  destruct (_ && _); repeat split; reflexivity.
Qed.

Lemma connects_files acts : Connects acts -> forall k, SameFiles k (fold_left act acts k).
Proof.
  induction 1 as [|[c x] acts (p & E) _ IH]; intros k; [apply SameFiles_refl|].
  cbn in E. subst x. cbn [fold_left]. eapply SameFiles_trans; [apply connect_files|apply IH].
Qed.

Lemma SameFiles_resolve k k' p : SameFiles k k' -> resolve k' p = resolve k p.
Proof.
  intros (A & B & _). unfold resolve. generalize 40%nat. intros n. revert p.
  induction n as [|n IH]; intros p; cbn; [reflexivity|]. rewrite A, B.
  destruct (k_names k p); [|reflexivity]. destruct (i_kind (k_inodes k n0)); try reflexivity. apply IH.
Qed.

Lemma SameFiles_dir k k' p : SameFiles k k' -> dir_inode k' p = dir_inode k p.
Proof.
  intros S. pose proof S as (A & B & _). unfold dir_inode. destruct p; [reflexivity|].
  rewrite (SameFiles_resolve _ _ _ S), B. reflexivity.
Qed.

(** Calls that leave the file system alone. *)
Definition NoFiles (c : call) : Prop :=
  match c with CUnlink _ | CBind _ | CChown _ _ _ | CChmod _ _ => False | _ => True end.

Lemma effect_files euid c a k : NoFiles c -> SameFiles k (effect euid c a k).
Proof. intros H. destruct c; try contradiction; cbn; destr_act; repeat split; reflexivity. Qed.

Lemma Linked_files euid k ts evs k' : Linked euid k ts evs k' -> QuietTurns ts -> Only NoFiles evs -> SameFiles k k'.
Proof.
  induction 1 as [|k acts a c k1 k2 ts evs k' E1 E2 HL IH]; intros HQ HO; [apply SameFiles_refl|].
  apply Forall_inv in HQ as QA. apply Forall_inv_tail in HQ. cbn in QA. apply Only_cons in HO as [HC HO].
  eapply SameFiles_trans; [|apply IH; assumption]. subst k2 k1.
  eapply SameFiles_trans; [apply connects_files; exact QA|]. apply effect_files. exact HC.
Qed.

(** One event, with what came before it. *)
Lemma Linked_event euid k ts e1 ev e2 k' :
  Linked euid k ts (e1 ++ ev :: e2) k' -> QuietTurns ts ->
  exists ts1 k1 ts2, QuietTurns ts1 /\ QuietTurns ts2 /\ Linked euid k ts1 e1 k1 /\ SameFiles k1 (e_pre ev)
    /\ e_post ev = effect euid (e_call ev) (e_ans ev) (e_pre ev)
    /\ Linked euid (e_post ev) ts2 e2 k'.
Proof.
  intros H HQ. apply Linked_at in H as (ts1 & acts & a & ts2 & k1 & -> & H1 & HP & _ & HE & H2).
  apply QuietTurns_app in HQ as [Q1 Q2]. apply Forall_inv in Q2 as QA. apply Forall_inv_tail in Q2. cbn in QA.
  exists ts1, k1, ts2. split; [exact Q1|]. split; [exact Q2|]. split; [exact H1|].
  split; [rewrite HP; apply connects_files; assumption|]. split; assumption.
Qed.

Lemma Linked_event1 euid k ts ev e2 k' :
  Linked euid k ts (ev :: e2) k' -> QuietTurns ts ->
  exists ts2, QuietTurns ts2 /\ SameFiles k (e_pre ev)
    /\ e_post ev = effect euid (e_call ev) (e_ans ev) (e_pre ev)
    /\ Linked euid (e_post ev) ts2 e2 k'.
Proof.
  intros H HQ. destruct (Linked_event euid k ts [] ev e2 k' H HQ) as (ts1 & k1 & ts2 & _ & Q2 & L1 & S & E & L2).
  apply Linked_nil in L1. subst k1. exists ts2. repeat (split; try assumption).
Qed.

Lemma local_nofiles es : Only LocalPrompt es -> Only NoFiles es.
Proof. apply Only_weaken. intros c. destruct c; cbn; tauto. Qed.
Lemma talk_nofiles es : Only TalkCall es -> Only NoFiles es.
Proof. apply Only_weaken. intros c. destruct c; cbn; tauto. Qed.
Lemma local_numask es : Only LocalPrompt es -> Only NotUmask es.
Proof. apply Only_weaken. intros c. destruct c; cbn; tauto. Qed.
Lemma talk_numask es : Only TalkCall es -> Only NotUmask es.
Proof. apply Only_weaken. intros c. destruct c; cbn; tauto. Qed.
Lemma local_nosock es : Only LocalPrompt es -> Only NotSock es.
Proof. apply Only_weaken. intros c. destruct c; cbn; tauto. Qed.
Lemma talk_nosock es : Only TalkCall es -> Only NotSock es.
Proof. apply Only_weaken. intros c. destruct c; cbn; tauto. Qed.
