(** Who can be accepted during an opening, and what the socket's inode looks
    like meanwhile. *)
From Coq Require Import Lia.
From Verif Require Import Base BaseLemmas Num Path Template Options World Sys Io Socket Env Core Pair
  Spec TraceSpec SessionSpec AdversarySpec PathProofs RequestProofs PairPure InputFacts RunProofs IoProofs SocketProofs PairProofs
  KernelFacts OpenFacts AskFacts MiscFacts SplitFacts CleanupFacts FilesFacts ShapeFacts AdversaryFacts GuardFacts SessionFacts TalkSpec ArgFacts.
Local Open Scope Z_scope.

Lemma may_write_owner c i : cr_priv c = false -> cr_uid c = i_uid i -> may_write c i = negb (Z.land (i_perm i) 128 =? 0).
Proof. intros P U. unfold may_write. rewrite P, U, Z.eqb_refl. reflexivity. Qed.

Section Opening.
Variables (pl : platform) (a : open_args) (rq : request).
Hypothesis D : Describes pl a rq.
Variables (w w' : world) (o : outcome (Z * pstate SudoPair)) (evs : list event).
Hypothesis HR : core_open SudoPair pl a (pstate0 _) w = (o, w').
Hypothesis HT : w_trace w' = w_trace w ++ evs.
Notation euid := (pl_euid pl).

Definition OpenShape (u g m : Z) : Prop :=
  exists ts p, components p = sock_comps rq /\ w_script w = ts ++ w_script w'
    /\ Linked euid (w_k w) ts evs (w_k w') /\ Shape p u g m evs.

Lemma opened_shape : rq_uid rq <> rq_to_uid rq -> OpenShape (rq_to_uid rq) NO_ID 128 \/ Only LocalPrompt evs.
Proof.
  intros HU. destruct (split_given pl a rq D w o w' evs HR HT) as [(ts & Es & _ & HL) HS].
  inversion HS as [o0 evs0 HO _ Eo Ee|e mode oo ls os o0 post M _ _ HNG Hl Hm HOp HA Eo Ee]; [right; exact HO|left].
  assert (EU : is_sudoing_to_user (pair0 e) = true) by (apply (to_user_iff e rq M); exact HU).
  assert (EG : is_sudoing_to_explicit_group (pair0 e) = false).
  { destruct (is_sudoing_to_explicit_group (pair0 e)) eqn:E; [|reflexivity]. apply (explicit_group_iff e rq M) in E. tauto. }
  assert (H1 : socket_uid (pair0 e) = rq_to_uid rq). { unfold socket_uid. rewrite EU. exact (m_to_uid _ _ M). }
  assert (H2 : socket_gid (pair0 e) = NO_ID) by (unfold socket_gid; rewrite EG; reflexivity).
  unfold socket_mode in Hm. rewrite EU in Hm. injection Hm as <-. rewrite H1, H2 in HOp.
  exists ts, (socket_path (pair0 e)). split; [apply (socket_path_comps e rq M)|]. split; [exact Es|]. split; [rewrite <- Ee; exact HL|].
  rewrite <- Ee. apply shape_app; [eapply LocalT_calls; exact Hl|eapply OpenT_shape; exact HOp|eapply AfterT_calls; exact HA].
Qed.

Lemma opened_group_shape : rq_uid rq = rq_to_uid rq -> OpenShape NO_ID (rq_to_gid rq) 16 \/ Only LocalPrompt evs.
Proof.
  intros HU. destruct (split_given pl a rq D w o w' evs HR HT) as [(ts & Es & _ & HL) HS].
  inversion HS as [o0 evs0 HO _ Eo Ee|e mode oo ls os o0 post M _ _ HNG Hl Hm HOp HA Eo Ee]; [right; exact HO|left].
  assert (EU : is_sudoing_to_user (pair0 e) = false).
  { destruct (is_sudoing_to_user (pair0 e)) eqn:E; [|reflexivity]. apply (to_user_iff e rq M) in E. contradiction. }
  unfold socket_mode in Hm. rewrite EU in Hm.
  destruct (is_sudoing_to_explicit_group (pair0 e)) eqn:EG; [|discriminate]. injection Hm as <-.
  assert (H1 : socket_uid (pair0 e) = NO_ID) by (unfold socket_uid; rewrite EU; reflexivity).
  assert (H2 : socket_gid (pair0 e) = rq_to_gid rq). { unfold socket_gid. rewrite EG. exact (m_to_gid _ _ M). }
  rewrite H1, H2 in HOp.
  exists ts, (socket_path (pair0 e)). split; [apply (socket_path_comps e rq M)|]. split; [exact Es|]. split; [rewrite <- Ee; exact HL|].
  rewrite <- Ee. apply shape_app; [eapply LocalT_calls; exact Hl|eapply OpenT_shape; exact HOp|eapply AfterT_calls; exact HA].
Qed.

Lemma local_no_accept n c peer acc : Only LocalPrompt evs -> In acc evs -> ~ Accepts n c peer acc.
Proof.
  intros H Hin [[E _] _]. unfold Only in H. rewrite Forall_forall in H. apply H in Hin. rewrite E in Hin. exact Hin.
Qed.
Lemma local_no_bind q b : Only LocalPrompt evs -> In b evs -> ~ Creates q b.
Proof.
  intros H Hin (E & _). unfold Only in H. rewrite Forall_forall in H. apply H in Hin. rewrite E in Hin. exact Hin.
Qed.

(** From the whole script to the part used. *)
Lemma everyone_tame (P : cred -> action -> Prop) Adm T Side ts : Everyone P w ->
  (forall c x, P c x -> (Adm c /\ (T c \/ OnlyConnects x)) \/ SideAct Side x) ->
  w_script w = ts ++ w_script w' -> TameTurns Adm T Side ts.
Proof.
  intros HE HP Es. unfold Everyone in HE. rewrite Es in HE. apply Forall_app in HE as [HE _].
  revert HE. apply Forall_impl. intros [acts x]. cbn. apply Forall_impl. intros [c y]. cbn. intros H.
  exact (HP _ _ H).
Qed.

(** ** A change of user, without any assumption on the directory *)
Section User.
Hypothesis HU : rq_uid rq <> rq_to_uid rq.
Notation Outsider := (UserOutsider euid (rq_to_uid rq)).

Definition UserInode (i : inode) : Prop :=
  (i_uid i = euid \/ i_uid i = rq_to_uid rq) /\ (i_perm i = 0 \/ i_perm i = 128).

Lemma user_owner i c : UserInode i -> Outsider c -> cr_priv c = false /\ cr_uid c <> i_uid i.
Proof. intros [H _] (P & U1 & U2). split; [exact P|]. destruct H as [-> | ->]; assumption. Qed.
Lemma user_out i c : UserInode i -> Outsider c -> may_write c i = false.
Proof.
  intros HI HO. destruct (user_owner _ _ HI HO) as [P U]. destruct HI as [_ HP]. unfold may_write. rewrite P.
  apply Z.eqb_neq in U. rewrite U. destruct HP as [-> | ->]; cbn; destruct (mem_z _ _); reflexivity.
Qed.

Lemma user_peer (P : cred -> action -> Prop) Adm : Everyone P w ->
  (forall c x, P c x -> Adm c /\ (Outsider c \/ OnlyConnects x)) ->
  forall n c peer acc, In acc evs -> Accepts n c peer acc -> Adm peer /\ ~ Outsider peer.
Proof.
  intros HE HP n c peer acc Hin HA.
  destruct (opened_shape HU) as [(ts & p & _ & Es & HL & HS)|HO]; [|destruct (local_no_accept _ _ _ _ HO Hin HA)].
  eapply (free_peer euid Adm Outsider Outsider (fun _ => False) (fun _ H => H) UserInode user_owner user_out) with (p := p);
    [| | |exact HS|exact HL|eapply everyone_tame; [exact HE| |exact Es]|exact Hin|exact HA].
  - intros gb. split; left; reflexivity.
  - intros i [H1 H2]. split; [|exact H2]. cbn. destruct (rq_to_uid rq =? NO_ID); auto.
  - intros i [H1 H2]. split; [exact H1|]. right. reflexivity.
  - intros c0 x H. left. exact (HP c0 x H).
Qed.
End User.

(** ** Guarded directories *)
Definition UserStage (gb : Z) (i : inode) : Prop :=
  i_kind i = KSock /\ i_gid i = gb
  /\ ((i_perm i = 0 /\ (i_uid i = euid \/ i_uid i = rq_to_uid rq)) \/ (i_perm i = 128 /\ i_uid i = rq_to_uid rq)).
Definition GroupStage (gb : Z) (i : inode) : Prop :=
  i_kind i = KSock /\ i_uid i = euid
  /\ ((i_perm i = 0 /\ (i_gid i = gb \/ i_gid i = rq_to_gid rq)) \/ (i_perm i = 16 /\ i_gid i = rq_to_gid rq)).

Lemma user_stage gb i : rq_to_uid rq <> NO_ID -> Stage euid (rq_to_uid rq) NO_ID 128 gb i -> UserStage gb i.
Proof.
  intros HN H. apply Z.eqb_neq in HN. unfold Stage, chown_of, chmod_of in H. rewrite HN in H.
  destruct H as [->|[->| ->]]; (split; [reflexivity|]); (split; [reflexivity|]); cbn; auto.
Qed.
Lemma group_stage gb i : rq_to_gid rq <> NO_ID -> Stage euid NO_ID (rq_to_gid rq) 16 gb i -> GroupStage gb i.
Proof.
  intros HN H. apply Z.eqb_neq in HN. unfold Stage, chown_of, chmod_of in H. rewrite HN in H.
  destruct H as [->|[->| ->]]; (split; [reflexivity|]); (split; [reflexivity|]); cbn; auto.
Qed.

Section GuardedOpening.
Variables Adm T Out : cred -> Prop.
Variable P : cred -> action -> Prop.
Hypothesis HE : Everyone P w.
Variable Side : path -> Prop.
Hypothesis HP : forall c x, P c x -> (Adm c /\ (T c \/ OnlyConnects x)) \/ SideAct Side x.
Variable G : kernel -> Prop.
Hypothesis HG : Guarding euid Adm T Side (sock_comps rq) G.
Hypothesis HK : G (w_k w).
Variable (u g m : Z).
Hypothesis HS : OpenShape u g m \/ Only LocalPrompt evs.
Hypothesis St_owner : forall gb i c, Stage euid u g m gb i -> T c -> cr_priv c = false /\ cr_uid c <> i_uid i.

Lemma unlinks_own : Forall (Unlinks (sock_comps rq)) evs.
Proof.
  pose proof (arguments pl a rq D w o w' evs (sock_comps rq) HR HT (SocketPath_intro rq)) as HA.
  revert HA. apply Forall_impl. intros ev H. unfold Unlinks. destruct (e_call ev); try exact Logic.I. exact H.
Qed.

Lemma guarded_inode : (forall gb i c, Stage euid u g m gb i -> Out c -> may_write c i = false) ->
  forall e1 b e2, evs = e1 ++ b :: e2 -> Creates (sock_comps rq) b ->
  forall k, Afterwards (w_k w') b e2 k -> exists gb, Stage euid u g m gb (k_inodes k (k_next (e_pre b))).
Proof.
  intros St_out e1 b e2 E HC k HA.
  destruct HS as [(ts & p & Ep & Es & HL & HSh)|HO].
  2: { destruct (local_no_bind (sock_comps rq) b HO); [rewrite E; apply in_elt|exact HC]. }
  assert (Hb : bound p b) by (unfold bound; rewrite Ep; exact HC).
  pose proof HC as (_ & (gb & Ea) & _). exists gb.
  destruct (guarded_sound euid Adm T Out Side (sock_comps rq) G HG p u g m Ep St_owner St_out _ _ _ _ _ _ _ gb HSh HL
              (everyone_tame _ _ _ _ _ HE HP Es) HK unlinks_own E Hb Ea) as ((_ & H1 & _) & (_ & H2 & _) & H3).
  destruct HA as [->|[->|(ev & Hin & HE')]]; [exact H1|exact H2|].
  destruct (H3 _ Hin) as [(_ & H4 & _) (_ & H5 & _)]. destruct HE' as [-> | ->]; assumption.
Qed.

Lemma guarded_accept : (forall gb i c, Stage euid u g m gb i -> Out c -> may_write c i = false) ->
  forall n c peer acc, In acc evs -> Accepts n c peer acc -> Adm peer /\ ~ Out peer.
Proof.
  intros St_out n c peer acc Hin HA.
  destruct HS as [(ts & p & Ep & Es & HL & HSh)|HO]; [|destruct (local_no_accept _ _ _ _ HO Hin HA)].
  exact (guarded_peer euid Adm T Out Side (sock_comps rq) G HG p u g m Ep St_owner St_out _ _ _ _ _ _ _ _ HSh HL
           (everyone_tame _ _ _ _ _ HE HP Es) HK unlinks_own Hin HA).
Qed.
End GuardedOpening.

(** Who may write to the socket in each of its conditions. *)
Lemma user_stage_write gb i c : UserStage gb i -> cr_priv c = false -> cr_uid c <> rq_to_uid rq -> may_write c i = false.
Proof.
  intros (_ & _ & H) HP HN. unfold may_write. rewrite HP. destruct H as [[-> _]|[-> ->]].
  - destruct (cr_uid c =? i_uid i); [reflexivity|]. destruct (mem_z _ _); reflexivity.
  - apply Z.eqb_neq in HN. rewrite HN. destruct (mem_z _ _); reflexivity.
Qed.

Lemma group_stage_write gb i c : GroupStage gb i -> cr_priv c = false -> ~ In (rq_to_gid rq) (cr_gids c) -> may_write c i = false.
Proof.
  intros (_ & HU & H) HP HN. unfold may_write. rewrite HP. destruct H as [[-> _]|[-> ->]].
  - destruct (cr_uid c =? i_uid i); [reflexivity|]. destruct (mem_z _ _); reflexivity.
  - destruct (cr_uid c =? i_uid i); [reflexivity|]. destruct (mem_z (rq_to_gid rq) (cr_gids c)) eqn:E; [|reflexivity].
    apply mem_z_iff in E. contradiction.
Qed.
End Opening.

(** ** The properties *)
Lemma group_owner pl rq gb i c : GroupStage pl rq gb i -> cr_uid c <> pl_euid pl -> cr_uid c <> i_uid i.
Proof. intros (_ & -> & _) H. exact H. Qed.

Lemma user_stage_owner pl rq gb i c : UserStage pl rq gb i -> UserOutsider (pl_euid pl) (rq_to_uid rq) c ->
  cr_priv c = false /\ cr_uid c <> i_uid i.
Proof.
  intros (_ & _ & H) (P & U1 & U2). split; [exact P|].
  destruct H as [[_ [E|E]]|[_ E]]; rewrite E; assumption.
Qed.

Section Claims.
Variables (pl : platform) (a : open_args) (rq : request) (w w' : world) (o : outcome (Z * pstate SudoPair)) (evs : list event).
Hypothesis D : Describes pl a rq.
Hypothesis HR : core_open SudoPair pl a (pstate0 _) w = (o, w').
Hypothesis HT : w_trace w' = w_trace w ++ evs.
Notation euid := (pl_euid pl).
Notation UserOut := (UserOutsider euid (rq_to_uid rq)).
Notation GroupOut := (GroupOutsider euid (rq_to_gid rq)).

(** *** With other sessions under way *)
Section Sides.
Variable Side : path -> Prop.
Definition SideGuard (T : cred -> Prop) (k : kernel) : Prop :=
  exists S, GuardedBy T S (sock_comps rq) k /\ (forall p, Side p -> Beside (sock_comps rq) p /\ ~ S p) /\ Plain Side k.

Lemma user_stage_side : rq_uid rq <> rq_to_uid rq -> rq_to_uid rq <> 4294967295 ->
  SideGuard UserOut (w_k w) -> Everyone (fun c x => UserOut c \/ OnlyConnects x \/ SideAct Side x) w ->
  forall e1 b e2, evs = e1 ++ b :: e2 -> Creates (sock_comps rq) b -> forall k, Afterwards (w_k w') b e2 k ->
  exists gb, UserStage pl rq gb (k_inodes k (k_next (e_pre b))).
Proof.
  intros HU HN (S & HG & HB & HPl) HE e1 b e2 E HC k HK.
  destruct (guarded_inode pl a rq D w w' o evs HR HT (fun _ => True) UserOut (fun _ => False) _ HE Side
              ltac:(intros c x [H|[H|H]]; [left; split; [exact Logic.I|left; exact H]|left; split; [exact Logic.I|right; exact H]|right; exact H]) _ (guard_guarding euid _ _ S _ Side HB) (conj HG HPl) _ _ _
              (opened_shape pl a rq D w w' o evs HR HT HU)
              ltac:(intros gb i c H HO; eapply user_stage_owner; [eapply user_stage; eassumption|exact HO])
              ltac:(intros gb i c _ []) e1 b e2 E HC k HK) as [gb HS].
  exists gb. apply user_stage; assumption.
Qed.

Lemma user_inode_side : rq_uid rq <> rq_to_uid rq -> rq_to_uid rq <> 4294967295 ->
  SideGuard UserOut (w_k w) -> Everyone (fun c x => UserOut c \/ OnlyConnects x \/ SideAct Side x) w ->
  forall e1 b e2, evs = e1 ++ b :: e2 -> Creates (sock_comps rq) b -> forall k, Afterwards (w_k w') b e2 k ->
  i_perm (k_inodes k (k_next (e_pre b))) = 0
  \/ (i_perm (k_inodes k (k_next (e_pre b))) = 128 /\ i_uid (k_inodes k (k_next (e_pre b))) = rq_to_uid rq).
Proof.
  intros HU HN HS HE e1 b e2 E HC k HK.
  destruct (user_stage_side HU HN HS HE e1 b e2 E HC k HK) as (gb & _ & _ & [[H _]|[H1 H2]]); auto.
Qed.

Lemma group_stage_side : rq_uid rq = rq_to_uid rq -> rq_to_gid rq <> 4294967295 ->
  SideGuard (Unprivileged euid) (w_k w) -> Everyone (fun c x => Unprivileged euid c \/ OnlyConnects x \/ SideAct Side x) w ->
  forall e1 b e2, evs = e1 ++ b :: e2 -> Creates (sock_comps rq) b -> forall k, Afterwards (w_k w') b e2 k ->
  exists gb, GroupStage pl rq gb (k_inodes k (k_next (e_pre b))).
Proof.
  intros HU HN (S & HG & HB & HPl) HE e1 b e2 E HC k HK.
  destruct (guarded_inode pl a rq D w w' o evs HR HT (fun _ => True) (Unprivileged euid) (fun _ => False) _ HE Side
              ltac:(intros c x [H|[H|H]]; [left; split; [exact Logic.I|left; exact H]|left; split; [exact Logic.I|right; exact H]|right; exact H]) _ (guard_guarding euid _ _ S _ Side HB) (conj HG HPl) _ _ _
              (opened_group_shape pl a rq D w w' o evs HR HT HU)
              ltac:(intros gb i c H [HO1 HO2]; split; [exact HO1|eapply group_owner; [eapply group_stage; eassumption|exact HO2]])
              ltac:(intros gb i c _ []) e1 b e2 E HC k HK) as [gb HS].
  exists gb. apply group_stage; assumption.
Qed.

Lemma group_inode_side : rq_uid rq = rq_to_uid rq -> rq_to_gid rq <> 4294967295 ->
  SideGuard (Unprivileged euid) (w_k w) -> Everyone (fun c x => Unprivileged euid c \/ OnlyConnects x \/ SideAct Side x) w ->
  forall e1 b e2, evs = e1 ++ b :: e2 -> Creates (sock_comps rq) b -> forall k, Afterwards (w_k w') b e2 k ->
  i_perm (k_inodes k (k_next (e_pre b))) = 0
  \/ (i_perm (k_inodes k (k_next (e_pre b))) = 16 /\ i_gid (k_inodes k (k_next (e_pre b))) = rq_to_gid rq).
Proof.
  intros HU HN HS HE e1 b e2 E HC k HK.
  destruct (group_stage_side HU HN HS HE e1 b e2 E HC k HK) as (gb & _ & _ & [[H _]|[H1 H2]]); auto.
Qed.

Lemma user_accepted_side : rq_uid rq <> rq_to_uid rq -> rq_to_uid rq <> 4294967295 ->
  SideGuard UserOut (w_k w) -> Everyone (fun c x => UserOut c \/ OnlyConnects x \/ SideAct Side x) w ->
  forall n c peer acc, In acc evs -> Accepts n c peer acc -> cr_priv peer = true \/ cr_uid peer = rq_to_uid rq.
Proof.
  intros HU HN (S & HG & HB & HPl) HE n c peer acc Hin HA.
  destruct (guarded_accept pl a rq D w w' o evs HR HT (fun _ => True) UserOut
              (fun c => cr_priv c = false /\ cr_uid c <> rq_to_uid rq) _ HE Side
              ltac:(intros c0 x [H|[H|H]]; [left; split; [exact Logic.I|left; exact H]|left; split; [exact Logic.I|right; exact H]|right; exact H]) _ (guard_guarding euid _ _ S _ Side HB) (conj HG HPl) _ _ _
              (opened_shape pl a rq D w w' o evs HR HT HU)
              ltac:(intros gb i c0 H HO; eapply user_stage_owner; [eapply user_stage; eassumption|exact HO])
              ltac:(intros gb i c0 H [HO1 HO2]; eapply user_stage_write; [eapply user_stage; eassumption|exact HO1|exact HO2])
              n c peer acc Hin HA) as [_ H].
  destruct (cr_priv peer); [left; reflexivity|right].
  destruct (Z.eq_dec (cr_uid peer) (rq_to_uid rq)) as [X|X]; [exact X|]. destruct H. auto.
Qed.

Lemma group_accepted_side : rq_uid rq = rq_to_uid rq -> rq_to_gid rq <> 4294967295 ->
  SideGuard GroupOut (w_k w) -> Everyone (fun c x => GroupOut c \/ OnlyConnects x \/ SideAct Side x) w ->
  forall n c peer acc, In acc evs -> Accepts n c peer acc -> cr_priv peer = true \/ In (rq_to_gid rq) (cr_gids peer).
Proof.
  intros HU HN (S & HG & HB & HPl) HE n c peer acc Hin HA.
  destruct (guarded_accept pl a rq D w w' o evs HR HT (fun _ => True) GroupOut
              (fun c => cr_priv c = false /\ ~ In (rq_to_gid rq) (cr_gids c)) _ HE Side
              ltac:(intros c0 x [H|[H|H]]; [left; split; [exact Logic.I|left; exact H]|left; split; [exact Logic.I|right; exact H]|right; exact H]) _ (guard_guarding euid _ _ S _ Side HB) (conj HG HPl) _ _ _
              (opened_group_shape pl a rq D w w' o evs HR HT HU)
              ltac:(intros gb i c0 H (HO1 & HO2 & HO3); split; [exact HO1|eapply group_owner; [eapply group_stage; eassumption|exact HO2]])
              ltac:(intros gb i c0 H [HO1 HO2]; eapply group_stage_write; [eapply group_stage; eassumption|exact HO1|exact HO2])
              n c peer acc Hin HA) as [_ H].
  destruct (cr_priv peer); [left; reflexivity|right].
  destruct (in_dec Z.eq_dec (rq_to_gid rq) (cr_gids peer)) as [X|X]; [exact X|]. destruct H. auto.
Qed.

(** Acts of outsiders and of other sessions do not lead to approval. *)
Lemma user_never_side : rq_uid rq <> rq_to_uid rq -> rq_to_uid rq <> 4294967295 ->
  SideGuard UserOut (w_k w) -> Everyone (fun c x => UserOut c \/ SideAct Side x) w ->
  ~ Exempt rq -> rq_command rq <> [] -> forall st', o <> Done (1, st').
Proof.
  intros HU HN (S & HG & HB & HPl) HE NE NC st' Eo. rewrite Eo in HR.
  destruct (approval_needed pl a rq w st' w' evs D NE NC HR HT) as (c & q' & e1 & b & e2 & acc & e3 & rd & e4 & peer & _ & E & _ & HA & _).
  assert (Hin : In acc evs) by (rewrite E; apply in_or_app; right; right; apply in_elt).
  destruct (guarded_accept pl a rq D w w' _ evs HR HT UserOut UserOut UserOut _ HE Side
              ltac:(intros c0 x [H|H]; [left; split; [exact H|left; exact H]|right; exact H]) _ (guard_guarding euid _ _ S _ Side HB) (conj HG HPl) _ _ _
              (opened_shape pl a rq D w w' _ evs HR HT HU)
              ltac:(intros gb i c0 H HO; eapply user_stage_owner; [eapply user_stage; eassumption|exact HO])
              ltac:(intros gb i c0 H (HO1 & HO2 & HO3); eapply user_stage_write; [eapply user_stage; eassumption|exact HO1|exact HO3])
              _ c peer acc Hin HA) as [H1 H2].
  contradiction.
Qed.

Lemma group_never_side : rq_uid rq = rq_to_uid rq -> rq_to_gid rq <> 4294967295 ->
  SideGuard GroupOut (w_k w) -> Everyone (fun c x => GroupOut c \/ SideAct Side x) w ->
  ~ Exempt rq -> rq_command rq <> [] -> forall st', o <> Done (1, st').
Proof.
  intros HU HN (S & HG & HB & HPl) HE NE NC st' Eo. rewrite Eo in HR.
  destruct (approval_needed pl a rq w st' w' evs D NE NC HR HT) as (c & q' & e1 & b & e2 & acc & e3 & rd & e4 & peer & _ & E & _ & HA & _).
  assert (Hin : In acc evs) by (rewrite E; apply in_or_app; right; right; apply in_elt).
  destruct (guarded_accept pl a rq D w w' _ evs HR HT GroupOut GroupOut GroupOut _ HE Side
              ltac:(intros c0 x [H|H]; [left; split; [exact H|left; exact H]|right; exact H]) _ (guard_guarding euid _ _ S _ Side HB) (conj HG HPl) _ _ _
              (opened_group_shape pl a rq D w w' _ evs HR HT HU)
              ltac:(intros gb i c0 H (HO1 & HO2 & HO3); split; [exact HO1|eapply group_owner; [eapply group_stage; eassumption|exact HO2]])
              ltac:(intros gb i c0 H (HO1 & HO2 & HO3); eapply group_stage_write; [eapply group_stage; eassumption|exact HO1|exact HO3])
              _ c peer acc Hin HA) as [H1 H2].
  contradiction.
Qed.
End Sides.

(** *** Without *)
Notation Nobody := (fun _ : path => False).
Lemma alone T q k : SocketPath rq q -> Guarded T q k -> SideGuard Nobody T k.
Proof.
  intros Hq [S HG]. rewrite (SocketPath_unique rq q Hq) in HG. exists S. split; [exact HG|].
  split; [intros p []|intros p n []].
Qed.
Lemma alone_everyone (T : cred -> Prop) : Everyone (fun c x => T c \/ OnlyConnects x) w ->
  Everyone (fun c x => T c \/ OnlyConnects x \/ SideAct Nobody x) w.
Proof. apply Forall_impl. intros y. apply Forall_impl. intros ca. tauto. Qed.

Lemma socket_of_user : rq_uid rq <> rq_to_uid rq -> rq_to_uid rq <> 4294967295 ->
  forall q, SocketPath rq q -> Guarded UserOut q (w_k w) -> Everyone (fun c x => UserOut c \/ OnlyConnects x) w ->
  forall e1 b e2, evs = e1 ++ b :: e2 -> Creates q b -> forall k, Afterwards (w_k w') b e2 k ->
  i_perm (k_inodes k (k_next (e_pre b))) = 0
  \/ (i_perm (k_inodes k (k_next (e_pre b))) = 128 /\ i_uid (k_inodes k (k_next (e_pre b))) = rq_to_uid rq).
Proof.
  intros HU HN q Hq HG HE e1 b e2 E HC. apply (user_inode_side Nobody HU HN (alone _ _ _ Hq HG) (alone_everyone _ HE) e1 b e2 E).
  rewrite <- (SocketPath_unique rq q Hq). exact HC.
Qed.

Lemma socket_of_group : rq_uid rq = rq_to_uid rq -> rq_to_gid rq <> 4294967295 ->
  forall q, SocketPath rq q -> Guarded (Unprivileged euid) q (w_k w) ->
  Everyone (fun c x => Unprivileged euid c \/ OnlyConnects x) w ->
  forall e1 b e2, evs = e1 ++ b :: e2 -> Creates q b -> forall k, Afterwards (w_k w') b e2 k ->
  i_perm (k_inodes k (k_next (e_pre b))) = 0
  \/ (i_perm (k_inodes k (k_next (e_pre b))) = 16 /\ i_gid (k_inodes k (k_next (e_pre b))) = rq_to_gid rq).
Proof.
  intros HU HN q Hq HG HE e1 b e2 E HC. apply (group_inode_side Nobody HU HN (alone _ _ _ Hq HG) (alone_everyone _ HE) e1 b e2 E).
  rewrite <- (SocketPath_unique rq q Hq). exact HC.
Qed.

Lemma group_accepted : rq_uid rq = rq_to_uid rq -> rq_to_gid rq <> 4294967295 ->
  forall q, SocketPath rq q -> Guarded GroupOut q (w_k w) -> Everyone (fun c x => GroupOut c \/ OnlyConnects x) w ->
  forall n c peer acc, In acc evs -> Accepts n c peer acc -> cr_priv peer = true \/ In (rq_to_gid rq) (cr_gids peer).
Proof.
  intros HU HN q Hq HG HE. exact (group_accepted_side Nobody HU HN (alone _ _ _ Hq HG) (alone_everyone _ HE)).
Qed.

Lemma group_never : rq_uid rq = rq_to_uid rq -> rq_to_gid rq <> 4294967295 ->
  forall q, SocketPath rq q -> Guarded GroupOut q (w_k w) -> Everyone (fun c _ => GroupOut c) w ->
  ~ Exempt rq -> rq_command rq <> [] -> forall st', o <> Done (1, st').
Proof.
  intros HU HN q Hq HG HE. apply (group_never_side Nobody HU HN (alone _ _ _ Hq HG)).
  revert HE. apply Forall_impl. intros y. apply Forall_impl. intros ca. tauto.
Qed.

(** Whoever only attempts to connect or is kept out is not accepted. *)
Lemma user_accepted : rq_uid rq <> rq_to_uid rq -> Everyone (fun c x => UserOut c \/ OnlyConnects x) w ->
  forall n c peer acc, In acc evs -> Accepts n c peer acc -> ~ UserOut peer.
Proof.
  intros HU HE n c peer acc Hin HA.
  refine (proj2 (user_peer pl a rq D w w' o evs HR HT HU _ (fun _ => True) HE _ n c peer acc Hin HA)).
  intros c0 x H. split; [exact Logic.I|exact H].
Qed.

Lemma user_never : rq_uid rq <> rq_to_uid rq -> Everyone (fun c _ => UserOut c) w ->
  ~ Exempt rq -> rq_command rq <> [] -> forall st', o <> Done (1, st').
Proof.
  intros HU HE NE NC st' ->.
  destruct (approval_needed pl a rq w st' w' evs D NE NC HR HT) as (c & q & e1 & b & e2 & acc & e3 & rd & e4 & peer & _ & E & _ & HA & _).
  destruct (user_peer pl a rq D w w' _ evs HR HT HU _ UserOut HE) with (n := k_next (e_pre b)) (c := c) (peer := peer) (acc := acc) as [H1 H2].
  - intros c0 x H. auto.
  - rewrite E. apply in_or_app. right. right. apply in_elt.
  - exact HA.
  - contradiction.
Qed.

(** Connections only. *)
Lemma connects_everyone : ConnectOnly w -> Everyone (fun _ x => OnlyConnects x) w.
Proof. exact (fun H => H). Qed.

Lemma peer_of_user : rq_uid rq <> rq_to_uid rq -> rq_to_uid rq <> 4294967295 -> ConnectOnly w ->
  forall n c peer acc, In acc evs -> Accepts n c peer acc -> cr_priv peer = true \/ cr_uid peer = rq_to_uid rq.
Proof.
  intros HU HN HE n c peer acc Hin HA.
  destruct (guarded_accept pl a rq D w w' o evs HR HT (fun _ => True) (fun _ => False)
              (fun c => cr_priv c = false /\ cr_uid c <> rq_to_uid rq) _ (connects_everyone HE) Nobody
              ltac:(intros c0 x H; left; split; [exact Logic.I|right; exact H]) _ (free_guarding euid _ _) Logic.I _ _ _
              (opened_shape pl a rq D w w' o evs HR HT HU)
              ltac:(intros gb i c0 H [])
              ltac:(intros gb i c0 H [HO1 HO2]; eapply user_stage_write; [eapply user_stage; eassumption|exact HO1|exact HO2])
              n c peer acc Hin HA) as [_ H].
  destruct (cr_priv peer); [left; reflexivity|right].
  destruct (Z.eq_dec (cr_uid peer) (rq_to_uid rq)) as [X|X]; [exact X|]. destruct H. auto.
Qed.

Lemma peer_of_group : rq_uid rq = rq_to_uid rq -> rq_to_gid rq <> 4294967295 -> ConnectOnly w ->
  forall n c peer acc, In acc evs -> Accepts n c peer acc -> cr_priv peer = true \/ In (rq_to_gid rq) (cr_gids peer).
Proof.
  intros HU HN HE n c peer acc Hin HA.
  destruct (guarded_accept pl a rq D w w' o evs HR HT (fun _ => True) (fun _ => False)
              (fun c => cr_priv c = false /\ ~ In (rq_to_gid rq) (cr_gids c)) _ (connects_everyone HE) Nobody
              ltac:(intros c0 x H; left; split; [exact Logic.I|right; exact H]) _ (free_guarding euid _ _) Logic.I _ _ _
              (opened_group_shape pl a rq D w w' o evs HR HT HU)
              ltac:(intros gb i c0 H [])
              ltac:(intros gb i c0 H [HO1 HO2]; eapply group_stage_write; [eapply group_stage; eassumption|exact HO1|exact HO2])
              n c peer acc Hin HA) as [_ H].
  destruct (cr_priv peer); [left; reflexivity|right].
  destruct (in_dec Z.eq_dec (rq_to_gid rq) (cr_gids peer)) as [X|X]; [exact X|]. destruct H. auto.
Qed.

(** The requesting user. *)
Lemma requester_refused : rq_uid rq <> rq_to_uid rq -> rq_uid rq <> euid ->
  Everyone (fun c x => UserOut c \/ OnlyConnects x) w ->
  forall n c peer acc, In acc evs -> Accepts n c peer acc -> cr_priv peer = false -> cr_uid peer <> rq_uid rq.
Proof.
  intros HU HNE HE n c peer acc Hin HA HP E. apply (user_accepted HU HE n c peer acc Hin HA).
  split; [exact HP|]. split; congruence.
Qed.
End Claims.
