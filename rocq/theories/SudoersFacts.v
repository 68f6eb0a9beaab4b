(** Facts about who can approve when sudo goes by given rules, and about what
    the rules of the repository grant. *)
From Coq Require Import Lia.
From Verif Require Import Base BaseLemmas Num Path PathProofs Options World Sys Io Socket Env Core Pair Approve Script Install InstallSpec Spec ScriptSpec
  TraceSpec SessionSpec AdversarySpec HonourSpec AdversaryFacts GuardFacts SessionFacts ForwardFacts PeerFacts ScriptFacts ForgeFacts
  InstalledFacts InputFacts PairPure ReadProofs RequestProofs NumProofs KernelFacts Sudoers.
Local Open Scope Z_scope.

Section Found.
Variables (sd : sudoers) (bin : bytes) (db : database) (k : kernel) (q : path) (n : nat).
Hypothesis Hway : forall c, OpenWay c q k.
Hypothesis Hname : k_names k q = Some n.
Notation s := (k_inodes k n).
Hypothesis Hkind : i_kind s = KSock.
Hypothesis Huser : db_user db (i_uid s) = true.
Hypothesis Hgroup : db_group db (i_gid s) = true.

Lemma under_user pl rq gb groups pid ps : UserStage pl rq gb s -> i_perm s <> 0 ->
  ps_sudo_uid ps = None -> cr_uid (ps_cred ps) <> rq_uid rq ->
  ((exists ps', ReachedUnder sd bin db k q groups (rq_uid rq) pid ps ps')
   <-> cr_priv (ps_cred ps) = true \/ cr_uid (ps_cred ps) = rq_to_uid rq
       \/ May sd (cr_uid (ps_cred ps)) (cr_gids (ps_cred ps)) bin (AsUser (rq_to_uid rq))).
Proof.
  intros HS HP H0 N. assert (St : StartedBy (cr_uid (ps_cred ps)) ps) by (right; auto).
  pose proof HS as (_ & _ & [[X _]|[X1 X2]]); [contradiction|].
  pose proof (started_decision db k q n Hway Hname Hkind Huser Hgroup (rq_uid rq) _ pid ps St N) as E.
  assert (WT : forall c, cr_priv c = true \/ cr_uid c = rq_to_uid rq -> may_write c s = true).
  { intros c [H|H]; unfold may_write; rewrite H; [reflexivity|]. rewrite X1, X2, Z.eqb_refl. apply orb_true_r. }
  destruct (may_write (ps_cred ps) s) eqn:W.
  - split; [intros _|intros _; exists ps; apply RU_directly; exact E].
    destruct (cr_priv (ps_cred ps)) eqn:P; [left; reflexivity|].
    destruct (Z.eq_dec (cr_uid (ps_cred ps)) (rq_to_uid rq)) as [Y|Y]; [right; left; exact Y|].
    rewrite (user_stage_write pl rq gb s _ HS P Y) in W. discriminate.
  - assert (E' : run_script db k q (rq_uid rq) pid ps = SudoUser (rq_to_uid rq)) by (rewrite E, X1, X2; reflexivity). clear E. rename E' into E. split.
    + intros [ps' [R|v R HM _|g R HM _]]; [congruence| |congruence]. right. right. replace (rq_to_uid rq) with v by congruence. exact HM.
    + intros [H|[H|H]]; [rewrite WT in W by auto; discriminate|rewrite WT in W by auto; discriminate|].
      assert (St' : StartedBy (cr_uid (ps_cred ps)) (through_sudo groups ps (SudoUser (rq_to_uid rq)))) by (left; reflexivity).
      eexists. apply RU_user; [exact E|exact H|].
      rewrite (started_decision db k q n Hway Hname Hkind Huser Hgroup (rq_uid rq) _ pid _ St' N).
      rewrite WT; [reflexivity|right; reflexivity].
Qed.

Lemma under_group pl rq gb groups pid ps : GroupStage pl rq gb s -> i_perm s <> 0 ->
  ps_sudo_uid ps = None -> cr_uid (ps_cred ps) <> rq_uid rq -> cr_priv (ps_cred ps) = true \/ cr_uid (ps_cred ps) <> pl_euid pl ->
  ((exists ps', ReachedUnder sd bin db k q groups (rq_uid rq) pid ps ps')
   <-> cr_priv (ps_cred ps) = true \/ In (rq_to_gid rq) (cr_gids (ps_cred ps))
       \/ May sd (cr_uid (ps_cred ps)) (cr_gids (ps_cred ps)) bin (AsGroup (rq_to_gid rq))).
Proof.
  intros HS HP H0 N HE. assert (St : StartedBy (cr_uid (ps_cred ps)) ps) by (right; auto).
  pose proof HS as (_ & X0 & [[X _]|[X1 X2]]); [contradiction|].
  pose proof (started_decision db k q n Hway Hname Hkind Huser Hgroup (rq_uid rq) _ pid ps St N) as E.
  assert (WT : forall c, cr_priv c = true \/ (cr_uid c <> pl_euid pl /\ In (rq_to_gid rq) (cr_gids c)) -> may_write c s = true).
  { intros c [H|[H1 H2]]; unfold may_write; [rewrite H; reflexivity|]. rewrite X0, X1, X2.
    replace (cr_uid c =? pl_euid pl) with false by (symmetry; apply Z.eqb_neq; exact H1).
    apply mem_z_iff in H2. rewrite H2. apply orb_true_r. }
  destruct (may_write (ps_cred ps) s) eqn:W.
  - split; [intros _|intros _; exists ps; apply RU_directly; exact E].
    destruct (cr_priv (ps_cred ps)) eqn:P; [left; reflexivity|].
    destruct (in_dec Z.eq_dec (rq_to_gid rq) (cr_gids (ps_cred ps))) as [Y|Y]; [right; left; exact Y|].
    rewrite (group_stage_write pl rq gb s _ HS P Y) in W. discriminate.
  - assert (HE' : cr_uid (ps_cred ps) <> pl_euid pl).
    { destruct HE as [HE|HE]; [|exact HE]. rewrite WT in W by auto. discriminate. }
    assert (E' : run_script db k q (rq_uid rq) pid ps = SudoGroup (rq_to_gid rq)) by (rewrite E, X1, X2; reflexivity). clear E. rename E' into E. split.
    + intros [ps' [R|v R HM _|g R HM _]]; [congruence|congruence|]. right. right. replace (rq_to_gid rq) with g by congruence. exact HM.
    + intros [H|[H|H]]; [rewrite WT in W by auto; discriminate|rewrite WT in W by auto; discriminate|].
      assert (St' : StartedBy (cr_uid (ps_cred ps)) (through_sudo groups ps (SudoGroup (rq_to_gid rq)))) by (left; reflexivity).
      eexists. apply RU_group; [exact E|exact H|].
      rewrite (started_decision db k q n Hway Hname Hkind Huser Hgroup (rq_uid rq) _ pid _ St' N).
      rewrite WT; [reflexivity|right; split; [exact HE'|left; reflexivity]].
Qed.
End Found.

Section Claims.
Variables (pl : platform) (a : open_args) (rq : request) (w w' : world) (o : outcome (Z * pstate SudoPair)) (evs : list event).
Hypothesis D : Describes pl a rq.
Hypothesis HR : core_open SudoPair pl a (pstate0 _) w = (o, w').
Hypothesis HT : w_trace w' = w_trace w ++ evs.
Notation euid := (pl_euid pl).
Notation UserOut := (UserOutsider euid (rq_to_uid rq)).

Lemma approvers_user : rq_uid rq <> rq_to_uid rq -> rq_to_uid rq <> 4294967295 ->
  forall q, SocketPath rq q -> Guarded UserOut q (w_k w) -> Everyone (fun c x => UserOut c \/ OnlyConnects x) w ->
  forall e1 b e2, evs = e1 ++ b :: e2 -> Creates q b -> forall k, Afterwards (w_k w') b e2 k ->
  let s := k_inodes k (k_next (e_pre b)) in
  k_names k q = Some (k_next (e_pre b)) -> (forall c, OpenWay c q k) ->
  i_perm s = 0
  \/ forall sd bin db groups ps, db_user db (i_uid s) = true -> db_group db (i_gid s) = true ->
     ps_sudo_uid ps = None -> cr_uid (ps_cred ps) <> rq_uid rq ->
     ((exists ps', ReachedUnder sd bin db k q groups (rq_uid rq) (rq_pid rq) ps ps')
      <-> cr_priv (ps_cred ps) = true \/ cr_uid (ps_cred ps) = rq_to_uid rq
          \/ May sd (cr_uid (ps_cred ps)) (cr_gids (ps_cred ps)) bin (AsUser (rq_to_uid rq))).
Proof.
  intros HU HN q Hq HG HE e1 b e2 E HC k HK. cbv zeta. intros Hname Hway.
  destruct (stage_of_user pl a rq w w' o evs D HR HT HU HN q Hq HG HE e1 b e2 E HC k HK) as [gb HS].
  destruct (Z.eq_dec (i_perm (k_inodes k (k_next (e_pre b)))) 0) as [Z0|Z0]; [left; exact Z0|right].
  intros sd bin db groups ps Du Dg. exact (under_user sd bin db k q _ Hway Hname (proj1 HS) Du Dg pl rq gb groups _ ps HS Z0).
Qed.

Lemma approvers_group : rq_uid rq = rq_to_uid rq -> rq_to_gid rq <> 4294967295 ->
  forall q, SocketPath rq q -> Guarded (Unprivileged euid) q (w_k w) ->
  Everyone (fun c x => Unprivileged euid c \/ OnlyConnects x) w ->
  forall e1 b e2, evs = e1 ++ b :: e2 -> Creates q b -> forall k, Afterwards (w_k w') b e2 k ->
  let s := k_inodes k (k_next (e_pre b)) in
  k_names k q = Some (k_next (e_pre b)) -> (forall c, OpenWay c q k) ->
  i_perm s = 0
  \/ forall sd bin db groups ps, db_user db (i_uid s) = true -> db_group db (i_gid s) = true ->
     ps_sudo_uid ps = None -> cr_uid (ps_cred ps) <> rq_uid rq -> cr_priv (ps_cred ps) = true \/ cr_uid (ps_cred ps) <> euid ->
     ((exists ps', ReachedUnder sd bin db k q groups (rq_uid rq) (rq_pid rq) ps ps')
      <-> cr_priv (ps_cred ps) = true \/ In (rq_to_gid rq) (cr_gids (ps_cred ps))
          \/ May sd (cr_uid (ps_cred ps)) (cr_gids (ps_cred ps)) bin (AsGroup (rq_to_gid rq))).
Proof.
  intros HU HN q Hq HG HE e1 b e2 E HC k HK. cbv zeta. intros Hname Hway.
  destruct (stage_of_group pl a rq w w' o evs D HR HT HU HN q Hq HG HE e1 b e2 E HC k HK) as [gb HS].
  destruct (Z.eq_dec (i_perm (k_inodes k (k_next (e_pre b)))) 0) as [Z0|Z0]; [left; exact Z0|right].
  intros sd bin db groups ps Du Dg. exact (under_group sd bin db k q _ Hway Hname (proj1 HS) Du Dg pl rq gb groups _ ps HS Z0).
Qed.
End Claims.

(** ** What the rules grant *)

Lemma governs_one b r0 u gids c t r : Governs (mkSudoers b [r0]) u gids c t r -> r = r0 /\ Permits r0 u gids c t.
Proof.
  intros (l1 & l2 & E & P & _). cbn [sd_rules] in E.
  destruct l1 as [|x l1]; [injection E as <- _; auto|]. destruct l1; discriminate.
Qed.
Lemma governs_only b r0 u gids c t : Permits r0 u gids c t -> Governs (mkSudoers b [r0]) u gids c t r0.
Proof. intros H. exists [], []. split; [reflexivity|]. split; [exact H|constructor]. Qed.

Lemma sample_may nobody games u gids c t : May (sample_sudoers nobody games) u gids c t <-> u = nobody /\ t = AsGroup games.
Proof.
  split.
  - intros [r H]. apply governs_one in H as (_ & HA & _ & HT). cbn in HA. split; [exact HA|].
    destruct t as [v|g]; cbn in HT; [destruct HT|]. destruct HT as [[->|[]] _]. reflexivity.
  - intros [-> ->]. eexists. apply governs_only. split; [reflexivity|]. split; [exact Logic.I|]. cbn. auto.
Qed.

Lemma unlogged_passes pl a rq sd r w : Describes pl a rq -> Grants sd rq r -> logs sd r = false ->
  rq_command rq <> [] -> ~ MasklessAddr pl (oa_settings a) -> pl_debug pl = false \/ Consistent rq ->
  exists st', core_open SudoPair pl a (pstate0 _) w = (Done (1, st'), w) /\ st_plugin st' <> None.
Proof.
  intros D (t & _ & _ & HL) E NC NM ND. apply (exempt_proceeds pl a rq w D NC); [|exact NM|exact ND].
  do 3 right. left. rewrite !HL by (cbn; auto). auto.
Qed.

Lemma logged_paired pl a rq sd r w st' w' evs : Describes pl a rq -> Grants sd rq r -> logs sd r = true ->
  rq_uid rq <> rq_euid rq -> rq_uid rq <> rq_to_uid rq \/ rq_gid rq <> rq_to_gid rq -> ~ SamePath (rq_command rq) (rq_binary_path rq) ->
  ~ Meets (rq_exempted rq) (rq_groups rq) -> (exists g, In g (rq_enforced rq) /\ GainsGroup rq g) -> rq_command rq <> [] ->
  core_open SudoPair pl a (pstate0 _) w = (Done (1, st'), w') -> w_trace w' = w_trace w ++ evs ->
  exists c, Approved rq c evs.
Proof.
  intros D (t & _ & _ & HL) E N1 N2 N3 N4 (g & I1 & I2) NC H T.
  apply (approval_needed pl a rq w st' w' evs D); [|exact NC|exact H|exact T].
  intros [X|[[X1 X2]|[X|[(X & _)|[X|X]]]]]; try contradiction; [destruct N2; contradiction| |exact (X g I1 I2)].
  rewrite (HL Ttyout) in X by (cbn; auto). congruence.
Qed.

Lemma sample_grants nobody games rq r : Grants (sample_sudoers nobody games) rq r ->
  rq_uid rq = nobody /\ rq_to_uid rq = nobody /\ rq_to_gid rq = games /\ rq_f_group rq <> None /\ logs (sample_sudoers nobody games) r = true.
Proof.
  intros (t & HG & HT & _). apply governs_one in HG as (-> & HA & _ & HP). cbn in HA.
  destruct t as [v|g]; cbn in HP; [destruct HP|]. destruct HP as [[<-|[]] _]. destruct HT as (X1 & X2 & X3). repeat split; congruence.
Qed.

Lemma sample_paired pl a rq nobody games r w st' w' evs : Describes pl a rq -> Grants (sample_sudoers nobody games) rq r ->
  oa_plugin_options a = Some (make_entries (B "65534")) -> GainsGroup rq 65534 ->
  rq_uid rq <> rq_euid rq -> rq_gid rq <> games -> ~ SamePath (rq_command rq) (rq_binary_path rq) -> rq_command rq <> [] ->
  core_open SudoPair pl a (pstate0 _) w = (Done (1, st'), w') -> w_trace w' = w_trace w ++ evs ->
  exists c, Approved rq c evs.
Proof.
  intros D HG E HX N1 N2 N3 NC H T. destruct (sample_grants _ _ _ _ HG) as (_ & _ & EG & _ & EL).
  apply (logged_paired pl a rq _ r w st' w' evs D HG EL N1); auto.
  - right. congruence.
  - assert (X : rq_exempted rq = po_gids_exempted (plugin_options_from (from_raw (oa_plugin_options a)))).
    { symmetry. unfold plugin_options_from. cbn [po_gids_exempted].
      apply (get_or_iff (parse_int_set u32T) (UIntList 32) parse_u32s). exact (d_exempted _ _ _ D). }
    rewrite X, E. vm_compute. intros (g & [] & _).
  - exists 65534. rewrite (proj1 (sample_enforced _ _ _ D) E). split; [left; reflexivity|exact HX].
Qed.

Lemma sample_alone pl a rq w w' o evs nobody games r : Describes pl a rq ->
  core_open SudoPair pl a (pstate0 _) w = (o, w') -> w_trace w' = w_trace w ++ evs ->
  Grants (sample_sudoers nobody games) rq r -> games <> 4294967295 ->
  forall q, SocketPath rq q -> Guarded (Unprivileged (pl_euid pl)) q (w_k w) ->
  Everyone (fun c x => Unprivileged (pl_euid pl) c \/ OnlyConnects x) w ->
  forall e1 b e2, evs = e1 ++ b :: e2 -> Creates q b -> forall k, Afterwards (w_k w') b e2 k ->
  let s := k_inodes k (k_next (e_pre b)) in
  k_names k q = Some (k_next (e_pre b)) -> (forall c, OpenWay c q k) ->
  i_perm s = 0
  \/ forall bin db groups ps, db_user db (i_uid s) = true -> db_group db (i_gid s) = true ->
     ps_sudo_uid ps = None -> cr_uid (ps_cred ps) <> nobody -> cr_priv (ps_cred ps) = true \/ cr_uid (ps_cred ps) <> pl_euid pl ->
     ((exists ps', ReachedUnder (sample_sudoers nobody games) bin db k q groups (rq_uid rq) (rq_pid rq) ps ps')
      <-> cr_priv (ps_cred ps) = true \/ In games (cr_gids (ps_cred ps))).
Proof.
  intros D HR HT HGr HN q Hq HG HE e1 b e2 E HC k HK. cbv zeta. intros Hname Hway.
  destruct (sample_grants _ _ _ _ HGr) as (EU & EU' & EG & _ & _).
  destruct (approvers_group pl a rq w w' o evs D HR HT) with (q := q) (e1 := e1) (b := b) (e2 := e2) (k := k) as [X|X];
    try assumption; [congruence|congruence|left; exact X|right].
  intros bin db groups ps H1 H2 H3 H4 H5. rewrite (X _ bin db groups ps H1 H2 H3 ltac:(congruence) H5), EG, sample_may.
  split; [intros [Y|[Y|[Y _]]]; [auto|auto|contradiction]|intros [Y|Y]; auto].
Qed.

(** A rule, and a later exception to it. *)
Lemma governs_two b r1 r2 u gids c t r : Governs (mkSudoers b [r1; r2]) u gids c t r ->
  (r = r2 /\ Permits r2 u gids c t) \/ (r = r1 /\ Permits r1 u gids c t /\ ~ Permits r2 u gids c t).
Proof.
  intros (l1 & l2 & E & P & F). cbn [sd_rules] in E. destruct l1 as [|x l1].
  - cbn [app] in E. injection E as <- <-. right. split; [reflexivity|]. split; [exact P|]. inversion F; assumption.
  - injection E as _ E. destruct l1 as [|y l1]; [injection E as <- _; left; auto|]. destruct l1; discriminate E.
Qed.

Lemma exception_grants wheel rq r : Grants (with_exception wheel) rq r ->
  In wheel (rq_gid rq :: rq_groups rq) /\ rq_f_group rq = None
  /\ (logs (with_exception wheel) r = false <-> In (rq_command rq) [B "/bin/cat"; B "/bin/ls"]).
Proof.
  intros (t & HG & HT & _). apply governs_two in HG.
  assert (HV : forall v, t = AsUser v -> rq_f_group rq = None) by (intros v ->; exact (proj2 HT)).
  destruct HG as [(-> & HA & HC & HP)|(-> & (HA & _ & HP) & HN)]; (split; [exact HA|]);
    (destruct t as [v|g]; [|destruct HP as [[] _]]); (split; [exact (HV v eq_refl)|]); (split; intros X).
  - exact HC.
  - reflexivity.
  - discriminate X.
  - exfalso. apply HN. split; [exact HA|]. split; [exact X|exact Logic.I].
Qed.

Lemma opt_out_passes pl a rq wheel r w : Describes pl a rq ->
  Grants (readme_opt_out wheel) rq r \/ Grants (with_exception wheel) rq r /\ In (rq_command rq) [B "/bin/cat"; B "/bin/ls"] ->
  ~ MasklessAddr pl (oa_settings a) -> pl_debug pl = false \/ Consistent rq ->
  In wheel (rq_gid rq :: rq_groups rq)
  /\ exists st', core_open SudoPair pl a (pstate0 _) w = (Done (1, st'), w) /\ st_plugin st' <> None.
Proof.
  intros D HG NM ND.
  assert (K : exists sd, Grants sd rq r /\ logs sd r = false /\ In wheel (rq_gid rq :: rq_groups rq) /\ In (rq_command rq) [B "/bin/cat"; B "/bin/ls"]).
  { destruct HG as [HG|[HG HC]].
    - pose proof HG as (t & HV & _ & _). apply governs_one in HV as (-> & HA & HC & _). eexists. split; [exact HG|]. split; [reflexivity|]. split; [exact HA|exact HC].
    - destruct (exception_grants _ _ _ HG) as (HA & _ & HL). eexists. split; [exact HG|]. split; [apply HL; exact HC|]. split; [exact HA|exact HC]. }
  destruct K as (sd & HS & HL & HA & HC). split; [exact HA|].
  apply (unlogged_passes pl a rq sd r w D HS HL); [|exact NM|exact ND].
  intros X. rewrite X in HC. destruct HC as [HC|[HC|[]]]; discriminate HC.
Qed.

Lemma opt_in_paired pl a rq wheel r w st' w' evs : Describes pl a rq ->
  Grants (readme_opt_in wheel) rq r \/ Grants (with_exception wheel) rq r /\ ~ In (rq_command rq) [B "/bin/cat"; B "/bin/ls"] ->
  rq_uid rq <> rq_euid rq -> rq_uid rq <> rq_to_uid rq \/ rq_gid rq <> rq_to_gid rq -> ~ SamePath (rq_command rq) (rq_binary_path rq) ->
  ~ Meets (rq_exempted rq) (rq_groups rq) -> (exists g, In g (rq_enforced rq) /\ GainsGroup rq g) -> rq_command rq <> [] ->
  core_open SudoPair pl a (pstate0 _) w = (Done (1, st'), w') -> w_trace w' = w_trace w ++ evs ->
  In wheel (rq_gid rq :: rq_groups rq) /\ exists c, Approved rq c evs.
Proof.
  intros D HG N1 N2 N3 N4 N5 NC H T.
  assert (K : exists sd, Grants sd rq r /\ logs sd r = true /\ In wheel (rq_gid rq :: rq_groups rq)).
  { destruct HG as [HG|[HG HC]].
    - pose proof HG as (t & HV & _ & _). apply governs_one in HV as (-> & HA & _). eexists. split; [exact HG|]. split; [reflexivity|exact HA].
    - destruct (exception_grants _ _ _ HG) as (HA & _ & HL). exists (with_exception wheel). split; [exact HG|]. split; [|exact HA].
      destruct (logs (with_exception wheel) r); [reflexivity|]. exfalso. apply HC, HL. reflexivity. }
  destruct K as (sd & HS & HL & HA). split; [exact HA|].
  exact (logged_paired pl a rq sd r w st' w' evs D HS HL N1 N2 N3 N4 N5 NC H T).
Qed.
