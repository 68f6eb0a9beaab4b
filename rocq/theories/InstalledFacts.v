(** How the plugin fares after each of the installations. *)
From Coq Require Import Lia.
From Verif Require Import Base BaseLemmas Num Path Options World Sys Io Socket Env Core Pair Install InstallSpec
  Spec TraceSpec SessionSpec AdversarySpec HonourSpec PathProofs RequestProofs PairPure InputFacts NumProofs ReadProofs RunProofs SocketProofs PairProofs KernelFacts OpenFacts
  MiscFacts SplitFacts CleanupFacts FilesFacts ShapeFacts AdversaryFacts GuardFacts PeerFacts SessionFacts ForwardFacts SearchFacts SideFacts
  ArgFacts TalkSpec AskFacts InstallFacts.
Local Open Scope Z_scope.

(** ** The way to the socket *)
Lemma sockdir_prefixes (q d r : path) n : q = components sockdir ++ [Normal n] -> q = d ++ r -> r <> [] ->
  d = [] \/ In d (map components above_sock) \/ d = components sockdir.
Proof.
  intros -> E N. change (components sockdir ++ [Normal n]) with [RootDir; Normal (B "var"); Normal (B "run"); Normal (B "sudo_pair"); Normal n] in E.
  change (map components above_sock) with [[RootDir]; [RootDir; Normal (B "var")]; [RootDir; Normal (B "var"); Normal (B "run")]].
  change (components sockdir) with [RootDir; Normal (B "var"); Normal (B "run"); Normal (B "sudo_pair")].
  destruct d as [|a d]; [left; reflexivity|right]. cbn in E. injection E as <- E.
  destruct d as [|a d]; [left; cbn; auto|]. cbn in E. injection E as <- E.
  destruct d as [|a d]; [left; cbn; auto|]. cbn in E. injection E as <- E.
  destruct d as [|a d]; [left; cbn; auto|]. cbn in E. injection E as <- E.
  destruct d as [|a d]; [right; reflexivity|]. cbn in E. injection E as <- E.
  destruct d as [|a d]; [|discriminate]. cbn in E. congruence.
Qed.

Lemma file_resolve k p i : FileAt k p i -> (forall t, i_kind i <> KLink t) -> exists n, resolve k (components p) = Some n /\ k_inodes k n = i.
Proof.
  intros (n & E & X & _) K. exists n. split; [|exact X]. unfold resolve. cbn [resolve_fuel]. rewrite E, X.
  destruct (i_kind i) eqn:Y; try reflexivity. destruct (K _ eq_refl).
Qed.

(** The directories above the socket directory are as they were. *)
Lemma way_after D L k k' peer q n i : Stage D [] [] k -> Stage D [] L k' ->
  (forall d, In d above_sock -> exists m x, In (components d, m, x) D) ->
  k_names k' [] = None -> In (sockdir, i) L -> i_kind i = KDir -> MaySearch peer i ->
  q = components sockdir ++ [Normal n] ->
  cr_priv peer = true \/ OpenWay peer (components sockdir) k -> OpenWay peer q k'.
Proof.
  intros S S' HD NE Hi K HS Eq HW d r m E N Em. destruct (sockdir_prefixes q d r n Eq E N) as [->|[Hd| ->]].
  - congruence.
  - apply in_map_iff in Hd as (b & <- & Hb). destruct (HD b Hb) as (x & y & Hx).
    destruct (sg_dirs _ _ _ _ S' _ _ _ Hx) as (R' & X' & KD). exists x. split; [exact R'|]. split; [congruence|]. rewrite X'.
    destruct HW as [HP|HW]; [left; exact HP|].
    destruct (sg_dirs _ _ _ _ S _ _ _ Hx) as (R & X & _).
    destruct (k_names k (components b)) as [z|] eqn:Ez; [|unfold resolve in R; cbn in R; rewrite Ez in R; discriminate].
    destruct (HW (components b) (skipn (List.length (components b)) (components sockdir)) z) as (w & Rw & _ & Sw); [| |exact Ez|].
    + repeat (destruct Hb as [<-|Hb]; [reflexivity|]). destruct Hb.
    + repeat (destruct Hb as [<-|Hb]; [discriminate|]). destruct Hb.
    + assert (w = x) as -> by congruence. rewrite X in Sw. exact Sw.
  - destruct (file_resolve k' sockdir i (sg_files _ _ _ _ S' _ _ Hi)) as (x & R & X); [rewrite K; discriminate|].
    exists x. split; [exact R|]. rewrite X. split; [exact K|exact HS].
Qed.

Lemma ready_after D L k' i pl rq q : Stage D [] L k' -> In (sockdir, i) L -> PrivateDir (pl_euid pl) i ->
  rq_socket_dir rq = sockdir -> (k_names k' q = None \/ exists m, resolve k' q = Some m /\ i_kind (k_inodes k' m) = KSock) -> Ready pl rq q k'.
Proof.
  intros S' Hi P E HN. split; [exact HN|].
  destruct (file_resolve k' sockdir i (sg_files _ _ _ _ S' _ _ Hi)) as (x & R & X); [rewrite (proj1 P); discriminate|].
  exists x. rewrite E, X. split; assumption.
Qed.

Lemma socket_untouched does q rq k : rq_socket_dir rq = sockdir -> SocketPath rq q ->
  forallb (fun ca => forallb (fun p => (Nat.leb (List.length p) 4 || negb (comps_eqb (firstn 4 p) (components sockdir))) && negb (comps_eqb p [])) (touched (snd ca))) does = true ->
  k_names (after does k) q = k_names k q /\ k_names (after does k) [] = k_names k [].
Proof.
  intros E (n & _ & ->) H. rewrite E. rewrite forallb_forall in H.
  split; apply after_untouched; apply Forall_forall; intros ca Hca Hin; specialize (H _ Hca); rewrite forallb_forall in H;
    specialize (H _ Hin); apply andb_true_iff in H as [H1 H2].
  - apply orb_true_iff in H1 as [H1|H1]; [apply Nat.leb_le in H1; rewrite app_length in H1; cbn in H1; lia|].
    apply negb_true_iff, comps_eqb_neq in H1. apply H1. reflexivity.
  - discriminate.
Qed.

(** ** The recipes *)
Ltac nofiles x k :=
  try match goal with |- context [effect ?e ?c x k] => destruct (effect_files e c x k Logic.I) as (? & ? & _); congruence end.

Section Fare.
Variables (pl : platform) (a : open_args) (rq : request) (q : path).
Hypothesis D : Describes pl a rq.
Hypothesis HQ : SocketPath rq q.
Hypothesis HE : rq_socket_dir rq = sockdir.
Hypothesis HU : pl_euid pl = 0.

(** What is known about the socket directory if it was there. *)
Definition OfRoot (k : kernel) : Prop := forall i, FileAt k sockdir i -> i_uid i = 0.

Lemma docker_able k peer tr : Askable pl a rq -> Host docker_dirs [sockdir] docker_files k -> OfRoot k -> k_names k q = None ->
  cr_priv peer = true ->
  exists t1 t2 st' w', Calm t1 /\ Calm t2
    /\ core_open SudoPair pl a (pstate0 _) (mkWorld (after make_docker k) (t1 ++ ([(peer, Connect q)], ANum 1) :: t2) tr) = (Done (1, st'), w')
    /\ w_script w' = [] /\ st_plugin st' <> None.
Proof.
  intros A H HR HN HP. destruct (docker_stage k H) as (Ds & i & HD & S & K & MD & S').
  destruct (socket_untouched make_docker q rq k HE HQ ltac:(vm_compute; reflexivity)) as [E1 E2].
  assert (U : i_uid i = 0). { destruct MD as [[_ ->]|MD]; [reflexivity|exact (HR _ MD)]. }
  pose proof HQ as (n & _ & Eq). rewrite HE in Eq.
  apply (approvable pl a rq q peer D A HQ (or_introl HP)).
  - eapply ready_after; [exact S'|right; right; right; right; right; left; reflexivity| |exact HE|left; congruence].
    rewrite U, HU. repeat split; reflexivity || discriminate.
  - exact (sg_numbered _ _ _ _ S').
  - eapply way_after with (k := k); [exact S|exact S'| | |right; right; right; right; right; left; reflexivity|reflexivity|left; exact HP|exact Eq|left; exact HP].
    + intros d Hd. apply HD. apply in_or_app. left. exact Hd.
    + rewrite E2. exact (ho_empty _ _ _ _ H).
Qed.

Lemma deb_able u g m k peer tr : Askable pl a rq -> Host deb_dirs deb_made deb_files k -> k_names k q = None ->
  Entitled pl rq peer -> OpenWay peer (components sockdir) k ->
  exists t1 t2 st' w', Calm t1 /\ Calm t2
    /\ core_open SudoPair pl a (pstate0 _) (mkWorld (after (deb_install u g m) k) (t1 ++ ([(peer, Connect q)], ANum 1) :: t2) tr) = (Done (1, st'), w')
    /\ w_script w' = [] /\ st_plugin st' <> None.
Proof.
  intros A H HN HP HW. destruct (deb_stage u g m k H) as (Ds & HD & S & S').
  destruct (socket_untouched (deb_install u g m) q rq k HE HQ ltac:(vm_compute; reflexivity)) as [E1 E2].
  pose proof HQ as (n & _ & Eq). rewrite HE in Eq.
  apply (approvable pl a rq q peer D A HQ HP).
  - eapply ready_after; [exact S'|right; right; right; left; reflexivity| |exact HE|left; congruence].
    rewrite HU. repeat split; reflexivity || discriminate.
  - exact (sg_numbered _ _ _ _ S').
  - eapply way_after with (k := k); [exact S|exact S'| | |right; right; right; left; reflexivity|reflexivity| |exact Eq|right; exact HW].
    + intros d Hd. apply HD. apply in_or_app. left. exact Hd.
    + rewrite E2. exact (ho_empty _ _ _ _ H).
    + destruct (cr_priv peer) eqn:P; [left; exact P|]. destruct (Z.eq_dec (cr_uid peer) 0) as [E|E].
      * right; left. split; [exact E|reflexivity].
      * right; right. destruct (in_dec Z.eq_dec 0 (cr_gids peer)) as [I|I]; [left|right]; repeat split; auto.
Qed.

(** With the directory in mode 0644. *)
Lemma closed_after L Ds k' w w' o i : Stage Ds [] L k' -> In (sockdir, i) L -> i_kind i = KDir -> i_perm i = 420 ->
  w_k w = k' -> Guarded (Unprivileged (pl_euid pl)) q k' ->
  core_open SudoPair pl a (pstate0 _) w = (o, w') ->
  Everyone (fun c x => cr_priv c = false /\ (cr_uid c <> pl_euid pl \/ OnlyConnects x)) w ->
  ~ Exempt rq -> rq_command rq <> [] -> forall st', o <> Done (1, st').
Proof.
  intros S' Hi K P Ek HG R HE' NX NC st' E. subst o. destruct (opening_trace _ _ _ _ _ R) as [evs HT].
  destruct (file_resolve k' sockdir i (sg_files _ _ _ _ S' _ _ Hi)) as (x & Rx & X); [rewrite K; discriminate|].
  refine (closed_never pl a rq w w' _ evs D R HT q x HQ _ _ _ _ _ HE' NX NC st' eq_refl); rewrite ?Ek.
  - exact (sg_numbered _ _ _ _ S').
  - exact HG.
  - destruct HQ as (n & _ & ->). unfold dir_path. rewrite removelast_last, HE. exact Rx.
  - rewrite X. exact K.
  - rewrite X, P. reflexivity.
Qed.

Lemma docker_closed k w w' o : Host docker_dirs [sockdir] docker_files k -> w_k w = after make_docker k ->
  Guarded (Unprivileged (pl_euid pl)) q (after make_docker k) ->
  core_open SudoPair pl a (pstate0 _) w = (o, w') ->
  Everyone (fun c x => cr_priv c = false /\ (cr_uid c <> pl_euid pl \/ OnlyConnects x)) w ->
  ~ Exempt rq -> rq_command rq <> [] -> forall st', o <> Done (1, st').
Proof.
  intros H Ek HG. destruct (docker_stage k H) as (Ds & i & _ & _ & K & _ & S').
  eapply closed_after; [exact S'|right; right; right; right; right; left; reflexivity|reflexivity|reflexivity|exact Ek|exact HG].
Qed.

Lemma readme_closed k w w' o : Host readme_dirs [sockdir] readme_files k -> w_k w = after readme_install k ->
  Guarded (Unprivileged (pl_euid pl)) q (after readme_install k) ->
  core_open SudoPair pl a (pstate0 _) w = (o, w') ->
  Everyone (fun c x => cr_priv c = false /\ (cr_uid c <> pl_euid pl \/ OnlyConnects x)) w ->
  ~ Exempt rq -> rq_command rq <> [] -> forall st', o <> Done (1, st').
Proof.
  intros H Ek HG. destruct (readme_stage k H) as (Ds & _ & _ & S').
  eapply closed_after; [exact S'|right; right; left; reflexivity|reflexivity|reflexivity|exact Ek|exact HG].
Qed.

(** ** Without a socket directory *)
Lemma act_kinds k ca : (k_next k <= k_next (act k ca))%nat
  /\ forall n, (n < k_next k)%nat -> i_kind (k_inodes (act k ca) n) = i_kind (k_inodes k n).
Proof.
  assert (PI : forall n i m, i_kind i = i_kind (k_inodes k n) -> i_kind (put_inode n i (k_inodes k) m) = i_kind (k_inodes k m)).
  { intros n i m H. unfold put_inode. destruct (Nat.eqb m n) eqn:E; [|reflexivity]. apply Nat.eqb_eq in E. subst m. exact H. }
  destruct ca as [c x]. destruct x; cbn [act].
  - destruct (finds k c p); [|auto]. destruct (k_listen k); [|auto]. destruct (_ && _); cbn; auto.
  - destruct (can_edit k c p); cbn; auto.
  - destruct (can_edit k c p); [|auto]. destruct (k_names k p); [auto|]. cbn. split; [lia|]. intros n Hn.
    rewrite put_inode_other by lia. reflexivity.
  - destruct (_ && _); [|auto]. destruct (k_names k p); cbn; auto.
  - destruct (_ && _); [|auto]. destruct (k_names k p); [|auto]. destruct (k_names k q0); cbn; auto.
  - destruct (finds k c p); [|auto]. destruct (is_owner k c n); [|auto]. cbn. split; [lia|]. intros m _. apply PI. reflexivity.
  - destruct (finds k c p); [|auto]. destruct (_ || _); [|auto]. cbn. split; [lia|]. intros m _. apply PI. reflexivity.
Qed.

Lemma act_guarded_names T S k c x : GuardedBy T S q k -> T c \/ OnlyConnects x -> forall p, S p -> k_names (act k (c, x)) p = k_names k p.
Proof.
  intros G HT p Hp. destruct HT as [HT|[r ->]].
  2: { apply act_untouched. intros []. }
  assert (NE : forall r, can_edit k c r = true -> p <> r).
  { intros r Hr ->. apply (no_edit _ _ _ _ _ _ G HT Hr). left. exact Hp. }
  destruct x; try (apply act_untouched; intros []; fail); cbn [act].
  - destruct (can_edit k c p0) eqn:E; [|reflexivity]. cbn. apply put_name_other. apply NE. exact E.
  - destruct (can_edit k c p0) eqn:E; [|reflexivity]. destruct (k_names k p0); [reflexivity|]. cbn. apply put_name_other. apply NE. exact E.
  - destruct (can_edit k c p0 && can_edit k c q0) eqn:E; [|reflexivity]. apply andb_true_iff in E as [E1 E2].
    destruct (k_names k p0); [|reflexivity]. cbn. rewrite put_name_other by (apply NE; exact E1). apply put_name_other. apply NE. exact E2.
  - destruct (can_search k c p0 && can_edit k c q0) eqn:E; [|reflexivity]. apply andb_true_iff in E as [_ E2].
    destruct (k_names k p0); [|reflexivity]. destruct (k_names k q0); [reflexivity|]. cbn. apply put_name_other. apply NE. exact E2.
Qed.

Section Missing.
Variable T : cred -> Prop.
Variable S : path -> Prop.
Let Inv (k : kernel) : Prop := GuardedBy T S q k /\ dir_inode k q = None.
Let Meek (ca : cred * action) : Prop := T (fst ca) \/ OnlyConnects (snd ca).

Lemma missing_act k ca : Meek ca -> Inv k -> Inv (act k ca).
Proof.
  intros HM [G E]. destruct ca as [c x]. unfold Meek in HM. cbn [fst snd] in HM.
  assert (NS : forall p : path, False -> Beside q p /\ ~ S p) by (intros p []).
  destruct (g_act _ _ _ _ _ _ (guard_guarding (pl_euid pl) (fun _ => True) T S q (fun _ => False) NS) k (c, x)) as ((G' & _) & _).
  { split; [exact G|intros p n []]. }
  { left. split; [exact Logic.I|exact HM]. }
  split; [exact G'|]. rewrite (dir_same T S q k (act k (c, x)) q G (act_guarded_names T S k c x G HM) (proj2 (act_kinds k (c, x))) (or_intror eq_refl)).
  exact E.
Qed.

Lemma missing_acts acts : Forall Meek acts -> forall k, Inv k -> Inv (fold_left act acts k).
Proof. induction 1 as [|ca acts H _ IH]; intros k HK; [exact HK|]. cbn. apply IH. apply missing_act; assumption. Qed.

Lemma missing_call k c x : PreBind q c \/ c = CSocket -> Inv k -> Inv (effect (pl_euid pl) c x k).
Proof.
  intros HC [G E].
  assert (GC : GCall q k c) by (destruct HC as [HC| ->]; [apply PreBind_GCall; exact HC|exact Logic.I]).
  split; [apply guard_call; assumption|].
  assert (HN : forall p, S p -> k_names (effect (pl_euid pl) c x k) p = k_names k p).
  { intros p Hp. assert (p <> q) by (intros ->; exact (gd_self _ _ _ _ G Hp)).
    destruct c; nofiles x k; try (destruct HC as [HC|HC]; [contradiction|discriminate]).
    destruct HC as [HC|HC]; [|discriminate]. cbn in HC. rewrite HC. cbn [effect]. destruct x; try reflexivity. destruct (k_names k q); [|reflexivity].
    cbn. apply put_name_other. assumption. }
  assert (HI : k_inodes (effect (pl_euid pl) c x k) = k_inodes k).
  { destruct c; nofiles x k; try (destruct HC as [HC|HC]; [contradiction|discriminate]).
    cbn [effect]. destruct x; try reflexivity. destruct (k_names k p); reflexivity. }
  rewrite (dir_same T S q k _ q G HN ltac:(intros; rewrite HI; reflexivity) (or_intror eq_refl)). exact E.
Qed.

Lemma missing_linked k ts evs k' : Linked (pl_euid pl) k ts evs k' -> Forall (fun t : turn => Forall Meek (fst t)) ts ->
  Forall (fun ev => PreBind q (e_call ev) \/ e_call ev = CSocket) evs -> Inv k -> Inv k'.
Proof.
  induction 1 as [|k acts x c k1 k2 ts evs k' E1 E2 HL IH]; intros HT HF HK; [exact HK|].
  apply IH; [exact (Forall_inv_tail HT)|exact (Forall_inv_tail HF)|]. subst k2. apply missing_call; [apply Forall_inv in HF; exact HF|].
  subst k1. apply missing_acts; [exact (Forall_inv HT)|exact HK].
Qed.
End Missing.

Lemma missing_never w w' o : Guarded (Unprivileged (pl_euid pl)) q (w_k w) -> dir_inode (w_k w) q = None ->
  core_open SudoPair pl a (pstate0 _) w = (o, w') ->
  Everyone (fun c x => Unprivileged (pl_euid pl) c \/ OnlyConnects x) w ->
  ~ Exempt rq -> rq_command rq <> [] -> forall st', o <> Done (1, st').
Proof.
  intros [S G] E R HV NX NC st' ->. destruct (opening_trace _ _ _ _ _ R) as [evs HT].
  destruct (approval_needed _ _ _ _ _ _ _ D NX NC R HT) as (c & r & e1 & b & e2 & acc & e3 & rd & e4 & peer & Hr & -> & HC & HA & _).
  assert (r = q) as -> by (apply (SocketPath_unique rq) in Hr, HQ; congruence).
  pose proof (SocketPath_unique rq q HQ) as Eq.
  assert (X : exists u g m, OpenShape pl rq w w' (e1 ++ b :: e2 ++ acc :: e3 ++ rd :: e4) u g m \/ Only LocalPrompt (e1 ++ b :: e2 ++ acc :: e3 ++ rd :: e4)).
  { destruct (Z.eq_dec (rq_uid rq) (rq_to_uid rq)) as [X|X]; eexists _, _, _;
      [exact (opened_group_shape pl a rq D w w' _ _ R HT X)|exact (opened_shape pl a rq D w w' _ _ R HT X)]. }
  assert (Hin : In b (e1 ++ b :: e2 ++ acc :: e3 ++ rd :: e4)) by apply in_elt.
  destruct X as (u & g & m & [(ts & p & Ep & Es & HL & HSh)|HO]).
  2: { pose proof (proj1 (Forall_forall _ _) HO _ Hin) as Y. cbv beta in Y. rewrite (proj1 HC) in Y. exact Y. }
  destruct HSh as [HSh|(pre & um & fd & sk & b' & tr & Ev & Hp & Hu & Hs & Hb & Htr)].
  { destruct (proj1 (Forall_forall _ _) HSh _ Hin) as [NB _]. apply NB. unfold bound. rewrite Ep, <- Eq. exact HC. }
  rewrite Ev in HL. replace (pre ++ um :: sk :: b' :: tr) with ((pre ++ [um; sk]) ++ b' :: tr) in HL by (rewrite <- app_assoc; reflexivity).
  apply Linked_split in HL as (ts1 & ts2 & k1 & -> & L1 & L2).
  assert (I1 : GuardedBy (Unprivileged (pl_euid pl)) S q k1 /\ dir_inode k1 q = None).
  { apply (missing_linked _ _ _ _ _ _ L1); [| |split; assumption].
    - unfold Everyone in HV. rewrite Es in HV. apply Forall_app in HV as [HV _]. apply Forall_app in HV as [HV _]. exact HV.
    - apply Forall_app. split; [|constructor; [|constructor; [|constructor]]].
      + revert Hp. apply Forall_impl. intros ev Y. left. rewrite Ep, <- Eq in Y. exact Y.
      + left. rewrite (proj1 Hu). exact Logic.I.
      + right. exact (proj1 Hs). }
  unfold bound in Hb. rewrite Ep, <- Eq in Hb. destruct Hb as (_ & _ & _ & _ & Hd). clear Ep Eq Ev.
  inversion L2 as [|k0 acts x c0 k2 k3 ts3 evs3 k4 E1 E2 L3]; subst. cbn [e_pre] in Hd. apply Hd.
  unfold Everyone in HV. rewrite Es in HV. apply Forall_app in HV as [HV _]. apply Forall_app in HV as [_ HV]. apply Forall_inv in HV.
  exact (proj2 (missing_acts (Unprivileged (pl_euid pl)) S _ HV _ I1)).
Qed.

(** ** Files that are not there are not read *)
Lemma name_kept w w' o evs p : core_open SudoPair pl a (pstate0 _) w = (o, w') -> w_trace w' = w_trace w ++ evs ->
  Everyone (fun _ x => ~ In p (touched x)) w -> p <> q -> forall ev, In ev evs -> k_names (e_pre ev) p = k_names (w_k w) p.
Proof.
  intros R HT HV NQ. pose proof (arguments pl a rq D w o w' evs q R HT HQ) as HA.
  destruct (split_given pl a rq D w o w' evs R HT) as [(ts & Es & _ & HL) _].
  unfold Everyone in HV. rewrite Es in HV. apply Forall_app in HV as [HV _]. clear Es R HT. revert HV HA.
  induction HL as [|k acts x c k1 k2 ts evs k' E1 E2 HL IH]; intros HV HA ev; [intros []|].
  assert (K1 : k_names k1 p = k_names k p).
  { subst k1. apply (after_untouched p acts). apply Forall_inv in HV. exact HV. }
  intros [<-|Hin]; [exact K1|]. rewrite (IH (Forall_inv_tail HV) (Forall_inv_tail HA) ev Hin). rewrite <- K1. subst k2.
  apply Forall_inv in HA. cbn in HA.
  destruct c; nofiles x k1; cbn in HA |- *.
  - subst p0. destruct x; try reflexivity. destruct (k_names k1 q); [|reflexivity]. cbn. apply put_name_other. exact NQ.
  - subst p0. destruct x; try reflexivity. destruct (k_listen k1); [|reflexivity]. destruct (k_names k1 q); [reflexivity|].
    destruct (dir_inode k1 q); [|reflexivity]. cbn. apply put_name_other. exact NQ.
  - destruct x; try reflexivity. destruct (resolve k1 p0); reflexivity.
  - destruct x; try reflexivity. destruct (resolve k1 p0); reflexivity.
Qed.

Lemma not_read w w' o evs f : core_open SudoPair pl a (pstate0 _) w = (o, w') -> w_trace w' = w_trace w ++ evs ->
  HonestFiles evs -> Everyone (fun _ x => ~ In (components f) (touched x)) w -> components f <> q -> k_names (w_k w) (components f) = None ->
  forall ev d, In ev evs -> ~ Is (CReadFile f) (AData d) ev.
Proof.
  intros R HT HF HV NQ EN ev d Hin HI. apply (HF ev f d Hin HI). unfold resolve. cbn [resolve_fuel].
  rewrite (name_kept _ _ _ _ _ R HT HV NQ ev Hin), EN. reflexivity.
Qed.
End Fare.

(** ** The statements of the property theorems *)
Lemma makefile_leaves k : Host docker_dirs [sockdir] docker_files k ->
  FileAt (after make_docker k) (B "/usr/bin/sudo_approve") (mkInode KReg 0 0 493)
  /\ FileAt (after make_docker k) (B "/usr/lib/sudo/sudo_pair.so") (mkInode KReg 0 0 420)
  /\ FileAt (after make_docker k) user_prompt_file (mkInode KReg 0 0 420)
  /\ FileAt (after make_docker k) pair_prompt_file (mkInode KReg 0 0 420)
  /\ FileAt (after make_docker k) (B "/etc/sudoers.d/sudo_pair") (mkInode KReg 0 0 288)
  /\ ((k_names k (components sockdir) = None /\ FileAt (after make_docker k) sockdir (mkInode KDir 0 0 420))
      \/ exists i, FileAt k sockdir i /\ FileAt (after make_docker k) sockdir (mkInode KDir (i_uid i) (i_gid i) 420)).
Proof.
  intros H. destruct (docker_stage k H) as (Ds & i & _ & _ & _ & M & S).
  split; [apply (sg_files _ _ _ _ S); cbn; auto 10|]. split; [apply (sg_files _ _ _ _ S); cbn; auto 10|].
  split; [apply (sg_files _ _ _ _ S); cbn; auto 10|]. split; [apply (sg_files _ _ _ _ S); cbn; auto 10|].
  split; [apply (sg_files _ _ _ _ S); cbn; auto 10|].
  destruct M as [[E ->]|M]; [left|right].
  - split; [exact E|]. apply (sg_files _ _ _ _ S). cbn [In i_uid i_gid]. auto 10.
  - exists i. split; [exact M|]. apply (sg_files _ _ _ _ S). cbn [In]. auto 10.
Qed.

Lemma readme_leaves k : Host readme_dirs [sockdir] readme_files k ->
  FileAt (after readme_install k) (B "/usr/bin/sudo_approve") (mkInode KReg 0 0 493)
  /\ FileAt (after readme_install k) (B "/usr/libexec/sudo/libsudopair.dylib") (mkInode KReg 0 0 420)
  /\ FileAt (after readme_install k) (B "/etc/sudo.conf") (mkInode KReg 0 0 420)
  /\ FileAt (after readme_install k) sockdir (mkInode KDir 0 0 420).
Proof.
  intros H. destruct (readme_stage k H) as (Ds & _ & _ & S).
  split; [apply (sg_files _ _ _ _ S); cbn; auto 10|]. split; [apply (sg_files _ _ _ _ S); cbn; auto 10|].
  split; apply (sg_files _ _ _ _ S); cbn; auto 10.
Qed.

Lemma package_leaves u g m k : Host deb_dirs deb_made deb_files k ->
  FileAt (after (deb_install u g m) k) (B "/usr/bin/sudo_approve") (mkInode KReg 0 0 493)
  /\ FileAt (after (deb_install u g m) k) (B "/usr/lib/sudo") (mkInode KDir 0 0 420)
  /\ FileAt (after (deb_install u g m) k) (B "/usr/lib/sudo/libsudo_pair.so") (mkInode KReg 0 0 493)
  /\ FileAt (after (deb_install u g m) k) (B "/etc/sudo.conf_for_sudo_pair_sample") (mkInode KReg 0 0 420)
  /\ FileAt (after (deb_install u g m) k) sockdir (mkInode KDir 0 0 493).
Proof.
  intros H. destruct (deb_stage u g m k H) as (Ds & _ & _ & S).
  split; [apply (sg_files _ _ _ _ S); cbn; auto 10|]. split; [apply (sg_files _ _ _ _ S); cbn; auto 10|].
  split; [apply (sg_files _ _ _ _ S); cbn; auto 10|]. split; apply (sg_files _ _ _ _ S); cbn; auto 10.
Qed.

Lemma prompts_unread pl a rq does k w w' o evs f : Describes pl a rq ->
  does = readme_install \/ (exists u g m, does = deb_install u g m) -> rq_socket_dir rq = sockdir ->
  f = user_prompt_file \/ f = pair_prompt_file -> k_names k (components f) = None -> w_k w = after does k ->
  core_open SudoPair pl a (pstate0 _) w = (o, w') -> w_trace w' = w_trace w ++ evs -> HonestFiles evs ->
  Everyone (fun _ x => ~ In (components f) (touched x)) w -> forall ev d, In ev evs -> ~ Is (CReadFile f) (AData d) ev.
Proof.
  intros D HD ES HF EN EK R HT HH HV.
  assert (X : k_names (w_k w) (components f) = None).
  { rewrite EK. rewrite <- EN. apply after_untouched.
    assert (Y : forallb (fun ca => forallb (fun p => negb (comps_eqb p (components f))) (touched (snd ca))) does = true).
    { destruct HD as [-> |(u & g & m & ->)]; destruct HF as [-> | ->]; vm_compute; reflexivity. }
    rewrite forallb_forall in Y. apply Forall_forall. intros ca Hc HI. specialize (Y ca Hc). rewrite forallb_forall in Y. specialize (Y _ HI).
    apply negb_true_iff in Y. assert (Z : comps_eqb (components f) (components f) = true) by (apply comps_eqb_eq; reflexivity). congruence. }
  pose proof (SocketPath_intro rq) as HQ. remember (sock_comps rq) as q eqn:Eq0. clear Eq0.
  apply (not_read pl a rq q D HQ w w' o evs f R HT HH HV); [|exact X].
  destruct HQ as (n & _ & ->). rewrite ES. intros E. apply (f_equal (@List.length _)) in E. rewrite app_length in E.
  destruct HF as [-> | ->]; vm_compute in E; discriminate.
Qed.

Lemma prefix_never pl a rq q k w w' o : Describes pl a rq -> SocketPath rq q -> rq_socket_dir rq = sockdir ->
  k_names k (components sockdir) = None -> w_k w = after make_default k -> Guarded (Unprivileged (pl_euid pl)) q (after make_default k) ->
  core_open SudoPair pl a (pstate0 _) w = (o, w') -> Everyone (fun c x => Unprivileged (pl_euid pl) c \/ OnlyConnects x) w ->
  ~ Exempt rq -> rq_command rq <> [] -> forall st', o <> Done (1, st').
Proof.
  intros D HQ ES EN EK G R HV NX NC. apply (missing_never pl a rq q D HQ w w' o); try assumption; rewrite EK; [exact G|].
  destruct HQ as (n & _ & ->). rewrite ES.
  assert (X : k_names (after make_default k) (components sockdir) = None).
  { rewrite <- EN. apply after_untouched.
    assert (Y : forallb (fun ca => forallb (fun p => negb (comps_eqb p (components sockdir))) (touched (snd ca))) make_default = true) by (vm_compute; reflexivity).
    rewrite forallb_forall in Y. apply Forall_forall. intros ca Hc HI. specialize (Y ca Hc). rewrite forallb_forall in Y. specialize (Y _ HI).
    apply negb_true_iff in Y. assert (Z : comps_eqb (components sockdir) (components sockdir) = true) by (apply comps_eqb_eq; reflexivity). congruence. }
  unfold dir_inode, dir_path. rewrite removelast_last. destruct (components sockdir ++ [Normal n]) eqn:E; [reflexivity|].
  unfold resolve. cbn [resolve_fuel]. rewrite X. reflexivity.
Qed.

Lemma sample_enforced pl a rq : Describes pl a rq ->
  (oa_plugin_options a = Some (make_entries (B "65534")) -> rq_enforced rq = [65534])
  /\ (oa_plugin_options a = Some (make_entries []) -> rq_enforced rq = [0]).
Proof.
  intros D.
  assert (X : rq_enforced rq = po_gids_enforced (plugin_options_from (from_raw (oa_plugin_options a)))).
  { symmetry. unfold plugin_options_from. cbn [po_gids_enforced].
    apply (get_or_iff (parse_int_set u32T) (UIntList 32) parse_u32s). exact (d_enforced _ _ _ D). }
  split; intros E; rewrite X, E; vm_compute; reflexivity.
Qed.

Lemma sample_lets_pass pl a rq w : Describes pl a rq -> oa_plugin_options a = Some (make_entries (B "65534")) ->
  ~ GainsGroup rq 65534 -> rq_command rq <> [] -> ~ MasklessAddr pl (oa_settings a) -> pl_debug pl = false \/ Consistent rq ->
  exists st', core_open SudoPair pl a (pstate0 _) w = (Done (1, st'), w) /\ st_plugin st' <> None.
Proof.
  intros D E NG NC NM ND. apply (exempt_proceeds pl a rq w D NC); [|exact NM|exact ND].
  right. right. right. right. right. rewrite (proj1 (sample_enforced _ _ _ D) E). intros g [<-|[]]. exact NG.
Qed.

Lemma installed_works pl a rq q k peer :
  Describes pl a rq -> SocketPath rq q -> rq_socket_dir rq = sockdir -> pl_euid pl = 0 -> Askable pl a rq -> k_names k q = None ->
  (Host docker_dirs [sockdir] docker_files k -> (forall i, FileAt k sockdir i -> i_uid i = 0) -> cr_priv peer = true ->
     CanApprove pl a q peer (after make_docker k))
  /\ (forall u g m, Host deb_dirs deb_made deb_files k -> Entitled pl rq peer -> OpenWay peer (components sockdir) k ->
     CanApprove pl a q peer (after (deb_install u g m) k)).
Proof.
  intros D HQ ES EU HA EN. split.
  - intros HH HR HP. exact (docker_able pl a rq q D HQ ES EU k peer [] HA HH HR EN HP).
  - intros u g m HH HE HW. exact (deb_able pl a rq q D HQ ES EU u g m k peer [] HA HH EN HE HW).
Qed.

Lemma installed_closed pl a rq q k does :
  Describes pl a rq -> SocketPath rq q -> rq_socket_dir rq = sockdir -> ~ Exempt rq -> rq_command rq <> [] ->
  (does = make_docker /\ Host docker_dirs [sockdir] docker_files k) \/ (does = readme_install /\ Host readme_dirs [sockdir] readme_files k) ->
  Guarded (Unprivileged (pl_euid pl)) q (after does k) ->
  NeverByUsers pl a (after does k).
Proof.
  intros D HQ ES NX NC HD G w st' w' EK HV R. destruct HD as [[-> HH]|[-> HH]].
  - exact (docker_closed pl a rq q D HQ ES k w w' _ HH EK G R HV NX NC st' eq_refl).
  - exact (readme_closed pl a rq q D HQ ES k w w' _ HH EK G R HV NX NC st' eq_refl).
Qed.
