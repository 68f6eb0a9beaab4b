(** What other processes can and cannot do to the socket while it exists. *)
From Coq Require Import Lia.
From Verif Require Import Base BaseLemmas Num Path Template Options World Sys Io Socket Env Core Pair
  Spec TraceSpec SessionSpec PathProofs RequestProofs PairPure InputFacts RunProofs IoProofs SocketProofs PairProofs
  KernelFacts OpenFacts AskFacts MiscFacts SplitFacts CleanupFacts FilesFacts ShapeFacts.
Local Open Scope Z_scope.

Section Adversary.
Variable euid : Z.
(** Who acts at all, who may do more than connect, and who must be kept out. *)
Variables Adm Tamper Out : cred -> Prop.

(** The names of the sockets of other sessions. *)
Variable Side : path -> Prop.

Definition SideAct (a : action) : Prop :=
  match a with
  | Unlink p | Chmod p _ | Chown p _ _ => Side p
  | Create p kd _ _ => Side p /\ kd = KSock
  | _ => False
  end.
Definition Tame (ca : cred * action) : Prop :=
  (Adm (fst ca) /\ (Tamper (fst ca) \/ exists p, snd ca = Connect p)) \/ SideAct (snd ca).
(** No such name leads to the inode [n]. *)
Definition Off (n : nat) (k : kernel) : Prop := forall p, Side p -> resolve k p <> Some n.
Definition TameTurns (ts : list turn) : Prop := Forall (fun t : turn => Forall Tame (fst t)) ts.
Definition Good (c : cred) : Prop := Adm c /\ ~ Out c.

Lemma TameTurns_app a b : TameTurns (a ++ b) <-> TameTurns a /\ TameTurns b.
Proof. apply Forall_app. Qed.

(** ** The socket's inode and the waiting queue *)
Section Inode.
Variable A : inode -> Prop.
Variable n0 : nat.
Hypothesis A_owner : forall i c, A i -> Tamper c -> cr_priv c = false /\ cr_uid c <> i_uid i.
Hypothesis A_out : forall i c, A i -> Out c -> may_write c i = false.

Definition Sound (k : kernel) : Prop :=
  (n0 < k_next k)%nat /\ A (k_inodes k n0)
  /\ forall l, k_listen k = Some l -> l_ino l = Some n0 /\ Forall Good (l_queue l).

Lemma not_owner k c : A (k_inodes k n0) -> Tamper c -> is_owner k c n0 = false.
Proof.
  intros HA HT. destruct (A_owner _ _ HA HT) as [P U]. unfold is_owner. rewrite P. cbn. apply Z.eqb_neq. exact U.
Qed.

Lemma act_sound k ca : Tame ca -> Off n0 k -> Sound k -> Sound (act k ca).
Proof.
  destruct ca as [c a]. intros HT HOff (HN & HA & HL). cbn [Tame fst snd] in *.
  assert (TA : (forall p, a <> Connect p) -> Tamper c \/ SideAct a).
  { intros NC. destruct HT as [[_ [T|[p E]]]|T]; [left; exact T|destruct (NC p E)|right; exact T]. }
  assert (HAd : (exists p, a = Connect p) -> Adm c).
  { intros [p ->]. destruct HT as [[H _]|[]]. exact H. }
  destruct a as [p|p|p kd g m|p q|p q|p m|p u g]; cbn [act].
  - destruct (finds k c p) as [n|]; [|exact (conj HN (conj HA HL))].
    destruct (k_listen k) as [l|] eqn:El; [|refine (conj HN (conj HA _)); rewrite El; exact HL].
    destruct (reaches l n && may_write c (k_inodes k n)) eqn:E; [|refine (conj HN (conj HA _)); rewrite El; exact HL].
    apply andb_true_iff in E as [ER EW]. destruct (HL l eq_refl) as [Hi Hq].
    unfold reaches in ER. rewrite Hi in ER. apply andb_true_iff in ER as [_ ER]. apply Nat.eqb_eq in ER. subst n.
    split; [exact HN|]. split; [exact HA|]. cbn. intros l' E. injection E as <-. cbn. split; [exact Hi|].
    apply Forall_app. split; [exact Hq|]. constructor; [|constructor]. split; [apply HAd; eauto|].
    intros HO. rewrite (A_out _ _ HA HO) in EW. discriminate.
  - destruct (can_edit k c p); exact (conj HN (conj HA HL)).
  - destruct (can_edit k c p); [|exact (conj HN (conj HA HL))]. destruct (k_names k p); [exact (conj HN (conj HA HL))|].
    split; [cbn; lia|]. split; [cbn; rewrite put_inode_other by lia; exact HA|exact HL].
  - destruct (can_edit k c p && can_edit k c q); [|exact (conj HN (conj HA HL))]. destruct (k_names k p); exact (conj HN (conj HA HL)).
  - destruct (can_search k c p && can_edit k c q); [|exact (conj HN (conj HA HL))]. destruct (k_names k p); [|exact (conj HN (conj HA HL))].
    destruct (k_names k q); exact (conj HN (conj HA HL)).
  - destruct (finds k c p) as [n|] eqn:ER; [|exact (conj HN (conj HA HL))].
    destruct (is_owner k c n) eqn:EO; [|exact (conj HN (conj HA HL))].
    destruct (Nat.eq_dec n0 n) as [<-|NE].
    { destruct (TA ltac:(discriminate)) as [HTc|HS]; [|destruct (HOff _ HS (finds_resolve _ _ _ _ ER))].
      rewrite not_owner in EO; [discriminate|exact HA|exact HTc]. }
    split; [exact HN|]. split; [cbn; rewrite put_inode_other by exact NE; exact HA|exact HL].
  - destruct (finds k c p) as [n|] eqn:ER; [|exact (conj HN (conj HA HL))].
    match goal with |- Sound (if ?b then _ else _) => destruct b eqn:EO end; [|exact (conj HN (conj HA HL))].
    destruct (Nat.eq_dec n0 n) as [<-|NE].
    { destruct (TA ltac:(discriminate)) as [HTc|HS]; [|destruct (HOff _ HS (finds_resolve _ _ _ _ ER))].
      destruct (A_owner _ _ HA HTc) as [P U]. rewrite P in EO. apply Z.eqb_neq in U. rewrite U in EO. discriminate. }
    split; [exact HN|]. split; [cbn; rewrite put_inode_other by exact NE; exact HA|exact HL].
Qed.

(** Something that keeps the names of other sessions off the inode. *)
Variable Inv : kernel -> Prop.
Hypothesis Inv_off : forall k, Inv k -> Off n0 k.
Hypothesis Inv_act : forall k ca, Tame ca -> (n0 < k_next k)%nat -> Inv k -> Inv (act k ca).

Lemma acts_sound acts : Forall Tame acts -> forall k, Inv k -> Sound k ->
  Inv (fold_left act acts k) /\ Sound (fold_left act acts k).
Proof.
  induction acts as [|ca acts IH]; intros H k HI HS; [auto|]. cbn. apply IH; [exact (Forall_inv_tail H)| |].
  - apply Inv_act; [exact (Forall_inv H)|exact (proj1 HS)|exact HI].
  - apply act_sound; [exact (Forall_inv H)|apply Inv_off; exact HI|exact HS].
Qed.

(** A call that keeps the property of the inode. *)
Definition Step (ev : event) : Prop :=
  match e_call ev with
  | CSocket | CBind _ => False
  | CChown p u g => failed ev p \/ forall i, A i ->
      A (mkInode (i_kind i) (if u =? NO_ID then i_uid i else u) (if g =? NO_ID then i_gid i else g) (i_perm i))
  | CChmod p m => failed ev p \/ forall i, A i -> A (mkInode (i_kind i) (i_uid i) (i_gid i) (Z.land m 4095))
  | _ => True
  end.

Lemma Rest_Step ev : Rest ev -> Step ev.
Proof. unfold Rest, Step. destruct (e_call ev); auto. Qed.

Lemma effect_sound ev : Step ev -> Sound (e_pre ev) -> Sound (effect euid (e_call ev) (e_ans ev) (e_pre ev)).
Proof.
  unfold Step. intros HS H. pose proof H as (HN & HA & HL). set (k := e_pre ev) in *.
  destruct (e_call ev) eqn:EC; try contradiction; cbn [effect]; try exact H; destruct (e_ans ev) eqn:EA; try exact H.
  - destruct (k_names k p); exact (conj HN (conj HA HL)).
  - destruct (k_listen k) as [l|] eqn:El; [|exact H]. destruct (HL l eq_refl) as [Hi Hq].
    split; [exact HN|]. split; [exact HA|]. cbn. intros l' E. injection E as <-. cbn. auto.
  - destruct (resolve k p) as [n|] eqn:ER; [|exact H].
    destruct HS as [HF|HC]. { destruct HF as [[e HF]|[_ HF]]; [congruence|]. unfold k in ER. congruence. }
    split; [exact HN|]. split; [|exact HL]. cbn. destruct (Nat.eq_dec n0 n) as [<-|NE].
    + rewrite put_inode_same. apply HC. exact HA.
    + rewrite put_inode_other by exact NE. exact HA.
  - destruct (resolve k p) as [n|] eqn:ER; [|exact H].
    destruct HS as [HF|HC]. { destruct HF as [[e HF]|[_ HF]]; [congruence|]. unfold k in ER. congruence. }
    split; [exact HN|]. split; [|exact HL]. cbn. destruct (Nat.eq_dec n0 n) as [<-|NE].
    + rewrite put_inode_same. apply HC. exact HA.
    + rewrite put_inode_other by exact NE. exact HA.
  - destruct (k_listen k) as [l|] eqn:El; [|exact H]. destruct (HL l eq_refl) as [Hi Hq].
    destruct (l_queue l) as [|c q] eqn:Eq; [exact H|].
    split; [exact HN|]. split; [exact HA|]. cbn. intros l' E. injection E as <-. cbn. split; [exact Hi|exact (Forall_inv_tail Hq)].
  - split; [exact HN|]. split; [exact HA|]. cbn. discriminate.
Qed.

Definition Keeps (ev : event) : Prop := Inv (e_pre ev) -> Inv (effect euid (e_call ev) (e_ans ev) (e_pre ev)).

Lemma walk k ts evs k' : Linked euid k ts evs k' -> TameTurns ts -> Forall Step evs -> Forall Keeps evs -> Inv k -> Sound k ->
  Sound k' /\ forall ev, In ev evs -> Sound (e_pre ev) /\ Sound (e_post ev).
Proof.
  induction 1 as [|k acts a c k1 k2 ts evs k' E1 E2 HL IH]; intros HT HF HKp HI0 HS.
  - split; [exact HS|intros ev []].
  - destruct (acts_sound acts (Forall_inv HT) k HI0 HS) as [I1 S1]. rewrite <- E1 in I1, S1.
    assert (S2 : Sound k2).
    { subst k2. apply (effect_sound (mkEvent c a k1 (effect euid c a k1))); [|exact S1].
      apply Forall_inv in HF. exact HF. }
    assert (I2 : Inv k2). { subst k2. apply Forall_inv in HKp. apply HKp. exact I1. }
    destruct (IH (Forall_inv_tail HT) (Forall_inv_tail HF) (Forall_inv_tail HKp) I2 S2) as [SK HI].
    split; [exact SK|]. intros ev [<-|Hin]; [split; assumption|apply HI; exact Hin].
Qed.
End Inode.

(** ** The bind *)
Definition Fresh (k : kernel) : Prop := exists fd, k_listen k = Some (mkListener fd None false []).

Lemma act_fresh k ca : Fresh k -> Fresh (act k ca).
Proof.
  intros [fd H]. destruct ca as [c a]. destruct a; cbn [act].
  - destruct (finds k c p); [|exists fd; exact H]. rewrite H. cbn. exists fd. exact H.
  - destr_act; exists fd; exact H.
  - destr_act; exists fd; exact H.
  - destr_act; exists fd; exact H.
  - destr_act; exists fd; exact H.
  - destr_act; exists fd; exact H.
  - destr_act; exists fd; exact H.
Qed.
Lemma acts_fresh acts : forall k, Fresh k -> Fresh (fold_left act acts k).
Proof. induction acts as [|x acts IH]; intros k H; [exact H|]. cbn. apply IH, act_fresh, H. Qed.

(** The state the bind finds and the one it leaves. *)
Definition Bound (p : bytes) (b : event) : Prop :=
  exists fd gb, e_ans b = ANum gb /\ k_listen (e_pre b) = Some (mkListener fd None false [])
    /\ e_post b = set_listen (Some (mkListener fd (Some (k_next (e_pre b))) false []))
                    (add_file (components p) (mkInode KSock euid gb 0) (e_pre b)).

Lemma bound_state p pre um fd sk b tr k ts k' :
  Linked euid k ts (pre ++ um :: sk :: b :: tr) k' ->
  Is (CUmask UMASK_ALL) AOk um -> Is CSocket (ANum fd) sk -> bound p b -> Bound p b.
Proof.
  intros HL Hum Hsk Hb.
  apply Linked_at in HL as (ts1 & acts1 & a1 & ts2 & k1 & E1 & L1 & P1 & A1 & Q1 & L2).
  change (sk :: b :: tr) with ([] ++ sk :: b :: tr) in L2.
  apply Linked_at in L2 as (ts3 & acts2 & a2 & ts4 & k2 & E2 & L3 & P2 & A2 & Q2 & L4). apply Linked_nil in L3. subst k2.
  change (b :: tr) with ([] ++ b :: tr) in L4.
  apply Linked_at in L4 as (ts5 & acts3 & a3 & ts6 & k3 & E3 & L5 & P3 & A3 & Q3 & L6). apply Linked_nil in L5. subst k3.
  destruct Hum as [Eum Aum], Hsk as [Esk Ask], Hb as (Eb & (gb & Ab) & Nl & Nn & Nd).
  rewrite Eum, Aum in Q1. rewrite Esk, Ask in Q2. rewrite Eb, Ab in Q3. cbn [effect] in Q1, Q2, Q3.
  assert (HU : k_umask (e_pre b) = 511).
  { rewrite P3. rewrite (acts_keep k_umask act_umask). rewrite Q2. cbn [k_umask set_listen].
    rewrite P2. rewrite (acts_keep k_umask act_umask). rewrite Q1. reflexivity. }
  assert (HF : Fresh (e_pre b)). { rewrite P3. apply acts_fresh. rewrite Q2. exists fd. reflexivity. }
  destruct HF as [fd' HF]. exists fd', gb. split; [exact Ab|]. split; [exact HF|].
  rewrite Q3, HF, Nn, HU. destruct (dir_inode (e_pre b) (components p)); [reflexivity|congruence].
Qed.

Lemma Bound_Sound (A : inode -> Prop) p b gb : e_ans b = ANum gb -> Bound p b -> A (mkInode KSock euid gb 0) ->
  Sound A (k_next (e_pre b)) (e_post b).
Proof.
  intros Ea (fd & g' & Ea' & HL & HP) HA. rewrite Ea in Ea'. injection Ea' as <-. rewrite HP.
  split; [cbn; lia|]. split; [cbn; rewrite put_inode_same; exact HA|].
  cbn. intros l E. injection E as <-. cbn. split; [reflexivity|constructor].
Qed.

(** ** Without any assumption on the directory *)
Section Free.
Hypothesis No_side : forall p, ~ Side p.
Variable A : inode -> Prop.
Hypothesis A_owner : forall i c, A i -> Tamper c -> cr_priv c = false /\ cr_uid c <> i_uid i.
Hypothesis A_out : forall i c, A i -> Out c -> may_write c i = false.
Variables (p : bytes) (u g m : Z).
Hypothesis A_new : forall gb, A (mkInode KSock euid gb 0).
Hypothesis A_chown : forall i, A i ->
  A (mkInode (i_kind i) (if u =? NO_ID then i_uid i else u) (if g =? NO_ID then i_gid i else g) (i_perm i)).
Hypothesis A_chmod : forall i, A i -> A (mkInode (i_kind i) (i_uid i) (i_gid i) (Z.land m 4095)).

Lemma trail_steps tr : Trail p u g m tr -> Forall (Step A) tr.
Proof.
  assert (HR : forall es, Forall Rest es -> Forall (Step A) es) by (intros es; apply Forall_impl, Rest_Step).
  intros [H|(li & co & es & -> & [El _] & [[Ec _] _] & H)]; [apply HR; exact H|].
  constructor; [unfold Step; rewrite El; exact Logic.I|]. constructor; [unfold Step; rewrite Ec; right; exact A_chown|].
  destruct H as [H|(cm & es2 & -> & [[Em _] _] & H)]; [apply HR; exact H|].
  constructor; [unfold Step; rewrite Em; right; exact A_chmod|apply HR; exact H].
Qed.

Lemma free_sound evs k ts k' b e1 e2 : Shape p u g m evs -> Linked euid k ts evs k' -> TameTurns ts ->
  evs = e1 ++ b :: e2 -> bound p b ->
  Sound A (k_next (e_pre b)) (e_post b) /\ Sound A (k_next (e_pre b)) k'
  /\ forall ev, In ev e2 -> Sound A (k_next (e_pre b)) (e_pre ev) /\ Sound A (k_next (e_pre b)) (e_post ev).
Proof.
  intros [HQ|(pre & um & fd & sk & b' & tr & -> & Hp & Hu & Hs & Hb & HT)] HL HTT EE Hbd.
  { exfalso. rewrite EE in HQ. apply Forall_app in HQ as [_ HQ]. apply Forall_inv in HQ. apply (proj1 HQ). exact Hbd. }
  assert (EQ : e1 = pre ++ [um; sk] /\ b = b' /\ e2 = tr).
  { apply (unique_split (bound p)); [|exact Hbd| |].
    - rewrite <- EE, <- app_assoc. reflexivity.
    - apply Forall_app. split.
      + apply (pre_quiet p) in Hp. revert Hp. apply Forall_impl. intros ev [H _]. exact H.
      + constructor; [intros (E & _); destruct Hu; congruence|]. constructor; [intros (E & _); destruct Hs; congruence|constructor].
    - eapply trail_not_bound. exact HT. }
  destruct EQ as (-> & <- & ->). clear EE.
  pose proof (bound_state _ _ _ _ _ _ _ _ _ _ HL Hu Hs Hb) as HB.
  assert (S0 : Sound A (k_next (e_pre b)) (e_post b)).
  { destruct Hb as (_ & (gb & Ea) & _). eapply Bound_Sound; [exact Ea|exact HB|apply A_new]. }
  change (pre ++ um :: sk :: b :: tr) with (pre ++ [um; sk] ++ b :: tr) in HL. rewrite app_assoc in HL.
  apply Linked_at in HL as (ts1 & acts & a & ts2 & k1 & -> & _ & _ & _ & _ & L2).
  apply TameTurns_app in HTT as [_ HTT]. apply Forall_inv_tail in HTT.
  destruct (walk A (k_next (e_pre b)) A_owner A_out (fun _ => True)) with (k := e_post b) (ts := ts2) (evs := tr) (k' := k') as [SK HI];
    auto.
  - intros k0 _ r Hr. destruct (No_side r Hr).
  - apply trail_steps. exact HT.
  - apply Forall_forall. intros ev _ _. exact Logic.I.
Qed.

Lemma free_peer evs k ts k' n c peer acc : Shape p u g m evs -> Linked euid k ts evs k' -> TameTurns ts ->
  In acc evs -> Accepts n c peer acc -> Good peer.
Proof.
  intros HSh HL HTT Hin HAc. pose proof HSh as [HQ|(pre & um & fd & sk & b & tr & E & Hp & Hu & Hs & Hb & HT)].
  { rewrite Forall_forall in HQ. apply HQ in Hin. destruct Hin as [_ H]. destruct H. exact (proj1 HAc). }
  assert (Hin' : In acc tr).
  { pose proof (proj1 (proj1 HAc)) as EC. rewrite E in Hin. apply in_app_iff in Hin as [Hin|[<-|[<-|[<-|Hin]]]].
    - unfold Only in Hp. rewrite Forall_forall in Hp. apply Hp in Hin. rewrite EC in Hin. destruct Hin.
    - destruct Hu; congruence.
    - destruct Hs; congruence.
    - destruct Hb; congruence.
    - exact Hin. }
  assert (E' : evs = (pre ++ [um; sk]) ++ b :: tr) by (rewrite E, <- app_assoc; reflexivity).
  destruct (free_sound _ _ _ _ _ _ _ HSh HL HTT E' Hb) as (_ & _ & HI).
  destruct (HI _ Hin') as [(_ & _ & HLs) _]. destruct HAc as (_ & _ & l & q & El & _ & Eq).
  destruct (HLs l El) as [_ HF]. rewrite Eq in HF. exact (Forall_inv HF).
Qed.
End Free.

(** ** When the name of the socket is safe *)
Section Guarded.
Variable q : path.

(** A call of the plugin that a guard must survive. *)
Definition GCall (k : kernel) (c : call) : Prop :=
  match c with
  | CUnlink p | CBind p => p = q
  | CChown p _ _ | CChmod p _ => p = q /\ exists n, Holds q n k
  | _ => True
  end.

Record Guarding (G : kernel -> Prop) : Prop := {
  g_act : forall k ca, G k -> Tame ca -> G (act k ca) /\ k_names (act k ca) q = k_names k q
    /\ forall n, (n < k_next k)%nat -> Off n k -> Off n (act k ca);
  g_call : forall k c a, G k -> GCall k c -> G (effect euid c a k) /\ forall n, Off n k -> Off n (effect euid c a k);
  g_new : forall k, G k -> Off (k_next k) k
}.

Variable G : kernel -> Prop.
Hypothesis HG : Guarding G.

Lemma g_acts acts : Forall Tame acts -> forall k, G k ->
  G (fold_left act acts k) /\ k_names (fold_left act acts k) q = k_names k q.
Proof.
  induction acts as [|ca acts IH]; intros H k HK; [split; [exact HK|reflexivity]|]. cbn.
  destruct (g_act _ HG k ca HK (Forall_inv H)) as (G1 & N1 & _).
  destruct (IH (Forall_inv_tail H) _ G1) as [G2 N2]. split; [exact G2|congruence].
Qed.

Definition GOff (n : nat) (k : kernel) : Prop := G k /\ Off n k.
Lemma GOff_off n k : GOff n k -> Off n k.
Proof. intros [_ H]. exact H. Qed.
Lemma GOff_act n k ca : Tame ca -> (n < k_next k)%nat -> GOff n k -> GOff n (act k ca).
Proof. intros HT HN [H1 H2]. destruct (g_act _ HG k ca H1 HT) as (A & _ & B). split; [exact A|apply B; assumption]. Qed.
Lemma GOff_call n k c a : GCall k c -> GOff n k -> GOff n (effect euid c a k).
Proof. intros HC [H1 H2]. destruct (g_call _ HG k c a H1 HC) as (A & B). split; [exact A|apply B; assumption]. Qed.

Definition Unlinks (ev : event) : Prop := match e_call ev with CUnlink r => r = q | _ => True end.

Lemma rest_keeps n ev : Rest ev -> Unlinks ev -> Keeps (GOff n) ev.
Proof.
  unfold Rest, Unlinks, Keeps. intros HR HU HI.
  destruct (e_call ev) eqn:EC; try contradiction; try (apply GOff_call; [exact Logic.I|exact HI]).
  - apply GOff_call; [exact HU|exact HI].
  - destruct HR as [[e E]|[E ER]]; rewrite E; cbn [effect]; [exact HI|rewrite ER; exact HI].
  - destruct HR as [[e E]|[E ER]]; rewrite E; cbn [effect]; [exact HI|rewrite ER; exact HI].
Qed.

Lemma PreBind_GCall k c : PreBind q c -> GCall k c.
Proof. destruct c; cbn; tauto. Qed.

Lemma g_pre k ts evs k' : Linked euid k ts evs k' -> TameTurns ts -> Forall (fun ev => forall k, GCall k (e_call ev)) evs ->
  G k -> G k'.
Proof.
  induction 1 as [|k acts a c k1 k2 ts evs k' E1 E2 HL IH]; intros HT HF HK; [exact HK|].
  apply IH; [exact (Forall_inv_tail HT)|exact (Forall_inv_tail HF)|]. subst k2.
  apply (g_call _ HG); [subst k1; exact (proj1 (g_acts _ (Forall_inv HT) _ HK))|]. apply Forall_inv in HF. apply HF.
Qed.

Variables (p : bytes) (u g m : Z).
Hypothesis Hq : components p = q.

Definition chown_of (i : inode) : inode :=
  mkInode (i_kind i) (if u =? NO_ID then i_uid i else u) (if g =? NO_ID then i_gid i else g) (i_perm i).
Definition chmod_of (i : inode) : inode := mkInode (i_kind i) (i_uid i) (i_gid i) (Z.land m 4095).

(** The three conditions the socket goes through. *)
Definition Stage (gb : Z) (i : inode) : Prop :=
  i = mkInode KSock euid gb 0 \/ i = chown_of (mkInode KSock euid gb 0)
  \/ i = chmod_of (chown_of (mkInode KSock euid gb 0)).

Hypothesis St_owner : forall gb i c, Stage gb i -> Tamper c -> cr_priv c = false /\ cr_uid c <> i_uid i.
Hypothesis St_out : forall gb i c, Stage gb i -> Out c -> may_write c i = false.

Lemma stage_weaken gb i n k : Stage gb i -> Sound (eq i) n k -> Sound (Stage gb) n k.
Proof. intros HS (A & B & C). split; [exact A|]. split; [rewrite <- B; exact HS|exact C]. Qed.

Lemma rests gb i n k ts evs k' : Stage gb i -> Linked euid k ts evs k' -> TameTurns ts -> Forall Rest evs -> Forall Unlinks evs ->
  GOff n k -> Sound (eq i) n k ->
  Sound (Stage gb) n k' /\ forall ev, In ev evs -> Sound (Stage gb) n (e_pre ev) /\ Sound (Stage gb) n (e_post ev).
Proof.
  intros HS HL HT HR HUn HI0 S0.
  destruct (walk (eq i) n) with (Inv := GOff n) (k := k) (ts := ts) (evs := evs) (k' := k') as [SK HI]; try assumption.
  - intros j c <-. eapply St_owner. exact HS.
  - intros j c <-. eapply St_out. exact HS.
  - apply GOff_off.
  - apply GOff_act.
  - revert HR. apply Forall_impl, Rest_Step.
  - rewrite Forall_forall in *. intros ev Hin. apply rest_keeps; auto.
  - split; [eapply stage_weaken; eassumption|]. intros ev Hin. destruct (HI ev Hin).
    split; (eapply stage_weaken; [|eassumption]; assumption).
Qed.

Lemma kind_of_stage gb i : Stage gb i -> i_kind i = KSock.
Proof. intros [->|[->| ->]]; reflexivity. Qed.

(** One change of attributes, made while the name still leads to the socket. *)
Lemma change_step gb i n k ts ev evs k' f :
  Stage gb i -> Linked euid k ts (ev :: evs) k' -> TameTurns ts ->
  GOff n k -> k_names k q = Some n -> Sound (eq i) n k ->
  (forall k, Holds q n k -> effect euid (e_call ev) (e_ans ev) k
      = set_inodes (put_inode n (f (k_inodes k n)) (k_inodes k)) k) ->
  (exists x y, e_call ev = CChown q x y) \/ (exists x, e_call ev = CChmod q x) ->
  Sound (eq i) n (e_pre ev) /\ exists ts2, TameTurns ts2 /\ GOff n (e_post ev) /\ k_names (e_post ev) q = Some n
    /\ Sound (eq (f i)) n (e_post ev) /\ Linked euid (e_post ev) ts2 evs k'.
Proof.
  intros HS HL HT HK HN S0 HE HC.
  change (ev :: evs) with ([] ++ ev :: evs) in HL.
  apply Linked_at in HL as (ts1 & acts & a & ts2 & k1 & -> & L1 & P1 & A1 & Q1 & L2). apply Linked_nil in L1. subst k1.
  apply TameTurns_app in HT as [_ HT]. pose proof (Forall_inv HT) as HA. apply Forall_inv_tail in HT. cbn in HA.
  destruct (acts_sound (eq i) n ltac:(intros j c <-; eapply St_owner; exact HS) ltac:(intros j c <-; eapply St_out; exact HS)
              (GOff n) (GOff_off n) (GOff_act n) _ HA _ HK S0) as [G1 S1].
  split; [rewrite P1; exact S1|]. exists ts2. split; [exact HT|].
  destruct (g_acts _ HA _ (proj1 HK)) as [_ N1]. rewrite <- P1 in G1, N1, S1.
  assert (HH : Holds q n (e_pre ev)).
  { split; [congruence|]. destruct S1 as (_ & <- & _). eapply kind_of_stage. exact HS. }
  assert (G2 : GOff n (e_post ev)).
  { rewrite Q1. apply GOff_call; [|exact G1].
    destruct HC as [(x & y & ->)|(x & ->)]; cbn; split; try reflexivity; exists n; exact HH. }
  split; [exact G2|]. rewrite (HE _ HH) in Q1. destruct S1 as (X1 & X2 & X3).
  split; [rewrite Q1; exact (proj1 HH)|]. split; [|exact L2].
  rewrite Q1. split; [exact X1|]. split; [cbn; rewrite put_inode_same, <- X2; reflexivity|exact X3].
Qed.

Lemma guarded_sound evs k ts k' b e1 e2 gb : Shape p u g m evs -> Linked euid k ts evs k' -> TameTurns ts -> G k -> Forall Unlinks evs ->
  evs = e1 ++ b :: e2 -> bound p b -> e_ans b = ANum gb ->
  Sound (Stage gb) (k_next (e_pre b)) (e_post b) /\ Sound (Stage gb) (k_next (e_pre b)) k'
  /\ forall ev, In ev e2 -> Sound (Stage gb) (k_next (e_pre b)) (e_pre ev) /\ Sound (Stage gb) (k_next (e_pre b)) (e_post ev).
Proof.
  intros [HQ|(pre & um & fd & sk & b' & tr & -> & Hp & Hu & Hs & Hb & HT)] HL HTT HK HUn EE Hbd Ea.
  { exfalso. rewrite EE in HQ. apply Forall_app in HQ as [_ HQ]. apply Forall_inv in HQ. apply (proj1 HQ). exact Hbd. }
  assert (EQ : e1 = pre ++ [um; sk] /\ b = b' /\ e2 = tr).
  { apply (unique_split (bound p)); [|exact Hbd| |].
    - rewrite <- EE, <- app_assoc. reflexivity.
    - apply Forall_app. split.
      + apply (pre_quiet p) in Hp. revert Hp. apply Forall_impl. intros ev [H _]. exact H.
      + constructor; [intros (E & _); destruct Hu; congruence|]. constructor; [intros (E & _); destruct Hs; congruence|constructor].
    - eapply trail_not_bound. exact HT. }
  destruct EQ as (-> & <- & ->). clear EE Hbd.
  pose proof (bound_state _ _ _ _ _ _ _ _ _ _ HL Hu Hs Hb) as HB.
  set (n := k_next (e_pre b)).
  set (i0 := mkInode KSock euid gb 0).
  assert (St0 : Stage gb i0) by (left; reflexivity).
  assert (S0 : Sound (eq i0) n (e_post b)) by (eapply Bound_Sound; [exact Ea|exact HB|reflexivity]).
  assert (N0 : k_names (e_post b) q = Some n).
  { destruct HB as (fd' & g' & _ & _ & ->). cbn. rewrite Hq. apply put_name_same. }
  change (pre ++ um :: sk :: b :: tr) with (pre ++ [um; sk] ++ b :: tr) in HL. rewrite app_assoc in HL.
  apply Linked_at in HL as (ts1 & acts & a & ts2 & k1 & -> & L1 & P1 & _ & Q1 & L2).
  apply TameTurns_app in HTT as [HT1 HTT]. pose proof (Forall_inv HTT) as HAc. apply Forall_inv_tail in HTT. cbn in HAc.
  assert (UT : Forall Unlinks tr).
  { apply Forall_app in HUn as [_ H0]. do 3 apply Forall_inv_tail in H0. exact H0. }
  assert (G0 : GOff n (e_post b)).
  { assert (GP : G (e_pre b)).
    { rewrite P1. apply (proj1 (g_acts _ HAc k1 ltac:(eapply g_pre; [exact L1|exact HT1| |exact HK]; apply Forall_app; split;
        [rewrite Hq in Hp; revert Hp; apply Forall_impl; intros ev H k0; apply PreBind_GCall; exact H
        |constructor; [intros k0; rewrite (proj1 Hu); exact Logic.I|constructor; [intros k0; rewrite (proj1 Hs); exact Logic.I|constructor]]]))). }
    rewrite Q1. apply GOff_call; [destruct Hb as (Eb & _); rewrite Eb; cbn; exact Hq|].
    split; [exact GP|apply (g_new _ HG); exact GP]. }
  split; [eapply stage_weaken; eassumption|].
  destruct HT as [HR|(li & co & es & -> & Hl & Hc & H)].
  { eapply rests; eassumption. }
  (* listen *)
  change (li :: co :: es) with ([] ++ li :: co :: es) in L2.
  apply Linked_at in L2 as (ts3 & acts1 & a1 & ts4 & k2 & -> & L3 & P2 & _ & Q2 & L4). apply Linked_nil in L3. subst k2.
  apply TameTurns_app in HTT as [_ HTT]. pose proof (Forall_inv HTT) as HAl. apply Forall_inv_tail in HTT. cbn in HAl.
  destruct (acts_sound (eq i0) n ltac:(intros j c <-; eapply St_owner; exact St0) ltac:(intros j c <-; eapply St_out; exact St0)
              (GOff n) (GOff_off n) (GOff_act n) _ HAl _ G0 S0) as [G1 S1]. rewrite <- P2 in G1, S1.
  assert (S2 : Sound (eq i0) n (e_post li)).
  { rewrite Q2. apply effect_sound; [unfold Step; rewrite (proj1 Hl); exact Logic.I|exact S1]. }
  destruct (g_acts _ HAl _ (proj1 G0)) as [_ N1]. rewrite <- P2 in N1.
  assert (G2 : GOff n (e_post li)) by (rewrite Q2; apply GOff_call; [rewrite (proj1 Hl); exact Logic.I|exact G1]).
  pose proof (Forall_inv_tail (Forall_inv_tail UT)) as UE.
  assert (N2 : k_names (e_post li) q = Some n).
  { rewrite Q2, (proj1 Hl), (proj2 Hl). cbn [effect]. destruct (k_listen (e_pre li)); cbn; congruence. }
  (* chown *)
  destruct Hc as [[Ec Ac] _]. rewrite Hq in Ec.
  destruct (change_step gb i0 n _ _ _ _ _ chown_of St0 L4 HTT G2 N2 S2) as (S3 & ts5 & T5 & G3 & N3 & S4 & L5).
  { intros k0 HH. rewrite Ec, Ac. cbn [effect]. rewrite (Holds_resolve _ _ _ HH). reflexivity. }
  { left. eauto. }
  assert (St1 : Stage gb (chown_of i0)) by (right; left; reflexivity).
  assert (HCO : forall ev, In ev (li :: co :: []) -> Sound (Stage gb) n (e_pre ev) /\ Sound (Stage gb) n (e_post ev)).
  { intros ev [<-|[<-|[]]]; split; (eapply stage_weaken; [|eassumption]; assumption). }
  destruct H as [HR|(cm & es2 & -> & Hm & HR)].
  { destruct (rests gb _ _ _ _ _ _ St1 L5 T5 HR UE G3 S4) as [SK HI]. split; [exact SK|].
    intros ev [<-|[<-|Hin]]; [apply HCO; cbn; auto|apply HCO; cbn; auto|apply HI; exact Hin]. }
  (* chmod *)
  destruct Hm as [[Em Am] _]. rewrite Hq in Em.
  destruct (change_step gb (chown_of i0) n _ _ _ _ _ chmod_of St1 L5 T5 G3 N3 S4) as (S5 & ts6 & T6 & G4 & N4 & S6 & L6).
  { intros k0 HH. rewrite Em, Am. cbn [effect]. rewrite (Holds_resolve _ _ _ HH). reflexivity. }
  { right. eauto. }
  assert (St2 : Stage gb (chmod_of (chown_of i0))) by (right; right; reflexivity).
  destruct (rests gb _ _ _ _ _ _ St2 L6 T6 HR (Forall_inv_tail UE) G4 S6) as [SK HI]. split; [exact SK|].
  intros ev [<-|[<-|[<-|Hin]]]; [apply HCO; cbn; auto|apply HCO; cbn; auto| |apply HI; exact Hin].
  split; (eapply stage_weaken; [|eassumption]; assumption).
Qed.

Lemma guarded_peer evs k ts k' n c peer acc : Shape p u g m evs -> Linked euid k ts evs k' -> TameTurns ts -> G k -> Forall Unlinks evs ->
  In acc evs -> Accepts n c peer acc -> Good peer.
Proof.
  intros HSh HL HTT HK HUn Hin HAc. pose proof HSh as [HQ|(pre & um & fd & sk & b & tr & E & Hp & Hu & Hs & Hb & HT)].
  { rewrite Forall_forall in HQ. apply HQ in Hin. destruct Hin as [_ H]. destruct H. exact (proj1 HAc). }
  assert (Hin' : In acc tr).
  { pose proof (proj1 (proj1 HAc)) as EC. rewrite E in Hin. apply in_app_iff in Hin as [Hin|[<-|[<-|[<-|Hin]]]].
    - unfold Only in Hp. rewrite Forall_forall in Hp. apply Hp in Hin. rewrite EC in Hin. destruct Hin.
    - destruct Hu; congruence.
    - destruct Hs; congruence.
    - destruct Hb; congruence.
    - exact Hin. }
  assert (E' : evs = (pre ++ [um; sk]) ++ b :: tr) by (rewrite E, <- app_assoc; reflexivity).
  destruct Hb as (Eb & (gb & Ea) & Hb').
  destruct (guarded_sound _ _ _ _ _ _ _ _ HSh HL HTT HK HUn E' (conj Eb (conj (ex_intro _ gb Ea) Hb')) Ea) as (_ & _ & HI).
  destruct (HI _ Hin') as [(_ & _ & HLs) _]. destruct HAc as (_ & _ & l & w & El & _ & Eq).
  destruct (HLs l El) as [_ HF]. rewrite Eq in HF. exact (Forall_inv HF).
Qed.
End Guarded.
End Adversary.
