(** What opening does to the file system when the others only connect. *)
From Coq Require Import Lia.
From Verif Require Import Base BaseLemmas Num Path Template Options World Sys Io Socket Env Core Pair
  Spec TraceSpec SessionSpec PathProofs RequestProofs PairPure InputFacts RunProofs IoProofs SocketProofs PairProofs
  KernelFacts OpenFacts AskFacts MiscFacts SplitFacts CleanupFacts.
Local Open Scope Z_scope.

Lemma put_name_same p o f : put_name p o f p = o.
Proof. unfold put_name. rewrite comps_eqb_refl. reflexivity. Qed.
Lemma put_name_other p o f q : q <> p -> put_name p o f q = f q.
Proof. intros H. unfold put_name. apply comps_eqb_neq in H. rewrite H. reflexivity. Qed.
Lemma put_inode_same n i f : put_inode n i f n = i.
Proof. unfold put_inode. rewrite Nat.eqb_refl. reflexivity. Qed.
Lemma put_inode_other n i f m : m <> n -> put_inode n i f m = f m.
Proof. intros H. unfold put_inode. apply Nat.eqb_neq in H. rewrite H. reflexivity. Qed.

Section Files.
Variable euid : Z.

(** Only the name [q] and the inode [n] differ. *)
Definition Within (q : path) (n : nat) (k k' : kernel) : Prop :=
  (forall p, p <> q -> k_names k' p = k_names k p) /\ (forall m, m <> n -> k_inodes k' m = k_inodes k m).

Lemma Within_refl q n k : Within q n k k.
Proof. split; reflexivity. Qed.
Lemma Within_trans q n k1 k2 k3 : Within q n k1 k2 -> Within q n k2 k3 -> Within q n k1 k3.
Proof.
  intros [A B] [A' B']. split; [intros p H; rewrite A', A by exact H; reflexivity|intros m H; rewrite B', B by exact H; reflexivity].
Qed.
Lemma Same_Within q n k k' : SameFiles k k' -> Within q n k k'.
Proof. intros (A & B & _). split; intros; congruence. Qed.

(** [q] names the socket with inode [n]. *)
Definition Holds (q : path) (n : nat) (k : kernel) : Prop :=
  k_names k q = Some n /\ i_kind (k_inodes k n) = KSock.

Lemma Holds_resolve q n k : Holds q n k -> resolve k q = Some n.
Proof. intros [A B]. unfold resolve. cbn. rewrite A, B. reflexivity. Qed.
Lemma Same_Holds q n k k' : SameFiles k k' -> Holds q n k -> Holds q n k'.
Proof. intros (A & B & _) [H1 H2]. split; congruence. Qed.

(** ** Removing a stale socket *)
Definition SocketAt (k : kernel) (q : path) : Prop :=
  exists n, resolve k q = Some n /\ i_kind (k_inodes k n) = KSock.

Definition Removed (q : path) (k k' : kernel) : Prop :=
  SocketAt k q /\ k_names k' = put_name q None (k_names k) /\ k_inodes k' = k_inodes k /\ k_next k' = k_next k.

Lemma UnlinkT_files p o us k ts k' :
  UnlinkT p o us -> Linked euid k ts us k' -> QuietTurns ts ->
  SameFiles k k' \/ (o = Done (Ok tt) /\ Removed (components p) k k').
Proof.
  intros HU HL HQ. set (q := components p) in *.
  destruct HU as [|ev C _|ev n e I R K|ev n I R K|ev n ev2 m I R K I2 N|ev n ev2 e I R K C2 N].
  - left. apply Linked_nil in HL. subst. apply SameFiles_refl.
  - left. eapply Linked_files; [exact HL|exact HQ|]. onl. rewrite C. exact Logic.I.
  - left. eapply Linked_files; [exact HL|exact HQ|]. onl. rewrite (proj1 I). exact Logic.I.
  - left. eapply Linked_files; [exact HL|exact HQ|]. onl. rewrite (proj1 I). exact Logic.I.
  - right. split; [reflexivity|].
    apply Linked_event1 in HL as (ts2 & Q2 & S1 & P1 & L); [|exact HQ].
    rewrite (proj1 I) in P1. pose proof (effect_files euid (CStat q) (e_ans ev) (e_pre ev) Logic.I) as SE. unfold q in SE. rewrite <- P1 in SE.
    apply Linked_event1 in L as (ts3 & Q3 & S2 & P2 & L); [|exact Q2]. apply Linked_nil in L. subst k'.
    pose proof (SameFiles_trans _ _ _ S1 (SameFiles_trans _ _ _ SE S2)) as S. pose proof S as (A & B & C).
    rewrite P2, (proj1 I2), (proj2 I2). cbn [effect]. fold q in N |- *. rewrite N. cbn.
    split; [|cbn; rewrite A; split; [reflexivity|split; assumption]].
    exists n. fold q in R. rewrite <- (SameFiles_resolve _ _ q S1). split; [exact R|].
    destruct S1 as (_ & B1 & _). rewrite <- B1. exact K.
  - left.
    apply Linked_event1 in HL as (ts2 & Q2 & S1 & P1 & L); [|exact HQ].
    rewrite (proj1 I) in P1. pose proof (effect_files euid (CStat q) (e_ans ev) (e_pre ev) Logic.I) as SE. unfold q in SE. rewrite <- P1 in SE.
    apply Linked_event1 in L as (ts3 & Q3 & S2 & P2 & L); [|exact Q2]. apply Linked_nil in L. subst k'.
    eapply SameFiles_trans; [exact S1|]. eapply SameFiles_trans; [exact SE|]. eapply SameFiles_trans; [exact S2|].
    rewrite P2, C2. cbn [effect]. destruct (e_ans ev2); try apply SameFiles_refl. fold q in N |- *.
    rewrite (N eq_refl). apply SameFiles_refl.
Qed.

Lemma Removed_Within q n k k' : Removed q k k' -> Within q n k k'.
Proof.
  intros (_ & A & B & _). rewrite <- (app_nil_r q) in *. rewrite app_nil_r in *. split; intros.
  - rewrite A. apply put_name_other. assumption.
  - rewrite B. reflexivity.
Qed.

(** Once the socket is there and nothing fails, it is removed. *)
Lemma UnlinkT_removes p x us k ts k' n :
  UnlinkT p (Done x) us -> Linked euid k ts us k' -> QuietTurns ts -> Holds (components p) n k ->
  (forall ev, In ev us -> e_ans ev = AOk) -> k_names k' (components p) = None.
Proof.
  intros HU HL HQ HH HA. set (q := components p) in *.
  inversion HU as [|ev C Hno|ev n' e I R K| |ev n' ev2 m I R K I2 N|ev n' ev2 e I R K C2 N]; subst.
  - exfalso. apply Linked_event1 in HL as (ts2 & Q2 & S1 & P1 & L); [|exact HQ].
    fold q in Hno. specialize (Hno (HA _ (or_introl eq_refl))).
    rewrite (SameFiles_resolve _ _ _ S1), (Holds_resolve _ _ _ HH) in Hno. discriminate.
  - exfalso. apply Linked_event1 in HL as (ts2 & Q2 & S1 & P1 & L); [|exact HQ].
    fold q in R. rewrite (SameFiles_resolve _ _ _ S1), (Holds_resolve _ _ _ HH) in R. injection R as <-.
    apply K. destruct S1 as (_ & B & _). rewrite B. apply HH.
  - destruct (UnlinkT_files p _ _ k ts k' HU HL HQ) as [S|(_ & _ & E & _)]; [|fold q in E; rewrite E; apply put_name_same].
    exfalso. apply Linked_event1 in HL as (ts2 & Q2 & S1 & P1 & L); [|exact HQ].
    apply Linked_event1 in L as (ts3 & Q3 & S2 & P2 & L); [|exact Q2]. apply Linked_nil in L. subst k'.
    rewrite P2, (proj1 I2), (proj2 I2) in S. cbn [effect] in S. rewrite N in S. destruct S as (A & _).
    cbn in A. apply (f_equal (fun f => f q)) in A. fold q in A. rewrite put_name_same in A. destruct HH. congruence.
  - exfalso. apply Linked_event1 in HL as (ts2 & Q2 & S1 & P1 & L); [|exact HQ].
    rewrite (proj1 I) in P1. pose proof (effect_files euid (CStat q) (e_ans ev) (e_pre ev) Logic.I) as SE. unfold q in SE. rewrite <- P1 in SE.
    apply Linked_event1 in L as (ts3 & Q3 & S2 & P2 & L); [|exact Q2].
    destruct (Same_Holds q n _ _ S2 (Same_Holds q n _ _ SE (Same_Holds q n _ _ S1 HH))) as [E _].
    fold q in N. rewrite (N (HA _ (or_intror (or_introl eq_refl)))) in E. discriminate.
Qed.

(** ** Creating the socket *)
Definition Made (q : path) (k k' : kernel) : Prop :=
  k_names k q = None /\ Holds q (k_next k) k' /\ Within q (k_next k) k k'.

Lemma Made_Same_l q k1 k2 k3 : SameFiles k1 k2 -> Made q k2 k3 -> Made q k1 k3.
Proof.
  intros S (A & B & C). pose proof S as (S1 & S2 & S3). rewrite S3 in *. split; [congruence|]. split; [exact B|].
  eapply Within_trans; [eapply Same_Within; exact S|exact C].
Qed.
Lemma Made_Same_r q k1 k2 k3 : Made q k1 k2 -> SameFiles k2 k3 -> Made q k1 k3.
Proof.
  intros (A & B & C) S. split; [exact A|]. split; [eapply Same_Holds; eassumption|].
  eapply Within_trans; [exact C|eapply Same_Within; exact S].
Qed.

Lemma bound_Made p b : bound p b -> e_post b = effect euid (e_call b) (e_ans b) (e_pre b) ->
  Made (components p) (e_pre b) (e_post b).
Proof.
  intros (C & (g & A) & L & N & Dr) ->. rewrite C, A. cbn [effect]. destruct (k_listen (e_pre b)) as [l|]; [|congruence].
  rewrite N. destruct (dir_inode (e_pre b) (components p)); [|congruence].
  split; [exact N|]. split.
  - split; cbn; [apply put_name_same|rewrite put_inode_same; reflexivity].
  - split; cbn; intros; [apply put_name_other|apply put_inode_other]; assumption.
Qed.

Lemma unbound_Same p b : unbound p b -> SameFiles (e_pre b) (effect euid (e_call b) (e_ans b) (e_pre b)).
Proof.
  intros (C & [(e & A)|((g & A) & H)]); rewrite C, A; cbn [effect]; [apply SameFiles_refl|].
  destruct (k_listen (e_pre b)); [|apply SameFiles_refl]. destruct (k_names (e_pre b) (components p)); [apply SameFiles_refl|].
  destruct (dir_inode (e_pre b) (components p)); [|apply SameFiles_refl]. destruct H; congruence.
Qed.

Lemma unbound_not p b q : unbound p b -> ~ Creates q b.
Proof.
  intros (C & H) (C' & (g & A) & _ & N & Dr). rewrite C in C'. injection C' as <-.
  destruct H as [(e & A')|(_ & [H|H])]; congruence.
Qed.

Lemma not_Creates q ev c : e_call ev = c -> (forall p, c <> CBind p) -> ~ Creates q ev.
Proof. intros <- H (C & _). exact (H _ C). Qed.

(** After [BindT], either nothing happened to the files, or the socket is there. *)
Lemma BindT_files p o es k ts k' :
  BindT p o es -> Linked euid k ts es k' -> QuietTurns ts -> o <> Stopped ->
  (SameFiles k k' /\ (exists e, o = Done (Err e)) /\ forall q b, In b es -> ~ Creates q b)
  \/ Made (components p) k k'.
Proof.
  intros HB HL HQ NS.
  destruct HB as [e Hl| |e e' ev I|fd ev I|fd ev b I U|e fd ev b cl I U Cl|fd ev b I Bo|fd e' ev b li I Bo Li|e fd e' ev b li cl I Bo Li Cl|fd ev b li H0 I Bo Li Hl];
    try congruence.
  - left. apply Linked_nil in HL. subst. split; [apply SameFiles_refl|]. split; [eauto|]. intros q b [].
  - left. split; [eapply Linked_files; [exact HL|exact HQ|]; onl; rewrite (proj1 I); exact Logic.I|]. split; [eauto|].
    intros q b [<-|[]]. eapply not_Creates; [apply I|discriminate].
  - left. split; [|split; [eauto|]].
    + apply Linked_event1 in HL as (ts1 & Q1 & S1 & P1 & L); [|exact HQ].
      apply Linked_event1 in L as (ts2 & Q2 & S2 & P2 & L); [|exact Q1].
      eapply SameFiles_trans; [exact S1|]. eapply SameFiles_trans; [rewrite P1, (proj1 I) in S2; eapply SameFiles_trans; [eapply (effect_files euid CSocket (e_ans ev) (e_pre ev) Logic.I)|exact S2]|].
      eapply SameFiles_trans; [eapply unbound_Same; exact U|]. rewrite <- P2.
      eapply Linked_files; [exact L|exact Q2|]. onl. rewrite (proj1 Cl). exact Logic.I.
    + intros q b' [<-|[<-|[<-|[]]]].
      * eapply not_Creates; [apply I|discriminate].
      * eapply unbound_not. exact U.
      * eapply not_Creates; [apply Cl|discriminate].
  - right. apply Linked_event1 in HL as (ts1 & Q1 & S1 & P1 & L); [|exact HQ].
    apply Linked_event1 in L as (ts2 & Q2 & S2 & P2 & L); [|exact Q1].
    eapply Made_Same_l; [exact S1|]. eapply Made_Same_l; [apply (effect_files euid CSocket (e_ans ev) (e_pre ev) Logic.I)|].
    rewrite <- (proj1 I), <- P1. eapply Made_Same_l; [exact S2|].
    eapply Made_Same_r; [apply bound_Made; eassumption|].
    eapply Linked_files; [exact L|exact Q2|]. onl; [rewrite (proj1 Li)|rewrite (proj1 Cl)]; exact Logic.I.
  - right. apply Linked_event1 in HL as (ts1 & Q1 & S1 & P1 & L); [|exact HQ].
    apply Linked_event1 in L as (ts2 & Q2 & S2 & P2 & L); [|exact Q1].
    eapply Made_Same_l; [exact S1|]. eapply Made_Same_l; [apply (effect_files euid CSocket (e_ans ev) (e_pre ev) Logic.I)|].
    rewrite <- (proj1 I), <- P1. eapply Made_Same_l; [exact S2|].
    eapply Made_Same_r; [apply bound_Made; eassumption|].
    eapply Linked_files; [exact L|exact Q2|]. onl. rewrite (proj1 Li). exact Logic.I.
Qed.

(** ** Serving: only the socket's own inode changes *)
Lemma serve_effect q u g m c a n k : ServeCall q u g m c -> Holds q n k ->
  Holds q n (effect euid c a k) /\ k_names (effect euid c a k) = k_names k
  /\ (forall j, j <> n -> k_inodes (effect euid c a k) j = k_inodes k j).
Proof.
  intros HC HH. pose proof (Holds_resolve _ _ _ HH) as HR. destruct HH as [H1 H2].
  destruct HC as [->|[->|[->| ->]]]; cbn [effect]; destruct a;
    try (split; [split; assumption|split; [reflexivity|intros; reflexivity]]).
  - rewrite HR. split; [split; cbn; [exact H1|rewrite put_inode_same; exact H2]|].
    split; [reflexivity|]. intros j Hj. cbn. apply put_inode_other. exact Hj.
  - rewrite HR. split; [split; cbn; [exact H1|rewrite put_inode_same; exact H2]|].
    split; [reflexivity|]. intros j Hj. cbn. apply put_inode_other. exact Hj.
  - destruct (k_listen k) as [l|]; [|split; [split; assumption|split; [reflexivity|intros; reflexivity]]].
    destruct (l_queue l); split; try (split; assumption); split; try reflexivity; intros; reflexivity.
Qed.

Lemma serve_files q u g m n es k ts k' :
  Only (ServeCall q u g m) es -> Linked euid k ts es k' -> QuietTurns ts -> Holds q n k ->
  Holds q n k' /\ Within q n k k' /\ k_names k' = k_names k.
Proof.
  intros HO HL. revert HO. induction HL as [k|k acts a c k1 k2 ts evs k' E1 E2 HL IH]; intros HO HQ HH.
  - split; [exact HH|]. split; [apply Within_refl|reflexivity].
  - apply Only_cons in HO as [HC HO]. apply Forall_inv in HQ as QA. apply Forall_inv_tail in HQ. cbn in QA, HC.
    pose proof (connects_files _ QA k) as S. rewrite <- E1 in S.
    destruct (serve_effect q u g m c a n k1 HC (Same_Holds _ _ _ _ S HH)) as (H2 & N2 & I2). rewrite <- E2 in *.
    destruct (IH HO HQ H2) as (H3 & W3 & N3). split; [exact H3|]. split.
    + eapply Within_trans; [eapply Same_Within; exact S|]. eapply Within_trans; [|exact W3].
      split; [intros; rewrite N2; reflexivity|exact I2].
    + rewrite N3, N2. apply S.
Qed.

(** ** The whole *)
Lemma TailT_unlink p old {A} (r : A) o es k ts k' :
  TailT p old r o es -> Linked euid k ts es k' -> QuietTurns ts ->
  exists x us um ts1 ts2 k1, es = us ++ um /\ UnlinkT p x us /\ Linked euid k ts1 us k1 /\ QuietTurns ts1
    /\ Linked euid k1 ts2 um k' /\ QuietTurns ts2 /\ SameFiles k1 k' /\ (o <> Stopped -> exists y, x = Done y).
Proof.
  intros HT HL HQ. destruct HT as [es HU|es x HU|es x um HU Hum].
  - exists Stopped, es, [], ts, [], k'. rewrite app_nil_r. split; [reflexivity|]. split; [exact HU|]. split; [exact HL|].
    split; [exact HQ|]. split; [constructor|]. split; [constructor|]. split; [apply SameFiles_refl|congruence].
  - exists (Done x), es, [], ts, [], k'. rewrite app_nil_r. split; [reflexivity|]. split; [exact HU|]. split; [exact HL|].
    split; [exact HQ|]. split; [constructor|]. split; [constructor|]. split; [apply SameFiles_refl|congruence].
  - apply Linked_split in HL as (ts1 & ts2 & k1 & -> & L1 & L2). apply QuietTurns_app in HQ as [Q1 Q2].
    exists (Done x), es, [um], ts1, ts2, k1. split; [reflexivity|]. split; [exact HU|]. split; [exact L1|].
    split; [exact Q1|]. split; [exact L2|]. split; [exact Q2|]. split; [|eauto].
    eapply Linked_files; [exact L2|exact Q2|]. onl. rewrite (proj1 Hum). exact Logic.I.
Qed.

Lemma TailT_files p old {A} (r : A) o es k ts k' :
  TailT p old r o es -> Linked euid k ts es k' -> QuietTurns ts ->
  SameFiles k k' \/ Removed (components p) k k'.
Proof.
  intros HT HL HQ. destruct (TailT_unlink p old r o es k ts k' HT HL HQ)
    as (x & us & um & ts1 & ts2 & k1 & -> & HU & L1 & Q1 & L2 & Q2 & S & _).
  destruct (UnlinkT_files _ _ _ _ _ _ HU L1 Q1) as [S'|(_ & RA & RB & RC & RE)].
  - left. eapply SameFiles_trans; eassumption.
  - right. destruct S as (S1 & S2 & S3). split; [exact RA|]. repeat split; congruence.
Qed.

Lemma TailT_removes p old {A} (r : A) o es k ts k' n :
  TailT p old r o es -> o <> Stopped -> Linked euid k ts es k' -> QuietTurns ts -> Holds (components p) n k ->
  (forall ev, In ev es -> StatUnlink (components p) (e_call ev) -> e_ans ev = AOk) ->
  k_names k' (components p) = None.
Proof.
  intros HT NS HL HQ HH HA. destruct (TailT_unlink p old r o es k ts k' HT HL HQ)
    as (x & us & um & ts1 & ts2 & k1 & -> & HU & L1 & Q1 & L2 & Q2 & (S & _) & HX).
  destruct (HX NS) as [y ->]. rewrite S. eapply UnlinkT_removes; try eassumption.
  intros ev Hin. apply HA; [apply in_or_app; left; exact Hin|].
  apply UnlinkT_only in HU. unfold Only in HU. rewrite Forall_forall in HU. exact (HU _ Hin).
Qed.

(** A name's fate: unchanged, or it was free or named a socket. *)
Definition FreeOrSocket (q : path) (k : kernel) : Prop := k_names k q = None \/ SocketAt k q.

Definition Fate (q : path) (k k' : kernel) : Prop :=
  Within q (k_next k) k k' /\ (k_names k' q = k_names k q \/ FreeOrSocket q k).

Lemma Same_SocketAt k k' q : SameFiles k k' -> SocketAt k' q -> SocketAt k q.
Proof.
  intros S (n & R & K). exists n. rewrite <- (SameFiles_resolve _ _ _ S). split; [exact R|].
  destruct S as (_ & B & _). rewrite <- B. exact K.
Qed.

Lemma Same_Fate q k1 k2 k3 : SameFiles k1 k2 -> Fate q k2 k3 -> Fate q k1 k3.
Proof.
  intros S (W & F). pose proof S as (A & B & C). split.
  - rewrite <- C. eapply Within_trans; [eapply Same_Within; exact S|exact W].
  - destruct F as [F|[F|F]]; [left; congruence|right; left; congruence|right; right; eapply Same_SocketAt; eassumption].
Qed.

Lemma Fate_Same q k1 k2 k3 : Fate q k1 k2 -> SameFiles k2 k3 -> Fate q k1 k3.
Proof.
  intros (W & F) S. pose proof S as (A & B & C). split.
  - eapply Within_trans; [exact W|eapply Same_Within; exact S].
  - destruct F as [F|F]; [left; congruence|right; exact F].
Qed.

Lemma Same_Same_Fate q k k' : SameFiles k k' -> Fate q k k'.
Proof. intros S. split; [apply Same_Within; exact S|left; apply (f_equal (fun f => f q)), S]. Qed.

Lemma Removed_Fate q k k' : Removed q k k' -> Fate q k k'.
Proof. intros R. split; [apply Removed_Within; exact R|]. right. right. apply R. Qed.

(** From the creation of the socket on, whatever happens. *)
Lemma MaskedT_files p u g m old o ms k ts k' :
  MaskedT p u g m old o ms -> o <> Stopped -> Linked euid k ts ms k' -> QuietTurns ts -> Fate (components p) k k'.
Proof.
  intros HM NS HL HQ. set (q := components p) in *.
  assert (HM2 : forall n k1 k2, Holds q n k1 -> (SameFiles k1 k2 \/ Removed q k1 k2) -> Within q n k1 k2).
  { intros n k1 k2 _ [S|R]; [apply Same_Within; exact S|apply Removed_Within; exact R]. }
  inversion HM as [|e o' es ts' HB HT| | |fd es ss cl HB HS Hcl| |fd r o' es ss cl ts' HB HS Hcl HT]; subst; try congruence.
  - apply Linked_split in HL as (t1 & t2 & k1 & -> & L1 & L2). apply QuietTurns_app in HQ as [Q1 Q2].
    pose proof (TailT_files _ _ _ _ _ _ _ _ HT L2 Q2) as F.
    destruct (BindT_files _ _ _ _ _ _ HB L1 Q1 ltac:(discriminate)) as [(S & _)|(N & H & W)].
    + eapply Same_Fate; [exact S|]. destruct F; [apply Same_Same_Fate|apply Removed_Fate]; assumption.
    + split; [|right; left; exact N]. eapply Within_trans; [exact W|]. apply HM2; assumption.
  - apply Linked_split in HL as (t1 & t2 & k1 & -> & L1 & L2). apply QuietTurns_app in HQ as [Q1 Q2].
    apply Linked_split in L2 as (t3 & t4 & k2 & -> & L3 & L4). apply QuietTurns_app in Q2 as [Q3 Q4].
    destruct (BindT_files _ _ _ _ _ _ HB L1 Q1 ltac:(discriminate)) as [(_ & (e & E) & _)|(N & H & W)]; [discriminate|].
    destruct (serve_files q u g m (k_next k) ss k1 t3 k2 (ServeT_only _ _ _ _ _ _ _ HS) L3 Q3 H) as (H2 & W2 & _).
    split; [|right; left; exact N]. eapply Within_trans; [exact W|]. eapply Within_trans; [exact W2|].
    apply Same_Within. eapply Linked_files; [exact L4|exact Q4|]. onl. rewrite (proj1 Hcl). exact Logic.I.
  - apply Linked_split in HL as (t1 & t2 & k1 & -> & L1 & L2). apply QuietTurns_app in HQ as [Q1 Q2].
    apply Linked_split in L2 as (t3 & t4 & k2 & -> & L3 & L4). apply QuietTurns_app in Q2 as [Q3 Q4].
    change (cl :: ts') with ([cl] ++ ts') in L4.
    apply Linked_split in L4 as (t5 & t6 & k3 & -> & L5 & L6). apply QuietTurns_app in Q4 as [Q5 Q6].
    destruct (BindT_files _ _ _ _ _ _ HB L1 Q1 ltac:(discriminate)) as [(_ & (e & E) & _)|(N & H & W)]; [discriminate|].
    destruct (serve_files q u g m (k_next k) ss k1 t3 k2 (ServeT_only _ _ _ _ _ _ _ HS) L3 Q3 H) as (H2 & W2 & _).
    assert (S : SameFiles k2 k3) by (eapply Linked_files; [exact L5|exact Q5|]; onl; rewrite (proj1 Hcl); exact Logic.I).
    pose proof (TailT_files _ _ _ _ _ _ _ _ HT L6 Q6) as F.
    split; [|right; left; exact N]. eapply Within_trans; [exact W|]. eapply Within_trans; [exact W2|].
    eapply Within_trans; [eapply Same_Within; exact S|]. apply HM2; [eapply Same_Holds; eassumption|exact F].
Qed.

Lemma OpenT_files p u g m oo os k ts k' :
  OpenT euid p u g m oo os -> oo <> Stopped -> Linked euid k ts os k' -> QuietTurns ts -> Fate (components p) k k'.
Proof.
  intros HO NS HL HQ.
  inversion HO as [|e es HE| |e es us HE HU| |es us um o ms HE HU Hum HM]; subst; try congruence.
  - apply Same_Same_Fate. eapply Linked_files; [exact HL|exact HQ|]. eapply stat_nofiles, EnforceT_stat. exact HE.
  - apply Linked_split in HL as (t1 & t2 & k1 & -> & L1 & L2). apply QuietTurns_app in HQ as [Q1 Q2].
    eapply Same_Fate; [eapply Linked_files; [exact L1|exact Q1|eapply stat_nofiles, EnforceT_stat; exact HE]|].
    destruct (UnlinkT_files _ _ _ _ _ _ HU L2 Q2) as [S|(_ & R)]; [apply Same_Same_Fate; exact S|apply Removed_Fate; exact R].
  - apply Linked_split in HL as (t1 & t2 & k1 & -> & L1 & L2). apply QuietTurns_app in HQ as [Q1 Q2].
    eapply Same_Fate; [eapply Linked_files; [exact L1|exact Q1|eapply stat_nofiles, EnforceT_stat; exact HE]|].
    apply Linked_split in L2 as (t3 & t4 & k2 & -> & L3 & L4). apply QuietTurns_app in Q2 as [Q3 Q4].
    change (um :: ms) with ([um] ++ ms) in L4.
    apply Linked_split in L4 as (t5 & t6 & k3 & -> & L5 & L6). apply QuietTurns_app in Q4 as [Q5 Q6].
    assert (S : SameFiles k2 k3) by (eapply Linked_files; [exact L5|exact Q5|]; onl; rewrite (proj1 Hum); exact Logic.I).
    pose proof (MaskedT_files _ _ _ _ _ _ _ _ _ _ HM NS L6 Q6) as F.
    pose proof (Same_Fate _ _ _ _ S F) as F2.
    destruct (UnlinkT_files _ _ _ _ _ _ HU L3 Q3) as [S'|(_ & R)]; [eapply Same_Fate; eassumption|].
    destruct F2 as [W _]. destruct (Removed_Fate _ _ _ R) as [W' F']. split; [|right; right; apply R].
    destruct R as (_ & _ & _ & NX). rewrite NX in W. eapply Within_trans; eassumption.
Qed.

(** If the path names something that is not a socket, nothing changes and
    nothing is created. *)
Lemma OpenT_occupied p u g m oo os k ts k' :
  OpenT euid p u g m oo os -> oo <> Stopped -> Linked euid k ts os k' -> QuietTurns ts ->
  k_names k (components p) <> None -> ~ SocketAt k (components p) ->
  SameFiles k k' /\ exists e, oo = Done (Err e).
Proof.
  intros HO NS HL HQ HN HS. set (q := components p) in *.
  assert (NR : forall k1 k2, SameFiles k k1 -> ~ Removed q k1 k2).
  { intros k1 k2 S (A & _). apply HS. eapply Same_SocketAt; eassumption. }
  inversion HO as [|e es HE| |e es us HE HU| |es us um o ms HE HU Hum HM]; subst; try congruence.
  - split; [|eauto]. eapply Linked_files; [exact HL|exact HQ|]. eapply stat_nofiles, EnforceT_stat. exact HE.
  - apply Linked_split in HL as (t1 & t2 & k1 & -> & L1 & L2). apply QuietTurns_app in HQ as [Q1 Q2].
    assert (S1 : SameFiles k k1) by (eapply Linked_files; [exact L1|exact Q1|eapply stat_nofiles, EnforceT_stat; exact HE]).
    split; [|eauto]. destruct (UnlinkT_files _ _ _ _ _ _ HU L2 Q2) as [S|(_ & R)]; [eapply SameFiles_trans; eassumption|].
    destruct (NR _ _ S1 R).
  - apply Linked_split in HL as (t1 & t2 & k1 & -> & L1 & L2). apply QuietTurns_app in HQ as [Q1 Q2].
    assert (S1 : SameFiles k k1) by (eapply Linked_files; [exact L1|exact Q1|eapply stat_nofiles, EnforceT_stat; exact HE]).
    apply Linked_split in L2 as (t3 & t4 & k2 & -> & L3 & L4). apply QuietTurns_app in Q2 as [Q3 Q4].
    change (um :: ms) with ([um] ++ ms) in L4.
    apply Linked_split in L4 as (t5 & t6 & k3 & -> & L5 & L6). apply QuietTurns_app in Q4 as [Q5 Q6].
    assert (S : SameFiles k2 k3) by (eapply Linked_files; [exact L5|exact Q5|]; onl; rewrite (proj1 Hum); exact Logic.I).
    assert (S2 : SameFiles k k3).
    { destruct (UnlinkT_files _ _ _ _ _ _ HU L3 Q3) as [S'|(_ & R)]; [|destruct (NR _ _ S1 R)].
      eapply SameFiles_trans; [exact S1|]. eapply SameFiles_trans; eassumption. }
    assert (NM : forall k4, ~ Made q k3 k4).
    { intros k4 (A & _). apply HN. destruct S2 as (B & _). rewrite <- B. exact A. }
    inversion HM as [|e o' es' ts' HB HT| | |fd es' ss cl HB HS' Hcl| |fd r o' es' ss cl ts' HB HS' Hcl HT]; subst; try congruence.
    + apply Linked_split in L6 as (t7 & t8 & k4 & -> & L7 & L8). apply QuietTurns_app in Q6 as [Q7 Q8].
      destruct (BindT_files _ _ _ _ _ _ HB L7 Q7 ltac:(discriminate)) as [(S3 & _)|MD]; [|destruct (NM _ MD)].
      pose proof (SameFiles_trans _ _ _ S2 S3) as S4. split.
      * destruct (TailT_files _ _ _ _ _ _ _ _ HT L8 Q8) as [S5|R]; [eapply SameFiles_trans; eassumption|destruct (NR _ _ S4 R)].
      * inversion HT; subst; [congruence|congruence|eauto].
    + apply Linked_split in L6 as (t7 & t8 & k4 & -> & L7 & L8). apply QuietTurns_app in Q6 as [Q7 Q8].
      destruct (BindT_files _ _ _ _ _ _ HB L7 Q7 ltac:(discriminate)) as [(_ & (e & E) & _)|MD]; [discriminate|destruct (NM _ MD)].
    + apply Linked_split in L6 as (t7 & t8 & k4 & -> & L7 & L8). apply QuietTurns_app in Q6 as [Q7 Q8].
      destruct (BindT_files _ _ _ _ _ _ HB L7 Q7 ltac:(discriminate)) as [(_ & (e & E) & _)|MD]; [discriminate|destruct (NM _ MD)].
Qed.

(** A socket that was created is gone in the end. *)
Lemma tail_in {A} (e1 e2 l r : list A) b : e1 ++ b :: e2 = l ++ r -> ~ In b r -> forall x, In x r -> In x e2.
Proof.
  revert l. induction e1 as [|y e1 IH]; intros l E NI x Hx.
  - destruct l as [|z l]; cbn in E.
    + subst r. destruct NI. left. reflexivity.
    + injection E as -> ->. apply in_or_app. right. exact Hx.
  - destruct l as [|z l]; cbn in E.
    + subst r. destruct NI. right. apply in_elt.
    + injection E as -> E. eapply IH; eassumption.
Qed.

Lemma OpenT_gone p u g m x os k ts k' q e1 b e2 :
  OpenT euid p u g m (Done x) os -> Linked euid k ts os k' -> QuietTurns ts ->
  os = e1 ++ b :: e2 -> Creates q b ->
  (forall ev, In ev e2 -> StatUnlink q (e_call ev) -> e_ans ev = AOk) ->
  q = components p /\ k_names k' q = None.
Proof.
  intros HO HL HQ HEV HC HA.
  assert (NC : forall C es, Only C es -> ~ C (CBind q) -> ~ In b es).
  { intros C es HOn Hn Hin. unfold Only in HOn. rewrite Forall_forall in HOn. apply HOn in Hin.
    destruct HC as (E & _). rewrite E in Hin. contradiction. }
  assert (HEN : forall o es, EnforceT euid p o es -> ~ In b es).
  { intros o es H. eapply NC; [eapply EnforceT_stat; exact H|]. intros [d ?]. discriminate. }
  assert (HUN : forall o es, UnlinkT p o es -> ~ In b es).
  { intros o es H. eapply NC; [eapply UnlinkT_only; exact H|]. intros [?|?]; discriminate. }
  assert (HSN : forall fd o es, ServeT fd p u g m o es -> ~ In b es).
  { intros fd o es H. eapply NC; [eapply ServeT_only; exact H|]. intros [?|[?|[?|?]]]; discriminate. }
  assert (HEV1 : forall c a ev, Is c a ev -> c <> CBind q -> b <> ev).
  { intros c a ev [E _] Hn ->. destruct HC as (E' & _). congruence. }
  assert (HTN : forall old A (r : A) o es, TailT p old r o es -> ~ In b es).
  { intros old A r o es HT Hi. destruct HT as [es HU|es y HU|es y um HU Hum]; try exact (HUN _ _ HU Hi).
    apply in_app_iff in Hi as [Hi|[Hi|[]]]; [exact (HUN _ _ HU Hi)|].
    refine (HEV1 _ _ _ Hum _ (eq_sym Hi)). discriminate. }
  assert (HIN : In b os) by (rewrite HEV; apply in_elt).
  remember (Done x) as oo eqn:Eoo.
  destruct HO as [es HE|e es HE|es us HE HU|e es us HE HU|es us HE HU|es us um o ms HE HU Hum HM]; try discriminate.
  - destruct (HEN _ _ HE HIN).
  - apply in_app_iff in HIN as [HIN|HIN]; [destruct (HEN _ _ HE HIN)|destruct (HUN _ _ HU HIN)].
  - subst o. apply in_app_iff in HIN as [HIN|HIN]; [destruct (HEN _ _ HE HIN)|].
    apply in_app_iff in HIN as [HIN|[HIN|HIN]]; [destruct (HUN _ _ HU HIN)| |].
    { destruct (HEV1 _ _ _ Hum ltac:(discriminate) (eq_sym HIN)). }
    assert (HBI : forall o es, BindT p o es -> In b es -> q = components p).
    { intros o es' HB Hi. apply BindT_only in HB. unfold Only in HB. rewrite Forall_forall in HB. apply HB in Hi.
      destruct HC as (E & _). rewrite E in Hi. destruct Hi as [H|[H|[H|H]]]; try discriminate. injection H. auto. }
    change (um :: ms) with ([um] ++ ms) in HL, HEV. rewrite !app_assoc in HL, HEV.
    remember (Done x) as o eqn:Eo.
    destruct HM as [es' HB|e o' es' ts' HB HT|fd es' ss HB HS|fd es' ss HB HS|fd es' ss cl HB HS Hcl|fd r es' ss HB HS|fd r o' es' ss cl ts' HB HS Hcl HT];
      try discriminate.
    + apply in_app_iff in HIN as [HIN|HIN]; [|destruct (HTN _ _ _ _ _ HT HIN)].
      pose proof (HBI _ _ HB HIN) as ->. split; [reflexivity|].
      rewrite app_assoc in HL, HEV.
      apply Linked_split in HL as (t1 & t2 & k2 & -> & L1 & L2). apply QuietTurns_app in HQ as [Q1 Q2].
      apply Linked_split in L1 as (t3 & t4 & k3 & -> & L3 & L4). apply QuietTurns_app in Q1 as [Q3 Q4].
      destruct (BindT_files _ _ _ _ _ _ HB L4 Q4 ltac:(discriminate)) as [(_ & _ & NO)|(_ & H & _)]; [destruct (NO _ _ HIN HC)|].
      eapply (TailT_removes p _ _ _ _ _ _ _ _ HT); try eassumption; [subst; discriminate|].
      intros ev Hev. apply HA. eapply tail_in; [symmetry; exact HEV|eapply HTN; exact HT|exact Hev].
    + apply in_app_iff in HIN as [HIN|HIN].
      2: { apply in_app_iff in HIN as [HIN|[HIN|HIN]]; [destruct (HSN _ _ _ HS HIN)| |destruct (HTN _ _ _ _ _ HT HIN)].
           destruct (HEV1 _ _ _ Hcl ltac:(discriminate) (eq_sym HIN)). }
      pose proof (HBI _ _ HB HIN) as ->. split; [reflexivity|].
      change (cl :: ts') with ([cl] ++ ts') in HL, HEV. rewrite !app_assoc in HL, HEV.
      apply Linked_split in HL as (t1 & t2 & k2 & -> & L1 & L2). apply QuietTurns_app in HQ as [Q1 Q2].
      apply Linked_split in L1 as (t3 & t4 & k3 & -> & L3 & L4). apply QuietTurns_app in Q1 as [Q3 Q4].
      apply Linked_split in L3 as (t5 & t6 & k4 & -> & L5 & L6). apply QuietTurns_app in Q3 as [Q5 Q6].
      apply Linked_split in L5 as (t7 & t8 & k5 & -> & L7 & L8). apply QuietTurns_app in Q5 as [Q7 Q8].
      destruct (BindT_files _ _ _ _ _ _ HB L8 Q8 ltac:(discriminate)) as [(_ & _ & NO)|(_ & H & _)]; [destruct (NO _ _ HIN HC)|].
      destruct (serve_files _ u g m _ ss _ _ _ (ServeT_only _ _ _ _ _ _ _ HS) L6 Q6 H) as (H2 & _).
      assert (S : SameFiles k3 k2) by (eapply Linked_files; [exact L4|exact Q4|]; onl; rewrite (proj1 Hcl); exact Logic.I).
      eapply (TailT_removes p _ _ _ _ _ _ _ _ HT); try eassumption; [subst; discriminate|eapply Same_Holds; eassumption|].
      intros ev Hev. apply HA. eapply tail_in; [symmetry; exact HEV|eapply HTN; exact HT|exact Hev].
Qed.
End Files.
