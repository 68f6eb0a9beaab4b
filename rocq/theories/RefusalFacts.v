(** Statements about whole openings: directory checks, mask, files, listener
    and connections. *)
From Coq Require Import Lia.
From Verif Require Import Base BaseLemmas Num Path Template Options World Sys Io Socket Env Core Pair
  Spec TraceSpec SessionSpec PathProofs RequestProofs PairPure InputFacts RunProofs IoProofs SocketProofs PairProofs
  KernelFacts OpenFacts AskFacts MiscFacts SplitFacts CleanupFacts FilesFacts.
Local Open Scope Z_scope.

(** Opening was refused (or is still waiting). *)
Definition Refused (o : outcome (Z * pstate SudoPair)) : Prop :=
  o = Stopped \/ exists st', o = Done (-1, st') /\ st_plugin st' = None.

Lemma AfterT_refused e oo o post : AfterT e oo o post -> (forall c, oo <> Done (Ok c)) -> Refused o.
Proof.
  intros HA HN. destruct oo as [[c|er]| |]; cbn in HA.
  - destruct (HN c eq_refl).
  - destruct HA as [[->| ->] _]; [left; reflexivity|right; eexists; split; reflexivity].
  - destruct HA as [-> _]. right. eexists. split; reflexivity.
  - destruct HA as [-> _]. left. reflexivity.
Qed.

Section Refusal.
Variables (pl : platform) (a : open_args) (rq : request) (w : world)
  (o : outcome (Z * pstate SudoPair)) (w' : world) (evs : list event).
Hypothesis D : Describes pl a rq.
Hypothesis HR : core_open SudoPair pl a (pstate0 _) w = (o, w').
Hypothesis HT : w_trace w' = w_trace w ++ evs.

Lemma split_run : Ran (pl_euid pl) w evs w' /\ SplitT pl rq o evs.
Proof. exact (split_given pl a rq D w o w' evs HR HT). Qed.

(** ** The directory *)
Let dir := components (rq_socket_dir rq).

Definition BadDir (ev : event) : Prop :=
  e_ans ev = AOk -> forall n, resolve (e_pre ev) dir = Some n ->
  i_uid (k_inodes (e_pre ev) n) <> pl_euid pl \/ OthersWrite (k_inodes (e_pre ev) n).

Lemma not_dir_ok i : i_uid i <> pl_euid pl \/ OthersWrite i -> ~ dir_ok (pl_euid pl) i.
Proof. intros [H|H] (A & B & C); [contradiction|]. apply no_others in C. contradiction. Qed.

Lemma refused_by_dir :
  ~ Exempt rq -> rq_command rq <> [] ->
  (forall e1 ev e2, evs = e1 ++ ev :: e2 -> Only LocalPrompt e1 -> e_call ev = CStat dir -> BadDir ev) ->
  Refused o /\ Only (fun c => LocalPrompt c \/ c = CStat dir) evs /\ k_umask (w_k w') = k_umask (w_k w).
Proof.
  intros NE NC HB. destruct split_run as [(ts & _ & _ & L) S].
  assert (Main : Refused o /\ Only (fun c => LocalPrompt c \/ c = CStat dir) evs).
  { destruct S as [o' es HL [->|[(st' & -> & E)|(st' & -> & [E|E])]]|e mode oo ls os o' post M _ _ NB HLo HM HO HA]; try contradiction.
    - split; [left; reflexivity|]. revert HL. apply Only_weaken. auto.
    - split; [right; eauto|]. revert HL. apply Only_weaken. auto.
    - pose proof (LocalT_calls _ _ _ _ HLo) as HLC.
      assert (HLC' : Only (fun c => LocalPrompt c \/ c = CStat dir) ls) by (revert HLC; apply Only_weaken; auto).
      assert (HEnf : forall es rest, EnforceT (pl_euid pl) (socket_path (pair0 e)) (Done (Ok tt)) es -> os = es ++ rest -> False).
      { intros es rest HE ->. inversion HE as [| | |par ev n Hp _ _ Hi Hres Hok]; subst.
        rewrite (socket_path_parent e rq M) in Hp. injection Hp as <-.
        refine (not_dir_ok _ (HB ls ev (rest ++ post) eq_refl HLC (proj1 Hi) (proj2 Hi) n Hres) Hok). }
      assert (NOk : forall c, oo <> Done (Ok c)).
      { intros c ->. inversion HO as [| | | | |es us um o'' ms HE HU Hum HM']; subst. eapply HEnf; [exact HE|reflexivity]. }
      split; [eapply AfterT_refused; eassumption|]. apply Only_app. split; [exact HLC'|].
      assert (HOs : Only (fun c => LocalPrompt c \/ c = CStat dir) os).
      { inversion HO as [es HE|er es HE|es us HE HU|er es us HE HU|es us HE HU|es us um o'' ms HE HU Hum HM']; subst.
        - inversion HE. constructor.
        - inversion HE as [| |er' par ev Hp _ _ C _|]; subst; [constructor|]. onl. right. rewrite C.
          rewrite (socket_path_parent e rq M) in Hp. injection Hp as <-. reflexivity.
        - destruct (HEnf _ _ HE eq_refl).
        - destruct (HEnf _ _ HE eq_refl).
        - destruct (HEnf _ _ HE eq_refl).
        - destruct (HEnf _ _ HE eq_refl). }
      apply Only_app. split; [exact HOs|].
      destruct oo as [[c|er]| |]; cbn in HA; [destruct (NOk c eq_refl)| | |].
      + destruct HA as [_ HX]. revert HX. apply Only_weaken. intros c [d ->]. left. exact I.
      + destruct HA as [_ ->]. constructor.
      + destruct HA as [_ ->]. constructor. }
  destruct Main as [M1 M2]. split; [exact M1|]. split; [exact M2|].
  eapply Linked_umask; [exact L|]. revert M2. apply Only_weaken. intros c [H| ->]; [|exact I]. destruct c; cbn in *; tauto.
Qed.

(** The same from the state at the start, when the others only connect. *)
Lemma refused_by_dir_initial :
  ~ Exempt rq -> rq_command rq <> [] -> ConnectOnly w ->
  (forall n, resolve (w_k w) dir = Some n ->
     i_uid (k_inodes (w_k w) n) <> pl_euid pl \/ OthersWrite (k_inodes (w_k w) n)) ->
  Refused o /\ Only (fun c => LocalPrompt c \/ c = CStat dir) evs /\ k_umask (w_k w') = k_umask (w_k w)
  /\ SameFiles (w_k w) (w_k w').
Proof.
  intros NE NC Q HB. destruct split_run as [R _]. destruct (Ran_quiet _ _ _ _ Q R) as (ts & HQ & L).
  destruct (refused_by_dir NE NC) as (A & B & C).
  - intros e1 ev e2 E HLo Cev Aev n Hn. rewrite E in L.
    destruct (Linked_event _ _ _ _ _ _ _ L HQ) as (ts1 & k1 & ts2 & Q1 & _ & L1 & S1 & _).
    pose proof (SameFiles_trans _ _ _ (Linked_files _ _ _ _ _ L1 Q1 (local_nofiles _ HLo)) S1) as S.
    rewrite (SameFiles_resolve _ _ _ S) in Hn. destruct S as (_ & Si & _). rewrite Si. apply HB. exact Hn.
  - repeat (split; [assumption|]). eapply Linked_files; [exact L|exact HQ|].
    revert B. apply Only_weaken. intros c [H| ->]; [|exact I]. destruct c; cbn in *; tauto.
Qed.

(** ** The mask *)
Lemma umask_restored z st' : o = Done (z, st') -> 0 <= k_umask (w_k w) < 512 ->
  Forall SelectOk evs -> Forall FdSmall evs -> k_umask (w_k w') = k_umask (w_k w).
Proof.
  intros Ho HK HS HF. destruct split_run as [(ts & _ & _ & L) S].
  destruct S as [o' es HL _|e mode oo ls os o' post M _ _ NB HLo HM HO HA].
  - eapply Linked_umask; [exact L|]. apply local_numask. exact HL.
  - apply Linked_split in L as (t1 & t2 & k1 & -> & L1 & L2). apply Linked_split in L2 as (t3 & t4 & k2 & -> & L3 & L4).
    rewrite (Linked_umask _ _ _ _ _ L4 (talk_numask _ (AfterT_calls _ _ _ _ HA))).
    pose proof (Linked_umask _ _ _ _ _ L1 (local_numask _ (LocalT_calls _ _ _ _ HLo))) as E1. rewrite <- E1 in HK |- *.
    destruct oo as [x| |].
    + eapply OpenT_umask; eassumption.
    + exfalso. destruct (OpenT_panic _ _ _ _ _ _ HO) as (ev & Hin & H). rewrite Forall_forall in HS, HF.
      assert (Hi : In ev (ls ++ os ++ post)) by (rewrite !in_app_iff; auto).
      destruct H as [(C & n & An & Hn)|(C & fd & Af & Hfd)].
      * apply Hn. exact (HS _ Hi C n An).
      * specialize (HF _ Hi C fd Af). lia.
    + cbn in HA. destruct HA as [E _]. congruence.
Qed.

(** ** Files *)
Lemma files_untouched z st' q : o = Done (z, st') -> ConnectOnly w -> SocketPath rq q ->
  (forall p, p <> q -> k_names (w_k w') p = k_names (w_k w) p)
  /\ (forall m, m <> k_next (w_k w) -> k_inodes (w_k w') m = k_inodes (w_k w) m)
  /\ (k_names (w_k w') q = k_names (w_k w) q \/ k_names (w_k w) q = None
      \/ exists n, resolve (w_k w) q = Some n /\ i_kind (k_inodes (w_k w) n) = KSock).
Proof.
  intros Ho Q HP. destruct split_run as [R S]. destruct (Ran_quiet _ _ _ _ Q R) as (ts & HQ & L).
  assert (F : Fate q (w_k w) (w_k w')).
  { destruct S as [o' es HL _|e mode oo ls os o' post M _ _ NB HLo HM HO HA].
    - apply Same_Same_Fate. eapply Linked_files; [exact L|exact HQ|apply local_nofiles; exact HL].
    - apply Linked_split in L as (t1 & t2 & k1 & -> & L1 & L2). apply QuietTurns_app in HQ as [Q1 Q2].
      apply Linked_split in L2 as (t3 & t4 & k2 & -> & L3 & L4). apply QuietTurns_app in Q2 as [Q3 Q4].
      eapply Same_Fate; [eapply Linked_files; [exact L1|exact Q1|eapply local_nofiles, LocalT_calls; exact HLo]|].
      eapply Fate_Same; [|eapply Linked_files; [exact L4|exact Q4|eapply talk_nofiles, AfterT_calls; exact HA]].
      rewrite (SocketPath_unique rq q HP), <- (socket_path_comps e rq M). eapply OpenT_files; try eassumption.
      intros ->. cbn in HA. destruct HA. congruence. }
  destruct F as [[A B] C]. split; [exact A|]. split; [exact B|]. unfold FreeOrSocket, SocketAt in C. exact C.
Qed.

Lemma occupied_refused q : ~ Exempt rq -> rq_command rq <> [] -> ConnectOnly w -> SocketPath rq q ->
  k_names (w_k w) q <> None ->
  (forall n, resolve (w_k w) q = Some n -> i_kind (k_inodes (w_k w) n) <> KSock) ->
  Refused o /\ (o <> Stopped -> SameFiles (w_k w) (w_k w')).
Proof.
  intros NE NC Q HP HN HK. destruct split_run as [R S]. destruct (Ran_quiet _ _ _ _ Q R) as (ts & HQ & L).
  destruct S as [o' es HL HO|e mode oo ls os o' post M _ _ NB HLo HM HO HA].
  - split; [destruct HO as [->|[H|(st' & -> & [H|H])]]; try contradiction; [left; reflexivity|right; exact H]|].
    intros _. eapply Linked_files; [exact L|exact HQ|apply local_nofiles; exact HL].
  - assert (NOk : forall c, oo <> Done (Ok c)).
    2: split; [eapply AfterT_refused; eassumption|].
    all: apply Linked_split in L as (t1 & t2 & k1 & -> & L1 & L2); apply QuietTurns_app in HQ as [Q1 Q2];
      apply Linked_split in L2 as (t3 & t4 & k2 & -> & L3 & L4); apply QuietTurns_app in Q2 as [Q3 Q4];
      assert (S1 : SameFiles (w_k w) k1) by (eapply Linked_files; [exact L1|exact Q1|eapply local_nofiles, LocalT_calls; exact HLo]);
      rewrite (SocketPath_unique rq q HP), <- (socket_path_comps e rq M) in HN, HK;
      set (p := socket_path (pair0 e)) in *;
      assert (HN1 : k_names k1 (components p) <> None) by (destruct S1 as (E & _); rewrite E; exact HN);
      assert (HS1 : ~ SocketAt k1 (components p))
        by (intros (n & Rn & Kn); rewrite (SameFiles_resolve _ _ _ S1) in Rn; destruct S1 as (_ & E & _);
            rewrite E in Kn; exact (HK n Rn Kn)).
    + intros c ->. destruct (OpenT_occupied _ _ _ _ _ _ _ _ _ _ HO ltac:(discriminate) L3 Q3 HN1 HS1) as (_ & er & E). discriminate.
    + intros NS. eapply SameFiles_trans; [exact S1|]. eapply SameFiles_trans;
        [|eapply Linked_files; [exact L4|exact Q4|eapply talk_nofiles, AfterT_calls; exact HA]].
      eapply OpenT_occupied; try eassumption. intros ->. cbn in HA. destruct HA. congruence.
Qed.

(** The socket created is gone. *)
Lemma created_gone z st' q e1 b e2 : o = Done (z, st') -> ConnectOnly w ->
  Forall SelectOk evs -> Forall FdSmall evs ->
  evs = e1 ++ b :: e2 -> Creates q b ->
  (forall ev, In ev e2 -> e_call ev = CStat q \/ e_call ev = CUnlink q -> e_ans ev = AOk) ->
  SocketPath rq q /\ k_names (w_k w') q = None.
Proof.
  intros Ho Q HS HF HEV HC HA'. destruct split_run as [R S]. destruct (Ran_quiet _ _ _ _ Q R) as (ts & HQ & L).
  assert (NB' : forall C es, Only C es -> ~ C (CBind q) -> ~ In b es).
  { intros C es HOn Hn Hin. unfold Only in HOn. rewrite Forall_forall in HOn. apply HOn in Hin.
    destruct HC as (E & _). rewrite E in Hin. contradiction. }
  destruct S as [o' es HL _|e mode oo ls os o' post M _ _ NB HLo HM HO HA].
  - exfalso. eapply NB'; [exact HL|intros []|]. rewrite HEV. apply in_elt.
  - pose proof (AfterT_calls _ _ _ _ HA) as HAC. pose proof (LocalT_calls _ _ _ _ HLo) as HLC.
    assert (Nls : ~ In b ls) by (eapply NB'; [exact HLC|intros []]).
    assert (Npost : ~ In b post) by (eapply NB'; [exact HAC|intros []]).
    assert (Hos : exists x1 x2, os = x1 ++ b :: x2 /\ forall ev, In ev x2 -> In ev e2).
    { assert (Hin : In b (ls ++ os ++ post)) by (rewrite HEV; apply in_elt).
      rewrite !in_app_iff in Hin. destruct Hin as [Hin|[Hin|Hin]]; try contradiction.
      (* the first occurrence of [b] in [os] may come later than the one given; take the split given *)
      clear - HEV Nls Npost. revert ls HEV Nls. induction e1 as [|y e1 IH]; intros ls HEV Nls.
      - destruct ls as [|z ls]; cbn in HEV; [|injection HEV as -> _; destruct Nls; left; reflexivity].
        destruct os as [|z os]; cbn in HEV; [subst post; destruct Npost; left; reflexivity|].
        injection HEV as -> E. exists [], os. split; [reflexivity|]. intros ev Hev. rewrite <- E. apply in_or_app. left. exact Hev.
      - destruct ls as [|z ls]; cbn in HEV.
        + clear IH Nls. revert y e1 HEV. induction os as [|z os IH]; intros y e1 HEV; cbn in HEV.
          * subst post. destruct Npost. right. apply in_elt.
          * injection HEV as -> E. destruct e1 as [|y' e1].
            -- cbn in E. destruct os as [|z os]; cbn in E; [subst post; destruct Npost; left; reflexivity|].
               injection E as -> E. exists [y], os.
               split; [reflexivity|]. intros ev Hev. rewrite <- E. apply in_or_app. left. exact Hev.
            -- destruct (IH y' e1 E) as (x1 & x2 & -> & H). exists (y :: x1), x2. split; [reflexivity|exact H].
        + injection HEV as -> E. destruct (IH ls E) as (x1 & x2 & -> & H); [intros Hi; apply Nls; right; exact Hi|].
          exists x1, x2. split; [reflexivity|exact H]. }
    destruct Hos as (x1 & x2 & Eos & Hx2).
    apply Linked_split in L as (t1 & t2 & k1 & -> & L1 & L2). apply QuietTurns_app in HQ as [Q1 Q2].
    apply Linked_split in L2 as (t3 & t4 & k2 & -> & L3 & L4). apply QuietTurns_app in Q2 as [Q3 Q4].
    destruct (Linked_files _ _ _ _ _ L4 Q4 (talk_nofiles _ HAC)) as (E & _).
    destruct oo as [x| |].
    + destruct (OpenT_gone _ _ _ _ _ _ _ _ _ _ _ _ _ _ HO L3 Q3 Eos HC) as [-> HN].
      { intros ev Hin. apply HA'. apply Hx2. exact Hin. }
      split; [rewrite (socket_path_comps e rq M); apply SocketPath_intro|]. rewrite E. exact HN.
    + exfalso. destruct (OpenT_panic _ _ _ _ _ _ HO) as (ev & Hin & H). rewrite Forall_forall in HS, HF.
      assert (Hi : In ev (ls ++ os ++ post)) by (rewrite !in_app_iff; auto).
      destruct H as [(C & n & An & Hn)|(C & fd & Af & Hfd)].
      * apply Hn. exact (HS _ Hi C n An).
      * specialize (HF _ Hi C fd Af). lia.
    + cbn in HA. destruct HA as [E' _]. congruence.
Qed.

(** ** Listener and connections *)
Lemma listener_closed z st' : o = Done (z, st') -> k_listen (w_k w) = None -> k_listen (w_k w') = None.
Proof.
  intros Ho HK. apply listening_None in HK. apply listening_None. destruct split_run as [(ts & _ & _ & L) S].
  destruct S as [o' es HL _|e mode oo ls os o' post M _ _ NB HLo HM HO HA].
  - rewrite <- HK. eapply Linked_listening; [exact L|apply local_nosock; exact HL].
  - apply Linked_split in L as (t1 & t2 & k1 & -> & L1 & L2). apply Linked_split in L2 as (t3 & t4 & k2 & -> & L3 & L4).
    rewrite (Linked_listening _ _ _ _ _ L4 (talk_nosock _ (AfterT_calls _ _ _ _ HA))).
    eapply OpenT_listening; [exact HO| |exact L3|].
    + intros ->. cbn in HA. destruct HA. congruence.
    + rewrite <- HK. eapply Linked_listening; [exact L1|eapply local_nosock, LocalT_calls; exact HLo].
Qed.

Lemma refused_closes z st' acc : o = Done (z, st') -> z <> 1 -> In acc evs -> Is CAccept AOk acc ->
  let c := List.length (k_conns (e_pre acc)) in
  (exists e1 e2 sd cl e3, evs = e1 ++ acc :: e2 ++ sd :: cl :: e3
     /\ e_call sd = CShutdown c /\ Is (CClose c) AOk cl /\ Only ErrorText e3)
  /\ ~ In c (k_open (w_k w')).
Proof.
  intros Ho Hz Hin Hacc c. destruct split_run as [(ts & _ & _ & L) S].
  destruct S as [o' es HL _|e mode oo ls os o' post M _ _ NB HLo HM HO HA].
  - exfalso. refine (only_not _ _ _ _ _ HL _ Hin Hacc). intros [].
  - apply in_app_iff in Hin as [Hin|Hin].
    { exfalso. refine (only_not _ _ _ _ _ (LocalT_calls _ _ _ _ HLo) _ Hin Hacc). intros []. }
    apply in_app_iff in Hin as [Hin|Hin].
    2: { exfalso. refine (only_not _ _ _ _ _ (AfterT_calls _ _ _ _ HA) _ Hin Hacc). intros []. }
    assert (NS : oo <> Stopped) by (intros ->; cbn in HA; destruct HA; congruence).
    destruct (OpenT_acc _ _ _ _ _ _ _ HO NS _ Hin Hacc) as (c' & -> & _ & Ec & _). subst c'. fold c in HA, HO.
    cbn in HA. destruct HA as (ro & rs & fin & -> & HRm & HF).
    destruct ro as [[[]|er]| |]; try contradiction.
    + exfalso. destruct HF as [E _]. apply Hz. congruence.
    + destruct HF as (od & ds & xs & -> & HD & HX & [[E _]|[E ->]]); [congruence|].
      inversion HD as [| |sd cl Hsd Hcl]; subst ds.
      apply in_split in Hin as (o1 & o2 & ->). split.
      * exists (ls ++ o1), (o2 ++ rs), sd, cl, xs. split; [|split; [exact Hsd|split; [exact Hcl|exact HX]]]. asc. reflexivity.
      * replace (ls ++ (o1 ++ acc :: o2) ++ rs ++ [sd; cl] ++ xs) with ((ls ++ o1 ++ acc :: o2 ++ rs ++ [sd]) ++ cl :: xs) in L
          by (asc; reflexivity).
        apply Linked_at in L as (t1 & acts & an & t2 & k1 & _ & _ & _ & _ & HP & L).
        rewrite (Linked_open _ _ _ _ _ L).
        -- rewrite HP, (proj1 Hcl), (proj2 Hcl). cbn. apply remove_In.
        -- revert HX. apply Only_weaken. intros x [d ->]. exact I.
    + exfalso. destruct HF as [E _]. congruence.
Qed.

(** ** An interrupted wait *)
Lemma interrupted_wait se er : In se evs -> Is CSelect (AErr er) se ->
  Refused o
  /\ (forall ev, In ev evs -> e_call ev <> CAccept)
  /\ (forall z st', o = Done (z, st') ->
      (0 <= k_umask (w_k w) < 512 -> k_umask (w_k w') = k_umask (w_k w))
      /\ (ConnectOnly w -> forall e1 b e2 q, evs = e1 ++ b :: e2 -> Creates q b ->
          (forall ev, In ev e2 -> e_call ev = CStat q \/ e_call ev = CUnlink q -> e_ans ev = AOk) ->
          k_names (w_k w') q = None)).
Proof.
  intros Hin Hse. destruct split_run as [_ S].
  assert (Main : Refused o /\ (forall ev, In ev evs -> e_call ev <> CAccept) /\ Forall SelectOk evs
                 /\ (o <> Stopped -> Forall FdSmall evs)).
  { assert (NIn : forall (C : call -> Prop) es c, Only C es -> ~ C c -> forall ev, In ev es -> e_call ev <> c).
    { intros C es c HC Hn ev Hi E. unfold Only in HC. rewrite Forall_forall in HC. apply HC in Hi. rewrite E in Hi. contradiction. }
    destruct S as [o' es HL _|e mode oo ls os o' post M _ _ NB HLo HM HO HA].
    - exfalso. refine (NIn _ _ CSelect HL _ _ Hin (proj1 Hse)). intros [].
    - pose proof (AfterT_calls _ _ _ _ HA) as HAC. pose proof (LocalT_calls _ _ _ _ HLo) as HLC.
      apply in_app_iff in Hin as [Hin|Hin].
      { exfalso. refine (NIn _ _ CSelect HLC _ _ Hin (proj1 Hse)). intros []. }
      apply in_app_iff in Hin as [Hin|Hin].
      2: { exfalso. refine (NIn _ _ CSelect HAC _ _ Hin (proj1 Hse)). intros []. }
      set (q := components (socket_path (pair0 e))) in *.
      assert (HSv : forall fd o es, ServeT fd (socket_path (pair0 e)) (socket_uid (pair0 e)) (socket_gid (pair0 e)) mode o es ->
        In se es -> (exists er', o = Done (Err er')) /\ fd < 1024 /\ Only (fun c => c = CSelect \/ exists p x y, c = CChown p x y \/ c = CChmod p x) es
                    /\ Forall SelectOk es).
      { intros fd o0 es HS Hi. destruct HS as [|e0 co Hco Hf|co Hco|e0 co cm Hco Hcm Hf|co cm Hco Hcm Hge|co cm Hco Hcm Hlt|e0 e' co cm se' Hco Hcm Hlt Hs|n co cm se' Hco Hcm Hlt Hn Hs|o1 co cm se' es Hco Hcm Hlt Hs HAc].
        all: repeat (destruct Hi as [Hi|Hi]; [|]); try contradiction; try (subst; exfalso; destruct Hse as [X _]; revert X; is_call; congruence).
        - split; [eauto|]. split; [exact Hlt|]. split.
          + onl; [| |left; apply Hs]; right; [do 3 eexists; left; apply Hco|do 2 eexists; exists 0; right; apply Hcm].
          + repeat apply Forall_cons; try apply Forall_nil; intros X n An; try (exfalso; revert X; is_call; congruence).
            destruct Hs as [_ Y]. congruence.
        - subst. exfalso. destruct Hse as [_ X], Hs as [_ Y]. congruence.
        - subst. exfalso. destruct Hse as [_ X], Hs as [_ Y]. congruence.
        - exfalso. refine (NIn _ _ CSelect (AcceptT_only _ _ HAc) _ _ Hi (proj1 Hse)). discriminate. }
      assert (HEn : forall o es, EnforceT (pl_euid pl) (socket_path (pair0 e)) o es -> Only (fun c => exists d, c = CStat d) es)
        by (intros; eapply EnforceT_stat; eassumption).
      (* every part but the serving has neither select nor accept *)
      set (Quiet := fun c : call => c <> CSelect /\ c <> CAccept).
      assert (K1 : forall es, Only (fun c => exists d, c = CStat d) es -> Only Quiet es)
        by (intros es; apply Only_weaken; intros c [d ->]; split; discriminate).
      assert (K2 : forall o es, UnlinkT (socket_path (pair0 e)) o es -> Only Quiet es).
      { intros o0 es H. apply UnlinkT_only in H. revert H. apply Only_weaken. intros c [->| ->]; split; discriminate. }
      assert (K3 : forall o es, BindT (socket_path (pair0 e)) o es -> Only Quiet es).
      { intros o0 es H. apply BindT_only in H. revert H. apply Only_weaken. intros c [->|[->|[->| ->]]]; split; discriminate. }
      assert (K4 : forall old A (r : A) o es, TailT (socket_path (pair0 e)) old r o es -> Only Quiet es).
      { intros old A r o0 es H. destruct H; onl; try (eapply K2; eassumption). rewrite (proj1 H0). split; discriminate. }
      assert (K5 : Only Quiet ls) by (revert HLC; apply Only_weaken; intros c; destruct c; cbn; try tauto; split; discriminate).
      assert (K6 : Only Quiet post) by (revert HAC; apply Only_weaken; intros c; destruct c; cbn; try tauto; split; discriminate).
      assert (KI : forall ev c a, Is c a ev -> Quiet c -> Only Quiet [ev]) by (intros ev c a0 [E _] H; onl; rewrite E; exact H).
      assert (NQ : forall es, Only Quiet es -> ~ In se es).
      { intros es H Hi. unfold Only in H. rewrite Forall_forall in H. apply H in Hi. destruct Hi as [Hi _]. apply Hi, Hse. }
      assert (QA : forall es, Only Quiet es -> forall ev, In ev es -> e_call ev <> CAccept).
      { intros es H ev Hi. unfold Only in H. rewrite Forall_forall in H. apply H in Hi. apply Hi. }
      assert (QS : forall es, Only Quiet es -> Forall SelectOk es).
      { intros es. apply Forall_impl. intros ev [H _] E. contradiction. }
      assert (BF : forall fd es, BindT (socket_path (pair0 e)) (Done (Ok fd)) es -> fd < 1024 -> Forall FdSmall es).
      { intros fd es HB Hlt. inversion HB as [| | | | | | | | |fd' ev b li H0 I1 I2 I3 I4]; subst.
        repeat apply Forall_cons; try apply Forall_nil; intros E x Ax; try (exfalso; revert E; is_call; discriminate).
        destruct I1 as [_ Y]. rewrite Y in Ax. injection Ax as <-. exact Hlt. }
      assert (NF : forall (C : call -> Prop) es, Only C es -> ~ C CSocket -> Forall FdSmall es).
      { intros C es HC Hn. revert HC. apply Forall_impl. intros ev Hev E. rewrite E in Hev. contradiction. }
      (* find the constructor *)
      assert (Main : exists fd er' es us um eb ss rest,
        os = es ++ us ++ um :: eb ++ ss ++ rest /\ Only (fun c => exists d, c = CStat d) es
        /\ UnlinkT (socket_path (pair0 e)) (Done (Ok tt)) us /\ Is (CUmask UMASK_ALL) AOk um
        /\ BindT (socket_path (pair0 e)) (Done (Ok fd)) eb
        /\ ServeT fd (socket_path (pair0 e)) (socket_uid (pair0 e)) (socket_gid (pair0 e)) mode (Done (Err er')) ss
        /\ In se ss /\ Only (fun c => Quiet c /\ c <> CSocket) rest /\ (oo = Done (Err er') \/ oo = Stopped)).
      { assert (K2' : forall o es, UnlinkT (socket_path (pair0 e)) o es -> Only (fun c => Quiet c /\ c <> CSocket) es).
        { intros o0 es H. apply UnlinkT_only in H. revert H. apply Only_weaken. intros c [->| ->]; repeat split; discriminate. }
        assert (K4' : forall old A (r : A) o es, TailT (socket_path (pair0 e)) old r o es -> Only (fun c => Quiet c /\ c <> CSocket) es).
        { intros old A r o0 es H. destruct H; onl; try (eapply K2'; eassumption). rewrite (proj1 H0). repeat split; discriminate. }
        destruct HO as [es HE|er0 es HE|es us HE HU|er0 es us HE HU|es us HE HU|es us um o0 ms HE HU Hum HMk].
        - destruct (NQ _ (K1 _ (HEn _ _ HE)) Hin).
        - destruct (NQ _ (K1 _ (HEn _ _ HE)) Hin).
        - apply in_app_iff in Hin as [Hin|Hin]; [destruct (NQ _ (K1 _ (HEn _ _ HE)) Hin)|destruct (NQ _ (K2 _ _ HU) Hin)].
        - apply in_app_iff in Hin as [Hin|Hin]; [destruct (NQ _ (K1 _ (HEn _ _ HE)) Hin)|destruct (NQ _ (K2 _ _ HU) Hin)].
        - apply in_app_iff in Hin as [Hin|Hin]; [destruct (NQ _ (K1 _ (HEn _ _ HE)) Hin)|destruct (NQ _ (K2 _ _ HU) Hin)].
        - apply in_app_iff in Hin as [Hin|Hin]; [destruct (NQ _ (K1 _ (HEn _ _ HE)) Hin)|].
          apply in_app_iff in Hin as [Hin|[Hin|Hin]]; [destruct (NQ _ (K2 _ _ HU) Hin)| |].
          { subst. destruct Hse as [X _], Hum as [Y _]. congruence. }
          destruct HMk as [eb HB|er0 o0 eb ts HB HTl|fd eb ss HB HS|fd eb ss HB HS|fd eb ss cl HB HS Hcl|fd r eb ss HB HS|fd r o0 eb ss cl ts HB HS Hcl HTl].
          + destruct (NQ _ (K3 _ _ HB) Hin).
          + apply in_app_iff in Hin as [Hin|Hin]; [destruct (NQ _ (K3 _ _ HB) Hin)|destruct (NQ _ (K4 _ _ _ _ _ HTl) Hin)].
          + apply in_app_iff in Hin as [Hin|Hin]; [destruct (NQ _ (K3 _ _ HB) Hin)|].
            destruct (HSv _ _ _ HS Hin) as ((er' & E) & _). discriminate.
          + apply in_app_iff in Hin as [Hin|Hin]; [destruct (NQ _ (K3 _ _ HB) Hin)|].
            destruct (HSv _ _ _ HS Hin) as ((er' & E) & _). discriminate.
          + apply in_app_iff in Hin as [Hin|Hin]; [destruct (NQ _ (K3 _ _ HB) Hin)|].
            apply in_app_iff in Hin as [Hin|[Hin|[]]].
            * destruct (HSv _ _ _ HS Hin) as ((er' & E) & _). discriminate.
            * subst. destruct Hse as [X _], Hcl as [Y _]. congruence.
          + apply in_app_iff in Hin as [Hin|Hin]; [destruct (NQ _ (K3 _ _ HB) Hin)|].
            destruct (HSv _ _ _ HS Hin) as ((er' & E) & _). injection E as ->.
            exists fd, er', es, us, um, eb, ss, []. rewrite app_nil_r. repeat (split; [first [reflexivity|assumption|eapply HEn; eassumption]|]).
            split; [constructor|right; reflexivity].
          + apply in_app_iff in Hin as [Hin|Hin]; [destruct (NQ _ (K3 _ _ HB) Hin)|].
            apply in_app_iff in Hin as [Hin|[Hin|Hin]].
            * destruct (HSv _ _ _ HS Hin) as ((er' & E) & _). injection E as ->.
              exists fd, er', es, us, um, eb, ss, (cl :: ts). repeat (split; [first [reflexivity|assumption|eapply HEn; eassumption]|]).
              split; [onl; [rewrite (proj1 Hcl); repeat split; discriminate|eapply K4'; exact HTl]|].
              inversion HTl; subst; [right|right|left]; reflexivity.
            * subst. destruct Hse as [X _], Hcl as [Y _]. congruence.
            * destruct (NQ _ (K4 _ _ _ _ _ HTl) Hin). }
      destruct Main as (fd & er' & es & us & um & eb & ss & rest & -> & HEs & HU & Hum & HB & HS & Hi & HRest & HOO).
      destruct (HSv _ _ _ HS Hi) as (_ & Hfd & HSc & HSs).
      assert (HRq : Only Quiet rest) by (revert HRest; apply Only_weaken; intros c H; apply H).
      split; [|split; [|split]].
      + eapply AfterT_refused; [exact HA|]. intros c E. destruct HOO; congruence.
      + intros ev Hev. rewrite !in_app_iff in Hev. cbn in Hev. rewrite !in_app_iff in Hev.
        destruct Hev as [Hev|[[Hev|[Hev|[Hev|[Hev|[Hev|Hev]]]]]|Hev]].
        * exact (QA _ K5 _ Hev).
        * exact (QA _ (K1 _ HEs) _ Hev).
        * exact (QA _ (K2 _ _ HU) _ Hev).
        * subst. rewrite (proj1 Hum). discriminate.
        * exact (QA _ (K3 _ _ HB) _ Hev).
        * refine (NIn _ _ _ HSc _ _ Hev). intros [?|(? & ? & ? & [?|?])]; discriminate.
        * exact (QA _ HRq _ Hev).
        * exact (QA _ K6 _ Hev).
      + rewrite !Forall_app, !Forall_cons_iff, !Forall_app.
        repeat split; auto; try (apply QS; eauto; fail). intros E. rewrite (proj1 Hum) in E. discriminate.
      + intros _. rewrite !Forall_app, !Forall_cons_iff, !Forall_app. split; [|split; [split; [|split; [|split; [|split; [|split]]]]|]].
        * eapply NF; [exact HLC|intros []].
        * eapply NF; [exact HEs|intros [d ?]; discriminate].
        * eapply NF; [eapply UnlinkT_only; exact HU|intros [?|?]; discriminate].
        * intros E. rewrite (proj1 Hum) in E. discriminate.
        * eapply BF; eassumption.
        * eapply NF; [exact HSc|intros [?|(? & ? & ? & [?|?])]; discriminate].
        * eapply NF; [exact HRest|intros [_ ?]; congruence].
        * eapply NF; [exact HAC|intros []]. }
  destruct Main as (A & B & C & F). split; [exact A|]. split; [exact B|]. intros z st' Ho.
  assert (NS : o <> Stopped) by congruence. split.
  - intros HK. eapply umask_restored; eauto.
  - intros Q e1 b e2 q E HC HA. eapply created_gone; eauto.
Qed.
End Refusal.
