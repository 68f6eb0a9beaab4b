(** From call sequences to the statements about approval. *)
From Verif Require Import Base BaseLemmas Num Path Template Options World Sys Io Socket Env Core Pair
  Spec TraceSpec SessionSpec PathProofs RequestProofs PairPure InputFacts RunProofs IoProofs SocketProofs PairProofs
  KernelFacts OpenFacts.
Local Open Scope Z_scope.

Ltac asc := repeat first [rewrite <- app_assoc | progress cbn [app]].

(** ** A socket that was opened successfully *)
Record socket_run := mkSocketRun {
  op_par : path; op_enf : event; op_n : nat; op_us : list event; op_um : event;
  op_fd : Z; op_sk : event; op_b : event; op_li : event; op_co : event; op_cm : event; op_se : event;
  op_is : list event; op_acc : event; op_cl : event; op_x : result unit ioerr; op_ts : list event; op_um2 : event
}.

Definition before_accept (r : socket_run) : list event :=
  op_li r :: op_co r :: op_cm r :: op_se r :: op_is r.
Definition before_bind (r : socket_run) : list event :=
  op_enf r :: op_us r ++ [op_um r; op_sk r].
Definition after_accept (r : socket_run) : list event :=
  op_cl r :: op_ts r ++ [op_um2 r].
Definition run_events (r : socket_run) : list event :=
  before_bind r ++ op_b r :: before_accept r ++ op_acc r :: after_accept r.

Record Opened (euid : Z) (p : bytes) (u g m : Z) (c : nat) (r : socket_run) : Prop := mkOpened {
  op_parent : path_parent p = Some (op_par r); op_par_ne : op_par r <> []; op_nul : has_nul p = false;
  op_stat : Is (CStat (op_par r)) AOk (op_enf r); op_res : resolve (e_pre (op_enf r)) (op_par r) = Some (op_n r);
  op_dir : dir_ok euid (k_inodes (e_pre (op_enf r)) (op_n r));
  op_unl : UnlinkT p (Done (Ok tt)) (op_us r); op_um_is : Is (CUmask UMASK_ALL) AOk (op_um r);
  op_sk_is : Is CSocket (ANum (op_fd r)) (op_sk r); op_bound : bound p (op_b r); op_li_is : Is CListen AOk (op_li r);
  op_fd0 : 0 <= op_fd r; op_fd1 : op_fd r < 1024; op_len : zlen p < 108;
  op_chown : chowned p u g (op_co r); op_chmod : chmoded p m (op_cm r); op_se_is : Is CSelect (ANum 1) (op_se r);
  op_is_intr : Forall interrupted_accept (op_is r); op_acc_is : accepted c (op_acc r);
  op_cl_is : Is CCloseListener AOk (op_cl r); op_unl2 : UnlinkT p (Done (op_x r)) (op_ts r);
  op_um2_is : Is (CUmask (k_umask (e_pre (op_um r)))) AOk (op_um2 r)
}.

Lemma OpenT_Ok euid p u g m c os : OpenT euid p u g m (Done (Ok c)) os ->
  exists r, os = run_events r /\ Opened euid p u g m c r.
Proof.
  intros H. inversion H as [| | | | |es us um o ms HE HU Hum HM]; subst. clear H.
  inversion HE as [| | |par enf n Hp Hne Hnul Hs Hr Hd]; subst. clear HE.
  inversion HM as [|e o es ts HB HT| | | | |fd r o es ss cl ts HB HS Hcl HT]; subst.
  { inversion HT. }
  inversion HT as [| |ts' x um2 HU2 Hum2]; subst.
  inversion HB as [| | | | | | | | |fd' sk b li Hfd Hsk Hb Hli Hlen]; subst.
  inversion HS as [| | | | | | | |o co cm se es Hco Hcm Hlt Hse HA]; subst.
  inversion HA as [| |is acc c' His Hacc]; subst.
  exists (mkSocketRun par enf n us um fd sk b li co cm se is acc cl x ts' um2). split.
  - unfold run_events, before_bind, before_accept, after_accept. cbn. rewrite <- !app_assoc. reflexivity.
  - constructor; cbn; assumption.
Qed.

Lemma NotListener_before_accept euid p u g m c r : Opened euid p u g m c r -> Only NotListener (before_accept r).
Proof.
  intros O. unfold before_accept. onl.
  - rewrite (proj1 (op_li_is _ _ _ _ _ _ _ O)). exact I.
  - rewrite (proj1 (proj1 (op_chown _ _ _ _ _ _ _ O))). exact I.
  - rewrite (proj1 (proj1 (op_chmod _ _ _ _ _ _ _ O))). exact I.
  - rewrite (proj1 (op_se_is _ _ _ _ _ _ _ O)). exact I.
  - generalize (op_is_intr _ _ _ _ _ _ _ O). apply Forall_impl. intros ev [-> _]. exact I.
Qed.

(** The listener on which the connection was accepted is the one bound by the
    event found. *)
Lemma Opened_accepts euid p u g m c r k ts k' :
  Opened euid p u g m c r -> Linked euid k ts (run_events r) k' ->
  exists peer, Accepts (k_next (e_pre (op_b r))) c peer (op_acc r).
Proof.
  intros O HL. unfold run_events in HL.
  apply Linked_at in HL as (ts1 & acts & a & ts2 & k1 & _ & _ & _ & _ & Hpost & HL).
  pose proof (Linked_ino_pre _ _ _ _ _ _ _ HL (NotListener_before_accept _ _ _ _ _ _ _ O)) as Hino.
  destruct (op_acc_is _ _ _ _ _ _ _ O) as (Hacc & Hc & l & x & q & Hl & Hq).
  destruct (op_bound _ _ _ _ _ _ _ O) as (Hb & (gg & Hans) & Hlis & Hname & Hdir).
  exists x. split; [exact Hacc|]. split; [exact Hc|]. exists l, q. split; [exact Hl|]. split; [|exact Hq].
  rewrite Hpost, Hb, Hans in Hino. cbn [effect] in Hino.
  destruct (k_listen (e_pre (op_b r))) as [l0|]; [|congruence]. rewrite Hname in Hino.
  destruct (dir_inode (e_pre (op_b r)) (components p)); [|congruence].
  unfold listen_ino in Hino. rewrite Hl in Hino. cbn in Hino. congruence.
Qed.

(** ** The template used *)
Lemma LoadT_from p d t es : LoadT p d (Done t) es ->
  (exists ev, In ev es /\ Is (CReadFile p) (AData t) ev)
  \/ t = d /\ forall ev x, In ev es -> ~ Is (CReadFile p) (AData x) ev.
Proof.
  intros H. inversion H as [Hn| |d' ev Hn Hi|e ev Hn Hi]; subst.
  - right. split; [reflexivity|]. intros ev x [].
  - left. exists ev. split; [left; reflexivity|exact Hi].
  - right. split; [reflexivity|]. intros ev' x [->|[]] [H1 H2]. destruct Hi as [_ Hi]. congruence.
Qed.

Definition NotReadFile (c : call) : Prop := match c with CReadFile _ => False | _ => True end.

Lemma NotReadFile_is p d evs : Only NotReadFile evs -> forall ev, In ev evs -> ~ Is (CReadFile p) (AData d) ev.
Proof.
  intros H ev Hin [H1 _]. unfold Only in H. rewrite Forall_forall in H. apply H in Hin. rewrite H1 in Hin. exact Hin.
Qed.

Lemma TemplateFrom_load p d t es pre post : LoadT p d (Done t) es ->
  Only NotReadFile pre -> Only NotReadFile post ->
  TemplateFrom p d (pre ++ es ++ post) t.
Proof.
  intros HL H1 H2. apply LoadT_from in HL as [(ev & Hin & Hev)|(-> & Hno)].
  - left. exists ev. split; [|exact Hev]. apply in_app_iff. right. apply in_app_iff. left. exact Hin.
  - right. split; [reflexivity|]. intros ev x Hin. rewrite !in_app_iff in Hin. destruct Hin as [Hin|[Hin|Hin]].
    + exact (NotReadFile_is p x _ H1 _ Hin).
    + exact (Hno _ _ Hin).
    + exact (NotReadFile_is p x _ H2 _ Hin).
Qed.

Lemma SigOnly_calls' es : SigOnly es -> Only NotReadFile es.
Proof. apply Forall_impl. intros ev. destruct (e_call ev); cbn; tauto. Qed.
Lemma OnConn_calls' c es : Forall (OnConn c) es -> Only NotReadFile es.
Proof. apply Forall_impl. intros ev [H|[d ->]]; [|exact I]. destruct (e_call ev); cbn in *; tauto. Qed.
Lemma SocketCall_calls' es : Only SocketCall es -> Only NotReadFile es.
Proof. apply Forall_impl. intros ev. destruct (e_call ev); cbn; tauto. Qed.

Lemma delivered_socket c es : Only SocketCall es -> delivered c es = [].
Proof. apply delivered_none. intros d []. Qed.

(** ** The exchange with the peer *)
Record exchange (c : nat) (path : bytes) (sp : spec) (rs pre : list event) (r : event) (rest : list event) (t : bytes) : Prop :=
  mkExchange {
    ex_eq : rs = pre ++ r :: rest; ex_call : e_call r = CRead c;
    ex_tmpl : forall before, Only NotReadFile before -> TemplateFrom path DEFAULT_PAIR_PROMPT (before ++ pre) t;
    ex_all : delivered c pre = expand sp t;
    ex_pre : reads pre = []; ex_rest : reads rest = [];
    ex_pre_calls : Only (ConnCall c) pre; ex_rest_calls : Only (ConnCall c) rest
  }.

(** Either nothing was read, or exactly one read was made, after the whole prompt. *)
Lemma RemoteT_cases c path sp o rs : RemoteT c path sp o rs ->
  (reads rs = [] /\ forall x, o <> Done (Ok x))
  \/ exists pre r rest t, exchange c path sp rs pre r rest t
     /\ forall x, o = Done (Ok x) -> exists d, e_ans r = AData d /\ approves d.
Proof.
  assert (HE : forall t es ws fs e1 r e2 xs,
    LoadT path DEFAULT_PAIR_PROMPT (Done t) es -> sent c (expand sp t) (Done (Ok tt)) ws -> SigOnly fs ->
    SigOnly e1 -> SigOnly e2 -> e_call r = CRead c -> Forall (OnConn c) xs ->
    exchange c path sp (es ++ ws ++ fs ++ (e1 ++ r :: e2) ++ xs) (es ++ ws ++ fs ++ e1) r (e2 ++ xs) t).
  { intros t es ws fs e1 r e2 xs HL [Hw Hd] Hf H1 H2 Hr Hx. constructor.
    - rewrite <- !app_assoc. reflexivity.
    - exact Hr.
    - intros before Hb. apply (TemplateFrom_load path DEFAULT_PAIR_PROMPT t es before (ws ++ fs ++ e1)); [exact HL|exact Hb|].
      onl; eauto using SigOnly_calls', OnConn_calls'.
    - rewrite !delivered_app, (delivered_load _ _ _ _ _ HL), (delivered_sig _ _ Hf), (delivered_sig _ _ H1), !app_nil_r.
      exact Hd.
    - rewrite !reads_app, (reads_load _ _ _ _ HL), (reads_sig _ Hf), (reads_sig _ H1), (reads_conn _ _ Hw). reflexivity.
    - rewrite reads_app, (reads_sig _ H2), (reads_conn _ _ Hx). reflexivity.
    - onl; eauto using SigOnly_calls, OnConn_calls, LoadT_conn.
    - onl; eauto using SigOnly_calls, OnConn_calls. }
  intros H. inversion H as [es HL|t es ws HL Hw|e t es ws HL Hw|t es ws fs HL Hw Hf|t es ws fs HL Hw Hf
    |t es ws fs r HL Hw [Hf _] Hr|e t es ws fs r HL Hw [Hf _] Hr|d t es ws fs r xs HL Hw [Hf _] Hr Hx
    |d t es ws fs r xs HL Hw [Hf _] Hr Hx Ha|d t es ws fs r xs HL Hw [Hf _] Hr Hx Hs Ha]; subst; clear H.
  - left. split; [exact (reads_load _ _ _ _ HL)|discriminate].
  - left. split; [|discriminate]. rewrite !reads_app, (reads_load _ _ _ _ HL), (reads_conn _ _ (proj1 Hw)). reflexivity.
  - left. split; [|discriminate]. rewrite !reads_app, (reads_load _ _ _ _ HL), (reads_conn _ _ (proj1 Hw)). reflexivity.
  - left. split; [|discriminate]. rewrite !reads_app, (reads_load _ _ _ _ HL), (reads_conn _ _ (proj1 Hw)), (reads_sig _ Hf). reflexivity.
  - left. split; [|discriminate]. rewrite !reads_app, (reads_load _ _ _ _ HL), (reads_conn _ _ (proj1 Hw)), (reads_sig _ Hf). reflexivity.
  - destruct Hr as [Hr|(e1 & ev & e2 & -> & H1 & H2 & Hc)].
    + left. split; [|discriminate].
      rewrite !reads_app, (reads_load _ _ _ _ HL), (reads_conn _ _ (proj1 Hw)), (reads_sig _ Hf), (reads_sig _ Hr). reflexivity.
    + right. eexists _, _, _, _. split; [|discriminate].
      rewrite <- (app_nil_r (e1 ++ ev :: e2)). eapply HE; try eassumption. constructor.
  - destruct Hr as [Hr|(e1 & ev & e2 & -> & H1 & H2 & Hc)].
    + left. split; [|discriminate].
      rewrite !reads_app, (reads_load _ _ _ _ HL), (reads_conn _ _ (proj1 Hw)), (reads_sig _ Hf), (reads_sig _ Hr). reflexivity.
    + right. eexists _, _, _, _. split; [|discriminate].
      rewrite <- (app_nil_r (e1 ++ ev :: e2)). eapply HE; try eassumption. constructor.
  - destruct Hr as (e1 & ev & e2 & -> & H1 & H2 & [Hc Hd] & _).
    right. eexists _, _, _, _. split; [|discriminate]. destruct Hx as [Hx _]. eapply HE; eassumption.
  - destruct Hr as (e1 & ev & e2 & -> & H1 & H2 & [Hc Hd] & _).
    right. eexists _, _, _, _. split; [|discriminate]. destruct Hx as [Hx _]. eapply HE; eassumption.
  - destruct Hr as (e1 & ev & e2 & -> & H1 & H2 & [Hc Hd] & _).
    right. destruct Hx as [Hx _]. eexists _, _, _, _. split; [eapply HE; eassumption|]. intros _ _. exists d. auto.
Qed.

(** ** Approval *)
Section Approval.
Variables (pl : platform) (e : io_env) (rq : request).
Hypothesis M : Matches e rq.

Lemma SocketPath_intro : SocketPath rq (sock_comps rq).
Proof.
  exists (sock_name (rq_uid rq) (rq_pid rq)). split; [|reflexivity].
  exists (to_dec (rq_uid rq)), (to_dec (rq_pid rq)).
  split; [apply Decimal_iff; reflexivity|]. split; [apply Decimal_iff; reflexivity|reflexivity].
Qed.

Lemma SocketPath_unique q : SocketPath rq q -> q = sock_comps rq.
Proof.
  intros (n & (u & p & Hu & Hp & ->) & ->). apply Decimal_iff in Hu, Hp. subst. reflexivity.
Qed.

Lemma bound_Creates ev : bound (socket_path (pair0 e)) ev <-> Creates (sock_comps rq) ev.
Proof. unfold bound, Creates. rewrite (socket_path_comps e rq M). tauto. Qed.

Lemma pair_prompt_path : po_pair_prompt_path (plugin_options_from (en_plugin_options e)) = rq_pair_prompt_path rq.
Proof. rewrite (m_options _ _ M). reflexivity. Qed.

Lemma PairPrompt_intro evs t : TemplateFrom (rq_pair_prompt_path rq) DEFAULT_PAIR_PROMPT evs t ->
  PairPrompt rq evs (expand (template_spec (pair0 e)) t).
Proof.
  intros H. exists t. split; [exact H|]. apply (prompt_iff e rq t _ M). reflexivity.
Qed.

Lemma after_accept_calls euid u g m c r p : Opened euid p u g m c r -> Only SocketCall (after_accept r).
Proof.
  intros O. unfold after_accept. onl.
  - rewrite (proj1 (op_cl_is _ _ _ _ _ _ _ O)). exact I.
  - eapply UnlinkT_calls. exact (op_unl2 _ _ _ _ _ _ _ O).
  - rewrite (proj1 (op_um2_is _ _ _ _ _ _ _ O)). exact I.
Qed.

Lemma run_calls euid u g m c r p : Opened euid p u g m c r -> OpenT euid p u g m (Done (Ok c)) (run_events r) ->
  Only SocketCall (run_events r).
Proof. intros _ H. eapply OpenT_calls. exact H. Qed.

(** The connection phase followed by the exchange. *)
Lemma asked_exchange mode c os rs pre r rest t k ts k' :
  OpenT (pl_euid pl) (socket_path (pair0 e)) (socket_uid (pair0 e)) (socket_gid (pair0 e)) mode (Done (Ok c)) os ->
  exchange c (po_pair_prompt_path (plugin_options_from (en_plugin_options e))) (template_spec (pair0 e)) rs pre r rest t ->
  Linked (pl_euid pl) k ts (os ++ rs) k' ->
  exists q e1 b e2 acc e3 peer, SocketPath rq q /\ os ++ rs = e1 ++ b :: e2 ++ acc :: e3 ++ r :: rest
    /\ Creates q b /\ Accepts (k_next (e_pre b)) c peer acc /\ PairPrompt rq e3 (delivered c e3)
    /\ e_call r = CRead c /\ reads (e1 ++ b :: e2 ++ acc :: e3) = [] /\ reads rest = []
    /\ Only SocketCall (e1 ++ b :: e2 ++ [acc]).
Proof.
  intros HO HE HL. pose proof HO as HO'. apply OpenT_Ok in HO as (sr & -> & O).
  pose proof (OpenT_calls _ _ _ _ _ _ _ HO') as Hc.
  apply Linked_split in HL as (ts1 & ts2 & k1 & _ & HL & _).
  destruct (Opened_accepts _ _ _ _ _ _ _ _ _ _ O HL) as [peer Hacc].
  exists (sock_comps rq), (before_bind sr), (op_b sr), (before_accept sr), (op_acc sr), (after_accept sr ++ pre), peer.
  split; [exact SocketPath_intro|].
  rewrite (ex_eq _ _ _ _ _ _ _ _ HE). unfold run_events.
  split; [asc; reflexivity|].
  split. { apply bound_Creates. exact (op_bound _ _ _ _ _ _ _ O). }
  split; [exact Hacc|].
  pose proof (after_accept_calls _ _ _ _ _ _ _ O) as Ha.
  split. { rewrite delivered_app, (delivered_socket _ _ Ha), (ex_all _ _ _ _ _ _ _ _ HE). cbn [app].
    apply PairPrompt_intro. rewrite <- pair_prompt_path. apply (ex_tmpl _ _ _ _ _ _ _ _ HE).
    apply SocketCall_calls'. exact Ha. }
  split; [exact (ex_call _ _ _ _ _ _ _ _ HE)|].
  unfold run_events in Hc. rewrite Only_app, Only_cons, Only_app, Only_cons in Hc. destruct Hc as (H1 & H2 & H3 & H4 & _).
  split. { replace (before_bind sr ++ op_b sr :: before_accept sr ++ op_acc sr :: after_accept sr ++ pre)
      with ((before_bind sr ++ op_b sr :: before_accept sr ++ op_acc sr :: after_accept sr) ++ pre)
      by (asc; reflexivity).
    rewrite reads_app, (ex_pre _ _ _ _ _ _ _ _ HE), app_nil_r. apply reads_socket. onl. }
  split; [exact (ex_rest _ _ _ _ _ _ _ _ HE)|].
  onl.
Qed.
End Approval.

(** ** Whole openings *)
Section Whole.
Variables (pl : platform) (a : open_args) (rq : request).
Hypothesis D : Describes pl a rq.

Lemma asked_Ok_approved e c ls es w evs w' :
  Matches e rq -> AskedT pl e (Done (Ok (with_conn e c))) ls es -> Ran (pl_euid pl) w evs w' -> evs = ls ++ es ->
  Approved rq c evs.
Proof.
  intros M HA (ts & _ & _ & HL) ->. inversion HA as [| | | | | | | | |c' mode ls' os rs Hl Hm Ho Hr]; subst.
  apply RemoteT_cases in Hr as [[_ H]|(pre & r & rest & t & HE & Hd)]; [exfalso; eapply H; reflexivity|].
  apply Linked_split in HL as (ts1 & ts2 & k1 & _ & _ & HL).
  fold (pair0 e) in *.
  destruct (asked_exchange pl e rq M _ _ _ _ _ _ _ _ _ _ _ Ho HE HL) as
    (q & e1 & b & e2 & acc & e3 & peer & Hq & Heq & Hb & Hacc & Hp & Hrd & R1 & R2 & Hsc).
  exists q, (ls ++ e1), b, e2, acc, e3, r, rest, peer. split; [exact Hq|].
  split; [rewrite Heq; asc; reflexivity|]. split; [exact Hb|]. split; [exact Hacc|]. split; [exact Hp|].
  split. { destruct (Hd tt eq_refl) as (d & Hans & [-> | ->]); [left|right]; (split; [exact Hrd|exact Hans]). }
  split; [|exact R2]. rewrite <- app_assoc, reads_app, R1, (reads_local _ (LocalT_calls _ _ _ _ Hl)). reflexivity.
Qed.

Lemma open_yes w z st' w' evs :
  core_open SudoPair pl a (pstate0 _) w = (Done (z, st'), w') -> w_trace w' = w_trace w ++ evs ->
  z = 1 -> ~ Exempt rq -> rq_command rq <> [] ->
  exists e c, Matches e rq /\ st' = ps e (Some (with_conn e c)) /\ Approved rq c evs.
Proof.
  intros H T -> NE NC. destruct (opened_given pl a rq D w _ w' evs H T) as [R HO].
  inversion HO as [| e M HC | |e M HC HE| | |e o ls es M Ee HC HE HB HN]; subst; try contradiction.
  inversion HN as [| | | |e' c ls' es' HA]; subst.
  exists e, c. split; [exact M|]. split; [reflexivity|]. eapply asked_Ok_approved; eauto.
Qed.

(** Without an approval nothing proceeds; used for refusals. *)
Lemma open_codes w z st' w' :
  core_open SudoPair pl a (pstate0 _) w = (Done (z, st'), w') -> z = 1 \/ z = -1.
Proof.
  intros H. destruct (opened pl a rq D w _ w' H) as (evs & R & HO).
  inversion HO as [| | | | | |e o ls es M Ee HC HE HB HN]; subst; auto.
  inversion HN; subst; auto.
Qed.

Lemma open_refused_state w st' w' :
  core_open SudoPair pl a (pstate0 _) w = (Done (-1, st'), w') -> st_plugin st' = None.
Proof.
  intros H. destruct (opened pl a rq D w _ w' H) as (evs & R & HO).
  inversion HO as [| | | | | |e o ls es M Ee HC HE HB HN]; subst; try reflexivity.
  inversion HN; subst; reflexivity.
Qed.

(** Calls made by a successful opening of an exempt request: none. *)
Lemma open_exempt w o w' :
  core_open SudoPair pl a (pstate0 _) w = (o, w') -> rq_command rq <> [] -> Exempt rq ->
  ~ MasklessAddr pl (oa_settings a) -> pl_debug pl = false \/ Consistent rq ->
  exists e, Matches e rq /\ o = Done (1, ps e (Some (pair0 e))) /\ w' = w.
Proof.
  intros H HC HE HM HD. destruct (opened pl a rq D w _ w' H) as (evs & R & HO).
  assert (W : evs = [] -> w' = w).
  { intros ->. destruct R as (ts & S & T & L). pose proof (Linked_length _ _ _ _ _ L) as Hl.
    destruct ts; [|discriminate]. apply Linked_nil in L. rewrite app_nil_r in T. destruct w, w'; cbn in *; congruence. }
  inversion HO as [HM'|e M HC'|e M HC' Hd Hc|e M HC' HE'|e es r M HC' NE|e es M HC' NE|e o' ls es M Ee HC' NE HB HN]; subst; try contradiction.
  - destruct HD; [congruence|contradiction].
  - exists e. auto.
Qed.
End Whole.

(** ** What was read *)
Definition Exchanged (rq : request) (c : nat) (es : list event) (rd : event) : Prop :=
  exists q e1 b e2 acc e3 rest peer,
    SocketPath rq q /\ es = e1 ++ b :: e2 ++ acc :: e3 ++ rd :: rest
    /\ Creates q b /\ Accepts (k_next (e_pre b)) c peer acc /\ PairPrompt rq e3 (delivered c e3)
    /\ e_call rd = CRead c /\ reads (e1 ++ b :: e2 ++ acc :: e3) = [] /\ reads rest = [].

Lemma Exchanged_app rq c es rd pre post : reads pre = [] -> reads post = [] ->
  Exchanged rq c es rd -> Exchanged rq c (pre ++ es ++ post) rd.
Proof.
  intros R1 R2 (q & e1 & b & e2 & acc & e3 & rest & peer & Hq & -> & Hb & Ha & Hp & Hc & H1 & H2).
  exists q, (pre ++ e1), b, e2, acc, e3, (rest ++ post), peer. split; [exact Hq|].
  split; [asc; reflexivity|]. repeat (split; [assumption|]). split.
  - rewrite <- app_assoc, reads_app, R1, H1. reflexivity.
  - rewrite reads_app, H2, R2. reflexivity.
Qed.

Lemma Exchanged_reads rq c es rd : Exchanged rq c es rd -> reads es = [rd].
Proof.
  intros (q & e1 & b & e2 & acc & e3 & rest & peer & Hq & -> & Hb & Ha & Hp & Hc & H1 & H2).
  replace (e1 ++ b :: e2 ++ acc :: e3 ++ rd :: rest) with ((e1 ++ b :: e2 ++ acc :: e3) ++ rd :: rest) by (asc; reflexivity).
  rewrite reads_app, H1. cbn. unfold is_read at 1. rewrite Hc. fold (reads rest). rewrite H2. reflexivity.
Qed.

Section Asked.
Variables (pl : platform) (e : io_env) (rq : request).
Hypothesis M : Matches e rq.

Lemma asked_reads o ls es k ts k' : AskedT pl e o ls es -> Linked (pl_euid pl) k ts es k' ->
  (reads es = [] /\ forall p, o <> Done (Ok p))
  \/ exists c rd, Exchanged rq c es rd /\ (forall p, o = Done (Ok p) -> exists d, e_ans rd = AData d /\ approves d).
Proof.
  assert (HX : forall mode c os ro rs ds k ts k',
    OpenT (pl_euid pl) (socket_path (pair0 e)) (socket_uid (pair0 e)) (socket_gid (pair0 e)) mode (Done (Ok c)) os ->
    RemoteT c (po_pair_prompt_path (plugin_options_from (en_plugin_options e))) (template_spec (pair0 e)) ro rs ->
    reads ds = [] -> Linked (pl_euid pl) k ts (os ++ rs ++ ds) k' ->
    (reads (os ++ rs ++ ds) = [] /\ forall x, ro <> Done (Ok x))
    \/ exists c rd, Exchanged rq c (os ++ rs ++ ds) rd /\ (forall x, ro = Done (Ok x) -> exists d, e_ans rd = AData d /\ approves d)).
  { clear o ls es k ts k'. intros mode c os ro rs ds k ts k' Ho Hr Hds HL.
    rewrite app_assoc in HL. apply Linked_split in HL as (t1 & t2 & k1 & _ & HL & _).
    destruct (RemoteT_cases _ _ _ _ _ Hr) as [[R N]|(pre & r & rest & t & HE & Hd)].
    - left. split; [|exact N]. rewrite !reads_app, R, Hds, (reads_socket _ (OpenT_calls _ _ _ _ _ _ _ Ho)). reflexivity.
    - right. exists c, r. split; [|exact Hd].
      destruct (asked_exchange pl e rq M _ _ _ _ _ _ _ _ _ _ _ Ho HE HL) as
        (q & e1 & b & e2 & acc & e3 & peer & Hq & Heq & Hb & Hacc & Hp & Hrd & R1 & R2 & _).
      assert (HX : Exchanged rq c (os ++ rs) r) by (exists q, e1, b, e2, acc, e3, rest, peer; auto 10).
      apply (Exchanged_app rq c (os ++ rs) r [] ds) in HX; [|reflexivity|exact Hds].
      cbn [app] in HX. rewrite <- app_assoc in HX. exact HX. }
  intros HA HL. inversion HA as [ls' Hl|ls' Hl|ls' Hl Hm|mode ls' os Hl Hm Ho|mode ls' os Hl Hm Ho|er mode ls' os Hl Hm Ho
    |c mode ls' os rs Hl Hm Ho Hr|c er mode ls' os rs ds Hl Hm Ho Hr Hd|c er mode ls' os rs ds Hl Hm Ho Hr Hd|c mode ls' os rs Hl Hm Ho Hr];
    subst; fold (pair0 e) in *.
  1-3: left; split; [reflexivity|discriminate].
  1-3: left; split; [apply reads_socket; eapply OpenT_calls; exact Ho|discriminate].
  - rewrite <- (app_nil_r rs) in HL |- *. destruct (HX _ _ _ _ _ [] _ _ _ Ho Hr eq_refl HL) as [[H N]|(c' & rd & H & N)].
    + left. split; [exact H|discriminate].
    + right. exists c', rd. split; [exact H|discriminate].
  - destruct (HX _ _ _ _ _ ds _ _ _ Ho Hr (reads_drop _ _ _ Hd) HL) as [[H N]|(c' & rd & H & N)].
    + left. split; [exact H|discriminate].
    + right. exists c', rd. split; [exact H|discriminate].
  - destruct (HX _ _ _ _ _ ds _ _ _ Ho Hr (reads_drop _ _ _ Hd) HL) as [[H N]|(c' & rd & H & N)].
    + left. split; [exact H|discriminate].
    + right. exists c', rd. split; [exact H|discriminate].
  - rewrite <- (app_nil_r rs) in HL |- *. destruct (HX _ _ _ _ _ [] _ _ _ Ho Hr eq_refl HL) as [[H N]|(c' & rd & H & N)].
    + exfalso. eapply N. reflexivity.
    + right. exists c', rd. split; [exact H|]. intros _ _. eapply N. reflexivity.
Qed.
End Asked.

Lemma AskedT_local pl e o ls es : AskedT pl e o ls es -> Only LocalPrompt ls.
Proof. intros H; inversion H; subst; eapply LocalT_calls; eassumption. Qed.

Lemma report_ErrorText a er r es : report_of a er r es -> Only ErrorText es.
Proof.
  unfold report_of, reported. intros [H _]. apply printed_all_calls in H. revert H. apply Only_weaken. intros c [d ->]. exists d. reflexivity.
Qed.

Lemma reads_report a er r es : report_of a er r es -> reads es = [].
Proof. intros H. apply report_ErrorText in H. revert H. apply reads_none. intros c [d ?]. discriminate. Qed.

Section Reads.
Variables (pl : platform) (a : open_args) (rq : request).
Hypothesis D : Describes pl a rq.

Lemma open_reads w o w' evs :
  core_open SudoPair pl a (pstate0 _) w = (o, w') -> w_trace w' = w_trace w ++ evs ->
  reads evs = []
  \/ exists c rd, Exchanged rq c evs rd
     /\ forall st', o = Done (1, st') -> exists d, e_ans rd = AData d /\ approves d.
Proof.
  intros H T. destruct (opened_given pl a rq D w _ w' evs H T) as [(ts & _ & _ & HL) HO].
  inversion HO as [|e M HC| |e M HC HE|e es r M HC NE HU HG Hr Hp|e es M HC NE HU HG Hp|e o' ls es M Ee HC HE HB HN]; subst;
    try (left; reflexivity).
  - left. eapply reads_report. exact Hp.
  - left. eapply reads_report. exact Hp.
  - apply Linked_split in HL as (t1 & t2 & k1 & _ & _ & HL).
    inversion HN as [e' ls' es' HA|e' ls' es' HA|e' er ls' es' rs r HA Hr Hp|e' er ls' es' rs HA Hp|e' c ls' es' HA]; subst.
    all: pose proof (reads_local _ (AskedT_local _ _ _ _ _ HA)) as RL.
    + destruct (asked_reads pl e rq M _ _ _ _ _ _ HA HL) as [[R _]|(c & rd & HX & _)].
      * left. rewrite reads_app, RL, R. reflexivity.
      * right. exists c, rd. split; [|discriminate]. rewrite <- (app_nil_r es). apply Exchanged_app; auto.
    + destruct (asked_reads pl e rq M _ _ _ _ _ _ HA HL) as [[R _]|(c & rd & HX & _)].
      * left. rewrite reads_app, RL, R. reflexivity.
      * right. exists c, rd. split; [|discriminate]. rewrite <- (app_nil_r es). apply Exchanged_app; auto.
    + apply Linked_split in HL as (t3 & t4 & k2 & _ & HL & _). pose proof (reads_report _ _ _ _ Hp) as RP.
      destruct (asked_reads pl e rq M _ _ _ _ _ _ HA HL) as [[R _]|(c & rd & HX & _)].
      * left. rewrite !reads_app, RL, R, RP. reflexivity.
      * right. exists c, rd. split; [|discriminate]. apply Exchanged_app; auto.
    + apply Linked_split in HL as (t3 & t4 & k2 & _ & HL & _). pose proof (reads_report _ _ _ _ Hp) as RP.
      destruct (asked_reads pl e rq M _ _ _ _ _ _ HA HL) as [[R _]|(c & rd & HX & _)].
      * left. rewrite !reads_app, RL, R, RP. reflexivity.
      * right. exists c, rd. split; [|discriminate]. apply Exchanged_app; auto.
    + destruct (asked_reads pl e rq M _ _ _ _ _ _ HA HL) as [[R N]|(c' & rd & HX & N)].
      * exfalso. eapply N. reflexivity.
      * right. exists c', rd. split; [|intros _ _; eapply N; reflexivity].
        rewrite <- (app_nil_r es). apply Exchanged_app; auto.
Qed.

(** The read, wherever it is, comes after the whole prompt. *)
Lemma open_read_prompted w o w' l rd r c :
  core_open SudoPair pl a (pstate0 _) w = (o, w') -> w_trace w' = w_trace w ++ l ++ rd :: r ->
  e_call rd = CRead c ->
  exists e1 acc e2 n peer, l = e1 ++ acc :: e2 /\ Accepts n c peer acc /\ PairPrompt rq e2 (delivered c e2).
Proof.
  intros H T Hc. destruct (open_reads w o w' _ H T) as [R|(c' & rd' & HX & _)].
  - exfalso. rewrite reads_app in R. apply app_eq_nil in R as [_ R]. cbn in R. unfold is_read in R at 1. rewrite Hc in R. discriminate.
  - pose proof (Exchanged_reads _ _ _ _ HX) as R.
    destruct HX as (q & e1 & b & e2 & acc & e3 & rest & peer & Hq & Heq & Hb & Ha & Hp & Hc' & H1 & H2).
    rewrite reads_app in R. cbn in R. unfold is_read at 1 in R. rewrite Hc in R. fold (reads r) in R.
    destruct (reads l) as [|x rl] eqn:Rl; cbn in R.
    2: { injection R as _ R. destruct rl; discriminate. }
    injection R as -> R.
    replace (e1 ++ b :: e2 ++ acc :: e3 ++ rd' :: rest) with ((e1 ++ b :: e2 ++ acc :: e3) ++ rd' :: rest) in Heq by (asc; reflexivity).
    assert (Hl : l = e1 ++ b :: e2 ++ acc :: e3).
    { clear - Heq Rl H1 Hc. revert Rl H1 Heq. generalize (e1 ++ b :: e2 ++ acc :: e3). clear e1 b e2 acc e3.
      induction l as [|x l IH]; intros [|y m] Rl Rm E; cbn in *.
      - reflexivity.
      - injection E as -> _. unfold is_read in Rm. rewrite Hc in Rm. discriminate.
      - injection E as -> _. unfold is_read in Rl. rewrite Hc in Rl. discriminate.
      - injection E as -> E. destruct (is_read y); [discriminate|]. f_equal. apply IH; assumption. }
    rewrite Hc in Hc'. injection Hc' as <-.
    exists (e1 ++ b :: e2), acc, e3, (k_next (e_pre b)), peer. split; [|auto]. rewrite Hl. asc. reflexivity.
Qed.

(** A read that did not say yes refuses. *)
Lemma open_no w z st' w' evs rd c :
  core_open SudoPair pl a (pstate0 _) w = (Done (z, st'), w') -> w_trace w' = w_trace w ++ evs ->
  In rd evs -> e_call rd = CRead c -> e_ans rd <> AData (B "y") -> e_ans rd <> AData (B "Y") ->
  z = -1 /\ st_plugin st' = None.
Proof.
  intros H T Hin Hc Hy HY.
  assert (Hz : z = -1).
  { destruct (open_codes pl a rq D w z st' w' H) as [->| ->]; [exfalso|reflexivity].
    destruct (open_reads w _ w' evs H T) as [R|(c' & rd' & HX & N)].
    - assert (In rd (reads evs)) by (apply filter_In; split; [exact Hin|unfold is_read; rewrite Hc; reflexivity]).
      rewrite R in *. contradiction.
    - assert (Hi : In rd (reads evs)) by (apply filter_In; split; [exact Hin|unfold is_read; rewrite Hc; reflexivity]).
      rewrite (Exchanged_reads _ _ _ _ HX) in Hi. destruct Hi as [->|[]].
      destruct (N st' eq_refl) as (d & Hd & [-> | ->]); [apply Hy|apply HY]; exact Hd. }
  split; [exact Hz|]. subst z. eapply open_refused_state; eassumption.
Qed.

Lemma open_one_read w o w' evs :
  core_open SudoPair pl a (pstate0 _) w = (o, w') -> w_trace w' = w_trace w ++ evs ->
  (List.length (reads evs) <= 1)%nat.
Proof.
  intros H T. destruct (open_reads w o w' evs H T) as [->|(c & rd & HX & _)]; [cbn; lia|].
  rewrite (Exchanged_reads _ _ _ _ HX). cbn. lia.
Qed.
End Reads.

(** ** Refusals before anything is asked *)
Section Refusals.
Variables (pl : platform) (a : open_args) (rq : request).
Hypothesis D : Describes pl a rq.

Lemma open_both w o w' evs :
  core_open SudoPair pl a (pstate0 _) w = (o, w') -> w_trace w' = w_trace w ++ evs ->
  ~ Exempt rq -> rq_command rq <> [] -> rq_uid rq <> rq_to_uid rq -> rq_f_group rq <> None ->
  Only ErrorText evs /\ (o = Stopped \/ exists st', o = Done (-1, st') /\ st_plugin st' = None).
Proof.
  intros H T NE NC HU HG. destruct (opened_given pl a rq D w _ w' evs H T) as [_ HO].
  inversion HO as [|e M HC| |e M HC HE|e es r M HC _ _ _ Hr Hp|e es M HC _ _ _ Hp|e o' ls es M Ee HC HE HB HN]; subst; try contradiction.
  - split; [constructor|]. right. eexists. split; reflexivity.
  - split; [constructor|]. right. eexists. split; reflexivity.
  - split; [eapply report_ErrorText; exact Hp|]. right. eexists. split; reflexivity.
  - split; [eapply report_ErrorText; exact Hp|]. left. reflexivity.
  - exfalso. apply HB. auto.
Qed.

Lemma mode_None e : Matches e rq -> rq_uid rq = rq_to_uid rq -> rq_f_group rq = None -> socket_mode (pair0 e) = None.
Proof.
  intros M HU HG. unfold socket_mode.
  destruct (is_sudoing_to_user (pair0 e)) eqn:E1.
  { apply (to_user_iff e rq M) in E1. contradiction. }
  destruct (is_sudoing_to_explicit_group (pair0 e)) eqn:E2; [|reflexivity].
  apply (explicit_group_iff e rq M) in E2. contradiction.
Qed.

Lemma open_primary w o w' evs :
  core_open SudoPair pl a (pstate0 _) w = (o, w') -> w_trace w' = w_trace w ++ evs ->
  ~ Exempt rq -> rq_command rq <> [] -> rq_uid rq = rq_to_uid rq -> rq_f_group rq = None ->
  Only LocalPrompt evs /\ (o = Stopped \/ exists st', o = Done (-1, st') /\ st_plugin st' = None).
Proof.
  intros H T NE NC HU HG. destruct (opened_given pl a rq D w _ w' evs H T) as [_ HO].
  inversion HO as [|e M HC| |e M HC HE|e es r M HC _ HU' _ Hr Hp|e es M HC _ HU' _ Hp|e o' ls es M Ee HC HE HB HN]; subst; try contradiction.
  - split; [constructor|]. right. eexists. split; reflexivity.
  - split; [constructor|]. right. eexists. split; reflexivity.
  - pose proof (mode_None e M HU HG) as Hm.
    assert (HA : forall o es, AskedT pl e o ls es -> es = [] /\ (o = Stopped \/ o = Panicked)).
    { intros o1 es1 HA. inversion HA; subst; auto; fold (pair0 e) in *; congruence. }
    inversion HN as [e' ls' es' HA'|e' ls' es' HA'|e' er ls' es' rs r HA' Hr Hp|e' er ls' es' rs HA' Hp|e' c ls' es' HA']; subst.
    all: pose proof (AskedT_local _ _ _ _ _ HA') as HL; destruct (HA _ _ HA') as [-> [Ho|Ho]]; try discriminate Ho.
    + split; [onl; constructor|]. left. reflexivity.
    + split; [onl; constructor|]. right. eexists. split; reflexivity.
Qed.
End Refusals.
