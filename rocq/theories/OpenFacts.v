(** Consequences of the call sequences for whole [open] callbacks. *)
From Verif Require Import Base BaseLemmas Num Path Template Options World Sys Io Socket Env Core Pair
  Spec TraceSpec PathProofs RequestProofs PairPure InputFacts RunProofs IoProofs SocketProofs FailFacts PairProofs.
Local Open Scope Z_scope.

(** ** Classes of calls *)
Lemma Only_app C a b : Only C (a ++ b) <-> Only C a /\ Only C b.
Proof. apply Forall_app. Qed.

Lemma Only_cons (C : call -> Prop) ev b : Only C (ev :: b) <-> C (e_call ev) /\ Only C b.
Proof. split; [inversion 1; auto|intros [? ?]; constructor; assumption]. Qed.

Lemma Only_nil C : Only C [].
Proof. constructor. Qed.

Lemma Only_weaken (C D : call -> Prop) evs : (forall c, C c -> D c) -> Only C evs -> Only D evs.
Proof. intros H. apply Forall_impl. auto. Qed.

Ltac onl := repeat first [ assumption | apply Only_nil | apply Only_app; split | apply Only_cons; split ].

Ltac by_is := match goal with
  | H : Is _ _ ?ev |- ?C (e_call ?ev) => rewrite (proj1 H); exact I
  | H : e_call ?ev = _ |- ?C (e_call ?ev) => rewrite H; exact I
  end.

Lemma EnforceT_calls euid p o es : EnforceT euid p o es -> Only SocketCall es.
Proof. destruct 1; onl; by_is. Qed.

Lemma UnlinkT_calls p o es : UnlinkT p o es -> Only SocketCall es.
Proof. destruct 1; onl; by_is. Qed.

Lemma bound_call p b : bound p b -> SocketCall (e_call b).
Proof. intros [-> _]. exact I. Qed.
Lemma unbound_call p b : unbound p b -> SocketCall (e_call b).
Proof. intros [-> _]. exact I. Qed.

Lemma BindT_calls p o es : BindT p o es -> Only SocketCall es.
Proof.
  destruct 1; onl; try by_is; first [eapply bound_call; eassumption|eapply unbound_call; eassumption].
Qed.

Lemma AcceptT_calls o es : AcceptT o es -> Only SocketCall es.
Proof.
  assert (Hi : forall l, Forall interrupted_accept l -> Only SocketCall l).
  { intros l. apply Forall_impl. intros ev [-> _]. exact I. }
  destruct 1; onl; auto; try by_is. destruct H0 as [[-> _] _]. exact I.
Qed.

Lemma ServeT_calls fd p u g m o es : ServeT fd p u g m o es -> Only SocketCall es.
Proof.
  assert (H1 : forall ev, chowned p u g ev -> SocketCall (e_call ev)) by (intros ev [[-> _] _]; exact I).
  assert (H2 : forall ev, chmoded p m ev -> SocketCall (e_call ev)) by (intros ev [[-> _] _]; exact I).
  destruct 1; onl; try by_is; auto. eapply AcceptT_calls. eassumption.
Qed.

Lemma TailT_calls p old {A} (r : A) o es : TailT p old r o es -> Only SocketCall es.
Proof. destruct 1; onl; try by_is; eapply UnlinkT_calls; eassumption. Qed.

Lemma MaskedT_calls p u g m old o es : MaskedT p u g m old o es -> Only SocketCall es.
Proof.
  destruct 1; onl; try by_is;
    first [eapply BindT_calls; eassumption|eapply ServeT_calls; eassumption|eapply TailT_calls; eassumption].
Qed.

Lemma OpenT_calls euid p u g m o es : OpenT euid p u g m o es -> Only SocketCall es.
Proof.
  destruct 1; onl; try by_is;
    first [eapply EnforceT_calls; eassumption|eapply UnlinkT_calls; eassumption|eapply MaskedT_calls; eassumption].
Qed.

Lemma LoadT_calls p d o es : LoadT p d o es -> Only (fun c => c = CReadFile p) es.
Proof. destruct 1; onl; match goal with H : Is _ _ _ |- _ => apply H end. Qed.

Lemma printed_all_calls pf b o es : printed_all pf b o es -> Only (fun c => exists d, c = CPrintf (pf_level pf) d) es.
Proof. intros [H _]. revert H. apply Forall_impl. intros ev (d & Hd & _). eauto. Qed.

Lemma tty_wrote_calls b o es : tty_wrote b o es -> Only LocalPrompt es.
Proof. intros [H _]. revert H. apply Forall_impl. intros ev [d ->]. exact I. Qed.

Lemma prints_local pf b o es : printed_all pf b o es -> Only LocalPrompt es.
Proof. intros H. apply printed_all_calls in H. revert H. apply Only_weaken. intros c [d ->]. exact I. Qed.

Lemma CloseT_calls op o es : CloseT op o es -> Only LocalPrompt es.
Proof. destruct 1; onl; by_is. Qed.

Lemma ShowT_calls pf op b o es : ShowT pf op b o es -> Only LocalPrompt es.
Proof.
  assert (Hw : forall ws, (op = false /\ ws = [] \/ op = true /\ exists e, tty_wrote b (Done (Err e)) ws /\ AnyFailed ws) -> Only LocalPrompt ws).
  { intros ws [[_ ->]|[_ [e [H _]]]]; [apply Only_nil|eapply tty_wrote_calls; exact H]. }
  destruct 1; onl; try (apply Hw; assumption);
    first [eapply tty_wrote_calls; eassumption|eapply prints_local; eassumption|eapply CloseT_calls; eassumption].
Qed.

Lemma LocalT_calls s sp o es : LocalT s sp o es -> Only LocalPrompt es.
Proof.
  assert (Hl : forall p d o es, LoadT p d o es -> Only LocalPrompt es).
  { intros p d o' es' H. apply LoadT_calls in H. revert H. apply Only_weaken. intros c ->. exact I. }
  assert (Hy : forall t o es, TtyT t o es -> Only LocalPrompt es) by (destruct 1; onl; by_is).
  destruct 1; onl;
    first [eapply Hl; eassumption|eapply Hy; eassumption|eapply ShowT_calls; eassumption].
Qed.

(** Calls on a connection. *)
Definition ConnCall (c : nat) (ca : call) : Prop :=
  match ca with
  | CSigGet | CSigSet _ | CReadFile _ => True
  | CWrite c' _ | CRead c' => c' = c
  | _ => False
  end.

Lemma SigOnly_calls c es : SigOnly es -> Only (ConnCall c) es.
Proof. apply Forall_impl. intros ev. destruct (e_call ev); cbn; tauto. Qed.

Lemma OnConn_calls c es : Forall (OnConn c) es -> Only (ConnCall c) es.
Proof.
  apply Forall_impl. intros ev [H|[d ->]]; [|reflexivity]. destruct (e_call ev); cbn in *; tauto.
Qed.

Lemma read1_calls c o es : read1 c o es -> Only (ConnCall c) es.
Proof.
  destruct o as [[d|e]| |]; cbn; intros H.
  - destruct H as (e1 & ev & e2 & -> & H1 & H2 & [H3 _] & _). onl; auto using SigOnly_calls. rewrite H3. reflexivity.
  - destruct H as [H|(e1 & ev & e2 & -> & H1 & H2 & H3)]; [auto using SigOnly_calls|].
    onl; auto using SigOnly_calls. rewrite H3. reflexivity.
  - contradiction.
  - destruct H as [H|(e1 & ev & e2 & -> & H1 & H2 & H3)]; [auto using SigOnly_calls|].
    onl; auto using SigOnly_calls. rewrite H3. reflexivity.
Qed.

Lemma LoadT_conn c p d o es : LoadT p d o es -> Only (ConnCall c) es.
Proof. intros H. apply LoadT_calls in H. revert H. apply Only_weaken. intros x ->. exact I. Qed.

Lemma sent_calls c b o es : sent c b o es -> Only (ConnCall c) es.
Proof. intros [H _]. apply OnConn_calls. exact H. Qed.

Lemma RemoteT_calls c p sp o es : RemoteT c p sp o es -> Only (ConnCall c) es.
Proof.
  destruct 1; onl;
    first [eapply LoadT_conn; eassumption|eapply sent_calls; eassumption|eapply SigOnly_calls; eassumption
          |eapply read1_calls; eassumption
          |match goal with H : Flushed _ _ |- _ => exact (SigOnly_calls _ _ (proj1 H)) end
          |match goal with H : Echoed _ _ _ _ |- _ => exact (OnConn_calls _ _ (proj1 H)) end].
Qed.

Definition DropCall (c : nat) (ca : call) : Prop := ca = CShutdown c \/ ca = CClose c.

Lemma DropT_calls c o es : DropT c o es -> Only (DropCall c) es.
Proof.
  destruct 1; onl; try (left; assumption). right. apply H0.
Qed.

(** ** Reads *)
Lemma reads_app a b : reads (a ++ b) = reads a ++ reads b.
Proof. apply filter_app. Qed.

Lemma reads_none (C : call -> Prop) es : (forall c, ~ C (CRead c)) -> Only C es -> reads es = [].
Proof.
  intros HC. induction 1 as [|ev es H _ IH]; [reflexivity|]. cbn. unfold is_read at 1.
  destruct (e_call ev) eqn:E; try exact IH. exfalso. eapply HC. exact H.
Qed.

Lemma reads_socket es : Only SocketCall es -> reads es = [].
Proof. apply reads_none. intros c []. Qed.
Lemma reads_local es : Only LocalPrompt es -> reads es = [].
Proof. apply reads_none. intros c []. Qed.
Lemma reads_sig es : SigOnly es -> reads es = [].
Proof. apply (reads_none SigCall). intros c []. Qed.
Lemma reads_conn c es : Forall (OnConn c) es -> reads es = [].
Proof.
  intros H. apply (reads_none (fun ca => SigCall ca \/ exists d, ca = CWrite c d)); [|exact H].
  intros x [[]|[d H']]. discriminate.
Qed.
Lemma reads_load p d o es : LoadT p d o es -> reads es = [].
Proof. intros H. apply LoadT_calls in H. revert H. apply reads_none. intros c ?. discriminate. Qed.
Lemma reads_drop c o es : DropT c o es -> reads es = [].
Proof. intros H. apply DropT_calls in H. revert H. apply reads_none. intros x [?|?]; discriminate. Qed.
Lemma reads_prints pf b o es : printed_all pf b o es -> reads es = [].
Proof. intros H. apply printed_all_calls in H. revert H. apply reads_none. intros c [d ?]. discriminate. Qed.

(** ** Deliveries *)
Lemma delivered_none c (C : call -> Prop) es : (forall d, ~ C (CWrite c d)) -> Only C es -> delivered c es = [].
Proof.
  intros HC. induction 1 as [|ev es H _ IH]; [reflexivity|]. cbn. unfold delivered in IH. rewrite IH, app_nil_r.
  unfold delivered1. destruct (e_call ev) eqn:E; try reflexivity.
  destruct (Nat.eqb c conn) eqn:En; [|destruct (e_ans ev); reflexivity].
  apply Nat.eqb_eq in En. subst conn. exfalso. eapply HC. exact H.
Qed.

Lemma delivered_load c p d o es : LoadT p d o es -> delivered c es = [].
Proof. intros H. apply LoadT_calls in H. revert H. apply delivered_none. intros x ?. discriminate. Qed.
Lemma delivered_sig c es : SigOnly es -> delivered c es = [].
Proof. apply (delivered_none c SigCall). intros d []. Qed.

(** ** The socket path *)
Lemma components_join d u p :
  components (path_join d (sock_name u p)) = components d ++ [Normal (sock_name u p)].
Proof.
  destruct (sock_name_ok u p) as (N1 & N2 & N3 & N4).
  assert (Hs : flat_map seg_comp (split_on slash (sock_name u p)) = [Normal (sock_name u p)]).
  { rewrite split_on_single by exact N4. cbn [flat_map]. rewrite seg_comp_Normal, app_nil_r by assumption. reflexivity. }
  destruct (path_join_rel d (sock_name u p) (sock_name_hd u p) N1) as [(-> & ->)|[(i & -> & ->)|(Hd & ->)]].
  - apply components_single; assumption.
  - rewrite <- app_assoc. cbn [app]. rewrite components_sep, Hs. rewrite components_sep. cbn. rewrite app_nil_r.
    rewrite <- app_assoc. reflexivity.
  - rewrite components_sep, Hs, (lead_trailing d Hd), components_lead, <- app_assoc. reflexivity.
Qed.

Definition sock_comps (rq : request) : path :=
  components (rq_socket_dir rq) ++ [Normal (sock_name (rq_uid rq) (rq_pid rq))].

Lemma socket_path_comps e rq : Matches e rq -> components (socket_path (pair0 e)) = sock_comps rq.
Proof. intros M. rewrite (socket_path_eq e rq M). apply components_join. Qed.

Lemma socket_path_parent e rq : Matches e rq ->
  path_parent (socket_path (pair0 e)) = Some (components (rq_socket_dir rq)).
Proof.
  intros M. unfold path_parent. rewrite (socket_path_comps e rq M). unfold sock_comps.
  rewrite rev_app_distr. cbn. rewrite rev_involutive. reflexivity.
Qed.

Lemma path_eqb_nil p : path_eqb p [] = true <-> p = [].
Proof. rewrite <- SamePath_iff. apply SamePath_empty. Qed.

(** ** Opening, in terms of the request *)
Definition ps (e : io_env) (p : option sudo_pair) : pstate SudoPair := @mkPstate SudoPair (Some e) p.

Definition with_conn (e : io_env) (c : nat) : sudo_pair :=
  mkSudoPair e (plugin_options_from (en_plugin_options e)) (Some c).

Section Opened.
Variables (pl : platform) (a : open_args) (rq : request).

Definition report_of (er : pair_error) (r : outcome (result unit ioerr)) (es : list event) : Prop :=
  reported a (display_pair_error er) r es.

Inductive OpenedT : outcome (Z * pstate SudoPair) -> list event -> Prop :=
| O_maskless : MasklessAddr pl (oa_settings a) -> OpenedT (Done (-1, pstate0 _)) []
| O_nocmd e : Matches e rq -> rq_command rq = [] -> OpenedT (Done (1, ps e None)) []
| O_debug e : Matches e rq -> rq_command rq <> [] -> pl_debug pl = true -> ~ Consistent rq ->
    OpenedT (Done (-1, ps e None)) []
| O_exempt e : Matches e rq -> rq_command rq <> [] -> Exempt rq -> OpenedT (Done (1, ps e (Some (pair0 e)))) []
| O_both e es r : Matches e rq -> rq_command rq <> [] -> ~ Exempt rq -> rq_uid rq <> rq_to_uid rq ->
    rq_f_group rq <> None -> r <> Stopped -> report_of SudoToUserAndGroup r es ->
    OpenedT (Done (-1, ps e None)) es
| O_both_stop e es : Matches e rq -> rq_command rq <> [] -> ~ Exempt rq -> rq_uid rq <> rq_to_uid rq ->
    rq_f_group rq <> None -> report_of SudoToUserAndGroup Stopped es -> OpenedT Stopped es
| O_asked e o ls es : Matches e rq -> io_env_new pl (B "sudo_pair") (B "1.2.0") a = Some (Ok e) ->
    rq_command rq <> [] -> ~ Exempt rq ->
    ~ (rq_uid rq <> rq_to_uid rq /\ rq_f_group rq <> None) ->
    AnswerT e o ls es -> OpenedT o (ls ++ es)
with AnswerT : io_env -> outcome (Z * pstate SudoPair) -> list event -> list event -> Prop :=
| N_stop e ls es : AskedT pl e Stopped ls es -> AnswerT e Stopped ls es
| N_panic e ls es : AskedT pl e Panicked ls es -> AnswerT e (Done (-1, ps e None)) ls es
| N_err e er ls es rs r : AskedT pl e (Done (Err er)) ls es -> r <> Stopped -> report_of er r rs ->
    AnswerT e (Done (-1, ps e None)) ls (es ++ rs)
| N_err_stop e er ls es rs : AskedT pl e (Done (Err er)) ls es -> report_of er Stopped rs ->
    AnswerT e Stopped ls (es ++ rs)
| N_ok e c ls es : AskedT pl e (Done (Ok (with_conn e c))) ls es ->
    AnswerT e (Done (1, ps e (Some (with_conn e c)))) ls es.

Lemma AskedT_Ok e p ls es : AskedT pl e (Done (Ok p)) ls es -> exists c, p = with_conn e c.
Proof. inversion 1. exists c. reflexivity. Qed.

Hypothesis D : Describes pl a rq.

Lemma CoreT_OpenedT o es : CoreT pl a (pstate0 _) o es -> OpenedT o es.
Proof.
  intros H. inversion H as [Ee|er ps' r Ee [Hr Hp]|er ps' Ee Hp|e' e o' es' Ee He HR]; subst.
  - apply O_maskless. eapply io_env_new_None. exact Ee.
  - exfalso. eapply io_env_new_not_Err; eassumption.
  - exfalso. eapply io_env_new_not_Err; eassumption.
  - clear H. cbn [pstate0 st_env] in HR. pose proof (env_Matches _ _ _ _ _ _ D Ee) as M.
    assert (Hc : forall b, path_eqb (ci_command (en_command_info e')) [] = b ->
      if b then rq_command rq = [] else rq_command rq <> []).
    { intros b Hb. rewrite (m_command _ _ M) in Hb. destruct b.
      - apply path_eqb_nil. exact Hb.
      - intros E. rewrite E in Hb. discriminate. }
    assert (HP : forall p es, path_eqb (ci_command (en_command_info e')) [] = false -> PairT pl e' p es ->
      match p with
      | Done (Ok p') => (es = [] /\ Exempt rq /\ p' = pair0 e')
          \/ exists ls es' c, es = ls ++ es' /\ ~ Exempt rq /\ ~ (rq_uid rq <> rq_to_uid rq /\ rq_f_group rq <> None)
             /\ p' = with_conn e' c /\ AskedT pl e' p ls es'
      | Done (Err er) => (es = [] /\ er = SudoToUserAndGroup /\ ~ Exempt rq /\ rq_uid rq <> rq_to_uid rq /\ rq_f_group rq <> None)
          \/ exists ls es', es = ls ++ es' /\ ~ Exempt rq /\ ~ (rq_uid rq <> rq_to_uid rq /\ rq_f_group rq <> None)
             /\ AskedT pl e' p ls es'
      | Panicked => (es = [] /\ pl_debug pl = true /\ ~ Consistent rq)
          \/ exists ls es', es = ls ++ es' /\ ~ Exempt rq /\ ~ (rq_uid rq <> rq_to_uid rq /\ rq_f_group rq <> None)
             /\ AskedT pl e' p ls es'
      | Stopped => exists ls es', es = ls ++ es' /\ ~ Exempt rq /\ ~ (rq_uid rq <> rq_to_uid rq /\ rq_f_group rq <> None)
             /\ AskedT pl e' p ls es'
      end).
    { intros p es0 _ HPT. fold (pair0 e') in *. inversion HPT as [E1|E1|E1 E2|o1 ls es1 E1 E2 HA]; subst.
      - left. split; [reflexivity|]. apply (is_exempt_None e' rq pl M E1).
      - left. split; [reflexivity|]. split; [|reflexivity]. apply (is_exempt_sound e' rq pl M true E1). reflexivity.
      - left. split; [reflexivity|]. split; [reflexivity|].
        split; [intros HE; apply (is_exempt_sound e' rq pl M false E1) in HE; discriminate|].
        apply (both_iff e' rq M). exact E2.
      - assert (N1 : ~ Exempt rq) by (intros HE; apply (is_exempt_sound e' rq pl M false E1) in HE; discriminate).
        assert (N2 : ~ (rq_uid rq <> rq_to_uid rq /\ rq_f_group rq <> None)).
        { intros HB. apply (both_iff e' rq M) in HB. unfold pair0 in HB. rewrite E2 in HB. discriminate. }
        destruct p as [[p'|er]| |].
        + right. destruct (AskedT_Ok _ _ _ _ HA) as [c ->]. exists ls, es1, c. auto.
        + right. exists ls, es1. auto.
        + right. exists ls, es1. auto.
        + exists ls, es1. auto. }
    inversion HR as [e0 E|e0 es0 E HPT|e0 es0 E HPT|e0 er es0 ps' r E HPT Hr Hp|e0 er es0 ps' E HPT Hp
      |e0 p es0 E HPT Hs|e0 p q es0 o0 ds E HPT Hs Hd]; subst; pose proof (Hc _ E) as Hcmd; cbn in Hcmd.
    + apply O_nocmd; assumption.
    + destruct (HP _ _ E HPT) as (ls & es' & -> & N1 & N2 & HA). eapply O_asked; try eassumption. apply N_stop. exact HA.
    + destruct (HP _ _ E HPT) as [(-> & Hd & Hcs)|(ls & es' & -> & N1 & N2 & HA)].
      * apply O_debug; assumption.
      * eapply O_asked; try eassumption. apply N_panic. exact HA.
    + destruct (HP _ _ E HPT) as [(-> & -> & N & Hu & Hg)|(ls & es' & -> & N1 & N2 & HA)].
      * eapply O_both; eassumption.
      * rewrite <- app_assoc. eapply O_asked; try eassumption. eapply N_err; eassumption.
    + destruct (HP _ _ E HPT) as [(-> & -> & N & Hu & Hg)|(ls & es' & -> & N1 & N2 & HA)].
      * eapply O_both_stop; eassumption.
      * rewrite <- app_assoc. eapply O_asked; try eassumption. eapply N_err_stop; eassumption.
    + destruct (HP _ _ E HPT) as [(-> & HE & ->)|(ls & es' & c & -> & N1 & N2 & -> & HA)].
      * apply O_exempt; assumption.
      * eapply O_asked; try eassumption. apply N_ok. exact HA.
    + discriminate.
Qed.

Lemma opened w o w' : core_open SudoPair pl a (pstate0 _) w = (o, w') ->
  exists evs, Ran (pl_euid pl) w evs w' /\ OpenedT o evs.
Proof.
  intros H. destruct (core_open_yields pl a (pstate0 _) w o w' H) as (evs & R & HC).
  exists evs. split; [exact R|]. apply CoreT_OpenedT. exact HC.
Qed.

Lemma opened_given w o w' evs : core_open SudoPair pl a (pstate0 _) w = (o, w') ->
  w_trace w' = w_trace w ++ evs -> Ran (pl_euid pl) w evs w' /\ OpenedT o evs.
Proof.
  intros H T. destruct (opened w o w' H) as (evs' & R & HO).
  rewrite (Ran_given _ _ _ _ _ R T). auto.
Qed.
End Opened.
