(** The address of the socket, the arguments of the calls and the terminal. *)
From Coq Require Import Lia.
From Verif Require Import Base BaseLemmas Num Path Template Options World Sys Io Socket Env Core Pair
  Spec TraceSpec SessionSpec PathProofs RequestProofs PairPure InputFacts RunProofs IoProofs SocketProofs
  FailFacts PairProofs KernelFacts OpenFacts AskFacts SplitFacts CleanupFacts TalkSpec TalkFacts SetupFacts HonourFacts.
Local Open Scope Z_scope.

(** ** The parts of an opening *)
Inductive Parts (pl : platform) (rq : request) (stopped : Prop) (evs : list event) : Prop :=
| PA_none : Only Prints evs -> Parts pl rq stopped evs
| PA_local e o ls rs : Matches e rq -> evs = ls ++ rs -> LocalT (pair0 e) (template_spec (pair0 e)) o ls ->
    (o = Stopped -> stopped) -> Only Prints rs -> Parts pl rq stopped evs
| PA_socket e mode oo ls os xs rs : Matches e rq -> evs = ls ++ os ++ xs ++ rs ->
    ~ (rq_uid rq <> rq_to_uid rq /\ rq_f_group rq <> None) ->
    LocalT (pair0 e) (template_spec (pair0 e)) (Done tt) ls -> socket_mode (pair0 e) = Some mode ->
    OpenT (pl_euid pl) (socket_path (pair0 e)) (socket_uid (pair0 e)) (socket_gid (pair0 e)) mode oo os ->
    (xs = [] \/ exists c ro zs ds, oo = Done (Ok c) /\ xs = zs ++ ds
       /\ RemoteT c (rq_pair_prompt_path rq) (template_spec (pair0 e)) ro zs
       /\ (ds = [] \/ exists od, DropT c od ds)) ->
    Only Prints rs -> Parts pl rq stopped evs.

Lemma report_prints a er r rs : report_of a er r rs -> Only Prints rs.
Proof.
  intros [[H _] _]. revert H. apply Forall_impl. intros ev [d [H _]]. unfold Prints. eauto.
Qed.

Lemma AskedT_parts pl rq e o ls es rs (stopped : Prop) : Matches e rq ->
  ~ (rq_uid rq <> rq_to_uid rq /\ rq_f_group rq <> None) ->
  AskedT pl e o ls es -> (o = Stopped -> stopped) -> Only Prints rs -> Parts pl rq stopped (ls ++ es ++ rs).
Proof.
  intros M NB HA HS HP.
  assert (Epp : po_pair_prompt_path (plugin_options_from (en_plugin_options e)) = rq_pair_prompt_path rq)
    by exact (pair_prompt_path e rq M).
  inversion HA as [ls' Hl|ls' Hl|ls' Hl Hm|mode ls' os Hl Hm Ho|mode ls' os Hl Hm Ho|er mode ls' os Hl Hm Ho
    |c mode ls' os zs Hl Hm Ho Hr|c er mode ls' os zs ds Hl Hm Ho Hr Hd|c er mode ls' os zs ds Hl Hm Ho Hr Hd
    |c mode ls' os zs Hl Hm Ho Hr]; subst; fold (pair0 e) in *; try rewrite Epp in Hr.
  - eapply PA_local; [exact M|reflexivity|exact Hl|auto|exact HP].
  - eapply PA_local; [exact M|reflexivity|exact Hl|discriminate|exact HP].
  - eapply PA_local; [exact M|reflexivity|exact Hl|discriminate|exact HP].
  - eapply PA_socket with (ls := ls) (os := es) (xs := []) (rs := rs); [exact M|reflexivity|exact NB|exact Hl|exact Hm|exact Ho|auto|exact HP].
  - eapply PA_socket with (ls := ls) (os := es) (xs := []) (rs := rs); [exact M|reflexivity|exact NB|exact Hl|exact Hm|exact Ho|auto|exact HP].
  - eapply PA_socket with (ls := ls) (os := es) (xs := []) (rs := rs); [exact M|reflexivity|exact NB|exact Hl|exact Hm|exact Ho|auto|exact HP].
  - eapply PA_socket with (ls := ls) (os := os) (xs := zs) (rs := rs); [exact M|rewrite <- !app_assoc; reflexivity|exact NB|exact Hl|exact Hm|exact Ho| |exact HP].
    right. exists c, Stopped, zs, []. rewrite app_nil_r. auto.
  - eapply PA_socket with (ls := ls) (os := os) (xs := zs ++ ds) (rs := rs); [exact M|rewrite <- !app_assoc; reflexivity|exact NB|exact Hl|exact Hm|exact Ho| |exact HP].
    right. exists c, (Done (Err er)), zs, ds. eauto 7.
  - eapply PA_socket with (ls := ls) (os := os) (xs := zs ++ ds) (rs := rs); [exact M|rewrite <- !app_assoc; reflexivity|exact NB|exact Hl|exact Hm|exact Ho| |exact HP].
    right. exists c, (Done (Err er)), zs, ds. eauto 7.
  - eapply PA_socket with (ls := ls) (os := os) (xs := zs) (rs := rs); [exact M|rewrite <- !app_assoc; reflexivity|exact NB|exact Hl|exact Hm|exact Ho| |exact HP].
    right. exists c, (Done (Ok tt)), zs, []. rewrite app_nil_r. auto.
Qed.

Lemma parts pl a rq (D : Describes pl a rq) w o w' evs :
  core_open SudoPair pl a (pstate0 _) w = (o, w') -> w_trace w' = w_trace w ++ evs -> Parts pl rq (o = Stopped) evs.
Proof.
  intros H T. destruct (opened_given pl a rq D w _ w' evs H T) as [_ HO].
  destruct HO as [Hm|e M HC|e M HC Hd Hcs|e M HC HE|e es r M HC NE HU HG Hr Hp|e es M HC NE HU HG Hp|e o ls es M Ee HC HE HB HN].
  1-4: apply PA_none; constructor.
  1,2: apply PA_none; eapply report_prints; exact Hp.
  destruct HN as [e ls es HA|e ls es HA|e er ls es rs r HA Hr Hp|e er ls es rs HA Hp|e c ls es HA].
  - rewrite <- (app_nil_r es). eapply AskedT_parts; [exact M|exact HB|exact HA|auto|constructor].
  - rewrite <- (app_nil_r es). eapply AskedT_parts; [exact M|exact HB|exact HA|discriminate|constructor].
  - eapply AskedT_parts; [exact M|exact HB|exact HA|discriminate|eapply report_prints; exact Hp].
  - eapply AskedT_parts; [exact M|exact HB|exact HA|discriminate|eapply report_prints; exact Hp].
  - rewrite <- (app_nil_r es). eapply AskedT_parts; [exact M|exact HB|exact HA|discriminate|constructor].
Qed.

(** ** Arguments *)
Section Args.
Variables (pl : platform) (rq : request) (e : io_env).
Hypothesis M : Matches e rq.
Let q := sock_comps rq.

Lemma user_prompt_path : po_user_prompt_path (plugin_options_from (en_plugin_options e)) = rq_user_prompt_path rq.
Proof. rewrite (m_options _ _ M). reflexivity. Qed.

Lemma prints_args es : Only Prints es -> Only (Argument rq q) es.
Proof. apply Only_weaken. intros c (l & d & ->). exact I. Qed.

Lemma load_args p d o es : LoadT p d o es -> p = rq_user_prompt_path rq \/ p = rq_pair_prompt_path rq -> Only (Argument rq q) es.
Proof. intros H Hp. apply LoadT_calls in H. revert H. apply Only_weaken. intros c ->. exact Hp. Qed.

Lemma local_args o ls : LocalT (pair0 e) (template_spec (pair0 e)) o ls -> Only (Argument rq q) ls.
Proof.
  assert (HL : forall x es, LoadT (po_user_prompt_path (sp_options (pair0 e))) DEFAULT_USER_PROMPT x es -> Only (Argument rq q) es).
  { intros x es H. eapply load_args; [exact H|]. left. exact user_prompt_path. }
  assert (HT : forall x ys, TtyT (ui_tty (en_user_info (sp_env (pair0 e)))) x ys -> Only (Argument rq q) ys).
  { intros x ys H. destruct H; try constructor.
    all: try constructor. all: match goal with H : Is _ _ ?ev |- _ => rewrite (proj1 H) end; cbn;
      rewrite <- (m_tty _ _ M); assumption. }
  assert (HW : forall p x ws, tty_wrote p x ws -> Only (Argument rq q) ws).
  { intros p x ws [H _]. revert H. apply Forall_impl. intros ev (d & ->). exact I. }
  assert (HP : forall pf p x ws, printed_all pf p x ws -> Only (Argument rq q) ws).
  { intros pf p x ws [H _]. revert H. apply Forall_impl. intros ev (d & -> & _). exact I. }
  assert (HC : forall b x cs, CloseT b x cs -> Only (Argument rq q) cs).
  { intros b x cs H. destruct H; try constructor; [|constructor].
    match goal with H : Is _ _ ?ev |- _ => rewrite (proj1 H) end. exact I. }
  assert (HN : forall opened p ws, (opened = false /\ ws = [] \/ opened = true /\ exists er, tty_wrote p (Done (Err er)) ws /\ AnyFailed ws) ->
     Only (Argument rq q) ws).
  { intros opened p ws [[_ ->]|[_ (er & H & _)]]; [constructor|eauto]. }
  intros H. destruct H as [es Hl|t es ys Hl Hy|o t opened es ys ss Hl Hy Hs]; onl; eauto.
  destruct Hs; onl; eauto.
Qed.

Lemma owner_args mode : ~ (rq_uid rq <> rq_to_uid rq /\ rq_f_group rq <> None) -> socket_mode (pair0 e) = Some mode ->
  Argument rq q (CChown q (socket_uid (pair0 e)) (socket_gid (pair0 e))) /\ Argument rq q (CChmod q mode).
Proof.
  intros NB Hm. unfold socket_mode in Hm. cbn [Argument]. unfold socket_uid, socket_gid.
  destruct (is_sudoing_to_user (pair0 e)) eqn:E1.
  - apply (to_user_iff e rq M) in E1. injection Hm as <-.
    destruct (is_sudoing_to_explicit_group (pair0 e)) eqn:E2.
    + apply (explicit_group_iff e rq M) in E2. tauto.
    + split; (split; [reflexivity|]); left; [|split; [exact E1|reflexivity]].
      split; [exact E1|]. split; [exact (m_to_uid _ _ M)|reflexivity].
  - assert (N1 : rq_uid rq = rq_to_uid rq).
    { destruct (Z.eq_dec (rq_uid rq) (rq_to_uid rq)) as [E|E]; [exact E|]. apply (to_user_iff e rq M) in E. congruence. }
    destruct (is_sudoing_to_explicit_group (pair0 e)) eqn:E2; [|discriminate]. injection Hm as <-.
    apply (explicit_group_iff e rq M) in E2.
    split; (split; [reflexivity|]); right; (split; [exact N1|split; [exact E2|]]); [|reflexivity].
    split; [reflexivity|]. exact (m_to_gid _ _ M).
Qed.

Lemma openT_args mode oo os : ~ (rq_uid rq <> rq_to_uid rq /\ rq_f_group rq <> None) -> socket_mode (pair0 e) = Some mode ->
  OpenT (pl_euid pl) (socket_path (pair0 e)) (socket_uid (pair0 e)) (socket_gid (pair0 e)) mode oo os ->
  Only (Argument rq q) os.
Proof.
  intros NB Hm HO. destruct (owner_args mode NB Hm) as [A1 A2].
  pose proof (socket_path_comps e rq M) as Eq. fold q in Eq.
  assert (HE : forall x es, EnforceT (pl_euid pl) (socket_path (pair0 e)) x es -> Only (Argument rq q) es).
  { intros x es H. pose proof (socket_path_parent e rq M) as Ep.
    destruct H as [| |? par ev P _ _ C _|par ev n P _ _ [C _] _ _]; try constructor; try constructor;
      rewrite C; left; congruence. }
  assert (HU : forall x us, UnlinkT (socket_path (pair0 e)) x us -> Only (Argument rq q) us).
  { intros x us H. apply UnlinkT_only in H. revert H. rewrite Eq. apply Only_weaken. intros c [->| ->]; cbn; auto. }
  assert (HB : forall x us, BindT (socket_path (pair0 e)) x us -> Only (Argument rq q) us).
  { intros x us H. apply BindT_only in H. revert H. rewrite Eq. apply Only_weaken. intros c [->|[->|[->| ->]]]; cbn; auto. }
  assert (HSv : forall fd x us, ServeT fd (socket_path (pair0 e)) (socket_uid (pair0 e)) (socket_gid (pair0 e)) mode x us ->
     Only (Argument rq q) us).
  { intros fd x us H. apply ServeT_only in H. revert H. rewrite Eq. apply Only_weaken.
    intros c [->|[->|[->| ->]]]; try exact I; assumption. }
  assert (HI : forall c an ev, Is c an ev -> Argument rq q c -> Argument rq q (e_call ev)).
  { intros c an ev [-> _] X. exact X. }
  assert (HT : forall old (r : result nat ioerr) x ts, TailT (socket_path (pair0 e)) old r x ts -> Only (Argument rq q) ts).
  { intros old r x ts H. destruct H; onl; eauto; eapply HI; try eassumption; exact I. }
  destruct HO as [es H|er es H|es us H1 H2|er es us H1 H2|es us H1 H2|es us um o ms H1 H2 Hu H3]; onl; eauto.
  - eapply HI; [exact Hu|exact I].
  - destruct H3; onl; eauto; eapply HI; try eassumption; exact I.
Qed.

Lemma remote_args c sp ro zs : RemoteT c (rq_pair_prompt_path rq) sp ro zs -> Only (Argument rq q) zs.
Proof.
  assert (HL : forall x es, LoadT (rq_pair_prompt_path rq) DEFAULT_PAIR_PROMPT x es -> Only (Argument rq q) es).
  { intros x es H. eapply load_args; [exact H|]. right. reflexivity. }
  assert (HS : forall es, SigOnly es -> Only (Argument rq q) es).
  { intros es. apply Forall_impl. intros ev. destruct (e_call ev); cbn; tauto. }
  assert (HC : forall es, Forall (OnConn c) es -> Only (Argument rq q) es).
  { intros es. apply Forall_impl. intros ev [H|[d ->]]; [|exact I]. destruct (e_call ev); cbn in *; tauto. }
  assert (HW : forall b x es, sent c b x es -> Only (Argument rq q) es) by (intros b x es [H _]; auto).
  assert (HR : forall x es, read1 c x es -> Only (Argument rq q) es).
  { intros x es H. destruct x as [[d|er]| |]; cbn in H; try contradiction.
    - destruct H as (e1 & ev & e2 & -> & H1 & H2 & [C _] & _). onl; auto. rewrite C. exact I.
    - destruct H as [H|(e1 & ev & e2 & -> & H1 & H2 & C)]; [auto|]. onl; auto. rewrite C. exact I.
    - destruct H as [H|(e1 & ev & e2 & -> & H1 & H2 & C)]; [auto|]. onl; auto. rewrite C. exact I. }
  assert (HF : forall ws fs, Flushed ws fs -> Only (Argument rq q) fs) by (intros ws fs [H _]; auto).
  assert (HE : forall d b xs, Echoed c d b xs -> Only (Argument rq q) xs) by (intros d b xs [H _]; auto).
  destruct 1; onl; eauto.
Qed.

Lemma drop_args c od ds : DropT c od ds -> Only (Argument rq q) ds.
Proof. intros H. apply DropT_calls in H. revert H. apply Only_weaken. intros ca [->| ->]; exact I. Qed.
End Args.

Lemma arguments pl a rq (D : Describes pl a rq) w o w' evs q :
  core_open SudoPair pl a (pstate0 _) w = (o, w') -> w_trace w' = w_trace w ++ evs -> SocketPath rq q ->
  Only (Argument rq q) evs.
Proof.
  intros H T Hq. apply (SocketPath_unique rq) in Hq. subst q.
  destruct (parts pl a rq D w o w' evs H T) as [HP|e ol ls rs M -> HL _ HP|e mode oo ls os xs rs M -> NB HL Hm HO HX HP].
  - apply prints_args. exact HP.
  - onl; [eapply local_args; eassumption|apply prints_args; exact HP].
  - onl; [eapply local_args; eassumption|eapply openT_args; eassumption| |apply prints_args; exact HP].
    destruct HX as [->|(c & ro & zs & ds & _ & -> & HR & HD)]; [constructor|].
    onl; [eapply remote_args; eassumption|]. destruct HD as [->|[od HD]]; [constructor|eapply drop_args; exact HD].
Qed.

(** ** The terminal *)
Lemma local_tty s sp o ls e1 ev e2 : LocalT s sp o ls -> o <> Stopped -> ls = e1 ++ ev :: e2 -> OpensTty ev ->
  exists m cl, e2 = m ++ [cl] /\ Is CCloseTty AOk cl /\ Only ShowsText m /\ Only (fun c => ~ UsesTty c) e1.
Proof.
  intros H NS E (p & Hc & Ha).
  assert (HL : forall f d x es, LoadT f d x es -> ~ In ev es).
  { intros f d x es HL Hin. apply LoadT_calls in HL. unfold Only in HL. rewrite Forall_forall in HL. apply HL in Hin. congruence. }
  assert (HW : forall b x ws, tty_wrote b x ws -> Only ShowsText ws).
  { intros b x ws [X _]. revert X. apply Forall_impl. intros y (d & ->). exact I. }
  assert (HP : forall pf b x ws, printed_all pf b x ws -> Only ShowsText ws).
  { intros pf b x ws [X _]. revert X. apply Forall_impl. intros y (d & -> & _). exact I. }
  assert (HN : forall opened b ws, (opened = false /\ ws = [] \/ opened = true /\ exists er, tty_wrote b (Done (Err er)) ws /\ AnyFailed ws) ->
     Only ShowsText ws).
  { intros opened b ws [[_ ->]|[_ (er & X & _)]]; [constructor|eauto]. }
  destruct H as [es Hl|t es ys Hl Hy|o t opened es ys ss Hl Hy Hs]; [contradiction|contradiction|].
  symmetry in E. apply in_split_app in E as [(m & -> & _)|(m & -> & E)].
  { exfalso. apply (HL _ _ _ _ Hl). apply in_or_app. right. left. reflexivity. }
  assert (HS : exists ws cs b, ss = ws ++ cs /\ Only ShowsText ws /\ CloseT opened (Done b) cs).
  { destruct Hs as [o ws cs Ho Hw Hcl|ws Ho Hw|o r ws ps cs Hw Hp Hcl|ws ps Hw Hp|ws ps cs Hw Hp Hcl|ws ps cs Hw Hp Hcl]; try contradiction.
    - exists ws, cs, tt. split; [reflexivity|]. split; [eauto|]. inversion Hcl; subst; try contradiction; assumption.
    - exists (ws ++ ps), cs, tt. rewrite app_assoc. split; [reflexivity|]. split; [onl; eauto|]. inversion Hcl; subst; try contradiction; assumption.
    - exists (ws ++ ps), cs, tt. rewrite app_assoc. split; [reflexivity|]. split; [onl; eauto|]. assumption. }
  destruct HS as (ws & cs & b & -> & Hws & Hcl).
  assert (HNS : ~ In ev (ws ++ cs)).
  { intros Hin. apply in_app_iff in Hin as [Hin|Hin].
    - unfold Only in Hws. rewrite Forall_forall in Hws. apply Hws in Hin. rewrite Hc in Hin. exact Hin.
    - inversion Hcl; subst; [destruct Hin|]. destruct Hin as [<-|[]].
      match goal with H : Is _ _ ?x |- _ => destruct H; congruence end. }
  inversion Hy as [|p' Hp' Hn'| |p' er ev' Hp' Hn' [C A]|p' ev' Hp' Hn' [C A]]; subst.
  - exfalso. apply HNS. change (ws ++ cs) with ([] ++ ws ++ cs). rewrite E. apply in_or_app. right. left. reflexivity.
  - exfalso. apply HNS. change (ws ++ cs) with ([] ++ ws ++ cs). rewrite E. apply in_or_app. right. left. reflexivity.
  - destruct m as [|x m]; injection E as E1 E2; [subst; congruence|].
    exfalso. apply HNS. rewrite E2. apply in_or_app. right. left. reflexivity.
  - destruct m as [|x m]; injection E as E1 E2.
    + subst. inversion Hcl as [|Ho|y Ho Hcl']; subst; try discriminate. exists ws, y. rewrite app_nil_r.
      split; [reflexivity|]. split; [assumption|]. split; [assumption|]. apply LoadT_calls in Hl. revert Hl. apply Only_weaken. intros c ->. intros [].
    + exfalso. apply HNS. rewrite E2. apply in_or_app. right. left. reflexivity.
Qed.

Lemma tty_closed pl a rq (D : Describes pl a rq) w o w' evs e1 ev e2 :
  core_open SudoPair pl a (pstate0 _) w = (o, w') -> w_trace w' = w_trace w ++ evs -> o <> Stopped ->
  evs = e1 ++ ev :: e2 -> OpensTty ev ->
  exists m cl e3, e2 = m ++ cl :: e3 /\ Is CCloseTty AOk cl /\ Only ShowsText m
    /\ Only (fun c => ~ UsesTty c) e1 /\ Only (fun c => ~ UsesTty c) e3.
Proof.
  intros H T NS E HT.
  assert (NP : forall es, Only Prints es -> Only (fun c => ~ UsesTty c) es).
  { intros es. apply Only_weaken. intros c (l & d & ->). intros []. }
  assert (NO : forall es, Only (fun c => ~ UsesTty c) es -> ~ In ev es).
  { intros es X Hin. unfold Only in X. rewrite Forall_forall in X. apply X in Hin. destruct HT as (p & C & _).
    rewrite C in Hin. apply Hin. exact I. }
  assert (K : forall s sp y ls rest, LocalT s sp y ls -> y <> Stopped -> Only (fun c => ~ UsesTty c) rest -> evs = ls ++ rest ->
    exists m cl e3, e2 = m ++ cl :: e3 /\ Is CCloseTty AOk cl /\ Only ShowsText m
    /\ Only (fun c => ~ UsesTty c) e1 /\ Only (fun c => ~ UsesTty c) e3).
  { intros s sp y ls rest HL Hy HN Ee. rewrite E in Ee. apply in_split_app in Ee as [(m & -> & ->)|(m & -> & ->)].
    - destruct (local_tty _ _ _ _ _ _ _ HL Hy eq_refl HT) as (m' & cl & -> & Hc & Hm & H1).
      exists m', cl, rest. rewrite <- app_assoc. auto 6.
    - exfalso. apply (NO _ HN). apply in_or_app. right. left. reflexivity. }
  destruct (parts pl a rq D w o w' evs H T) as [HP|e ol ls rs M Ee HL HS HP|e mode oo ls os xs rs M Ee NB HL Hm HO HX HP].
  - exfalso. apply (NO _ (NP _ HP)). rewrite E. apply in_or_app. right. left. reflexivity.
  - eapply K; [exact HL|auto|apply NP; exact HP|exact Ee].
  - eapply K; [exact HL|discriminate| |exact Ee]. onl; [| |apply NP; exact HP].
    + apply OpenT_calls in HO. revert HO. apply Only_weaken. intros []; cbn; tauto.
    + destruct HX as [->|(c & ro & zs & ds & _ & -> & HR & HD)]; [constructor|]. onl.
      * apply RemoteT_calls in HR. revert HR. apply Only_weaken. intros []; cbn; tauto.
      * destruct HD as [->|[od HD]]; [constructor|]. apply DropT_calls in HD. revert HD. apply Only_weaken.
        intros ca [->| ->] [].
Qed.

(** ** The address of the socket *)
Lemma SocketAddress_eq rq e p : Matches e rq -> SocketAddress rq p -> p = socket_path (pair0 e).
Proof.
  intros M (n & (u & x & Hu & Hx & En) & HC). apply Decimal_iff in Hu, Hx. subst u x.
  rewrite (socket_path_eq e rq M). change (to_dec (rq_uid rq) ++ B "." ++ to_dec (rq_pid rq) ++ B ".sock") with (sock_name (rq_uid rq) (rq_pid rq)) in En.
  subst n. pose proof (sock_name_hd (rq_uid rq) (rq_pid rq)) as Hh.
  destruct (sock_name_ok (rq_uid rq) (rq_pid rq)) as (N1 & _).
  unfold path_join. destruct (sock_name (rq_uid rq) (rq_pid rq)) as [|c n]; [congruence|].
  cbn in Hh. assert (Ec : byte_eqb c slash = false) by (apply byte_eqb_neq; exact Hh). rewrite Ec.
  destruct HC as [[-> ->]|[(d & Ed & ->)|(d & b & Ed & Hb & ->)]].
  - reflexivity.
  - rewrite Ed, rev_app_distr. cbn [rev app]. rewrite byte_eqb_refl. reflexivity.
  - rewrite Ed, rev_app_distr. cbn [rev app]. assert (Eb : byte_eqb b slash = false) by (apply byte_eqb_neq; exact Hb).
    rewrite Eb. reflexivity.
Qed.

Lemma unusable pl a rq (D : Describes pl a rq) w o w' evs p :
  core_open SudoPair pl a (pstate0 _) w = (o, w') -> w_trace w' = w_trace w ++ evs ->
  SocketAddress rq p -> (108 <= List.length p)%nat \/ In x00 p -> Only (fun c => ~ Listens c) evs.
Proof.
  intros H T Hp HB.
  assert (NP : forall es, Only Prints es -> Only (fun c => ~ Listens c) es).
  { intros es. apply Only_weaken. intros c (l & d & ->). intros []. }
  assert (NL : forall es, Only LocalPrompt es -> Only (fun c => ~ Listens c) es).
  { intros es. apply Only_weaken. intros []; cbn; tauto. }
  assert (NU : forall x y us, UnlinkT x y us -> Only (fun c => ~ Listens c) us).
  { intros x y us X. apply UnlinkT_only in X. revert X. apply Only_weaken. intros c [->| ->] []. }
  destruct (parts pl a rq D w o w' evs H T) as [HP|e ol ls rs M -> HL HS HP|e mode oo ls os xs rs M -> NB HL Hm HO HX HP].
  - apply NP. exact HP.
  - onl; [apply NL; eapply LocalT_calls; exact HL|apply NP; exact HP].
  - apply (SocketAddress_eq rq e p M) in Hp. rewrite <- Hp in HO.
    assert (HK : Only (fun c => ~ Listens c) os /\ forall c, oo <> Done (Ok c)).
    { assert (NE : forall y us, EnforceT (pl_euid pl) p y us -> Only (fun c => ~ Listens c) us).
      { intros y us X. apply EnforceT_stat in X. revert X. apply Only_weaken. intros c [d ->] []. }
      destruct HO as [es H1|er es H1|es us H1 H2|er es us H1 H2|es us H1 H2|es us um oo ms H1 H2 Hu H3];
        try (split; [onl; eauto|discriminate]).
      assert (Hl : 108 <= zlen p).
      { destruct HB as [HB|HB]; [unfold zlen; lia|]. exfalso. apply EnforceT_nul in H1. apply has_nul_iff in H1. contradiction. }
      assert (HBd : forall y bs, BindT p y bs -> bs = [] /\ forall fd, y <> Done (Ok fd)).
      { intros y bs X. destruct X; try (split; [reflexivity|discriminate]); lia. }
      assert (HTl : forall old (r : result nat ioerr) x ts, TailT p old r x ts -> Only (fun c => ~ Listens c) ts /\ (x = Stopped \/ x = Done r)).
      { intros old r x ts X. destruct X; (split; [|auto]); onl; eauto.
        match goal with H : Is _ _ ?ev |- _ => rewrite (proj1 H) end. intros []. }
      assert (HM : Only (fun c => ~ Listens c) ms /\ forall c, oo <> Done (Ok c)).
      { destruct H3 as [bs X|er oo bs ts X Y|fd bs ss X Y|fd bs ss X Y|fd bs ss cl X Y Z0|fd r bs ss X Y|fd r oo bs ss cl ts X Y Z0 W];
          destruct (HBd _ _ X) as [-> N]; try (destruct (N _ eq_refl)).
        - split; [constructor|discriminate].
        - destruct (HTl _ _ _ _ Y) as [Y1 [->| ->]]; (split; [exact Y1|discriminate]). }
      destruct HM as [HM1 HM2]. split; [|exact HM2]. onl; eauto. rewrite (proj1 Hu). intros []. }
    destruct HK as [K1 K2]. onl; [apply NL; eapply LocalT_calls; exact HL| |apply NP; exact HP].
    destruct HX as [->|(c & ro & zs & ds & Eoo & _)]; [constructor|]. destruct (K2 c Eoo).
Qed.

Lemma unusable_refused pl a rq w o w' evs p : Describes pl a rq ->
  core_open SudoPair pl a (pstate0 _) w = (o, w') -> w_trace w' = w_trace w ++ evs ->
  SocketAddress rq p -> (108 <= List.length p)%nat \/ In x00 p ->
  Only (fun c => ~ Listens c) evs /\ (forall st', o = Done (1, st') -> Exempt rq \/ rq_command rq = []).
Proof.
  intros D H T Hp HB. pose proof (unusable pl a rq D w o w' evs p H T Hp HB) as HN. split; [exact HN|].
  intros st' ->. destruct (split_given pl a rq D w _ w' evs H T) as [_ HS]. remember (Done (1, st')) as o eqn:Eo.
  destruct HS as [o evs _ HC|e mode oo ls os o post M HC NE NB HL Hm HO HA].
  { destruct HC as [->|[(s & -> & _)|(s & _ & HC)]]; [discriminate|discriminate|exact HC]. }
  exfalso. destruct oo as [[c|er']| |]; cbn [AfterT] in HA.
  2: { destruct HA as [[->| ->] _]; discriminate. }
  2,3: destruct HA as [-> _]; discriminate.
  destruct (OpenT_accept _ _ _ _ _ _ _ HO) as (o1 & acc & o2 & -> & [Ha _] & _).
  apply Only_app in HN as [_ HN]. apply Only_app in HN as [HN _]. apply Only_app in HN as [_ HN]. apply Only_cons in HN as [HN _].
  rewrite Ha in HN. apply HN. exact I.
Qed.
