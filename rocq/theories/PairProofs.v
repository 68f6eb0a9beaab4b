(** The calls made by lib.rs and core.rs while opening a session. *)
From Verif Require Import Base BaseLemmas Path Template Options World Sys Io Socket Env Core Pair
  TraceSpec RunProofs IoProofs SocketProofs FailFacts.
Local Open Scope Z_scope.

(** ** Templates *)
Inductive LoadT (p default : bytes) : outcome bytes -> list event -> Prop :=
| LT_nul : has_nul p = true -> LoadT p default (Done default) []
| LT_stop : has_nul p = false -> LoadT p default Stopped []
| LT_data d ev : has_nul p = false -> Is (CReadFile p) (AData d) ev -> LoadT p default (Done d) [ev]
| LT_fail e ev : has_nul p = false -> Is (CReadFile p) (AErr e) ev -> LoadT p default (Done default) [ev].

Lemma load_yields euid p d : yields euid (load_template p d) (LoadT p d).
Proof.
  unfold load_template. destruct (has_nul p) eqn:En.
  { apply yields_ret'. constructor. exact En. }
  eapply yields_call; [apply read_file_spec| |constructor; exact En].
  intros r a k H. destruct a; try contradiction; subst r; apply yields_ret'.
  - eapply LT_fail; [exact En|split; reflexivity].
  - eapply LT_data; [exact En|split; reflexivity].
Qed.

(** ** The local prompt *)
Definition LocalOnly (evs : list event) : Prop := Forall (fun ev => LocalPrompt (e_call ev)) evs.

(** Opening the terminal: whether it worked, and the calls made. *)
Inductive TtyT (tty : option bytes) : outcome bool -> list event -> Prop :=
| YT_none : tty = None -> TtyT tty (Done false) []
| YT_nul p : tty = Some p -> has_nul p = true -> TtyT tty (Done false) []
| YT_stop : TtyT tty Stopped []
| YT_fail p e ev : tty = Some p -> has_nul p = false -> Is (COpenTty p) (AErr e) ev -> TtyT tty (Done false) [ev]
| YT_ok p ev : tty = Some p -> has_nul p = false -> Is (COpenTty p) AOk ev -> TtyT tty (Done true) [ev].

Inductive CloseT (opened : bool) : outcome unit -> list event -> Prop :=
| CL_none : opened = false -> CloseT opened (Done tt) []
| CL_stop : opened = true -> CloseT opened Stopped []
| CL_ok ev : opened = true -> Is CCloseTty AOk ev -> CloseT opened (Done tt) [ev].

Definition tty_wrote := all_written never TtyWrite shown.

(** The part after the terminal was opened or not. *)
Inductive ShowT (pf : print_facility) (opened : bool) (prompt : bytes) : outcome unit -> list event -> Prop :=
| SH_tty o ws cs : opened = true -> tty_wrote prompt (Done (Ok tt)) ws -> CloseT opened o cs ->
    ShowT pf opened prompt o (ws ++ cs)
| SH_tty_stop ws : opened = true -> tty_wrote prompt Stopped ws -> ShowT pf opened prompt Stopped ws
| SH_err o r ws ps cs :
    (opened = false /\ ws = [] \/ opened = true /\ exists e, tty_wrote prompt (Done (Err e)) ws /\ AnyFailed ws) ->
    printed_all pf prompt (Done r) ps -> CloseT opened o cs ->
    (pf_present pf = true -> has_nul prompt = false -> all_fail (Done r) ps) ->
    ShowT pf opened prompt o (ws ++ ps ++ cs)
| SH_err_stop ws ps :
    (opened = false /\ ws = [] \/ opened = true /\ exists e, tty_wrote prompt (Done (Err e)) ws /\ AnyFailed ws) ->
    printed_all pf prompt Stopped ps -> ShowT pf opened prompt Stopped (ws ++ ps)
| SH_panic ws ps cs :
    (opened = false /\ ws = [] \/ opened = true /\ exists e, tty_wrote prompt (Done (Err e)) ws /\ AnyFailed ws) ->
    printed_all pf prompt Panicked ps -> CloseT opened (Done tt) cs ->
    ShowT pf opened prompt Panicked (ws ++ ps ++ cs)
| SH_panic_stop ws ps cs :
    (opened = false /\ ws = [] \/ opened = true /\ exists e, tty_wrote prompt (Done (Err e)) ws /\ AnyFailed ws) ->
    printed_all pf prompt Panicked ps -> CloseT opened Stopped cs ->
    ShowT pf opened prompt Stopped (ws ++ ps ++ cs).

Inductive LocalT (s : sudo_pair) (sp : spec) : outcome unit -> list event -> Prop :=
| LL_stop es : LoadT (po_user_prompt_path (sp_options s)) DEFAULT_USER_PROMPT Stopped es -> LocalT s sp Stopped es
| LL_tty_stop t es ys : LoadT (po_user_prompt_path (sp_options s)) DEFAULT_USER_PROMPT (Done t) es ->
    TtyT (ui_tty (en_user_info (sp_env s))) Stopped ys -> LocalT s sp Stopped (es ++ ys)
| LL_show o t opened es ys ss : LoadT (po_user_prompt_path (sp_options s)) DEFAULT_USER_PROMPT (Done t) es ->
    TtyT (ui_tty (en_user_info (sp_env s))) (Done opened) ys ->
    ShowT (en_stderr (sp_env s)) opened (expand sp t) o ss ->
    LocalT s sp o (es ++ ys ++ ss).

Lemma close_yields euid opened :
  yields euid (if opened : bool then sys_close_tty else ret tt) (CloseT opened).
Proof.
  destruct opened.
  - eapply yields_last; [apply close_tty_spec| |constructor; reflexivity].
    intros [] a k ->. apply CL_ok; [reflexivity|split; reflexivity].
  - apply yields_ret'. constructor. reflexivity.
Qed.

Lemma pf_write_all_both euid pf b : yields euid (pf_write_all pf b)
  (fun o ps => printed_all pf b o ps /\ (pf_present pf = true -> has_nul b = false -> all_fail o ps)).
Proof.
  destruct (pf_present pf) eqn:P; [destruct (has_nul b) eqn:N|].
  - eapply yields_weaken; [apply pf_write_all_yields|]. intros o ps H. split; [exact H|discriminate].
  - eapply yields_weaken; [apply yields_and; [apply pf_write_all_yields|apply pf_write_all_fail; assumption]|].
    intros o ps [H1 H2]. auto.
  - eapply yields_weaken; [apply pf_write_all_yields|]. intros o ps H. split; [exact H|discriminate].
Qed.

Lemma show_yields euid pf opened prompt :
  yields euid
    (shown <- (if opened : bool then w <- tty_write_all prompt ;; ret (is_ok w) else ret false) ;;
     (if shown : bool then ret tt
      else unwind_with (pf_write_all pf prompt ;;; ret tt) (if opened then sys_close_tty else ret tt)) ;;;
     (if opened then sys_close_tty else ret tt))
    (ShowT pf opened prompt).
Proof.
  set (NW := fun ws => opened = false /\ ws = [] \/ opened = true /\ exists e, tty_wrote prompt (Done (Err e)) ws /\ AnyFailed ws).
  eapply yields_seq with (Q := fun o ws =>
    match o with
    | Done true => opened = true /\ tty_wrote prompt (Done (Ok tt)) ws
    | Done false => NW ws
    | Panicked => False
    | Stopped => opened = true /\ tty_wrote prompt Stopped ws
    end).
  - destruct opened.
    + eapply yields_seq; [apply yields_and; [apply tty_write_all_yields|apply tty_write_all_fail]| | |].
      * intros [[]|e] ws [H HF]; apply yields_ret'; rewrite app_nil_r; cbn; [auto|]. right. eauto.
      * intros ws [[_ []] _].
      * intros ws [H _]. auto.
    + apply yields_ret'. left. auto.
  - intros [|] ws H.
    + destruct H as [Ho H]. eapply yields_seq; [apply yields_ret| | |].
      * intros u e [_ ->]. eapply yields_weaken; [apply close_yields|]. intros o cs Hc.
        cbn. eapply SH_tty; eassumption.
      * intros e [? _]. discriminate.
      * intros e [? _]. discriminate.
    + eapply yields_seq.
      { apply yields_unwind; [|apply close_yields].
        eapply yields_seq with (R := fun o ps => match o with
          | Done _ => exists r, printed_all pf prompt (Done r) ps
                      /\ (pf_present pf = true -> has_nul prompt = false -> all_fail (Done r) ps)
          | Panicked => printed_all pf prompt Panicked ps
          | Stopped => printed_all pf prompt Stopped ps end); [apply pf_write_all_both| | |].
        - intros r ps [Hp Hf]. apply yields_ret'. rewrite app_nil_r. eauto.
        - intros ps [Hp _]. exact Hp.
        - intros ps [Hp _]. exact Hp. }
      * intros u ps (r & Hp & Hf). eapply yields_weaken; [apply close_yields|]. intros o cs Hc.
        eapply SH_err; eassumption.
      * intros es (e1 & e2 & -> & H1 & [H2|H2]).
        -- eapply SH_panic; eassumption.
        -- inversion H2.
      * intros es [H1|(e1 & e2 & -> & H1 & H2)].
        -- eapply SH_err_stop; eassumption.
        -- eapply SH_panic_stop; eassumption.
  - intros ws [].
  - intros ws [Ho H]. apply SH_tty_stop; assumption.
Qed.

Lemma local_yields euid s sp : yields euid (local_pair_prompt s sp) (LocalT s sp).
Proof.
  unfold local_pair_prompt. eapply yields_seq; [apply load_yields| | |].
  - intros t es Hl. eapply yields_seq with (Q := TtyT (ui_tty (en_user_info (sp_env s)))).
    + destruct (ui_tty (en_user_info (sp_env s))) as [p|] eqn:Et.
      * unfold tty_open. destruct (has_nul p) eqn:En.
        -- eapply yields_seq; [apply yields_ret| | |].
           ++ intros r e [H ->]. injection H as ->. apply yields_ret'. eapply YT_nul; eauto.
           ++ intros e [? _]. discriminate.
           ++ intros e [? _]. discriminate.
        -- eapply yields_call; [apply open_tty_spec| |constructor].
           intros r a k H. destruct a; try contradiction; subst r; apply yields_ret'; cbn [is_ok].
           ++ eapply YT_ok; [reflexivity|exact En|split; reflexivity].
           ++ eapply YT_fail; [reflexivity|exact En|split; reflexivity].
      * apply yields_ret'. constructor. reflexivity.
    + intros opened ys Hy. eapply yields_weaken; [apply show_yields|]. intros o ss Hs.
      eapply LL_show; eassumption.
    + intros ys Hy. inversion Hy.
    + intros ys Hy. eapply LL_tty_stop; eassumption.
  - intros es H. inversion H.
  - intros es H. apply LL_stop. exact H.
Qed.

(** ** The remote prompt *)
Definition approves (d : bytes) : Prop := d = ["y"%byte] \/ d = ["Y"%byte].

(** Echoing the answer: the byte (an 'n' if there was none), then a newline;
    either may be lost, if a call fails or (unless [full]) if time stops. *)
Definition Echoed (c : nat) (d : bytes) (full : bool) (xs : list event) : Prop :=
  Forall (OnConn c) xs
  /\ (exists x1 x2, xs = x1 ++ x2
     /\ Prefix (delivered c x1) [match d with b :: _ => b | [] => "n"%byte end]
     /\ Prefix (delivered c x2) newline)
  /\ (full = true -> AnyFailed xs \/ delivered c xs = match d with b :: _ => b | [] => "n"%byte end :: newline).

Lemma sent_Prefix c b r evs : sent c b (Done r) evs -> Prefix (delivered c evs) b.
Proof. intros [_ H]. destruct r; [|exact H]. exists []. rewrite app_nil_r. symmetry. exact H. Qed.

(** The prompt was sent: no call failed for good. *)
Definition Flushed (ws fs : list event) : Prop := SigOnly fs /\ Forall Sound (ws ++ fs).

Inductive RemoteT (c : nat) (path : bytes) (sp : spec) : outcome (result unit pair_error) -> list event -> Prop :=
| RT_stop es : LoadT path DEFAULT_PAIR_PROMPT Stopped es -> RemoteT c path sp Stopped es
| RT_write_stop t es ws : LoadT path DEFAULT_PAIR_PROMPT (Done t) es -> sent c (expand sp t) Stopped ws ->
    RemoteT c path sp Stopped (es ++ ws)
| RT_write e t es ws : LoadT path DEFAULT_PAIR_PROMPT (Done t) es -> sent c (expand sp t) (Done (Err e)) ws ->
    AnyFailed ws -> RemoteT c path sp (Done (Err CommunicationError)) (es ++ ws)
| RT_flush_stop t es ws fs : LoadT path DEFAULT_PAIR_PROMPT (Done t) es -> sent c (expand sp t) (Done (Ok tt)) ws ->
    SigOnly fs -> RemoteT c path sp Stopped (es ++ ws ++ fs)
| RT_flush t es ws fs : LoadT path DEFAULT_PAIR_PROMPT (Done t) es -> sent c (expand sp t) (Done (Ok tt)) ws ->
    SigOnly fs -> AnyFailed fs -> RemoteT c path sp (Done (Err CommunicationError)) (es ++ ws ++ fs)
| RT_read_stop t es ws fs rs : LoadT path DEFAULT_PAIR_PROMPT (Done t) es -> sent c (expand sp t) (Done (Ok tt)) ws ->
    Flushed ws fs -> read1 c Stopped rs -> RemoteT c path sp Stopped (es ++ ws ++ fs ++ rs)
| RT_read e t es ws fs rs : LoadT path DEFAULT_PAIR_PROMPT (Done t) es -> sent c (expand sp t) (Done (Ok tt)) ws ->
    Flushed ws fs -> read1 c (Done (Err e)) rs ->
    AnyFailed rs \/ (exists ev, In ev rs /\ Is (CRead c) (AErr EINTR) ev) ->
    RemoteT c path sp (Done (Err SessionDeclined)) (es ++ ws ++ fs ++ rs)
| RT_echo_stop d t es ws fs rs xs : LoadT path DEFAULT_PAIR_PROMPT (Done t) es -> sent c (expand sp t) (Done (Ok tt)) ws ->
    Flushed ws fs -> read1 c (Done (Ok d)) rs -> Echoed c d false xs ->
    RemoteT c path sp Stopped (es ++ ws ++ fs ++ rs ++ xs)
| RT_no d t es ws fs rs xs : LoadT path DEFAULT_PAIR_PROMPT (Done t) es -> sent c (expand sp t) (Done (Ok tt)) ws ->
    Flushed ws fs -> read1 c (Done (Ok d)) rs -> Echoed c d true xs -> ~ approves d ->
    RemoteT c path sp (Done (Err SessionDeclined)) (es ++ ws ++ fs ++ rs ++ xs)
| RT_yes d t es ws fs rs xs : LoadT path DEFAULT_PAIR_PROMPT (Done t) es -> sent c (expand sp t) (Done (Ok tt)) ws ->
    Flushed ws fs -> read1 c (Done (Ok d)) rs -> Echoed c d true xs -> Forall Sound rs -> approves d ->
    RemoteT c path sp (Done (Ok tt)) (es ++ ws ++ fs ++ rs ++ xs).

Lemma read1_data c d rs : read1 c (Done (Ok d)) rs -> d = [] \/ exists b, d = [b].
Proof. intros (e1 & ev & e2 & _ & _ & _ & _ & H). exact H. Qed.

Lemma remote_yields euid s c sp : sp_socket s = Some c ->
  yields euid (remote_pair_prompt s sp) (RemoteT c (po_pair_prompt_path (sp_options s)) sp).
Proof.
  intros Hs. unfold remote_pair_prompt. rewrite Hs.
  eapply yields_seq; [apply load_yields| | |].
  2: { intros es H. inversion H. }
  2: { intros es H. apply RT_stop. exact H. }
  intros t es Hl.
  eapply yields_seq; [apply yields_and; [apply yields_and; [apply socket_write_all_yields|apply socket_write_all_fail]
    |apply socket_write_all_sound]| | |].
  2: { intros ws [[[_ []] _] _]. }
  2: { intros ws [[H _] _]. eapply RT_write_stop; eassumption. }
  intros [[]|e] ws [[Hw HF] HSw].
  2: { apply yields_ret'. rewrite app_nil_r. eapply RT_write; eassumption. }
  clear HF. eapply yields_seq; [apply yields_and; [apply yields_and; [apply socket_flush_yields|apply socket_flush_fail]
    |apply socket_flush_sound]| | |].
  2: { intros fs [[[H _] _] _]. contradiction. }
  2: { intros fs [[[_ H] _] _]. eapply RT_flush_stop; eassumption. }
  intros [[]|e] fs [[[_ Hf0] HF] HSf].
  2: { apply yields_ret'. rewrite app_nil_r. eapply RT_flush; eassumption. }
  assert (Hf : Flushed ws fs) by (split; [exact Hf0|apply Forall_app; split; [exact HSw|exact HSf]]). clear Hf0 HSw HSf.
  clear HF. eapply yields_seq; [apply yields_and; [apply yields_and; [apply socket_read_yields|apply socket_read_fail]
    |apply socket_read_sound]| | |].
  2: { intros rs [[[] _] _]. }
  2: { intros rs [[H _] _]. eapply RT_read_stop; eassumption. }
  intros [d|e] rs [[Hr HF] HSr].
  2: { apply yields_ret'. rewrite app_nil_r. eapply RT_read; eassumption. }
  clear HF.
  set (response := match d with b :: _ => b | [] => "n"%byte end).
  eapply yields_seq; [apply yields_and; [apply socket_write_all_yields|apply socket_write_all_fail]| | |].
  2: { intros x1 [[_ []] _]. }
  2: { intros x1 [[H P] _]. eapply RT_echo_stop; try eassumption. split; [exact H|]. split; [|discriminate].
       exists x1, []. split; [symmetry; apply app_nil_r|]. split; [exact P|]. exists newline. reflexivity. }
  intros r1 x1 [S1 F1]. pose proof (sent_Prefix _ _ _ _ S1) as P1. destruct S1 as [H1 E1].
  eapply yields_seq; [apply yields_and; [apply socket_write_all_yields|apply socket_write_all_fail]| | |].
  2: { intros x2 [[_ []] _]. }
  2: { intros x2 [[H P] _]. eapply RT_echo_stop; try eassumption. split; [apply Forall_app; auto|]. split; [|discriminate].
       exists x1, x2. auto. }
  intros r2 x2 [S2 F2]. pose proof (sent_Prefix _ _ _ _ S2) as P2. destruct S2 as [H2 E2].
  assert (Hx : Echoed c d true (x1 ++ x2)).
  { split; [apply Forall_app; auto|]. split; [exists x1, x2; auto|]. intros _.
    destruct r1 as [[]|e1]; [|left; apply AnyFailed_l; exact F1].
    destruct r2 as [[]|e2]; [|left; apply AnyFailed_r; exact F2].
    right. unfold delivered. rewrite flat_map_app. change (delivered c x1 ++ delivered c x2 = response :: newline).
    rewrite E1, E2. reflexivity. }
  assert (Ha : byte_eqb response "y" || byte_eqb response "Y" = true <-> approves d).
  { unfold response, approves. rewrite orb_true_iff, !byte_eqb_eq.
    destruct (read1_data _ _ _ Hr) as [->|[b ->]].
    - split; [intros [H|H]; discriminate|intros [H|H]; discriminate].
    - split; [intros [->| ->]; auto|intros [H|H]; injection H as ->; auto]. }
  destruct (byte_eqb response "y" || byte_eqb response "Y").
  - apply yields_ret'. rewrite app_nil_r. eapply RT_yes; try eassumption. apply Ha. reflexivity.
  - apply yields_ret'. rewrite app_nil_r. eapply RT_no; try eassumption. intros H. apply Ha in H. discriminate.
Qed.

(** ** Dropping the connection *)
Definition Shutdown (c : nat) (ev : event) : Prop := e_call ev = CShutdown c.

Inductive DropT (c : nat) : outcome unit -> list event -> Prop :=
| DT_stop : DropT c Stopped []
| DT_stop1 ev : Shutdown c ev -> DropT c Stopped [ev]
| DT_done ev cl : Shutdown c ev -> Is (CClose c) AOk cl -> DropT c (Done tt) [ev; cl].

Lemma drop_yields euid c : yields euid (socket_drop c) (DropT c).
Proof.
  unfold socket_drop, socket_close.
  eapply yields_call; [apply shutdown_spec| |constructor].
  intros r a k _. eapply yields_last; [apply close_spec| |apply DT_stop1; reflexivity].
  intros [] a2 k2 ->. apply DT_done; [reflexivity|split; reflexivity].
Qed.

(** ** Opening *)
Section PairOpen.
Variables (pl : platform) (e : io_env).
Let s := mkSudoPair e (plugin_options_from (en_plugin_options e)) None.
Let with_socket (c : nat) := mkSudoPair e (plugin_options_from (en_plugin_options e)) (Some c).
Let sp := template_spec s.
Let pair_path := po_pair_prompt_path (plugin_options_from (en_plugin_options e)).
Let Connect mode := OpenT (pl_euid pl) (socket_path s) (socket_uid s) (socket_gid s) mode.

Inductive PairT : outcome (result sudo_pair pair_error) -> list event -> Prop :=
| PT_debug : is_exempt s pl = None -> PairT Panicked []
| PT_exempt : is_exempt s pl = Some true -> PairT (Done (Ok s)) []
| PT_both : is_exempt s pl = Some false -> is_sudoing_to_user_and_group s = true ->
    PairT (Done (Err SudoToUserAndGroup)) []
| PT_asked o ls es : is_exempt s pl = Some false -> is_sudoing_to_user_and_group s = false ->
    AskedT o ls es -> PairT o (ls ++ es)
with AskedT : outcome (result sudo_pair pair_error) -> list event -> list event -> Prop :=
| AK_local_stop ls : LocalT s sp Stopped ls -> AskedT Stopped ls []
| AK_local_panic ls : LocalT s sp Panicked ls -> AskedT Panicked ls []
| AK_nomode ls : LocalT s sp (Done tt) ls -> socket_mode s = None -> AskedT Panicked ls []
| AK_conn_stop mode ls os : LocalT s sp (Done tt) ls -> socket_mode s = Some mode -> Connect mode Stopped os ->
    AskedT Stopped ls os
| AK_conn_panic mode ls os : LocalT s sp (Done tt) ls -> socket_mode s = Some mode -> Connect mode Panicked os ->
    AskedT Panicked ls os
| AK_conn er mode ls os : LocalT s sp (Done tt) ls -> socket_mode s = Some mode -> Connect mode (Done (Err er)) os ->
    AskedT (Done (Err CommunicationError)) ls os
| AK_stop c mode ls os rs : LocalT s sp (Done tt) ls -> socket_mode s = Some mode -> Connect mode (Done (Ok c)) os ->
    RemoteT c pair_path sp Stopped rs -> AskedT Stopped ls (os ++ rs)
| AK_no_stop c er mode ls os rs ds : LocalT s sp (Done tt) ls -> socket_mode s = Some mode -> Connect mode (Done (Ok c)) os ->
    RemoteT c pair_path sp (Done (Err er)) rs -> DropT c Stopped ds -> AskedT Stopped ls (os ++ rs ++ ds)
| AK_no c er mode ls os rs ds : LocalT s sp (Done tt) ls -> socket_mode s = Some mode -> Connect mode (Done (Ok c)) os ->
    RemoteT c pair_path sp (Done (Err er)) rs -> DropT c (Done tt) ds -> AskedT (Done (Err er)) ls (os ++ rs ++ ds)
| AK_yes c mode ls os rs : LocalT s sp (Done tt) ls -> socket_mode s = Some mode -> Connect mode (Done (Ok c)) os ->
    RemoteT c pair_path sp (Done (Ok tt)) rs -> AskedT (Done (Ok (with_socket c))) ls (os ++ rs).

Lemma RemoteT_not_panic c path sp' rs : ~ RemoteT c path sp' Panicked rs.
Proof. inversion 1. Qed.

Lemma pair_open_yields : yields (pl_euid pl) (pair_open pl e) PairT.
Proof.
  unfold pair_open. fold s. fold sp. destruct (is_exempt s pl) as [[|]|] eqn:Ee.
  - apply yields_ret'. apply PT_exempt. exact Ee.
  - destruct (is_sudoing_to_user_and_group s) eqn:Eb.
    + apply yields_ret'. apply PT_both; assumption.
    + eapply yields_seq; [apply local_yields| | |].
      2: { intros ls H. rewrite <- (app_nil_r ls). apply PT_asked; auto. apply AK_local_panic. exact H. }
      2: { intros ls H. rewrite <- (app_nil_r ls). apply PT_asked; auto. apply AK_local_stop. exact H. }
      intros [] ls Hl. eapply yields_weaken with (Q := fun o es => AskedT o ls es).
      2: { intros o es H. apply PT_asked; assumption. }
      eapply yields_seq with (Q := fun o os => exists mode, match o with
        | Done (Err er) => er = CommunicationError /\ socket_mode s = Some mode /\ exists x, Connect mode (Done (Err x)) os
        | Done (Ok s') => socket_mode s = Some mode /\ exists c, s' = with_socket c /\ Connect mode (Done (Ok c)) os
        | Panicked => (socket_mode s = None /\ os = []) \/ (socket_mode s = Some mode /\ Connect mode Panicked os)
        | Stopped => socket_mode s = Some mode /\ Connect mode Stopped os
        end).
      * unfold remote_pair_connect. cbn [s sp_socket]. destruct (socket_mode s) as [mode|] eqn:Em.
        -- eapply yields_seq; [apply socket_open_yields| | |].
           ++ intros [c|x] os Ho; apply yields_ret'; rewrite app_nil_r; exists mode.
              ** split; [reflexivity|]. exists c. split; [reflexivity|exact Ho].
              ** split; [reflexivity|]. split; [reflexivity|]. exists x. exact Ho.
           ++ intros os Ho. exists mode. right. split; [reflexivity|exact Ho].
           ++ intros os Ho. exists mode. split; [reflexivity|exact Ho].
        -- apply yields_panic'. exists 0. left. auto.
      * intros [s'|er] os (mode & H).
        -- destruct H as (Em & c & -> & Ho).
           eapply yields_seq.
           { apply yields_unwind; [apply (remote_yields (pl_euid pl) (with_socket c) c); reflexivity|].
             unfold pair_drop. cbn [with_socket sp_socket]. apply drop_yields. }
           ++ intros [[]|er] rs Hr; cbn in Hr.
              ** apply yields_ret'. rewrite app_nil_r. eapply AK_yes; eassumption.
              ** unfold pair_drop. cbn [with_socket sp_socket]. eapply yields_seq; [apply drop_yields| | |].
                 --- intros [] ds Hd. apply yields_ret'. rewrite app_nil_r. eapply AK_no; eassumption.
                 --- intros ds Hd. inversion Hd.
                 --- intros ds Hd. eapply AK_no_stop; eassumption.
           ++ intros rs (e1 & e2 & _ & Hr & _). exfalso. eapply RemoteT_not_panic. exact Hr.
           ++ intros rs [Hr|(e1 & e2 & _ & Hr & _)]; [|exfalso; eapply RemoteT_not_panic; exact Hr].
              eapply AK_stop; eassumption.
        -- destruct H as (-> & Em & x & Ho). apply yields_ret'. rewrite app_nil_r. eapply AK_conn; eassumption.
      * intros os (mode & [[Em ->]|[Em Ho]]); [apply AK_nomode; assumption|eapply AK_conn_panic; eassumption].
      * intros os (mode & Em & Ho). eapply AK_conn_stop; eassumption.
  - apply yields_panic'. apply PT_debug. exact Ee.
Qed.
End PairOpen.

(** ** The callback *)
Definition stderr_of (a : open_args) : print_facility := mkPf (oa_printf a) LEVEL_ERROR (B "sudo_pair: ").

(** An error was reported. With a print function, and unless the message
    contains a NUL byte, only a call that failed keeps the message incomplete. *)
Definition reported (a : open_args) (display : bytes) (r : outcome (result unit ioerr)) (es : list event) : Prop :=
  printed_all (stderr_of a) (newline ++ B "sudo_pair: " ++ display ++ newline) r es
  /\ (oa_printf a = true -> has_nul display = false -> all_fail r es).

Lemma reported_yields euid a display : yields euid (write_error (stderr_of a) display None) (reported a display).
Proof.
  apply yields_and; [apply write_error_yields|].
  destruct (oa_printf a) eqn:Hp; [destruct (has_nul display) eqn:Hn|].
  - eapply yields_weaken; [apply write_error_yields|]. intros o es _ _ ?. discriminate.
  - eapply yields_weaken; [apply write_error_fail; [exact Hp|reflexivity|exact Hn]|]. intros o es H _ _. exact H.
  - eapply yields_weaken; [apply write_error_yields|]. intros o es _ ?. discriminate.
Qed.

Section CoreOpen.
Variables (pl : platform) (a : open_args).

Inductive CoreT (st : pstate SudoPair) : outcome (Z * pstate SudoPair) -> list event -> Prop :=
| KT_env : io_env_new pl (B "sudo_pair") (B "1.2.0") a = None -> CoreT st (Done (-1, st)) []
| KT_init er ps r : io_env_new pl (B "sudo_pair") (B "1.2.0") a = Some (Err er) ->
    (r <> Stopped /\ reported a (display_error er) r ps) ->
    CoreT st (Done (-1, st)) ps
| KT_init_stop er ps : io_env_new pl (B "sudo_pair") (B "1.2.0") a = Some (Err er) ->
    reported a (display_error er) Stopped ps ->
    CoreT st Stopped ps
| KT_run e' e o es : io_env_new pl (B "sudo_pair") (B "1.2.0") a = Some (Ok e') ->
    e = match st_env st with Some old => old | None => e' end ->
    RunT st e o es -> CoreT st o es
with RunT (st : pstate SudoPair) : io_env -> outcome (Z * pstate SudoPair) -> list event -> Prop :=
| RT_nocmd e : path_eqb (ci_command (en_command_info e)) [] = true ->
    RunT st e (Done (1, @mkPstate SudoPair (Some e) (st_plugin st))) []
| RT_stop' e es : path_eqb (ci_command (en_command_info e)) [] = false ->
    PairT pl e Stopped es -> RunT st e Stopped es
| RT_panic e es : path_eqb (ci_command (en_command_info e)) [] = false ->
    PairT pl e Panicked es -> RunT st e (Done (-1, @mkPstate SudoPair (Some e) (st_plugin st))) es
| RT_err e er es ps r : path_eqb (ci_command (en_command_info e)) [] = false ->
    PairT pl e (Done (Err er)) es ->
    r <> Stopped -> reported a (display_pair_error er) r ps ->
    RunT st e (Done (-1, @mkPstate SudoPair (Some e) (st_plugin st))) (es ++ ps)
| RT_err_stop e er es ps : path_eqb (ci_command (en_command_info e)) [] = false ->
    PairT pl e (Done (Err er)) es ->
    reported a (display_pair_error er) Stopped ps ->
    RunT st e Stopped (es ++ ps)
| RT_ok e p es : path_eqb (ci_command (en_command_info e)) [] = false ->
    PairT pl e (Done (Ok p)) es -> st_plugin st = None ->
    RunT st e (Done (1, @mkPstate SudoPair (Some e) (Some p))) es
| RT_again e p q es o ds : path_eqb (ci_command (en_command_info e)) [] = false ->
    PairT pl e (Done (Ok p)) es -> st_plugin st = Some q ->
    (match sp_socket p with
     | Some c => (o = Stopped /\ DropT c Stopped ds)
                 \/ (o = Done (1, @mkPstate SudoPair (Some e) (Some q)) /\ DropT c (Done tt) ds)
     | None => o = Done (1, @mkPstate SudoPair (Some e) (Some q)) /\ ds = []
     end) ->
    RunT st e o (es ++ ds).

Lemma yields_catch_open euid (m : M Z) Q :
  yields euid m Q ->
  yields euid (catch_open m) (fun o es => match o with
    | Done z => Q (Done z) es \/ (z = OPEN_DENY /\ Q Panicked es)
    | Panicked => False | Stopped => Q Stopped es end).
Proof.
  intros H. unfold catch_open. eapply yields_seq; [apply yields_catch; exact H| | |].
  - intros [z|] es Hq; apply yields_ret'; rewrite app_nil_r; auto.
  - intros es [].
  - intros es Hq. exact Hq.
Qed.

Lemma core_open_yields st : yields (pl_euid pl) (core_open SudoPair pl a st) (CoreT st).
Proof.
  unfold core_open. unfold pf_new.
  change (mkPf (oa_printf a) LEVEL_ERROR (pg_name SudoPair ++ B ": ")) with (stderr_of a).
  change (pg_name SudoPair) with (B "sudo_pair"). change (pg_version SudoPair) with (B "1.2.0").
  destruct (io_env_new pl (B "sudo_pair") (B "1.2.0") a) as [[e'|er]|] eqn:Ee.
  - set (e := match st_env st with Some old => old | None => e' end).
    eapply yields_weaken with (Q := RunT st e).
    2: { intros o es H. eapply KT_run; [exact Ee|reflexivity|exact H]. }
    destruct (path_eqb (ci_command (en_command_info e)) []) eqn:Ec.
    { apply yields_ret'. apply RT_nocmd. exact Ec. }
    eapply yields_seq.
    { apply yields_catch. eapply yields_seq with (R := fun o es =>
        match o with
        | Done (Ok p) => PairT pl e (Done (Ok p)) es
        | Done (Err z) => z = OPEN_DENY /\ exists er e1 ps r, es = e1 ++ ps /\ PairT pl e (Done (Err er)) e1 /\ r <> Stopped
            /\ reported a (display_pair_error er) r ps
        | Panicked => PairT pl e Panicked es
            \/ exists er e1 ps, es = e1 ++ ps /\ PairT pl e (Done (Err er)) e1
            /\ reported a (display_pair_error er) Panicked ps
        | Stopped => PairT pl e Stopped es
            \/ exists er e1 ps, es = e1 ++ ps /\ PairT pl e (Done (Err er)) e1
            /\ reported a (display_pair_error er) Stopped ps
        end).
      - apply pair_open_yields.
      - intros [p|er] es Hp.
        + apply yields_ret'. rewrite app_nil_r. exact Hp.
        + eapply yields_seq; [apply reported_yields| | |].
          * intros r ps Hps. apply yields_ret'. rewrite app_nil_r. split; [reflexivity|].
            exists er, es, ps, (Done r). repeat split; try assumption; try discriminate; apply Hps.
          * intros ps Hps. right. exists er, es, ps. auto.
          * intros ps Hps. right. exists er, es, ps. auto.
      - intros es Hp. left. exact Hp.
      - intros es Hp. left. exact Hp. }
    + intros [[p|z]|] es Hr; cbn in Hr.
      * destruct (st_plugin st) as [q|] eqn:Est.
        -- eapply yields_seq with (Q := fun o ds =>
             match sp_socket p with
             | Some c => (o = Stopped /\ DropT c Stopped ds) \/ (o = Done 1 /\ DropT c (Done tt) ds)
             | None => o = Done 1 /\ ds = []
             end).
           ++ eapply yields_weaken.
              { apply yields_catch_open. cbn [pg_drop SudoPair]. unfold pair_drop.
                eapply yields_seq with (Q := fun o ds => match sp_socket p with
                  | Some c => DropT c o ds | None => o = Done tt /\ ds = [] end)
                  (R := fun o ds => match sp_socket p with
                  | Some c => (o = Stopped /\ DropT c Stopped ds) \/ (o = Done 1 /\ DropT c (Done tt) ds)
                  | None => o = Done 1 /\ ds = [] end).
                - destruct (sp_socket p); [apply drop_yields|apply yields_ret].
                - intros [] ds Hd. apply yields_ret'. rewrite app_nil_r. destruct (sp_socket p); [right; auto|].
                  destruct Hd as [_ ->]. auto.
                - intros ds Hd. destruct (sp_socket p); [inversion Hd|destruct Hd as [Hd _]; discriminate].
                - intros ds Hd. destruct (sp_socket p); [left; auto|destruct Hd as [Hd _]; discriminate]. }
              intros [z| |] ds Hd; cbn in Hd.
              ** destruct Hd as [Hd|[_ Hd]]; [exact Hd|]. destruct (sp_socket p).
                 --- destruct Hd as [[Hd _]|[Hd _]]; discriminate.
                 --- destruct Hd as [Hd _]. discriminate.
              ** contradiction.
              ** exact Hd.
           ++ intros z ds Hd. apply yields_ret'. rewrite app_nil_r. eapply RT_again; try eassumption.
              destruct (sp_socket p).
              ** destruct Hd as [[Hd _]|[Hd Hd']]; [discriminate|]. right. injection Hd as ->.
                 split; [reflexivity|exact Hd'].
              ** destruct Hd as [Hd ->]. injection Hd as ->. split; reflexivity.
           ++ intros ds Hd. destruct (sp_socket p); [destruct Hd as [[Hd _]|[Hd _]]|destruct Hd as [Hd _]]; discriminate.
           ++ intros ds Hd. eapply RT_again; try eassumption. destruct (sp_socket p).
              ** destruct Hd as [Hd|[Hd _]]; [left; split; [reflexivity|apply Hd]|discriminate].
              ** destruct Hd as [Hd _]. discriminate.
        -- apply yields_ret'. rewrite app_nil_r. apply RT_ok; assumption.
      * destruct Hr as (-> & er & e1 & ps & r & -> & H1 & H2 & H3). apply yields_ret'. rewrite app_nil_r.
        eapply RT_err; eassumption.
      * apply yields_ret'. rewrite app_nil_r. destruct Hr as [Hr|(er & e1 & ps & -> & H1 & H2)].
        -- apply RT_panic; assumption.
        -- eapply RT_err; try eassumption. discriminate.
    + intros es [].
    + intros es [H|(er & e1 & ps & -> & H1 & H2)].
      * apply RT_stop'; assumption.
      * eapply RT_err_stop; eassumption.
  - eapply yields_seq.
    { apply yields_catch_open. eapply yields_seq with (R := fun o ps =>
        match o with Done z => z = OPEN_DENY /\ exists r, r <> Stopped /\
             reported a (display_error er) r ps
        | Panicked => reported a (display_error er) Panicked ps
        | Stopped => reported a (display_error er) Stopped ps
        end); [apply reported_yields| | |].
      - intros r ps H. apply yields_ret'. rewrite app_nil_r. split; [reflexivity|]. exists (Done r). split; [discriminate|exact H].
      - auto.
      - auto. }
    + intros z ps H. apply yields_ret'. rewrite app_nil_r. cbn in H.
      destruct H as [[-> (r & H1 & H2)]|[-> H]].
      * eapply KT_init; eauto.
      * eapply KT_init; [exact Ee|]. split; [|exact H]. discriminate.
    + intros ps [].
    + intros ps H. eapply KT_init_stop; eassumption.
  - apply yields_ret'. apply KT_env. exact Ee.
Qed.
End CoreOpen.
