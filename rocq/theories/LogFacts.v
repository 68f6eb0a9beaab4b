(** Facts about the records of a session. *)
From Verif Require Import Base BaseLemmas Num Path Template Options World Sys Io Socket Env Core Pair Log
  Spec TraceSpec SessionSpec LogSpec ReadProofs RequestProofs PairPure RunProofs IoProofs SocketProofs FailFacts PairProofs
  KernelFacts OpenFacts AskFacts SessionFacts InitFacts.
Local Open Scope Z_scope.

Section Built.
(** The level below which this build has no records. *)
Variable mx : level.

(** ** Making records changes nothing *)
Definition runs {A} (m : L A) (m' : M A) : Prop := forall w, snd (m w) = m' w.

Lemma runs_lift {A} (m : M A) : runs (lift m) m.
Proof. intros w. reflexivity. Qed.

Lemma runs_lbind {A C} (m : L A) m' (f : A -> L C) f' : runs m m' -> (forall a, runs (f a) (f' a)) ->
  runs (lbind m f) (bind m' f').
Proof.
  intros H1 H2 w. unfold lbind, bind. specialize (H1 w). rewrite <- H1. destruct (m w) as [l [[a| |] w1]]; cbn; try reflexivity.
  rewrite <- (H2 a w1). destruct (f a w1). reflexivity.
Qed.

Lemma runs_note {C} e lv msg vs (f : unit -> L C) m' : runs (f tt) m' -> runs (lbind (note e lv msg vs) f) m'.
Proof. intros H w. unfold lbind, note, say. rewrite <- (H w). destruct (f tt w). reflexivity. Qed.

Lemma runs_say {C} r (f : unit -> L C) m' : runs (f tt) m' -> runs (lbind (say r) f) m'.
Proof. intros H w. unfold lbind, say. rewrite <- (H w). destruct (f tt w). reflexivity. Qed.

Lemma runs_unwind {A} (m : L A) m' c c' : runs m m' -> runs c c' -> runs (lunwind m c) (unwind_with m' c').
Proof.
  intros H1 H2 w. unfold lunwind, unwind_with. specialize (H1 w). rewrite <- H1. destruct (m w) as [l [[a| |] w1]]; cbn; try reflexivity.
  rewrite <- (H2 w1). destruct (c w1) as [l' [[x| |] w2]]; reflexivity.
Qed.

Lemma runs_ext {A} (m : L A) m' m'' : runs m m' -> (forall w, m' w = m'' w) -> runs m m''.
Proof. intros H E w. rewrite <- E. apply H. Qed.

Lemma bind_ret_r {A} (m : M A) w : bind m (fun x => ret x) w = m w.
Proof. unfold bind, ret. destruct (m w) as [[a| |] w1]; reflexivity. Qed.

Lemma bind_tt (m : M unit) w : bind m (fun _ => ret tt) w = m w.
Proof. unfold bind, ret. destruct (m w) as [[[]| |] w1]; reflexivity. Qed.

Lemma runs_last e lv msg vs (m : L unit) m' : runs m m' -> runs (lbind m (fun _ => note e lv msg vs)) m'.
Proof.
  intros H w. unfold lbind, note, say. rewrite <- (H w). destruct (m w) as [l [[[]| |] w1]]; reflexivity.
Qed.

Definition as_M {A} (o : panics A) : M A := match o with Some a => ret a | None => panic end.

Lemma runs_or_panic {A} (o : panics A) : runs (or_panic o) (as_M o).
Proof. destruct o; intros w; reflexivity. Qed.

Lemma runs_exempt pl s : runs (lis_exempt pl s) (as_M (is_exempt s pl)).
Proof.
  unfold lis_exempt, is_exempt. destruct (is_sudoing_from_root s); [apply runs_note, runs_lift|].
  destruct (is_sudoing_to_themselves s pl) as [b|]; [|intros w; reflexivity].
  eapply runs_ext with (m' := bind (ret b) (fun b : bool => as_M (if b then Some true
    else if is_sudoing_approval_command s then Some true
    else if is_exempted_from_logging s then Some true
    else if is_sudoing_from_exempted_gid s then Some true
    else match is_sudoing_to_enforced_gid s pl with None => None | Some b => Some (negb b) end)));
    [apply runs_lbind; [apply runs_lift|intros a]|intros w; reflexivity].
  destruct a; [apply runs_note, runs_lift|].
  destruct (is_sudoing_approval_command s); [apply runs_note, runs_lift|].
  destruct (is_exempted_from_logging s); [apply runs_note, runs_lift|].
  destruct (is_sudoing_from_exempted_gid s); [apply runs_note, runs_lift|].
  destruct (is_sudoing_to_enforced_gid s pl) as [[|]|]; intros w; reflexivity.
Qed.

Lemma runs_local s sp : runs (llocal_pair_prompt s sp) (local_pair_prompt s sp).
Proof.
  unfold llocal_pair_prompt, local_pair_prompt. apply runs_lbind; [apply runs_lift|]. intros t.
  apply runs_note, runs_note. apply runs_last. apply runs_lift.
Qed.

(** Computing the mode early makes no difference: the panic comes anyway. *)
Lemma runs_connect pl s : sp_socket s = None -> runs (lremote_pair_connect mx pl s) (remote_pair_connect pl s).
Proof.
  intros Es. unfold lremote_pair_connect. rewrite Es.
  set (rest := lbind (note _ LInfo (B "socket waiting for pair to connect...") _) _).
  assert (K : runs rest (remote_pair_connect pl s)).
  { apply runs_note. eapply runs_ext; [apply runs_lbind; [apply runs_lift|]|intros w; apply bind_ret_r].
    intros [s'|er]; [apply runs_note|]; apply runs_lift. }
  clearbody rest. destruct (kept mx LDebug).
  - intros w. destruct (socket_mode s) as [m|] eqn:Em.
    + unfold lbind, or_panic, lret, lift, ret, note, say. rewrite <- (K w). destruct (rest w). reflexivity.
    + unfold lbind, or_panic, lift, panic, remote_pair_connect. rewrite Es, Em. reflexivity.
  - intros w. unfold lbind, lret, lift, ret. rewrite <- (K w). destruct (rest w). reflexivity.
Qed.

Lemma runs_remote s sp : runs (lremote_pair_prompt s sp) (remote_pair_prompt s sp).
Proof.
  unfold lremote_pair_prompt, remote_pair_prompt. apply runs_lbind; [apply runs_lift|]. intros t.
  apply runs_note, runs_note. destruct (sp_socket s) as [c|]; [|apply runs_lift].
  apply runs_lbind; [apply runs_lift|]. intros [[]|e]; [|apply runs_lift].
  apply runs_lbind; [apply runs_lift|]. intros [[]|e]; [|apply runs_lift].
  apply runs_note, runs_note. apply runs_lbind; [apply runs_lift|]. intros [d|e]; [|apply runs_lift].
  apply runs_note. apply runs_lbind; [apply runs_lift|]. intros _. apply runs_lbind; [apply runs_lift|]. intros _.
  match goal with |- context [if ?b then _ else _] => destruct b end; apply runs_note, runs_lift.
Qed.

Lemma runs_drop s : runs (lpair_drop s) (pair_drop s).
Proof. apply runs_note, runs_lift. Qed.

Lemma runs_drop0 {C} s (f : unit -> L C) m' : sp_socket s = None -> runs (f tt) m' -> runs (lbind (lpair_drop s) f) m'.
Proof.
  intros Es H w. unfold lbind, lpair_drop, note, say, lift, pair_drop, lbind, ret. rewrite Es. cbn. rewrite <- (H w).
  destruct (f tt w). reflexivity.
Qed.

Lemma unwind_nothing {A} (m : M A) c w : (forall w, c w = (Done tt, w)) -> unwind_with m c w = m w.
Proof. intros H. unfold unwind_with. destruct (m w) as [[a| |] w1]; try reflexivity. rewrite H. reflexivity. Qed.

Lemma bind_ext {A C} (m m' : M A) (f f' : A -> M C) w : (forall w, m w = m' w) -> (forall a w, f a w = f' a w) ->
  bind m f w = bind m' f' w.
Proof. intros H1 H2. unfold bind. rewrite H1. destruct (m' w) as [[a| |] w1]; [apply H2|reflexivity|reflexivity]. Qed.

Lemma runs_open pl e : runs (lpair_open mx pl e) (pair_open pl e).
Proof.
  unfold lpair_open, pair_open. set (pair := mkSudoPair e _ None).
  apply runs_say, runs_note. assert (Hp : forall w, pair_drop pair w = (Done tt, w)) by (intros w; reflexivity).
  assert (U : forall A (m : L A) m', runs m m' -> runs (lunwind m (lpair_drop pair)) m').
  { intros A m m' H. eapply runs_ext; [apply runs_unwind; [exact H|apply runs_drop]|]. intros w. apply unwind_nothing. exact Hp. }
  eapply runs_ext.
  { apply runs_lbind; [apply U, runs_exempt|]. intros b.
    instantiate (1 := fun b : bool => if b then ret (Ok pair) else if is_sudoing_to_user_and_group pair then ret (Err SudoToUserAndGroup) else _).
    cbn beta. destruct b; [apply runs_note, runs_lift|]. apply runs_note.
    destruct (is_sudoing_to_user_and_group pair).
    { apply runs_note. apply runs_drop0; [reflexivity|apply runs_lift]. }
    apply runs_lbind; [apply U, runs_local|]. intros u. instantiate (1 := fun _ => bind (remote_pair_connect pl pair) _). cbn beta.
    apply runs_lbind; [apply U, runs_connect; reflexivity|].
    instantiate (1 := fun r => match r with Err er => ret (Err er) | Ok pair' => bind (unwind_with (remote_pair_prompt pair' (template_spec pair)) (pair_drop pair')) (fun r => match r with Err er => bind (pair_drop pair') (fun _ => ret (Err er)) | Ok _ => ret (Ok pair') end) end).
    intros [p|er]; cbn beta iota.
    - apply runs_lbind; [apply runs_unwind; [apply runs_remote|apply runs_drop]|]. intros [[]|er].
      + apply runs_note, runs_lift.
      + apply runs_lbind; [apply runs_drop|]. intros _. apply runs_lift.
    - apply runs_drop0; [reflexivity|apply runs_lift]. }
  intros w. destruct (is_exempt pair pl) as [[|]|]; reflexivity.
Qed.

Lemma runs_close s : runs (lpair_close s) (pair_close s).
Proof.
  unfold lpair_close, pair_close. destruct (sp_socket s) as [c|].
  - apply runs_ext with (m' := bind (bind (socket_close c) (fun _ => socket_drop c)) (fun _ => ret tt)); [|apply bind_tt].
    apply runs_lbind.
    + apply runs_note. apply runs_lbind; [apply runs_lift|]. intros _. apply runs_note, runs_lift.
    + intros _. apply runs_note. intros w. reflexivity.
  - intros w. reflexivity.
Qed.

Lemma runs_output s d : runs (llog_output s d) (log_output s d).
Proof.
  unfold llog_output. eapply runs_ext; [apply runs_lbind; [apply runs_lift|]|intros w; apply bind_ret_r].
  intros [[]|er]; [apply runs_note|]; apply runs_lift.
Qed.

Lemma runs_log pl st s d : runs (lpair_log pl st s d) (pair_log pl st s d).
Proof.
  destruct st; cbn [lpair_log pair_log]; try apply runs_output; try apply runs_lift.
  eapply runs_ext.
  { apply runs_lbind; [apply runs_exempt|]. intros b.
    instantiate (1 := fun b : bool => if b then ret (Ok tt) else ret (Err StdinRedirected)). destruct b; apply runs_lift. }
  intros w. destruct (is_exempt s pl) as [[|]|]; reflexivity.
Qed.

(** ** Which records are made *)
Definition lyields {A} (euid : Z) (m : L A) (Q : list bytes -> outcome A -> list event -> Prop) : Prop :=
  forall w l o w', m w = (l, (o, w')) -> exists evs, Ran euid w evs w' /\ Q (messages l) o evs.

Lemma messages_app a b : messages (a ++ b) = messages a ++ messages b.
Proof. unfold messages. rewrite filter_app, map_app. reflexivity. Qed.

Lemma ly_lift {A} euid (m : M A) Q : yields euid m Q -> lyields euid (lift m) (fun ms o evs => ms = [] /\ Q o evs).
Proof. intros H w l o w' E. injection E as <- E. destruct (H _ _ _ E) as (evs & R & HQ). exists evs. auto. Qed.

Lemma ly_weaken {A} euid (m : L A) Q (R : list bytes -> outcome A -> list event -> Prop) :
  lyields euid m Q -> (forall ms o evs, Q ms o evs -> R ms o evs) -> lyields euid m R.
Proof. intros H HQ w l o w' E. destruct (H _ _ _ _ E) as (evs & H1 & H2). eauto. Qed.

Lemma ly_ret {A} euid (a : A) (R : list bytes -> outcome A -> list event -> Prop) : R [] (Done a) [] -> lyields euid (lret a) R.
Proof. intros H w l o w' E. injection E as <- <- <-. exists []. split; [apply Ran_refl|exact H]. Qed.

Lemma ly_seq {A C} euid (m : L A) (f : A -> L C) Q (R : list bytes -> outcome C -> list event -> Prop) :
  lyields euid m Q ->
  (forall a m1 e1, Q m1 (Done a) e1 -> lyields euid (f a) (fun ms o e2 => R (m1 ++ ms) o (e1 ++ e2))) ->
  (forall m1 e1, Q m1 Panicked e1 -> R m1 Panicked e1) -> (forall m1 e1, Q m1 Stopped e1 -> R m1 Stopped e1) ->
  lyields euid (lbind m f) R.
Proof.
  intros H1 H2 H3 H4 w l o w' E. unfold lbind in E. destruct (m w) as [l1 [[a| |] w1]] eqn:Em;
    destruct (H1 _ _ _ _ Em) as (e1 & R1 & Q1).
  - destruct (f a w1) as [l2 [o2 w2]] eqn:Ef. injection E as <- <- <-.
    destruct (H2 _ _ _ Q1 _ _ _ _ Ef) as (e2 & R2 & Q2). exists (e1 ++ e2).
    split; [eapply Ran_trans; eassumption|]. rewrite messages_app. exact Q2.
  - injection E as <- <- <-. exists e1. auto.
  - injection E as <- <- <-. exists e1. auto.
Qed.

Lemma ly_lift_seq {A C} euid (m : M A) (f : A -> L C) Q (R : list bytes -> outcome C -> list event -> Prop) :
  yields euid m Q ->
  (forall a e1, Q (Done a) e1 -> lyields euid (f a) (fun ms o e2 => R ms o (e1 ++ e2))) ->
  (forall e1, Q Panicked e1 -> R [] Panicked e1) -> (forall e1, Q Stopped e1 -> R [] Stopped e1) ->
  lyields euid (lbind (lift m) f) R.
Proof.
  intros H1 H2 H3 H4. eapply ly_seq; [apply ly_lift; exact H1| | |].
  - intros a m1 e1 [-> HQ]. cbn. exact (H2 a e1 HQ).
  - intros m1 e1 [-> HQ]. auto.
  - intros m1 e1 [-> HQ]. auto.
Qed.

Lemma ly_note {C} euid e lv msg vs (f : unit -> L C) (R : list bytes -> outcome C -> list event -> Prop) :
  lyields euid (f tt) (fun ms o evs => R ((if important (mkRecord lv msg vs) then [msg] else []) ++ ms) o evs) ->
  lyields euid (lbind (note e lv msg vs) f) R.
Proof.
  intros H w l o w' E. unfold lbind, note, say in E. destruct (f tt w) as [l2 [o2 w2]] eqn:Ef. injection E as <- <- <-.
  destruct (H _ _ _ _ Ef) as (evs & R2 & Q2). exists evs. split; [exact R2|].
  unfold messages in *. cbn [app filter]. unfold important in *. cbn [r_level r_message] in *. destruct lv; exact Q2.
Qed.

Lemma ly_unwind {A} euid (m : L A) (c : L unit) Q R :
  lyields euid m Q -> lyields euid c (fun ms o evs => ms = [] /\ R o evs) ->
  lyields euid (lunwind m c) (fun ms o evs => match o with
    | Done a => Q ms (Done a) evs
    | Panicked => exists e1 e2, evs = e1 ++ e2 /\ Q ms Panicked e1
    | Stopped => Q ms Stopped evs \/ exists e1 e2, evs = e1 ++ e2 /\ Q ms Panicked e1 end).
Proof.
  intros H1 H2 w l o w' E. unfold lunwind in E. destruct (m w) as [l1 [[a| |] w1]] eqn:Em;
    destruct (H1 _ _ _ _ Em) as (e1 & R1 & Q1).
  - injection E as <- <- <-. exists e1. auto.
  - destruct (c w1) as [l2 [o2 w2]] eqn:Ec. destruct (H2 _ _ _ _ Ec) as (e2 & R2 & M2 & _).
    assert (HM : messages (l1 ++ l2) = messages l1) by (rewrite messages_app, M2; apply app_nil_r).
    exists (e1 ++ e2). destruct o2; injection E as <- <- <-; rewrite HM;
      (split; [eapply Ran_trans; eassumption|]); eauto.
  - injection E as <- <- <-. exists e1. auto.
Qed.

Lemma ly_drop euid s : lyields euid (lpair_drop s) (fun ms o evs => ms = [] /\ (o = Done tt \/ o = Stopped) /\ reads evs = []).
Proof.
  unfold lpair_drop. apply ly_note. cbn [important r_level app]. apply ly_lift. unfold pair_drop.
  destruct (sp_socket s) as [c|].
  - eapply yields_weaken; [apply drop_yields|]. intros o evs H. inversion H as [|ev Hs|ev cl Hs Hc]; subst; (split; [auto|]); cbn; unfold is_read.
    + reflexivity.
    + rewrite Hs. reflexivity.
    + rewrite Hs, (proj1 Hc). reflexivity.
  - apply yields_ret'. auto.
Qed.

(** *** Whether pairing is required *)
Lemma ly_exempt euid pl s : lyields euid (lis_exempt pl s) (fun ms o evs => ms = [] /\ evs = [] /\ match o with
   | Done b => is_exempt s pl = Some b | Panicked => is_exempt s pl = None | Stopped => False end).
Proof.
  intros w l o w' E. pose proof (runs_exempt pl s w) as H. rewrite E in H. cbn in H.
  assert (HM : messages l = []).
  { clear H. unfold lis_exempt, note, say in E. destruct (is_sudoing_from_root s); [injection E as <- <- <-; reflexivity|].
    destruct (is_sudoing_to_themselves s pl) as [[|]|]; [injection E as <- <- <-; reflexivity| |injection E as <- <- <-; reflexivity].
    cbn [or_panic] in E. unfold lbind at 1 in E. unfold lret at 1, lift at 1, ret at 1 in E. cbn [app] in E.
    destruct (is_sudoing_approval_command s); [injection E as <- <- <-; reflexivity|].
    destruct (is_exempted_from_logging s); [injection E as <- <- <-; reflexivity|].
    destruct (is_sudoing_from_exempted_gid s); [injection E as <- <- <-; reflexivity|].
    destruct (is_sudoing_to_enforced_gid s pl) as [[|]|]; injection E as <- <- <-; reflexivity. }
  rewrite HM. destruct (is_exempt s pl) as [b|]; injection H as -> ->; exists []; (split; [apply Ran_refl|auto]).
Qed.

(** *** The conversation with the pair *)

Lemma read_lost euid c : yields euid (socket_read c) (fun o evs => match o with
  | Done (Err e) => forall rd c' d, In rd evs -> Is (CRead c') (AData d) rd -> Unrestored evs | _ => True end).
Proof.
  unfold socket_read. eapply yields_seq; [apply ctrl_c_yields; apply read_spec| | |]; try (intros; exact I).
  intros r e1 H. apply yields_ret'. rewrite app_nil_r.
  inversion H as [|g e He Hg| |g s e He Hg Hs| | | |g s r0 fs s2 e He Hg Hs Hf H2|g s r0 fs s2 Hg Hs Hf H2]; subst; clear H; cbn [flatten].
  - intros rd c' d [<-|[]] [Hc _]. rewrite (proj1 Hg) in Hc. discriminate.
  - intros rd c' d _ _. exists s, (quiet_sig (e_pre g)), e. split; [right; left; reflexivity|exact Hs].
  - intros rd c' d _ _. exists s2, (k_sigint (e_pre g)), e. split; [|exact H2].
    right. right. apply in_or_app. right. left. reflexivity.
  - destruct Hf as [[Hf _]|(x & a & k & HE & -> & Hx)]; [discriminate|]. injection HE as <-.
    destruct r0 as [d0|e0]; [exact I|]. intros rd c' d Hin [Hc Ha].
    destruct Hin as [<-|[<-|[<-|[<-|[]]]]].
    + rewrite (proj1 Hg) in Hc. discriminate.
    + rewrite (proj1 Hs) in Hc. discriminate.
    + cbn in Ha. subst a. destruct Hx as [Hx _]. discriminate.
    + rewrite (proj1 H2) in Hc. discriminate.
Qed.

(** What is said during the conversation, what it leads to, and what was read. *)
Inductive SaidT : list bytes -> outcome (result unit pair_error) -> list event -> Prop :=
| ST_yes evs d : approves d -> answered d evs -> SaidT [APPROVED] (Done (Ok tt)) evs
| ST_no evs d : ~ approves d -> answered d evs -> SaidT [DECLINED] (Done (Err SessionDeclined)) evs
| ST_err evs er : (forall d, answered d evs -> Unrestored evs) -> SaidT [] (Done (Err er)) evs
| ST_stop evs : SaidT [] Stopped evs.

Lemma LoadT_reads p d o evs x : LoadT p d o evs -> ~ answered x evs.
Proof.
  intros H (rd & c & Hin & Hc & _). inversion H as [| |d' ev _ [Hi _]|e ev _ [Hi _]]; subst.
  - destruct Hin.
  - destruct Hin.
  - destruct Hin as [<-|[]]. rewrite Hc in Hi. discriminate.
  - destruct Hin as [<-|[]]. rewrite Hc in Hi. discriminate.
Qed.

Lemma Only_reads (P : call -> Prop) evs x : Only P evs -> (forall c, ~ P (CRead c)) -> ~ answered x evs.
Proof.
  intros H HP (rd & c & Hin & Hc & _). unfold Only in H. rewrite Forall_forall in H. specialize (H _ Hin). cbn beta in H.
  rewrite Hc in H. exact (HP c H).
Qed.

Lemma OnConn_reads c evs x : Forall (OnConn c) evs -> ~ answered x evs.
Proof.
  intros H (rd & c' & Hin & Hc & _). rewrite Forall_forall in H. destruct (H _ Hin) as [Hs|[y Hw]]; rewrite Hc in *; [contradiction|discriminate].
Qed.

Lemma SigOnly_reads evs x : SigOnly evs -> ~ answered x evs.
Proof. intros H. apply (Only_reads SigCall); [exact H|]. intros c F. exact F. Qed.

Lemma answered_app x a b : answered x (a ++ b) <-> answered x a \/ answered x b.
Proof.
  unfold answered. split.
  - intros (rd & c & Hin & H). apply in_app_or in Hin as [Hin|Hin]; eauto.
  - intros [(rd & c & Hin & H)|(rd & c & Hin & H)]; exists rd, c; (split; [apply in_or_app; auto|exact H]).
Qed.

Lemma Unrestored_r a b : Unrestored b -> Unrestored (a ++ b).
Proof. intros (ev & s & er & Hin & H). exists ev, s, er. split; [apply in_or_app; auto|exact H]. Qed.
Lemma Unrestored_l a b : Unrestored a -> Unrestored (a ++ b).
Proof. intros (ev & s & er & Hin & H). exists ev, s, er. split; [apply in_or_app; auto|exact H]. Qed.

Lemma ly_remote euid s c sp : sp_socket s = Some c -> lyields euid (lremote_pair_prompt s sp) SaidT.
Proof.
  intros Hs. unfold lremote_pair_prompt. rewrite Hs.
  eapply ly_lift_seq; [apply load_yields| | |].
  2: { intros es H. inversion H. }
  2: { intros es H. apply ST_stop. }
  intros t es Hl. pose proof (fun x => LoadT_reads _ _ _ _ x Hl) as N1. apply ly_note, ly_note. cbn [important r_level app].
  eapply ly_lift_seq; [apply socket_write_all_yields| | |].
  2: { intros ws [_ []]. }
  2: { intros ws _. apply ST_stop. }
  intros r ws Hw. assert (N2 : forall x, ~ answered x ws) by (intros x; apply OnConn_reads with c; exact (proj1 Hw)).
  destruct r as [[]|er].
  2: { apply ly_ret. rewrite app_nil_r. apply ST_err. intros d Hd. apply answered_app in Hd as [Hd|Hd]; exfalso; [exact (N1 d Hd)|exact (N2 d Hd)]. }
  eapply ly_lift_seq; [apply socket_flush_yields| | |].
  2: { intros fs [H _]. contradiction. }
  2: { intros fs _. apply ST_stop. }
  intros r fs [_ Hf]. assert (N3 : forall x, ~ answered x fs) by (intros x; apply SigOnly_reads; exact Hf).
  assert (N : forall x, ~ answered x (es ++ ws ++ fs)).
  { intros x Hx. apply answered_app in Hx as [Hx|Hx]; [exact (N1 x Hx)|]. apply answered_app in Hx as [Hx|Hx]; [exact (N2 x Hx)|exact (N3 x Hx)]. }
  destruct r as [[]|er].
  2: { apply ly_ret. rewrite app_nil_r. apply ST_err. intros d Hd. destruct (N d Hd). }
  apply ly_note, ly_note. cbn [important r_level app].
  eapply ly_lift_seq; [apply yields_and; [apply socket_read_yields|apply read_lost]| | |].
  2: { intros rs [[] _]. }
  2: { intros rs _. apply ST_stop. }
  intros [d|er] rs [Hr HL].
  2: { apply ly_ret. rewrite app_nil_r. apply ST_err. intros d Hd. rewrite !app_assoc in *. apply answered_app in Hd as [Hd|(rd & c' & Hin & Hi)].
       - destruct (N d Hd).
       - apply Unrestored_r. exact (HL rd c' d Hin Hi). }
  apply ly_note. cbn [important r_level app].
  eapply ly_lift_seq; [apply socket_write_all_yields| | |].
  2: { intros x1 [_ []]. }
  2: { intros x1 _. apply ST_stop. }
  intros r1 x1 _. eapply ly_lift_seq; [apply socket_write_all_yields| | |].
  2: { intros x2 [_ []]. }
  2: { intros x2 _. apply ST_stop. }
  intros r2 x2 _.
  assert (Hd : forall rest, answered d (es ++ ws ++ fs ++ rs ++ rest)).
  { intros rest. destruct Hr as (e1 & ev & e2 & -> & _ & _ & Hi & _). exists ev, c. split; [|exact Hi].
    rewrite !in_app_iff. cbn. tauto. }
  set (response := match d with b :: _ => b | [] => "n"%byte end).
  assert (Ha : byte_eqb response "y" || byte_eqb response "Y" = true <-> approves d).
  { unfold response, approves. rewrite orb_true_iff, !byte_eqb_eq.
    destruct (read1_data _ _ _ Hr) as [->|[b ->]].
    - split; [intros [H|H]; discriminate|intros [H|H]; discriminate].
    - split; [intros [->| ->]; auto|intros [H|H]; injection H as ->; auto]. }
  destruct (byte_eqb response "y" || byte_eqb response "Y").
  - apply ly_note, ly_ret. cbn [important r_level app]. eapply ST_yes; [apply Ha; reflexivity|apply Hd].
  - apply ly_note, ly_ret. cbn [important r_level app]. eapply ST_no; [intros H; apply Ha in H; discriminate|apply Hd].
Qed.

(** *** A whole opening by the plugin *)
Inductive TrailT (pl : platform) (e : io_env) : list bytes -> outcome (result sudo_pair pair_error) -> list event -> Prop :=
| TT_debug : is_exempt (pair0 e) pl = None -> TrailT pl e [] Panicked []
| TT_exempt : is_exempt (pair0 e) pl = Some true -> TrailT pl e [EXEMPT] (Done (Ok (pair0 e))) []
| TT_both : is_exempt (pair0 e) pl = Some false -> TrailT pl e [REQUIRED; BOTH] (Done (Err SudoToUserAndGroup)) []
| TT_panic ms evs : is_exempt (pair0 e) pl = Some false -> (forall d, ~ answered d evs) -> ms = [REQUIRED] \/ ms = [REQUIRED; WAITING] ->
    (ms = [REQUIRED] -> Only LocalPrompt evs) -> TrailT pl e ms Panicked evs
| TT_stop ms evs : is_exempt (pair0 e) pl = Some false ->
    ms = [REQUIRED] \/ ms = [REQUIRED; WAITING] \/ ms = [REQUIRED; WAITING; CONNECTED] ->
    (ms = [REQUIRED] -> Only LocalPrompt evs) -> TrailT pl e ms Stopped evs
| TT_conn evs : is_exempt (pair0 e) pl = Some false -> (forall d, ~ answered d evs) ->
    TrailT pl e [REQUIRED; WAITING] (Done (Err CommunicationError)) evs
| TT_talk evs er : is_exempt (pair0 e) pl = Some false -> (forall d, answered d evs -> Unrestored evs) ->
    TrailT pl e [REQUIRED; WAITING; CONNECTED] (Done (Err er)) evs
| TT_no d o evs : is_exempt (pair0 e) pl = Some false -> answered d evs -> ~ approves d ->
    o = Stopped \/ o = Done (Err SessionDeclined) -> TrailT pl e [REQUIRED; WAITING; CONNECTED; DECLINED] o evs
| TT_yes c evs : is_exempt (pair0 e) pl = Some false ->
    TrailT pl e [REQUIRED; WAITING; CONNECTED; APPROVED; STARTED] (Done (Ok (with_conn e c))) evs.

Lemma connect_yields pl e : yields (pl_euid pl) (remote_pair_connect pl (pair0 e)) (fun o evs => (forall d, ~ answered d evs) /\
  match o with
  | Done (Ok p) => exists c, p = with_conn e c
  | Done (Err er) => er = CommunicationError
  | _ => True
  end).
Proof.
  unfold remote_pair_connect. cbn [pair0 sp_socket]. fold (pair0 e). destruct (socket_mode (pair0 e)) as [mode|].
  2: { apply yields_panic'. split; [|exact I]. intros d (rd & c & [] & _). }
  assert (N : forall o evs, OpenT (pl_euid pl) (socket_path (pair0 e)) (socket_uid (pair0 e)) (socket_gid (pair0 e)) mode o evs -> forall d, ~ answered d evs).
  { intros o evs H d. apply OpenT_calls in H. apply (Only_reads SocketCall); [exact H|]. intros c F. exact F. }
  eapply yields_seq; [apply socket_open_yields| | |].
  - intros [c|er] evs H; apply yields_ret'; rewrite app_nil_r; (split; [eapply N; exact H|]); [|reflexivity].
    exists c. reflexivity.
  - intros evs H. split; [eapply N; exact H|exact I].
  - intros evs H. split; [eapply N; exact H|exact I].
Qed.

Lemma ly_panic {A} euid (R : list bytes -> outcome A -> list event -> Prop) : R [] Panicked [] -> lyields euid (lift panic) R.
Proof. intros H w l o w' E. injection E as <- <- <-. exists []. split; [apply Ran_refl|exact H]. Qed.

Lemma ly_connect pl e : lyields (pl_euid pl) (lremote_pair_connect mx pl (pair0 e)) (fun ms o evs => (forall d, ~ answered d evs) /\
  match o with
  | Done (Ok p) => ms = [WAITING; CONNECTED] /\ exists c, p = with_conn e c
  | Done (Err er) => ms = [WAITING] /\ er = CommunicationError
  | Panicked => ms = [] /\ evs = [] \/ ms = [WAITING]
  | Stopped => ms = [WAITING]
  end).
Proof.
  unfold lremote_pair_connect. cbn [pair0 sp_socket]. fold (pair0 e).
  assert (N : forall d, ~ answered d []) by (intros d (rd & c & [] & _)).
  assert (K : lyields (pl_euid pl) (lbind (note (sp_env (pair0 e)) LInfo (B "socket waiting for pair to connect...") [(B "socket_path", VLossy (socket_path (pair0 e)))]) (fun _ =>
        lbind (lift (remote_pair_connect pl (pair0 e))) (fun r => match r with
        | Err er => lret (Err er)
        | Ok s' => lbind (note (sp_env (pair0 e)) LInfo (B "socket connected") [(B "socket_path", VLossy (socket_path (pair0 e)))]) (fun _ => lret (Ok s'))
        end))) (fun ms o evs => (forall d, ~ answered d evs) /\
      match o with
      | Done (Ok p) => ms = [WAITING; CONNECTED] /\ exists c, p = with_conn e c
      | Done (Err er) => ms = [WAITING] /\ er = CommunicationError
      | Panicked => ms = [WAITING]
      | Stopped => ms = [WAITING]
      end)).
  { apply ly_note. cbn [important r_level app]. eapply ly_lift_seq; [apply connect_yields| | |].
    - intros [p|er] evs [H1 H2].
      + apply ly_note, ly_ret. cbn [important r_level app]. rewrite app_nil_r. split; [exact H1|]. split; [reflexivity|exact H2].
      + apply ly_ret. rewrite app_nil_r. split; [exact H1|]. split; [reflexivity|exact H2].
    - intros evs [H1 _]. split; [exact H1|reflexivity].
    - intros evs [H1 _]. split; [exact H1|reflexivity]. }
  eapply ly_seq with (Q := fun ms o evs => ms = [] /\ evs = [] /\ o <> Stopped).
  - destruct (kept mx LDebug); [|apply ly_ret; repeat split; discriminate].
    destruct (socket_mode (pair0 e)) as [m|]; cbn [or_panic].
    + eapply ly_seq with (Q := fun ms o evs => ms = [] /\ evs = [] /\ o = Done m).
      * apply ly_ret. auto.
      * intros a m1 e1 (-> & -> & _). intros w l o w' E. injection E as <- <- <-. exists []. split; [apply Ran_refl|]. repeat split; discriminate.
      * intros m1 e1 (_ & _ & H). discriminate.
      * intros m1 e1 (_ & _ & H). discriminate.
    + eapply ly_seq with (Q := fun ms o evs => ms = [] /\ evs = [] /\ o = Panicked).
      * apply ly_panic. auto.
      * intros a m1 e1 (_ & _ & H). discriminate.
      * intros m1 e1 (-> & -> & _). repeat split; discriminate.
      * intros m1 e1 (_ & _ & H). discriminate.
  - intros u m1 e1 (-> & -> & _). eapply ly_weaken; [exact K|]. intros ms [[p|er]| |] evs [H1 H2]; cbn [app]; auto.
  - intros m1 e1 (-> & -> & _). split; [exact N|]. auto.
  - intros m1 e1 (_ & _ & H). destruct (H eq_refl).
Qed.

Lemma ly_local euid s sp : lyields euid (llocal_pair_prompt s sp) (fun ms o evs => ms = [] /\ Only LocalPrompt evs).
Proof.
  intros w l o w' E. pose proof (runs_local s sp w) as H. rewrite E in H. cbn in H.
  symmetry in H. destruct (local_yields euid s sp _ _ _ H) as (evs & R & HL). exists evs. split; [exact R|].
  split; [|eapply LocalT_calls; exact HL].
  clear H R HL. unfold llocal_pair_prompt, lbind, note, say, lift in E.
  destruct (load_template _ _ w) as [[t| |] w1]; [|injection E as <- <- <-; reflexivity|injection E as <- <- <-; reflexivity].
  destruct (print_local s (expand sp t) w1) as [[u| |] w2]; injection E as <- <- <-; reflexivity.
Qed.

Lemma ly_unwind0 {A} euid (m : L A) s Q : sp_socket s = None -> lyields euid m Q -> lyields euid (lunwind m (lpair_drop s)) Q.
Proof.
  intros Es H w l o w' E. unfold lunwind in E. destruct (m w) as [l1 [[a| |] w1]] eqn:Em.
  - injection E as <- <- <-. exact (H _ _ _ _ Em).
  - unfold lpair_drop, lbind, note, say, lift, pair_drop, ret in E. rewrite Es in E. injection E as <- <- <-.
    destruct (H _ _ _ _ Em) as (evs & R & HQ). exists evs. split; [exact R|]. rewrite messages_app. cbn. rewrite app_nil_r. exact HQ.
  - injection E as <- <- <-. exact (H _ _ _ _ Em).
Qed.

Lemma ly_drop0 {C} euid s (f : unit -> L C) Q : sp_socket s = None -> lyields euid (f tt) Q -> lyields euid (lbind (lpair_drop s) f) Q.
Proof.
  intros Es H w l o w' E. unfold lbind, lpair_drop, lbind, note, say, lift, pair_drop, ret in E. rewrite Es in E. cbn in E.
  destruct (f tt w) as [l2 [o2 w2]] eqn:Ef. injection E as <- <- <-. exact (H _ _ _ _ Ef).
Qed.

Lemma reads_answered d evs : answered d evs -> reads evs <> [].
Proof.
  intros (rd & c & Hin & Hc & _) H. assert (K : In rd (reads evs)) by (apply filter_In; split; [exact Hin|unfold is_read; rewrite Hc; reflexivity]).
  rewrite H in K. exact K.
Qed.

Lemma ly_open pl e : lyields (pl_euid pl) (lpair_open mx pl e) (TrailT pl e).
Proof.
  unfold lpair_open. fold (pair0 e). intros w l o w' E. unfold lbind at 1, say in E.
  match goal with H : (let '(_, _) := ?m w in _) = _ |- _ => destruct (m w) as [l2 [o2 w2]] eqn:E2 end.
  injection E as <- <- <-. change (messages ([_] ++ l2)) with (messages l2). revert w l2 o2 w2 E2.
  match goal with |- context [forall w l2 o2 w2, ?m w = _ -> _] => change (lyields (pl_euid pl) m (TrailT pl e)) end.
  apply ly_note. cbn [important r_level app].
  assert (NL : forall evs, Only LocalPrompt evs -> forall d, ~ answered d evs).
  { intros evs H d. apply (Only_reads LocalPrompt); [exact H|intros c F; exact F]. }
  eapply ly_seq; [apply ly_unwind0; [reflexivity|apply ly_exempt]| | |].
  2: { intros m1 e1 (-> & -> & He). apply TT_debug. exact He. }
  2: { intros m1 e1 (_ & _ & []). }
  intros b m1 e1 (-> & -> & He). cbn [app]. destruct b.
  { apply ly_note, ly_ret. apply TT_exempt. exact He. }
  apply ly_note. cbn [important r_level app]. destruct (is_sudoing_to_user_and_group (pair0 e)).
  { apply ly_note. cbn [important r_level app]. apply ly_drop0; [reflexivity|]. apply ly_ret. apply TT_both. exact He. }
  eapply ly_seq; [apply ly_unwind0; [reflexivity|apply ly_local]| | |].
  2: { intros m1 e1 [-> N1]. apply TT_panic; [exact He|apply NL; exact N1|left; reflexivity|intros _; exact N1]. }
  2: { intros m1 e1 [-> N1]. apply TT_stop; [exact He|left; reflexivity|intros _; exact N1]. }
  intros u m1 ls [-> NP]. pose proof (NL ls NP) as N1. cbn [app].
  assert (NA : forall a b, (forall d, ~ answered d a) -> (forall d, ~ answered d b) -> forall d, ~ answered d (a ++ b)).
  { intros a b Ha Hb d H. apply answered_app in H as [H|H]; [exact (Ha d H)|exact (Hb d H)]. }
  eapply ly_seq; [apply ly_unwind0; [reflexivity|apply ly_connect]| | |].
  2: { cbn. intros m1 os [N2 [[-> ->] | ->]]; (apply TT_panic; [exact He|apply NA; assumption|auto|]); [intros _; rewrite app_nil_r; exact NP|discriminate]. }
  2: { cbn. intros m1 os [N2 ->]. apply TT_stop; [exact He|auto|discriminate]. }
  intros [p|er] m1 os; cbn beta iota; intros [N2 HM].
  2: { destruct HM as [-> ->]. cbn [app]. apply ly_drop0; [reflexivity|]. apply ly_ret. rewrite app_nil_r. apply TT_conn; [exact He|]. apply NA; assumption. }
  destruct HM as (-> & c & ->). cbn [app].
  eapply ly_seq; [eapply ly_unwind; [apply ly_remote with (c := c); reflexivity|apply ly_drop]| | |].
  2: { cbn. intros m1 e1 (e2 & e3 & _ & H). inversion H. }
  2: { cbn. intros m1 e1 [H|(e2 & e3 & _ & H)]; inversion H. apply TT_stop; [exact He|auto|discriminate]. }
  intros r m1 rs; cbn beta iota. intros H. inversion H as [evs d Ha Hd|evs d Ha Hd|evs er Hd|]; subst; clear H.
  - apply ly_note, ly_ret. apply (TT_yes _ _ c). exact He.
  - cbn [app]. eapply ly_seq; [apply ly_drop| | |].
    + intros u' m1 ds (-> & _ & R). cbn [app]. apply ly_ret. eapply TT_no; [exact He| |exact Ha|auto].
      rewrite app_nil_r. rewrite !answered_app. tauto.
    + intros m1 ds (_ & [H|H] & _); discriminate.
    + intros m1 ds (-> & _ & R). cbn [app]. eapply TT_no; [exact He| |exact Ha|auto]. rewrite !answered_app. tauto.
  - cbn [app]. eapply ly_seq; [apply ly_drop| | |].
    + intros u' m1 ds (-> & _ & R). cbn [app]. apply ly_ret. apply TT_talk; [exact He|]. rewrite app_nil_r. intros d H.
      rewrite !answered_app in H. destruct H as [H|[H|[H|H]]]; [destruct (N1 d H)|destruct (N2 d H)| |destruct (reads_answered _ _ H R)].
      apply Unrestored_r, Unrestored_r, Unrestored_l. exact (Hd d H).
    + intros m1 ds (_ & [H|H] & _); discriminate.
    + intros m1 ds (-> & _ & R). cbn [app]. apply TT_stop; [exact He|auto|discriminate].
Qed.

(** ** A whole opening by sudo *)

Lemma reported_local a d r es : reported a d r es -> Only LocalPrompt es.
Proof.
  intros H. apply reported_text in H as [H _]. eapply Forall_impl; [|exact H]. intros ev [x Hx]. cbn. rewrite Hx. exact I.
Qed.

Lemma local_reads es : Only LocalPrompt es -> reads es = [].
Proof.
  induction 1 as [|ev es Hc _ IH]; [reflexivity|]. unfold reads. cbn [filter]. unfold is_read at 1.
  destruct (e_call ev); try exact IH. destruct Hc.
Qed.

Lemma reads_none d evs : reads evs = [] -> ~ answered d evs.
Proof. intros H A. exact (reads_answered _ _ A H). Qed.

Section Told.
Variables (pl : platform) (a : open_args) (rq : request).
Hypothesis D : Describes pl a rq.
Hypothesis NC : rq_command rq <> [].

Lemma opening_told w o w' evs : core_open SudoPair pl a (pstate0 _) w = (o, w') -> w_trace w' = w_trace w ++ evs ->
  (open_records mx pl a w = [] /\ Only LocalPrompt evs /\ (o = Stopped \/ exists st', o = Done (-1, st')))
  \/ exists e po e1 e2, Matches e rq /\ TrailT pl e (messages (open_records mx pl a w)) po e1
     /\ evs = e1 ++ e2 /\ Only LocalPrompt e2
     /\ match po with
        | Done (Ok p) => o = Done (1, ps e (Some p))
        | Done (Err _) => o = Stopped \/ o = Done (-1, ps e None)
        | Panicked => o = Done (-1, ps e None)
        | Stopped => o = Stopped
        end.
Proof.
  intros H T. cbn [callback_records]. change (pg_name SudoPair) with (B "sudo_pair"). change (pg_version SudoPair) with (B "1.2.0").
  destruct (io_env_new pl (B "sudo_pair") (B "1.2.0") a) as [[e|er]|] eqn:Ee.
  - right. pose proof (env_Matches _ _ _ _ _ _ D Ee) as M. cbn [pstate0 st_env st_plugin].
    destruct (path_eqb (ci_command (en_command_info e)) []) eqn:Ec.
    { apply path_eqb_nil in Ec. rewrite (m_command _ _ M) in Ec. contradiction. }
    destruct (lpair_open mx pl e w) as [l [po w1]] eqn:El. destruct (ly_open pl e _ _ _ _ El) as (e1 & R1 & HT).
    pose proof (runs_open pl e w) as HR. rewrite El in HR. cbn in HR. symmetry in HR.
    exists e, po.
    unfold core_open in H. change (pg_name SudoPair) with (B "sudo_pair") in H. change (pg_version SudoPair) with (B "1.2.0") in H.
    unfold pf_new in H. change (mkPf (oa_printf a) LEVEL_ERROR (B "sudo_pair" ++ B ": ")) with (stderr_of a) in H.
    rewrite Ee in H. cbn [pstate0 st_env st_plugin] in H. rewrite Ec in H.
    cbn [pg_open SudoPair pg_display pg_source pg_open_status pg_drop pg_error pg_state] in H.
    unfold bind at 1, catch at 1 in H. unfold bind at 1 in H. rewrite HR in H.
    destruct po as [[p|er]| |].
    + cbn in H. injection H as <- <-. exists e1, []. split; [exact M|]. split; [exact HT|].
      split; [rewrite app_nil_r; exact (Ran_given _ _ _ _ _ R1 T)|]. split; [constructor|reflexivity].
    + unfold bind at 1 in H. destruct (write_error (stderr_of a) (display_pair_error er) None w1) as [r w2] eqn:Ew.
      destruct (reported_yields (pl_euid pl) a _ _ _ _ Ew) as (e2 & R2 & Hrep). exists e1, e2.
      assert (Hw : w' = w2 /\ (o = Stopped \/ o = Done (-1, ps e None))).
      { destruct r as [x| |]; cbn in H; injection H as <- <-; auto. }
      destruct Hw as [-> Ho]. split; [exact M|]. split; [exact HT|].
      split; [exact (Ran_given _ _ _ _ _ (Ran_trans _ _ _ _ _ _ R1 R2) T)|].
      split; [eapply reported_local; exact Hrep|exact Ho].
    + cbn in H. injection H as <- <-. exists e1, []. split; [exact M|]. split; [exact HT|].
      split; [rewrite app_nil_r; exact (Ran_given _ _ _ _ _ R1 T)|]. split; [constructor|reflexivity].
    + cbn in H. injection H as <- <-. exists e1, []. split; [exact M|]. split; [exact HT|].
      split; [rewrite app_nil_r; exact (Ran_given _ _ _ _ _ R1 T)|]. split; [constructor|reflexivity].
  - left. split; [reflexivity|]. destruct (core_open_yields pl a _ _ _ _ H) as (evs' & R & HC).
    pose proof (Ran_given _ _ _ _ _ R T) as ->. inversion HC as [E|er' ps' r E [_ Hr]|er' ps' E Hr|e' e o' es E]; subst; try congruence.
    + split; [eapply reported_local; exact Hr|eauto].
    + split; [eapply reported_local; exact Hr|eauto].
  - left. split; [reflexivity|]. destruct (core_open_yields pl a _ _ _ _ H) as (evs' & R & HC).
    pose proof (Ran_given _ _ _ _ _ R T) as ->. inversion HC as [E|er' ps' r E [_ Hr]|er' ps' E Hr|e' e o' es E]; subst; try congruence.
    split; [constructor|eauto].
Qed.

Lemma open_trace w o w' : core_open SudoPair pl a (pstate0 _) w = (o, w') -> exists evs, w_trace w' = w_trace w ++ evs.
Proof. intros H. destruct (core_open_yields pl a _ _ _ _ H) as (evs & R & _). exists evs. exact (Ran_trace _ _ _ _ R). Qed.

Lemma exempt_rq e b : Matches e rq -> is_exempt (pair0 e) pl = Some b -> (b = true <-> Exempt rq).
Proof. intros M. apply (is_exempt_sound e rq pl M). Qed.

(** What is recorded is the beginning of a story. *)
Lemma trail_story w : exists s, Story s /\ exists rest, s = messages (open_records mx pl a w) ++ rest.
Proof.
  destruct (core_open SudoPair pl a (pstate0 _) w) as [o w'] eqn:H. destruct (open_trace _ _ _ H) as [evs T].
  destruct (opening_told _ _ _ _ H T) as [[-> _]|(e & po & e1 & e2 & _ & HT & _)]; [exists [EXEMPT]; split; [constructor|exists [EXEMPT]; reflexivity]|].
  remember (messages (open_records mx pl a w)) as m eqn:Em. clear Em.
  inversion HT as [X|X|X|ms ev X XN Hm|ms ev X Hm|ev X|ev er X|d o' ev X A N O|c ev X]; subst.
  - exists [EXEMPT]. split; [constructor|]. exists [EXEMPT]. reflexivity.
  - exists [EXEMPT]. split; [constructor|]. exists []. reflexivity.
  - exists [REQUIRED; BOTH]. split; [constructor|]. exists []. reflexivity.
  - exists [REQUIRED; WAITING; CONNECTED; DECLINED]. split; [constructor|]. destruct Hm as [-> | ->]; eexists; reflexivity.
  - exists [REQUIRED; WAITING; CONNECTED; DECLINED]. split; [constructor|]. destruct Hm as [-> |[-> | ->]]; eexists; reflexivity.
  - exists [REQUIRED; WAITING; CONNECTED; DECLINED]. split; [constructor|]. eexists; reflexivity.
  - exists [REQUIRED; WAITING; CONNECTED; DECLINED]. split; [constructor|]. eexists; reflexivity.
  - exists [REQUIRED; WAITING; CONNECTED; DECLINED]. split; [constructor|]. exists []. reflexivity.
  - exists [REQUIRED; WAITING; CONNECTED; APPROVED; STARTED]. split; [constructor|]. exists []. reflexivity.
Qed.

(** An accepted opening. *)
Lemma trail_accepted w st' w' : core_open SudoPair pl a (pstate0 _) w = (Done (1, st'), w') ->
  (Exempt rq -> messages (open_records mx pl a w) = [EXEMPT])
  /\ (~ Exempt rq -> messages (open_records mx pl a w) = [REQUIRED; WAITING; CONNECTED; APPROVED; STARTED]).
Proof.
  intros H. destruct (open_trace _ _ _ H) as [evs T].
  destruct (opening_told _ _ _ _ H T) as [(_ & _ & [X|[s X]])|(e & po & e1 & e2 & M & HT & _ & _ & Ho)]; try discriminate.
  remember (messages (open_records mx pl a w)) as m eqn:Em. clear Em.
  inversion HT as [X|X|X|ms ev X XN Hm|ms ev X Hm|ev X|ev er X|d o ev X A N O|c ev X]; subst; try discriminate;
    pose proof (exempt_rq _ _ M X) as Hx.
  - split; [reflexivity|]. intros N. destruct (N (proj1 Hx eq_refl)).
  - destruct Ho; discriminate.
  - destruct Ho; discriminate.
  - destruct Ho; discriminate.
  - destruct O as [-> | ->]; [discriminate|destruct Ho; discriminate].
  - split; [|reflexivity]. intros E. apply Hx in E. discriminate.
Qed.

(** An approval that is recorded took place, and the session has started. *)
Lemma trail_approved w o w' evs : core_open SudoPair pl a (pstate0 _) w = (o, w') -> w_trace w' = w_trace w ++ evs ->
  In APPROVED (messages (open_records mx pl a w)) \/ In STARTED (messages (open_records mx pl a w)) ->
  (exists st', o = Done (1, st')) /\ exists c, Approved rq c evs.
Proof.
  intros H T HA. destruct (opening_told _ _ _ _ H T) as [[E _]|(e & po & e1 & e2 & M & HT & -> & _ & Ho)].
  { rewrite E in HA. destruct HA as [[]|[]]. }
  remember (messages (open_records mx pl a w)) as m eqn:Em. clear Em.
  assert (K : exists c, po = Done (Ok (with_conn e c)) /\ is_exempt (pair0 e) pl = Some false).
  { destruct HA as [HA|HA]; inversion HT as [X|X|X|ms ev X XN Hm|ms ev X Hm|ev X|ev er X|d o' ev X A N O|c ev X]; subst;
    try (exists c; split; [reflexivity|exact X]); exfalso;
    repeat match goal with H : _ \/ _ |- _ => destruct H as [H|H]; subst; cbn in HA end; cbn in HA;
    repeat match goal with H : _ \/ _ |- _ => destruct H as [H|H] end; try discriminate; try contradiction. }
  destruct K as (c & -> & X). split; [eauto|]. subst o.
  refine (approval_needed pl a rq w _ w' _ D _ NC H T). intros E. apply (exempt_rq _ _ M X) in E. discriminate.
Qed.

(** A refusal by the pair. *)
Lemma trail_declined w o w' evs : core_open SudoPair pl a (pstate0 _) w = (o, w') -> w_trace w' = w_trace w ++ evs ->
  In DECLINED (messages (open_records mx pl a w)) ->
  (o = Stopped \/ exists st', o = Done (-1, st'))
  /\ exists d, answered d evs /\ d <> B "y" /\ d <> B "Y".
Proof.
  intros H T HA. destruct (opening_told _ _ _ _ H T) as [[E _]|(e & po & e1 & e2 & M & HT & -> & _ & Ho)].
  { rewrite E in HA. destruct HA. }
  remember (messages (open_records mx pl a w)) as m eqn:Em. clear Em.
  assert (K : exists d, answered d e1 /\ ~ approves d /\ (po = Stopped \/ po = Done (Err SessionDeclined))).
  { inversion HT as [X|X|X|ms ev X XN Hm|ms ev X Hm|ev X|ev er X|d o' ev X A N O|c ev X]; subst;
    try (exists d; auto; fail); exfalso;
    repeat match goal with H : _ \/ _ |- _ => destruct H as [H|H]; subst; cbn in HA end; cbn in HA;
    repeat match goal with H : _ \/ _ |- _ => destruct H as [H|H] end; try discriminate; try contradiction. }
  destruct K as (d & A & N & O). split; [destruct O as [-> | ->]; [auto|destruct Ho as [-> | ->]; eauto]|].
  exists d. split; [apply answered_app; auto|]. split; intros ->; apply N; [left|right]; reflexivity.
Qed.

(** Conversely, an answer that is not a yes is recorded, unless the disposition
    of SIGINT could not be put back after it was read. *)
Lemma trail_answered w z st' w' evs d : core_open SudoPair pl a (pstate0 _) w = (Done (z, st'), w') -> w_trace w' = w_trace w ++ evs ->
  answered d evs -> d <> B "y" -> d <> B "Y" ->
  messages (open_records mx pl a w) = [REQUIRED; WAITING; CONNECTED; DECLINED] \/ Unrestored evs.
Proof.
  intros H T A N1 N2. destruct (opening_told _ _ _ _ H T) as [(_ & R & _)|(e & po & e1 & e2 & M & HT & -> & R2 & Ho)].
  { destruct (reads_none d _ (local_reads _ R) A). }
  apply answered_app in A as [A|A]; [|destruct (reads_none d _ (local_reads _ R2) A)].
  remember (messages (open_records mx pl a w)) as m eqn:Em. clear Em.
  inversion HT as [X|X|X|ms ev X XN Hm|ms ev X Hm|ev X NA|ev er X U|d' o' ev X A' N O|c ev X]; subst; auto.
  - destruct (reads_none d [] eq_refl A).
  - destruct (reads_none d [] eq_refl A).
  - destruct (reads_none d [] eq_refl A).
  - destruct (XN d A).
  - discriminate.
  - destruct (NA d A).
  - right. apply Unrestored_l. exact (U d A).
  - injection Ho as -> ->. exfalso. destruct A as (rd & c' & Hin & Hi).
    destruct (other_answers_refuse pl a rq w 1 _ w' _ rd c' D H T) as [F _]; try discriminate.
    + apply in_or_app. left. exact Hin.
    + exact (proj1 Hi).
    + rewrite (proj2 Hi). intros F. injection F as ->. contradiction.
    + rewrite (proj2 Hi). intros F. injection F as ->. contradiction.
Qed.
(** Whatever is done beyond telling the user is done on record. *)
Lemma trail_waiting w o w' evs ev : core_open SudoPair pl a (pstate0 _) w = (o, w') -> w_trace w' = w_trace w ++ evs ->
  In ev evs -> ~ LocalPrompt (e_call ev) -> In WAITING (messages (open_records mx pl a w)).
Proof.
  intros H T Hin HN. destruct (opening_told _ _ _ _ H T) as [(_ & R & _)|(e & po & e1 & e2 & M & HT & -> & R2 & Ho)].
  { unfold Only in R. rewrite Forall_forall in R. destruct (HN (R ev Hin)). }
  apply in_app_or in Hin as [Hin|Hin]; [|unfold Only in R2; rewrite Forall_forall in R2; destruct (HN (R2 ev Hin))].
  remember (messages (open_records mx pl a w)) as m eqn:Em. clear Em.
  assert (K : Only LocalPrompt e1 -> In WAITING m) by (unfold Only; rewrite Forall_forall; intros F; destruct (HN (F ev Hin))).
  inversion HT as [X|X|X|ms es X XN Hm HL|ms es X Hm HL|es X NA|es er X U|d' o' es X A' N O|c es X]; subst; try destruct Hin; try (cbn; tauto).
  - destruct Hm as [-> | ->]; [apply K, HL; reflexivity|cbn; tauto].
  - destruct Hm as [-> |[-> | ->]]; [apply K, HL; reflexivity|cbn; tauto|cbn; tauto].
Qed.
End Told.

(** ** What the records say *)
Definition makes {A} (P : record -> Prop) (m : L A) : Prop := forall w, Forall P (fst (m w)).

Lemma makes_lift {A} P (m : M A) : makes P (lift m).
Proof. intros w. constructor. Qed.

Lemma makes_lbind {A C} P (m : L A) (f : A -> L C) : makes P m -> (forall a, makes P (f a)) -> makes P (lbind m f).
Proof.
  intros H1 H2 w. unfold lbind. specialize (H1 w). destruct (m w) as [l [[a| |] w1]]; cbn in *; try exact H1.
  specialize (H2 a w1). destruct (f a w1). cbn in *. apply Forall_app. auto.
Qed.

Lemma makes_unwind {A} P (m : L A) c : makes P m -> makes P c -> makes P (lunwind m c).
Proof.
  intros H1 H2 w. unfold lunwind. specialize (H1 w). destruct (m w) as [l [[a| |] w1]]; cbn in *; try exact H1.
  specialize (H2 w1). destruct (c w1) as [l' [[x| |] w2]]; cbn in *; apply Forall_app; auto.
Qed.

Lemma makes_or_panic {A} P (o : panics A) : makes P (or_panic o).
Proof. destruct o; apply makes_lift. Qed.

Definition identifies (rq : request) (r : record) : Prop := important r = true -> Identifies rq r.

Lemma makes_note e rq lv msg vs : Matches e rq -> makes (identifies rq) (note e lv msg vs).
Proof.
  intros M w. constructor; [|constructor]. intros _. unfold Identifies. cbn [r_values].
  rewrite <- (m_uid _ _ M), <- (m_to_uid _ _ M), <- (m_to_gid _ _ M), <- (m_command _ _ M), <- (m_args _ _ M).
  unfold context, root_values. repeat split; apply in_or_app; right; cbn; tauto.
Qed.

Ltac makes M := repeat first
  [ apply makes_note; exact M
  | apply makes_lift
  | apply makes_or_panic
  | apply makes_unwind
  | apply makes_lbind; [|intros ?]
  | match goal with |- makes _ (match ?x with _ => _ end) => destruct x end
  | match goal with |- makes _ (if ?x then _ else _) => destruct x end ].

Lemma makes_exempt pl s rq : Matches (sp_env s) rq -> makes (identifies rq) (lis_exempt pl s).
Proof. intros M. unfold lis_exempt, lret. makes M. Qed.

Lemma makes_drop s rq : Matches (sp_env s) rq -> makes (identifies rq) (lpair_drop s).
Proof. intros M. unfold lpair_drop. makes M. Qed.

Lemma makes_remote s sp rq : Matches (sp_env s) rq -> makes (identifies rq) (lremote_pair_prompt s sp).
Proof. intros M. unfold lremote_pair_prompt, lret. makes M. Qed.

Lemma makes_local s sp rq : Matches (sp_env s) rq -> makes (identifies rq) (llocal_pair_prompt s sp).
Proof. intros M. unfold llocal_pair_prompt, lret. makes M. Qed.

Lemma makes_connect pl s rq : Matches (sp_env s) rq -> makes (identifies rq) (lremote_pair_connect mx pl s).
Proof. intros M. unfold lremote_pair_connect, lret. makes M. Qed.

Lemma connect_env pl s w p w' : remote_pair_connect pl s w = (Done (Ok p), w') -> sp_env p = sp_env s.
Proof.
  unfold remote_pair_connect. destruct (sp_socket s); [intros H; injection H as <- _; reflexivity|].
  destruct (socket_mode s); [|discriminate]. unfold bind. destruct (socket_open _ _ _ _ _ w) as [[[c|er]| |] w1]; try discriminate.
  intros H. injection H as <- _. reflexivity.
Qed.

Lemma makes_open pl e rq : Matches e rq -> makes (identifies rq) (lpair_open mx pl e).
Proof.
  intros M. unfold lpair_open. apply makes_lbind; [intros w; constructor; [discriminate|constructor]|intros _].
  apply makes_lbind; [apply makes_note; exact M|intros _]. fold (pair0 e).
  apply makes_lbind; [apply makes_unwind; [apply makes_exempt|apply makes_drop]; exact M|intros [|]].
  { unfold lret. makes M. }
  apply makes_lbind; [apply makes_note; exact M|intros _]. destruct (is_sudoing_to_user_and_group (pair0 e)).
  { apply makes_lbind; [apply makes_note; exact M|intros _]. apply makes_lbind; [apply makes_drop; exact M|intros _; apply makes_lift]. }
  apply makes_lbind; [apply makes_unwind; [apply makes_local|apply makes_drop]; exact M|intros _].
  assert (K : forall p, sp_env p = e -> makes (identifies rq) (lbind (lunwind (lremote_pair_prompt p (template_spec (pair0 e))) (lpair_drop p))
     (fun r => match r with Ok _ => lbind (note e LInfo (B "pair session started") []) (fun _ => lret (Ok p)) | Err er => lbind (lpair_drop p) (fun _ => lret (Err er)) end))).
  { intros p Hp. assert (M' : Matches (sp_env p) rq) by (rewrite Hp; exact M).
    apply makes_lbind; [apply makes_unwind; [apply makes_remote|apply makes_drop]; exact M'|intros [u|er]].
    - unfold lret. makes M.
    - apply makes_lbind; [apply makes_drop; exact M'|intros _; apply makes_lift]. }
  intros w. unfold lbind at 1.
  pose proof (makes_unwind _ _ _ (makes_connect pl (pair0 e) rq M) (makes_drop (pair0 e) rq M) w) as HC.
  pose proof (runs_unwind _ _ _ _ (runs_connect pl (pair0 e) eq_refl) (runs_drop (pair0 e)) w) as HR.
  destruct (lunwind (lremote_pair_connect mx pl (pair0 e)) (lpair_drop (pair0 e)) w) as [l [[[p|er]| |] w1]]; cbn [fst snd] in *; try exact HC.
  - assert (Hp : sp_env p = e).
    { symmetry in HR. unfold unwind_with in HR. destruct (remote_pair_connect pl (pair0 e) w) as [[[p'|er]| |] w2] eqn:E; try discriminate.
      injection HR as <- _. exact (connect_env _ _ _ _ _ E). }
    specialize (K p Hp w1). match goal with |- Forall _ (fst (let '(_, _) := ?x in _)) => destruct x end. cbn in *. apply Forall_app. auto.
  - pose proof (makes_lbind (identifies rq) (lpair_drop (pair0 e)) (fun _ => lret (Err (E:=pair_error) (A:=sudo_pair) er)) (makes_drop (pair0 e) rq M) (fun _ => makes_lift _ _) w1) as K2.
    match goal with |- Forall _ (fst (let '(_, _) := ?x in _)) => destruct x end. cbn in *. apply Forall_app. auto.
Qed.

(** The state of a session for [rq]. *)
Definition Session (rq : request) (st : pstate SudoPair) : Prop :=
  (forall e, st_env st = Some e -> Matches e rq) /\ forall p, st_plugin st = Some p -> Matches (sp_env p) rq.

Lemma makes_later rq pl c st w : Session rq st -> Continues c -> Forall (identifies rq) (callback_records mx pl c st w).
Proof.
  intros [_ S] NO. destruct c as [a|x y|v|s d|l c']; cbn [callback_records].
  - destruct (NO a eq_refl).
  - destruct (st_plugin st) as [p|]; [|constructor]. pose proof (S p eq_refl) as M. unfold lpair_close, lret.
    match goal with |- Forall _ (fst (?m w)) => assert (K : makes (identifies rq) m); [|exact (K w)] end.
    apply makes_lbind; [makes M|intros _]. apply makes_drop. exact M.
  - constructor.
  - destruct (st_env st) as [env|]; [|constructor]. destruct (st_plugin st) as [p|]; [|constructor]. pose proof (S p eq_refl) as M.
    destruct (negb (hint s (en_command_info env))); [constructor|].
    match goal with |- Forall _ (fst (?m w)) => assert (K : makes (identifies rq) m); [|exact (K w)] end.
    unfold lpair_log, llog_output, lret. destruct s; makes M. apply makes_exempt. exact M.
  - destruct (st_env st) as [env|]; [|constructor]. destruct (st_plugin st) as [p|]; [|constructor]. pose proof (S p eq_refl) as M.
    match goal with |- Forall _ (fst (?m w)) => assert (K : makes (identifies rq) m); [|exact (K w)] end.
    unfold lpair_winsize, llog_output, lret. makes M.
Qed.

Lemma Session_next rq pl c st w z st' w' : Session rq st -> Continues c ->
  run_callback SudoPair pl c st w = (Done (z, st'), w') -> Session rq st'.
Proof.
  intros S NO H. destruct c as [a|x y|v|s d|l c']; cbn [run_callback] in H.
  - destruct (NO a eq_refl).
  - unfold bind in H. destruct (core_close SudoPair x y st w) as [[s1| |] w1] eqn:E; try discriminate. injection H as <- <- <-.
    unfold core_close in E. destruct (st_plugin st) as [p|].
    + unfold bind, catch in E. destruct (pg_close SudoPair p x y w) as [[?| |] w2]; try discriminate; injection E as <- <-.
      * split; intros ? X; discriminate X.
      * split; [exact (proj1 S)|intros ? X; discriminate X].
    + injection E as <- <-. split; intros ? X; discriminate X.
  - unfold bind in H. destruct (core_show_version SudoPair v st w) as [[s1| |] w1]; try discriminate. injection H as <- <- <-. exact S.
  - unfold bind in H. destruct (core_log SudoPair pl s d st w) as [[s1| |] w1]; try discriminate. injection H as <- <- <-. exact S.
  - unfold bind in H. destruct (core_change_winsize SudoPair pl l c' st w) as [[s1| |] w1]; try discriminate. injection H as <- <- <-. exact S.
Qed.

Lemma history_identifies rq pl : forall h st w, Session rq st -> Forall Continues h -> Forall (identifies rq) (history_records mx pl h st w).
Proof.
  induction h as [|c h IH]; intros st w S F; [constructor|]. inversion F as [|? ? Hc Hh]; subst. cbn [history_records].
  apply Forall_app. split; [apply makes_later; assumption|].
  destruct (run_callback SudoPair pl c st w) as [[[z st']| |] w'] eqn:E; [|constructor|constructor].
  apply IH; [|exact Hh]. exact (Session_next _ _ _ _ _ _ _ _ S Hc E).
Qed.

Lemma PairT_env pl e p es : PairT pl e (Done (Ok p)) es -> sp_env p = e.
Proof. intros H. inversion H as [| | |o ls es' _ _ HA]; subst; [reflexivity|]. inversion HA; subst. reflexivity. Qed.

Lemma open_Session pl a rq w z st' w' : Describes pl a rq ->
  core_open SudoPair pl a (pstate0 _) w = (Done (z, st'), w') -> Session rq st'.
Proof.
  intros D H. destruct (core_open_yields pl a _ _ _ _ H) as (evs & _ & HC).
  inversion HC as [E|er ps r E Hr| |e' e o es E Ee HR]; subst; try (split; intros ? X; discriminate X).
  pose proof (env_Matches _ _ _ _ _ _ D E) as M. cbn [pstate0 st_env] in HR.
  inversion HR as [| | | | |e1 p es' Hc HP HN|]; subst; try discriminate; split; intros x X; cbn in X; try discriminate X; injection X as <-; try exact M.
  rewrite (PairT_env _ _ _ _ HP). exact M.
Qed.

Lemma identity pl a rq w h r : Describes pl a rq -> Forall Continues h ->
  In r (history_records mx pl (CbOpen a :: h) (pstate0 _) w) -> important r = true -> Identifies rq r.
Proof.
  intros D F Hin Hi. assert (K : Forall (identifies rq) (history_records mx pl (CbOpen a :: h) (pstate0 _) w)).
  { cbn [history_records]. apply Forall_app. split.
    - cbn [callback_records]. destruct (io_env_new pl (pg_name SudoPair) (pg_version SudoPair) a) as [[e|er]|] eqn:Ee; [|constructor|constructor].
      cbn [pstate0 st_env st_plugin]. destruct (path_eqb _ _); [constructor|].
      pose proof (makes_open pl e rq (env_Matches _ _ _ _ _ _ D Ee) w) as K.
      destruct (lpair_open mx pl e w) as [l [[[p|er]| |] w1]]; exact K.
    - destruct (run_callback SudoPair pl (CbOpen a) (pstate0 SudoPair) w) as [[[z st']| |] w'] eqn:E; [|constructor|constructor].
      apply history_identifies; [|exact F]. exact (open_Session _ _ _ _ _ _ _ D E). }
  rewrite Forall_forall in K. exact (K r Hin Hi).
Qed.

(** ** Whole sessions *)
Lemma during_quiet pl c st w : During c -> messages (callback_records mx pl c st w) = [].
Proof.
  assert (KO : forall p d, messages (fst (llog_output p d w)) = []).
  { intros p d. unfold llog_output, lbind, lift. destruct (log_output p d w) as [[[[]|er]| |] w1]; reflexivity. }
  destruct c as [a|x y|v|s d|l c']; intros H; try contradiction; cbn [callback_records]; [reflexivity| |].
  - destruct (st_env st) as [env|]; [|reflexivity]. destruct (st_plugin st) as [p|]; [|reflexivity].
    destruct (negb _); [reflexivity|]. destruct s; cbn [lpair_log]; try apply KO; [reflexivity|].
    unfold lbind at 1. destruct (lis_exempt pl p w) as [l [o w1]] eqn:E. destruct (ly_exempt 0 pl p _ _ _ _ E) as (evs & _ & HM & _).
    destruct o as [[|]| |]; cbn; rewrite ?app_nil_r; exact HM.
  - destruct (st_env st) as [env|]; [|reflexivity]. destruct (st_plugin st) as [p|]; [|reflexivity]. apply KO.
Qed.

Lemma during_state pl c st w z st' w' : During c -> run_callback SudoPair pl c st w = (Done (z, st'), w') -> st' = st.
Proof.
  destruct c as [a|x y|v|s d|l c']; intros H E; try contradiction; cbn [run_callback] in E; unfold bind in E.
  - destruct (core_show_version SudoPair v st w) as [[s1| |] w1]; try discriminate. injection E as _ <- _. reflexivity.
  - destruct (core_log SudoPair pl s d st w) as [[s1| |] w1]; try discriminate. injection E as _ <- _. reflexivity.
  - destruct (core_change_winsize SudoPair pl l c' st w) as [[s1| |] w1]; try discriminate. injection E as _ <- _. reflexivity.
Qed.

Lemma history_ended pl x y : forall h st w zs st' w', Forall During h ->
  run_history SudoPair pl (h ++ [CbClose x y]) st w = (Done (zs, st'), w') ->
  messages (history_records mx pl (h ++ [CbClose x y]) st w)
  = match st_plugin st with Some p => match sp_socket p with Some _ => [ENDED] | None => [] end | None => [] end.
Proof.
  induction h as [|c h IH]; intros st w zs st' w' F H; cbn [app history_records run_history] in *.
  - cbn [callback_records]. unfold bind in H. destruct (run_callback SudoPair pl (CbClose x y) st w) as [[[z st1]| |] w1] eqn:E; try discriminate.
    rewrite app_nil_r. cbn [run_callback] in E. unfold bind, core_close in E. destruct (st_plugin st) as [p|]; [|reflexivity].
    unfold bind, catch in E. cbn [pg_close SudoPair] in E. pose proof (runs_close p w) as R. unfold lpair_close in *.
    destruct (sp_socket p) as [k|]; [|reflexivity]. unfold lbind, note, say, lift in *.
    destruct (socket_close k w) as [[u| |] w2] eqn:EC; cbn in *.
    + destruct (socket_drop k w2) as [[u'| |] w3]; reflexivity.
    + rewrite <- R in E. cbn in E. exfalso. unfold socket_close in EC. revert EC. unfold sys_shutdown, sys. destruct (w_script w) as [|[acts an] rest]; [discriminate|].
      destruct an; cbn; try discriminate.
    + rewrite <- R in E. discriminate.
  - inversion F as [|? ? Hc Hh]; subst. unfold bind in H. destruct (run_callback SudoPair pl c st w) as [[[z st1]| |] w1] eqn:E; try discriminate.
    rewrite messages_app, (during_quiet _ _ _ _ Hc). cbn [app]. pose proof (during_state _ _ _ _ _ _ _ Hc E) as ->.
    destruct (run_history SudoPair pl (h ++ [CbClose x y]) st w1) as [[[zs' st2]| |] w2] eqn:E2; try discriminate.
    exact (IH _ _ _ _ _ Hh E2).
Qed.

(** ** What arrives *)
Lemma kept_important r : kept mx LInfo = true -> important r = true -> kept mx (r_level r) = true.
Proof.
  unfold important, kept. generalize mx. intros m. destruct (r_level r), m; vm_compute; congruence.
Qed.

Lemma recorded_messages s l : kept mx LInfo = true -> discards s = false -> messages (recorded mx s l) = messages l.
Proof.
  intros MX H. unfold recorded, messages. rewrite H. f_equal. induction l as [|r l IH]; [reflexivity|]. cbn.
  destruct (kept mx (r_level r)) eqn:K; cbn; destruct (important r) eqn:I; rewrite ?IH; try reflexivity.
  rewrite (kept_important r MX I) in K. discriminate.
Qed.

Lemma recorded_In s l r : In r (recorded mx s l) -> In r l.
Proof. unfold recorded. destruct (discards s); [intros []|]. intros H. apply filter_In in H. apply H. Qed.

Lemma recorded_message s l m : In m (messages (recorded mx s l)) -> In m (messages l).
Proof.
  unfold messages. rewrite !in_map_iff. intros (r & E & H). exists r. split; [exact E|]. apply filter_In in H as [H I].
  apply filter_In. split; [exact (recorded_In s l r H)|exact I].
Qed.

Lemma session_told pl s a rq x y h w zs st' w' : Describes pl a rq -> rq_command rq <> [] -> kept mx LInfo = true -> discards s = false -> Forall During h ->
  run_history SudoPair pl (CbOpen a :: h ++ [CbClose x y]) (pstate0 _) w = (Done (1 :: zs, st'), w') ->
  (Exempt rq -> messages (recorded mx s (history_records mx pl (CbOpen a :: h ++ [CbClose x y]) (pstate0 _) w)) = [EXEMPT])
  /\ (~ Exempt rq -> messages (recorded mx s (history_records mx pl (CbOpen a :: h ++ [CbClose x y]) (pstate0 _) w))
       = [REQUIRED; WAITING; CONNECTED; APPROVED; STARTED; ENDED]).
Proof.
  intros D NC MX HS F H. rewrite (recorded_messages _ _ MX HS). cbn [run_history history_records] in *. unfold bind in H.
  destruct (run_callback SudoPair pl (CbOpen a) (pstate0 SudoPair) w) as [[[z st1]| |] w1] eqn:E; try discriminate.
  destruct (run_history SudoPair pl (h ++ [CbClose x y]) st1 w1) as [[[zs' st2]| |] w2] eqn:E2; try discriminate.
  assert (z = 1) as -> by (cbn in H; injection H as H _; exact H).
  rewrite messages_app, (history_ended pl x y h st1 w1 _ _ _ F E2). cbn [run_callback] in E.
  destruct (trail_accepted pl a rq D NC w st1 w1 E) as [T1 T2].
  destruct (open_trace pl a w _ _ E) as [evs T].
  destruct (opening_told pl a rq D NC w _ _ _ E T) as [(_ & _ & [X|[s' X]])|(e & po & e1 & e2 & M & HT & _ & _ & Ho)]; try discriminate.
  inversion HT as [X Ems|X Ems|X Ems|ms ev X XN Hm HL Ems|ms ev X Hm HL Ems|ev X XN Ems|ev er X XN Ems|d o ev X A N O Ems|c ev X Ems]; subst po; try discriminate Ho;
    try (destruct Ho; discriminate).
  - injection Ho as ->. cbn [st_plugin ps sp_socket pair0]. rewrite app_nil_r. split; [exact T1|]. intros NE. destruct (NE (proj1 (exempt_rq pl rq _ _ M X) eq_refl)).
  - destruct O as [-> | ->]; [discriminate|destruct Ho; discriminate].
  - injection Ho as ->. cbn [st_plugin ps sp_socket with_conn]. split; [intros EX; apply (exempt_rq pl rq _ _ M X) in EX; discriminate|].
    intros NE. rewrite (T2 NE). reflexivity.
Qed.

(** ** The data of a session *)
Lemma output_unkept s p d w : kept mx LTrace = false -> recorded mx s (fst (llog_output p d w)) = [].
Proof.
  intros MX. unfold recorded. destruct (discards s); [reflexivity|]. unfold llog_output, lbind, lift.
  destruct (log_output p d w) as [[[[]|er]| |] w1]; try reflexivity. cbn. rewrite MX. reflexivity.
Qed.

Lemma exempt_records pl p w w' : fst (lis_exempt pl p w) = fst (lis_exempt pl p w').
Proof.
  unfold lis_exempt, or_panic, lret, lbind, note, say, lift, ret, panic.
  repeat match goal with |- context [match ?x with _ => _ end] =>
    match x with context [match _ with _ => _ end] => fail 1 | _ => destruct x end end; reflexivity.
Qed.

Lemma stdin_records pl p d d' w w' : fst (lpair_log pl Stdin p d w) = fst (lpair_log pl Stdin p d' w').
Proof.
  cbn [lpair_log]. unfold lbind. pose proof (exempt_records pl p w w') as H.
  pose proof (runs_exempt pl p w) as R1. pose proof (runs_exempt pl p w') as R2.
  destruct (lis_exempt pl p w) as [l1 [o1 w1]], (lis_exempt pl p w') as [l2 [o2 w2]]. cbn in H, R1, R2. subst l2.
  unfold as_M in *. destruct (is_exempt p pl) as [[|]|]; injection R1 as -> ->; injection R2 as -> ->; reflexivity.
Qed.

Lemma data_unrecorded pl s t d d' st w w' : kept mx LTrace = false ->
  recorded mx s (callback_records mx pl (CbLog t d) st w) = recorded mx s (callback_records mx pl (CbLog t d') st w').
Proof.
  intros MX. cbn [callback_records]. destruct (st_env st) as [e|]; [|reflexivity]. destruct (st_plugin st) as [p|]; [|reflexivity].
  destruct (negb _); [reflexivity|]. destruct t; cbn [lpair_log]; rewrite ?output_unkept by exact MX; try reflexivity.
  f_equal. exact (stdin_records pl p d d' w w').
Qed.

Lemma output_length p d d' w w' : List.length d = List.length d' ->
  fst (llog_output p d w) = fst (llog_output p d' w') \/ fst (llog_output p d w) = [] \/ fst (llog_output p d' w') = [].
Proof.
  intros H. unfold llog_output, lbind, lift. rewrite H.
  destruct (log_output p d w) as [[[[]|er]| |] w1]; auto; destruct (log_output p d' w') as [[[[]|er']| |] w1']; auto.
Qed.

Lemma data_length pl t d d' st w w' : List.length d = List.length d' ->
  callback_records mx pl (CbLog t d) st w = callback_records mx pl (CbLog t d') st w'
  \/ callback_records mx pl (CbLog t d) st w = [] \/ callback_records mx pl (CbLog t d') st w' = [].
Proof.
  intros H. cbn [callback_records]. destruct (st_env st) as [e|]; auto. destruct (st_plugin st) as [p|]; auto.
  destruct (negb _); auto. destruct t; try (apply output_length; exact H); auto.
  left. exact (stdin_records pl p d d' w w').
Qed.

Lemma runs_winsize pl s x y : runs (lpair_winsize s x y) (pair_winsize pl s x y).
Proof. apply runs_output. Qed.

Lemma ly_close euid p : lyields euid (lpair_close p) (fun ms o evs => In ENDED ms ->
  exists c ev rest, sp_socket p = Some c /\ evs = ev :: rest /\ e_call ev = CShutdown c).
Proof.
  unfold lpair_close. destruct (sp_socket p) as [c|].
  - apply ly_seq with (Q := fun ms o evs => (ms = [] /\ o = Stopped) \/ (ms = [ENDED] /\ exists ev rest, evs = ev :: rest /\ e_call ev = CShutdown c)).
    + apply ly_note. cbn [important r_level app].
      eapply ly_lift_seq; [apply shutdown_spec| | |].
      * intros r e1 H. apply ly_note. cbn [important r_level r_message app].
        eapply ly_weaken; [apply ly_lift; apply drop_yields|]. intros ms o evs [-> _]. right. split; [reflexivity|].
        destruct H as [[H _]|(x & a & k & _ & -> & _)]; [discriminate|]. eexists; eexists. split; reflexivity.
      * intros evs H. destruct H as [[H _]|(x & a & k & H & _)]; discriminate.
      * intros evs _. left. auto.
    + intros u ms e1 [[_ H]|(-> & ev & rest & -> & He)]; [discriminate|].
      eapply ly_weaken; [apply ly_drop|]. intros ms o evs _ _. exists c, ev, (rest ++ evs). auto.
    + intros ms evs [[-> _]|(-> & ev & rest & -> & He)]; [intros []|]. intros _. exists c, ev, rest. auto.
    + intros ms evs [[-> _]|(-> & ev & rest & -> & He)]; [intros []|]. intros _. exists c, ev, rest. auto.
  - apply ly_seq with (Q := fun ms o evs => ms = []); [apply ly_ret; reflexivity| | |].
    + intros u ms e1 ->. eapply ly_weaken; [apply ly_drop|]. intros ms o evs (-> & _) [].
    + intros ms evs -> [].
    + intros ms evs -> [].
Qed.

Lemma ended_closed pl x y st w o w' evs : run_callback SudoPair pl (CbClose x y) st w = (o, w') -> w_trace w' = w_trace w ++ evs ->
  In ENDED (messages (callback_records mx pl (CbClose x y) st w)) ->
  exists p c ev rest, st_plugin st = Some p /\ sp_socket p = Some c /\ evs = ev :: rest /\ e_call ev = CShutdown c.
Proof.
  intros H T HE. cbn [callback_records run_callback] in *. unfold core_close in H. destruct (st_plugin st) as [p|]; [|destruct HE].
  pose proof (runs_close p w) as R. destruct (lpair_close p w) as [l [o1 w1]] eqn:E. cbn [fst snd] in *.
  destruct (ly_close 0 p _ _ _ _ E) as (e1 & RN & Q). destruct (Q HE) as (c & ev & rest & Hs & He & Hc).
  exists p, c, ev, rest. split; [reflexivity|]. split; [exact Hs|]. split; [|exact Hc]. rewrite <- He.
  assert (w' = w1) as ->.
  { unfold bind, catch in H. cbn [pg_close SudoPair] in H. rewrite <- R in H. destruct o1; cbn in H; injection H as _ H; congruence. }
  exact (Ran_given _ _ _ _ _ RN T).
Qed.
End Built.

(** ** Builds *)
Lemma default_levels pl s l r : In r (recorded (default_max pl) s l) ->
  match r_level r with LError | LWarn | LInfo => True | LDebug => pl_debug pl = true | LTrace => False end.
Proof.
  unfold recorded. destruct (discards s); [intros []|]. rewrite filter_In. intros [_ H]. unfold default_max, kept in H.
  destruct (pl_debug pl), (r_level r); try exact I; try reflexivity; discriminate H.
Qed.

Lemma default_keeps pl s l r : discards s = false -> In r l ->
  match r_level r with LError | LWarn | LInfo => True | LDebug => pl_debug pl = true | LTrace => False end ->
  In r (recorded (default_max pl) s l).
Proof.
  unfold recorded. intros -> Hi H. apply filter_In. split; [exact Hi|]. unfold default_max, kept.
  destruct (r_level r); try contradiction; destruct (pl_debug pl); try discriminate H; reflexivity.
Qed.

Lemma default_exactly pl s l r : discards s = false -> (In r (recorded (default_max pl) s l) <->
  In r l /\ match r_level r with LError | LWarn | LInfo => True | LDebug => pl_debug pl = true | LTrace => False end).
Proof.
  intros D. split; [|intros [H1 H2]; exact (default_keeps pl s l r D H1 H2)].
  intros H. split; [|exact (default_levels pl s l r H)]. unfold recorded in H. rewrite D in H. apply filter_In in H. exact (proj1 H).
Qed.
