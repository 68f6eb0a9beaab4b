(** Failed initialisations: which complaint is printed. *)
From Verif Require Import Base BaseLemmas Utf8 Num Path Version Options World Sys Io Socket Env Core Pair
  Spec TraceSpec OptionProofs NumProofs Utf8Proofs VersionProofs ReadProofs RequestProofs PairPure RunProofs IoProofs
  SocketProofs PairProofs OpenFacts InitFacts TellSpec Structure.
Local Open Scope Z_scope.

Lemma Fine_no_Complaint r e text : Fine r e -> ~ Complaint r e text.
Proof.
  intros (v & P & U & S) [[N _]|(v' & P' & _ & N & _)]; [exact (N v P U)|].
  rewrite (Provides_unique _ _ _ _ P' P) in N. exact (N S).
Qed.

Lemma Complaint_unique r e t1 t2 : Complaint r e t1 -> Complaint r e t2 -> t1 = t2.
Proof.
  intros [[N1 ->]|(v1 & P1 & U1 & S1 & ->)] [[N2 ->]|(v2 & P2 & U2 & S2 & ->)]; try reflexivity.
  - destruct (N1 _ P2 U2).
  - destruct (N2 _ P1 U1).
  - rewrite (Provides_unique _ _ _ _ P1 P2). reflexivity.
Qed.

Lemma FirstComplaint_unique r es t1 t2 : FirstComplaint r es t1 -> FirstComplaint r es t2 -> t1 = t2.
Proof.
  intros (b1 & e1 & a1 & E1 & F1 & C1) (b2 & e2 & a2 & E2 & F2 & C2). subst es. revert b2 E2 F2.
  induction b1 as [|x b1 IH]; intros [|y b2] E2 F2; cbn in E2; injection E2 as -> E2.
  - exact (Complaint_unique _ _ _ _ C1 C2).
  - inversion F2; subst. destruct (Fine_no_Complaint _ _ _ H1 C1).
  - inversion F1; subst. destruct (Fine_no_Complaint _ _ _ H1 C2).
  - inversion F1; inversion F2; subst. exact (IH H2 b2 E2 H6).
Qed.

(** ** One entry *)
Definition accepts {A} (p : bytes -> option A) (ok : bytes -> Prop) : Prop :=
  forall v, ok v <-> exists x, p v = Some x.

Lemma accepts_text : accepts parse_string AnyText.
Proof. intros v. split; [intros _; eexists; reflexivity|intros _; exact I]. Qed.
Lemma accepts_path : accepts parse_path AnyText.
Proof. exact accepts_text. Qed.
Lemma accepts_u32 : accepts (parse_int u32T) Unsigned32.
Proof. intros v. unfold Unsigned32. split; intros [x Hx]; exists x; apply parse_u32; exact Hx. Qed.
Lemma accepts_i32 : accepts (parse_int i32T) Signed32.
Proof. intros v. unfold Signed32. split; intros [x Hx]; exists x; apply parse_i32; exact Hx. Qed.
Lemma accepts_u32s : accepts (parse_ints u32T) Unsigned32List.
Proof. intros v. unfold Unsigned32List. split; intros [x Hx]; exists x; apply parse_u32s; exact Hx. Qed.

Lemma req_entry {A} (p : bytes -> option A) ok r k : accepts p ok ->
  (Fine r (k, ok) /\ exists x, get_req p (from_raw r) k = Ok x)
  \/ (exists er, get_req p (from_raw r) k = Err er /\ Complaint r (k, ok) (display_error er)).
Proof.
  intros H. unfold get_req, get, get_str, Fine, Complaint. cbn [fst snd].
  destruct (get_bytes (from_raw r) (B k)) as [v|] eqn:E.
  - apply get_bytes_Provides in E. destruct (valid_utf8 v) eqn:U.
    + apply valid_utf8_iff in U. destruct (p v) as [x|] eqn:P.
      * left. split; [|eauto]. exists v. split; [exact E|]. split; [exact U|]. apply H. eauto.
      * right. eexists. split; [reflexivity|]. right. exists v. split; [exact E|]. split; [exact U|].
        split; [|reflexivity]. intros K. apply H in K as [x K]. congruence.
    + right. eexists. split; [reflexivity|]. left. split; [|reflexivity].
      intros v' P' U'. rewrite (Provides_unique _ _ _ _ P' E) in U'. apply valid_utf8_iff in U'. congruence.
  - right. eexists. split; [reflexivity|]. left. split; [|reflexivity].
    intros v' P'. apply get_bytes_Provides in P'. congruence.
Qed.

Lemma FirstComplaint_here r e es text : Complaint r e text -> FirstComplaint r (e :: es) text.
Proof. intros H. exists [], e, es. split; [reflexivity|]. split; [constructor|exact H]. Qed.

Lemma FirstComplaint_later r e es text : Fine r e -> FirstComplaint r es text -> FirstComplaint r (e :: es) text.
Proof.
  intros F (b & x & a & -> & Fb & C). exists (e :: b), x, a. split; [reflexivity|]. split; [constructor; assumption|exact C].
Qed.

Ltac entry_case :=
  lazymatch goal with
  | |- context [get_req ?p (from_raw ?r) ?k] =>
      let F := fresh "F" in let x := fresh "x" in let E := fresh "E" in
      let er := fresh "er" in let C := fresh "C" in
      destruct (req_entry p _ r k ltac:(first [exact accepts_text|exact accepts_u32|exact accepts_i32|exact accepts_u32s]))
        as [[F [x E]]|(er & E & C)];
      rewrite E; cbn beta iota;
      [|right; exists er; split; [reflexivity|];
        repeat (apply FirstComplaint_later; [assumption|]); apply FirstComplaint_here; exact C]
  end.

Lemma settings_complaint pl r :
  Forall (Fine r) SettingsEntries
  \/ exists er, settings_try_from pl (from_raw r) = Some (Err er) /\ FirstComplaint r SettingsEntries (display_error er).
Proof.
  unfold settings_try_from, SettingsEntries. entry_case. entry_case. entry_case.
  left. repeat constructor; assumption.
Qed.

Lemma user_info_complaint r :
  (Forall (Fine r) UserInfoEntries /\ exists ui, user_info_try_from (from_raw r) = Ok ui)
  \/ exists er, user_info_try_from (from_raw r) = Err er /\ FirstComplaint r UserInfoEntries (display_error er).
Proof.
  unfold user_info_try_from, UserInfoEntries, parse_path. fold (@parse_string).
  do 11 entry_case.
  left. split; [repeat constructor; assumption|eexists; reflexivity].
Qed.

Lemma Forall_no_FirstComplaint r es text : Forall (Fine r) es -> ~ FirstComplaint r es text.
Proof.
  intros F (b & e & a & -> & _ & C). apply Forall_app in F as [_ F]. inversion F; subst.
  exact (Fine_no_Complaint _ _ _ H1 C).
Qed.

Lemma settings_entries r : Forall (Fine r) SettingsEntries <-> SettingsComplete r.
Proof.
  unfold SettingsEntries, SettingsComplete. split.
  - intros F. inversion F as [|? ? (v1 & P1 & U1 & _) F1]; subst. inversion F1 as [|? ? (v2 & P2 & U2 & _) F2]; subst.
    inversion F2 as [|? ? (v3 & P3 & U3 & _) _]; subst.
    split; [exists v1, v1|split; [exists v2, v2|exists v3, v3]]; (split; [assumption|split; [assumption|reflexivity]]).
  - intros ((x1 & v1 & P1 & U1 & _) & (x2 & v2 & P2 & U2 & _) & (x3 & v3 & P3 & U3 & _)).
    constructor; [exists v1; split; [assumption|split; [assumption|exact I]]|].
    constructor; [exists v2; split; [assumption|split; [assumption|exact I]]|].
    constructor; [exists v3; split; [assumption|split; [assumption|exact I]]|]. constructor.
Qed.

(** Every array is either complete or complained about. *)
Lemma settings_told r : SettingsComplete r \/ exists text, FirstComplaint r SettingsEntries text.
Proof.
  destruct (settings_complaint (mkPlatform false 0 0 (fun _ => None)) r) as [F|(er & _ & C)]; [|eauto].
  left. apply settings_entries. exact F.
Qed.

Lemma user_info_told r : UserInfoComplete r \/ exists text, FirstComplaint r UserInfoEntries text.
Proof.
  destruct (user_info_complaint r) as [[_ [ui E]]|(er & _ & C)]; [|eauto].
  left. pose proof (proj1 (user_info_Ok r ui) E) as H. decompose [and] H. unfold UserInfoComplete.
  repeat (split; [eexists; eassumption|]). eexists; eassumption.
Qed.

Lemma Complaint_Unreadable {A} r k (R : bytes -> A -> Prop) (ok : bytes -> Prop) text :
  (forall v x, R v x -> ok v) -> Complaint r (k, ok) text -> Unreadable r k R.
Proof.
  intros H C x (v & P & U & K). apply (Fine_no_Complaint r (k, ok) text); [|exact C].
  exists v. split; [exact P|]. split; [exact U|]. exact (H v x K).
Qed.

Lemma user_info_incomplete r text : FirstComplaint r UserInfoEntries text -> UserInfoIncomplete r.
Proof.
  intros (b & e & a & E & _ & C). assert (Hin : In e UserInfoEntries) by (rewrite E; apply in_or_app; right; left; reflexivity).
  clear E. unfold UserInfoIncomplete. cbn in Hin. destruct e as [k ok].
  repeat (destruct Hin as [Hin|Hin];
    [injection Hin as <- <-;
     repeat first [solve [eapply Complaint_Unreadable; [|exact C]; intros v x K; first [exact I|exists x; exact K]]
                  |left; solve [eapply Complaint_Unreadable; [|exact C]; intros v x K; first [exact I|exists x; exact K]]
                  |right]
    |]).
  destruct Hin.
Qed.

(** ** What is printed *)
Lemma Provides_nul r k v : Provides r k v -> has_nul v = false.
Proof.
  intros (b & buf & a & _ & (e & [N _] & M) & _). apply has_nul_not_in. intros Hin. apply N.
  destruct M as [[_ ->]|(_ & _ & ->)]; [apply in_or_app; right; right; exact Hin|exact Hin].
Qed.

Lemma complaint_nul r es text : FirstComplaint r es text ->
  Forall (fun e => has_nul (B (fst e)) = false) es -> has_nul text = false.
Proof.
  intros (b & e & a & -> & _ & C) F. apply Forall_app in F as [_ F]. inversion F; subst.
  destruct C as [[_ ->]|(v & P & _ & _ & ->)]; rewrite !has_nul_app, H1; [reflexivity|].
  rewrite (Provides_nul _ _ _ P). reflexivity.
Qed.

Lemma error_told pl a st w o w' evs er :
  io_env_new pl (B "sudo_pair") (B "1.2.0") a = Some (Err er) -> has_nul (display_error er) = false ->
  core_open SudoPair pl a st w = (o, w') -> w_trace w' = w_trace w ++ evs ->
  ToldAndDenied a st (display_error er) o evs.
Proof.
  intros E En H T. destruct (core_open_yields pl a st w o w' H) as (evs' & R & HC).
  rewrite (Ran_given _ _ _ _ _ R T). clear H T R evs. unfold ToldAndDenied.
  assert (HP : forall r es (o' : outcome (Z * pstate SudoPair)), reported a (display_error er) r es ->
      (o' = Stopped \/ r <> Stopped) -> HonestPrintf es ->
      Prefix (printed 3 es) (report_text (display_error er))
      /\ (oa_printf a = true -> ~ Exists Failed es -> o' = Stopped \/ printed 3 es = report_text (display_error er))).
  { intros r es o' Hp Ho Hh. destruct (proj2 (reported_text _ _ _ _ Hp) Hh) as [X Y]. split; [exact X|].
    intros Hp' Hf. destruct Ho as [Ho|Ho]; [left; exact Ho|right]. apply Y; assumption. }
  inversion HC as [E'|er' ps r E' [Hr Hp]|er' ps E' Hp|e' e o1 es E' He HR]; subst;
    rewrite E in E'; try discriminate; injection E' as <-.
  - split; [eapply printed_ErrorText; exact (proj1 Hp)|]. split; [auto|]. eapply HP; [exact Hp|right; exact Hr].
  - split; [eapply printed_ErrorText; exact (proj1 Hp)|]. split; [auto|]. eapply HP; [exact Hp|left; reflexivity].
Qed.

Lemma keys_nul_settings : Forall (fun e : entry => has_nul (B (fst e)) = false) SettingsEntries.
Proof. repeat constructor. Qed.
Lemma keys_nul_user : Forall (fun e : entry => has_nul (B (fst e)) = false) UserInfoEntries.
Proof. repeat constructor. Qed.

Lemma told_settings pl a text st w o w' evs :
  ApiAtLeast_1_9 (oa_version a) -> FirstComplaint (oa_settings a) SettingsEntries text ->
  core_open SudoPair pl a st w = (o, w') -> w_trace w' = w_trace w ++ evs ->
  ToldAndDenied a st text o evs.
Proof.
  intros HV C H T. destruct (settings_complaint pl (oa_settings a)) as [F|(er & Es & C')];
    [destruct (Forall_no_FirstComplaint _ _ _ F C)|].
  rewrite (FirstComplaint_unique _ _ _ _ C C').
  apply (error_told pl a st w o w' evs er); [|exact (complaint_nul _ _ _ C' keys_nul_settings)|exact H|exact T].
  unfold io_env_new, version_check. rewrite (proj2 (supported_iff _) HV). cbn [pf_new]. rewrite Es. reflexivity.
Qed.

Lemma told_user_info pl a text st w o w' evs :
  ApiAtLeast_1_9 (oa_version a) -> SettingsComplete (oa_settings a) -> ~ MasklessAddr pl (oa_settings a) ->
  FirstComplaint (oa_user_info a) UserInfoEntries text ->
  core_open SudoPair pl a st w = (o, w') -> w_trace w' = w_trace w ++ evs ->
  ToldAndDenied a st text o evs.
Proof.
  intros HV ((d & Hd) & (p & Hp) & (n & Hn)) HM C H T.
  destruct (user_info_complaint (oa_user_info a)) as [[F _]|(er & Es & C')];
    [destruct (Forall_no_FirstComplaint _ _ _ F C)|].
  rewrite (FirstComplaint_unique _ _ _ _ C C').
  apply (error_told pl a st w o w' evs er); [|exact (complaint_nul _ _ _ C' keys_nul_user)|exact H|exact T].
  unfold io_env_new, version_check. rewrite (proj2 (supported_iff _) HV). cbn [pf_new].
  destruct (settings_cases pl _ d p n Hd Hp Hn) as [[se E]|[_ E]]; [rewrite E|contradiction].
  rewrite Es. reflexivity.
Qed.

Lemma one_complaint r :
  (SettingsComplete r \/ exists text, FirstComplaint r SettingsEntries text)
  /\ (UserInfoComplete r \/ exists text, FirstComplaint r UserInfoEntries text)
  /\ (forall es t1 t2, FirstComplaint r es t1 -> FirstComplaint r es t2 -> t1 = t2)
  /\ (forall text, FirstComplaint r SettingsEntries text -> ~ SettingsComplete r)
  /\ (forall text, FirstComplaint r UserInfoEntries text -> UserInfoIncomplete r).
Proof.
  split; [exact (settings_told r)|]. split; [exact (user_info_told r)|]. split; [exact (FirstComplaint_unique r)|].
  split; [|exact (user_info_incomplete r)]. intros text C S. apply settings_entries in S.
  exact (Forall_no_FirstComplaint _ _ _ S C).
Qed.
