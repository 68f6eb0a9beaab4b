(** The instructions of the prompts as a shell reads them. *)
From Coq Require Import Lia.
From Verif Require Import Base BaseLemmas Num Path Options World Sys Io Socket Env Core Pair Script Spec ScriptSpec TraceSpec SessionSpec
  TalkSpec NumProofs PathProofs PairPure InputFacts AskFacts ArgFacts HonourSpec LocalFacts ScriptFacts OpenFacts Shell.
Local Open Scope Z_scope.

Definition begun (cur : option bytes) : bytes := match cur with Some w => w | None => [] end.

Lemma words_plain x : Forall plain x -> forall cur rest, x <> [] ->
  words false cur (x ++ rest) = words false (Some (begun cur ++ x)) rest.
Proof.
  induction x as [|b x IH]; intros HP cur rest N; [contradiction|].
  inversion HP as [|y l [P1 [P2 P3]] HP2]; subst. cbn [app words]. rewrite P1, P2, P3.
  replace (match cur with Some w => w ++ [b] | None => [b] end) with (begun cur ++ [b]) by (destruct cur; reflexivity).
  destruct x as [|b2 x]; [reflexivity|]. rewrite IH; [|exact HP2|discriminate]. cbn [begun]. rewrite <- app_assoc. reflexivity.
Qed.

Lemma words_blank w rest : words false (Some w) (x20 :: rest) = option_map (cons w) (words false None rest).
Proof. reflexivity. Qed.

Lemma words_quoted x : ~ In x27 x -> forall w rest, words true (Some w) (x ++ x27 :: rest) = words false (Some (w ++ x)) rest.
Proof.
  induction x as [|b x IH]; intros N w rest; cbn [app words].
  - rewrite app_nil_r. reflexivity.
  - assert (E : byte_eqb b x27 = false).
    { destruct (byte_eqb b x27) eqn:E; [|reflexivity]. apply byte_eqb_eq in E. subst b. exfalso. apply N. left. reflexivity. }
    rewrite E. rewrite IH by (intros K; apply N; right; exact K). rewrite <- app_assoc. reflexivity.
Qed.

Lemma number_plain n s : Decimal n s -> Forall plain s /\ s <> [] /\ ~ In x27 s.
Proof.
  intros H. apply Decimal_iff in H. subst s.
  assert (K : Forall plain (to_dec n)).
  { apply Forall_forall. intros b HI. apply to_dec_bytes in HI as [HI| ->]; [|repeat split; reflexivity].
    unfold IsDigit in HI. destruct b; try (exfalso; vm_compute in HI; destruct HI as [A1 A2]; first [apply A1; reflexivity|apply A2; reflexivity]);
      repeat split; reflexivity. }
  split; [exact K|]. split; [apply to_dec_nonempty|]. intros HI. rewrite Forall_forall in K. destruct (K _ HI) as [E _]. discriminate E.
Qed.

Lemma default_words rq u p : Decimal (rq_uid rq) u -> Decimal (rq_pid rq) p -> Forall plain (rq_binary_path rq) -> rq_binary_path rq <> [] ->
  shell_words (rq_binary_path rq ++ B " " ++ u ++ B " " ++ p) = Some [rq_binary_path rq; u; p].
Proof.
  intros HU HP P N. apply number_plain in HU as (PU & NU & _). apply number_plain in HP as (PP & NP & _).
  unfold shell_words. rewrite (words_plain _ P None) by exact N. cbn [begun app]. change (B " ") with [x20]. cbn [app].
  rewrite words_blank. rewrite (words_plain _ PU None) by exact NU. cbn [begun app]. rewrite words_blank.
  rewrite <- (app_nil_r p) at 1. rewrite (words_plain _ PP None) by exact NP. reflexivity.
Qed.

Lemma sample_words rq u p : Decimal (rq_uid rq) u -> Decimal (rq_pid rq) p ->
  Forall plain (rq_host rq) -> rq_host rq <> [] -> ~ In x27 (rq_binary_path rq) ->
  shell_words (B "    docker exec -it " ++ rq_host rq ++ B " '" ++ rq_binary_path rq ++ B " " ++ u ++ B " " ++ p ++ B "'")
  = Some [B "docker"; B "exec"; B "-it"; rq_host rq; rq_binary_path rq ++ B " " ++ u ++ B " " ++ p].
Proof.
  intros HU HP PH NH NB. apply number_plain in HU as (_ & _ & QU). apply number_plain in HP as (_ & _ & QP).
  unfold shell_words.
  assert (S : forall rest, words false None (B "    docker exec -it " ++ rest)
    = option_map (fun l => B "docker" :: B "exec" :: B "-it" :: l) (words false None rest)).
  { intros rest. cbn. destruct (words false None rest); reflexivity. }
  rewrite S. rewrite (words_plain _ PH None) by exact NH. cbn [begun app].
  change (B " '") with [x20; x27]. cbn [app]. rewrite words_blank.
  change (words false None (x27 :: rq_binary_path rq ++ B " " ++ u ++ B " " ++ p ++ B "'"))
    with (words true (Some []) (rq_binary_path rq ++ B " " ++ u ++ B " " ++ p ++ B "'")).
  replace (rq_binary_path rq ++ B " " ++ u ++ B " " ++ p ++ B "'")
    with ((rq_binary_path rq ++ B " " ++ u ++ B " " ++ p) ++ x27 :: []) by (rewrite <- !app_assoc; reflexivity).
  rewrite words_quoted; [reflexivity|].
  rewrite !in_app_iff. change (B " ") with [x20]. cbn [In]. intros [K|[[K|[]]|[K|[[K|[]]|K]]]]; try discriminate K; auto.
Qed.

(** The line of the sample prompt. *)
Lemma sample_line rq out : Expands "%" (Directive rq) (B "    docker exec -it %h '%B %u %p'") out ->
  exists u p, Decimal (rq_uid rq) u /\ Decimal (rq_pid rq) p
  /\ out = B "    docker exec -it " ++ rq_host rq ++ B " '" ++ rq_binary_path rq ++ B " " ++ u ++ B " " ++ p ++ B "'".
Proof.
  intros H.
  assert (L : forall lit t o, Forall (fun c => c <> "%"%byte) lit -> Expands "%" (Directive rq) (lit ++ t) o ->
    exists o', o = lit ++ o' /\ Expands "%" (Directive rq) t o').
  { induction lit as [|c lit IH]; intros t o F E; [exists o; auto|]. inversion F as [|c' l' F1 F2]; subst.
    cbn [app] in E. apply expands_literal in E as (o1 & -> & E); [|exact F1].
    destruct (IH _ _ F2 E) as (o' & -> & E'). exists o'. auto. }
  change (B "    docker exec -it %h '%B %u %p'")
    with (B "    docker exec -it " ++ "%"%byte :: "h"%byte :: B " '" ++ "%"%byte :: "B"%byte :: B " " ++ "%"%byte :: "u"%byte :: B " " ++ "%"%byte :: "p"%byte :: B "'") in H.
  apply L in H as (o1 & -> & H); [|repeat constructor; discriminate].
  apply expands_directive in H as (x1 & o2 & H1 & -> & H). apply L in H as (o3 & -> & H); [|repeat constructor; discriminate].
  apply expands_directive in H as (x2 & o4 & H2 & -> & H). apply L in H as (o5 & -> & H); [|repeat constructor; discriminate].
  apply expands_directive in H as (x3 & o6 & H3 & -> & H). apply L in H as (o7 & -> & H); [|repeat constructor; discriminate].
  apply expands_directive in H as (x4 & o8 & H4 & -> & H). 
  apply (L (B "'") []) in H as (o9 & -> & H); [|repeat constructor; discriminate].
  apply expands_end in H. subst o9. exists x3, x4.
  assert (E1 : x1 = rq_host rq).
  { inversion H1; [reflexivity|]. match goal with K : ~ In _ _ |- _ => exfalso; apply K; cbn; tauto end. }
  assert (E2 : x2 = rq_binary_path rq).
  { inversion H2; [reflexivity|]. match goal with K : ~ In _ _ |- _ => exfalso; apply K; cbn; tauto end. }
  assert (E3 : Decimal (rq_uid rq) x3).
  { inversion H3; [assumption|]. match goal with K : ~ In _ _ |- _ => exfalso; apply K; cbn; tauto end. }
  assert (E4 : Decimal (rq_pid rq) x4).
  { inversion H4; [assumption|]. match goal with K : ~ In _ _ |- _ => exfalso; apply K; cbn; tauto end. }
  subst x1 x2. split; [exact E3|]. split; [exact E4|]. rewrite ?app_nil_r. reflexivity.
Qed.

Lemma default_read rq out : Expands "%" (Directive rq) (B "%B %u %p" ++ [x0a]) out ->
  Forall plain (rq_binary_path rq) -> rq_binary_path rq <> [] ->
  exists line u p, out = line ++ [x0a] /\ Decimal (rq_uid rq) u /\ Decimal (rq_pid rq) p
  /\ shell_words line = Some [rq_binary_path rq; u; p].
Proof.
  intros H P N. apply default_instruction in H as (u & p & HU & HP & ->).
  exists (rq_binary_path rq ++ B " " ++ u ++ B " " ++ p), u, p. split; [rewrite <- !app_assoc; reflexivity|].
  split; [exact HU|]. split; [exact HP|]. apply default_words; assumption.
Qed.

Lemma sample_read rq out : Expands "%" (Directive rq) (B "    docker exec -it %h '%B %u %p'") out ->
  Forall plain (rq_host rq) -> rq_host rq <> [] -> ~ In x27 (rq_binary_path rq) ->
  exists u p, Decimal (rq_uid rq) u /\ Decimal (rq_pid rq) p
  /\ shell_words out = Some [B "docker"; B "exec"; B "-it"; rq_host rq; rq_binary_path rq ++ B " " ++ u ++ B " " ++ p].
Proof.
  intros H PH NH NB. apply sample_line in H as (u & p & HU & HP & ->). exists u, p.
  split; [exact HU|]. split; [exact HP|]. apply sample_words; assumption.
Qed.

(** From the opening to the socket. *)
Lemma default_place rq u p : Decimal (rq_uid rq) u -> Decimal (rq_pid rq) p ->
  rq_socket_dir rq = B "/var/run/sudo_pair" \/ rq_socket_dir rq = B "/var/run/sudo_pair/" ->
  SocketPath rq (components (B "/var/run/sudo_pair/" ++ u ++ B "." ++ p ++ B ".sock")).
Proof.
  intros HU HP HD. exists (u ++ B "." ++ p ++ B ".sock"). split; [exists u, p; auto|].
  apply Decimal_iff in HU, HP. subst u p.
  change (to_dec (rq_uid rq) ++ B "." ++ to_dec (rq_pid rq) ++ B ".sock") with (sock_name (rq_uid rq) (rq_pid rq)).
  destruct (sock_name_ok (rq_uid rq) (rq_pid rq)) as (N1 & N2 & N3 & N4). set (n := sock_name _ _) in *.
  change (B "/var/run/sudo_pair/" ++ n) with (B "/var/run/sudo_pair" ++ slash :: n).
  rewrite components_sep, (split_on_single slash n) by exact N4. cbn [flat_map]. rewrite seg_comp_Normal, app_nil_r by assumption.
  rewrite app_assoc. f_equal. destruct HD as [-> | ->]; reflexivity.
Qed.

Lemma opening_read pl a rq w o w' evs ls st r d : Describes pl a rq ->
  core_open SudoPair pl a (pstate0 _) w = (o, w') -> w_trace w' = w_trace w ++ evs ->
  evs = ls ++ st :: r -> Only LocalPrompt ls -> e_call st = CStat d ->
  (forall ev t, In ev ls -> ~ Is (CReadFile (rq_user_prompt_path rq)) (AData t) ev) ->
  ~ TerminalFailed rq ls -> Forall plain (rq_binary_path rq) -> rq_binary_path rq <> [] ->
  rq_socket_dir rq = B "/var/run/sudo_pair" \/ rq_socket_dir rq = B "/var/run/sudo_pair/" ->
  exists line u p s, shown ls = line ++ [x0a] /\ shell_words line = Some [rq_binary_path rq; u; p]
  /\ script_commands u p = Some [] /\ script_socket u p = Some s
  /\ Only (fun c => forall q, c = CBind q -> q = components s) evs.
Proof.
  intros D H T E L HS NT TF P N HD.
  destruct (prompt_shown pl a rq D w o w' evs H T ls st r d E L HS) as (out & (t & HT & HE) & [[Sh _]|[F _]]); [|contradiction].
  destruct HT as [(ev & HI & HR)|[-> _]]; [exfalso; exact (NT ev t HI HR)|].
  apply default_instruction in HE as (u & p & HU & HP & ->).
  exists (rq_binary_path rq ++ B " " ++ u ++ B " " ++ p), u, p, (B "/var/run/sudo_pair/" ++ u ++ B "." ++ p ++ B ".sock").
  split; [rewrite Sh, <- !app_assoc; reflexivity|]. split; [apply default_words; assumption|].
  pose proof (uid_range _ _ _ D). pose proof (pid_range _ _ _ D).
  split; [apply (script_runs_nothing u p _ _ HU HP); lia|].
  split; [exact (script_socket_decimal _ _ _ _ _ D HU HP)|].
  pose proof (arguments pl a rq D w o w' evs _ H T (default_place rq u p HU HP HD)) as K.
  revert K. apply Only_weaken. intros c K q ->. exact K.
Qed.
