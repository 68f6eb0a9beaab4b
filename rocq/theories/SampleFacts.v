(** Facts about the sample prompts. *)
From Coq Require Import Lia.
From Verif Require Import Base BaseLemmas Num Path Options World Sys Io Socket Env Core Pair Spec TraceSpec SessionSpec
  TemplateProofs PairPure InputFacts AskFacts SessionFacts HonourSpec LocalFacts ScriptFacts SamplePrompts.
Local Open Scope Z_scope.

Section Inv.
Variable rq : request.
Lemma expands_text lit t o : Forall (fun c => c <> "%"%byte) lit -> Expands "%" (Directive rq) (lit ++ t) o ->
  exists o', o = lit ++ o' /\ Expands "%" (Directive rq) t o'.
Proof.
  revert o. induction lit as [|c lit IH]; intros o F E; [exists o; auto|]. inversion F as [|c' l' F1 F2]; subst.
  cbn [app] in E. apply expands_literal in E as (o1 & -> & E); [|exact F1].
  destruct (IH _ F2 E) as (o' & -> & E'). exists o'. auto.
Qed.

Lemma dir_h x : Directive rq "h" x -> x = rq_host rq.
Proof. intros H. inversion H; [reflexivity|]. match goal with K : ~ In _ _ |- _ => exfalso; apply K; cbn; tauto end. Qed.
Lemma dir_B x : Directive rq "B" x -> x = rq_binary_path rq.
Proof. intros H. inversion H; [reflexivity|]. match goal with K : ~ In _ _ |- _ => exfalso; apply K; cbn; tauto end. Qed.
Lemma dir_U x : Directive rq "U" x -> x = rq_user rq.
Proof. intros H. inversion H; [reflexivity|]. match goal with K : ~ In _ _ |- _ => exfalso; apply K; cbn; tauto end. Qed.
Lemma dir_u x : Directive rq "u" x -> Decimal (rq_uid rq) x.
Proof. intros H. inversion H; [assumption|]. match goal with K : ~ In _ _ |- _ => exfalso; apply K; cbn; tauto end. Qed.
Lemma dir_p x : Directive rq "p" x -> Decimal (rq_pid rq) x.
Proof. intros H. inversion H; [assumption|]. match goal with K : ~ In _ _ |- _ => exfalso; apply K; cbn; tauto end. Qed.
Lemma dir_C x : Directive rq "C" x -> Invocation rq x.
Proof. intros H. inversion H; [assumption|]. match goal with K : ~ In _ _ |- _ => exfalso; apply K; cbn; tauto end. Qed.
Lemma dir_d x : Directive rq "d" x -> Directory rq x.
Proof.
  intros H. inversion H; [left; assumption|right; auto|].
  match goal with K : ~ In _ _ |- _ => exfalso; apply K; cbn; tauto end.
Qed.

Lemma pair_text out : Expands "%" (Directive rq) sample_pair out ->
  exists d line, Directory rq d /\ Invocation rq line
  /\ out = (B "You have been asked to approve and monitor the following sudo session:" ++ [x0a; x0a] ++ B "    <")
     ++ bold ++ blue ++ rq_user rq ++ plainly ++ B "@" ++ bold ++ red ++ rq_host rq ++ plainly ++ B ":"
     ++ bold ++ blue ++ d ++ plainly ++ B " " ++ red ++ B "$" ++ plainly ++ B " > " ++ line
     ++ ([x0a; x0a] ++ B "Once approved, this terminal will mirror all output from the active sudo session until its completion." ++ [x0a; x0a])
     ++ bold ++ B "Closing this terminal, losing your network connection to this host, or explicitly ending the session by typing <Ctrl-D> will cause the command being run under elevated privileges to terminate immediately."
     ++ plainly ++ [x0a; x0a] ++ B "Approve? y/n [n]: ".
Proof.
  intros H.
  set (t0 := B "You have been asked to approve and monitor the following sudo session:" ++ [x0a; x0a] ++ B "    <").
  set (t4 := [x0a; x0a] ++ B "Once approved, this terminal will mirror all output from the active sudo session until its completion." ++ [x0a; x0a]).
  set (t5 := B "Closing this terminal, losing your network connection to this host, or explicitly ending the session by typing <Ctrl-D> will cause the command being run under elevated privileges to terminate immediately.").
  set (t6 := [x0a; x0a] ++ B "Approve? y/n [n]: ").
  assert (F0 : Forall (fun c => c <> "%"%byte) (t0 ++ bold ++ blue)) by (repeat constructor; discriminate).
  assert (F5 : Forall (fun c => c <> "%"%byte) (t4 ++ bold ++ t5 ++ plainly ++ t6)) by (repeat constructor; discriminate).
  change sample_pair with ((t0 ++ bold ++ blue) ++ "%"%byte :: "U"%byte :: (plainly ++ B "@" ++ bold ++ red)
    ++ "%"%byte :: "h"%byte :: (plainly ++ B ":" ++ bold ++ blue) ++ "%"%byte :: "d"%byte :: (plainly ++ B " " ++ red ++ B "$" ++ plainly ++ B " > ")
    ++ "%"%byte :: "C"%byte :: (t4 ++ bold ++ t5 ++ plainly ++ t6) ++ []) in H.
  clearbody t0 t4 t5 t6.
  apply expands_text in H as (o1 & -> & H); [|exact F0].
  apply expands_directive in H as (x1 & o2 & H1 & -> & H). apply expands_text in H as (o3 & -> & H); [|repeat constructor; discriminate].
  apply expands_directive in H as (x2 & o4 & H2 & -> & H). apply expands_text in H as (o5 & -> & H); [|repeat constructor; discriminate].
  apply expands_directive in H as (x3 & o6 & H3 & -> & H). apply expands_text in H as (o7 & -> & H); [|repeat constructor; discriminate].
  apply expands_directive in H as (x4 & o8 & H4 & -> & H). apply expands_text in H as (o9 & -> & H); [|exact F5].
  apply expands_end in H. subst o9. apply dir_U in H1. apply dir_h in H2. apply dir_d in H3. apply dir_C in H4. subst x1 x2.
  exists x3, x4. split; [exact H3|]. split; [exact H4|]. rewrite <- !app_assoc, ?app_nil_r. reflexivity.
Qed.

Lemma user_text out : Expands "%" (Directive rq) sample_user out ->
  exists u p, Decimal (rq_uid rq) u /\ Decimal (rq_pid rq) p
  /\ out = (B "Due to security and compliance requirements, this `sudo` session will require approval and monitoring." ++ [x0a; x0a]
     ++ B "To continue, another human must run:" ++ [x0a; x0a] ++ B "    docker exec -it ") ++ rq_host rq ++ B " '" ++ rq_binary_path rq
     ++ B " " ++ u ++ B " " ++ p ++ (B "'" ++ [x0a; x0a]
     ++ B "If a suitable human is not available and you have an immediate and urgent need to run this command, you may run the above command to approve your own session. ")
     ++ bold ++ B "Note that doing so will immediately page an oncall security engineer, so this capability should only be used in the event of an emergency."
     ++ plainly ++ [x0a].
Proof.
  intros H.
  set (t0 := B "Due to security and compliance requirements, this `sudo` session will require approval and monitoring." ++ [x0a; x0a]
     ++ B "To continue, another human must run:" ++ [x0a; x0a] ++ B "    docker exec -it ").
  set (t1 := B "'" ++ [x0a; x0a]
     ++ B "If a suitable human is not available and you have an immediate and urgent need to run this command, you may run the above command to approve your own session. ").
  set (t2 := B "Note that doing so will immediately page an oncall security engineer, so this capability should only be used in the event of an emergency.").
  assert (F0 : Forall (fun c => c <> "%"%byte) t0) by (repeat constructor; discriminate).
  assert (F1 : Forall (fun c => c <> "%"%byte) (t1 ++ bold ++ t2 ++ plainly ++ [x0a])) by (repeat constructor; discriminate).
  change sample_user with (t0 ++ "%"%byte :: "h"%byte :: B " '" ++ "%"%byte :: "B"%byte :: B " " ++ "%"%byte :: "u"%byte :: B " "
    ++ "%"%byte :: "p"%byte :: (t1 ++ bold ++ t2 ++ plainly ++ [x0a]) ++ []) in H.
  clearbody t0 t1 t2.
  apply expands_text in H as (o1 & -> & H); [|exact F0].
  apply expands_directive in H as (x1 & o2 & H1 & -> & H). apply expands_text in H as (o3 & -> & H); [|repeat constructor; discriminate].
  apply expands_directive in H as (x2 & o4 & H2 & -> & H). apply expands_text in H as (o5 & -> & H); [|repeat constructor; discriminate].
  apply expands_directive in H as (x3 & o6 & H3 & -> & H). apply expands_text in H as (o7 & -> & H); [|repeat constructor; discriminate].
  apply expands_directive in H as (x4 & o8 & H4 & -> & H). apply expands_text in H as (o9 & -> & H); [|exact F1].
  apply expands_end in H. subst o9. apply dir_h in H1. apply dir_B in H2. apply dir_u in H3. apply dir_p in H4. subst x1 x2.
  exists x3, x4. split; [exact H3|]. split; [exact H4|]. rewrite <- !app_assoc, ?app_nil_r. reflexivity.
Qed.

Lemma default_text out : Expands "%" (Directive rq) (B "%U@%h:%d$ %C" ++ [x0a] ++ B "y/n? [n]: ") out ->
  exists d line, Directory rq d /\ Invocation rq line
  /\ out = rq_user rq ++ B "@" ++ rq_host rq ++ B ":" ++ d ++ B "$ " ++ line ++ [x0a] ++ B "y/n? [n]: ".
Proof.
  intros H.
  change (B "%U@%h:%d$ %C" ++ [x0a] ++ B "y/n? [n]: ") with ("%"%byte :: "U"%byte :: B "@" ++ "%"%byte :: "h"%byte :: B ":"
    ++ "%"%byte :: "d"%byte :: B "$ " ++ "%"%byte :: "C"%byte :: ([x0a] ++ B "y/n? [n]: ") ++ []) in H.
  apply expands_directive in H as (x1 & o2 & H1 & -> & H). apply expands_text in H as (o3 & -> & H); [|repeat constructor; discriminate].
  apply expands_directive in H as (x2 & o4 & H2 & -> & H). apply expands_text in H as (o5 & -> & H); [|repeat constructor; discriminate].
  apply expands_directive in H as (x3 & o6 & H3 & -> & H). apply expands_text in H as (o7 & -> & H); [|repeat constructor; discriminate].
  apply expands_directive in H as (x4 & o8 & H4 & -> & H). apply expands_text in H as (o9 & -> & H); [|repeat constructor; discriminate].
  apply expands_end in H. subst o9. apply dir_U in H1. apply dir_h in H2. apply dir_d in H3. apply dir_C in H4. subst x1 x2.
  exists x3, x4. split; [exact H3|]. split; [exact H4|]. rewrite <- ?app_assoc, ?app_nil_r. reflexivity.
Qed.
End Inv.

(** Painting. *)
Lemma paint_text s : forall st t, ~ In x1b s -> paint Ground st (s ++ t) = in_style st s ++ paint Ground st t.
Proof.
  induction s as [|c s IH]; intros st t N; [reflexivity|]. cbn [app paint in_style map].
  destruct (byte_eqb c x1b) eqn:E; [apply byte_eqb_eq in E; subst; exfalso; apply N; left; reflexivity|].
  f_equal. apply IH. intros K. apply N. right. exact K.
Qed.
Lemma paint_bold st t : paint Ground st (bold ++ t) = paint Ground (st ++ [B "1"]) t.
Proof. reflexivity. Qed.
Lemma paint_red st t : paint Ground st (red ++ t) = paint Ground (st ++ [B "31"]) t.
Proof. reflexivity. Qed.
Lemma paint_blue st t : paint Ground st (blue ++ t) = paint Ground (st ++ [B "34"]) t.
Proof. reflexivity. Qed.
Lemma paint_plainly st t : paint Ground st (plainly ++ t) = paint Ground [] t.
Proof. reflexivity. Qed.
Lemma paint_last st s : ~ In x1b s -> paint Ground st s = in_style st s.
Proof. intros N. rewrite <- (app_nil_r s) at 1. rewrite paint_text by exact N. apply app_nil_r. Qed.

(** Together with the calls that deliver the prompt. *)
Lemma pair_delivered pl a rq w o w' before rd after c : Describes pl a rq ->
  core_open SudoPair pl a (pstate0 _) w = (o, w') -> w_trace w' = w_trace w ++ before ++ rd :: after -> e_call rd = CRead c ->
  (forall ev t, In ev before -> Is (CReadFile (rq_pair_prompt_path rq)) (AData t) ev -> t = sample_pair) ->
  exists e1 acc e2 n peer, before = e1 ++ acc :: e2 /\ Accepts n c peer acc
  /\ (Expands "%" (Directive rq) sample_pair (delivered c e2)
      \/ (forall ev t, In ev e2 -> ~ Is (CReadFile (rq_pair_prompt_path rq)) (AData t) ev)
         /\ Expands "%" (Directive rq) (B "%U@%h:%d$ %C" ++ [x0a] ++ B "y/n? [n]: ") (delivered c e2)).
Proof.
  intros D H T R S. destruct (prompt_before_answer _ _ _ _ _ _ _ _ _ _ D H T R) as (e1 & acc & e2 & n & peer & -> & HA & t & HT & HE).
  exists e1, acc, e2, n, peer. split; [reflexivity|]. split; [exact HA|].
  destruct HT as [(ev & HI & HR)|[-> HN]].
  - left. rewrite <- (S ev t); [exact HE| |exact HR]. apply in_app_iff. right. right. exact HI.
  - right. split; [exact HN|exact HE].
Qed.

Lemma pair_seen rq d line out :
  out = (B "You have been asked to approve and monitor the following sudo session:" ++ [x0a; x0a] ++ B "    <")
     ++ bold ++ blue ++ rq_user rq ++ plainly ++ B "@" ++ bold ++ red ++ rq_host rq ++ plainly ++ B ":"
     ++ bold ++ blue ++ d ++ plainly ++ B " " ++ red ++ B "$" ++ plainly ++ B " > " ++ line
     ++ ([x0a; x0a] ++ B "Once approved, this terminal will mirror all output from the active sudo session until its completion." ++ [x0a; x0a])
     ++ bold ++ B "Closing this terminal, losing your network connection to this host, or explicitly ending the session by typing <Ctrl-D> will cause the command being run under elevated privileges to terminate immediately."
     ++ plainly ++ [x0a; x0a] ++ B "Approve? y/n [n]: " ->
  ~ In x1b (rq_user rq) -> ~ In x1b (rq_host rq) -> ~ In x1b d -> ~ In x1b line ->
  painted out =
       in_style [] (B "You have been asked to approve and monitor the following sudo session:" ++ [x0a; x0a] ++ B "    <")
    ++ in_style [B "1"; B "34"] (rq_user rq) ++ in_style [] (B "@") ++ in_style [B "1"; B "31"] (rq_host rq) ++ in_style [] (B ":")
    ++ in_style [B "1"; B "34"] d ++ in_style [] (B " ") ++ in_style [B "31"] (B "$") ++ in_style [] (B " > ") ++ in_style [] line
    ++ in_style [] ([x0a; x0a] ++ B "Once approved, this terminal will mirror all output from the active sudo session until its completion." ++ [x0a; x0a])
    ++ in_style [B "1"] (B "Closing this terminal, losing your network connection to this host, or explicitly ending the session by typing <Ctrl-D> will cause the command being run under elevated privileges to terminate immediately.")
    ++ in_style [] ([x0a; x0a] ++ B "Approve? y/n [n]: ").
Proof.
  intros -> NU NH ND NL.
  set (t0 := B "You have been asked to approve and monitor the following sudo session:" ++ [x0a; x0a] ++ B "    <").
  set (t4 := [x0a; x0a] ++ B "Once approved, this terminal will mirror all output from the active sudo session until its completion." ++ [x0a; x0a]).
  set (t5 := B "Closing this terminal, losing your network connection to this host, or explicitly ending the session by typing <Ctrl-D> will cause the command being run under elevated privileges to terminate immediately.").
  set (t6 := [x0a; x0a] ++ B "Approve? y/n [n]: ").
  assert (K : forall s, existsb (byte_eqb x1b) s = false -> ~ In x1b s).
  { intros s E I. assert (X : existsb (byte_eqb x1b) s = true) by (apply existsb_exists; exists x1b; split; [exact I|reflexivity]).
    rewrite X in E. discriminate E. }
  assert (N0 : ~ In x1b t0) by (apply K; vm_compute; reflexivity).
  assert (N4 : ~ In x1b t4) by (apply K; vm_compute; reflexivity).
  assert (N5 : ~ In x1b t5) by (apply K; vm_compute; reflexivity).
  assert (N6 : ~ In x1b t6) by (apply K; vm_compute; reflexivity).
  clearbody t0 t4 t5 t6. unfold painted.
  rewrite (paint_text t0), paint_bold, paint_blue by exact N0. rewrite (paint_text (rq_user rq)), paint_plainly by exact NU.
  rewrite (paint_text (B "@")), paint_bold, paint_red by (apply K; reflexivity).
  rewrite (paint_text (rq_host rq)), paint_plainly by exact NH.
  rewrite (paint_text (B ":")), paint_bold, paint_blue by (apply K; reflexivity).
  rewrite (paint_text d), paint_plainly by exact ND.
  rewrite (paint_text (B " ")), paint_red by (apply K; reflexivity).
  rewrite (paint_text (B "$")), paint_plainly by (apply K; reflexivity).
  rewrite (paint_text (B " > ")) by (apply K; reflexivity).
  rewrite (paint_text line) by exact NL. rewrite (paint_text t4), paint_bold by exact N4.
  rewrite (paint_text t5), paint_plainly by exact N5. rewrite (paint_last [] t6) by exact N6. reflexivity.
Qed.

Lemma sample_for_pair pl a rq w o w' before rd after c : Describes pl a rq ->
  core_open SudoPair pl a (pstate0 _) w = (o, w') ->
  w_trace w' = w_trace w ++ before ++ rd :: after -> e_call rd = CRead c ->
  (forall ev t, In ev before -> Is (CReadFile (rq_pair_prompt_path rq)) (AData t) ev -> t = sample_pair) ->
  exists e1 acc e2 n peer d line, before = e1 ++ acc :: e2 /\ Accepts n c peer acc
  /\ Directory rq d /\ Invocation rq line
  /\ (delivered c e2 =
        (B "You have been asked to approve and monitor the following sudo session:" ++ [x0a; x0a] ++ B "    <")
        ++ bold ++ blue ++ rq_user rq ++ plainly ++ B "@" ++ bold ++ red ++ rq_host rq ++ plainly ++ B ":"
        ++ bold ++ blue ++ d ++ plainly ++ B " " ++ red ++ B "$" ++ plainly ++ B " > " ++ line
        ++ ([x0a; x0a] ++ B "Once approved, this terminal will mirror all output from the active sudo session until its completion." ++ [x0a; x0a])
        ++ bold ++ B "Closing this terminal, losing your network connection to this host, or explicitly ending the session by typing <Ctrl-D> will cause the command being run under elevated privileges to terminate immediately."
        ++ plainly ++ [x0a; x0a] ++ B "Approve? y/n [n]: "
      \/ (forall ev t, In ev e2 -> ~ Is (CReadFile (rq_pair_prompt_path rq)) (AData t) ev)
         /\ delivered c e2 = rq_user rq ++ B "@" ++ rq_host rq ++ B ":" ++ d ++ B "$ " ++ line ++ [x0a] ++ B "y/n? [n]: ").
Proof.
  intros D H T R S. destruct (pair_delivered _ _ _ _ _ _ _ _ _ _ D H T R S) as (e1 & acc & e2 & n & peer & E & HA & K).
  destruct K as [K|[N K]].
  - apply pair_text in K as (d & line & HD & HI & K). exists e1, acc, e2, n, peer, d, line. auto 10.
  - apply default_text in K as (d & line & HD & HI & K). exists e1, acc, e2, n, peer, d, line. auto 10.
Qed.

Lemma sample_painted pl a rq w o w' before rd after c : Describes pl a rq ->
  core_open SudoPair pl a (pstate0 _) w = (o, w') ->
  w_trace w' = w_trace w ++ before ++ rd :: after -> e_call rd = CRead c ->
  (forall ev t, In ev before -> Is (CReadFile (rq_pair_prompt_path rq)) (AData t) ev -> t = sample_pair) ->
  exists e1 acc e2 n peer d line, before = e1 ++ acc :: e2 /\ Accepts n c peer acc
  /\ Directory rq d /\ Invocation rq line
  /\ (~ In x1b (rq_user rq) -> ~ In x1b (rq_host rq) -> ~ In x1b d -> ~ In x1b line ->
      painted (delivered c e2) =
        in_style [] (B "You have been asked to approve and monitor the following sudo session:" ++ [x0a; x0a] ++ B "    <")
        ++ in_style [B "1"; B "34"] (rq_user rq) ++ in_style [] (B "@") ++ in_style [B "1"; B "31"] (rq_host rq) ++ in_style [] (B ":")
        ++ in_style [B "1"; B "34"] d ++ in_style [] (B " ") ++ in_style [B "31"] (B "$") ++ in_style [] (B " > ") ++ in_style [] line
        ++ in_style [] ([x0a; x0a] ++ B "Once approved, this terminal will mirror all output from the active sudo session until its completion." ++ [x0a; x0a])
        ++ in_style [B "1"] (B "Closing this terminal, losing your network connection to this host, or explicitly ending the session by typing <Ctrl-D> will cause the command being run under elevated privileges to terminate immediately.")
        ++ in_style [] ([x0a; x0a] ++ B "Approve? y/n [n]: ")
      \/ (forall ev t, In ev e2 -> ~ Is (CReadFile (rq_pair_prompt_path rq)) (AData t) ev)
         /\ painted (delivered c e2) =
            in_style [] (rq_user rq ++ B "@" ++ rq_host rq ++ B ":" ++ d ++ B "$ " ++ line ++ [x0a] ++ B "y/n? [n]: ")).
Proof.
  intros D H T R S. destruct (sample_for_pair _ _ _ _ _ _ _ _ _ _ D H T R S) as (e1 & acc & e2 & n & peer & d & line & E & HA & HD & HI & K).
  exists e1, acc, e2, n, peer, d, line. split; [exact E|]. split; [exact HA|]. split; [exact HD|]. split; [exact HI|].
  intros NU NH ND NL. destruct K as [K|[N K]].
  - left. apply pair_seen; assumption.
  - right. split; [exact N|]. rewrite K. apply paint_last. rewrite !in_app_iff. cbn. intuition discriminate.
Qed.

Lemma sample_for_user pl a rq w o w' evs ls st r d : Describes pl a rq ->
  core_open SudoPair pl a (pstate0 _) w = (o, w') -> w_trace w' = w_trace w ++ evs ->
  evs = ls ++ st :: r -> Only LocalPrompt ls -> e_call st = CStat d ->
  (exists ev, In ev ls /\ Is (CReadFile (rq_user_prompt_path rq)) (AData sample_user) ev) ->
  (forall ev t, In ev ls -> Is (CReadFile (rq_user_prompt_path rq)) (AData t) ev -> t = sample_user) ->
  ~ TerminalFailed rq ls ->
  exists u p, Decimal (rq_uid rq) u /\ Decimal (rq_pid rq) p /\ shown ls =
    B "Due to security and compliance requirements, this `sudo` session will require approval and monitoring." ++ [x0a; x0a]
    ++ B "To continue, another human must run:" ++ [x0a; x0a]
    ++ B "    docker exec -it " ++ rq_host rq ++ B " '" ++ rq_binary_path rq ++ B " " ++ u ++ B " " ++ p ++ B "'" ++ [x0a; x0a]
    ++ B "If a suitable human is not available and you have an immediate and urgent need to run this command, you may run the above command to approve your own session. "
    ++ bold ++ B "Note that doing so will immediately page an oncall security engineer, so this capability should only be used in the event of an emergency."
    ++ plainly ++ [x0a].
Proof.
  intros D H T E O C (ev & HI & HR) S NT.
  destruct (prompt_shown pl a rq D w o w' evs H T ls st r d E O C) as (out & (t & HT & HE) & [[K _]|[K _]]); [|contradiction].
  assert (Et : t = sample_user).
  { destruct HT as [(ev' & HI' & HR')|[_ N]]; [exact (S ev' t HI' HR')|destruct (N ev _ HI HR)]. }
  subst t. apply user_text in HE as (u & p & HU & HP & HE). exists u, p. split; [exact HU|]. split; [exact HP|].
  rewrite K, HE, <- !app_assoc. reflexivity.
Qed.
