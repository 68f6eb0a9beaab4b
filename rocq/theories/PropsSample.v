(** Property theorems about the sample prompts: C103. *)
From Coq Require Import Lia.
From Verif Require Import Base BaseLemmas Num Path Options World Sys Io Socket Env Core Pair Spec TraceSpec SessionSpec
  RequestProofs HonourSpec LocalFacts Samples Worlds PropsSocket PropsHonour PropsLocal SamplePrompts SampleFacts.
Local Open Scope Z_scope.

(** *** C103: the sample prompts show what is to be approved *)

(** The file of the prompt for the pair, whenever it can be read, is the
    sample. Before being asked, the pair is sent the user, the host, the
    directory and the command line of the request in this text, or the
    built-in one if the file was not read. *)
Theorem C103_pair : forall pl a rq w o w' before rd after c, Describes pl a rq ->
  core_open SudoPair pl a (pstate0 _) w = (o, w') ->
  w_trace w' = w_trace w ++ before ++ rd :: after -> e_call rd = CRead c ->
  (forall ev t, In ev before -> Is (CReadFile (rq_pair_prompt_path rq)) (AData t) ev -> t = sample_pair) ->
  exists e1 acc e2 n peer d line, before = e1 ++ acc :: e2 /\ Accepts n c peer acc
  /\ Directory rq d /\ Invocation rq line
  /\ (delivered c e2 =
        (B "You have been asked to approve and monitor the following sudo session:" ++ [x0a; x0a] ++ B "    <")
        ++ bold ++ blue ++ rq_user rq ++ plainly ++ B "@" ++ bold ++ red ++ rq_host rq ++ plainly ++ B ":"
        ++ bold ++ blue ++ d ++ plainly ++ B " " ++ red ++ B "$" ++ plainly ++ B " > " ++ line
        ++ ([x0a; x0a] ++ B "Once approved, this terminal will mirror all output from the active sudo session until its completion." ++ [x0a; x0a])
        ++ bold ++ B "Closing this terminal, losing your network connection to this host, or explicitly ending the session by typing <Ctrl-D> will cause the command being run under elevated privileges to terminate immediately."
        ++ plainly ++ [x0a; x0a] ++ B "Approve? y/n [n]: "
      \/ (forall ev t, In ev e2 -> ~ Is (CReadFile (rq_pair_prompt_path rq)) (AData t) ev)
         /\ delivered c e2 = rq_user rq ++ B "@" ++ rq_host rq ++ B ":" ++ d ++ B "$ " ++ line ++ [x0a] ++ B "y/n? [n]: ").
Proof. exact sample_for_pair. Qed.
Print Assumptions C103_pair.

(** As painted by a terminal: the user and the directory bold and blue (1, 34),
    the host bold and red (1, 31), the command and the question in no style. *)
Theorem C103_painted : forall pl a rq w o w' before rd after c, Describes pl a rq ->
  core_open SudoPair pl a (pstate0 _) w = (o, w') ->
  w_trace w' = w_trace w ++ before ++ rd :: after -> e_call rd = CRead c ->
  (forall ev t, In ev before -> Is (CReadFile (rq_pair_prompt_path rq)) (AData t) ev -> t = sample_pair) ->
  exists e1 acc e2 n peer d line, before = e1 ++ acc :: e2 /\ Accepts n c peer acc
  /\ Directory rq d /\ Invocation rq line
  /\ (~ In x1b (rq_user rq) -> ~ In x1b (rq_host rq) -> ~ In x1b d -> ~ In x1b line ->
      painted (delivered c e2) =
        in_style [] (B "You have been asked to approve and monitor the following sudo session:" ++ [x0a; x0a] ++ B "    <")
        ++ in_style [B "1"; B "34"] (rq_user rq) ++ in_style [] (B "@") ++ in_style [B "1"; B "31"] (rq_host rq) ++ in_style [] (B ":")
        ++ in_style [B "1"; B "34"] d ++ in_style [] (B " ") ++ in_style [B "31"] (B "$") ++ in_style [] (B " > ") ++ in_style [] line
        ++ in_style [] ([x0a; x0a] ++ B "Once approved, this terminal will mirror all output from the active sudo session until its completion." ++ [x0a; x0a])
        ++ in_style [B "1"] (B "Closing this terminal, losing your network connection to this host, or explicitly ending the session by typing <Ctrl-D> will cause the command being run under elevated privileges to terminate immediately.")
        ++ in_style [] ([x0a; x0a] ++ B "Approve? y/n [n]: ")
      \/ (forall ev t, In ev e2 -> ~ Is (CReadFile (rq_pair_prompt_path rq)) (AData t) ev)
         /\ painted (delivered c e2) =
            in_style [] (rq_user rq ++ B "@" ++ rq_host rq ++ B ":" ++ d ++ B "$ " ++ line ++ [x0a] ++ B "y/n? [n]: ")).
Proof. exact sample_painted. Qed.
Print Assumptions C103_painted.

(** Likewise what the user is shown on the terminal, if the terminal takes it:
    the instruction with the host, the approval program, the user's number and
    the number of the process. *)
Theorem C103_user : forall pl a rq w o w' evs ls st r d, Describes pl a rq ->
  core_open SudoPair pl a (pstate0 _) w = (o, w') -> w_trace w' = w_trace w ++ evs ->
  evs = ls ++ st :: r -> Only LocalPrompt ls -> e_call st = CStat d ->
  (exists ev, In ev ls /\ Is (CReadFile (rq_user_prompt_path rq)) (AData sample_user) ev) ->
  (forall ev t, In ev ls -> Is (CReadFile (rq_user_prompt_path rq)) (AData t) ev -> t = sample_user) ->
  ~ TerminalFailed rq ls ->
  exists u p, Decimal (rq_uid rq) u /\ Decimal (rq_pid rq) p /\ shown ls =
    B "Due to security and compliance requirements, this `sudo` session will require approval and monitoring." ++ [x0a; x0a]
    ++ B "To continue, another human must run:" ++ [x0a; x0a]
    ++ B "    docker exec -it " ++ rq_host rq ++ B " '" ++ rq_binary_path rq ++ B " " ++ u ++ B " " ++ p ++ B "'" ++ [x0a; x0a]
    ++ B "If a suitable human is not available and you have an immediate and urgent need to run this command, you may run the above command to approve your own session. "
    ++ bold ++ B "Note that doing so will immediately page an oncall security engineer, so this capability should only be used in the event of an emergency."
    ++ plainly ++ [x0a].
Proof. exact sample_for_user. Qed.
Print Assumptions C103_user.

(** Alice's command, with both samples installed. *)
Definition alice_pair : bytes :=
  (B "You have been asked to approve and monitor the following sudo session:" ++ [x0a; x0a] ++ B "    <")
  ++ bold ++ blue ++ B "alice" ++ plainly ++ B "@" ++ bold ++ red ++ B "web1" ++ plainly ++ B ":"
  ++ bold ++ blue ++ B "/home/alice" ++ plainly ++ B " " ++ red ++ B "$" ++ plainly ++ B " > " ++ B "sudo --user root cat /etc/shadow"
  ++ ([x0a; x0a] ++ B "Once approved, this terminal will mirror all output from the active sudo session until its completion." ++ [x0a; x0a])
  ++ bold ++ B "Closing this terminal, losing your network connection to this host, or explicitly ending the session by typing <Ctrl-D> will cause the command being run under elevated privileges to terminate immediately."
  ++ plainly ++ [x0a; x0a] ++ B "Approve? y/n [n]: ".
Definition alice_user : bytes :=
  B "Due to security and compliance requirements, this `sudo` session will require approval and monitoring." ++ [x0a; x0a]
  ++ B "To continue, another human must run:" ++ [x0a; x0a]
  ++ B "    docker exec -it web1 '/usr/bin/sudo_approve 1000 4242'" ++ [x0a; x0a]
  ++ B "If a suitable human is not available and you have an immediate and urgent need to run this command, you may run the above command to approve your own session. "
  ++ bold ++ B "Note that doing so will immediately page an oncall security engineer, so this capability should only be used in the event of an emergency."
  ++ plainly ++ [x0a].
Definition sample_turns : list turn :=
  [t (AData sample_user); t AOk; t (ANum (Z.of_nat (List.length alice_user))); t AOk]
  ++ socket_turns [(root, Connect sock)]
  ++ [t (AData sample_pair)] ++ write_turns (Z.of_nat (List.length alice_pair)) ++ flush_turns ++ read_turns (B "y") ++ echo_turns.
Definition sample_run := core_open SudoPair release to_root (pstate0 _) (world_of k_root sample_turns).

Example C103_example :
  let evs := w_trace (snd sample_run) in
  Describes release to_root to_root_rq /\ code sample_run = Some 1
  /\ shown (firstn 4 evs) = alice_user
  /\ (exists rd, nth_error evs 28 = Some rd /\ e_call rd = CRead 0 /\ delivered 0 (firstn 28 evs) = alice_pair)
  /\ Forall (fun ev => forall d, Is (CReadFile (B "/etc/sudo_pair.prompt.pair")) (AData d) ev -> d = sample_pair) evs
  /\ map fst (painted alice_pair)
     = B "You have been asked to approve and monitor the following sudo session:" ++ [x0a; x0a]
       ++ B "    <alice@web1:/home/alice $ > sudo --user root cat /etc/shadow" ++ [x0a; x0a]
       ++ B "Once approved, this terminal will mirror all output from the active sudo session until its completion." ++ [x0a; x0a]
       ++ B "Closing this terminal, losing your network connection to this host, or explicitly ending the session by typing <Ctrl-D> will cause the command being run under elevated privileges to terminate immediately."
       ++ [x0a; x0a] ++ B "Approve? y/n [n]: ".
Proof.
  cbv zeta. split; [exact to_root_describes|]. split; [vm_compute; reflexivity|]. split; [vm_compute; reflexivity|].
  split; [eexists; split; [vm_compute; reflexivity|]; split; vm_compute; reflexivity|]. 
  split; [|vm_compute; reflexivity].
  apply Forall_forall. intros ev HI d [HC HA].
  assert (F : forallb (fun ev => match e_call ev, e_ans ev with
      | CReadFile p, AData d => negb (bytes_eqb p (B "/etc/sudo_pair.prompt.pair")) || bytes_eqb d sample_pair | _, _ => true end)
      (w_trace (snd sample_run)) = true) by (vm_compute; reflexivity).
  rewrite forallb_forall in F. specialize (F ev HI). rewrite HC, HA in F. rewrite bytes_eqb_refl in F. cbn [negb orb] in F.
  apply bytes_eqb_eq in F. exact F.
Qed.
