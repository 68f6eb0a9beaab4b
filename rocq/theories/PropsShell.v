(** Property theorems about the instruction as a shell reads it: C95. *)
From Coq Require Import Lia.
From Verif Require Import Base Num Path Options World Sys Io Socket Env Core Pair Script Spec ScriptSpec TraceSpec SessionSpec
  RequestProofs PairPure InputFacts AskFacts SessionFacts HonourSpec LocalFacts ScriptFacts Samples Worlds PropsSocket PropsHonour PropsLocal
  Shell ShellFacts.
Local Open Scope Z_scope.

(** *** C95: following the instruction *)

(** The default prompt: the approval program with two arguments. *)
Theorem C95_default : forall rq out, Expands "%" (Directive rq) (B "%B %u %p" ++ [x0a]) out ->
  Forall plain (rq_binary_path rq) -> rq_binary_path rq <> [] ->
  exists line u p, out = line ++ [x0a] /\ Decimal (rq_uid rq) u /\ Decimal (rq_pid rq) p
  /\ shell_words line = Some [rq_binary_path rq; u; p].
Proof. exact default_read. Qed.
Print Assumptions C95_default.

(** From end to end: there is no template for the user and the terminal takes
    the prompt. A shell splits the line on the terminal into the approval program and two
    arguments; given these the script runs nothing by way of expanding them
    and looks for the socket at the name this very opening binds. *)
Theorem C95_opening : forall pl a rq w o w' evs ls st r d, Describes pl a rq ->
  core_open SudoPair pl a (pstate0 _) w = (o, w') -> w_trace w' = w_trace w ++ evs ->
  evs = ls ++ st :: r -> Only LocalPrompt ls -> e_call st = CStat d ->
  (forall ev t, In ev ls -> ~ Is (CReadFile (rq_user_prompt_path rq)) (AData t) ev) ->
  ~ TerminalFailed rq ls -> Forall plain (rq_binary_path rq) -> rq_binary_path rq <> [] ->
  rq_socket_dir rq = B "/var/run/sudo_pair" \/ rq_socket_dir rq = B "/var/run/sudo_pair/" ->
  exists line u p s, shown ls = line ++ [x0a] /\ shell_words line = Some [rq_binary_path rq; u; p]
  /\ script_commands u p = Some [] /\ script_socket u p = Some s
  /\ Only (fun c => forall q, c = CBind q -> q = components s) evs.
Proof. exact opening_read. Qed.
Print Assumptions C95_opening.

(** Alice's command, approved by root. *)
Example C95_opening_example :
  let evs := w_trace (snd (local_run local_turns)) in
  let ls := firstn (List.length local_turns) evs in
  Describes release to_root to_root_rq /\ stat_at (List.length local_turns) local_turns = true
  /\ local_until (List.length local_turns) local_turns = true
  /\ (forall ev t, In ev ls -> ~ Is (CReadFile (rq_user_prompt_path to_root_rq)) (AData t) ev)
  /\ ~ TerminalFailed to_root_rq ls
  /\ shown ls = B "/usr/bin/sudo_approve 1000 4242" ++ [x0a]
  /\ script_socket (B "1000") (B "4242") = Some (B "/var/run/sudo_pair/1000.4242.sock")
  /\ existsb (fun ev => match e_call ev with CBind q => comps_eqb q (components (B "/var/run/sudo_pair/1000.4242.sock")) | _ => false end) evs = true.
Proof.
  cbv zeta. split; [exact to_root_describes|]. split; [vm_compute; reflexivity|]. split; [vm_compute; reflexivity|].
  assert (F : forallb (fun ev => match e_call ev, e_ans ev with
      | CReadFile _, AData _ => false | COpenTty _, AErr _ => false
      | CWriteTty _, AErr _ => false | CWriteTty _, ANum n => 0 <? n
      | _, _ => true end) (firstn (List.length local_turns) (w_trace (snd (local_run local_turns)))) = true) by (vm_compute; reflexivity).
  rewrite forallb_forall in F.
  split; [intros ev t HI [HC HA]; specialize (F ev HI); rewrite HC, HA in F; discriminate F|].
  split.
  - intros K. cbn in K. destruct K as [K|(op & HI & HC & K)].
    + vm_compute in K. intuition discriminate.
    + destruct K as [[x HA]|(_ & wr & d & HI2 & HC2 & HF)].
      * specialize (F op HI). rewrite HC, HA in F. discriminate F.
      * specialize (F wr HI2). rewrite HC2 in F. unfold Failed in HF. destruct (e_ans wr) as [|x|z|x]; [destruct HF|discriminate F| |destruct HF].
        rewrite HC2 in HF. apply Z.ltb_lt in F. lia.
  - split; [vm_compute; reflexivity|]. split; vm_compute; reflexivity.
Qed.

(** sample/etc/sudo_pair.prompt.user:5. docker is given the program and its
    arguments as a single word. *)
Definition sample_instruction : bytes := B "    docker exec -it %h '%B %u %p'".

Theorem C95_sample : forall rq out, Expands "%" (Directive rq) sample_instruction out ->
  Forall plain (rq_host rq) -> rq_host rq <> [] -> ~ In x27 (rq_binary_path rq) ->
  exists u p, Decimal (rq_uid rq) u /\ Decimal (rq_pid rq) p
  /\ shell_words out = Some [B "docker"; B "exec"; B "-it"; rq_host rq; rq_binary_path rq ++ B " " ++ u ++ B " " ++ p].
Proof. exact sample_read. Qed.
Print Assumptions C95_sample.

(** It says: to continue, another human must run this (line 3). *)
Definition C95_full : Prop := forall rq out u p, Expands "%" (Directive rq) sample_instruction out ->
  Decimal (rq_uid rq) u -> Decimal (rq_pid rq) p ->
  Forall plain (rq_host rq) -> rq_host rq <> [] -> Forall plain (rq_binary_path rq) -> rq_binary_path rq <> [] ->
  shell_words out = Some [B "docker"; B "exec"; B "-it"; rq_host rq; rq_binary_path rq; u; p].

(** Alice's command on web1. *)
Lemma sample_shown : Expands "%" (Directive to_root_rq) sample_instruction (B "    docker exec -it web1 '/usr/bin/sudo_approve 1000 4242'").
Proof.
  unfold sample_instruction. cbn [B String.list_byte_of_string map].
  repeat (apply Ex_literal; [discriminate|]).
  change (Expands "%" (Directive to_root_rq) (B "%h '%B %u %p'") (B "web1" ++ B " '/usr/bin/sudo_approve 1000 4242'")).
  apply Ex_directive; [exact (D_h to_root_rq)|]. do 2 (apply Ex_literal; [discriminate|]).
  change (Expands "%" (Directive to_root_rq) (B "%B %u %p'") (B "/usr/bin/sudo_approve" ++ B " 1000 4242'")).
  apply Ex_directive; [exact (D_B to_root_rq)|]. apply Ex_literal; [discriminate|].
  change (Expands "%" (Directive to_root_rq) (B "%u %p'") (B "1000" ++ B " 4242'")).
  apply Ex_directive; [apply (D_u to_root_rq); apply Decimal_iff; vm_compute; reflexivity|]. apply Ex_literal; [discriminate|].
  change (Expands "%" (Directive to_root_rq) (B "%p'") (B "4242" ++ B "'")).
  apply Ex_directive; [apply (D_p to_root_rq); apply Decimal_iff; vm_compute; reflexivity|]. apply Ex_literal; [discriminate|].
  apply Ex_end.
Qed.

Example C95_example : Forall plain (rq_binary_path to_root_rq) /\ Forall plain (rq_host to_root_rq)
  /\ shell_words (B "/usr/bin/sudo_approve 1000 4242") = Some [B "/usr/bin/sudo_approve"; B "1000"; B "4242"]
  /\ shell_words (B "    docker exec -it web1 '/usr/bin/sudo_approve 1000 4242'")
     = Some [B "docker"; B "exec"; B "-it"; B "web1"; B "/usr/bin/sudo_approve 1000 4242"]
  /\ shell_words (B "a'b c'd  e") = Some [B "ab cd"; B "e"] /\ shell_words (B "a 'b") = None /\ shell_words (B "a;b") = None.
Proof. repeat split; repeat constructor. Qed.

Theorem C95_refuted : exists rq out u p, Expands "%" (Directive rq) sample_instruction out
  /\ Decimal (rq_uid rq) u /\ Decimal (rq_pid rq) p /\ Forall plain (rq_host rq) /\ rq_host rq <> []
  /\ Forall plain (rq_binary_path rq) /\ rq_binary_path rq <> []
  /\ shell_words out <> Some [B "docker"; B "exec"; B "-it"; rq_host rq; rq_binary_path rq; u; p].
Proof.
  exists to_root_rq, (B "    docker exec -it web1 '/usr/bin/sudo_approve 1000 4242'"), (B "1000"), (B "4242").
  split; [exact sample_shown|]. split; [apply Decimal_iff; vm_compute; reflexivity|]. split; [apply Decimal_iff; vm_compute; reflexivity|].
  split; [repeat constructor|]. split; [discriminate|]. split; [repeat constructor|]. split; [discriminate|]. vm_compute. discriminate.
Qed.
Print Assumptions C95_refuted.

Theorem C95_not_full : ~ C95_full.
Proof.
  intros F. destruct C95_refuted as (rq & out & u & p & H1 & H2 & H3 & H4 & H5 & H6 & H7 & N).
  exact (N (F rq out u p H1 H2 H3 H4 H5 H6 H7)).
Qed.
Print Assumptions C95_not_full.
