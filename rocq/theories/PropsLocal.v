(** Properties of the local prompt. *)
From Verif Require Import Base Num Path Template Options World Sys Io Socket Env Core Pair Spec TraceSpec SessionSpec Samples
  PairPure InputFacts AskFacts Worlds SessionFacts MiscFacts SplitFacts HonourSpec HonourFacts PropsHonour LocalFacts.
Local Open Scope Z_scope.

(** *** C35: failures of the local prompt never decide the session *)

(** However the calls of the local prompt are answered (as long as printf does
    not claim to have printed more than it was given), an opening that returns
    goes on to look at the socket directory. *)
Theorem C35_goes_on : forall pl a rq w o w' evs,
  Describes pl a rq -> Askable pl a rq ->
  core_open SudoPair pl a (pstate0 _) w = (o, w') -> w_trace w' = w_trace w ++ evs ->
  o <> Stopped -> HonestPrintf evs ->
  exists ls st r d, evs = ls ++ st :: r /\ Only LocalPrompt ls /\ e_call st = CStat d.
Proof. exact (fun pl a rq w o w' evs D K => open_reaches pl a rq D K w o w' evs). Qed.
Print Assumptions C35_goes_on.

(** Two openings that differ only in how the calls of the local prompt ([l1]
    and [l2]) are answered return the same and make the same calls with the
    same results from then on. *)
Theorem C35_same_code : forall pl a rq k l1 l2 s tr1 tr2 o1 o2 w1 w2 ls1 ls2 st1 st2 r1 r2 d1 d2,
  Describes pl a rq ->
  core_open SudoPair pl a (pstate0 _) (mkWorld k (l1 ++ s) tr1) = (o1, w1) ->
  core_open SudoPair pl a (pstate0 _) (mkWorld k (l2 ++ s) tr2) = (o2, w2) ->
  w_trace w1 = tr1 ++ ls1 ++ st1 :: r1 -> Only LocalPrompt ls1 -> e_call st1 = CStat d1 -> List.length ls1 = List.length l1 ->
  w_trace w2 = tr2 ++ ls2 ++ st2 :: r2 -> Only LocalPrompt ls2 -> e_call st2 = CStat d2 -> List.length ls2 = List.length l2 ->
  flat_map fst l1 = flat_map fst l2 ->
  o1 = o2 /\ st1 :: r1 = st2 :: r2 /\ w_k w1 = w_k w2 /\ w_script w1 = w_script w2.
Proof. exact (fun pl a rq k l1 l2 s tr1 tr2 o1 o2 w1 w2 ls1 ls2 st1 st2 r1 r2 d1 d2 D =>
  same_opening pl a rq D k l1 l2 s tr1 tr2 o1 o2 w1 w2 ls1 ls2 st1 st2 r1 r2 d1 d2). Qed.
Print Assumptions C35_same_code.

(** printf is used for the prompt only once the terminal has failed, and the
    terminal is not used again after that. *)
Theorem C35_terminal_first : forall pl a rq w o w' evs e1 ev e2 rest l d,
  Describes pl a rq -> Askable pl a rq ->
  core_open SudoPair pl a (pstate0 _) w = (o, w') -> w_trace w' = w_trace w ++ evs ->
  evs = e1 ++ ev :: e2 ++ rest -> e_call ev = CPrintf l d -> Only LocalPrompt (e1 ++ ev :: e2) ->
  TerminalFailed rq e1 /\ Only NotTerminal e2 /\ exists out, UserPrompt rq e1 out /\ Infix d out.
Proof. exact (fun pl a rq w o w' evs e1 ev e2 rest l d D K H T => printf_after_terminal pl a rq D K w o w' evs H T e1 ev e2 rest l d). Qed.
Print Assumptions C35_terminal_first.

(** If the terminal does not fail, it gets the whole prompt and printf none of
    it. If it fails, what it did get is a beginning of the prompt, and the whole
    prompt goes to standard error (level 3), unless sudo gave no printf, the
    prompt has a NUL in it or a printf call fails. *)
Theorem C35_shown : forall pl a rq w o w' evs ls st r d,
  Describes pl a rq ->
  core_open SudoPair pl a (pstate0 _) w = (o, w') -> w_trace w' = w_trace w ++ evs ->
  evs = ls ++ st :: r -> Only LocalPrompt ls -> e_call st = CStat d ->
  exists out, UserPrompt rq ls out /\
    ((shown ls = out /\ Only NotPrint ls)
     \/ (TerminalFailed rq ls /\ Prefix (shown ls) out
         /\ Only (fun c => forall l x, c = CPrintf l x -> l = 3) ls
         /\ (rq_printf rq = true -> ~ In x00 out ->
             (forall ev, In ev ls -> Prints (e_call ev) -> ~ Failed ev) -> printed 3 ls = out))).
Proof. exact (fun pl a rq w o w' evs ls st r d D H T => prompt_shown pl a rq D w o w' evs H T ls st r d). Qed.
Print Assumptions C35_shown.

Definition peer_turns : list turn := socket_turns [(root, Connect sock)] ++ talk 67 (B "y").
(** The prompt file is unreadable, the terminal cannot be opened, printf fails. *)
Definition deaf_turns : list turn := [t (AErr 13); t (AErr 6); t (AErr 5)].
(** The terminal takes part of the prompt, then fails; printf prints the rest bit by bit. *)
Definition broken_turns : list turn := [t (AErr ENOENT); t AOk; t (ANum 7); t (AErr 5); t (ANum 2); t (ANum 30); t AOk].

Definition local_run (l : list turn) := core_open SudoPair release to_root (pstate0 _) (world_of k_root (l ++ peer_turns)).
Definition stat_at (n : nat) (l : list turn) : bool :=
  match skipn n (w_trace (snd (local_run l))) with
  | ev :: _ => match e_call ev with CStat _ => true | _ => false end
  | [] => false
  end.
Definition local_call (c : call) : bool :=
  match c with CReadFile _ | COpenTty _ | CWriteTty _ | CCloseTty | CPrintf _ _ => true | _ => false end.
Definition local_until (n : nat) (l : list turn) : bool :=
  forallb (fun ev => local_call (e_call ev)) (firstn n (w_trace (snd (local_run l)))).

Example C35_example :
  Forall (fun l => code (local_run l) = Some 1 /\ local_until (List.length l) l = true /\ stat_at (List.length l) l = true)
    [local_turns; deaf_turns; broken_turns].
Proof. repeat constructor; vm_compute; reflexivity. Qed.

(** With the terminal broken off after seven bytes, standard error gets the
    whole prompt. *)
Example C35_shown_example :
  let ls := firstn (List.length broken_turns) (w_trace (snd (local_run broken_turns))) in
  let out := printed 3 ls in
  List.length out = 32%nat /\ shown ls = firstn 7 out /\ out <> [].
Proof. cbv zeta. repeat split; [vm_compute; reflexivity..|]. intros H. apply (f_equal (@List.length _)) in H. vm_compute in H. discriminate. Qed.

(** The proviso on printf is needed: a printf that claims too much makes the
    plugin panic, and the session is refused before the socket is looked at. *)
Theorem C35_overcount_refuted :
  let r := local_run [t (AErr 13); t (AErr 6); t (ANum 1000)] in
  code r = Some (-1) /\ Only LocalPrompt (w_trace (snd r)).
Proof.
  cbv zeta. split; [vm_compute; reflexivity|].
  assert (H : forall evs, forallb (fun ev => local_call (e_call ev)) evs = true -> Only LocalPrompt evs).
  { intros evs H. rewrite forallb_forall in H. apply Forall_forall. intros ev Hi. specialize (H _ Hi).
    cbn in H. destruct (e_call ev); try discriminate; exact I. }
  apply H. vm_compute. reflexivity.
Qed.
Print Assumptions C35_overcount_refuted.
