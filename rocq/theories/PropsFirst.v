(** Property theorems about the first to connect: C97. *)
From Verif Require Import Base Num Path Template Options World Sys Io Socket Env Core Pair Spec TraceSpec SessionSpec Samples
  NumProofs RequestProofs PairPure InputFacts AskFacts Worlds SessionFacts PropsSocket FirstFacts.
Local Open Scope Z_scope.

(** *** C97: the first to connect decides alone *)

(** One connection at most is accepted by an opening, and afterwards it does
    not listen anew: whatever becomes of the opening. *)
Theorem C97_one : forall pl a rq w o w' evs e1 acc e2, Describes pl a rq ->
  core_open SudoPair pl a (pstate0 _) w = (o, w') -> w_trace w' = w_trace w ++ evs ->
  evs = e1 ++ acc :: e2 -> Is CAccept AOk acc ->
  (forall ev, In ev e1 -> ~ Is CAccept AOk ev)
  /\ Only (fun c => c <> CSocket /\ (forall q, c <> CBind q) /\ c <> CListen /\ c <> CAccept) e2.
Proof. exact one_only'. Qed.
Print Assumptions C97_one.

(** The listening socket is closed at once. From then on, in every state up to
    the last, connecting is to no avail, whoever tries it and wherever; one
    connection has been made. *)
Theorem C97_late : forall pl a rq w o w' evs e1 acc cl e2, Describes pl a rq ->
  core_open SudoPair pl a (pstate0 _) w = (o, w') -> w_trace w' = w_trace w ++ evs ->
  evs = e1 ++ acc :: cl :: e2 -> Is CAccept AOk acc ->
  Is CCloseListener AOk cl
  /\ (forall ev c q, In ev e2 -> act (e_pre ev) (c, Connect q) = e_pre ev)
  /\ (forall c q, act (w_k w') (c, Connect q) = w_k w')
  /\ exists peer, k_conns (w_k w') = k_conns (w_k w) ++ [peer].
Proof. exact (fun pl a rq w o w' evs e1 acc cl e2 D => too_late pl a rq D w o w' evs e1 acc cl e2). Qed.
Print Assumptions C97_late.

(** Two people connect while the plugin waits, a third one later on. The first
    of them is asked. *)
Definition carol : cred := mkCred 0 [0; 1002] true.
Definition dave : cred := mkCred 0 [0; 1003] true.
Definition crowd_world : world := world_of k_root
  (local_turns ++ socket_turns [(carol, Connect sock); (dave, Connect sock)]
   ++ match talk 67 (B "y") with x :: l => ([(root, Connect sock)], snd x) :: l | [] => [] end).
Example C97_example : Describes release to_root to_root_rq /\ code (root_run crowd_world) = Some 1
  /\ e_call (nth 13 (w_trace (snd (root_run crowd_world))) no_event) = CAccept
  /\ e_call (nth 14 (w_trace (snd (root_run crowd_world))) no_event) = CCloseListener
  /\ option_map (fun l => List.length (l_queue l)) (k_listen (e_pre (nth 13 (w_trace (snd (root_run crowd_world))) no_event))) = Some 2%nat
  /\ map cr_gids (k_conns (w_k (snd (root_run crowd_world)))) = [[0; 1002]].
Proof. split; [exact to_root_describes|]. repeat split; vm_compute; reflexivity. Qed.

(** It would be well if, while an opening has no answer, somebody able to
    approve could still connect. *)
Definition C97_full : Prop := forall pl a rq w w', Describes pl a rq -> k_listen (w_k w) = None -> w_trace w = [] ->
  core_open SudoPair pl a (pstate0 _) w = (Stopped, w') -> reads (w_trace w') = [] ->
  (exists b q, In b (w_trace w') /\ Creates q b) ->
  exists c q, act (w_k w') (c, Connect q) <> w_k w'.

(** carol connects, is sent the whole prompt, and does not answer. Nobody can
    take the place. *)
Definition stalled_world : world := world_of k_root
  (local_turns ++ socket_turns [(carol, Connect sock)] ++ [t (AErr ENOENT)] ++ write_turns 67 ++ flush_turns ++ [t AOk; t AOk]).
Theorem C97_refuted : exists pl a rq w w', Describes pl a rq /\ k_listen (w_k w) = None /\ w_trace w = []
  /\ core_open SudoPair pl a (pstate0 _) w = (Stopped, w') /\ reads (w_trace w') = []
  /\ (exists b q, In b (w_trace w') /\ Creates q b)
  /\ delivered 0 (w_trace w') = B "alice@web1:/home/alice$ sudo --user root cat /etc/shadow" ++ [x0a] ++ B "y/n? [n]: "
  /\ forall c q, act (w_k w') (c, Connect q) = w_k w'.
Proof.
  exists release, to_root, to_root_rq, stalled_world, (snd (root_run stalled_world)). split; [exact to_root_describes|].
  split; [reflexivity|]. split; [reflexivity|].
  assert (HS : match fst (root_run stalled_world) with Stopped => true | _ => false end = true) by (vm_compute; reflexivity).
  assert (HR : root_run stalled_world = (Stopped, snd (root_run stalled_world)))
    by (destruct (root_run stalled_world) as [[x| |] y]; [discriminate HS|discriminate HS|reflexivity]).
  split; [exact HR|]. split; [vm_compute; reflexivity|]. split.
  - exists (nth 8 (w_trace (snd (root_run stalled_world))) no_event), sock.
    split; [apply nth_In; vm_compute; repeat constructor|]. split; [vm_compute; reflexivity|].
    split; [exists 0; vm_compute; reflexivity|]. split; [vm_compute; discriminate|]. split; [vm_compute; reflexivity|vm_compute; discriminate].
  - split; [vm_compute; reflexivity|].
    set (evs := w_trace (snd (root_run stalled_world))).
    refine (proj1 (proj2 (proj2 (C97_late release to_root to_root_rq stalled_world Stopped _ evs (firstn 13 evs) (nth 13 evs no_event) (nth 14 evs no_event) (skipn 15 evs) to_root_describes HR eq_refl _ _)))).
    + apply two_more. apply Nat.leb_le. vm_compute. reflexivity.
    + split; vm_compute; reflexivity.
Qed.
Print Assumptions C97_refuted.

Theorem C97_not_full : ~ C97_full.
Proof.
  intros F. destruct C97_refuted as (pl & a & rq & w & w' & D & HL & HT & HR & HN & HB & _ & K).
  destruct (F pl a rq w w' D HL HT HR HN HB) as (c & q & N). exact (N (K c q)).
Qed.
Print Assumptions C97_not_full.
