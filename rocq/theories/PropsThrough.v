(** Property theorems about sessions that get through: C110. *)
From Verif Require Import Base Num Path Options World Sys Io Socket Env Core Pair Spec TraceSpec SessionSpec CallbackSpec
  PairPure HonourSpec Samples Worlds PropsApproval PropsHonour PropsSession Frontend FrontSpec PropsFront LeaveSpec PropsLeave ThroughSpec ThroughFacts.
Local Open Scope Z_scope.

(** *** C110: an approved session runs to its end *)

(** The plugin ends a session only for data piped to a command whose input is
    to be logged, or because a call it made to reach the pair failed. *)
Theorem C110_ended : forall pl a rq st c h, PairedSession pl a rq st c -> forall g w f w' evs,
  front_steps (exported SudoPair pl) h (mkFront st [] g true) w = (Done f, w') -> w_trace w' = w_trace w ++ evs ->
  f_live f = false ->
  exists past ev rest, h = past ++ ev :: rest /\ f_given f = g ++ flat_map data_of past
    /\ (Piped rq ev \/ (~ Unseen rq ev /\ Exists (fun x => WritesTo c (e_call x) /\ Failed x) evs)).
Proof. exact steps_cause. Qed.
Print Assumptions C110_ended.

(** When every call does its job and nothing is piped, the pair's answer alone
    decides: after a yes all that happens is let through, and shown to the
    very connection the yes came from; otherwise the command is not run. *)
Theorem C110_decides : forall pl a rq h w o w' evs q,
  Describes pl a rq -> Askable pl a rq -> Forall (fun ev => ~ Piped rq ev) h ->
  front_run (exported SudoPair pl) a h w = (o, w') -> w_trace w' = w_trace w ++ evs ->
  SocketPath rq q -> HonestPrintf evs -> Forall (Works (pl_euid pl) q) evs ->
  o = Stopped
  \/ exists c d rd, reads evs = [rd] /\ Is (CRead c) (AData d) rd
     /\ ((Yes d /\ exists f, o = Done (Some f) /\ Through rq h f c evs) \/ (~ Yes d /\ o = Done None)).
Proof. exact front_decides. Qed.
Print Assumptions C110_decides.

(** Such environments exist for every such request and every course of the
    session, and the answer can come from anybody entitled to it. *)
Theorem C110_possible : forall pl a rq q peer k tr h,
  Describes pl a rq -> Askable pl a rq -> SocketPath rq q -> Entitled pl rq peer -> Ready pl rq q k ->
  Numbered k -> OpenWay peer q k -> Forall (fun ev => ~ Piped rq ev) h ->
  exists t1 t2 f w' evs c, Calm t1 /\ Calm t2
    /\ front_run (exported SudoPair pl) a h (mkWorld k (t1 ++ ([(peer, Connect q)], ANum 1) :: t2) tr) = (Done (Some f), w')
    /\ w_script w' = [] /\ w_trace w' = tr ++ evs /\ Through rq h f c evs.
Proof. exact can_get_through. Qed.
Print Assumptions C110_possible.

(** The session of C20, approved; the first output is taken in two parts, with
    an interruption between them. Then the same with an input that is piped. *)
Definition slow_world : world := mkWorld (w_k yes_world)
  (w_script yes_world ++ write_turns 2 ++ [t AOk; t AOk; t (AErr EINTR); t AOk] ++ write_turns 3 ++ write_turns 10) [].
Definition course : list happening := [Moved Stdout (B "hello"); Moved Ttyin (B "typed"); Suspended 20; Resized 24 80].
Definition slow_run : outcome (option (front SudoPair)) * world := front_run (exported SudoPair release) to_root course slow_world.

Definition interrupted_write (ev : event) : bool :=
  match e_call ev, e_ans ev with CWrite _ _, AErr e => e =? EINTR | _, _ => false end.
Lemma interrupted_works euid q ev : interrupted_write ev = true -> Works euid q ev.
Proof.
  unfold interrupted_write, Works. destruct (e_call ev), (e_ans ev); intros H; try discriminate H.
  right. apply Z.eqb_eq in H. subst. reflexivity.
Qed.

Example C110_example :
  Describes release to_root to_root_rq /\ Askable release to_root to_root_rq /\ SocketPath to_root_rq sock
  /\ Forall (fun ev => ~ Piped to_root_rq ev) course
  /\ HonestPrintf (w_trace (snd slow_run)) /\ Forall (Works 0 sock) (w_trace (snd slow_run))
  /\ glance slow_run = Some ([(Stdout, B "hello"); (Ttyin, B "typed")], true)
  /\ map e_ans (filter (fun ev => match e_call ev with CWrite _ _ => true | _ => false end) (w_trace (snd slow_run)))
     = [ANum 67; ANum 1; ANum 1; ANum 2; AErr 4; ANum 3; ANum 10]
  /\ glance (front_run (exported SudoPair release) to_root course no_world) = None
  /\ remains left_run = Some ([(Ttyin, B "x")], false)
  /\ Exists (fun x => WritesTo 0 (e_call x) /\ Failed x) (w_trace (snd left_run))
  /\ Entitled release to_root_rq root /\ Ready release to_root_rq sock k_root
  /\ Numbered k_root /\ OpenWay root sock k_root.
Proof.
  destruct C22_example as (A & P & _ & _ & _ & _ & _ & E & R & _ & N & O & _).
  split; [exact to_root_describes|]. split; [exact A|]. split; [exact P|].
  split. { repeat (apply Forall_cons; [intros [_ (d & X)]; discriminate X|]). apply Forall_nil. }
  split; [apply seen_honest; vm_compute; repeat constructor|].
  split. { assert (K : forallb (fun ev => works_check 0 sock ev || interrupted_write ev) (w_trace (snd slow_run)) = true) by (vm_compute; reflexivity).
    rewrite forallb_forall in K. apply Forall_forall. intros ev HI. specialize (K ev HI). apply orb_true_iff in K as [K|K];
      [exact (works_checked _ _ _ K)|exact (interrupted_works _ _ _ K)]. }
  split; [vm_compute; reflexivity|]. split; [vm_compute; reflexivity|]. split; [vm_compute; reflexivity|]. split; [vm_compute; reflexivity|].
  split. { assert (K : existsb (fun ev => match e_call ev, e_ans ev with CWrite 0 _, AErr 32 => true | _, _ => false end)
             (w_trace (snd left_run)) = true) by (vm_compute; reflexivity).
    apply existsb_exists in K as (ev & HI & K). apply Exists_exists. exists ev. split; [exact HI|]. clear HI.
    unfold Failed. destruct (e_call ev) as [] eqn:Ec; try discriminate K.
    match type of Ec with _ = CWrite ?n _ => destruct n; [|discriminate K] end. split; [reflexivity|].
    destruct (e_ans ev) as [|e| |]; try discriminate K. intros ->. discriminate K. }
  split; [exact E|]. split; [exact R|]. split; [exact N|exact O].
Qed.
