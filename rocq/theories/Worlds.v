(** Concrete worlds used by the examples: a small file system, and scripts in
    which everything works. *)
From Verif Require Import Base Path Options World Sys Io Socket Env Core Pair Spec TraceSpec Samples.
Local Open Scope Z_scope.

Definition run_dir : path := [RootDir; Normal (B "var"); Normal (B "run"); Normal (B "sudo_pair")].
Definition sock : path := run_dir ++ [Normal (B "1000.4242.sock")].

(** Inode 0 is the socket directory. *)
Definition dir_kernel (dir : inode) : kernel := {|
  k_names := fun p => if comps_eqb p run_dir then Some 0%nat else None;
  k_inodes := fun _ => dir;
  k_next := 1; k_umask := 18; k_sigint := mkSigact true 7;
  k_listen := None; k_conns := []; k_open := [] |}.

Definition root_dir : inode := mkInode KDir 0 0 493.   (* drwxr-xr-x root *)
Definition k_root : kernel := dir_kernel root_dir.

Definition t (a : answer) : turn := ([], a).

(** No template files; the terminal accepts everything. *)
Definition local_turns : list turn := [t (AErr ENOENT); t AOk; t (ANum 32); t AOk].

(** Socket set-up in an empty directory, with the processes [others] acting
    while the plugin waits in select. *)
Definition socket_turns (others : list (cred * action)) : list turn :=
  [t AOk; t AOk; t AOk; t (ANum 5); t (ANum 0); t AOk; t AOk; t AOk;
   (others, ANum 1); t AOk; t AOk; t AOk; t AOk; t AOk].

(** A write of [n] bytes, a flush, a read. *)
Definition write_turns (n : Z) : list turn := [t AOk; t AOk; t (ANum n); t AOk].
Definition flush_turns : list turn := [t AOk; t AOk; t AOk].
Definition read_turns (d : bytes) : list turn := [t AOk; t AOk; t (AData d); t AOk].
Definition echo_turns : list turn := write_turns 1 ++ write_turns 1.

(** The whole exchange with a peer answering [d], the prompt being [n] bytes. *)
Definition talk (n : Z) (d : bytes) : list turn :=
  [t (AErr ENOENT)] ++ write_turns n ++ flush_turns ++ read_turns d ++ echo_turns.

Definition root : cred := mkCred 0 [0] true.
Definition alice : cred := mkCred 1000 [1000; 27] false.
Definition bob_wheel : cred := mkCred 1001 [1001; 10] false.

Definition world_of (k : kernel) (s : list turn) : world := mkWorld k s [].

(** root approves alice's command *)
Definition yes_world : world :=
  world_of k_root (local_turns ++ socket_turns [(root, Connect sock)] ++ talk 67 (B "y")).
(** root declines: the refusal is reported with four printf calls *)
Definition no_world : world :=
  world_of k_root (local_turns ++ socket_turns [(root, Connect sock)] ++ talk 67 (B "n")
                   ++ [t AOk; t AOk] ++ [t (ANum 1); t (ANum 11); t (ANum 25); t (ANum 1)]).

(** The return code of a run.  Examples compute this, never a whole world,
    whose normal form is huge. *)
Definition code {A} (r : outcome (Z * A) * world) : option Z :=
  match fst r with Done (z, _) => Some z | _ => None end.

Lemma code_run {A} (r : outcome (Z * A) * world) z : code r = Some z -> exists st', r = (Done (z, st'), snd r).
Proof.
  destruct r as [[[z' s]| |] w]; unfold code; cbn; intros H; try discriminate.
  injection H as ->. exists s. reflexivity.
Qed.

Definition seen (evs : list event) : list (call * answer) := map (fun e => (e_call e, e_ans e)) evs.

Lemma split_at {A} (d : A) : forall n (l : list A), (n < List.length l)%nat ->
  l = firstn n l ++ nth n l d :: skipn (S n) l.
Proof.
  induction n as [|n IH]; intros [|x l] H; cbn in *; try (exfalso; inversion H; fail).
  - reflexivity.
  - f_equal. apply IH. apply le_S_n. exact H.
Qed.

(** The outcome, without the final world. *)
Definition codes {A} (r : outcome (list Z * A) * world) : option (list Z) :=
  match fst r with Done (zs, _) => Some zs | _ => None end.

Lemma codes_run {A} (r : outcome (list Z * A) * world) zs : codes r = Some zs -> exists st', r = (Done (zs, st'), snd r).
Proof.
  destruct r as [[[z' s]| |] w]; unfold codes; cbn; intros H; try discriminate.
  injection H as ->. exists s. reflexivity.
Qed.

Definition state_of {A} (d : A) (r : outcome (Z * A) * world) : A :=
  match fst r with Done (_, st) => st | _ => d end.

Lemma code_state {A} (d : A) (r : outcome (Z * A) * world) z : code r = Some z -> r = (Done (z, state_of d r), snd r).
Proof.
  destruct r as [[[z' s]| |] w]; unfold code, state_of; cbn; intros H; try discriminate.
  injection H as ->. reflexivity.
Qed.

(** The session root approved (notations, so that nothing has to be unfolded
    to compare them). *)
Notation yes_run := (core_open SudoPair release to_root (pstate0 SudoPair) yes_world).
Notation yes_state := (state_of (pstate0 SudoPair) yes_run).

Lemma yes_opens : yes_run = (Done (1, yes_state), snd yes_run).
Proof. apply code_state. vm_compute. reflexivity. Qed.

Lemma no_trace w l : w_trace w = [] -> l = w_trace w ++ l.
Proof. intros ->. reflexivity. Qed.

Lemma seen_honest evs :
  Forall (fun ca => match fst ca, snd ca with CPrintf _ d, ANum n => n <= Z.of_nat (List.length d) | _, _ => True end) (seen evs) ->
  HonestPrintf evs.
Proof. intros H. unfold seen in H. rewrite Forall_map in H. exact H. Qed.

Lemma seen_In c x evs : In (c, x) (seen evs) -> exists ev, In ev evs /\ e_call ev = c /\ e_ans ev = x.
Proof.
  unfold seen. rewrite in_map_iff. intros (ev & H & Hin). injection H as H1 H2. eauto.
Qed.
