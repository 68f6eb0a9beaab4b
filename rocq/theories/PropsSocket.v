(** Property theorems about the directory, the mask, the files, the listener
    and the connections of an opening: C28, C29, C30, C31, C44, C46. *)
From Verif Require Import Base Num Path Options World Sys Io Socket Env Core Pair Spec TraceSpec SessionSpec
  PathProofs OpenFacts AskFacts MiscFacts SplitFacts CleanupFacts RefusalFacts SessionFacts InputFacts Samples Worlds PropsApproval WaitFacts.
Local Open Scope Z_scope.

(** select(2) on one descriptor without timeout answers 1 or fails. *)
Definition DocumentedSelect (evs : list event) : Prop :=
  Forall (fun ev => e_call ev = CSelect -> forall n, e_ans ev = ANum n -> n = 1) evs.
(** Descriptors fit in an fd_set. *)
Definition SmallDescriptors (evs : list event) : Prop :=
  Forall (fun ev => e_call ev = CSocket -> forall fd, e_ans ev = ANum fd -> fd < 1024) evs.

Notation root_run w := (core_open SudoPair release to_root (pstate0 SudoPair) w).

(** Concrete lists of events are inspected through [seen], by computation. *)
Definition select_check (ca : call * answer) : bool :=
  match ca with (CSelect, ANum n) => n =? 1 | _ => true end.
Definition fd_check (ca : call * answer) : bool :=
  match ca with (CSocket, ANum n) => n <? 1024 | _ => true end.
Definition clean_check (q : path) (ca : call * answer) : bool :=
  match ca with
  | (CStat p, AErr _) | (CStat p, ANum _) | (CStat p, AData _)
  | (CUnlink p, AErr _) | (CUnlink p, ANum _) | (CUnlink p, AData _) => negb (comps_eqb p q)
  | _ => true
  end.

Lemma select_checked evs : forallb select_check (seen evs) = true -> DocumentedSelect evs.
Proof.
  unfold seen, DocumentedSelect. rewrite forallb_forall, Forall_forall. intros H ev Hin C n A.
  specialize (H _ (in_map _ _ _ Hin)). unfold select_check, fd_check in H. rewrite C, A in H. apply Z.eqb_eq. exact H.
Qed.
Lemma fd_checked evs : forallb fd_check (seen evs) = true -> SmallDescriptors evs.
Proof.
  unfold seen, SmallDescriptors. rewrite forallb_forall, Forall_forall. intros H ev Hin C n A.
  specialize (H _ (in_map _ _ _ Hin)). unfold select_check, fd_check in H. rewrite C, A in H. apply Z.ltb_lt. exact H.
Qed.
Lemma clean_checked q evs : forallb (clean_check q) (seen evs) = true ->
  forall ev, In ev evs -> e_call ev = CStat q \/ e_call ev = CUnlink q -> e_ans ev = AOk.
Proof.
  unfold seen. rewrite forallb_forall. intros H ev Hin C.
  specialize (H _ (in_map _ _ _ Hin)). unfold clean_check in H. destruct C as [C|C]; rewrite C in H; cbn in H;
    destruct (e_ans ev); try reflexivity; rewrite comps_eqb_refl in H; discriminate.
Qed.

Definition no_event : event := mkEvent CSelect AOk k_root k_root.

Lemma split_trace w w' n : w_trace w = [] -> Nat.ltb n (List.length (w_trace w')) = true ->
  w_trace w' = w_trace w ++ firstn n (w_trace w') ++ nth n (w_trace w') no_event :: skipn (S n) (w_trace w').
Proof. intros -> H. apply split_at. apply PeanoNat.Nat.ltb_lt. exact H. Qed.

(** *** C28: the file-creation mask *)

(** The claim without the provisos. *)
Definition C28_full : Prop := forall pl a rq w z st' w' evs,
  Describes pl a rq -> core_open SudoPair pl a (pstate0 _) w = (Done (z, st'), w') -> w_trace w' = w_trace w ++ evs ->
  0 <= k_umask (w_k w) < 512 -> k_umask (w_k w') = k_umask (w_k w).

Theorem C28_umask_restored : forall pl a rq w z st' w' evs,
  Describes pl a rq -> core_open SudoPair pl a (pstate0 _) w = (Done (z, st'), w') -> w_trace w' = w_trace w ++ evs ->
  0 <= k_umask (w_k w) < 512 ->
  DocumentedSelect evs -> SmallDescriptors evs ->
  k_umask (w_k w') = k_umask (w_k w).
Proof. exact (fun pl a rq w z st' w' evs D HR HT HK HS HF => umask_restored pl a rq w _ w' evs D HR HT z st' eq_refl HK HS HF). Qed.
Print Assumptions C28_umask_restored.

(** Without them: select says that no descriptor is ready, and the process
    goes on with mask 0777. *)
Definition zero_world : world := world_of k_root
  (local_turns ++ [t AOk; t AOk; t AOk; t (ANum 5); t (ANum 0); t AOk; t AOk; t AOk; t (ANum 0); t AOk]).
(** The listening socket gets descriptor 1024. *)
Definition many_world : world := world_of k_root
  (local_turns ++ [t AOk; t AOk; t AOk; t (ANum 1024); t (ANum 0); t AOk; t AOk; t AOk; t AOk]).

Theorem C28_refuted : exists pl a rq w1 st1 w1' w2 st2 w2',
  Describes pl a rq
  /\ (core_open SudoPair pl a (pstate0 _) w1 = (Done (-1, st1), w1')
      /\ w_trace w1 = [] /\ SmallDescriptors (w_trace w1') /\ k_umask (w_k w1) = 18 /\ k_umask (w_k w1') = 511)
  /\ (core_open SudoPair pl a (pstate0 _) w2 = (Done (-1, st2), w2')
      /\ w_trace w2 = [] /\ DocumentedSelect (w_trace w2') /\ k_umask (w_k w2) = 18 /\ k_umask (w_k w2') = 511).
Proof.
  destruct (code_run (root_run zero_world) (-1)) as [st1 H1]; [vm_compute; reflexivity|].
  destruct (code_run (root_run many_world) (-1)) as [st2 H2]; [vm_compute; reflexivity|].
  exists release, to_root, to_root_rq, zero_world, st1, (snd (root_run zero_world)), many_world, st2, (snd (root_run many_world)).
  split; [exact to_root_describes|]. split; (split; [assumption|]; split; [reflexivity|]; split; [|split; vm_compute; reflexivity]).
  - apply fd_checked. vm_compute. reflexivity.
  - apply select_checked. vm_compute. reflexivity.
Qed.
Print Assumptions C28_refuted.

Theorem C28_not_full : ~ C28_full.
Proof.
  intros F. destruct C28_refuted as (pl & a & rq & w & st & w' & _ & _ & _ & D & (H & T & _ & E & E') & _).
  rewrite (F _ _ _ _ _ _ _ _ D H (no_trace w _ T)) in E'; rewrite E in *; [discriminate|split; [discriminate|reflexivity]].
Qed.
Print Assumptions C28_not_full.

Example C28_example : exists st' w',
  Describes release to_root to_root_rq /\ root_run yes_world = (Done (1, st'), w')
  /\ DocumentedSelect (w_trace w') /\ SmallDescriptors (w_trace w')
  /\ In (CUmask 511, AOk) (seen (w_trace w')) /\ k_umask (w_k yes_world) = 18 /\ k_umask (w_k w') = 18.
Proof.
  destruct (code_run (root_run yes_world) 1) as [st H]; [vm_compute; reflexivity|].
  exists st, (snd (root_run yes_world)). split; [exact to_root_describes|]. split; [exact H|]. split; [|split; [|split; [|split]]].
  - apply select_checked. vm_compute. reflexivity.
  - apply fd_checked. vm_compute. reflexivity.
  - vm_compute (seen _). do 6 right. left. reflexivity.
  - reflexivity.
  - vm_compute. reflexivity.
Qed.

(** *** C29: the socket is removed *)

Definition C29_full : Prop := forall pl a rq w z st' w' e1 b e2 q,
  Describes pl a rq -> ConnectOnly w ->
  core_open SudoPair pl a (pstate0 _) w = (Done (z, st'), w') -> w_trace w' = w_trace w ++ e1 ++ b :: e2 ->
  Creates q b ->
  (forall ev, In ev e2 -> e_call ev = CStat q \/ e_call ev = CUnlink q -> e_ans ev = AOk) ->
  k_names (w_k w') q = None.

Theorem C29_socket_removed : forall pl a rq w z st' w' e1 b e2 q,
  Describes pl a rq -> ConnectOnly w ->
  core_open SudoPair pl a (pstate0 _) w = (Done (z, st'), w') -> w_trace w' = w_trace w ++ e1 ++ b :: e2 ->
  Creates q b ->
  (forall ev, In ev e2 -> e_call ev = CStat q \/ e_call ev = CUnlink q -> e_ans ev = AOk) ->
  DocumentedSelect (e1 ++ b :: e2) -> SmallDescriptors (e1 ++ b :: e2) ->
  SocketPath rq q /\ k_names (w_k w') q = None.
Proof.
  exact (fun pl a rq w z st' w' e1 b e2 q D Q HR HT HC HA HS HF =>
    created_gone pl a rq w _ w' _ D HR HT z st' q e1 b e2 eq_refl Q HS HF eq_refl HC HA).
Qed.
Print Assumptions C29_socket_removed.

(** The same two panics as for C28 leave the socket in place. *)
Theorem C29_refuted : exists pl a rq w st' w' e1 b e2 q,
  Describes pl a rq /\ ConnectOnly w
  /\ core_open SudoPair pl a (pstate0 _) w = (Done (-1, st'), w') /\ w_trace w' = w_trace w ++ e1 ++ b :: e2
  /\ Creates q b
  /\ (forall ev, In ev e2 -> e_call ev = CStat q \/ e_call ev = CUnlink q -> e_ans ev = AOk)
  /\ k_names (w_k w') q <> None.
Proof.
  destruct (code_run (root_run zero_world) (-1)) as [st1 H1]; [vm_compute; reflexivity|].
  exists release, to_root, to_root_rq, zero_world, st1, (snd (root_run zero_world)).
  exists (firstn 8 (w_trace (snd (root_run zero_world)))), (nth 8 (w_trace (snd (root_run zero_world))) no_event), (skipn 9 (w_trace (snd (root_run zero_world)))), sock.
  split; [exact to_root_describes|]. split; [repeat constructor|]. split; [exact H1|].
  split; [apply split_trace; [reflexivity|vm_compute; reflexivity]|].
  split; [|split].
  - split; [vm_compute; reflexivity|]. split; [exists 0; vm_compute; reflexivity|].
    split; [vm_compute; discriminate|]. split; vm_compute; [reflexivity|discriminate].
  - apply clean_checked. vm_compute. reflexivity.
  - vm_compute. discriminate.
Qed.
Print Assumptions C29_refuted.

Theorem C29_not_full : ~ C29_full.
Proof.
  intros F. destruct C29_refuted as (pl & a & rq & w & st & w' & e1 & b & e2 & q & D & Q & H & T & C & A & N).
  exact (N (F _ _ _ _ _ _ _ _ _ _ _ D Q H T C A)).
Qed.
Print Assumptions C29_not_full.

(** root says no: nothing is left behind. *)
Example C29_example : exists st' w' e1 b e2,
  ConnectOnly no_world /\ root_run no_world = (Done (-1, st'), w') /\ w_trace w' = w_trace no_world ++ e1 ++ b :: e2
  /\ Creates sock b /\ k_names (e_post b) sock = Some 1%nat /\ k_names (w_k w') sock = None.
Proof.
  destruct (code_run (root_run no_world) (-1)) as [st1 H1]; [vm_compute; reflexivity|].
  exists st1, (snd (root_run no_world)), (firstn 8 (w_trace (snd (root_run no_world)))), (nth 8 (w_trace (snd (root_run no_world))) no_event), (skipn 9 (w_trace (snd (root_run no_world)))).
  split. { unfold ConnectOnly. repeat (apply Forall_cons; [cbn; repeat constructor; eexists; reflexivity|]). apply Forall_nil. }
  split; [exact H1|].
  split; [apply split_trace; [reflexivity|vm_compute; reflexivity]|].
  split; [|split; vm_compute; reflexivity].
  split; [vm_compute; reflexivity|]. split; [exists 0; vm_compute; reflexivity|].
  split; [vm_compute; discriminate|]. split; vm_compute; [reflexivity|discriminate].
Qed.

(** *** C30: other files are left alone *)
Theorem C30_files_untouched : forall pl a rq w z st' w' evs q,
  Describes pl a rq -> core_open SudoPair pl a (pstate0 _) w = (Done (z, st'), w') -> w_trace w' = w_trace w ++ evs ->
  ConnectOnly w -> SocketPath rq q ->
  (forall p, p <> q -> k_names (w_k w') p = k_names (w_k w) p)
  /\ (forall m, m <> k_next (w_k w) -> k_inodes (w_k w') m = k_inodes (w_k w) m)
  /\ (k_names (w_k w') q = k_names (w_k w) q \/ k_names (w_k w) q = None
      \/ exists n, resolve (w_k w) q = Some n /\ i_kind (k_inodes (w_k w) n) = KSock).
Proof.
  exact (fun pl a rq w z st' w' evs q D HR HT Q HP => files_untouched pl a rq w _ w' evs D HR HT z st' q eq_refl Q HP).
Qed.
Print Assumptions C30_files_untouched.

Theorem C30_occupied_refused : forall pl a rq w o w' evs q,
  Describes pl a rq -> core_open SudoPair pl a (pstate0 _) w = (o, w') -> w_trace w' = w_trace w ++ evs ->
  ~ Exempt rq -> rq_command rq <> [] -> ConnectOnly w -> SocketPath rq q ->
  k_names (w_k w) q <> None ->
  (forall n, resolve (w_k w) q = Some n -> i_kind (k_inodes (w_k w) n) <> KSock) ->
  (o = Stopped \/ exists st', o = Done (-1, st') /\ st_plugin st' = None)
  /\ (o <> Stopped -> k_names (w_k w') = k_names (w_k w) /\ k_inodes (w_k w') = k_inodes (w_k w) /\ k_next (w_k w') = k_next (w_k w)).
Proof. exact (fun pl a rq w o w' evs q D HR HT => occupied_refused pl a rq w o w' evs D HR HT q). Qed.
Print Assumptions C30_occupied_refused.

(** A regular file, or a stale socket, is in the way. *)
Definition in_the_way (kd : kind) : kernel := {|
  k_names := fun p => if comps_eqb p run_dir then Some 0%nat else if comps_eqb p sock then Some 1%nat else None;
  k_inodes := fun n => match n with O => root_dir | _ => mkInode kd 0 0 384 end;
  k_next := 2; k_umask := 18; k_sigint := mkSigact true 7; k_listen := None; k_conns := []; k_open := [] |}.
Definition file_world : world := world_of (in_the_way KReg)
  (local_turns ++ [t AOk; t AOk; t (ANum 1); t (ANum 11); t (ANum 47); t (ANum 1)]).
Definition stale_world : world := world_of (in_the_way KSock)
  (local_turns ++ [t AOk; t AOk; t AOk] ++ skipn 2 (socket_turns [(root, Connect sock)]) ++ talk 67 (B "y")).

Example C30_example : SocketPath to_root_rq sock
  /\ code (root_run file_world) = Some (-1) /\ ConnectOnly file_world /\ resolve (w_k file_world) sock = Some 1%nat
  /\ In (CStat sock, AOk) (seen (w_trace (snd (root_run file_world))))
  /\ k_names (w_k (snd (root_run file_world))) sock = Some 1%nat
  /\ code (root_run stale_world) = Some 1
  /\ k_names (w_k (snd (root_run stale_world))) sock = None.
Proof.
  split; [exact (SocketPath_intro to_root_rq)|].
  split; [vm_compute; reflexivity|]. split; [repeat constructor|]. split; [vm_compute; reflexivity|]. split; [vm_compute (seen _); do 5 right; left; reflexivity|].
  repeat split; vm_compute; reflexivity.
Qed.

(** *** C31: the directory of the socket *)

(** Others may do anything before the directory is looked at: what counts is
    what is found then. *)
Theorem C31_bad_directory : forall pl a rq w o w' evs,
  Describes pl a rq -> core_open SudoPair pl a (pstate0 _) w = (o, w') -> w_trace w' = w_trace w ++ evs ->
  ~ Exempt rq -> rq_command rq <> [] ->
  let dir := components (rq_socket_dir rq) in
  (forall e1 ev e2, evs = e1 ++ ev :: e2 -> Only LocalPrompt e1 -> e_call ev = CStat dir ->
     e_ans ev = AOk -> forall n, resolve (e_pre ev) dir = Some n ->
     i_uid (k_inodes (e_pre ev) n) <> pl_euid pl
     \/ Z.land (i_perm (k_inodes (e_pre ev) n)) 16 <> 0 \/ Z.land (i_perm (k_inodes (e_pre ev) n)) 2 <> 0) ->
  (o = Stopped \/ exists st', o = Done (-1, st') /\ st_plugin st' = None)
  /\ Only (fun c => LocalPrompt c \/ c = CStat dir) evs
  /\ k_umask (w_k w') = k_umask (w_k w).
Proof. exact refused_by_dir. Qed.
Print Assumptions C31_bad_directory.

Theorem C31_bad_from_the_start : forall pl a rq w o w' evs,
  Describes pl a rq -> core_open SudoPair pl a (pstate0 _) w = (o, w') -> w_trace w' = w_trace w ++ evs ->
  ~ Exempt rq -> rq_command rq <> [] -> ConnectOnly w ->
  let dir := components (rq_socket_dir rq) in
  (forall n, resolve (w_k w) dir = Some n ->
     i_uid (k_inodes (w_k w) n) <> pl_euid pl
     \/ Z.land (i_perm (k_inodes (w_k w) n)) 16 <> 0 \/ Z.land (i_perm (k_inodes (w_k w) n)) 2 <> 0) ->
  (o = Stopped \/ exists st', o = Done (-1, st') /\ st_plugin st' = None)
  /\ Only (fun c => LocalPrompt c \/ c = CStat dir) evs
  /\ k_umask (w_k w') = k_umask (w_k w)
  /\ k_names (w_k w') = k_names (w_k w) /\ k_inodes (w_k w') = k_inodes (w_k w) /\ k_next (w_k w') = k_next (w_k w).
Proof. exact refused_by_dir_initial. Qed.
Print Assumptions C31_bad_from_the_start.

(** A directory of group staff that the group may write. *)
Definition loose_world : world := world_of (dir_kernel (mkInode KDir 0 50 509))
  (local_turns ++ [t AOk; t (ANum 1); t (ANum 11); t (ANum 47); t (ANum 1)]).

Example C31_example : Describes release to_root to_root_rq /\ ~ Exempt to_root_rq /\ rq_command to_root_rq <> []
  /\ code (root_run loose_world) = Some (-1) /\ ConnectOnly loose_world /\ resolve (w_k loose_world) (components (rq_socket_dir to_root_rq)) = Some 0%nat
  /\ Z.land (i_perm (k_inodes (w_k loose_world) 0)) 16 <> 0
  /\ In (CStat run_dir, AOk) (seen (w_trace (snd (root_run loose_world))))
  /\ In (CPrintf 3 (B "sudo_pair: ")) (map fst (seen (w_trace (snd (root_run loose_world))))).
Proof.
  split; [exact to_root_describes|]. split; [exact to_root_not_exempt|]. split; [discriminate|].
  split; [vm_compute; reflexivity|]. split; [repeat constructor|].
  split; [vm_compute; reflexivity|]. split; [vm_compute; discriminate|]. split; vm_compute (seen _).
  - do 4 right. left. reflexivity.
  - do 6 right. left. reflexivity.
Qed.

(** *** C44: a refused connection is closed *)
Theorem C44_refused_closes : forall pl a rq w z st' w' evs acc,
  Describes pl a rq -> core_open SudoPair pl a (pstate0 _) w = (Done (z, st'), w') -> w_trace w' = w_trace w ++ evs ->
  z <> 1 -> In acc evs -> Is CAccept AOk acc ->
  let c := List.length (k_conns (e_pre acc)) in
  (exists e1 e2 sd cl e3, evs = e1 ++ acc :: e2 ++ sd :: cl :: e3
     /\ e_call sd = CShutdown c /\ Is (CClose c) AOk cl /\ Only ErrorText e3)
  /\ ~ In c (k_open (w_k w')).
Proof. exact (fun pl a rq w z st' w' evs acc D HR HT => refused_closes pl a rq w _ w' evs D HR HT z st' acc eq_refl). Qed.
Print Assumptions C44_refused_closes.

Theorem C44_listener_closed : forall pl a rq w z st' w' evs,
  Describes pl a rq -> core_open SudoPair pl a (pstate0 _) w = (Done (z, st'), w') -> w_trace w' = w_trace w ++ evs ->
  k_listen (w_k w) = None -> k_listen (w_k w') = None.
Proof. exact (fun pl a rq w z st' w' evs D HR HT => listener_closed pl a rq w _ w' evs D HR HT z st' eq_refl). Qed.
Print Assumptions C44_listener_closed.

Example C44_example : exists st' w' acc,
  root_run no_world = (Done (-1, st'), w') /\ In acc (w_trace w') /\ Is CAccept AOk acc
  /\ k_listen (e_pre acc) <> None /\ k_open (e_post acc) = [0%nat] /\ k_open (w_k w') = [] /\ k_listen (w_k w') = None.
Proof.
  destruct (code_run (root_run no_world) (-1)) as [st1 H1]; [vm_compute; reflexivity|].
  exists st1, (snd (root_run no_world)), (nth 13 (w_trace (snd (root_run no_world))) no_event).
  split; [exact H1|]. split; [apply nth_In; vm_compute; repeat constructor|].
  split; [split; vm_compute; reflexivity|]. split; [vm_compute; discriminate|]. repeat split; vm_compute; reflexivity.
Qed.

(** *** C46: Ctrl-C while waiting *)
Theorem C46_interrupted : forall pl a rq w o w' evs se er,
  Describes pl a rq -> core_open SudoPair pl a (pstate0 _) w = (o, w') -> w_trace w' = w_trace w ++ evs ->
  In se evs -> Is CSelect (AErr er) se ->
  (o = Stopped \/ exists st', o = Done (-1, st') /\ st_plugin st' = None)
  /\ (forall ev, In ev evs -> e_call ev <> CAccept)
  /\ (forall z st', o = Done (z, st') ->
      (0 <= k_umask (w_k w) < 512 -> k_umask (w_k w') = k_umask (w_k w))
      /\ (ConnectOnly w -> forall e1 b e2 q, evs = e1 ++ b :: e2 -> Creates q b ->
          (forall ev, In ev e2 -> e_call ev = CStat q \/ e_call ev = CUnlink q -> e_ans ev = AOk) ->
          k_names (w_k w') q = None)).
Proof. exact (fun pl a rq w o w' evs se er D HR HT => interrupted_wait pl a rq w o w' evs D HR HT se er). Qed.
Print Assumptions C46_interrupted.

(** The plugin never waits in accept, which std makes again when it is
    interrupted: whatever becomes of the opening, every accept follows a select
    that found somebody, with only interrupted accepts in between. *)
Theorem C46_waits : forall pl a rq w o w' evs,
  Describes pl a rq -> core_open SudoPair pl a (pstate0 _) w = (o, w') -> w_trace w' = w_trace w ++ evs ->
  forall pre ac post, evs = pre ++ ac :: post -> e_call ac = CAccept ->
  exists pre1 se mid, pre = pre1 ++ se :: mid /\ Is CSelect (ANum 1) se /\ Only (fun c => c = CAccept) mid.
Proof. exact waits. Qed.
Print Assumptions C46_waits.

Example C46_waits_example : Describes release to_root to_root_rq
  /\ firstn 2 (skipn 12 (seen (w_trace (snd (root_run no_world))))) = [(CSelect, ANum 1); (CAccept, AOk)].
Proof. split; [exact to_root_describes|vm_compute; reflexivity]. Qed.

(** root connects, but alice presses Ctrl-C first. *)
Definition ctrl_c_world : world := world_of k_root
  (local_turns ++ [t AOk; t AOk; t AOk; t (ANum 5); t (ANum 0); t AOk; t AOk; t AOk; ([(root, Connect sock)], AErr EINTR);
                   t AOk; t AOk; t AOk; t AOk; t (ANum 1); t (ANum 11); t (ANum 47); t (ANum 1)]).

Example C46_example :
  code (root_run ctrl_c_world) = Some (-1)
  /\ In (CSelect, AErr EINTR) (seen (w_trace (snd (root_run ctrl_c_world))))
  /\ k_names (w_k (snd (root_run ctrl_c_world))) sock = None
  /\ k_umask (w_k (snd (root_run ctrl_c_world))) = 18
  /\ k_listen (w_k (snd (root_run ctrl_c_world))) = None.
Proof. split; [vm_compute; reflexivity|]. split; [vm_compute (seen _); do 12 right; left; reflexivity|]. repeat split; vm_compute; reflexivity. Qed.

(** Such an opening ends without an answer, as in C21. *)
Example C21_no_answer_example : Describes release to_root to_root_rq /\ ~ Exempt to_root_rq /\ rq_command to_root_rq <> []
  /\ code (root_run ctrl_c_world) = Some (-1) /\ reads (w_trace (snd (root_run ctrl_c_world))) = [].
Proof.
  split; [exact to_root_describes|]. split; [exact to_root_not_exempt|]. split; [discriminate|].
  split; vm_compute; reflexivity.
Qed.
