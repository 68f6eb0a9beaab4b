(** Property theorems about what a whole session leaves behind: C111. *)
From Verif Require Import Base Num Path Options World Sys Io Socket Env Core Pair Spec TraceSpec SessionSpec
  SplitFacts SigFacts SessionFacts Samples Worlds PropsApproval PropsSocket Frontend FrontSpec SessionRun PropsSameFront TidySpec TidyFacts.
Local Open Scope Z_scope.

(** However a session in which a pair was asked went, from the opening to the
    close: the mask, the disposition of SIGINT, the connections and the files
    are what they were, no socket is listening, and the socket is gone. *)
Theorem C111_restored : forall pl a rq h x err w r w' evs q,
  Describes pl a rq -> ~ Exempt rq -> rq_command rq <> [] -> SocketPath rq q ->
  session (exported SudoPair pl) a h x err w = (Done r, w') -> w_trace w' = w_trace w ++ evs ->
  ConnectOnly w -> Fresh (w_k w) -> SigactionWorks evs -> DocumentedSelect evs -> SmallDescriptors evs -> CanTidy q evs ->
  Restored q (w_k w) (w_k w').
Proof. exact session_restored. Qed.
Print Assumptions C111_restored.

(** The process's own state is restored whatever other processes do, to the
    file system included, and whether or not the socket can be removed. *)
Theorem C111_process : forall pl a rq h x err w r w' evs,
  Describes pl a rq -> ~ Exempt rq -> rq_command rq <> [] ->
  session (exported SudoPair pl) a h x err w = (Done r, w') -> w_trace w' = w_trace w ++ evs ->
  Fresh (w_k w) -> SigactionWorks evs -> DocumentedSelect evs -> SmallDescriptors evs ->
  ProcessRestored (w_k w) (w_k w').
Proof. exact session_process. Qed.
Print Assumptions C111_process.

(** Concrete events: everything asked about [sock] after the first bind is
    answered. *)
Fixpoint tidy_check (bound : bool) (evs : list (call * answer)) : bool :=
  match evs with
  | [] => true
  | ca :: evs => (negb bound || clean_check sock ca)
                 && tidy_check (bound || match fst ca with CBind _ => true | _ => false end) evs
  end.
Lemma tidy_bound evs : tidy_check true (seen evs) = true -> forallb (clean_check sock) (seen evs) = true.
Proof.
  induction evs as [|ev evs IH]; [reflexivity|]. cbn. intros H. apply andb_true_iff in H as [-> H]. exact (IH H).
Qed.
Lemma tidy_checked evs : tidy_check false (seen evs) = true -> CanTidy sock evs.
Proof.
  assert (K : forall e1 b e2 bd, tidy_check bd (seen (e1 ++ b :: e2)) = true -> e_call b = CBind sock -> forallb (clean_check sock) (seen e2) = true).
  { induction e1 as [|ev e1 IH]; intros b e2 bd H Hb; cbn in H; apply andb_true_iff in H as [_ H].
    - rewrite Hb, orb_true_r in H. exact (tidy_bound _ H).
    - exact (IH _ _ _ H Hb). }
  intros H e1 b e2 -> [Hb _]. exact (clean_checked sock e2 (K _ _ _ _ H Hb)).
Qed.
Definition sig_check (ca : call * answer) : bool :=
  match ca with (CSigGet, AOk) | (CSigSet _, AOk) => true | (CSigGet, _) | (CSigSet _, _) => false | _ => true end.
Lemma sig_checked evs : forallb sig_check (seen evs) = true -> SigactionWorks evs.
Proof.
  unfold seen, SigactionWorks. rewrite forallb_forall, Forall_forall. intros H ev Hin.
  specialize (H _ (in_map _ _ _ Hin)). unfold sig_check in H.
  destruct (e_call ev); auto; destruct (e_ans ev); congruence.
Qed.

(** A session in which root says yes, and one in which root says no.  In the
    former the socket exists for a while, the mask changes, SIGINT's disposition
    changes and a connection is open. *)
Notation tidy_run w := (session (exported SudoPair release) to_root mixed 0 0 w).
Example C111_example :
  Describes release to_root to_root_rq /\ ~ Exempt to_root_rq /\ rq_command to_root_rq <> [] /\ SocketPath to_root_rq sock
  /\ outcome_of (tidy_run mixed_world) = Some ([(Stdout, B "hello"); (Ttyin, B "typed")], true)
  /\ fst (tidy_run no_world) = Done None
  /\ Forall (fun w => w_trace w = [] /\ ConnectOnly w /\ Fresh (w_k w)
       /\ SigactionWorks (w_trace (snd (tidy_run w))) /\ DocumentedSelect (w_trace (snd (tidy_run w)))
       /\ SmallDescriptors (w_trace (snd (tidy_run w))) /\ CanTidy sock (w_trace (snd (tidy_run w)))
       /\ Exists (fun ev => k_names (e_post ev) sock = Some 1%nat) (w_trace (snd (tidy_run w)))
       /\ Exists (fun ev => k_umask (e_post ev) <> k_umask (w_k w)) (w_trace (snd (tidy_run w)))
       /\ Exists (fun ev => k_sigint (e_post ev) <> k_sigint (w_k w)) (w_trace (snd (tidy_run w)))
       /\ Exists (fun ev => k_open (e_post ev) = [0%nat]) (w_trace (snd (tidy_run w)))
       /\ k_open (w_k (snd (tidy_run w))) = []) [mixed_world; no_world].
Proof.
  split; [exact to_root_describes|]. split; [exact to_root_not_exempt|]. split; [discriminate|]. split; [exact (proj1 C30_example)|].
  split; [vm_compute; reflexivity|]. split; [vm_compute; reflexivity|].
  assert (EX : forall (f : event -> bool) (P : event -> Prop) l, (forall ev, f ev = true -> P ev) -> existsb f l = true -> Exists P l).
  { intros f P l H K. apply existsb_exists in K as (ev & Hi & K). apply Exists_exists. exists ev. auto. }
  assert (K : forall w, w_trace w = [] -> w_k w = k_root -> ConnectOnly w ->
    (let l := w_trace (snd (tidy_run w)) in
     forallb sig_check (seen l) && forallb select_check (seen l) && forallb fd_check (seen l) && tidy_check false (seen l)
     && existsb (fun ev => match k_names (e_post ev) sock with Some 1%nat => true | _ => false end) l
     && existsb (fun ev => negb (k_umask (e_post ev) =? k_umask k_root)) l
     && existsb (fun ev => negb (Bool.eqb (sa_restart (k_sigint (e_post ev))) (sa_restart (k_sigint k_root)))) l
     && existsb (fun ev => match k_open (e_post ev) with [0%nat] => true | _ => false end) l
     && match k_open (w_k (snd (tidy_run w))) with [] => true | _ => false end) = true -> 
    w_trace w = [] /\ ConnectOnly w /\ Fresh (w_k w)
       /\ SigactionWorks (w_trace (snd (tidy_run w))) /\ DocumentedSelect (w_trace (snd (tidy_run w)))
       /\ SmallDescriptors (w_trace (snd (tidy_run w))) /\ CanTidy sock (w_trace (snd (tidy_run w)))
       /\ Exists (fun ev => k_names (e_post ev) sock = Some 1%nat) (w_trace (snd (tidy_run w)))
       /\ Exists (fun ev => k_umask (e_post ev) <> k_umask (w_k w)) (w_trace (snd (tidy_run w)))
       /\ Exists (fun ev => k_sigint (e_post ev) <> k_sigint (w_k w)) (w_trace (snd (tidy_run w)))
       /\ Exists (fun ev => k_open (e_post ev) = [0%nat]) (w_trace (snd (tidy_run w)))
       /\ k_open (w_k (snd (tidy_run w))) = []).
  { intros w HT HK HC H. cbv zeta in H. apply andb_true_iff in H as [H H0]. apply andb_true_iff in H as [H H1]. apply andb_true_iff in H as [H H2].
    apply andb_true_iff in H as [H H3]. apply andb_true_iff in H as [H H4]. repeat (apply andb_true_iff in H as [H ?]).
    split; [exact HT|]. split; [exact HC|]. rewrite HK. split.
    { split; [reflexivity|]. split; [split; [discriminate|reflexivity]|]. intros c []. }
    split; [apply sig_checked; assumption|]. split; [apply select_checked; assumption|]. split; [apply fd_checked; assumption|].
    split; [apply tidy_checked; assumption|].
    split; [eapply EX; [|exact H4]; intros ev; cbn beta; destruct (k_names (e_post ev) sock) as [[|[|n]]|]; intros X; try discriminate X; reflexivity|].
    split; [eapply EX; [|exact H3]; intros ev X E; cbn beta in X; rewrite E, Z.eqb_refl in X; discriminate X|].
    split; [eapply EX; [|exact H2]; intros ev X E; cbn beta in X; rewrite E, Bool.eqb_reflx in X; discriminate X|].
    split; [eapply EX; [|exact H1]; intros ev; cbn beta; destruct (k_open (e_post ev)) as [|[|n] [|m l]]; intros X; try discriminate X; reflexivity|].
    destruct (k_open (w_k (snd (tidy_run w)))); [reflexivity|discriminate]. }
  repeat (apply Forall_cons; [apply K; [reflexivity|reflexivity| |vm_compute; reflexivity];
    unfold ConnectOnly; repeat (apply Forall_cons; [cbn; repeat constructor; eexists; reflexivity|]); apply Forall_nil|]).
  apply Forall_nil.
Qed.

(** root connects and then removes the socket while the plugin waits; the plugin
    then has nothing to remove. *)
Definition meddled_world : world := world_of k_root (local_turns
  ++ [t AOk; t AOk; t AOk; t (ANum 5); t (ANum 0); t AOk; t AOk; t AOk;
      ([(root, Connect sock); (root, Unlink sock)], ANum 1); t AOk; t AOk; t AOk; t AOk]
  ++ talk 67 (B "y") ++ write_turns 5 ++ write_turns 10 ++ [t AOk; t AOk; t AOk]).
Example C111_process_example :
  Describes release to_root to_root_rq /\ ~ Exempt to_root_rq /\ rq_command to_root_rq <> []
  /\ outcome_of (tidy_run meddled_world) = Some ([(Stdout, B "hello"); (Ttyin, B "typed")], true)
  /\ w_trace meddled_world = [] /\ Fresh (w_k meddled_world) /\ ~ ConnectOnly meddled_world
  /\ SigactionWorks (w_trace (snd (tidy_run meddled_world))) /\ DocumentedSelect (w_trace (snd (tidy_run meddled_world)))
  /\ SmallDescriptors (w_trace (snd (tidy_run meddled_world)))
  /\ forallb (fun ev => match e_call ev with CUnlink _ => false | _ => true end) (w_trace (snd (tidy_run meddled_world))) = true.
Proof.
  split; [exact to_root_describes|]. split; [exact to_root_not_exempt|]. split; [discriminate|].
  split; [vm_compute; reflexivity|]. split; [reflexivity|].
  split. { split; [reflexivity|]. split; [split; [discriminate|reflexivity]|]. intros c []. }
  split. { unfold ConnectOnly. cbn. intros H. do 12 apply Forall_inv_tail in H. apply Forall_inv, Forall_inv_tail, Forall_inv in H.
    destruct H as [p X]. discriminate X. }
  split; [apply sig_checked; vm_compute; reflexivity|]. split; [apply select_checked; vm_compute; reflexivity|].
  split; [apply fd_checked; vm_compute; reflexivity|].
  vm_compute. reflexivity.
Qed.

(** Without the provisos on unlink and sigaction the claim is false. *)
Definition C111_full : Prop := forall pl a rq h x err w r w' evs q,
  Describes pl a rq -> ~ Exempt rq -> rq_command rq <> [] -> SocketPath rq q ->
  session (exported SudoPair pl) a h x err w = (Done r, w') -> w_trace w' = w_trace w ++ evs ->
  ConnectOnly w -> Fresh (w_k w) -> DocumentedSelect evs -> SmallDescriptors evs ->
  Restored q (w_k w) (w_k w').


(** The socket cannot be removed: nobody is told, and it stays. *)
Definition stuck_world : world := world_of k_root (local_turns
  ++ [t AOk; t AOk; t AOk; t (ANum 5); t (ANum 0); t AOk; t AOk; t AOk; ([(root, Connect sock)], ANum 1); t AOk; t AOk; t AOk; t (AErr 13); t AOk]
  ++ talk 67 (B "y") ++ write_turns 5 ++ write_turns 10 ++ [t AOk; t AOk; t AOk]).
Theorem C111_socket_refuted : exists pl a rq h x err w r w' evs q,
  Describes pl a rq /\ ~ Exempt rq /\ rq_command rq <> [] /\ SocketPath rq q
  /\ session (exported SudoPair pl) a h x err w = (Done (Some r), w') /\ w_trace w' = w_trace w ++ evs
  /\ ConnectOnly w /\ Fresh (w_k w) /\ SigactionWorks evs /\ DocumentedSelect evs /\ SmallDescriptors evs
  /\ k_names (w_k w) q = None /\ k_names (w_k w') q <> None.
Proof.
  destruct (tidy_run stuck_world) as [o w'] eqn:E.
  assert (X : match o with Done (Some _) => True | _ => False end) by (rewrite <- (f_equal fst E : fst (tidy_run stuck_world) = o); vm_compute; exact I).
  destruct o as [[r|]| |]; try contradiction.
  assert (W : w' = snd (tidy_run stuck_world)) by (rewrite E; reflexivity).
  exists release, to_root, to_root_rq, mixed, 0, 0, stuck_world, r, w', (w_trace w'), sock.
  split; [exact to_root_describes|]. split; [exact to_root_not_exempt|]. split; [discriminate|]. split; [exact (proj1 C30_example)|].
  split; [exact E|]. split; [reflexivity|].
  split. { unfold ConnectOnly. repeat (apply Forall_cons; [cbn; repeat constructor; eexists; reflexivity|]). apply Forall_nil. }
  split. { split; [reflexivity|]. split; [split; [discriminate|reflexivity]|]. intros c []. }
  rewrite W. clear. split; [apply sig_checked; vm_compute; reflexivity|]. split; [apply select_checked; vm_compute; reflexivity|].
  split; [apply fd_checked; vm_compute; reflexivity|]. split; [vm_compute; reflexivity|vm_compute; discriminate].
Qed.
Print Assumptions C111_socket_refuted.

(** The disposition of SIGINT cannot be put back: it stays changed. *)
Definition torn_world : world := world_of k_root (w_script yes_world ++ [t AOk; t AOk; t (ANum 5); t (AErr 22)]
  ++ [t (ANum 1); t (ANum 11); t (ANum 22); t (ANum 1); t AOk; t AOk; t AOk]).
Theorem C111_sigint_refuted : exists pl a rq h x err w r w' evs q,
  Describes pl a rq /\ ~ Exempt rq /\ rq_command rq <> [] /\ SocketPath rq q
  /\ session (exported SudoPair pl) a h x err w = (Done (Some r), w') /\ w_trace w' = w_trace w ++ evs
  /\ ConnectOnly w /\ Fresh (w_k w) /\ DocumentedSelect evs /\ SmallDescriptors evs /\ CanTidy q evs
  /\ k_sigint (w_k w') <> k_sigint (w_k w).
Proof.
  destruct (tidy_run torn_world) as [o w'] eqn:E.
  assert (X : match o with Done (Some _) => True | _ => False end) by (rewrite <- (f_equal fst E : fst (tidy_run torn_world) = o); vm_compute; exact I).
  destruct o as [[r|]| |]; try contradiction.
  assert (W : w' = snd (tidy_run torn_world)) by (rewrite E; reflexivity).
  exists release, to_root, to_root_rq, mixed, 0, 0, torn_world, r, w', (w_trace w'), sock.
  split; [exact to_root_describes|]. split; [exact to_root_not_exempt|]. split; [discriminate|]. split; [exact (proj1 C30_example)|].
  split; [exact E|]. split; [reflexivity|].
  split. { unfold ConnectOnly. repeat (apply Forall_cons; [cbn; repeat constructor; eexists; reflexivity|]). apply Forall_nil. }
  split. { split; [reflexivity|]. split; [split; [discriminate|reflexivity]|]. intros c []. }
  rewrite W. clear. split; [apply select_checked; vm_compute; reflexivity|]. split; [apply fd_checked; vm_compute; reflexivity|].
  split; [apply tidy_checked; vm_compute; reflexivity|vm_compute; discriminate].
Qed.
Print Assumptions C111_sigint_refuted.

Theorem C111_not_full : ~ C111_full.
Proof.
  intros H. destruct C111_sigint_refuted as (pl & a & rq & h & x & err & w & r & w' & evs & q & H1 & H2 & H3 & H4 & H5 & H6 & H7 & H8 & H9 & H10 & _ & N).
  exact (N (rs_sigint _ _ _ (H pl a rq h x err w (Some r) w' evs q H1 H2 H3 H4 H5 H6 H7 H8 H9 H10))).
Qed.
Print Assumptions C111_not_full.
