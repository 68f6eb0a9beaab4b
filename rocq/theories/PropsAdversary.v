(** Property theorems about hostile processes: C23, C24, C25, C26, C27. *)
From Verif Require Import Base Num Path Options World Sys Io Socket Env Core Pair Spec TraceSpec SessionSpec
  AdversarySpec PathProofs RequestProofs AskFacts SessionFacts PeerFacts InputFacts Samples Worlds PropsApproval PropsSocket.
Local Open Scope Z_scope.

(** *** A larger file system for the examples *)

(** /var/run/sudo_pair is a symbolic link to /run/sudo_pair; everything up to
    there belongs to root; /tmp is open to all. *)
Definition d_root : path := [RootDir].
Definition d_var : path := [RootDir; Normal (B "var")].
Definition d_var_run : path := [RootDir; Normal (B "var"); Normal (B "run")].
Definition d_run : path := [RootDir; Normal (B "run")].
Definition d_pair : path := [RootDir; Normal (B "run"); Normal (B "sudo_pair")].
Definition d_tmp : path := [RootDir; Normal (B "tmp")].

Definition named (l : list (path * nat)) (p : path) : option nat :=
  match find (fun x => comps_eqb p (fst x)) l with Some (_, n) => Some n | None => None end.

Definition tree : list (path * nat) :=
  [(d_root, 0%nat); (d_var, 1%nat); (d_var_run, 2%nat); (run_dir, 3%nat); (d_run, 4%nat); (d_pair, 5%nat); (d_tmp, 6%nat)].

Definition tree_kernel (var_run : inode) : kernel := {|
  k_names := named tree;
  k_inodes := fun n => match n with
                       | 2%nat => var_run
                       | 3%nat => mkInode (KLink d_pair) 0 0 511
                       | 6%nat => mkInode KDir 0 0 1023
                       | _ => root_dir
                       end;
  k_next := 7; k_umask := 18; k_sigint := mkSigact true 7;
  k_listen := None; k_conns := []; k_open := [] |}.

Definition k_tree : kernel := tree_kernel root_dir.

(** The names that lead to the socket. *)
Definition above : list path := [[]; d_root; d_var; d_var_run; run_dir; d_run; d_pair].

Definition mallory : cred := mkCred 1002 [1002] false.
Definition bob : cred := bob_wheel.
Definition my_file : path := d_tmp ++ [Normal (B "m")].
Definition my_link : path := d_tmp ++ [Normal (B "l")].

(** What mallory can think of: connecting, replacing the socket or the
    directory, changing their attributes, linking them elsewhere. *)
Definition mischief : list (cred * action) :=
  [(mallory, Create my_file KSock 1002 511); (mallory, Rename my_file sock); (mallory, Connect sock);
   (mallory, Unlink sock); (mallory, Chmod sock 511); (mallory, Chown sock 1002 1002);
   (mallory, HardLink sock my_link); (mallory, Connect my_link); (mallory, Rename run_dir my_file);
   (mallory, Unlink run_dir); (mallory, Chmod run_dir 511)].

(** Socket set-up during which [others] act before every call. *)
Definition beset (others : list (cred * action)) (ts : list turn) : list turn := map (fun x => (others, snd x)) ts.

Lemma tree_guarded (T : cred -> Prop) : (forall c, T c -> cr_priv c = false /\ cr_uid c <> 0) ->
  Guarded T sock k_tree.
Proof.
  intros HT. exists (fun p => In p above).
  assert (W : forall c i, T c -> i = root_dir -> cr_priv c = false /\ cr_uid c <> i_uid i /\ may_write c i = false).
  { intros c i Hc ->. destruct (HT c Hc) as (P & U). split; [exact P|]. split; [exact U|].
    unfold may_write. rewrite P. apply Z.eqb_neq in U. cbn [i_uid root_dir]. rewrite U.
    destruct (mem_z _ _); reflexivity. }
  constructor.
  - vm_compute. auto 10.
  - intros H. repeat (destruct H as [H|H]; [vm_compute in H; discriminate|]). exact H.
  - intros p H. repeat (destruct H as [<-|H]; [vm_compute; auto 10|]). destruct H.
  - intros p n t' H E K. repeat (destruct H as [<-|H];
      [vm_compute in E; first [discriminate|injection E as <-; vm_compute in K; first [discriminate|injection K as <-; vm_compute; auto 10]]|]).
    destruct H.
  - intros p n H E. repeat (destruct H as [<-|H]; [vm_compute in E; first [discriminate|injection E as <-; vm_compute; auto 10]|]).
    destruct H.
  - intros p d c H E Hc. apply W; [exact Hc|]. destruct H as [H| ->].
    + repeat (destruct H as [<-|H]; [vm_compute in E; first [discriminate|injection E as <-; reflexivity]|]). destruct H.
    + vm_compute in E. injection E as <-. reflexivity.
Qed.

(** alice: sudo -u www-data id, where the enforced group is 33 *)
Definition to_www : open_args := {|
  oa_version := api_1_17; oa_printf := true;
  oa_settings := Some (settings0 ++ [B "runas_user=www-data"]);
  oa_user_info := Some user_info0;
  oa_command_info := Some ([B "command=/usr/bin/id"; B "runas_uid=33"; B "runas_gid=33"; B "runas_groups=33"] ++ log_hints);
  oa_argv := [B "id"];
  oa_user_env := Some [];
  oa_plugin_options := Some [B "gids_enforced=33"] |}.

Definition to_www_rq : request := {|
  rq_uid := 1000; rq_euid := 0; rq_gid := 1000; rq_groups := [1000; 27]; rq_pid := 4242;
  rq_user := B "alice"; rq_host := B "web1"; rq_user_cwd := B "/home/alice";
  rq_lines := 50; rq_cols := 132; rq_tty := Some (B "/dev/pts/3");
  rq_command := B "/usr/bin/id"; rq_policy_cwd := None;
  rq_to_uid := 33; rq_to_gid := 33; rq_to_groups := Some [33]; rq_preserve_groups := false;
  rq_log := fun s => match s with Ttyin => false | Ttyout => true | Stdin => true | Stdout => true | Stderr => true end;
  rq_progname := B "sudo"; rq_args := [B "id"];
  rq_f_sudoedit := false; rq_f_user := Some (B "www-data"); rq_f_group := None; rq_f_prompt := None;
  rq_f_login := false; rq_f_shell := false; rq_f_set_home := false; rq_f_preserve_env := false;
  rq_f_preserve_groups := false; rq_f_reset := false; rq_f_noninteractive := false;
  rq_f_class := None; rq_f_role := None; rq_f_type := None; rq_f_auth := None; rq_f_close_from := None;
  rq_binary_path := B "/usr/bin/sudo_approve"; rq_user_prompt_path := B "/etc/sudo_pair.prompt.user";
  rq_pair_prompt_path := B "/etc/sudo_pair.prompt.pair"; rq_socket_dir := B "/var/run/sudo_pair";
  rq_enforced := [33]; rq_exempted := []; rq_printf := true |}.

Lemma to_www_describes : Describes release to_www to_www_rq.
Proof.
  destruct (io_env_new release (B "n") (B "v") to_www) as [[e|]|] eqn:E;
    [|vm_compute in E; discriminate|vm_compute in E; discriminate].
  assert (H : request_of e = to_www_rq).
  { vm_compute in E. injection E as <-. vm_compute. reflexivity. }
  rewrite <- H. exact (env_Describes _ _ _ _ _ E).
Qed.

Definition www : cred := mkCred 33 [33] false.

Notation www_run w := (core_open SudoPair release to_www (pstate0 SudoPair) w).
Notation group_run w := (core_open SudoPair release (to_group []) (pstate0 SudoPair) w).

(** mallory acts before every call; the processes [others] while the plugin
    waits. *)
Definition siege (n : Z) (others : list (cred * action)) : world := world_of k_tree
  (beset mischief local_turns
   ++ beset mischief [t AOk; t AOk; t AOk; t (ANum 5); t (ANum 0); t AOk; t AOk; t AOk]
   ++ [(mischief ++ others, ANum 1)]
   ++ beset mischief ([t AOk; t AOk; t AOk; t AOk; t AOk] ++ talk n (B "y"))).
Definition www_siege : world := siege 58 [(www, Connect sock)].
Definition group_siege : world := siege 56 [(bob, Connect sock)].

(** Deciding [Everyone]. *)
Definition everyone_check (f : cred -> action -> bool) (w : world) : bool :=
  forallb (fun t : turn => forallb (fun ca => f (fst ca) (snd ca)) (fst t)) (w_script w).
Lemma everyone_checked (P : cred -> action -> Prop) f w :
  (forall c x, f c x = true -> P c x) -> everyone_check f w = true -> Everyone P w.
Proof.
  intros HF H. unfold everyone_check in H. rewrite forallb_forall in H. apply Forall_forall. intros y Hy.
  specialize (H y Hy). rewrite forallb_forall in H. apply Forall_forall. intros ca Hc. apply HF, H, Hc.
Qed.
Definition is_connect (x : action) : bool := match x with Connect _ => true | _ => false end.
Lemma is_connect_only x : is_connect x = true -> OnlyConnects x.
Proof. destruct x; try discriminate. intros _. eexists. reflexivity. Qed.

Definition user_outb (euid uid : Z) (c : cred) : bool :=
  negb (cr_priv c) && negb (cr_uid c =? euid) && negb (cr_uid c =? uid).
Definition group_outb (euid gid : Z) (c : cred) : bool :=
  negb (cr_priv c) && negb (cr_uid c =? euid) && negb (mem_z gid (cr_gids c)).
Definition unprivb (euid : Z) (c : cred) : bool := negb (cr_priv c) && negb (cr_uid c =? euid).
Lemma user_outb_ok e u c : user_outb e u c = true -> UserOutsider e u c.
Proof.
  unfold user_outb. rewrite !andb_true_iff, !negb_true_iff, !Z.eqb_neq. intros [[A B] C]. split; auto.
Qed.
Lemma group_outb_ok e g c : group_outb e g c = true -> GroupOutsider e g c.
Proof.
  unfold group_outb. rewrite !andb_true_iff, !negb_true_iff, !Z.eqb_neq. intros [[A B] C]. split; [exact A|]. split; [exact B|].
  intros H. apply PairPure.mem_z_iff in H. congruence.
Qed.
Lemma unprivb_ok e c : unprivb e c = true -> Unprivileged e c.
Proof. unfold unprivb. rewrite !andb_true_iff, !negb_true_iff, !Z.eqb_neq. intros [A B]. split; auto. Qed.

Lemma to_www_not_exempt : ~ Exempt to_www_rq.
Proof.
  destruct (io_env_new release (B "n") (B "v") to_www) as [[e|]|] eqn:E;
    [|vm_compute in E; discriminate|vm_compute in E; discriminate].
  apply (not_exempt_by release e); [exact (env_Matches _ _ _ _ _ _ to_www_describes E)|].
  vm_compute in E. injection E as <-. vm_compute. reflexivity.
Qed.
Lemma to_group_not_exempt : ~ Exempt (to_group_rq [1000; 27]).
Proof.
  destruct (io_env_new release (B "n") (B "v") (to_group [])) as [[e|]|] eqn:E;
    [|vm_compute in E; discriminate|vm_compute in E; discriminate].
  apply (not_exempt_by release e); [exact (env_Matches _ _ _ _ _ _ to_group_describes E)|].
  vm_compute in E. injection E as <-. vm_compute. reflexivity.
Qed.
Lemma www_sock : SocketPath to_www_rq sock.
Proof. exact (SocketPath_intro to_www_rq). Qed.
Lemma group_sock : SocketPath (to_group_rq [1000; 27]) sock.
Proof. exact (SocketPath_intro (to_group_rq [1000; 27])). Qed.


(** *** C23: the permissions of the socket *)
Theorem C23_user_change : forall pl a rq w w' o evs,
  Describes pl a rq -> core_open SudoPair pl a (pstate0 _) w = (o, w') -> w_trace w' = w_trace w ++ evs ->
  rq_uid rq <> rq_to_uid rq -> rq_to_uid rq <> 4294967295 ->
  forall q, SocketPath rq q ->
  Guarded (UserOutsider (pl_euid pl) (rq_to_uid rq)) q (w_k w) ->
  Everyone (fun c x => UserOutsider (pl_euid pl) (rq_to_uid rq) c \/ OnlyConnects x) w ->
  forall e1 b e2, evs = e1 ++ b :: e2 -> Creates q b -> forall k, Afterwards (w_k w') b e2 k ->
  i_perm (k_inodes k (k_next (e_pre b))) = 0
  \/ (i_perm (k_inodes k (k_next (e_pre b))) = 128 /\ i_uid (k_inodes k (k_next (e_pre b))) = rq_to_uid rq).
Proof. exact socket_of_user. Qed.
Print Assumptions C23_user_change.

Theorem C23_group_change : forall pl a rq w w' o evs,
  Describes pl a rq -> core_open SudoPair pl a (pstate0 _) w = (o, w') -> w_trace w' = w_trace w ++ evs ->
  rq_uid rq = rq_to_uid rq -> rq_to_gid rq <> 4294967295 ->
  forall q, SocketPath rq q ->
  Guarded (Unprivileged (pl_euid pl)) q (w_k w) ->
  Everyone (fun c x => Unprivileged (pl_euid pl) c \/ OnlyConnects x) w ->
  forall e1 b e2, evs = e1 ++ b :: e2 -> Creates q b -> forall k, Afterwards (w_k w') b e2 k ->
  i_perm (k_inodes k (k_next (e_pre b))) = 0
  \/ (i_perm (k_inodes k (k_next (e_pre b))) = 16 /\ i_gid (k_inodes k (k_next (e_pre b))) = rq_to_gid rq).
Proof. exact socket_of_group. Qed.
Print Assumptions C23_group_change.

(** In both cases mallory acts before every call of the plugin; the socket is
    closed to everyone at first and then open to www-data or to wheel. *)
Example C23_user_example :
  Describes release to_www to_www_rq /\ SocketPath to_www_rq sock
  /\ Guarded (UserOutsider 0 33) sock (w_k www_siege)
  /\ Everyone (fun c x => UserOutsider 0 33 c \/ OnlyConnects x) www_siege
  /\ code (www_run www_siege) = Some 1
  /\ (let evs := w_trace (snd (www_run www_siege)) in
      e_call (nth 8 evs no_event) = CBind sock /\ k_next (e_pre (nth 8 evs no_event)) = 8%nat
      /\ map (fun ev => i_perm (k_inodes (e_post ev) 8)) (firstn 5 (skipn 8 evs)) = [0; 0; 0; 128; 128]
      /\ map (fun ev => i_uid (k_inodes (e_post ev) 8)) (firstn 5 (skipn 8 evs)) = [0; 0; 33; 33; 33]).
Proof.
  split; [exact to_www_describes|]. split; [exact www_sock|].
  split; [apply tree_guarded; intros c (A & B & _); auto|].
  split. { apply (everyone_checked _ (fun c x => user_outb 0 33 c || is_connect x)); [|vm_compute; reflexivity].
    intros c x H. apply orb_true_iff in H as [H|H]; [left; apply user_outb_ok; exact H|right; apply is_connect_only; exact H]. }
  split; [vm_compute; reflexivity|]. cbv zeta.
  split; [vm_compute; reflexivity|]. split; [vm_compute; reflexivity|]. split; vm_compute; reflexivity.
Qed.

Example C23_group_example :
  Describes release (to_group []) (to_group_rq [1000; 27]) /\ SocketPath (to_group_rq [1000; 27]) sock
  /\ Guarded (Unprivileged 0) sock (w_k group_siege)
  /\ Everyone (fun c x => Unprivileged 0 c \/ OnlyConnects x) group_siege
  /\ code (group_run group_siege) = Some 1
  /\ (let evs := w_trace (snd (group_run group_siege)) in
      e_call (nth 8 evs no_event) = CBind sock /\ k_next (e_pre (nth 8 evs no_event)) = 8%nat
      /\ map (fun ev => i_perm (k_inodes (e_post ev) 8)) (firstn 5 (skipn 8 evs)) = [0; 0; 0; 16; 16]
      /\ map (fun ev => i_gid (k_inodes (e_post ev) 8)) (firstn 5 (skipn 8 evs)) = [0; 0; 10; 10; 10]).
Proof.
  split; [exact to_group_describes|]. split; [exact group_sock|].
  split; [apply tree_guarded; intros c (A & B); auto|].
  split. { apply (everyone_checked _ (fun c x => unprivb 0 c || is_connect x)); [|vm_compute; reflexivity].
    intros c x H. apply orb_true_iff in H as [H|H]; [left; apply unprivb_ok; exact H|right; apply is_connect_only; exact H]. }
  split; [vm_compute; reflexivity|]. cbv zeta.
  split; [vm_compute; reflexivity|]. split; [vm_compute; reflexivity|]. split; vm_compute; reflexivity.
Qed.

(** *** C24: a change of user *)
Theorem C24_outsiders_cannot_open : forall pl a rq w w' o evs,
  Describes pl a rq -> core_open SudoPair pl a (pstate0 _) w = (o, w') -> w_trace w' = w_trace w ++ evs ->
  rq_uid rq <> rq_to_uid rq -> Everyone (fun c _ => UserOutsider (pl_euid pl) (rq_to_uid rq) c) w ->
  ~ Exempt rq -> rq_command rq <> [] -> forall st', o <> Done (1, st').
Proof. exact user_never. Qed.
Print Assumptions C24_outsiders_cannot_open.

(** Even when others connect as well, an outsider is not the one accepted. *)
Theorem C24_outsiders_not_accepted : forall pl a rq w w' o evs,
  Describes pl a rq -> core_open SudoPair pl a (pstate0 _) w = (o, w') -> w_trace w' = w_trace w ++ evs ->
  rq_uid rq <> rq_to_uid rq -> Everyone (fun c x => UserOutsider (pl_euid pl) (rq_to_uid rq) c \/ OnlyConnects x) w ->
  forall n c peer acc, In acc evs -> Accepts n c peer acc -> ~ UserOutsider (pl_euid pl) (rq_to_uid rq) peer.
Proof. exact user_accepted. Qed.
Print Assumptions C24_outsiders_not_accepted.

(** Here /var/run belongs to mallory, who swaps the socket directory for one
    of their own right after it was tested, and later the socket itself.  The
    change of owner misses the socket, the change of mode hits it. *)
Definition swapped : path := d_var_run ++ [Normal (B "old")].
Definition aside : path := run_dir ++ [Normal (B "aside")].
Definition swap_dir : list (cred * action) := [(mallory, Rename run_dir swapped); (mallory, Create run_dir KDir 1002 1535)].
Definition take_away : list (cred * action) := [(mallory, Rename sock aside); (mallory, Create sock KReg 1002 511)].
Definition put_back : list (cred * action) := [(mallory, Unlink sock); (mallory, Rename aside sock)].
Definition k_loose : kernel := tree_kernel (mkInode KDir 1002 1002 493).
Definition swap_world (n : Z) : world := world_of k_loose
  (local_turns ++ [t AOk; (swap_dir, AOk); t AOk; t (ANum 5); t (ANum 1002); t AOk; (take_away, AOk); (put_back, AOk);
                   ([(mallory, Connect sock); (mallory, Chmod sock 511); (mallory, Connect sock)], ANum 1);
                   t AOk; t AOk; t AOk; t AOk; t AOk] ++ talk n (B "y")).

Example C24_example :
  Describes release to_www to_www_rq /\ ~ Exempt to_www_rq
  /\ Everyone (fun c _ => UserOutsider 0 33 c) (swap_world 58)
  /\ (let evs := w_trace (snd (www_run (swap_world 58))) in
      List.length evs = 12%nat
      /\ e_call (nth 8 evs no_event) = CBind sock /\ k_next (e_pre (nth 8 evs no_event)) = 8%nat
      /\ option_map (fun d => i_uid (k_inodes (e_pre (nth 8 evs no_event)) d)) (dir_inode (e_pre (nth 8 evs no_event)) sock) = Some 1002
      /\ e_call (nth 11 evs no_event) = CChmod sock 128
      /\ k_inodes (e_post (nth 11 evs no_event)) 8 = mkInode KSock 0 1002 128)
  /\ code (www_run (swap_world 58)) = None.
Proof.
  split; [exact to_www_describes|]. split; [exact to_www_not_exempt|].
  split. { apply (everyone_checked _ (fun c _ => user_outb 0 33 c)); [intros c x; apply user_outb_ok|vm_compute; reflexivity]. }
  split; [|vm_compute; reflexivity]. cbv zeta. repeat split; vm_compute; reflexivity.
Qed.

(** mallory interferes throughout, and www connects. *)
Example C24_accepted_example :
  Everyone (fun c x => UserOutsider 0 33 c \/ OnlyConnects x) www_siege
  /\ existsb (fun ca => user_outb 0 33 (fst ca) && is_connect (snd ca)) (flat_map fst (w_script www_siege)) = true
  /\ code (www_run www_siege) = Some 1 /\ k_conns (w_k (snd (www_run www_siege))) = [www].
Proof.
  split. { apply (everyone_checked _ (fun c x => user_outb 0 33 c || is_connect x)); [|vm_compute; reflexivity].
    intros c x H. apply orb_true_iff in H. destruct H; [left; apply user_outb_ok; assumption|right; apply is_connect_only; assumption]. }
  repeat split; vm_compute; reflexivity.
Qed.

(** *** C25: a change of group *)
Theorem C25_outsiders_cannot_open : forall pl a rq w w' o evs,
  Describes pl a rq -> core_open SudoPair pl a (pstate0 _) w = (o, w') -> w_trace w' = w_trace w ++ evs ->
  rq_uid rq = rq_to_uid rq -> rq_to_gid rq <> 4294967295 ->
  forall q, SocketPath rq q -> Guarded (GroupOutsider (pl_euid pl) (rq_to_gid rq)) q (w_k w) ->
  Everyone (fun c _ => GroupOutsider (pl_euid pl) (rq_to_gid rq) c) w ->
  ~ Exempt rq -> rq_command rq <> [] -> forall st', o <> Done (1, st').
Proof. exact group_never. Qed.
Print Assumptions C25_outsiders_cannot_open.

Theorem C25_only_members_accepted : forall pl a rq w w' o evs,
  Describes pl a rq -> core_open SudoPair pl a (pstate0 _) w = (o, w') -> w_trace w' = w_trace w ++ evs ->
  rq_uid rq = rq_to_uid rq -> rq_to_gid rq <> 4294967295 ->
  forall q, SocketPath rq q -> Guarded (GroupOutsider (pl_euid pl) (rq_to_gid rq)) q (w_k w) ->
  Everyone (fun c x => GroupOutsider (pl_euid pl) (rq_to_gid rq) c \/ OnlyConnects x) w ->
  forall n c peer acc, In acc evs -> Accepts n c peer acc -> cr_priv peer = true \/ In (rq_to_gid rq) (cr_gids peer).
Proof. exact group_accepted. Qed.
Print Assumptions C25_only_members_accepted.

(** mallory alone, before every call: nobody gets through, the plugin waits. *)
Example C25_example :
  Describes release (to_group []) (to_group_rq [1000; 27]) /\ ~ Exempt (to_group_rq [1000; 27])
  /\ SocketPath (to_group_rq [1000; 27]) sock
  /\ Guarded (GroupOutsider 0 10) sock (w_k (siege 56 []))
  /\ Everyone (fun c _ => GroupOutsider 0 10 c) (siege 56 [])
  /\ code (group_run (siege 56 [])) = None /\ List.length (w_trace (snd (group_run (siege 56 [])))) = 12%nat
  /\ Everyone (fun c x => GroupOutsider 0 10 c \/ OnlyConnects x) group_siege
  /\ code (group_run group_siege) = Some 1
  /\ k_conns (w_k (snd (group_run group_siege))) = [bob].
Proof.
  split; [exact to_group_describes|]. split; [exact to_group_not_exempt|]. split; [exact group_sock|].
  split; [apply tree_guarded; intros c (A & B & _); auto|].
  split. { apply (everyone_checked _ (fun c _ => group_outb 0 10 c)); [intros c x; apply group_outb_ok|vm_compute; reflexivity]. }
  split; [vm_compute; reflexivity|]. split; [vm_compute; reflexivity|].
  split. { apply (everyone_checked _ (fun c x => group_outb 0 10 c || is_connect x)); [|vm_compute; reflexivity].
    intros c x H. apply orb_true_iff in H as [H|H]; [left; apply group_outb_ok; exact H|right; apply is_connect_only; exact H]. }
  split; vm_compute; reflexivity.
Qed.

(** Without the guard the claim is false: testing the socket directory alone
    does not help if its parent can be altered. *)
Definition C25_unguarded : Prop := forall pl a rq w w' o evs,
  Describes pl a rq -> core_open SudoPair pl a (pstate0 _) w = (o, w') -> w_trace w' = w_trace w ++ evs ->
  rq_uid rq = rq_to_uid rq -> rq_to_gid rq <> 4294967295 ->
  Everyone (fun c _ => GroupOutsider (pl_euid pl) (rq_to_gid rq) c) w ->
  ~ Exempt rq -> rq_command rq <> [] -> forall st', o <> Done (1, st').

Theorem C25_unguarded_refuted : exists w st' w' evs,
  core_open SudoPair release (to_group []) (pstate0 _) w = (Done (1, st'), w')
  /\ w_trace w' = w_trace w ++ evs
  /\ Everyone (fun c _ => GroupOutsider (pl_euid release) (rq_to_gid (to_group_rq [1000; 27])) c) w.
Proof.
  destruct (code_run (group_run (swap_world 56)) 1) as [st1 H1]; [vm_compute; reflexivity|].
  exists (swap_world 56), st1, (snd (group_run (swap_world 56))), (w_trace (snd (group_run (swap_world 56)))).
  split; [exact H1|]. split; [exact (no_trace (swap_world 56) _ eq_refl)|].
  apply (everyone_checked _ (fun c _ => group_outb 0 10 c)); [intros c x; apply group_outb_ok|vm_compute; reflexivity].
Qed.
Print Assumptions C25_unguarded_refuted.

Theorem C25_unguarded_false : ~ C25_unguarded.
Proof.
  intros H. destruct C25_unguarded_refuted as (w & st' & w' & evs & HR & HT & HE).
  refine (H release (to_group []) (to_group_rq [1000; 27]) w w' _ evs to_group_describes HR HT _ _ HE to_group_not_exempt _ st' eq_refl);
    [reflexivity|discriminate|discriminate].
Qed.
Print Assumptions C25_unguarded_false.

(** *** C26: the peer that is accepted *)
Theorem C26_user_change : forall pl a rq w w' o evs,
  Describes pl a rq -> core_open SudoPair pl a (pstate0 _) w = (o, w') -> w_trace w' = w_trace w ++ evs ->
  rq_uid rq <> rq_to_uid rq -> rq_to_uid rq <> 4294967295 -> ConnectOnly w ->
  forall n c peer acc, In acc evs -> Accepts n c peer acc -> cr_priv peer = true \/ cr_uid peer = rq_to_uid rq.
Proof. exact peer_of_user. Qed.
Print Assumptions C26_user_change.

Theorem C26_group_change : forall pl a rq w w' o evs,
  Describes pl a rq -> core_open SudoPair pl a (pstate0 _) w = (o, w') -> w_trace w' = w_trace w ++ evs ->
  rq_uid rq = rq_to_uid rq -> rq_to_gid rq <> 4294967295 -> ConnectOnly w ->
  forall n c peer acc, In acc evs -> Accepts n c peer acc -> cr_priv peer = true \/ In (rq_to_gid rq) (cr_gids peer).
Proof. exact peer_of_group. Qed.
Print Assumptions C26_group_change.

(** alice, mallory and bob queue up first; an unprivileged www-data, or bob,
    is the one accepted. *)
Definition crowd_world (n : Z) : world := world_of k_tree
  (local_turns ++ socket_turns [(alice, Connect sock); (mallory, Connect sock); (bob, Connect sock); (www, Connect sock)]
   ++ talk n (B "y")).

Example C26_example :
  ConnectOnly (crowd_world 58) /\ ConnectOnly (crowd_world 56)
  /\ code (www_run (crowd_world 58)) = Some 1 /\ k_conns (w_k (snd (www_run (crowd_world 58)))) = [www]
  /\ code (group_run (crowd_world 56)) = Some 1 /\ k_conns (w_k (snd (group_run (crowd_world 56)))) = [bob].
Proof.
  assert (C : forall w, everyone_check (fun _ x => is_connect x) w = true -> ConnectOnly w).
  { intros w H. apply (everyone_checked (fun _ x => OnlyConnects x) _ w (fun _ x => is_connect_only x) H). }
  split; [apply C; vm_compute; reflexivity|]. split; [apply C; vm_compute; reflexivity|].
  repeat split; vm_compute; reflexivity.
Qed.

(** *** C27: the requesting user *)
Definition C27_full : Prop := forall pl a rq w w' o evs,
  Describes pl a rq -> core_open SudoPair pl a (pstate0 _) w = (o, w') -> w_trace w' = w_trace w ++ evs ->
  rq_uid rq <> pl_euid pl -> ConnectOnly w ->
  forall n c peer acc, In acc evs -> Accepts n c peer acc -> cr_priv peer = false -> cr_uid peer <> rq_uid rq.

(** True when the user changes, whatever the requester does. *)
Theorem C27_user_change : forall pl a rq w w' o evs,
  Describes pl a rq -> core_open SudoPair pl a (pstate0 _) w = (o, w') -> w_trace w' = w_trace w ++ evs ->
  rq_uid rq <> rq_to_uid rq -> rq_uid rq <> pl_euid pl ->
  Everyone (fun c x => UserOutsider (pl_euid pl) (rq_to_uid rq) c \/ OnlyConnects x) w ->
  forall n c peer acc, In acc evs -> Accepts n c peer acc -> cr_priv peer = false -> cr_uid peer <> rq_uid rq.
Proof. exact requester_refused. Qed.
Print Assumptions C27_user_change.

(** alice belongs to wheel and runs sudo -g wheel: they approve themselves. *)
Definition alice_wheel : cred := mkCred 1000 [1000; 27; 10] false.
Definition self_world : world := world_of k_tree
  (local_turns ++ socket_turns [(alice_wheel, Connect sock)] ++ talk 56 (B "y")).
Notation self_args := (to_group [B "groups=1000,27,10"]).
Notation self_rq := (to_group_rq [1000; 27; 10]).

Theorem C27_refuted : exists w st' w' evs n c acc,
  core_open SudoPair release self_args (pstate0 _) w = (Done (1, st'), w')
  /\ w_trace w' = w_trace w ++ evs /\ ConnectOnly w
  /\ In acc evs /\ Accepts n c alice_wheel acc
  /\ cr_priv alice_wheel = false /\ cr_uid alice_wheel = rq_uid self_rq.
Proof.
  destruct (code_run (core_open SudoPair release self_args (pstate0 SudoPair) self_world) 1) as [st1 H1]; [vm_compute; reflexivity|].
  exists self_world, st1, (snd (core_open SudoPair release self_args (pstate0 SudoPair) self_world)),
    (w_trace (snd (core_open SudoPair release self_args (pstate0 SudoPair) self_world))),
    7%nat, 0%nat, (nth 13 (w_trace (snd (core_open SudoPair release self_args (pstate0 SudoPair) self_world))) no_event).
  split; [exact H1|]. split; [exact (no_trace self_world _ eq_refl)|].
  split. { apply (everyone_checked (fun _ x => OnlyConnects x) (fun _ x => is_connect x)); [intros _ x; apply is_connect_only|vm_compute; reflexivity]. }
  split; [apply nth_In; vm_compute; repeat constructor|].
  split. { split; [split; vm_compute; reflexivity|]. split; [vm_compute; reflexivity|]. do 2 eexists.
    split; [vm_compute; reflexivity|]. split; reflexivity. }
  split; reflexivity.
Qed.
Print Assumptions C27_refuted.

Theorem C27_not_full : ~ C27_full.
Proof.
  intros H. destruct C27_refuted as (w & st' & w' & evs & n & c & acc & HR & HT & HC & Hin & HA & HP & HU).
  refine (H release self_args self_rq w w' _ evs to_own_group_describes HR HT _ HC n c alice_wheel acc Hin HA HP HU). discriminate.
Qed.
Print Assumptions C27_not_full.

(** Among alice, mallory, bob and www-data, alice (first in line) is not taken. *)
Example C27_example :
  Everyone (fun c x => UserOutsider 0 33 c \/ OnlyConnects x) (crowd_world 58)
  /\ code (www_run (crowd_world 58)) = Some 1 /\ k_conns (w_k (snd (www_run (crowd_world 58)))) = [www].
Proof.
  split. { apply (everyone_checked _ (fun c x => user_outb 0 33 c || is_connect x)); [|vm_compute; reflexivity].
    intros c x H. apply orb_true_iff in H as [H|H]; [left; apply user_outb_ok; exact H|right; apply is_connect_only; exact H]. }
  split; vm_compute; reflexivity.
Qed.
