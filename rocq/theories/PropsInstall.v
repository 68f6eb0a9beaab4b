(** Property theorems about installing the plugin: C106. *)
From Verif Require Import Base BaseLemmas Num Path Options World Sys Io Socket Env Core Pair Install InstallSpec Spec TraceSpec SessionSpec ConfigSpec
  AdversarySpec HonourSpec PathProofs RequestProofs InputFacts PairPure SessionFacts PeerFacts AdversaryFacts ForwardFacts SideFacts
  Samples Worlds PropsSocket PropsAdversary PropsSearch InstallFacts InstalledFacts.
Local Open Scope Z_scope.

(** *** C106: what the ways of installing leave behind, and whether the plugin works there *)

(** sample/Makefile with the variables of the Dockerfile: every file is where
    the plugin looks for it, owned by root. The directory of the sockets keeps
    its owner if it was there. *)
Theorem C106_makefile : forall k, Host docker_dirs [sockdir] docker_files k ->
  FileAt (after make_docker k) (B "/usr/bin/sudo_approve") (mkInode KReg 0 0 493)
  /\ FileAt (after make_docker k) (B "/usr/lib/sudo/sudo_pair.so") (mkInode KReg 0 0 420)
  /\ FileAt (after make_docker k) user_prompt_file (mkInode KReg 0 0 420)
  /\ FileAt (after make_docker k) pair_prompt_file (mkInode KReg 0 0 420)
  /\ FileAt (after make_docker k) (B "/etc/sudoers.d/sudo_pair") (mkInode KReg 0 0 288)
  /\ ((k_names k (components sockdir) = None /\ FileAt (after make_docker k) sockdir (mkInode KDir 0 0 420))
      \/ exists i, FileAt k sockdir i /\ FileAt (after make_docker k) sockdir (mkInode KDir (i_uid i) (i_gid i) 420)).
Proof. exact makefile_leaves. Qed.
Print Assumptions C106_makefile.

(** README.md *)
Theorem C106_readme : forall k, Host readme_dirs [sockdir] readme_files k ->
  FileAt (after readme_install k) (B "/usr/bin/sudo_approve") (mkInode KReg 0 0 493)
  /\ FileAt (after readme_install k) (B "/usr/libexec/sudo/libsudopair.dylib") (mkInode KReg 0 0 420)
  /\ FileAt (after readme_install k) (B "/etc/sudo.conf") (mkInode KReg 0 0 420)
  /\ FileAt (after readme_install k) sockdir (mkInode KDir 0 0 420).
Proof. exact readme_leaves. Qed.
Print Assumptions C106_readme.

(** The Debian package, whoever built it. The directory of sudo's plugins loses
    its search permission. *)
Theorem C106_package : forall u g m k, Host deb_dirs deb_made deb_files k ->
  FileAt (after (deb_install u g m) k) (B "/usr/bin/sudo_approve") (mkInode KReg 0 0 493)
  /\ FileAt (after (deb_install u g m) k) (B "/usr/lib/sudo") (mkInode KDir 0 0 420)
  /\ FileAt (after (deb_install u g m) k) (B "/usr/lib/sudo/libsudo_pair.so") (mkInode KReg 0 0 493)
  /\ FileAt (after (deb_install u g m) k) (B "/etc/sudo.conf_for_sudo_pair_sample") (mkInode KReg 0 0 420)
  /\ FileAt (after (deb_install u g m) k) sockdir (mkInode KDir 0 0 493).
Proof. exact package_leaves. Qed.
Print Assumptions C106_package.

(** After the Makefile a privileged peer can approve; after the package every
    process that the socket is meant for can, if the directories above were
    open to it. *)
Theorem C106_works : forall pl a rq q k peer,
  Describes pl a rq -> SocketPath rq q -> rq_socket_dir rq = sockdir -> pl_euid pl = 0 -> Askable pl a rq -> k_names k q = None ->
  (Host docker_dirs [sockdir] docker_files k -> (forall i, FileAt k sockdir i -> i_uid i = 0) -> cr_priv peer = true ->
     CanApprove pl a q peer (after make_docker k))
  /\ (forall u g m, Host deb_dirs deb_made deb_files k -> Entitled pl rq peer -> OpenWay peer (components sockdir) k ->
     CanApprove pl a q peer (after (deb_install u g m) k)).
Proof. exact installed_works. Qed.
Print Assumptions C106_works.

(** After the Makefile or README.md nothing that unprivileged processes do
    makes the plugin pass a command that is not exempt. *)
Theorem C106_closed : forall pl a rq q k does,
  Describes pl a rq -> SocketPath rq q -> rq_socket_dir rq = sockdir -> ~ Exempt rq -> rq_command rq <> [] ->
  (does = make_docker /\ Host docker_dirs [sockdir] docker_files k) \/ (does = readme_install /\ Host readme_dirs [sockdir] readme_files k) ->
  Guarded (Unprivileged (pl_euid pl)) q (after does k) ->
  NeverByUsers pl a (after does k).
Proof. exact installed_closed. Qed.
Print Assumptions C106_closed.

(** With the default prefix of the Makefile the plugin's directory is missing,
    and no command that is not exempt passes. *)
Theorem C106_prefix : forall pl a rq q k w w' o,
  Describes pl a rq -> SocketPath rq q -> rq_socket_dir rq = sockdir ->
  k_names k (components sockdir) = None -> w_k w = after make_default k -> Guarded (Unprivileged (pl_euid pl)) q (after make_default k) ->
  core_open SudoPair pl a (pstate0 _) w = (o, w') -> Everyone (fun c x => Unprivileged (pl_euid pl) c \/ OnlyConnects x) w ->
  ~ Exempt rq -> rq_command rq <> [] -> forall st', o <> Done (1, st').
Proof. exact prefix_never. Qed.
Print Assumptions C106_prefix.

(** README.md and the package name prompts that the repository does not have;
    the plugin's own are used if there were none before. *)
Theorem C106_prompts : forall pl a rq does k w w' o evs f,
  Describes pl a rq -> does = readme_install \/ (exists u g m, does = deb_install u g m) -> rq_socket_dir rq = sockdir ->
  f = user_prompt_file \/ f = pair_prompt_file -> k_names k (components f) = None -> w_k w = after does k ->
  core_open SudoPair pl a (pstate0 _) w = (o, w') -> w_trace w' = w_trace w ++ evs -> HonestFiles evs ->
  Everyone (fun _ x => ~ In (components f) (touched x)) w -> forall ev d, In ev evs -> ~ Is (CReadFile f) (AData d) ev.
Proof. exact prompts_unread. Qed.
Print Assumptions C106_prompts.

(** The line that the Makefile adds to sudo.conf guards the group nogroup and
    no other, or the group 0 if there is no group of that name. *)
Theorem C106_options : forall pl a rq, Describes pl a rq ->
  (oa_plugin_options a = Some (make_entries (B "65534")) -> rq_enforced rq = [65534])
  /\ (oa_plugin_options a = Some (make_entries []) -> rq_enforced rq = [0]).
Proof. exact sample_enforced. Qed.
Print Assumptions C106_options.

(** So a command that gains every group but nogroup passes unseen. *)
Theorem C106_passes : forall pl a rq w,
  Describes pl a rq -> oa_plugin_options a = Some (make_entries (B "65534")) ->
  ~ GainsGroup rq 65534 -> rq_command rq <> [] -> ~ MasklessAddr pl (oa_settings a) -> pl_debug pl = false \/ Consistent rq ->
  exists st', core_open SudoPair pl a (pstate0 _) w = (Done (1, st'), w) /\ st_plugin st' <> None.
Proof. exact sample_lets_pass. Qed.
Print Assumptions C106_passes.

(** Examples: a machine with the directories that a system has, on which all
    recipes can be followed. *)
Definition host_tree : list (path * nat) :=
  [(components (B "/"), 0%nat); (components (B "/var"), 1%nat); (components (B "/var/run"), 2%nat);
   (components (B "/usr"), 3%nat); (components (B "/usr/bin"), 4%nat); (components (B "/usr/lib"), 5%nat); (components (B "/usr/lib/sudo"), 6%nat);
   (components (B "/usr/libexec"), 7%nat); (components (B "/usr/libexec/sudo"), 8%nat); (components (B "/etc"), 9%nat);
   (components (B "/etc/sudoers.d"), 10%nat); (components (B "/usr/local"), 11%nat); (components (B "/etc/sudo.conf"), 12%nat)].

Definition k_host : kernel := {|
  k_names := named host_tree; k_inodes := fun n => if Nat.eqb n 12 then mkInode KReg 0 0 420 else root_dir;
  k_next := 13; k_umask := 18; k_sigint := mkSigact true 7; k_listen := None; k_conns := []; k_open := [] |}.

Lemma host_names p n : k_names k_host p = Some n -> In (p, n) host_tree.
Proof.
  cbn [k_host k_names]. unfold named. destruct (find (fun x : list component * nat => comps_eqb p (fst x)) host_tree) as [[x m]|] eqn:F; [|discriminate].
  intros H. injection H as <-. apply find_some in F as [F E]. cbn in E. apply comps_eqb_eq in E. subst x. exact F.
Qed.

Ltac host_cases H := repeat (destruct H as [H|H]; [injection H as <- <-|]); [..|destruct H].

Lemma host_numbered : Numbered k_host.
Proof. intros p n H. apply host_names in H. host_cases H; cbn; lia. Qed.

Lemma host_own p i n : k_names k_host (components p) = Some n -> k_inodes k_host n = i -> FileAt k_host p i.
Proof.
  intros E X. exists n. split; [exact E|]. split; [exact X|]. intros q H. apply host_names in E, H.
  remember (components p) as c eqn:Ec. clear Ec X. revert H. host_cases E; intros H; repeat (destruct H as [H|H]; [congruence|]); destruct H.
Qed.

Lemma host_apart p d n : resolve k_host d = Some n -> k_names k_host (components p) = Some n -> d = components p.
Proof.
  intros R E. unfold resolve in R. cbn [resolve_fuel] in R. destruct (k_names k_host d) as [m|] eqn:F; [|discriminate].
  assert (R' : m = n).
  { cbn [k_host k_inodes] in R. destruct (Nat.eqb m 12); cbn in R; congruence. }
  subst m. destruct (host_own p _ n E eq_refl) as (n' & E' & _ & U). apply U. congruence.
Qed.

Lemma host_all :
  Host docker_dirs [sockdir] docker_files k_host /\ Host readme_dirs [sockdir] readme_files k_host /\ Host deb_dirs deb_made deb_files k_host.
Proof.
  assert (V : forall p, (forall n, k_names k_host (components p) = Some n -> n = 12%nat) -> Vacant k_host p).
  { intros p H n E. rewrite (H n E). reflexivity. }
  assert (DI : forall p n, k_names k_host (components p) = Some n -> k_inodes k_host n = root_dir -> DirectoryAt k_host p).
  { intros p n E X. exists n. split; [|rewrite X; reflexivity]. unfold resolve. cbn [resolve_fuel]. rewrite E, X. reflexivity. }
  split; [|split]; (constructor; [exact host_numbered|reflexivity| | | |intros p d n _; apply host_apart]);
    unfold docker_dirs, readme_dirs, deb_dirs, docker_files, readme_files, deb_files, deb_made, above_sock; cbn [app];
    repeat (apply Forall_cons; [|]); try apply Forall_nil;
    first [eapply DI; vm_compute; reflexivity
          |apply V; intros n E; vm_compute in E; congruence
          |left; vm_compute; reflexivity
          |right; exists root_dir; split; [eapply host_own; vm_compute; reflexivity|reflexivity]].
Qed.

Definition host_above : list path := [[]; components (B "/"); components (B "/var"); components (B "/var/run"); run_dir].

(** What stands on the way to the socket after the recipes. *)
Definition plain_way (k : kernel) : bool :=
  forallb (fun p => match k_names k p with
                    | None => true
                    | Some n => Nat.ltb n (k_next k) && match i_kind (k_inodes k n) with KDir => true | _ => false end
                                && (i_uid (k_inodes k n) =? 0) && (Z.land (i_perm (k_inodes k n)) S_IWGRP =? 0)
                                && (Z.land (i_perm (k_inodes k n)) S_IWOTH =? 0)
                    end) host_above.

Lemma plain_guarded k : plain_way k = true -> Guarded (Unprivileged 0) sock k.
Proof.
  intros HP. unfold plain_way in HP. rewrite forallb_forall in HP. exists (fun p => In p host_above).
  assert (N : forall p n, In p host_above -> k_names k p = Some n -> (n < k_next k)%nat /\ i_kind (k_inodes k n) = KDir
    /\ i_uid (k_inodes k n) = 0 /\ (Z.land (i_perm (k_inodes k n)) S_IWGRP =? 0) = true
    /\ (Z.land (i_perm (k_inodes k n)) S_IWOTH =? 0) = true).
  { intros p n H E. specialize (HP p H). cbv beta in HP. rewrite E in HP. apply andb_true_iff in HP as [HP P]. apply andb_true_iff in HP as [HP Q]. apply andb_true_iff in HP as [HP U].
    apply andb_true_iff in HP as [L K]. split; [apply Nat.ltb_lt; exact L|]. split; [destruct (i_kind _); congruence|].
    split; [apply Z.eqb_eq; exact U|]. split; assumption. }
  constructor.
  - vm_compute. auto 10.
  - intros H. repeat (destruct H as [H|H]; [vm_compute in H; discriminate|]). exact H.
  - intros p H. repeat (destruct H as [<-|H]; [vm_compute; auto 10|]). destruct H.
  - intros p n t' H E K. destruct (N p n H E) as (_ & K' & _). congruence.
  - intros p n H E. exact (proj1 (N p n H E)).
  - intros p d c H E (P & U0).
    assert (H' : In (dir_path p) host_above).
    { destruct H as [H| ->]; [repeat (destruct H as [<-|H]; [vm_compute; auto 10|]); destruct H|vm_compute; auto 10]. }
    unfold dir_inode in E. destruct p as [|x p]; [discriminate|]. remember (dir_path (x :: p)) as dp eqn:Ed. clear Ed.
    unfold resolve in E. cbn [resolve_fuel] in E. destruct (k_names k dp) as [n|] eqn:F; [|discriminate].
    destruct (N dp n H' F) as (_ & K & U & M1 & M2). rewrite K in E. rewrite K in E. injection E as <-.
    split; [exact P|]. rewrite U. split; [exact U0|]. unfold may_write. rewrite P, U. apply Z.eqb_neq in U0. rewrite U0.
    rewrite M1, M2. destruct (mem_z _ _); reflexivity.
Qed.

(** Nobody but root can change the names leading to the socket. *)
Lemma host_guarded does : In does [readme_install; make_docker; make_default] -> Guarded (Unprivileged 0) sock (after does k_host).
Proof.
  intros HD. apply plain_guarded. destruct HD as [<-|[<-|[<-|[]]]]; vm_compute; reflexivity.
Qed.

(** The directories above the sockets' are open to everyone. *)
Lemma host_way : OpenWay www (components sockdir) k_host.
Proof.
  intros d r n E NR Hn. pose proof (host_names d n Hn) as HI. exists n.
  assert (X : k_inodes k_host n = root_dir \/ d = components (B "/etc/sudo.conf")).
  { host_cases HI; vm_compute; auto. }
  destruct X as [X| ->]; [|vm_compute in E; destruct r; discriminate].
  split; [unfold resolve; cbn [resolve_fuel]; rewrite Hn, X; reflexivity|]. rewrite X. split; [reflexivity|].
  right. right. right. split; [discriminate|]. split; [cbn; intuition discriminate|reflexivity].
Qed.

(** root can approve after the Makefile, www-data after the package, and
    www-data never after README.md or the Makefile. *)
Example C106_works_example :
  CanApprove release to_www sock installer (after make_docker k_host)
  /\ CanApprove release to_www sock www (after (deb_install 1000 1000 420) k_host)
  /\ NeverByUsers release to_www (after make_docker k_host) /\ NeverByUsers release to_www (after readme_install k_host).
Proof.
  destruct host_all as (H1 & H2 & H3).
  split. { apply (proj1 (C106_works release to_www to_www_rq sock k_host installer to_www_describes www_sock eq_refl eq_refl to_www_askable eq_refl)); [exact H1| |reflexivity].
           intros i (n & E & _). vm_compute in E. discriminate. }
  split. { apply (proj2 (C106_works release to_www to_www_rq sock k_host www to_www_describes www_sock eq_refl eq_refl to_www_askable eq_refl)); [exact H3| |].
           - right; left; repeat split; discriminate.
           - exact host_way. }
  split; (apply (C106_closed release to_www to_www_rq sock); [exact to_www_describes|exact www_sock|reflexivity|exact to_www_not_exempt|discriminate| |apply host_guarded; cbn; auto]).
  - left. auto.
  - right. auto.
Qed.

(** With the default prefix nobody gets to approve, even with mallory about. *)
Example C106_prefix_example : forall others w' o st',
  Forall (fun ca => Unprivileged 0 (fst ca) \/ OnlyConnects (snd ca)) others ->
  core_open SudoPair release to_www (pstate0 _) (mkWorld (after make_default k_host) (w_script (siege 58 others)) []) = (o, w') ->
  o <> Done (1, st').
Proof.
  intros others w' o st' HO R.
  assert (N : k_names k_host (components sockdir) = None) by (vm_compute; reflexivity).
  assert (G : Guarded (Unprivileged 0) sock (after make_default k_host)) by (apply host_guarded; cbn [In]; auto).
  set (w := mkWorld (after make_default k_host) (w_script (siege 58 others)) []) in *.
  assert (K : w_k w = after make_default k_host) by reflexivity.
  refine (C106_prefix release to_www to_www_rq sock k_host w w' o to_www_describes www_sock eq_refl N K G R _ to_www_not_exempt _ st'); [|discriminate].
  clear R K G N. subst w.
  assert (M : Forall (fun ca => Unprivileged 0 (fst ca) \/ OnlyConnects (snd ca)) mischief).
  { apply Forall_forall. intros ca H. left. assert (A : forallb (fun ca => unprivb 0 (fst ca)) mischief = true) by (vm_compute; reflexivity).
    rewrite forallb_forall in A. apply unprivb_ok. exact (A ca H). }
  assert (X : forall l, Calm l -> Forall (fun t : turn => Forall (fun ca => Unprivileged 0 (fst ca) \/ OnlyConnects (snd ca)) (fst t)) (beset mischief l)).
  { intros l. induction 1 as [|[x y] l E _ IH]; [constructor|]. cbn in E. subst x. unfold beset. cbn [map]. constructor; [|exact IH].
    cbn [fst]. rewrite ?app_nil_r. exact M. }
  unfold Everyone. cbn [w_script]. unfold siege, world_of. cbn [w_script]. apply Forall_app. split; [apply X; repeat constructor|].
  apply Forall_app. split; [apply X; repeat constructor|]. apply Forall_app. split; [|apply X; repeat constructor].
  constructor; [|constructor]. cbn [fst]. apply Forall_app. split; [exact M|exact HO].
Qed.

(** After the package www-data approves, and both prompts are the plugin's own. *)
Definition packaged : world := mkWorld (after (deb_install 1000 1000 420) k_host) (w_script (siege 58 [(www, Connect sock)])) [].
Example C106_prompts_example :
  code (www_run packaged) = Some 1
  /\ k_names k_host (components user_prompt_file) = None /\ k_names k_host (components pair_prompt_file) = None
  /\ HonestFiles (w_trace (snd (www_run packaged)))
  /\ Everyone (fun _ x => ~ In (components user_prompt_file) (touched x) /\ ~ In (components pair_prompt_file) (touched x)) packaged
  /\ (exists ev, In ev (w_trace (snd (www_run packaged))) /\ Is (CReadFile user_prompt_file) (AErr 2) ev)
  /\ (exists ev, In ev (w_trace (snd (www_run packaged))) /\ Is (CReadFile pair_prompt_file) (AErr 2) ev).
Proof.
  split; [vm_compute; reflexivity|]. split; [vm_compute; reflexivity|]. split; [vm_compute; reflexivity|].
  assert (F : forallb (fun ev => match e_call ev, e_ans ev with CReadFile _, AData _ => false | _, _ => true end) (w_trace (snd (www_run packaged))) = true)
    by (vm_compute; reflexivity).
  split. { intros ev p d Hin [E1 E2] _. rewrite forallb_forall in F. specialize (F ev Hin). cbv beta in F. rewrite E1, E2 in F. discriminate F. }
  split. { apply (everyone_checked _ (fun _ x => forallb (fun p => negb (comps_eqb p (components user_prompt_file) || comps_eqb p (components pair_prompt_file))) (touched x)));
           [|vm_compute; reflexivity].
           intros c x H. rewrite forallb_forall in H. split; intros HI; specialize (H _ HI); vm_compute in H; discriminate H. }
  assert (X : forall f, existsb (fun ev => match e_call ev, e_ans ev with CReadFile g, AErr e => bytes_eqb g f && (e =? 2) | _, _ => false end) (w_trace (snd (www_run packaged))) = true ->
    exists ev, In ev (w_trace (snd (www_run packaged))) /\ Is (CReadFile f) (AErr 2) ev).
  { intros f H. apply existsb_exists in H as (ev & Hin & H). exists ev. split; [exact Hin|]. unfold Is.
    destruct (e_call ev); try discriminate H. destruct (e_ans ev); try discriminate H. apply andb_true_iff in H as [H1 H2].
    apply bytes_eqb_eq in H1. apply Z.eqb_eq in H2. rewrite H1, H2. split; reflexivity. }
  split; apply X; vm_compute; reflexivity.
Qed.

(** alice becomes root and nobody is asked. *)
Example C106_passes_example : exists rq st',
  Describes release (with_entries to_root (make_entries (B "65534"))) rq /\ rq_to_uid rq = 0 /\ rq_uid rq = 1000
  /\ core_open SudoPair release (with_entries to_root (make_entries (B "65534"))) (pstate0 _) yes_world = (Done (1, st'), yes_world).
Proof.
  destruct (io_env_new release (B "sudo_pair") (B "1.2.0") (with_entries to_root (make_entries (B "65534")))) as [[e|]|] eqn:E;
    [|vm_compute in E; discriminate|vm_compute in E; discriminate].
  exists (request_of e). pose proof (env_Describes _ _ _ _ _ E) as D.
  assert (X : rq_command (request_of e) <> [] /\ rq_to_uid (request_of e) = 0 /\ rq_uid (request_of e) = 1000 /\ ~ GainsGroup (request_of e) 65534).
  { vm_compute in E. injection E as <-. split; [discriminate|]. split; [reflexivity|]. split; [reflexivity|].
    intros [H|H]; [vm_compute in H; discriminate|]. vm_compute in H. intuition discriminate. }
  destruct X as (X1 & X2 & X3 & X4).
  destruct (C106_passes release _ (request_of e) yes_world D eq_refl X4 X1) as (st' & H & _); [apply not_maskless; vm_compute; discriminate|left; reflexivity|].
  exists st'. auto.
Qed.

(** Every recipe lets the processes that the socket is meant for approve. *)
Definition C106_full : Prop := forall pl a rq q k peer does,
  Describes pl a rq -> SocketPath rq q -> rq_socket_dir rq = sockdir -> pl_euid pl = 0 -> Askable pl a rq -> k_names k q = None ->
  (does = make_docker /\ Host docker_dirs [sockdir] docker_files k) \/ (does = readme_install /\ Host readme_dirs [sockdir] readme_files k)
  \/ (exists u g m, does = deb_install u g m /\ Host deb_dirs deb_made deb_files k) ->
  k_names k (components sockdir) = None -> Entitled pl rq peer -> OpenWay peer (components sockdir) k ->
  CanApprove pl a q peer (after does k).

Theorem C106_not_full : ~ C106_full.
Proof.
  intros F. destruct host_all as (H1 & H2 & H3).
  destruct (F release to_www to_www_rq sock k_host www readme_install to_www_describes www_sock eq_refl eq_refl to_www_askable eq_refl
    (or_intror (or_introl (conj eq_refl H2))) eq_refl ltac:(right; left; repeat split; discriminate)) as (t1 & t2 & st' & w' & C1 & C2 & R & _).
  { exact host_way. }
  destruct C106_works_example as (_ & _ & _ & X).
  refine (X _ st' w' _ _ R); [reflexivity|]. unfold Everyone. cbn [w_script].
  assert (Y : forall t, Calm t -> Forall (fun t : turn => Forall (fun ca => cr_priv (fst ca) = false /\ (cr_uid (fst ca) <> pl_euid release \/ OnlyConnects (snd ca))) (fst t)) t).
  { intros t. apply Forall_impl. intros u ->. constructor. }
  apply Forall_app. split; [apply Y; exact C1|]. constructor; [|apply Y; exact C2].
  constructor; [|constructor]. split; [reflexivity|left; discriminate].
Qed.
Print Assumptions C106_not_full.
