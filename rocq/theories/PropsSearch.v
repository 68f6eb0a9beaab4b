(** Property theorems about search permission and names: C87, C88. *)
From Verif Require Import Base Num Path Options World Sys Io Socket Env Core Pair Approve Script Spec ScriptSpec TraceSpec SessionSpec
  AdversarySpec HonourSpec PairPure RequestProofs InputFacts PathProofs SessionFacts PeerFacts AdversaryFacts ForwardFacts ScriptFacts
  SearchFacts SideFacts Samples Worlds PropsSocket PropsAdversary PropsScript.
Local Open Scope Z_scope.

(** *** C87: search permission on the directory of the socket *)

(** Whoever is accepted may search the directory the socket is in, provided
    that everyone who cannot is also unable to change the names leading to it. *)
Theorem C87_searchers : forall pl a rq w w' o evs,
  Describes pl a rq -> core_open SudoPair pl a (pstate0 _) w = (o, w') -> w_trace w' = w_trace w ++ evs ->
  forall (T : cred -> Prop) q d, SocketPath rq q -> Numbered (w_k w) -> Guarded T q (w_k w) ->
  resolve (w_k w) (dir_path q) = Some d -> i_kind (k_inodes (w_k w) d) = KDir ->
  (forall c, T c -> ~ MaySearch c (k_inodes (w_k w) d)) ->
  Everyone (fun c x => T c \/ OnlyConnects x) w ->
  forall n c peer acc, In acc evs -> Accepts n c peer acc -> MaySearch peer (k_inodes (w_k w) d).
Proof. exact searchers_accepted. Qed.
Print Assumptions C87_searchers.

(** A directory without any search bits keeps out all but privileged processes. *)
Theorem C87_closed_accepted : forall pl a rq w w' o evs,
  Describes pl a rq -> core_open SudoPair pl a (pstate0 _) w = (o, w') -> w_trace w' = w_trace w ++ evs ->
  forall q d, SocketPath rq q -> Numbered (w_k w) -> Guarded (Unprivileged (pl_euid pl)) q (w_k w) ->
  resolve (w_k w) (dir_path q) = Some d -> i_kind (k_inodes (w_k w) d) = KDir ->
  Z.land (i_perm (k_inodes (w_k w) d)) 73 = 0 ->
  Everyone (fun c x => Unprivileged (pl_euid pl) c \/ OnlyConnects x) w ->
  forall n c peer acc, In acc evs -> Accepts n c peer acc -> cr_priv peer = true.
Proof. exact closed_accepted. Qed.
Print Assumptions C87_closed_accepted.

(** Without privileged processes there is then no approval at all. *)
Theorem C87_closed_never : forall pl a rq w w' o evs,
  Describes pl a rq -> core_open SudoPair pl a (pstate0 _) w = (o, w') -> w_trace w' = w_trace w ++ evs ->
  forall q d, SocketPath rq q -> Numbered (w_k w) -> Guarded (Unprivileged (pl_euid pl)) q (w_k w) ->
  resolve (w_k w) (dir_path q) = Some d -> i_kind (k_inodes (w_k w) d) = KDir ->
  Z.land (i_perm (k_inodes (w_k w) d)) 73 = 0 ->
  Everyone (fun c x => cr_priv c = false /\ (cr_uid c <> pl_euid pl \/ OnlyConnects x)) w ->
  ~ Exempt rq -> rq_command rq <> [] -> forall st', o <> Done (1, st').
Proof. exact closed_never. Qed.
Print Assumptions C87_closed_never.

(** Nor does the script find the socket. *)
Theorem C87_script : forall db k p d uid pid ps, p <> [] -> resolve k (dir_path p) = Some d ->
  ~ MaySearch (ps_cred ps) (k_inodes k d) ->
  run_script db k p uid pid ps = NotFound /\ forall groups ps', ~ Reached db k p groups uid pid ps ps'.
Proof. exact search_script. Qed.
Print Assumptions C87_script.

(** The directory as README.md:59 and sample/Makefile:27 create it: mode 0644.
    (contrib/DEBIAN/postinst:6 makes it 0755.) *)
Definition k_0644 : kernel := {|
  k_names := named tree;
  k_inodes := fun n => match n with
                       | 3%nat => mkInode (KLink d_pair) 0 0 511
                       | 5%nat => mkInode KDir 0 0 420
                       | 6%nat => mkInode KDir 0 0 1023
                       | _ => root_dir
                       end;
  k_next := 7; k_umask := 18; k_sigint := mkSigact true 7;
  k_listen := None; k_conns := []; k_open := [] |}.

Lemma guarded_0644 (T : cred -> Prop) : (forall c, T c -> cr_priv c = false /\ cr_uid c <> 0) ->
  Guarded T sock k_0644.
Proof.
  intros HT. exists (fun p => In p above).
  assert (W : forall c i, T c -> i = root_dir \/ i = mkInode KDir 0 0 420 ->
    cr_priv c = false /\ cr_uid c <> i_uid i /\ may_write c i = false).
  { intros c i Hc Hi. destruct (HT c Hc) as (P & U). split; [exact P|].
    assert (U0 : cr_uid c <> i_uid i) by (destruct Hi as [-> | ->]; exact U). split; [exact U0|].
    unfold may_write. rewrite P. apply Z.eqb_neq in U0. rewrite U0.
    destruct Hi as [-> | ->]; destruct (mem_z _ _); reflexivity. }
  constructor.
  - vm_compute. auto 10.
  - intros H. repeat (destruct H as [H|H]; [vm_compute in H; discriminate|]). exact H.
  - intros p H. repeat (destruct H as [<-|H]; [vm_compute; auto 10|]). destruct H.
  - intros p n t' H E K. repeat (destruct H as [<-|H];
      [vm_compute in E; first [discriminate|injection E as <-; vm_compute in K; first [discriminate|injection K as <-; vm_compute; auto 10]]|]).
    destruct H.
  - intros p n H E. repeat (destruct H as [<-|H]; [vm_compute in E; first [discriminate|injection E as <-; vm_compute; auto 10]|]).
    destruct H.
  - intros p d c H E Hc. apply W; [exact Hc|]. destruct H as [H| ->].
    + repeat (destruct H as [<-|H]; [vm_compute in E; first [discriminate|injection E as <-; first [left; reflexivity|right; reflexivity]]|]). destruct H.
    + vm_compute in E. injection E as <-. right; reflexivity.
Qed.

Lemma numbered_0644 : Numbered k_0644.
Proof.
  intros p n H. cbn in H. unfold named in H. destruct (find (fun x : list component * nat => comps_eqb p (fst x)) tree) as [[x m]|] eqn:F; [|discriminate].
  injection H as <-. apply find_some in F as [F _]. cbn in F.
  repeat (destruct F as [F|F]; [injection F as _ <-; cbn; apply Nat.ltb_lt; reflexivity|]). destruct F.
Qed.

Lemma to_www_askable : Askable release to_www to_www_rq.
Proof.
  constructor.
  - apply not_maskless. vm_compute. discriminate.
  - discriminate.
  - exact to_www_not_exempt.
  - left. discriminate.
  - intros [_ H]. apply H. reflexivity.
  - discriminate.
  - discriminate.
  - cbn. intuition discriminate.
  - intros n (u & p & Hu & Hp & ->). apply Decimal_iff in Hu, Hp. subst. vm_compute. repeat constructor.
Qed.

(** C22_can_be_approved without the open way. *)
Definition C87_full : Prop := forall pl a rq q peer k tr,
  Describes pl a rq -> Askable pl a rq -> SocketPath rq q -> Entitled pl rq peer -> Ready pl rq q k -> Numbered k ->
  exists t1 t2 st' w', Calm t1 /\ Calm t2
    /\ core_open SudoPair pl a (pstate0 _) (mkWorld k (t1 ++ ([(peer, Connect q)], ANum 1) :: t2) tr) = (Done (1, st'), w').

(** The plugin accepts the directory, and www-data is meant to connect, but no
    unprivileged process can bring about an approval. *)
Theorem C87_refuted : exists pl a rq q peer k,
  Describes pl a rq /\ Askable pl a rq /\ SocketPath rq q /\ Entitled pl rq peer /\ Ready pl rq q k /\ Numbered k
  /\ cr_priv peer = false
  /\ (exists d, resolve k (dir_path q) = Some d /\ i_perm (k_inodes k d) = 420)
  /\ forall w st' w', w_k w = k ->
     Everyone (fun c x => cr_priv c = false /\ (cr_uid c <> pl_euid pl \/ OnlyConnects x)) w ->
     core_open SudoPair pl a (pstate0 _) w <> (Done (1, st'), w').
Proof.
  exists release, to_www, to_www_rq, sock, www, k_0644.
  split; [exact to_www_describes|]. split; [exact to_www_askable|]. split; [exact www_sock|].
  split; [right; left; repeat split; discriminate|].
  split. { split; [left; reflexivity|]. exists 5%nat. split; [vm_compute; reflexivity|].
    split; [reflexivity|]. split; [reflexivity|]. split; [split; [discriminate|reflexivity]|]. split; reflexivity. }
  split; [exact numbered_0644|]. split; [reflexivity|].
  split; [exists 5%nat; split; [vm_compute; reflexivity|reflexivity]|].
  intros w st' w' Ek HE R. destruct (opening_trace _ _ _ _ _ R) as [evs HT].
  refine (closed_never release to_www to_www_rq w w' _ evs to_www_describes R HT sock 5 www_sock _ _ _ _ _ HE to_www_not_exempt _ st' eq_refl);
    rewrite ?Ek; try reflexivity; [exact numbered_0644| |discriminate].
  apply guarded_0644. intros c [A B]. auto.
Qed.
Print Assumptions C87_refuted.

Theorem C87_not_full : ~ C87_full.
Proof.
  intros F. destruct C87_refuted as (pl & a & rq & q & peer & k & D & A & S & E & R & N & P & _ & X).
  destruct (F pl a rq q peer k [] D A S E R N) as (t1 & t2 & st' & w' & C1 & C2 & O).
  refine (X (mkWorld k (t1 ++ ([(peer, Connect q)], ANum 1) :: t2) []) st' w' eq_refl _ O). unfold Everyone. cbn [w_script]. apply Forall_app. split; [|constructor].
  - revert C1. apply Forall_impl. intros x ->. constructor.
  - constructor; [|constructor]. cbn. split; [exact P|right; eexists; reflexivity].
  - revert C2. apply Forall_impl. intros x ->. constructor.
Qed.
Print Assumptions C87_not_full.

(** The siege of C23 with the directory in mode 0644: www-data is not accepted.
    root would be. *)
Definition siege_0644 (others : list (cred * action)) : world := mkWorld k_0644 (w_script (siege 58 others)) [].
Example C87_example :
  Everyone (fun c x => Unprivileged 0 c \/ OnlyConnects x) (siege_0644 [(www, Connect sock)])
  /\ Everyone (fun c x => cr_priv c = false /\ (cr_uid c <> 0 \/ OnlyConnects x)) (siege_0644 [(www, Connect sock)])
  /\ Guarded (Unprivileged 0) sock k_0644 /\ (forall c, Unprivileged 0 c -> ~ MaySearch c (k_inodes k_0644 5))
  /\ resolve k_0644 (dir_path sock) = Some 5%nat
  /\ code (www_run (siege_0644 [(www, Connect sock)])) <> Some 1
  /\ code (www_run (siege_0644 [(root, Connect sock)])) = Some 1
  /\ run_script everybody (e_pre (nth 12 (w_trace (snd (www_run (siege_0644 [])))) no_event)) sock 1000 4242 carol = NotFound.
Proof.
  split. { apply (everyone_checked _ (fun c x => unprivb 0 c || is_connect x)); [|vm_compute; reflexivity].
    intros c x H. apply orb_true_iff in H as [H|H]; [left; apply unprivb_ok; exact H|right; apply is_connect_only; exact H]. }
  split. { apply (everyone_checked _ (fun c x => unprivb 0 c)); [|vm_compute; reflexivity].
    intros c x H. apply unprivb_ok in H as [A B]. auto. }
  split; [apply guarded_0644; intros c [A B]; auto|].
  split. { intros c [A B] H. apply (closed_search c (k_inodes k_0644 5)) in H; [congruence|reflexivity]. }
  split; [vm_compute; reflexivity|]. split; [vm_compute; discriminate|]. split; vm_compute; reflexivity.
Qed.

(** *** C88: users and groups without a name *)

(** If the requested user has no name (sudo -u '#4711'), the script connects
    nobody, not even root, to the socket once it is open to its owner. *)
Theorem C88_user : forall pl a rq w w' o evs,
  Describes pl a rq -> core_open SudoPair pl a (pstate0 _) w = (o, w') -> w_trace w' = w_trace w ++ evs ->
  rq_uid rq <> rq_to_uid rq -> rq_to_uid rq <> 4294967295 ->
  forall q, SocketPath rq q ->
  Guarded (UserOutsider (pl_euid pl) (rq_to_uid rq)) q (w_k w) ->
  Everyone (fun c x => UserOutsider (pl_euid pl) (rq_to_uid rq) c \/ OnlyConnects x) w ->
  forall e1 b e2, evs = e1 ++ b :: e2 -> Creates q b -> forall k, Afterwards (w_k w') b e2 k ->
  let s := k_inodes k (k_next (e_pre b)) in
  k_names k q = Some (k_next (e_pre b)) ->
  i_perm s = 0
  \/ forall db groups ps ps', db_user db (rq_to_uid rq) = false -> ~ Reached db k q groups (rq_uid rq) (rq_pid rq) ps ps'.
Proof. exact nameless_user. Qed.
Print Assumptions C88_user.

Theorem C88_group : forall pl a rq w w' o evs,
  Describes pl a rq -> core_open SudoPair pl a (pstate0 _) w = (o, w') -> w_trace w' = w_trace w ++ evs ->
  rq_uid rq = rq_to_uid rq -> rq_f_group rq <> None -> rq_to_gid rq <> 4294967295 ->
  forall q, SocketPath rq q ->
  Guarded (Unprivileged (pl_euid pl)) q (w_k w) ->
  Everyone (fun c x => Unprivileged (pl_euid pl) c \/ OnlyConnects x) w ->
  forall e1 b e2, evs = e1 ++ b :: e2 -> Creates q b -> forall k, Afterwards (w_k w') b e2 k ->
  let s := k_inodes k (k_next (e_pre b)) in
  k_names k q = Some (k_next (e_pre b)) ->
  i_perm s = 0
  \/ forall db groups ps ps', db_group db (rq_to_gid rq) = false -> ~ Reached db k q groups (rq_uid rq) (rq_pid rq) ps ps'.
Proof. exact nameless_group. Qed.
Print Assumptions C88_group.

(** The sieges of C23 (see there and C79) again, with a database that lacks
    uid 33 and gid 10: root is turned away although the plugin waits for them. *)
Example C88_example :
  (let k := e_pre (nth 12 (w_trace (snd (www_run www_siege))) no_event) in
   let db := mkDatabase (fun u => negb (u =? 33)) (fun _ => true) in
   k_names k sock = Some 8%nat /\ i_perm (k_inodes k 8) = 128
   /\ run_script db k sock 1000 4242 (mkProcess root None) = NoName
   /\ run_script everybody k sock 1000 4242 (mkProcess root None) = Pair)
  /\ (let k := e_pre (nth 12 (w_trace (snd (group_run group_siege))) no_event) in
      let db := mkDatabase (fun _ => true) (fun g => negb (g =? 10)) in
      k_names k sock = Some 8%nat /\ i_perm (k_inodes k 8) = 16
      /\ run_script db k sock 1000 4242 (mkProcess root None) = NoName
      /\ run_script everybody k sock 1000 4242 (mkProcess root None) = Pair).
Proof. vm_compute. repeat split. Qed.
