(** Property theorems about sessions running side by side: C84. *)
From Verif Require Import Base Num Path Options World Sys Io Socket Env Core Pair Spec TraceSpec SessionSpec
  AdversarySpec SideSpec PathProofs RequestProofs AskFacts SessionFacts SideFacts Samples Worlds PropsApproval PropsSocket PropsAdversary.
Local Open Scope Z_scope.

(** *** C84: other sessions *)

(** The socket keeps its permissions, as in C23. *)
Theorem C84_user_socket : forall pl a rq w w' o evs,
  Describes pl a rq -> core_open SudoPair pl a (pstate0 _) w = (o, w') -> w_trace w' = w_trace w ++ evs ->
  rq_uid rq <> rq_to_uid rq -> rq_to_uid rq <> 4294967295 ->
  forall q, SocketPath rq q -> Apart (UserOutsider (pl_euid pl) (rq_to_uid rq)) q (w_k w) ->
  Everyone (fun c x => UserOutsider (pl_euid pl) (rq_to_uid rq) c \/ OnlyConnects x \/ OtherSession rq x) w ->
  forall e1 b e2, evs = e1 ++ b :: e2 -> Creates q b -> forall k, Afterwards (w_k w') b e2 k ->
  i_perm (k_inodes k (k_next (e_pre b))) = 0
  \/ (i_perm (k_inodes k (k_next (e_pre b))) = 128 /\ i_uid (k_inodes k (k_next (e_pre b))) = rq_to_uid rq).
Proof. exact socket_user_beside. Qed.
Print Assumptions C84_user_socket.

Theorem C84_group_socket : forall pl a rq w w' o evs,
  Describes pl a rq -> core_open SudoPair pl a (pstate0 _) w = (o, w') -> w_trace w' = w_trace w ++ evs ->
  rq_uid rq = rq_to_uid rq -> rq_to_gid rq <> 4294967295 ->
  forall q, SocketPath rq q -> Apart (Unprivileged (pl_euid pl)) q (w_k w) ->
  Everyone (fun c x => Unprivileged (pl_euid pl) c \/ OnlyConnects x \/ OtherSession rq x) w ->
  forall e1 b e2, evs = e1 ++ b :: e2 -> Creates q b -> forall k, Afterwards (w_k w') b e2 k ->
  i_perm (k_inodes k (k_next (e_pre b))) = 0
  \/ (i_perm (k_inodes k (k_next (e_pre b))) = 16 /\ i_gid (k_inodes k (k_next (e_pre b))) = rq_to_gid rq).
Proof. exact socket_group_beside. Qed.
Print Assumptions C84_group_socket.

(** Who is accepted, as in C25 and C26. *)
Theorem C84_user_accepted : forall pl a rq w w' o evs,
  Describes pl a rq -> core_open SudoPair pl a (pstate0 _) w = (o, w') -> w_trace w' = w_trace w ++ evs ->
  rq_uid rq <> rq_to_uid rq -> rq_to_uid rq <> 4294967295 ->
  forall q, SocketPath rq q -> Apart (UserOutsider (pl_euid pl) (rq_to_uid rq)) q (w_k w) ->
  Everyone (fun c x => UserOutsider (pl_euid pl) (rq_to_uid rq) c \/ OnlyConnects x \/ OtherSession rq x) w ->
  forall n c peer acc, In acc evs -> Accepts n c peer acc -> cr_priv peer = true \/ cr_uid peer = rq_to_uid rq.
Proof. exact accepted_user_beside. Qed.
Print Assumptions C84_user_accepted.

Theorem C84_group_accepted : forall pl a rq w w' o evs,
  Describes pl a rq -> core_open SudoPair pl a (pstate0 _) w = (o, w') -> w_trace w' = w_trace w ++ evs ->
  rq_uid rq = rq_to_uid rq -> rq_to_gid rq <> 4294967295 ->
  forall q, SocketPath rq q -> Apart (GroupOutsider (pl_euid pl) (rq_to_gid rq)) q (w_k w) ->
  Everyone (fun c x => GroupOutsider (pl_euid pl) (rq_to_gid rq) c \/ OnlyConnects x \/ OtherSession rq x) w ->
  forall n c peer acc, In acc evs -> Accepts n c peer acc -> cr_priv peer = true \/ In (rq_to_gid rq) (cr_gids peer).
Proof. exact accepted_group_beside. Qed.
Print Assumptions C84_group_accepted.

(** Without a suitable peer no session is opened, as in C24 and C25. *)
Theorem C84_user_never : forall pl a rq w w' o evs,
  Describes pl a rq -> core_open SudoPair pl a (pstate0 _) w = (o, w') -> w_trace w' = w_trace w ++ evs ->
  rq_uid rq <> rq_to_uid rq -> rq_to_uid rq <> 4294967295 ->
  forall q, SocketPath rq q -> Apart (UserOutsider (pl_euid pl) (rq_to_uid rq)) q (w_k w) ->
  Everyone (fun c x => UserOutsider (pl_euid pl) (rq_to_uid rq) c \/ OtherSession rq x) w ->
  ~ Exempt rq -> rq_command rq <> [] -> forall st', o <> Done (1, st').
Proof. exact never_user_beside. Qed.
Print Assumptions C84_user_never.

Theorem C84_group_never : forall pl a rq w w' o evs,
  Describes pl a rq -> core_open SudoPair pl a (pstate0 _) w = (o, w') -> w_trace w' = w_trace w ++ evs ->
  rq_uid rq = rq_to_uid rq -> rq_to_gid rq <> 4294967295 ->
  forall q, SocketPath rq q -> Apart (GroupOutsider (pl_euid pl) (rq_to_gid rq)) q (w_k w) ->
  Everyone (fun c x => GroupOutsider (pl_euid pl) (rq_to_gid rq) c \/ OtherSession rq x) w ->
  ~ Exempt rq -> rq_command rq <> [] -> forall st', o <> Done (1, st').
Proof. exact never_group_beside. Qed.
Print Assumptions C84_group_never.

(** alice's other terminal: the same command under process 99. *)
Definition second_user_info : list bytes :=
  [B "user=alice"; B "pid=99"; B "ppid=98"; B "pgid=99"; B "tcpgid=99"; B "sid=98";
   B "uid=1000"; B "euid=0"; B "gid=1000"; B "egid=1000"; B "groups=1000,27"; B "cwd=/home/alice";
   B "tty=/dev/pts/4"; B "host=web1"; B "lines=50"; B "cols=132"].
Definition second : open_args := {|
  oa_version := oa_version to_www; oa_printf := true; oa_settings := oa_settings to_www;
  oa_user_info := Some second_user_info; oa_command_info := oa_command_info to_www; oa_argv := oa_argv to_www;
  oa_user_env := Some []; oa_plugin_options := oa_plugin_options to_www |}.

Lemma second_describes : exists rq2, Describes release second rq2
  /\ rq_socket_dir rq2 = B "/var/run/sudo_pair" /\ rq_uid rq2 = 1000 /\ rq_pid rq2 = 99.
Proof.
  destruct (io_env_new release (B "n") (B "v") second) as [[e|]|] eqn:E;
    [|vm_compute in E; discriminate|vm_compute in E; discriminate].
  exists (request_of e). split; [exact (env_Describes _ _ _ _ _ E)|].
  vm_compute in E. injection E as <-. repeat split; vm_compute; reflexivity.
Qed.

Definition sock2 : path := run_dir ++ [Normal (B "1000.99.sock")].
Definition second_acts : list (cred * action) :=
  [(root, Unlink sock2); (root, Create sock2 KSock 0 0); (root, Chown sock2 33 4294967295); (root, Chmod sock2 128); (root, Unlink sock2)].

(** Its run: a stale socket is in the way, www-data approves. *)
Definition stale2 : list (path * nat) := tree ++ [(sock2, 7%nat)].
Definition k_stale2 : kernel := {|
  k_names := named stale2;
  k_inodes := fun n => match n with 7%nat => mkInode KSock 0 0 0 | _ => k_inodes k_tree n end;
  k_next := 8; k_umask := 18; k_sigint := mkSigact true 7; k_listen := None; k_conns := []; k_open := [] |}.
Definition second_world : world := world_of k_stale2
  ([t (AErr ENOENT); t AOk; t (ANum 30); t AOk] ++ [t AOk; t AOk; t AOk; t AOk; t (ANum 5); t (ANum 0); t AOk; t AOk; t AOk; ([(www, Connect sock2)], ANum 1)]
   ++ [t AOk; t AOk; t AOk; t AOk; t AOk] ++ talk 58 (B "y")).
Notation second_run := (run_history SudoPair release [CbOpen second] (pstate0 _) second_world).

Lemma second_act rq n x : rq_socket_dir rq = B "/var/run/sudo_pair" -> rq_pid rq = 4242 ->
  (n < List.length (w_trace (snd second_run)))%nat -> ActsAs (e_call (nth n (w_trace (snd second_run)) no_event)) x ->
  OtherSession rq x.
Proof.
  intros H1 H2 Hn HX. destruct second_describes as (rq2 & D & E1 & _ & E2).
  destruct (codes_run second_run [1]) as [st' HR]; [vm_compute; reflexivity|].
  exists release, second, rq2, [], second_world, (Done ([1], st')), (snd second_run), (w_trace (snd second_run)),
    (nth n (w_trace (snd second_run)) no_event).
  split; [exact D|]. split; [exact (eq_trans E1 (eq_sym H1))|]. split; [right; rewrite E2, H2; discriminate|].
  split; [constructor|]. split; [exact HR|]. split; [exact (no_trace second_world _ eq_refl)|].
  split; [apply nth_In; exact Hn|exact HX].
Qed.

Definition is_second (x : action) : bool :=
  match x with
  | Unlink p => comps_eqb p sock2
  | Create p KSock g m => comps_eqb p sock2
  | Chown p u g => comps_eqb p sock2 && (u =? 33) && (g =? 4294967295)
  | Chmod p m => comps_eqb p sock2 && (m =? 128)
  | _ => false
  end.
Lemma is_second_ok rq x : rq_socket_dir rq = B "/var/run/sudo_pair" -> rq_pid rq = 4242 ->
  is_second x = true -> OtherSession rq x.
Proof.
  intros H1 H2. assert (EQ : forall p, comps_eqb p sock2 = true -> p = sock2) by (intros p; apply comps_eqb_eq).
  destruct x; cbn [is_second]; try discriminate.
  - intros H. apply EQ in H. subst. apply (second_act rq 6 _ H1 H2); [apply Nat.ltb_lt; vm_compute; reflexivity|vm_compute; reflexivity].
  - destruct kd; try discriminate. intros H. apply EQ in H. subst.
    apply (second_act rq 9 _ H1 H2); [apply Nat.ltb_lt; vm_compute; reflexivity|vm_compute; exists gid, perm; reflexivity].
  - rewrite andb_true_iff, Z.eqb_eq. intros [H ->]. apply EQ in H. subst.
    apply (second_act rq 12 _ H1 H2); [apply Nat.ltb_lt; vm_compute; reflexivity|vm_compute; reflexivity].
  - rewrite !andb_true_iff, !Z.eqb_eq. intros [[H ->] ->]. apply EQ in H. subst.
    apply (second_act rq 11 _ H1 H2); [apply Nat.ltb_lt; vm_compute; reflexivity|vm_compute; reflexivity].
Qed.

(** mallory and the other session act before every call. *)
Definition busy (n : Z) (others : list (cred * action)) : world := world_of k_stale2
  (beset (mischief ++ second_acts) (local_turns ++ [t AOk; t AOk; t AOk; t (ANum 5); t (ANum 0); t AOk; t AOk; t AOk])
   ++ [(mischief ++ second_acts ++ others, ANum 1)]
   ++ beset (mischief ++ second_acts) ([t AOk; t AOk; t AOk; t AOk; t AOk] ++ talk n (B "y"))).

Lemma busy_apart (T : cred -> Prop) : (forall c, T c -> cr_priv c = false /\ cr_uid c <> 0) -> Apart T sock k_stale2.
Proof.
  intros HT. exists (fun p => In p above).
  assert (W : forall c i, T c -> i = root_dir -> cr_priv c = false /\ cr_uid c <> i_uid i /\ may_write c i = false).
  { intros c i Hc ->. destruct (HT c Hc) as (P & U). split; [exact P|]. split; [exact U|].
    unfold may_write. rewrite P. apply Z.eqb_neq in U. cbn [i_uid root_dir]. rewrite U.
    destruct (mem_z _ _); reflexivity. }
  split.
  - constructor.
    + vm_compute. auto 10.
    + intros H. repeat (destruct H as [H|H]; [vm_compute in H; discriminate|]). exact H.
    + intros p H. repeat (destruct H as [<-|H]; [vm_compute; auto 10|]). destruct H.
    + intros p n t' H E K. repeat (destruct H as [<-|H];
        [vm_compute in E; first [discriminate|injection E as <-; vm_compute in K; first [discriminate|injection K as <-; vm_compute; auto 10]]|]).
      destruct H.
    + intros p n H E. repeat (destruct H as [<-|H]; [vm_compute in E; first [discriminate|injection E as <-; vm_compute; auto 10]|]).
      destruct H.
    + intros p d c H E Hc. apply W; [exact Hc|]. destruct H as [H| ->].
      * repeat (destruct H as [<-|H]; [vm_compute in E; first [discriminate|injection E as <-; reflexivity]|]). destruct H.
      * vm_compute in E. injection E as <-. reflexivity.
  - intros p (_ & _ & HD & _). split.
    + intros H. repeat (destruct H as [<-|H]; [vm_compute in HD; discriminate|]). destruct H.
    + intros n E. unfold k_stale2, named in E. cbn [k_names] in E.
      destruct (find (fun x => comps_eqb p (fst x)) stale2) as [[r m]|] eqn:EF; [|discriminate]. injection E as <-.
      apply find_some in EF as [Hin Hp]. apply comps_eqb_eq in Hp. cbn [fst] in Hp. subst r.
      repeat (destruct Hin as [Hin|Hin]; [injection Hin as <- <-; first [vm_compute in HD; discriminate|vm_compute; auto]|]). destruct Hin.
Qed.

(** In both cases the session goes as if it were alone; with nobody suitable
    it is not opened. *)
Notation www_busy := (busy 58 [(www, Connect sock)]).
Example C84_user_example :
  Describes release to_www to_www_rq /\ SocketPath to_www_rq sock /\ ~ Exempt to_www_rq
  /\ Apart (UserOutsider 0 33) sock (w_k www_busy)
  /\ Everyone (fun c x => UserOutsider 0 33 c \/ OnlyConnects x \/ OtherSession to_www_rq x) www_busy
  /\ code (www_run www_busy) = Some 1
  /\ (let evs := w_trace (snd (www_run www_busy)) in
      e_call (nth 8 evs no_event) = CBind sock /\ k_next (e_pre (nth 8 evs no_event)) = 18%nat
      /\ map (fun ev => i_perm (k_inodes (e_post ev) 18)) (firstn 5 (skipn 8 evs)) = [0; 0; 0; 128; 128]
      /\ map (fun ev => i_uid (k_inodes (e_post ev) 18)) (firstn 5 (skipn 8 evs)) = [0; 0; 33; 33; 33])
  /\ Everyone (fun c x => UserOutsider 0 33 c \/ OtherSession to_www_rq x) (busy 58 [])
  /\ code (www_run (busy 58 [])) = None.
Proof.
  split; [exact to_www_describes|]. split; [exact www_sock|]. split; [exact to_www_not_exempt|].
  split; [apply busy_apart; intros c (A & B & _); auto|].
  split. { apply (everyone_checked _ (fun c x => user_outb 0 33 c || (is_connect x || is_second x))); [|vm_compute; reflexivity].
    intros c x H. apply orb_true_iff in H as [H|H]; [left; apply user_outb_ok; exact H|right].
    apply orb_true_iff in H as [H|H]; [left; apply is_connect_only; exact H|right].
    exact (is_second_ok to_www_rq x eq_refl eq_refl H). }
  split; [vm_compute; reflexivity|].
  split. { cbv zeta. split; [vm_compute; reflexivity|]. split; [vm_compute; reflexivity|]. split; vm_compute; reflexivity. }
  split; [|vm_compute; reflexivity].
  apply (everyone_checked _ (fun c x => user_outb 0 33 c || is_second x)); [|vm_compute; reflexivity].
  intros c x H. apply orb_true_iff in H as [H|H]; [left; apply user_outb_ok; exact H|right].
  exact (is_second_ok to_www_rq x eq_refl eq_refl H).
Qed.

Notation wheel_busy := (busy 56 [(bob, Connect sock)]).
Example C84_group_example :
  Describes release (to_group []) (to_group_rq [1000; 27]) /\ SocketPath (to_group_rq [1000; 27]) sock
  /\ ~ Exempt (to_group_rq [1000; 27])
  /\ Apart (Unprivileged 0) sock (w_k wheel_busy) /\ Apart (GroupOutsider 0 10) sock (w_k wheel_busy)
  /\ Everyone (fun c x => Unprivileged 0 c \/ OnlyConnects x \/ OtherSession (to_group_rq [1000; 27]) x) wheel_busy
  /\ Everyone (fun c x => GroupOutsider 0 10 c \/ OnlyConnects x \/ OtherSession (to_group_rq [1000; 27]) x) wheel_busy
  /\ code (group_run wheel_busy) = Some 1 /\ k_conns (w_k (snd (group_run wheel_busy))) = [bob]
  /\ Everyone (fun c x => GroupOutsider 0 10 c \/ OtherSession (to_group_rq [1000; 27]) x) (busy 56 [])
  /\ code (group_run (busy 56 [])) = None.
Proof.
  split; [exact to_group_describes|]. split; [exact group_sock|]. split; [exact to_group_not_exempt|].
  split; [apply busy_apart; intros c (A & B); auto|]. split; [apply busy_apart; intros c (A & B & _); auto|].
  split. { apply (everyone_checked _ (fun c x => unprivb 0 c || (is_connect x || is_second x))); [|vm_compute; reflexivity].
    intros c x H. apply orb_true_iff in H as [H|H]; [left; apply unprivb_ok; exact H|right].
    apply orb_true_iff in H as [H|H]; [left; apply is_connect_only; exact H|right].
    exact (is_second_ok (to_group_rq [1000; 27]) x eq_refl eq_refl H). }
  split. { apply (everyone_checked _ (fun c x => group_outb 0 10 c || (is_connect x || is_second x))); [|vm_compute; reflexivity].
    intros c x H. apply orb_true_iff in H as [H|H]; [left; apply group_outb_ok; exact H|right].
    apply orb_true_iff in H as [H|H]; [left; apply is_connect_only; exact H|right].
    exact (is_second_ok (to_group_rq [1000; 27]) x eq_refl eq_refl H). }
  split; [vm_compute; reflexivity|]. split; [vm_compute; reflexivity|]. split; [|vm_compute; reflexivity].
  apply (everyone_checked _ (fun c x => group_outb 0 10 c || is_second x)); [|vm_compute; reflexivity].
  intros c x H. apply orb_true_iff in H as [H|H]; [left; apply group_outb_ok; exact H|right].
  exact (is_second_ok (to_group_rq [1000; 27]) x eq_refl eq_refl H).
Qed.
