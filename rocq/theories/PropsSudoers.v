(** Property theorems about the rules that sudo goes by: C107. *)
From Coq Require Import Lia.
From Verif Require Import Base BaseLemmas Num Path Options World Sys Io Socket Env Core Pair Approve Script Install Spec ScriptSpec
  TraceSpec SessionSpec AdversarySpec HonourSpec RequestProofs PairPure PathProofs ForwardFacts Samples Worlds PropsSocket PropsAdversary
  PropsScript Sudoers SudoersFacts.
Local Open Scope Z_scope.

(** *** C107: who can approve under given rules, and what the rules of the
    repository lead to *)

(** README.md:215-222 and 240-241. While the socket is there and can be
    reached, the approval script takes a colleague to it if and only if they
    are privileged, the user meant, or may use sudo for the script as that
    user; and likewise for a group. *)
Theorem C107_user : forall pl a rq w w' o evs,
  Describes pl a rq -> core_open SudoPair pl a (pstate0 _) w = (o, w') -> w_trace w' = w_trace w ++ evs ->
  rq_uid rq <> rq_to_uid rq -> rq_to_uid rq <> 4294967295 ->
  forall q, SocketPath rq q ->
  Guarded (UserOutsider (pl_euid pl) (rq_to_uid rq)) q (w_k w) ->
  Everyone (fun c x => UserOutsider (pl_euid pl) (rq_to_uid rq) c \/ OnlyConnects x) w ->
  forall e1 b e2, evs = e1 ++ b :: e2 -> Creates q b -> forall k, Afterwards (w_k w') b e2 k ->
  let s := k_inodes k (k_next (e_pre b)) in
  k_names k q = Some (k_next (e_pre b)) -> (forall c, OpenWay c q k) ->
  i_perm s = 0
  \/ forall sd bin db groups ps, db_user db (i_uid s) = true -> db_group db (i_gid s) = true ->
     ps_sudo_uid ps = None -> cr_uid (ps_cred ps) <> rq_uid rq ->
     ((exists ps', ReachedUnder sd bin db k q groups (rq_uid rq) (rq_pid rq) ps ps')
      <-> cr_priv (ps_cred ps) = true \/ cr_uid (ps_cred ps) = rq_to_uid rq
          \/ May sd (cr_uid (ps_cred ps)) (cr_gids (ps_cred ps)) bin (AsUser (rq_to_uid rq))).
Proof. exact approvers_user. Qed.
Print Assumptions C107_user.

Theorem C107_group : forall pl a rq w w' o evs,
  Describes pl a rq -> core_open SudoPair pl a (pstate0 _) w = (o, w') -> w_trace w' = w_trace w ++ evs ->
  rq_uid rq = rq_to_uid rq -> rq_to_gid rq <> 4294967295 ->
  forall q, SocketPath rq q ->
  Guarded (Unprivileged (pl_euid pl)) q (w_k w) ->
  Everyone (fun c x => Unprivileged (pl_euid pl) c \/ OnlyConnects x) w ->
  forall e1 b e2, evs = e1 ++ b :: e2 -> Creates q b -> forall k, Afterwards (w_k w') b e2 k ->
  let s := k_inodes k (k_next (e_pre b)) in
  k_names k q = Some (k_next (e_pre b)) -> (forall c, OpenWay c q k) ->
  i_perm s = 0
  \/ forall sd bin db groups ps, db_user db (i_uid s) = true -> db_group db (i_gid s) = true ->
     ps_sudo_uid ps = None -> cr_uid (ps_cred ps) <> rq_uid rq -> cr_priv (ps_cred ps) = true \/ cr_uid (ps_cred ps) <> pl_euid pl ->
     ((exists ps', ReachedUnder sd bin db k q groups (rq_uid rq) (rq_pid rq) ps ps')
      <-> cr_priv (ps_cred ps) = true \/ In (rq_to_gid rq) (cr_gids (ps_cred ps))
          \/ May sd (cr_uid (ps_cred ps)) (cr_gids (ps_cred ps)) bin (AsGroup (rq_to_gid rq))).
Proof. exact approvers_group. Qed.
Print Assumptions C107_group.

(** The sieges of C23 meet the hypotheses (see there). With a rule for carol
    the script takes carol to the socket, without one it does not; bob, a
    member of the group, needs none. *)
Definition carol_rule (users : list Z) : sudoers :=
  mkSudoers false [mkRule (WUser 1003) (Some users) [10] None (Some [B "/usr/bin/sudo_approve"])].
Definition no_rules : sudoers := mkSudoers false [].
Example C107_who_example :
  (let k := e_pre (nth 12 (w_trace (snd (www_run www_siege))) no_event) in
   k_names k sock = Some 8%nat /\ (forall c, OpenWay c sock k) /\ i_perm (k_inodes k 8) = 128
   /\ (exists ps', ReachedUnder (carol_rule [33]) (B "/usr/bin/sudo_approve") everybody k sock no_groups 1000 4242 carol ps')
   /\ ~ exists ps', ReachedUnder no_rules (B "/usr/bin/sudo_approve") everybody k sock no_groups 1000 4242 carol ps')
  /\ (let k := e_pre (nth 12 (w_trace (snd (group_run group_siege))) no_event) in
      k_names k sock = Some 8%nat /\ (forall c, OpenWay c sock k) /\ i_perm (k_inodes k 8) = 16
      /\ (exists ps', ReachedUnder (carol_rule []) (B "/usr/bin/sudo_approve") everybody k sock no_groups 1000 4242 carol ps')
      /\ (exists ps', ReachedUnder no_rules (B "/usr/bin/sudo_approve") everybody k sock no_groups 1000 4242 (mkProcess bob None) ps')).
Proof.
  split; cbv zeta.
  - split; [vm_compute; reflexivity|]. split; [apply way_checked_all; vm_compute; reflexivity|]. split; [vm_compute; reflexivity|].
    split.
    + eexists. apply RU_user with (v := 33); [vm_compute; reflexivity| |vm_compute; reflexivity].
      eexists. apply governs_only. split; [reflexivity|]. split; left; reflexivity.
    + intros [ps' [R|v R [r (l1 & l2 & E & _)] _|g R [r (l1 & l2 & E & _)] _]].
      * vm_compute in R. discriminate.
      * destruct l1; discriminate E.
      * destruct l1; discriminate E.
  - split; [vm_compute; reflexivity|]. split; [apply way_checked_all; vm_compute; reflexivity|]. split; [vm_compute; reflexivity|].
    split.
    + eexists. apply RU_group with (g := 10); [vm_compute; reflexivity| |vm_compute; reflexivity].
      eexists. apply governs_only. split; [reflexivity|]. split; [left; reflexivity|]. split; [left; reflexivity|].
      left. reflexivity.
    + eexists. apply RU_directly. vm_compute. reflexivity.
Qed.

(** README.md:240-241 taken literally: whoever approves, other than a
    privileged process, could have used sudo themselves. *)
Definition C107_full : Prop := forall pl a rq w st' w' evs sd r n c peer acc,
  Describes pl a rq -> Grants sd rq r -> core_open SudoPair pl a (pstate0 _) w = (Done (1, st'), w') -> w_trace w' = w_trace w ++ evs ->
  ConnectOnly w -> In acc evs -> Accepts n c peer acc -> cr_priv peer = false ->
  exists command t, May sd (cr_uid peer) (cr_gids peer) command t.

(** alice's rule is the only one; bob is a member of the group. *)
Definition alice_only : rule := mkRule (WUser 1000) (Some []) [10] (Some true) None.
Definition alice_rule : sudoers := mkSudoers false [alice_only].

Theorem C107_refuted : exists pl a rq w st' w' evs sd r n c peer acc,
  Describes pl a rq /\ Grants sd rq r /\ core_open SudoPair pl a (pstate0 _) w = (Done (1, st'), w') /\ w_trace w' = w_trace w ++ evs
  /\ ConnectOnly w /\ In acc evs /\ Accepts n c peer acc /\ cr_priv peer = false
  /\ forall command t, ~ May sd (cr_uid peer) (cr_gids peer) command t.
Proof.
  destruct (code_run (group_run (crowd_world 56)) 1) as [st' H]; [vm_compute; reflexivity|].
  exists release, (to_group []), (to_group_rq [1000; 27]), (crowd_world 56), st', (snd (group_run (crowd_world 56))),
    (w_trace (snd (group_run (crowd_world 56)))), alice_rule, alice_only, 7%nat, 0%nat, bob,
    (nth 13 (w_trace (snd (group_run (crowd_world 56)))) no_event).
  split; [exact to_group_describes|].
  split. { exists (AsGroup 10). split; [apply governs_only; split; [reflexivity|split; [exact Logic.I|split; left; reflexivity]]|]. split; [cbn; repeat split; discriminate|].
    cbn [In]. intros x [<-|[<-|[<-|[]]]]; reflexivity. }
  split; [exact H|]. split; [exact (no_trace (crowd_world 56) _ eq_refl)|].
  split. { apply (everyone_checked (fun _ x => OnlyConnects x) (fun _ x => is_connect x)); [intros _ x; apply is_connect_only|vm_compute; reflexivity]. }
  split; [apply nth_In; vm_compute; repeat constructor|].
  split. { split; [split; vm_compute; reflexivity|]. split; [vm_compute; reflexivity|]. do 2 eexists.
    split; [vm_compute; reflexivity|]. split; reflexivity. }
  split; [reflexivity|].
  intros command t0 [r HG]. apply governs_one in HG as (_ & HA' & _). cbn in HA'. discriminate.
Qed.
Print Assumptions C107_refuted.

Theorem C107_not_full : ~ C107_full.
Proof.
  intros F. destruct C107_refuted as (pl & a & rq & w & st' & w' & evs & sd & r & n & c & peer & acc & D & G & R & T & O & I & A & P & N).
  destruct (F pl a rq w st' w' evs sd r n c peer acc D G R T O I A P) as (command & t0 & M). exact (N command t0 M).
Qed.
Print Assumptions C107_not_full.

(** README.md:84-100: what a rule opts out is not paired, what it opts in is,
    unless something else exempts it. *)
Theorem C107_unlogged : forall pl a rq sd r w,
  Describes pl a rq -> Grants sd rq r -> logs sd r = false ->
  rq_command rq <> [] -> ~ MasklessAddr pl (oa_settings a) -> pl_debug pl = false \/ Consistent rq ->
  exists st', core_open SudoPair pl a (pstate0 _) w = (Done (1, st'), w) /\ st_plugin st' <> None.
Proof. exact unlogged_passes. Qed.
Print Assumptions C107_unlogged.

Theorem C107_logged : forall pl a rq sd r w st' w' evs,
  Describes pl a rq -> Grants sd rq r -> logs sd r = true ->
  rq_uid rq <> rq_euid rq -> rq_uid rq <> rq_to_uid rq \/ rq_gid rq <> rq_to_gid rq -> ~ SamePath (rq_command rq) (rq_binary_path rq) ->
  ~ Meets (rq_exempted rq) (rq_groups rq) -> (exists g, In g (rq_enforced rq) /\ GainsGroup rq g) -> rq_command rq <> [] ->
  core_open SudoPair pl a (pstate0 _) w = (Done (1, st'), w') -> w_trace w' = w_trace w ++ evs ->
  exists c, Approved rq c evs.
Proof. exact logged_paired. Qed.
Print Assumptions C107_logged.

(** The examples of README.md:90-100: /bin/cat and /bin/ls are opted out, also
    where they are an exception to a rule for everything; visudo, and what is
    not excepted, is paired. Only members of the group get that far. *)
Theorem C107_opt_out : forall pl a rq wheel r w,
  Describes pl a rq ->
  Grants (readme_opt_out wheel) rq r \/ Grants (with_exception wheel) rq r /\ In (rq_command rq) [B "/bin/cat"; B "/bin/ls"] ->
  ~ MasklessAddr pl (oa_settings a) -> pl_debug pl = false \/ Consistent rq ->
  In wheel (rq_gid rq :: rq_groups rq)
  /\ exists st', core_open SudoPair pl a (pstate0 _) w = (Done (1, st'), w) /\ st_plugin st' <> None.
Proof. exact opt_out_passes. Qed.
Print Assumptions C107_opt_out.

Theorem C107_opt_in : forall pl a rq wheel r w st' w' evs,
  Describes pl a rq ->
  Grants (readme_opt_in wheel) rq r \/ Grants (with_exception wheel) rq r /\ ~ In (rq_command rq) [B "/bin/cat"; B "/bin/ls"] ->
  rq_uid rq <> rq_euid rq -> rq_uid rq <> rq_to_uid rq \/ rq_gid rq <> rq_to_gid rq -> ~ SamePath (rq_command rq) (rq_binary_path rq) ->
  ~ Meets (rq_exempted rq) (rq_groups rq) -> (exists g, In g (rq_enforced rq) /\ GainsGroup rq g) -> rq_command rq <> [] ->
  core_open SudoPair pl a (pstate0 _) w = (Done (1, st'), w') -> w_trace w' = w_trace w ++ evs ->
  In wheel (rq_gid rq :: rq_groups rq) /\ exists c, Approved rq c evs.
Proof. exact opt_in_paired. Qed.
Print Assumptions C107_opt_in.

(** alice, a member of group 27: sudo cat under the first example of
    README.md, sudo visudo under the second. *)
Definition as_root (command : bytes) (hints : list bytes) : open_args := {|
  oa_version := api_1_17; oa_printf := true;
  oa_settings := Some (settings0 ++ [B "runas_user=root"]);
  oa_user_info := Some user_info0;
  oa_command_info := Some ([B "command=" ++ command; B "runas_uid=0"; B "runas_gid=0"; B "runas_groups=0"] ++ hints);
  oa_argv := [command];
  oa_user_env := Some [];
  oa_plugin_options := None |}.

Example C107_opt_out_example : exists rq r,
  Describes release (as_root (B "/bin/cat") []) rq /\ Grants (readme_opt_out 27) rq r /\ logs (readme_opt_out 27) r = false
  /\ Grants (with_exception 27) rq r
  /\ rq_command rq = B "/bin/cat" /\ ~ MasklessAddr release (oa_settings (as_root (B "/bin/cat") [])).
Proof.
  destruct (io_env_new release (B "n") (B "v") (as_root (B "/bin/cat") [])) as [[e|]|] eqn:E;
    [|vm_compute in E; discriminate|vm_compute in E; discriminate].
  exists (request_of e). pose proof (env_Describes _ _ _ _ _ E) as D. vm_compute in E. injection E as E.
  eexists. split; [exact D|]. clear D. subst e.
  split. { exists (AsUser 0). split; [apply governs_only; vm_compute; auto 10|]. split; [split; reflexivity|].
    cbn [In]. intros x [<-|[<-|[<-|[]]]]; reflexivity. }
  split; [reflexivity|].
  split. { exists (AsUser 0). split; [eexists [_], []; split; [reflexivity|]; split; [vm_compute; auto 10|constructor]|].
    split; [split; reflexivity|]. cbn [In]. intros x [<-|[<-|[<-|[]]]]; reflexivity. }
  split; [reflexivity|]. apply SessionFacts.not_maskless. vm_compute. discriminate.
Qed.

Definition visudo : open_args := as_root (B "/usr/bin/visudo") log_hints.
Notation visudo_run := (core_open SudoPair release visudo (pstate0 SudoPair) yes_world).
Example C107_opt_in_example : exists rq r,
  Describes release visudo rq /\ Grants (readme_opt_in 27) rq r /\ logs (readme_opt_in 27) r = true
  /\ (exists r2, Grants (with_exception 27) rq r2)
  /\ rq_uid rq <> rq_euid rq /\ rq_uid rq <> rq_to_uid rq /\ ~ SamePath (rq_command rq) (rq_binary_path rq)
  /\ rq_exempted rq = [] /\ In 0 (rq_enforced rq) /\ GainsGroup rq 0 /\ rq_command rq = B "/usr/bin/visudo"
  /\ code visudo_run = Some 1.
Proof.
  destruct (io_env_new release (B "n") (B "v") visudo) as [[e|]|] eqn:E;
    [|vm_compute in E; discriminate|vm_compute in E; discriminate].
  exists (request_of e). pose proof (env_Describes _ _ _ _ _ E) as D. vm_compute in E. injection E as E.
  eexists. split; [exact D|]. clear D. subst e.
  split. { exists (AsUser 0). split; [apply governs_only; vm_compute; auto 10|]. split; [split; reflexivity|].
    cbn [In]. intros x [<-|[<-|[<-|[]]]]; reflexivity. }
  split; [reflexivity|].
  split. { eexists. exists (AsUser 0). split; [eexists [], [_]; split; [reflexivity|]; split; [vm_compute; auto 10|]|].
    - constructor; [|constructor]. intros (_ & X & _). vm_compute in X. destruct X as [X|[X|[]]]; discriminate X.
    - split; [split; reflexivity|]. cbn [In]. intros x [<-|[<-|[<-|[]]]]; reflexivity. }
  split; [discriminate|]. split; [discriminate|].
  split; [intros HS; apply SamePath_components in HS; vm_compute in HS; discriminate|].
  split; [reflexivity|]. split; [left; reflexivity|]. split; [left; reflexivity|]. split; [reflexivity|].
  vm_compute. reflexivity.
Qed.

(** sample/etc/sudoers.d/sudo_pair together with the options that
    sample/Makefile writes: every command it grants needs a pair, and only
    privileged processes and members of the group can be that pair. *)
Theorem C107_sample : forall pl a rq nobody games r w st' w' evs,
  Describes pl a rq -> Grants (sample_sudoers nobody games) rq r ->
  oa_plugin_options a = Some (make_entries (B "65534")) -> GainsGroup rq 65534 ->
  rq_uid rq <> rq_euid rq -> rq_gid rq <> games -> ~ SamePath (rq_command rq) (rq_binary_path rq) -> rq_command rq <> [] ->
  core_open SudoPair pl a (pstate0 _) w = (Done (1, st'), w') -> w_trace w' = w_trace w ++ evs ->
  exists c, Approved rq c evs.
Proof. exact sample_paired. Qed.
Print Assumptions C107_sample.

Theorem C107_alone : forall pl a rq w w' o evs nobody games r,
  Describes pl a rq -> core_open SudoPair pl a (pstate0 _) w = (o, w') -> w_trace w' = w_trace w ++ evs ->
  Grants (sample_sudoers nobody games) rq r -> games <> 4294967295 ->
  forall q, SocketPath rq q -> Guarded (Unprivileged (pl_euid pl)) q (w_k w) ->
  Everyone (fun c x => Unprivileged (pl_euid pl) c \/ OnlyConnects x) w ->
  forall e1 b e2, evs = e1 ++ b :: e2 -> Creates q b -> forall k, Afterwards (w_k w') b e2 k ->
  let s := k_inodes k (k_next (e_pre b)) in
  k_names k q = Some (k_next (e_pre b)) -> (forall c, OpenWay c q k) ->
  i_perm s = 0
  \/ forall bin db groups ps, db_user db (i_uid s) = true -> db_group db (i_gid s) = true ->
     ps_sudo_uid ps = None -> cr_uid (ps_cred ps) <> nobody -> cr_priv (ps_cred ps) = true \/ cr_uid (ps_cred ps) <> pl_euid pl ->
     ((exists ps', ReachedUnder (sample_sudoers nobody games) bin db k q groups (rq_uid rq) (rq_pid rq) ps ps')
      <-> cr_priv (ps_cred ps) = true \/ In games (cr_gids (ps_cred ps))).
Proof. exact sample_alone. Qed.
Print Assumptions C107_alone.

(** nobody: sudo -g games id; erin is a member of games. *)
Definition nobody_games : open_args := {|
  oa_version := api_1_17; oa_printf := true;
  oa_settings := Some (settings0 ++ [B "runas_group=games"]);
  oa_user_info := Some [B "user=nobody"; B "pid=4242"; B "ppid=4000"; B "pgid=4242"; B "tcpgid=4242"; B "sid=4000";
    B "uid=65534"; B "euid=0"; B "gid=65534"; B "egid=65534"; B "groups=65534"; B "cwd=/";
    B "tty=/dev/pts/3"; B "host=web1"; B "lines=50"; B "cols=132"];
  oa_command_info := Some ([B "command=/usr/bin/id"; B "runas_uid=65534"; B "runas_gid=60"; B "runas_groups=60,65534"] ++ log_hints);
  oa_argv := [B "id"];
  oa_user_env := Some [];
  oa_plugin_options := Some (make_entries (B "65534")) |}.
Definition games_sock : path := run_dir ++ [Normal (B "65534.4242.sock")].
Lemma games_guarded (T : cred -> Prop) : (forall c, T c -> cr_priv c = false /\ cr_uid c <> 0) ->
  Guarded T games_sock k_tree.
Proof.
  intros HT. exists (fun p => In p above).
  assert (W : forall c i, T c -> i = root_dir -> cr_priv c = false /\ cr_uid c <> i_uid i /\ may_write c i = false).
  { intros c i Hc ->. destruct (HT c Hc) as (P & U). split; [exact P|]. split; [exact U|].
    unfold may_write. rewrite P. apply Z.eqb_neq in U. cbn [i_uid root_dir]. rewrite U.
    destruct (mem_z _ _); reflexivity. }
  constructor.
  - vm_compute. auto 10.
  - intros H. repeat (destruct H as [H|H]; [vm_compute in H; discriminate|]). exact H.
  - intros p H. repeat (destruct H as [<-|H]; [vm_compute; auto 10|]). destruct H.
  - intros p n t' H E K. repeat (destruct H as [<-|H];
      [vm_compute in E; first [discriminate|injection E as <-; vm_compute in K; first [discriminate|injection K as <-; vm_compute; auto 10]]|]).
    destruct H.
  - intros p n H E. repeat (destruct H as [<-|H]; [vm_compute in E; first [discriminate|injection E as <-; vm_compute; auto 10]|]).
    destruct H.
  - intros p d c H E Hc. apply W; [exact Hc|]. destruct H as [H| ->].
    + repeat (destruct H as [<-|H]; [vm_compute in E; first [discriminate|injection E as <-; reflexivity]|]). destruct H.
    + vm_compute in E. injection E as <-. reflexivity.
Qed.

Definition erin : cred := mkCred 1004 [1004; 60] false.
Definition games_world : world := world_of k_tree
  ([t (AErr ENOENT); t AOk; t (ANum 33); t AOk] ++ socket_turns [(mallory, Connect games_sock); (erin, Connect games_sock)] ++ talk 47 (B "y")).
Notation games_run := (core_open SudoPair release nobody_games (pstate0 SudoPair) games_world).

Example C107_sample_example : exists rq r,
  Describes release nobody_games rq /\ Grants (sample_sudoers 65534 60) rq r /\ GainsGroup rq 65534
  /\ rq_uid rq <> rq_euid rq /\ rq_gid rq <> 60 /\ ~ SamePath (rq_command rq) (rq_binary_path rq) /\ rq_command rq = B "/usr/bin/id"
  /\ SocketPath rq games_sock /\ Guarded (Unprivileged 0) games_sock (w_k games_world)
  /\ Everyone (fun c x => Unprivileged 0 c \/ OnlyConnects x) games_world
  /\ code games_run = Some 1 /\ k_conns (w_k (snd games_run)) = [erin]
  /\ (let k := e_pre (nth 12 (w_trace (snd games_run)) no_event) in
      let under ps := exists ps', ReachedUnder (sample_sudoers 65534 60) (B "/usr/bin/sudo_approve") everybody k games_sock no_groups 65534 4242 ps ps' in
      k_names k games_sock = Some 7%nat /\ (forall c, OpenWay c games_sock k) /\ i_perm (k_inodes k 7) = 16
      /\ under (mkProcess erin None) /\ ~ under carol).
Proof.
  destruct (io_env_new release (B "n") (B "v") nobody_games) as [[e|]|] eqn:E;
    [|vm_compute in E; discriminate|vm_compute in E; discriminate].
  exists (request_of e). pose proof (env_Describes _ _ _ _ _ E) as D. vm_compute in E. injection E as E.
  eexists. split; [exact D|]. clear D. subst e.
  split. { exists (AsGroup 60). split; [apply governs_only; split; [reflexivity|split; [exact Logic.I|split; left; reflexivity]]|]. split; [split; [reflexivity|split; [reflexivity|discriminate]]|].
    cbn [In]. intros x [<-|[<-|[<-|[]]]]; reflexivity. }
  split; [vm_compute; auto|]. split; [discriminate|]. split; [discriminate|].
  split; [intros HS; apply SamePath_components in HS; vm_compute in HS; discriminate|].
  split; [reflexivity|]. split; [exact (AskFacts.SocketPath_intro _)|].
  split; [apply games_guarded; intros c (A & B); auto|].
  split. { apply (everyone_checked _ (fun c x => unprivb 0 c || is_connect x)); [|vm_compute; reflexivity].
    intros c x H. apply orb_true_iff in H as [H|H]; [left; apply unprivb_ok; exact H|right; apply is_connect_only; exact H]. }
  split; [vm_compute; reflexivity|]. split; [vm_compute; reflexivity|]. cbv zeta.
  split; [vm_compute; reflexivity|]. split; [apply way_checked_all; vm_compute; reflexivity|]. split; [vm_compute; reflexivity|].
  split.
  - eexists. apply RU_directly. vm_compute. reflexivity.
  - intros [ps' [R|v R M _|g R M _]].
    + vm_compute in R. discriminate R.
    + apply sample_may in M as [X _]. discriminate X.
    + apply sample_may in M as [X _]. discriminate X.
Qed.
