(** Property theorems about whole sessions under given rules: C109. *)
From Verif Require Import Base Num Path Options World Sys Io Socket Env Core Pair Approve Script Install Spec ScriptSpec
  TraceSpec SessionSpec CallbackSpec AdversarySpec RequestProofs PairPure PathProofs ForwardFacts Samples Worlds PropsSocket PropsAdversary
  PropsScript Frontend FrontSpec PropsFront Sudoers SudoersFacts PropsSudoers WholeSpec WholeFacts.
Local Open Scope Z_scope.

(** *** C109: from the rule to the screen of the pair *)

(** README.md:8-9. A rule asks for logging and nothing else exempts the
    request. Whatever happens during the session and whatever unprivileged
    processes do, if the command runs, somebody entitled to it approved this
    very request, and all output went to them. *)
Theorem C109_user : forall pl a rq sd r h w,
  Describes pl a rq -> Grants sd rq r -> logs sd r = true ->
  rq_uid rq <> rq_euid rq -> ~ SamePath (rq_command rq) (rq_binary_path rq) ->
  ~ Meets (rq_exempted rq) (rq_groups rq) -> (exists g, In g (rq_enforced rq) /\ GainsGroup rq g) -> rq_command rq <> [] ->
  forall f w' evs, rq_uid rq <> rq_to_uid rq -> rq_to_uid rq <> 4294967295 ->
  forall q, SocketPath rq q -> Guarded (UserOutsider (pl_euid pl) (rq_to_uid rq)) q (w_k w) ->
  Everyone (fun c x => UserOutsider (pl_euid pl) (rq_to_uid rq) c \/ OnlyConnects x) w ->
  front_run (exported SudoPair pl) a h w = (Done (Some f), w') -> w_trace w' = w_trace w ++ evs ->
  f_off f = [] /\ Overseen rq (fun p => cr_priv p = true \/ cr_uid p = rq_to_uid rq) h f evs.
Proof. exact overseen_user. Qed.
Print Assumptions C109_user.

Theorem C109_group : forall pl a rq sd r h w,
  Describes pl a rq -> Grants sd rq r -> logs sd r = true ->
  rq_uid rq <> rq_euid rq -> ~ SamePath (rq_command rq) (rq_binary_path rq) ->
  ~ Meets (rq_exempted rq) (rq_groups rq) -> (exists g, In g (rq_enforced rq) /\ GainsGroup rq g) -> rq_command rq <> [] ->
  forall f w' evs, rq_uid rq = rq_to_uid rq -> rq_gid rq <> rq_to_gid rq -> rq_to_gid rq <> 4294967295 ->
  forall q, SocketPath rq q -> Guarded (GroupOutsider (pl_euid pl) (rq_to_gid rq)) q (w_k w) ->
  Everyone (fun c x => GroupOutsider (pl_euid pl) (rq_to_gid rq) c \/ OnlyConnects x) w ->
  front_run (exported SudoPair pl) a h w = (Done (Some f), w') -> w_trace w' = w_trace w ++ evs ->
  f_off f = [] /\ Overseen rq (fun p => cr_priv p = true \/ In (rq_to_gid rq) (cr_gids p)) h f evs.
Proof. exact overseen_group. Qed.
Print Assumptions C109_group.

(** Among outsiders only, the command does not run. *)
Theorem C109_nobody_user : forall pl a rq sd r h w,
  Describes pl a rq -> Grants sd rq r -> logs sd r = true ->
  rq_uid rq <> rq_euid rq -> ~ SamePath (rq_command rq) (rq_binary_path rq) ->
  ~ Meets (rq_exempted rq) (rq_groups rq) -> (exists g, In g (rq_enforced rq) /\ GainsGroup rq g) -> rq_command rq <> [] ->
  forall f w', rq_uid rq <> rq_to_uid rq -> Everyone (fun c _ => UserOutsider (pl_euid pl) (rq_to_uid rq) c) w ->
  front_run (exported SudoPair pl) a h w <> (Done (Some f), w').
Proof. exact nobody_user. Qed.
Print Assumptions C109_nobody_user.

Theorem C109_nobody_group : forall pl a rq sd r h w,
  Describes pl a rq -> Grants sd rq r -> logs sd r = true ->
  rq_uid rq <> rq_euid rq -> ~ SamePath (rq_command rq) (rq_binary_path rq) ->
  ~ Meets (rq_exempted rq) (rq_groups rq) -> (exists g, In g (rq_enforced rq) /\ GainsGroup rq g) -> rq_command rq <> [] ->
  forall f w', rq_uid rq = rq_to_uid rq -> rq_gid rq <> rq_to_gid rq -> rq_to_gid rq <> 4294967295 ->
  forall q, SocketPath rq q -> Guarded (GroupOutsider (pl_euid pl) (rq_to_gid rq)) q (w_k w) ->
  Everyone (fun c _ => GroupOutsider (pl_euid pl) (rq_to_gid rq) c) w ->
  front_run (exported SudoPair pl) a h w <> (Done (Some f), w').
Proof. exact nobody_group. Qed.
Print Assumptions C109_nobody_group.

(** When the rule opts out, the session goes on as without the plugin. *)
Theorem C109_unlogged : forall pl a rq sd r h w,
  Describes pl a rq -> Grants sd rq r -> logs sd r = false ->
  rq_command rq <> [] -> ~ MasklessAddr pl (oa_settings a) -> pl_debug pl = false \/ Consistent rq ->
  exists f, front_run (exported SudoPair pl) a h w = (Done (Some f), w)
    /\ f_live f = true /\ f_off f = [] /\ f_given f = flat_map data_of h.
Proof. exact unlogged_front. Qed.
Print Assumptions C109_unlogged.

(** visudo under the second example of README.md, with mallory and root in
    the queue, and nobody's id under the sample rules, with mallory and erin:
    all that is printed arrives at the one who approved. *)
Definition printing : list happening := [Moved Ttyout (B "hello"); Moved Ttyin (B "q"); Moved Stderr (B "bye")].
Definition visudo_world (others : list (cred * action)) : world := world_of k_tree
  (local_turns ++ socket_turns others ++ talk 67 (B "y") ++ write_turns 5 ++ write_turns 3).
Definition games_session (others : list (cred * action)) : world := world_of k_tree
  ([t (AErr ENOENT); t AOk; t (ANum 33); t AOk] ++ socket_turns others ++ talk 47 (B "y") ++ write_turns 5 ++ write_turns 3).
Definition queue_root : list (cred * action) := [(mallory, Connect sock); (root, Connect sock)].
Definition queue_erin : list (cred * action) := [(mallory, Connect games_sock); (erin, Connect games_sock)].


Example C109_example :
  (exists rq r, Describes release visudo rq /\ Grants (readme_opt_in 27) rq r /\ logs (readme_opt_in 27) r = true
   /\ rq_uid rq <> rq_euid rq /\ ~ SamePath (rq_command rq) (rq_binary_path rq) /\ rq_exempted rq = []
   /\ In 0 (rq_enforced rq) /\ GainsGroup rq 0 /\ rq_command rq <> [] /\ rq_uid rq <> rq_to_uid rq /\ rq_to_uid rq = 0
   /\ SocketPath rq sock /\ Guarded (UserOutsider 0 0) sock k_tree
   /\ Everyone (fun c x => UserOutsider 0 0 c \/ OnlyConnects x) (visudo_world queue_root)
   /\ Everyone (fun c _ => UserOutsider 0 0 c) (visudo_world [(mallory, Connect sock)]))
  /\ (let r := front_run (exported SudoPair release) visudo printing (visudo_world queue_root) in
      glance r = Some ([(Ttyout, B "hello"); (Ttyin, B "q"); (Stderr, B "bye")], true)
      /\ k_conns (w_k (snd r)) = [root]
      /\ delivered 0 (w_trace (snd r))
         = B "alice@web1:/home/alice$ sudo --user root /usr/bin/visudo" ++ [x0a] ++ B "y/n? [n]: y" ++ [x0a] ++ B "hellobye")
  /\ glance (front_run (exported SudoPair release) visudo printing (visudo_world [(mallory, Connect sock)])) = None
  /\ (exists rq r, Describes release nobody_games rq /\ Grants (sample_sudoers 65534 60) rq r
   /\ logs (sample_sudoers 65534 60) r = true /\ rq_uid rq <> rq_euid rq /\ ~ SamePath (rq_command rq) (rq_binary_path rq)
   /\ rq_exempted rq = [] /\ In 65534 (rq_enforced rq) /\ GainsGroup rq 65534 /\ rq_command rq <> []
   /\ rq_uid rq = rq_to_uid rq /\ rq_gid rq <> rq_to_gid rq /\ rq_to_gid rq = 60
   /\ SocketPath rq games_sock /\ Guarded (GroupOutsider 0 60) games_sock k_tree
   /\ Everyone (fun c x => GroupOutsider 0 60 c \/ OnlyConnects x) (games_session queue_erin)
   /\ Everyone (fun c _ => GroupOutsider 0 60 c) (games_session [(mallory, Connect games_sock)]))
  /\ (let r := front_run (exported SudoPair release) nobody_games printing (games_session queue_erin) in
      glance r = Some ([(Ttyout, B "hello"); (Ttyin, B "q"); (Stderr, B "bye")], true)
      /\ k_conns (w_k (snd r)) = [erin]
      /\ delivered 0 (w_trace (snd r))
         = B "nobody@web1:/$ sudo --group games id" ++ [x0a] ++ B "y/n? [n]: y" ++ [x0a] ++ B "hellobye")
  /\ glance (front_run (exported SudoPair release) nobody_games printing (games_session [(mallory, Connect games_sock)])) = None.
Proof.
  split; [|split; [|split; [|split; [|split]]]].
  - destruct (io_env_new release (B "n") (B "v") visudo) as [[e|]|] eqn:E;
      [|vm_compute in E; discriminate|vm_compute in E; discriminate].
    exists (request_of e). pose proof (env_Describes _ _ _ _ _ E) as D. vm_compute in E. injection E as E.
    eexists. split; [exact D|]. clear D. subst e.
    split. { exists (AsUser 0). split; [apply governs_only; vm_compute; auto 10|]. split; [split; reflexivity|].
      cbn [In]. intros x [<-|[<-|[<-|[]]]]; reflexivity. }
    split; [reflexivity|]. split; [discriminate|].
    split; [intros HS; apply SamePath_components in HS; vm_compute in HS; discriminate|].
    split; [reflexivity|]. split; [left; reflexivity|]. split; [left; reflexivity|]. split; [discriminate|].
    split; [discriminate|]. split; [reflexivity|]. split; [exact (AskFacts.SocketPath_intro _)|].
    split; [apply tree_guarded; intros c (A & B & _); auto|]. split.
    + apply (everyone_checked _ (fun c x => user_outb 0 0 c || is_connect x)); [|vm_compute; reflexivity].
      intros c x H. apply orb_true_iff in H as [H|H]; [left; apply user_outb_ok; exact H|right; apply is_connect_only; exact H].
    + apply (everyone_checked _ (fun c _ => user_outb 0 0 c)); [intros c x; apply user_outb_ok|vm_compute; reflexivity].
  - cbv zeta. repeat split; vm_compute; reflexivity.
  - vm_compute. reflexivity.
  - destruct (io_env_new release (B "n") (B "v") nobody_games) as [[e|]|] eqn:E;
      [|vm_compute in E; discriminate|vm_compute in E; discriminate].
    exists (request_of e). pose proof (env_Describes _ _ _ _ _ E) as D. vm_compute in E. injection E as E.
    eexists. split; [exact D|]. clear D. subst e.
    split. { exists (AsGroup 60). split; [apply governs_only; split; [reflexivity|split; [exact Logic.I|split; left; reflexivity]]|].
      split; [split; [reflexivity|split; [reflexivity|discriminate]]|].
      cbn [In]. intros x [<-|[<-|[<-|[]]]]; reflexivity. }
    split; [reflexivity|]. split; [discriminate|].
    split; [intros HS; apply SamePath_components in HS; vm_compute in HS; discriminate|].
    split; [reflexivity|]. split; [left; reflexivity|]. split; [vm_compute; auto|]. split; [discriminate|].
    split; [reflexivity|]. split; [discriminate|]. split; [reflexivity|]. split; [exact (AskFacts.SocketPath_intro _)|].
    split; [apply games_guarded; intros c (A & B & _); auto|]. split.
    + apply (everyone_checked _ (fun c x => group_outb 0 60 c || is_connect x)); [|vm_compute; reflexivity].
      intros c x H. apply orb_true_iff in H as [H|H]; [left; apply group_outb_ok; exact H|right; apply is_connect_only; exact H].
    + apply (everyone_checked _ (fun c _ => group_outb 0 60 c)); [intros c x; apply group_outb_ok|vm_compute; reflexivity].
  - cbv zeta. repeat split; vm_compute; reflexivity.
  - vm_compute. reflexivity.
Qed.
