(** Property theorems about the instruction shown to the user, the approval
    script and the pair's terminal: C78 to C81. *)
From Coq Require Import Lia.
From Verif Require Import Base BaseLemmas Num Path Template Options World Sys Io Socket Env Core Pair Approve Script Spec ScriptSpec
  TraceSpec SessionSpec TalkSpec AdversarySpec HonourSpec RequestProofs PairPure InputFacts PathProofs SessionFacts
  ForwardFacts ScriptFacts ArithSpec ArithFacts Samples Worlds PropsSocket PropsAdversary.
Local Open Scope Z_scope.

(** *** C78: the instruction shown to the user *)

(** What the default prompt tells a colleague to run makes the script look for
    the socket of this very session, if socket_dir has its default value, and
    at another place otherwise. *)
Theorem C78_instruction : forall pl a rq out,
  Describes pl a rq -> Expands "%" (Directive rq) (B "%B %u %p" ++ [x0a]) out ->
  exists u p s, out = rq_binary_path rq ++ B " " ++ u ++ B " " ++ p ++ [x0a]
  /\ script_commands u p = Some []
  /\ script_socket u p = Some s
  /\ (SocketAddress rq s <-> rq_socket_dir rq = B "/var/run/sudo_pair" \/ rq_socket_dir rq = B "/var/run/sudo_pair/").
Proof. exact instruction_leads. Qed.
Print Assumptions C78_instruction.

Example C78_example :
  Describes release to_root to_root_rq
  /\ Expands "%" (Directive to_root_rq) (B "%B %u %p" ++ [x0a]) (B "/usr/bin/sudo_approve 1000 4242" ++ [x0a])
  /\ script_socket (B "1000") (B "4242") = Some (B "/var/run/sudo_pair/1000.4242.sock").
Proof.
  split; [exact to_root_describes|]. split; [|vm_compute; reflexivity].
  change (B "/usr/bin/sudo_approve 1000 4242" ++ [x0a])
    with (B "/usr/bin/sudo_approve" ++ " "%byte :: (B "1000" ++ " "%byte :: (B "4242" ++ [x0a]))).
  apply Ex_directive; [exact (D_B to_root_rq)|]. apply Ex_literal; [discriminate|].
  apply Ex_directive; [apply (D_u to_root_rq); apply Decimal_iff; vm_compute; reflexivity|]. apply Ex_literal; [discriminate|].
  apply Ex_directive; [apply (D_p to_root_rq); apply Decimal_iff; vm_compute; reflexivity|]. apply Ex_literal; [discriminate|].
  apply Ex_end.
Qed.

(** The claim for every configuration. *)
Definition C78_full : Prop := forall pl a rq u p s,
  Describes pl a rq -> Decimal (rq_uid rq) u -> Decimal (rq_pid rq) p ->
  script_socket u p = Some s -> SocketPath rq (components s).

(** The example of the README: socket_dir=/var/tmp/sudo_pair gids_exempted=42,109 *)
Definition readme_args : open_args := {|
  oa_version := oa_version to_root; oa_printf := true; oa_settings := oa_settings to_root;
  oa_user_info := oa_user_info to_root; oa_command_info := oa_command_info to_root;
  oa_argv := oa_argv to_root; oa_user_env := Some [];
  oa_plugin_options := Some [B "socket_dir=/var/tmp/sudo_pair"; B "gids_exempted=42,109"] |}.

Lemma readme_describes : exists rq, Describes release readme_args rq /\ rq_uid rq = 1000 /\ rq_pid rq = 4242
  /\ rq_socket_dir rq = B "/var/tmp/sudo_pair".
Proof.
  destruct (io_env_new release (B "n") (B "v") readme_args) as [[e|]|] eqn:E;
    [|vm_compute in E; discriminate|vm_compute in E; discriminate].
  exists (request_of e). split; [exact (env_Describes _ _ _ _ _ E)|].
  vm_compute in E. injection E as <-. vm_compute. repeat split.
Qed.

Theorem C78_refuted : exists pl a rq u p s,
  Describes pl a rq /\ Decimal (rq_uid rq) u /\ Decimal (rq_pid rq) p
  /\ script_socket u p = Some s /\ ~ SocketPath rq (components s).
Proof.
  destruct readme_describes as (rq & D & U & P & S).
  exists release, readme_args, rq, (B "1000"), (B "4242"), (B "/var/run/sudo_pair/1000.4242.sock").
  split; [exact D|]. rewrite U, P. split; [apply Decimal_iff; vm_compute; reflexivity|].
  split; [apply Decimal_iff; vm_compute; reflexivity|]. split; [vm_compute; reflexivity|].
  intros (n & (u & p & Hu & Hp & ->) & E). rewrite U in Hu. rewrite P in Hp. apply Decimal_iff in Hu, Hp. subst u p.
  rewrite S in E. vm_compute in E. discriminate.
Qed.
Print Assumptions C78_refuted.

Theorem C78_not_full : ~ C78_full.
Proof. intros F. destruct C78_refuted as (pl & a & rq & u & p & s & D & Hu & Hp & Hs & N). exact (N (F pl a rq u p s D Hu Hp Hs)). Qed.
Print Assumptions C78_not_full.

(** *** C79: whoever follows the instruction, except the requester, gets
    through to the socket as somebody it is meant for. *)
Theorem C79_user_change : forall pl a rq w w' o evs,
  Describes pl a rq -> core_open SudoPair pl a (pstate0 _) w = (o, w') -> w_trace w' = w_trace w ++ evs ->
  rq_uid rq <> rq_to_uid rq -> rq_to_uid rq <> 4294967295 ->
  forall q, SocketPath rq q ->
  Guarded (UserOutsider (pl_euid pl) (rq_to_uid rq)) q (w_k w) ->
  Everyone (fun c x => UserOutsider (pl_euid pl) (rq_to_uid rq) c \/ OnlyConnects x) w ->
  forall e1 b e2, evs = e1 ++ b :: e2 -> Creates q b -> forall k, Afterwards (w_k w') b e2 k ->
  let s := k_inodes k (k_next (e_pre b)) in
  k_names k q = Some (k_next (e_pre b)) -> (forall c, OpenWay c q k) ->
  i_perm s = 0
  \/ forall db groups ps u, db_user db (i_uid s) = true -> db_group db (i_gid s) = true -> ps_sudo_uid ps = None -> cr_uid (ps_cred ps) = u -> u <> rq_uid rq ->
     exists ps', Reached db k q groups (rq_uid rq) (rq_pid rq) ps ps' /\ Entitled pl rq (ps_cred ps') /\ StartedBy u ps'.
Proof. exact colleague_user. Qed.
Print Assumptions C79_user_change.

Theorem C79_group_change : forall pl a rq w w' o evs,
  Describes pl a rq -> core_open SudoPair pl a (pstate0 _) w = (o, w') -> w_trace w' = w_trace w ++ evs ->
  rq_uid rq = rq_to_uid rq -> rq_f_group rq <> None -> rq_to_gid rq <> 4294967295 ->
  forall q, SocketPath rq q ->
  Guarded (Unprivileged (pl_euid pl)) q (w_k w) ->
  Everyone (fun c x => Unprivileged (pl_euid pl) c \/ OnlyConnects x) w ->
  forall e1 b e2, evs = e1 ++ b :: e2 -> Creates q b -> forall k, Afterwards (w_k w') b e2 k ->
  let s := k_inodes k (k_next (e_pre b)) in
  k_names k q = Some (k_next (e_pre b)) -> (forall c, OpenWay c q k) ->
  i_perm s = 0
  \/ forall db groups ps u, db_user db (i_uid s) = true -> db_group db (i_gid s) = true -> ps_sudo_uid ps = None -> cr_uid (ps_cred ps) = u -> u <> rq_uid rq ->
     cr_priv (ps_cred ps) = true \/ u <> pl_euid pl ->
     exists ps', Reached db k q groups (rq_uid rq) (rq_pid rq) ps ps' /\ Entitled pl rq (ps_cred ps') /\ StartedBy u ps'.
Proof. exact colleague_group. Qed.
Print Assumptions C79_group_change.

Theorem C79_requester : forall db k p groups uid pid ps, StartedBy uid ps ->
  In (run_script db k p uid pid ps) [RefuseSelf; NotFound; NoName] /\ forall ps', ~ Reached db k p groups uid pid ps ps'.
Proof. exact started_refused. Qed.
Print Assumptions C79_requester.

(** The sieges of C23 meet the hypotheses (see there); in them, carol's way
    to the socket of www-data leads through sudo -u, and to that of wheel
    through sudo -g; bob is a member of wheel. *)
Definition carol : process := mkProcess (mkCred 1003 [1003] false) None.
Definition no_groups : Z -> list Z := fun u => [u].
Definition everybody : database := mkDatabase (fun _ => true) (fun _ => true).
Example C79_example :
  (let k := e_pre (nth 12 (w_trace (snd (www_run www_siege))) no_event) in
   let run := run_script everybody k sock 1000 4242 in
   k_names k sock = Some 8%nat /\ (forall c, OpenWay c sock k) /\ i_perm (k_inodes k 8) = 128
   /\ run carol = SudoUser 33 /\ run (through_sudo no_groups carol (SudoUser 33)) = Pair
   /\ run (mkProcess alice None) = RefuseSelf
   /\ run (through_sudo no_groups (mkProcess alice None) (SudoUser 33)) = RefuseSelf)
  /\ (let k := e_pre (nth 12 (w_trace (snd (group_run group_siege))) no_event) in
      let run := run_script everybody k sock 1000 4242 in
      k_names k sock = Some 8%nat /\ (forall c, OpenWay c sock k) /\ i_perm (k_inodes k 8) = 16
      /\ run carol = SudoGroup 10 /\ run (through_sudo no_groups carol (SudoGroup 10)) = Pair
      /\ run (mkProcess bob None) = Pair).
Proof.
  split; cbv zeta; (split; [vm_compute; reflexivity|]);
    (split; [apply way_checked_all; vm_compute; reflexivity|]); vm_compute; repeat split.
Qed.

(** *** C80: commands run by the approval script *)

(** Pairing is not required for the approval program; so it should not run
    what its caller asks it to. *)
Definition C80_full : Prop := forall pl a rq w st' w' arg0 uid pid cmds,
  Describes pl a rq -> rq_args rq = [arg0; uid; pid] -> SamePath (rq_command rq) (rq_binary_path rq) ->
  core_open SudoPair pl a (pstate0 _) w = (Done (1, st'), w') -> w_trace w' = w_trace w ->
  script_commands uid pid = Some cmds -> cmds = [].

(** alice: sudo -u root sudo_approve 'a[$(id)]' 1 *)
Definition to_approve : open_args := {|
  oa_version := api_1_17; oa_printf := true;
  oa_settings := Some (settings0 ++ [B "runas_user=root"]);
  oa_user_info := Some user_info0;
  oa_command_info := Some ([B "command=/usr/bin/sudo_approve"; B "runas_uid=0"; B "runas_gid=0"; B "runas_groups=0"] ++ log_hints);
  oa_argv := [B "sudo_approve"; B "a[$(id)]"; B "1"];
  oa_user_env := Some [];
  oa_plugin_options := None |}.

Lemma to_approve_describes : exists rq, Describes release to_approve rq /\ rq_args rq = [B "sudo_approve"; B "a[$(id)]"; B "1"]
  /\ rq_command rq = B "/usr/bin/sudo_approve" /\ rq_binary_path rq = B "/usr/bin/sudo_approve".
Proof.
  destruct (io_env_new release (B "n") (B "v") to_approve) as [[e|]|] eqn:E;
    [|vm_compute in E; discriminate|vm_compute in E; discriminate].
  exists (request_of e). split; [exact (env_Describes _ _ _ _ _ E)|].
  vm_compute in E. injection E as <-. vm_compute. repeat split.
Qed.

Theorem C80_refuted : exists pl a rq w st' w' arg0 uid pid,
  Describes pl a rq /\ rq_args rq = [arg0; uid; pid] /\ SamePath (rq_command rq) (rq_binary_path rq)
  /\ core_open SudoPair pl a (pstate0 _) w = (Done (1, st'), w') /\ w_trace w' = w_trace w
  /\ script_commands uid pid = Some [B "id"].
Proof.
  destruct to_approve_describes as (rq & D & A & C & P).
  destruct (code_run (core_open SudoPair release to_approve (pstate0 _) (world_of k_root [])) 1) as [st' H]; [vm_compute; reflexivity|].
  exists release, to_approve, rq, (world_of k_root []), st', (snd (core_open SudoPair release to_approve (pstate0 _) (world_of k_root []))),
    (B "sudo_approve"), (B "a[$(id)]"), (B "1").
  split; [exact D|]. split; [exact A|]. split; [rewrite C, P; apply SP_refl|]. split; [exact H|].
  split; vm_compute; reflexivity.
Qed.
Print Assumptions C80_refuted.

Theorem C80_not_full : ~ C80_full.
Proof.
  intros F. destruct C80_refuted as (pl & a & rq & w & st' & w' & arg0 & uid & pid & D & A & S & R & T & C).
  specialize (F pl a rq w st' w' arg0 uid pid _ D A S R T C). discriminate.
Qed.
Print Assumptions C80_not_full.

(** Numbers run nothing. *)
Theorem C80_numbers : forall u p nu np, Decimal nu u -> Decimal np p ->
  - 2 ^ 63 < nu < 2 ^ 63 -> - 2 ^ 63 < np < 2 ^ 63 -> script_commands u p = Some [].
Proof. exact script_runs_nothing. Qed.
Print Assumptions C80_numbers.

(** What is run, and where the socket is looked for, for all the arguments
    that are given a meaning. *)
Theorem C80_commands : forall uid pid cmds, script_commands uid pid = Some cmds <->
  (exists c, Runs uid c /\ cmds = [c])
  \/ (exists u c, Means uid u /\ Runs pid c /\ cmds = [c])
  \/ (exists u p, Means uid u /\ Means pid p /\ cmds = []).
Proof. exact commands_exactly. Qed.
Print Assumptions C80_commands.

Theorem C80_socket : forall uid pid s, script_socket uid pid = Some s <->
  exists u p du dp, Means uid u /\ Means pid p /\ Decimal u du /\ Decimal p dp
    /\ s = B "/var/run/sudo_pair/" ++ du ++ B "." ++ dp ++ B ".sock".
Proof. exact socket_exactly. Qed.
Print Assumptions C80_socket.

Example C80_example : script_commands (B "1000") (B "-4242") = Some []
  /\ script_commands (B "1000") (B "x[$(rm /)]") = Some [B "rm /"] /\ script_commands (B "010") (B "9") = Some []
  /\ script_socket (B "010") (B "9") = Some (B "/var/run/sudo_pair/8.9.sock")
  /\ script_socket (B "18446744073709551616") (B "-") = None
  /\ script_socket (B "18446744073709551616") (B "-010") = Some (B "/var/run/sudo_pair/0.-8.sock")
  /\ script_commands (B "08") (B "9") = None /\ script_commands (B "my_var[$(id -u)]") (B "1+1") = Some [B "id -u"].
Proof. vm_compute. repeat split. Qed.

(** *** C81: control characters on the pair's terminal *)
(** The full claim: whatever control character the pair is sent before the
    plugin reads the answer is one of the template. *)
Definition default_template : bytes := B "%U@%h:%d$ %C" ++ [x0a] ++ B "y/n? [n]: ".
Definition C81_full : Prop := forall pl a rq w o w' e1 acc e2 rd after n c peer t,
  Describes pl a rq -> core_open SudoPair pl a (pstate0 _) w = (o, w') ->
  w_trace w' = w_trace w ++ (e1 ++ acc :: e2) ++ rd :: after -> Accepts n c peer acc -> e_call rd = CRead c ->
  TemplateFrom (rq_pair_prompt_path rq) default_template e2 t ->
  forall b, In b (delivered c e2) -> Control b -> In b t.

(** alice: sudo -u root rm -rf / '<ESC>[2K<CR>sudo ls', against the default prompt *)
Definition to_hide : open_args := {|
  oa_version := api_1_17; oa_printf := true;
  oa_settings := Some (settings0 ++ [B "runas_user=root"]);
  oa_user_info := Some user_info0;
  oa_command_info := Some ([B "command=/bin/rm"; B "runas_uid=0"; B "runas_gid=0"; B "runas_groups=0"] ++ log_hints);
  oa_argv := [B "rm"; B "-rf"; B "/"; [x1b] ++ B "[2K" ++ [x0d] ++ B "sudo ls"];
  oa_user_env := Some [];
  oa_plugin_options := None |}.

Definition hide_world : world := world_of k_root (local_turns ++ socket_turns [(root, Connect sock)] ++ talk 73 (B "y")).
Local Notation hide_run := (core_open SudoPair release to_hide (pstate0 SudoPair) hide_world).
Definition hidden : bytes :=
  B "alice@web1:/home/alice$ sudo --user root rm -rf / " ++ [x1b] ++ B "[2K" ++ [x0d] ++ B "sudo ls" ++ [x0a] ++ B "y/n? [n]: ".

Lemma cut_at {A} (l : list A) d i j : (i + S j < List.length l)%nat ->
  l = (firstn i l ++ nth i l d :: firstn j (skipn (S i) l)) ++ nth (i + S j) l d :: skipn (i + S (S j)) l.
Proof.
  revert l. induction i as [|i IH]; intros l H.
  - destruct l as [|x l]; cbn in H; [lia|]. cbn [firstn nth skipn app Nat.add]. f_equal. clear x.
    revert l H. induction j as [|j IH]; intros l H; (destruct l as [|y l]; cbn in H; [lia|]); [reflexivity|].
    cbn [firstn nth skipn app]. f_equal. apply IH. cbn in H |- *. lia.
  - destruct l as [|x l]; cbn in H; [lia|]. cbn [firstn nth skipn app Nat.add]. f_equal. apply IH. lia.
Qed.

Lemma after_nothing {A} (t l x : list A) : t = [] -> l = x -> l = t ++ x.
Proof. intros -> ->. reflexivity. Qed.

Lemma not_read p es : forallb (fun ev => match e_call ev with CReadFile q => negb (bytes_eqb p q) || match e_ans ev with AData _ => false | _ => true end | _ => true end) es = true ->
  forall ev d, In ev es -> ~ Is (CReadFile p) (AData d) ev.
Proof.
  intros H ev d HI [E1 E2]. rewrite forallb_forall in H. specialize (H ev HI). rewrite E1, E2 in H.
  rewrite bytes_eqb_refl in H. discriminate.
Qed.

Local Notation hide_evs := (w_trace (snd hide_run)).
Lemma hide_run_done : exists st', hide_run = (Done (1, st'), snd hide_run).
Proof. apply code_run. vm_compute. reflexivity. Qed.
Lemma hide_cut : hide_evs = w_trace hide_world
  ++ (firstn 13 hide_evs ++ nth 13 hide_evs no_event :: firstn 14 (skipn (S 13) hide_evs)) ++ nth (13 + S 14) hide_evs no_event :: skipn (13 + S (S 14)) hide_evs.
Proof. apply after_nothing; [reflexivity|]. generalize (cut_at hide_evs no_event 13 14). intros C. apply C. apply Nat.ltb_lt. vm_compute. reflexivity. Qed.
Lemma hide_accepts : exists n peer, Accepts n 0 peer (nth 13 hide_evs no_event).
Proof.
  eexists. eexists. split; [split; vm_compute; reflexivity|]. split; [vm_compute; reflexivity|].
  eexists. eexists. split; [vm_compute; reflexivity|]. split; reflexivity.
Qed.
Lemma hide_template : forall ev d, In ev (firstn 14 (skipn (S 13) hide_evs)) -> ~ Is (CReadFile (B "/etc/sudo_pair.prompt.pair")) (AData d) ev.
Proof. apply not_read. vm_compute. reflexivity. Qed.

(** The pair is sent an escape sequence that no template contains, and says yes. *)
Theorem C81_refuted : exists pl a rq w st' w' e1 acc e2 rd after n c peer t,
  Describes pl a rq /\ core_open SudoPair pl a (pstate0 _) w = (Done (1, st'), w')
  /\ w_trace w' = w_trace w ++ (e1 ++ acc :: e2) ++ rd :: after /\ Accepts n c peer acc /\ Is (CRead c) (AData (B "y")) rd
  /\ TemplateFrom (rq_pair_prompt_path rq) default_template e2 t
  /\ delivered c e2 = hidden /\ In x1b hidden /\ Control x1b /\ ~ In x1b t.
Proof.
  destruct (io_env_new release (B "n") (B "v") to_hide) as [[e|]|] eqn:E;
    [|vm_compute in E; discriminate|vm_compute in E; discriminate].
  pose proof (env_Describes _ _ _ _ _ E) as D.
  assert (P : rq_pair_prompt_path (request_of e) = B "/etc/sudo_pair.prompt.pair") by (vm_compute in E; injection E as <-; vm_compute; reflexivity).
  destruct hide_run_done as [st' H]. destruct hide_accepts as (n & peer & HA).
  exists release, to_hide, (request_of e), hide_world, st', (snd hide_run), (firstn 13 hide_evs), (nth 13 hide_evs no_event),
    (firstn 14 (skipn (S 13) hide_evs)), (nth (13 + S 14) hide_evs no_event), (skipn (13 + S (S 14)) hide_evs), n, 0%nat, peer, default_template.
  split; [exact D|]. split; [exact H|]. split; [exact hide_cut|]. split; [exact HA|]. split; [split; vm_compute; reflexivity|].
  split; [right; split; [reflexivity|]; rewrite P; exact hide_template|].
  split; [vm_compute; reflexivity|]. split; [vm_compute; tauto|]. split; [left; reflexivity|]. vm_compute. intuition discriminate.
Qed.
Print Assumptions C81_refuted.

Theorem C81_not_full : ~ C81_full.
Proof.
  intros F. destruct C81_refuted as (pl & a & rq & w & st' & w' & e1 & acc & e2 & rd & after & n & c & peer & t & D & H & T & HA & [HR _] & HT & HD & HI & HC & HN).
  apply HN. rewrite <- HD in HI. exact (F pl a rq w _ w' e1 acc e2 rd after n c peer t D H T HA HR HT x1b HI HC).
Qed.
Print Assumptions C81_not_full.

(** If nothing the request consists of contains control characters, the ones
    sent to the pair before the answer are those of the template. *)
Theorem C81_printable : forall pl a rq w o w' before rd after c,
  Describes pl a rq -> PrintableRequest rq -> core_open SudoPair pl a (pstate0 _) w = (o, w') ->
  w_trace w' = w_trace w ++ before ++ rd :: after -> e_call rd = CRead c ->
  exists e1 acc e2 n peer t, before = e1 ++ acc :: e2 /\ Accepts n c peer acc
  /\ TemplateFrom (rq_pair_prompt_path rq) default_template e2 t
  /\ forall b, In b (delivered c e2) -> Control b -> In b t.
Proof.
  intros pl a rq w o w' before rd after c D P H T R.
  destruct (prompt_before_answer pl a rq w o w' before rd after c D H T R) as (e1 & acc & e2 & n & peer & E & HA & HP).
  destruct (pair_prompt_printable rq e2 _ P HP) as (t & HT & HC). exists e1, acc, e2, n, peer, t. auto.
Qed.
Print Assumptions C81_printable.

Example C81_example : PrintableRequest to_root_rq.
Proof.
  constructor; try (apply printableb_ok; vm_compute; reflexivity); try (intros s [=]).
  - repeat constructor; apply printableb_ok; vm_compute; reflexivity.
  - subst s. apply printableb_ok. vm_compute. reflexivity.
Qed.
