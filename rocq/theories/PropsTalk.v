(** Properties of what the pair hears and the user is told, of failures while
    the socket is set up, and of the arguments of the calls made. *)
From Verif Require Import Base Num Path Template Options World Sys Io Socket Env Core Pair Spec TraceSpec SessionSpec Samples
  NumProofs RequestProofs PairPure InputFacts AskFacts Worlds SessionFacts MiscFacts PropsSocket TalkSpec TalkFacts SetupFacts ArgFacts FuelFacts.
Local Open Scope Z_scope.

(** *** C68: the pair hears the prompt and the echo of its answer, and nothing else *)
Theorem C68_heard : forall pl a rq w o w' evs c,
  Describes pl a rq ->
  core_open SudoPair pl a (pstate0 _) w = (o, w') -> w_trace w' = w_trace w ++ evs ->
  delivered c evs = []
  \/ exists e1 acc e2 prompt,
       evs = e1 ++ acc :: e2 /\ Is CAccept AOk acc /\ c = List.length (k_conns (e_pre acc))
       /\ delivered c e1 = [] /\ PairPrompt rq e2 prompt /\ Heard c prompt (o <> Stopped) e2.
Proof. exact (fun pl a rq w o w' evs c D => heard pl a rq D w o w' evs c). Qed.
Print Assumptions C68_heard.

Example C68_example :
  code (root_run yes_world) = Some 1 /\ code (root_run no_world) = Some (-1)
  /\ delivered 0 (w_trace (snd (root_run yes_world)))
     = B "alice@web1:/home/alice$ sudo --user root cat /etc/shadow" ++ [x0a] ++ B "y/n? [n]: " ++ B "y" ++ [x0a]
  /\ delivered 0 (w_trace (snd (root_run no_world)))
     = B "alice@web1:/home/alice$ sudo --user root cat /etc/shadow" ++ [x0a] ++ B "y/n? [n]: " ++ B "n" ++ [x0a].
Proof. repeat split; vm_compute; reflexivity. Qed.

(** *** C69: the user is told why a session was refused *)
Theorem C69_told : forall pl a rq w z st' w' evs,
  Describes pl a rq ->
  core_open SudoPair pl a (pstate0 _) w = (Done (z, st'), w') -> w_trace w' = w_trace w ++ evs ->
  z <> 1 -> HonestPrintf evs ->
  (evs = [] /\ (MasklessAddr pl (oa_settings a) \/ (pl_debug pl = true /\ ~ Consistent rq)))
  \/ (rq_uid rq <> rq_to_uid rq /\ rq_f_group rq <> None /\ Told a BOTH evs)
  \/ exists ls es rs, evs = ls ++ es ++ rs /\ Only LocalPrompt ls /\ Only (fun c => ~ Prints c) es
     /\ ((rs = [] /\ ((rq_uid rq = rq_to_uid rq /\ rq_f_group rq = None /\ es = []) \/ SetupPanic es))
         \/ exists m, Reason es m /\ Told a m rs).
Proof. exact (fun pl a rq w z st' w' evs D => told pl a rq D w z st' w' evs). Qed.
Print Assumptions C69_told.

Example C69_example :
  printed 3 (w_trace (snd (root_run no_world))) = [x0a] ++ B "sudo_pair: pair declined the session" ++ [x0a]
  /\ printed 3 (w_trace (snd (root_run ctrl_c_world)))
     = [x0a] ++ B "sudo_pair: couldn't establish communications with the pair" ++ [x0a]
  /\ printed 3 (w_trace (snd (root_run zero_world))) = [].
Proof. repeat split; vm_compute; reflexivity. Qed.

(** *** C70: failures while the socket is set up and the prompt sent are fatal *)
Theorem C70_failures_fatal : forall pl a rq w z st' w' evs e1 ev e2 er q,
  Describes pl a rq ->
  core_open SudoPair pl a (pstate0 _) w = (Done (z, st'), w') -> w_trace w' = w_trace w ++ evs ->
  evs = e1 ++ ev :: e2 -> SocketPath rq q -> e_ans ev = AErr er -> Fatal q e1 (e_call ev) er ->
  z = -1 /\ st_plugin st' = None.
Proof. exact (fun pl a rq w z st' w' evs e1 ev e2 er q D => fatal pl a rq D w z st' w' evs e1 ev e2 er q). Qed.
Print Assumptions C70_failures_fatal.

(** The owner of the socket cannot be set; its mode cannot be set; accepting fails. *)
Definition report_turns : list turn := [t (ANum 1); t (ANum 11); t (ANum 47); t (ANum 1)].
Definition tail_turns : list turn := [t AOk; t AOk; t AOk; t AOk] ++ report_turns.
Definition chown_world : world := world_of k_root
  (local_turns ++ [t AOk; t AOk; t AOk; t (ANum 5); t (ANum 0); t AOk; t (AErr 1)] ++ tail_turns).
Definition chmod_world : world := world_of k_root
  (local_turns ++ [t AOk; t AOk; t AOk; t (ANum 5); t (ANum 0); t AOk; t AOk; t (AErr 1)] ++ tail_turns).
Definition accept_world : world := world_of k_root
  (local_turns ++ [t AOk; t AOk; t AOk; t (ANum 5); t (ANum 0); t AOk; t AOk; t AOk; ([(root, Connect sock)], ANum 1);
                   t (AErr EINTR); t (AErr 24)] ++ tail_turns).
Example C70_example : Describes release to_root to_root_rq /\ SocketPath to_root_rq sock
  /\ code (root_run chown_world) = Some (-1) /\ code (root_run chmod_world) = Some (-1) /\ code (root_run accept_world) = Some (-1)
  /\ nth 10 (seen (w_trace (snd (root_run chown_world)))) (CListen, AOk) = (CChown sock 0 4294967295, AErr 1)
  /\ nth 11 (seen (w_trace (snd (root_run chmod_world)))) (CListen, AOk) = (CChmod sock 128, AErr 1)
  /\ nth 14 (seen (w_trace (snd (root_run accept_world)))) (CListen, AOk) = (CAccept, AErr 24).
Proof.
  split; [exact to_root_describes|]. split; [exact (SocketPath_intro to_root_rq)|].
  repeat split; vm_compute; reflexivity.
Qed.

(** *** C71: no socket is made at an address that the system cannot represent *)
Theorem C71_unusable_address : forall pl a rq w o w' evs p,
  Describes pl a rq ->
  core_open SudoPair pl a (pstate0 _) w = (o, w') -> w_trace w' = w_trace w ++ evs ->
  SocketAddress rq p -> (108 <= List.length p)%nat \/ In x00 p ->
  Only (fun c => ~ Listens c) evs /\ (forall st', o = Done (1, st') -> Exempt rq \/ rq_command rq = []).
Proof. exact unusable_refused. Qed.
Print Assumptions C71_unusable_address.

(** A socket_dir of [n] bytes, in which the name of the socket takes 14 more. *)
Definition long_dir (n : nat) : bytes := B "/" ++ repeat "d"%byte (n - 1).
Definition to_long (n : nat) : open_args := {|
  oa_version := oa_version to_root; oa_printf := true; oa_settings := oa_settings to_root;
  oa_user_info := oa_user_info to_root; oa_command_info := oa_command_info to_root; oa_argv := oa_argv to_root;
  oa_user_env := Some []; oa_plugin_options := Some [B "socket_dir=" ++ long_dir n] |}.
Definition long_kernel (n : nat) : kernel := {|
  k_names := fun p => if comps_eqb p (components (long_dir n)) then Some 0%nat else None;
  k_inodes := fun _ => root_dir; k_next := 1; k_umask := 18; k_sigint := mkSigact true 7;
  k_listen := None; k_conns := []; k_open := [] |}.
Definition fits_world : world := world_of (long_kernel 92)
  (local_turns ++ socket_turns [(root, Connect (components (long_dir 92) ++ [Normal (B "1000.4242.sock")]))] ++ talk 67 (B "y")).
Definition long_world : world := world_of (long_kernel 93)
  (local_turns ++ [t AOk; t AOk; t AOk; t AOk; t AOk] ++ [t (ANum 1); t (ANum 11); t (ANum 47); t (ANum 1)]).
Example C71_example :
  (exists rq, Describes release (to_long 93) rq /\ SocketAddress rq (long_dir 93 ++ B "/1000.4242.sock"))
  /\ List.length (long_dir 93 ++ B "/1000.4242.sock") = 108%nat
  /\ code (core_open SudoPair release (to_long 93) (pstate0 _) long_world) = Some (-1)
  /\ code (core_open SudoPair release (to_long 92) (pstate0 _) fits_world) = Some 1.
Proof.
  split; [|repeat split; vm_compute; reflexivity].
  destruct (io_env_new release (B "n") (B "v") (to_long 93)) as [[e|]|] eqn:E;
    [|vm_compute in E; discriminate|vm_compute in E; discriminate].
  exists (request_of e). split; [exact (env_Describes _ _ _ _ _ E)|].
  assert (H1 : rq_socket_dir (request_of e) = long_dir 93) by (vm_compute in E; injection E as <-; vm_compute; reflexivity).
  assert (H2 : rq_uid (request_of e) = 1000) by (vm_compute in E; injection E as <-; vm_compute; reflexivity).
  assert (H3 : rq_pid (request_of e) = 4242) by (vm_compute in E; injection E as <-; vm_compute; reflexivity).
  exists (B "1000.4242.sock"). split.
  - exists (B "1000"), (B "4242"). rewrite H2, H3. split; [apply Decimal_iff; reflexivity|]. split; [apply Decimal_iff; reflexivity|reflexivity].
  - right. right. exists (B "/" ++ repeat "d"%byte 91), "d"%byte. rewrite H1. split; [reflexivity|]. split; [discriminate|reflexivity].
Qed.

(** *** C72: the paths and identities handed to the system are those of the request *)
Theorem C72_arguments : forall pl a rq w o w' evs q,
  Describes pl a rq ->
  core_open SudoPair pl a (pstate0 _) w = (o, w') -> w_trace w' = w_trace w ++ evs -> SocketPath rq q ->
  Only (Argument rq q) evs.
Proof. exact (fun pl a rq w o w' evs q D => arguments pl a rq D w o w' evs q). Qed.
Print Assumptions C72_arguments.

(** One call per line of [Argument]. *)
Example C72_example : Describes release to_root to_root_rq /\ SocketPath to_root_rq sock /\ code (root_run yes_world) = Some 1
  /\ Forall (fun c => In c (map fst (seen (w_trace (snd (root_run yes_world))))))
       [CStat run_dir; CStat sock; CUnlink sock; CBind sock; CChown sock 0 4294967295; CChmod sock 128;
        CReadFile (B "/etc/sudo_pair.prompt.user"); CReadFile (B "/etc/sudo_pair.prompt.pair"); COpenTty (B "/dev/pts/3")].
Proof.
  split; [exact to_root_describes|]. split; [exact (SocketPath_intro to_root_rq)|]. split; [vm_compute; reflexivity|].
  vm_compute (map fst _). repeat (apply Forall_cons; [repeat (try (left; reflexivity); right)|]). apply Forall_nil.
Qed.

(** *** C73: the terminal is closed *)
Theorem C73_terminal_closed : forall pl a rq w o w' evs e1 ev e2,
  Describes pl a rq ->
  core_open SudoPair pl a (pstate0 _) w = (o, w') -> w_trace w' = w_trace w ++ evs -> o <> Stopped ->
  evs = e1 ++ ev :: e2 -> OpensTty ev ->
  exists m cl e3, e2 = m ++ cl :: e3 /\ Is CCloseTty AOk cl /\ Only ShowsText m
    /\ Only (fun c => ~ UsesTty c) e1 /\ Only (fun c => ~ UsesTty c) e3.
Proof. exact (fun pl a rq w o w' evs e1 ev e2 D => tty_closed pl a rq D w o w' evs e1 ev e2). Qed.
Print Assumptions C73_terminal_closed.

(** The terminal takes part of the prompt and then fails; it is closed after
    the rest was printed. *)
Definition broken_world : world := world_of k_root
  ([t (AErr ENOENT); t AOk; t (ANum 7); t (AErr 5); t (ANum 2); t (ANum 30); t AOk]
   ++ socket_turns [(root, Connect sock)] ++ talk 67 (B "y")).
Example C73_example : code (root_run broken_world) = Some 1
  /\ OpensTty (nth 1 (w_trace (snd (root_run broken_world))) no_event)
  /\ nth 6 (seen (w_trace (snd (root_run broken_world)))) (CListen, AOk) = (CCloseTty, AOk).
Proof.
  split; [vm_compute; reflexivity|]. split; [|vm_compute; reflexivity].
  exists (B "/dev/pts/3"). split; vm_compute; reflexivity.
Qed.

(** *** C74: retrying ends only because the environment says so *)

(** The loops that retry calls (write_all, accept, reporting an error) are
    modelled with a bound on the number of rounds. Any bound beyond the number
    of answers the environment has left gives the same result: no run is cut
    short by the bound. *)
Theorem C74_write_bound : forall w buf n,
  (List.length (w_script w) < n)%nat ->
  (forall c, write_all_loop n (socket_write c) buf w = socket_write_all c buf w)
  /\ (forall pf, write_all_loop n (pf_write pf) buf w = pf_write_all pf buf w)
  /\ write_all_loop n sys_write_tty buf w = tty_write_all buf w.
Proof. exact write_bounds. Qed.
Print Assumptions C74_write_bound.

Theorem C74_other_bounds : forall w n m,
  (List.length (w_script w) < n)%nat -> (List.length (w_script w) < m)%nat ->
  accept_loop n w = accept_loop m w
  /\ forall pf source, source_loop n pf source w = source_loop m pf source w.
Proof. exact other_bounds. Qed.
Print Assumptions C74_other_bounds.

(** The text is written byte by byte, each time after an interruption. *)
Example C74_example :
  fst (tty_write_all (B "abc") (world_of k_root [t (AErr EINTR); t (ANum 1); t (AErr EINTR); t (ANum 1); t (ANum 1)])) = Done (Ok tt)
  /\ fst (write_all_loop 3 sys_write_tty (B "abc") (world_of k_root [t (AErr EINTR); t (ANum 1); t (AErr EINTR); t (ANum 1); t (ANum 1)])) = Stopped.
Proof. split; vm_compute; reflexivity. Qed.
