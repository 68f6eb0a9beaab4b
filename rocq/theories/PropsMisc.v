(** Property theorems about the directory test, the sample approval script and
    the raw example plugin: C32, C54, C55. *)
From Verif Require Import Base Path Version World Sys Io Socket Env Core Pair Approve RawExample Spec TraceSpec SessionSpec
  RunProofs SocketProofs SessionFacts MiscFacts Samples Worlds.
Local Open Scope Z_scope.

(** *** C32: the parent of the socket path is a directory *)

(** The claim as one would expect it. *)
Definition C32_full : Prop := forall euid p par w w' ev n,
  path_parent p = Some par ->
  enforce_ownership euid p w = (Done (Ok tt), w') -> w_trace w' = w_trace w ++ [ev] ->
  resolve (e_pre ev) par = Some n -> i_kind (k_inodes (e_pre ev) n) = KDir.

Definition block_world : world := mkWorld (dir_kernel (mkInode KBlk 0 0 384)) [t AOk] [].
Definition block_path : bytes := B "/var/run/sudo_pair/1000.4242.sock".

Theorem C32_refuted : exists w w' ev n,
  enforce_ownership 0 block_path w = (Done (Ok tt), w') /\ w_trace w' = w_trace w ++ [ev]
  /\ path_parent block_path = Some run_dir
  /\ resolve (e_pre ev) run_dir = Some n /\ i_kind (k_inodes (e_pre ev) n) = KBlk.
Proof.
  exists block_world, (mkWorld (dir_kernel (mkInode KBlk 0 0 384)) []
                         [mkEvent (CStat run_dir) AOk (dir_kernel (mkInode KBlk 0 0 384)) (dir_kernel (mkInode KBlk 0 0 384))]).
  do 2 eexists. repeat split; reflexivity.
Qed.
Print Assumptions C32_refuted.

Theorem C32_not_full : ~ C32_full.
Proof.
  intros F. destruct C32_refuted as (w & w' & ev & n & H & T & P & R & K).
  rewrite (F 0 block_path run_dir w w' ev n P H T R) in K. discriminate.
Qed.
Print Assumptions C32_not_full.

(** What does pass, exactly: 4096 bounds the permission bits of any file. *)
Theorem C32_what_passes : forall euid p par w r w' ev n,
  path_parent p = Some par ->
  enforce_ownership euid p w = (Done r, w') -> w_trace w' = w_trace w ++ [ev] ->
  e_ans ev = AOk -> resolve (e_pre ev) par = Some n ->
  0 <= i_perm (k_inodes (e_pre ev) n) < 4096 ->
  let dir := k_inodes (e_pre ev) n in
  r = Ok tt <->
  (i_kind dir = KDir \/ i_kind dir = KBlk \/ i_kind dir = KSock) /\ i_uid dir = euid
  /\ ~ (Z.land (i_perm dir) 16 <> 0 \/ Z.land (i_perm dir) 2 <> 0).
Proof. exact dir_test. Qed.
Print Assumptions C32_what_passes.

(** Nevertheless a session is only opened after approval if the parent is a
    directory when the socket is created. *)
Theorem C32_still_a_directory : forall pl a rq w st' w' evs,
  Describes pl a rq -> ~ Exempt rq -> rq_command rq <> [] ->
  core_open SudoPair pl a (pstate0 _) w = (Done (1, st'), w') -> w_trace w' = w_trace w ++ evs ->
  exists b d, In b evs /\ (exists n, e_call b = CBind (components (rq_socket_dir rq) ++ [Normal n]))
    /\ resolve (e_pre b) (components (rq_socket_dir rq)) = Some d
    /\ i_kind (k_inodes (e_pre b) d) = KDir.
Proof. exact approved_dir. Qed.
Print Assumptions C32_still_a_directory.

Example C32_example :
  fst (enforce_ownership 0 block_path block_world) = Done (Ok tt)
  /\ fst (enforce_ownership 0 block_path (mkWorld (dir_kernel (mkInode KReg 0 0 384)) [t AOk] [])) = Done (Err OtherIo)
  /\ fst (enforce_ownership 0 block_path (mkWorld k_root [t AOk] [])) = Done (Ok tt)
  /\ fst (enforce_ownership 0 block_path (mkWorld (dir_kernel (mkInode KDir 0 0 509)) [t AOk] [])) = Done (Err OtherIo)
  /\ code (core_open SudoPair release to_root (pstate0 _) yes_world) = Some 1.
Proof. vm_compute. repeat split. Qed.

(** *** C54: the approval script *)
Theorem C54_decisions : forall u args sudo_uid id_u writable s named,
  sudo_uid = Some u \/ (sudo_uid = None /\ id_u = u) ->
  match approve_main args sudo_uid id_u writable s named with
  | Usage => List.length args <> 2%nat
  | NotFound => List.length args = 2%nat /\ s = None
  | NoName => List.length args = 2%nat /\ s <> None /\ named = false
  | RefuseSelf => (exists pid, args = [u; pid]) /\ s <> None /\ named = true
  | Pair => (exists uid pid, args = [uid; pid] /\ uid <> u) /\ writable = true /\ s <> None /\ named = true
  | SudoUser v => (exists uid pid, args = [uid; pid] /\ uid <> u) /\ writable = false /\ named = true
                  /\ exists i, s = Some i /\ v = i_uid i /\ Z.land (i_perm i) 128 <> 0
  | SudoGroup g => (exists uid pid, args = [uid; pid] /\ uid <> u) /\ writable = false /\ named = true
                   /\ exists i, s = Some i /\ g = i_gid i /\ Z.land (i_perm i) 16 <> 0 /\ Z.land (i_perm i) 128 = 0
  | NotWritable => (exists uid pid, args = [uid; pid] /\ uid <> u) /\ writable = false /\ named = true
                   /\ exists i, s = Some i /\ Z.land (i_perm i) 128 = 0 /\ Z.land (i_perm i) 16 = 0
  end.
Proof. exact approve_cases. Qed.
Print Assumptions C54_decisions.

(** Whatever SUDO_UID says, user [u] running the script directly is refused. *)
Definition C54_full : Prop := forall u pid sudo_uid writable s,
  approve_main [u; pid] sudo_uid u writable (Some s) true = RefuseSelf.

(** User 1000 approves a request of user 1000, by setting SUDO_UID. *)
Theorem C54_refuted : exists u pid forged s, approve_main [u; pid] (Some forged) u true (Some s) true = Pair.
Proof. exists 1000, 4242, 0, (mkInode KSock 0 10 144). reflexivity. Qed.
Print Assumptions C54_refuted.

Theorem C54_not_full : ~ C54_full.
Proof.
  intros F. destruct C54_refuted as (u & pid & forged & s & H). rewrite F in H. discriminate.
Qed.
Print Assumptions C54_not_full.

Example C54_example :
  approve_main [1000; 4242] None 1000 true (Some (mkInode KSock 0 0 128)) true = RefuseSelf
  /\ approve_main [1000; 4242] (Some 1000) 0 true (Some (mkInode KSock 0 0 128)) true = RefuseSelf
  /\ approve_main [1000; 4242] None 1001 false (Some (mkInode KSock 0 0 128)) true = SudoUser 0
  /\ approve_main [1000; 4242] (Some 1001) 0 true (Some (mkInode KSock 0 0 128)) true = Pair
  /\ approve_main [1000; 4242] None 1001 false (Some (mkInode KSock 0 10 16)) true = SudoGroup 10
  /\ approve_main [1000; 4242] None 1001 false (Some (mkInode KSock 0 10 0)) true = NotWritable
  /\ approve_main [1000] None 1001 false (Some (mkInode KSock 0 10 0)) true = Usage
  /\ approve_main [1000; 4242] None 1001 false None false = NotFound
  /\ approve_main [1000; 4242] None 1001 false (Some (mkInode KSock 4711 0 128)) false = NoName.
Proof. repeat split. Qed.

(** *** C55: the example that denies everything *)

(** [LastOpen h v p]: the last open in the history [h] gave version [v] and,
    if [p], a print function. *)
Theorem C55_denies : forall before after, exists out,
  nth_error (fst (raw_run raw0 (before ++ RawCheck :: after))) (List.length before) = Some out
  /\ o_ret out = 0
  /\ (o_errstr out = Some (B "deny_everything: denied" ++ [x0a]) \/ o_errstr out = None)
  /\ (o_errstr out <> None <-> exists v, LastOpen before v true /\ 65536 * 1 + 17 <= v).
Proof. exact raw_denies. Qed.
Print Assumptions C55_denies.

(** It prints only with a print function, and only open and show_version
    report success. *)
Theorem C55_other_callbacks : forall before c after out,
  nth_error (fst (raw_run raw0 (before ++ c :: after))) (List.length before) = Some out ->
  (o_ret out = 1 \/ o_ret out = 0)
  /\ (o_ret out = 1 -> c <> RawCheck)
  /\ (o_printed out <> [] -> exists v, LastOpen before v true).
Proof. exact raw_returns_one. Qed.
Print Assumptions C55_other_callbacks.

(** What each callback prints, and the codes of the other two. *)
Theorem C55_printed : forall before c after, exists out,
  nth_error (fst (raw_run raw0 (before ++ c :: after))) (List.length before) = Some out
  /\ match c with
     | RawOpen _ _ => o_ret out = 1 /\ o_printed out = []
     | RawCheck =>
         ((exists v, LastOpen before v true) -> o_printed out = [B "deny_everything: denied" ++ [x0a]])
         /\ (~ (exists v, LastOpen before v true) -> o_printed out = [])
     | RawShowVersion _ =>
         ((exists v, LastOpen before v true) -> o_ret out = 1 /\ o_printed out = [B "Deny Everything version 1.0" ++ [x0a]])
         /\ (~ (exists v, LastOpen before v true) -> o_ret out = 0 /\ o_printed out = [])
     end.
Proof. exact raw_prints. Qed.
Print Assumptions C55_printed.

Example C55_example :
  map (fun o => (o_ret o, o_errstr o))
    (fst (raw_run raw0 [RawCheck; RawOpen 65553 true; RawCheck; RawShowVersion 0;
                        RawOpen 65552 true; RawCheck; RawOpen 65553 false; RawCheck]))
  = [(0, None); (1, None); (0, Some ERRSTR); (1, None); (1, None); (0, None); (1, None); (0, None)]
  /\ LastOpen [RawCheck; RawOpen 65553 true] 65553 true.
Proof.
  split; [reflexivity|]. exists [RawCheck], []. split; [reflexivity|]. intros v p [].
Qed.
