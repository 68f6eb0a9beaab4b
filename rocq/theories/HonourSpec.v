(** Vocabulary for "everything works": what it means for each call of an
    opening to have done its job, and which requests can be asked at all. *)
From Verif Require Import Base Path World Options Sys Io Env Core Spec TraceSpec PairPure.
Local Open Scope Z_scope.

(** A directory in which only the effective user can create files. *)
Definition PrivateDir (euid : Z) (i : inode) : Prop :=
  i_kind i = KDir /\ i_uid i = euid /\ 0 <= i_perm i < 4096
  /\ Z.land (i_perm i) 16 = 0 /\ Z.land (i_perm i) 2 = 0.

(** [ev] did its job, [q] being the path of the socket. Calls that are not
    listed (the local prompt, the template of the pair's prompt, setting the
    mask, closing things) may do anything. Calls that the plugin makes again
    when they are interrupted may be interrupted. *)
Definition Works (euid : Z) (q : path) (ev : event) : Prop :=
  match e_call ev with
  | CStat p =>
      (* what stands at the socket's name, if anything, is a socket *)
      (p = q -> forall n, e_ans ev = AOk -> resolve (e_pre ev) p = Some n -> i_kind (k_inodes (e_pre ev) n) = KSock)
      (* the directory can be examined and is private *)
      /\ (p <> q -> e_ans ev = AOk
                    /\ exists n, resolve (e_pre ev) p = Some n /\ PrivateDir euid (k_inodes (e_pre ev) n))
  | CUnlink p => e_ans ev = AOk /\ k_names (e_pre ev) p <> None
  | CSocket => exists fd, e_ans ev = ANum fd /\ fd < 1024
  | CBind p => Creates p ev
  | CListen => e_ans ev = AOk
  | CChown p _ _ | CChmod p _ => e_ans ev = AOk /\ resolve (e_pre ev) p <> None
  | CSelect => e_ans ev = ANum 1
  | CAccept => e_ans ev = AOk \/ e_ans ev = AErr EINTR
  | CSigGet | CSigSet _ => e_ans ev = AOk
  | CWrite _ _ => (exists n, e_ans ev = ANum n /\ 0 < n) \/ e_ans ev = AErr EINTR
  | CRead _ => exists d, e_ans ev = AData d
  | _ => True
  end.

(** The request is one that a pair can be asked about: it is for a command,
    not exempt, for another user or (but not and) with a group given, the
    address list of the settings is understood, the debug assertions hold, and
    the socket has a path that fits into an address. *)
Record Askable (pl : platform) (a : open_args) (rq : request) : Prop := {
  ak_addrs : ~ MasklessAddr pl (oa_settings a);
  ak_command : rq_command rq <> [];
  ak_exempt : ~ Exempt rq;
  ak_other : rq_uid rq <> rq_to_uid rq \/ rq_f_group rq <> None;
  ak_one : ~ (rq_uid rq <> rq_to_uid rq /\ rq_f_group rq <> None);
  ak_debug : pl_debug pl = true -> Consistent rq;
  ak_dir : rq_socket_dir rq <> [];
  ak_nul : ~ In x00 (rq_socket_dir rq);
  ak_fits : forall n, SocketName rq n -> (List.length (rq_socket_dir rq) + 1 + List.length n < 108)%nat
}.

Definition Yes (d : bytes) : Prop := d = B "y" \/ d = B "Y".

(** Turns in which no other process does anything. *)
Definition Calm (ts : list turn) : Prop := Forall (fun t : turn => fst t = []) ts.

(** The socket directory exists and is private, and nothing stands at the
    socket's name except perhaps a socket left behind (or a link to one). *)
Definition Ready (pl : platform) (rq : request) (q : path) (k : kernel) : Prop :=
  (k_names k q = None \/ exists m, resolve k q = Some m /\ i_kind (k_inodes k m) = KSock)
  /\ exists n, resolve k (components (rq_socket_dir rq)) = Some n /\ PrivateDir (pl_euid pl) (k_inodes k n).

(** Unix search permission: the class of the process decides. *)
Definition MaySearch (c : cred) (i : inode) : Prop :=
  cr_priv c = true
  \/ (cr_uid c = i_uid i /\ Z.testbit (i_perm i) 6 = true)
  \/ (cr_uid c <> i_uid i /\ In (i_gid i) (cr_gids c) /\ Z.testbit (i_perm i) 3 = true)
  \/ (cr_uid c <> i_uid i /\ ~ In (i_gid i) (cr_gids c) /\ Z.testbit (i_perm i) 0 = true).

(** Every name above [q] that exists leads to a directory that [c] may search. *)
Definition OpenWay (c : cred) (q : path) (k : kernel) : Prop :=
  forall d r n, q = d ++ r -> r <> [] -> k_names k d = Some n ->
  exists m, resolve k d = Some m /\ i_kind (k_inodes k m) = KDir /\ MaySearch c (k_inodes k m).

(** Inodes that have a name have been numbered. *)
Definition Numbered (k : kernel) : Prop := forall p n, k_names k p = Some n -> (n < k_next k)%nat.

(** A process that the socket is meant for: a privileged one, one of the
    requested user, or a member of the requested group (other than by being
    the user sudo runs as). The id 2^32-1 names nobody. *)
Definition Entitled (pl : platform) (rq : request) (peer : cred) : Prop :=
  cr_priv peer = true
  \/ (rq_uid rq <> rq_to_uid rq /\ cr_uid peer = rq_to_uid rq /\ rq_to_uid rq <> NO_ID)
  \/ (rq_f_group rq <> None /\ In (rq_to_gid rq) (cr_gids peer) /\ rq_to_gid rq <> NO_ID
      /\ cr_uid peer <> pl_euid pl /\ rq_uid rq = rq_to_uid rq).
