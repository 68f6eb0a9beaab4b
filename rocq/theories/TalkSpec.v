(** Vocabulary for statements about what the pair hears, what the user is told
    and which failures are fatal. *)
From Verif Require Import Base Path World Options Sys Io Env Core Spec TraceSpec SessionSpec.
Local Open Scope Z_scope.

(** The answer [d] echoed: the byte, or an 'n' if there was none, and a newline;
    either of them may be lost. *)
Definition Echo (d out : bytes) : Prop :=
  exists x y, out = x ++ y /\ Prefix x [match d with b :: _ => b | [] => "n"%byte end] /\ Prefix y [x0a].
Definition EchoedIn (c : nat) (d : bytes) (full : Prop) (evs : list event) : Prop :=
  Echo d (delivered c evs)
  /\ (full -> ~ Exists Failed evs -> delivered c evs = [match d with b :: _ => b | [] => "n"%byte end; x0a]).

(** What was delivered on connection [c]: a part of the prompt; or all of it,
    and after the answer was read its echo (complete if [full] and no call
    failed). *)
Definition Heard (c : nat) (prompt : bytes) (full : Prop) (evs : list event) : Prop :=
  Prefix (delivered c evs) prompt
  \/ exists e1 rd e2 d, evs = e1 ++ rd :: e2 /\ Is (CRead c) (AData d) rd
     /\ delivered c e1 = prompt /\ EchoedIn c d full e2.

Definition COMMUNICATION := B "couldn't establish communications with the pair".
Definition DECLINED := B "pair declined the session".
Definition BOTH := B "the -u and -g options may not both be specified".

(** The message [m] was handed to sudo's printf at the error level: nothing
    else was, and all of it was if a print function was given and no call
    failed. *)
Definition Told (a : open_args) (m : bytes) (rs : list event) : Prop :=
  Only ErrorText rs
  /\ Prefix (printed 3 rs) ([x0a] ++ B "sudo_pair: " ++ m ++ [x0a])
  /\ (oa_printf a = true -> ~ Exists Failed rs -> printed 3 rs = [x0a] ++ B "sudo_pair: " ++ m ++ [x0a]).

(** Setting up the socket came to a panic. *)
Definition SetupPanic (evs : list event) : Prop :=
  exists ev, In ev evs
  /\ ((exists fd, Is CSocket (ANum fd) ev /\ 1024 <= fd) \/ (exists n, Is CSelect (ANum n) ev /\ n <> 1)).

(** A connection was accepted. *)
Definition IsAccept (ev : event) : Prop := Is CAccept AOk ev.

(** The message for a refusal after the events [es], which are those between
    the prompt for the user and the message. *)
Definition Reason (es : list event) (m : bytes) : Prop :=
  (m = COMMUNICATION /\ reads es = [] /\ (Exists IsAccept es -> Exists Failed es))
  \/ (m = DECLINED /\ Exists IsAccept es /\ (reads es <> [] \/ Exists Failed es)).

(** Failure [er] of call [c], made after the events [before], must keep the
    session from being opened; [q] is the path of the socket. The file system
    may well say that there is no old socket; one left over after the socket
    was created cannot be helped; interrupted accepts and writes are repeated;
    and once the answer was read it counts. *)
Definition Fatal (q : path) (before : list event) (c : call) (er : Z) : Prop :=
  match c with
  | CStat p => p <> q
  | CUnlink _ => Only (fun x => x <> CBind q) before
  | CSocket | CBind _ | CListen | CChown _ _ _ | CChmod _ _ | CSelect => True
  | CAccept => er <> EINTR
  | CWrite _ _ | CSigGet | CSigSet _ => er <> EINTR /\ reads before = []
  | CRead _ => True
  | _ => False
  end.

(** The address of the socket: its name in socket_dir, as bytes. *)
Definition SocketAddress (rq : request) (p : bytes) : Prop :=
  exists n, SocketName rq n
  /\ ((rq_socket_dir rq = [] /\ p = n)
      \/ (exists d, rq_socket_dir rq = d ++ ["/"%byte] /\ p = rq_socket_dir rq ++ n)
      \/ (exists d b, rq_socket_dir rq = d ++ [b] /\ b <> "/"%byte /\ p = rq_socket_dir rq ++ "/"%byte :: n)).

(** The calls that make or use the socket. *)
Definition Listens (c : call) : Prop :=
  match c with
  | CSocket | CBind _ | CListen | CChown _ _ _ | CChmod _ _ | CSelect | CAccept | CWrite _ _ | CRead _ => True
  | _ => False
  end.

(** The paths and identities in the call [c] are those of the request; [q] is
    the path of the socket. The id 2^32-1 leaves an owner or group as it is. *)
Definition Argument (rq : request) (q : path) (c : call) : Prop :=
  match c with
  | CStat p => p = components (rq_socket_dir rq) \/ p = q
  | CUnlink p | CBind p => p = q
  | CChown p u g =>
      p = q /\ ((rq_uid rq <> rq_to_uid rq /\ u = rq_to_uid rq /\ g = 4294967295)
                \/ (rq_uid rq = rq_to_uid rq /\ rq_f_group rq <> None /\ u = 4294967295 /\ g = rq_to_gid rq))
  | CChmod p m =>
      p = q /\ ((rq_uid rq <> rq_to_uid rq /\ m = 128)
                \/ (rq_uid rq = rq_to_uid rq /\ rq_f_group rq <> None /\ m = 16))
  | CReadFile f => f = rq_user_prompt_path rq \/ f = rq_pair_prompt_path rq
  | COpenTty f => rq_tty rq = Some f
  | _ => True
  end.

(** A terminal was opened. *)
Definition OpensTty (ev : event) : Prop := exists p, Is (COpenTty p) AOk ev.
Definition ShowsText (c : call) : Prop := match c with CWriteTty _ | CPrintf _ _ => True | _ => False end.
Definition UsesTty (c : call) : Prop := match c with COpenTty _ | CWriteTty _ | CCloseTty => True | _ => False end.
