(** Vocabulary for statements about what happened: functions and predicates on
    the list of calls the plugin made (and their answers). Nothing here refers
    to the model of the plugin. *)
From Verif Require Import Base World.
Local Open Scope Z_scope.

Definition Prefix (a b : bytes) : Prop := exists c, b = a ++ c.
Definition Infix (a b : bytes) : Prop := exists x y, b = x ++ a ++ y.

(** Bytes accepted by the kernel on connection [c]. *)
Definition delivered1 (c : nat) (ev : event) : bytes :=
  match e_call ev, e_ans ev with
  | CWrite c' d, ANum n => if Nat.eqb c c' then firstn (Z.to_nat n) d else []
  | _, _ => []
  end.
Definition delivered (c : nat) (evs : list event) : bytes := flat_map (delivered1 c) evs.

(** Bytes accepted by sudo's printf, at a given level. *)
Definition printed1 (level : Z) (ev : event) : bytes :=
  match e_call ev, e_ans ev with
  | CPrintf l d, ANum n => if l =? level then firstn (Z.to_nat n) d else []
  | _, _ => []
  end.
Definition printed (level : Z) (evs : list event) : bytes := flat_map (printed1 level) evs.

(** Bytes accepted by the terminal. *)
Definition shown1 (ev : event) : bytes :=
  match e_call ev, e_ans ev with
  | CWriteTty d, ANum n => firstn (Z.to_nat n) d
  | _, _ => []
  end.
Definition shown (evs : list event) : bytes := flat_map shown1 evs.

(** Kinds of calls. *)
Definition Prints (c : call) : Prop := exists l d, c = CPrintf l d.
Definition ErrorText (c : call) : Prop := exists d, c = CPrintf 3 d.
Definition LocalPrompt (c : call) : Prop :=
  match c with
  | CReadFile _ | COpenTty _ | CWriteTty _ | CCloseTty | CPrintf _ _ => True
  | _ => False
  end.

Definition Only (C : call -> Prop) (evs : list event) : Prop := Forall (fun ev => C (e_call ev)) evs.

(** An event that is a given call with a given answer. *)
Definition Is (c : call) (a : answer) (ev : event) : Prop := e_call ev = c /\ e_ans ev = a.

(** sudo's printf never claims to have printed more than it was given. *)
Definition HonestPrintf (evs : list event) : Prop :=
  Forall (fun ev => match e_call ev, e_ans ev with
                    | CPrintf _ d, ANum n => n <= Z.of_nat (List.length d)
                    | _, _ => True end) evs.

(** Calls made to set up and wait on the socket. *)
Definition SocketCall (c : call) : Prop :=
  match c with
  | CStat _ | CUnlink _ | CUmask _ | CSocket | CBind _ | CListen | CChown _ _ _ | CChmod _ _
  | CSelect | CAccept | CCloseListener => True
  | _ => False
  end.

(** The read calls among the events. *)
Definition is_read (ev : event) : bool := match e_call ev with CRead _ => true | _ => false end.
Definition reads (evs : list event) : list event := filter is_read evs.

(** [ev] creates the socket file [q] (bind succeeds). *)
Definition Creates (q : path) (ev : event) : Prop :=
  e_call ev = CBind q /\ (exists g, e_ans ev = ANum g)
  /\ k_listen (e_pre ev) <> None /\ k_names (e_pre ev) q = None /\ dir_inode (e_pre ev) q <> None.

(** [ev] accepts, as connection [c], the process [peer] that has been waiting
    longest on the listening socket with inode [n]. *)
Definition Accepts (n : nat) (c : nat) (peer : cred) (ev : event) : Prop :=
  Is CAccept AOk ev /\ c = List.length (k_conns (e_pre ev))
  /\ exists l q, k_listen (e_pre ev) = Some l /\ l_ino l = Some n /\ l_queue l = peer :: q.

(** The template used: the contents of the file if it was read, otherwise the
    built-in one. *)
Definition TemplateFrom (p default : bytes) (evs : list event) (t : bytes) : Prop :=
  (exists ev, In ev evs /\ Is (CReadFile p) (AData t) ev)
  \/ (t = default /\ forall ev d, In ev evs -> ~ Is (CReadFile p) (AData d) ev).

(** Scripts in which the other processes do nothing but connect. *)
Definition ConnectOnly (w : world) : Prop :=
  Forall (fun t : turn => Forall (fun ca => exists p, snd ca = Connect p) (fst t)) (w_script w).

(** A call that did not do its job: it failed for good (an interrupted call is
    simply made again), or it wrote nothing. *)
Definition Failed (ev : event) : Prop :=
  match e_ans ev with
  | AErr e => e <> EINTR
  | ANum n => match e_call ev with CWrite _ _ | CWriteTty _ | CPrintf _ _ => n <= 0 | _ => False end
  | _ => False
  end.

(** Calls that only concern connection [c]: writes to it, and looking at or
    setting the disposition of SIGINT around them. *)
Definition WritesTo (c : nat) (x : call) : Prop :=
  match x with CSigGet | CSigSet _ => True | CWrite c' _ => c' = c | _ => False end.
