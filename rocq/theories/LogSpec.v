(** Vocabulary for statements about the records of a session. *)
From Verif Require Import Base World Options Core Pair Spec TraceSpec Log.
Local Open Scope Z_scope.

(** Records that every build keeps. *)
Definition important (r : record) : bool :=
  match r_level r with LError | LWarn | LInfo => true | LDebug | LTrace => false end.

(** What they say, in order. *)
Definition messages (l : list record) : list bytes := map r_message (filter important l).

Definition EXEMPT := B "pair session exempt from pairing requirements".
Definition REQUIRED := B "pair session required".
Definition BOTH := B "both -u and -g were provided to sudo".
Definition WAITING := B "socket waiting for pair to connect...".
Definition CONNECTED := B "socket connected".
Definition APPROVED := B "remote pair approved session".
Definition DECLINED := B "remote pair declined session".
Definition STARTED := B "pair session started".
Definition ENDED := B "pair session ended".

(** The ways in which an opening can be told to its end. *)
Inductive Story : list bytes -> Prop :=
| S_exempt : Story [EXEMPT]
| S_both : Story [REQUIRED; BOTH]
| S_declined : Story [REQUIRED; WAITING; CONNECTED; DECLINED]
| S_approved : Story [REQUIRED; WAITING; CONNECTED; APPROVED; STARTED].

(** A record that says who wants to run what as whom, and which plugin says so. *)
Definition Identifies (rq : request) (r : record) : Prop :=
  In (B "uid", VNum (rq_uid rq)) (r_values r)
  /\ In (B "runas_euid", VNum (rq_to_uid rq)) (r_values r)
  /\ In (B "runas_egid", VNum (rq_to_gid rq)) (r_values r)
  /\ In (B "command", VLossy (rq_command rq)) (r_values r)
  /\ In (B "args", VDebug (tl (rq_args rq))) (r_values r)
  /\ In (B "plugin_name", VText (B "sudo_pair")) (r_values r)
  /\ In (B "plugin_version", VText (B "1.2.0")) (r_values r).

(** Data was read, from whichever connection. *)
Definition answered (d : bytes) (evs : list event) : Prop := exists rd c, In rd evs /\ Is (CRead c) (AData d) rd.

(** A disposition of SIGINT could not be set. *)
Definition Unrestored (evs : list event) : Prop := exists ev s er, In ev evs /\ Is (CSigSet s) (AErr er) ev.

(** The callbacks after an opening, and those between an opening and the end. *)
Definition Continues (c : callback) : Prop := forall a, c <> CbOpen a.
Definition During (c : callback) : Prop :=
  match c with CbOpen _ | CbClose _ _ => False | _ => True end.

(** The records made by a first opening. *)
Notation open_records max pl a w := (callback_records max pl (CbOpen a) (pstate0 SudoPair) w).
