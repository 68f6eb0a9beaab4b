(** Vocabulary for statements about an open session. *)
From Verif Require Import Base Path World Options Sys Io Env Core Pair Spec TraceSpec SessionSpec.
Local Open Scope Z_scope.

Definition OutputStream (s : stream) : Prop := s = Ttyout \/ s = Stdout \/ s = Stderr.

(** What a callback of a session opened for [rq] is meant to send to the pair. *)
Inductive Mirrors (rq : request) : callback -> bytes -> Prop :=
| MI_output s d : OutputStream s -> rq_log rq s = true -> Mirrors rq (CbLog s d) d
| MI_quiet s d : rq_log rq s = false \/ ~ OutputStream s -> Mirrors rq (CbLog s d) []
| MI_winsize l c sl sc : Decimal l sl -> Decimal c sc ->
    Mirrors rq (CbWinsize l c) ([x1b] ++ B "[8;" ++ sl ++ B ";" ++ sc ++ B "t")
| MI_version v : Mirrors rq (CbShowVersion v) [].

(** The callbacks of a session between its opening and its closing. *)
Definition InSession (cb : callback) : Prop :=
  match cb with CbLog _ _ | CbWinsize _ _ | CbShowVersion _ => True | _ => False end.

(** What the pair receives over a history of callbacks with return codes
    [zs]: from each callback that returned 1 all it is meant to send, from any
    other one an initial part of it. *)
Inductive Received (rq : request) : list callback -> list Z -> bytes -> Prop :=
| RC_nil : Received rq [] [] []
| RC_cons cb h z zs out part rest : Mirrors rq cb out ->
    (z = 1 /\ part = out \/ z <> 1 /\ Prefix part out) -> Received rq h zs rest ->
    Received rq (cb :: h) (z :: zs) (part ++ rest).

(** [st] is the state left by a first opening that was approved over
    connection [c]. *)
Definition PairedSession (pl : platform) (a : open_args) (rq : request) (st : pstate SudoPair) (c : nat) : Prop :=
  Describes pl a rq /\ ~ Exempt rq /\ rq_command rq <> []
  /\ exists w w' evs, core_open SudoPair pl a (pstate0 _) w = (Done (1, st), w')
     /\ w_trace w' = w_trace w ++ evs /\ Approved rq c evs.

(** [st] is the state left by a first opening that returned 1 for a request
    that runs a command, paired or exempt. *)
Definition OpenSession (pl : platform) (a : open_args) (rq : request) (st : pstate SudoPair) : Prop :=
  Describes pl a rq /\ rq_command rq <> []
  /\ exists w w', core_open SudoPair pl a (pstate0 _) w = (Done (1, st), w').

(** The text or path a call passes as a C string has no NUL in it, so that it
    is passed whole. *)
Definition NoNul (b : bytes) : Prop := ~ In x00 b.
Definition WholeStrings (c : call) : Prop :=
  match c with
  | CStat p | CUnlink p | CBind p | CChown p _ _ | CChmod p _ => forall s, In (Normal s) p -> NoNul s
  | CReadFile p | COpenTty p => NoNul p
  | CPrintf _ d => NoNul d
  | _ => True
  end.

(** No opening is given a printf. *)
Definition WithoutPrintf (c : callback) : Prop := match c with CbOpen a => oa_printf a = false | _ => True end.

(** The call uses the connection [c]. *)
Definition UsesConnection (c : nat) (ca : call) : Prop :=
  match ca with
  | CWrite c' _ | CRead c' | CShutdown c' | CClose c' => c' = c
  | _ => False
  end.

(** The same with openings in between, to which nothing is due. *)
Inductive ReceivedAmidOpens (rq : request) : list callback -> list Z -> bytes -> Prop :=
| RA_nil : ReceivedAmidOpens rq [] [] []
| RA_open a h z zs rest : ReceivedAmidOpens rq h zs rest -> ReceivedAmidOpens rq (CbOpen a :: h) (z :: zs) rest
| RA_cons cb h z zs out part rest : Mirrors rq cb out ->
    (z = 1 /\ part = out \/ z <> 1 /\ Prefix part out) -> ReceivedAmidOpens rq h zs rest ->
    ReceivedAmidOpens rq (cb :: h) (z :: zs) (part ++ rest).

Definition NotClose (cb : callback) : Prop := match cb with CbClose _ _ => False | _ => True end.
