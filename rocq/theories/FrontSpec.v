(** What a front end session means for the pair. *)
From Verif Require Import Base World Sys Io Env Core Spec TraceSpec CallbackSpec Frontend.
Local Open Scope Z_scope.

(** What the pair is to be sent on account of something that happened. *)
Inductive Shows (rq : request) : happening -> bytes -> Prop :=
| SH_marked s d : OutputStream s -> rq_log rq s = true -> Shows rq (Moved s d) d
| SH_other s d : rq_log rq s = false \/ ~ OutputStream s -> Shows rq (Moved s d) []
| SH_resized l c sl sc : Decimal l sl -> Decimal c sc ->
    Shows rq (Resized l c) ([x1b] ++ B "[8;" ++ sl ++ B ";" ++ sc ++ B "t")
| SH_suspended n : Shows rq (Suspended n) [].

(** Two things about which the same function of the plugin is asked. *)
Inductive SameFunction : happening -> happening -> Prop :=
| SF_moved s d d' : SameFunction (Moved s d) (Moved s d')
| SF_resized l c l' c' : SameFunction (Resized l c) (Resized l' c')
| SF_suspended n n' : SameFunction (Suspended n) (Suspended n').

(** The data that is to be passed on. *)
Definition data_of (ev : happening) : list (stream * bytes) :=
  match ev with Moved s d => [(s, d)] | _ => [] end.

(** A session that began with the data [given] has dealt with the beginning
    [past] of what happened: all of its data was passed on, and the pair was
    sent everything due for it before that. Either nothing else happened, or
    the next thing ended the session and at most a part of it was sent. *)
Definition Watched (rq : request) (h : list happening) {P} (f : front P) (sent : bytes) : Prop :=
  exists past rest outs tail,
    h = past ++ rest /\ f_given f = flat_map data_of past
    /\ Forall2 (Shows rq) past outs /\ sent = List.concat outs ++ tail
    /\ (rq_log rq Stdin = true -> forall d, ~ In (Moved Stdin d) past)
    /\ ((f_live f = true /\ rest = [] /\ tail = [])
        \/ (f_live f = false /\ exists ev rest' out, rest = ev :: rest' /\ Shows rq ev out /\ Prefix tail out)).

(** [Told name display printf evs ended]: [evs] are calls of printf that tell
    the error [display] of the plugin [name] once, up to where it was stopped
    or printf failed; [ended] says whether all of it was dealt with. *)
Definition Told (name display : bytes) (printf : bool) (evs : list event) (ended : Prop) : Prop :=
  let text := [x0a] ++ name ++ B ": " ++ display ++ [x0a] in
  Only (fun x => exists d, x = CPrintf 3 d) evs
  /\ (HonestPrintf evs -> Prefix (printed 3 evs) text)
  /\ (printf = true -> has_nul name = false -> has_nul display = false -> HonestPrintf evs ->
      ~ Exists Failed evs -> ended -> printed 3 evs = text).
