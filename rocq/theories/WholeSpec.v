(** A whole session, from the rules sudo goes by to what the pair sees. *)
From Verif Require Import Base World Sys Io Env Core Spec TraceSpec SessionSpec CallbackSpec Frontend FrontSpec.
Local Open Scope Z_scope.

(** What a pair who is to see all output is sent on account of something that
    happened. *)
Inductive ShowsAll : happening -> bytes -> Prop :=
| SA_output s d : OutputStream s -> ShowsAll (Moved s d) d
| SA_input s d : ~ OutputStream s -> ShowsAll (Moved s d) []
| SA_resized l c sl sc : Decimal l sl -> Decimal c sc ->
    ShowsAll (Resized l c) ([x1b] ++ B "[8;" ++ sl ++ B ";" ++ sc ++ B "t")
| SA_suspended n : ShowsAll (Suspended n) [].

(** [Overseen rq Fit h f evs]: first, somebody who is [Fit] connected to the
    socket that was made for this request, was shown the whole prompt and then
    answered yes. After the opening ([after]), only a beginning of what happened was let
    through, all of whose output went to that connection, in order. Either that
    is all that happened, or the next thing ended the session. *)
Definition Overseen (rq : request) (Fit : cred -> Prop) (h : list happening) {P} (f : front P) (evs : list event) : Prop :=
  exists q e1 b e2 acc e3 rd e4 after peer c past rest outs tail,
    SocketPath rq q /\ evs = e1 ++ b :: e2 ++ acc :: e3 ++ rd :: e4 ++ after
    /\ Creates q b /\ Accepts (k_next (e_pre b)) c peer acc /\ Fit peer
    /\ PairPrompt rq e3 (delivered c e3)
    /\ (Is (CRead c) (AData (B "y")) rd \/ Is (CRead c) (AData (B "Y")) rd)
    /\ reads (e1 ++ b :: e2 ++ acc :: e3) = [] /\ reads e4 = []
    /\ h = past ++ rest /\ f_given f = flat_map data_of past
    /\ Forall2 ShowsAll past outs /\ delivered c after = List.concat outs ++ tail
    /\ ((f_live f = true /\ rest = [] /\ tail = [])
        \/ (f_live f = false /\ exists ev rest' out, rest = ev :: rest' /\ ShowsAll ev out /\ Prefix tail out)).
