(** Vocabulary for statements about a session: the request's socket and
    prompts, in terms of the request and of the calls made. *)
From Verif Require Import Base Path World Options Sys Io Env Core Spec TraceSpec.
Local Open Scope Z_scope.

(** The socket path, as a list of components: a child of socket_dir. *)
Definition SocketPath (rq : request) (q : path) : Prop :=
  exists n, SocketName rq n /\ q = components (rq_socket_dir rq) ++ [Normal n].

(** The prompt for the pair: the contents of the template file if it was read
    in [evs], else the default template, expanded for the request. *)
Definition PairPrompt (rq : request) (evs : list event) (out : bytes) : Prop :=
  exists t, TemplateFrom (rq_pair_prompt_path rq)
              (B "%U@%h:%d$ %C" ++ [x0a] ++ B "y/n? [n]: ") evs t
            /\ Expands "%" (Directive rq) t out.

(** The prompt for the requesting user. *)
Definition UserPrompt (rq : request) (evs : list event) (out : bytes) : Prop :=
  exists t, TemplateFrom (rq_user_prompt_path rq) (B "%B %u %p" ++ [x0a]) evs t
            /\ Expands "%" (Directive rq) t out.

(** The calls in [evs] are an approval on connection [c]: the request's socket
    was created, a peer that came through it was accepted, the whole prompt
    was delivered to it, and the one byte then read from it was a yes. *)
Definition Approved (rq : request) (c : nat) (evs : list event) : Prop :=
  exists q e1 b e2 acc e3 rd e4 peer,
    SocketPath rq q
    /\ evs = e1 ++ b :: e2 ++ acc :: e3 ++ rd :: e4
    /\ Creates q b
    /\ Accepts (k_next (e_pre b)) c peer acc
    /\ PairPrompt rq e3 (delivered c e3)
    /\ (Is (CRead c) (AData (B "y")) rd \/ Is (CRead c) (AData (B "Y")) rd)
    /\ reads (e1 ++ b :: e2 ++ acc :: e3) = [] /\ reads e4 = [].
