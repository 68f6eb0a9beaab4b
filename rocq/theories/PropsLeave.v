(** Property theorems about a pair who leaves: C92. *)
From Verif Require Import Base Num Path Version Options World Sys Io Socket Env Core Pair Spec TraceSpec SessionSpec CallbackSpec
  RequestProofs PairPure OpenFacts SessionFacts CallbackFacts Samples Worlds PropsSession PropsFront
  Frontend FrontSpec FrontFacts LeaveSpec LeaveFacts.
Local Open Scope Z_scope.

(** *** C92: when the pair has gone *)

(** Whatever is marked is not passed on any more; it ends the session, and so
    does a new window size. *)
Theorem C92_gone : forall pl a rq st c h g w o w' evs,
  PairedSession pl a rq st c ->
  front_steps (exported SudoPair pl) h (mkFront st [] g true) w = (o, w') -> w_trace w' = w_trace w ++ evs -> Gone c evs ->
  match o with
  | Done f => exists past rest, h = past ++ rest /\ f_given f = g ++ flat_map data_of past
      /\ Forall (fun ev => Unseen rq ev \/ exists s, ev = Moved s []) past
      /\ ((f_live f = true /\ rest = []) \/ (f_live f = false /\ exists ev rest', rest = ev :: rest' /\ ~ Unseen rq ev))
  | Panicked => False
  | Stopped => True
  end.
Proof. exact gone_steps. Qed.
Print Assumptions C92_gone.

(** Nothing else does: what is typed goes through, unmarked output comes back,
    and the plugin makes no call that could tell it that nobody watches. *)
Theorem C92_unnoticed : forall pl a rq st c h, PairedSession pl a rq st c -> Forall (Unseen rq) h -> forall g w,
  front_steps (exported SudoPair pl) h (mkFront st [] g true) w = (Done (mkFront st [] (g ++ flat_map data_of h) true), w).
Proof. exact unseen_steps. Qed.
Print Assumptions C92_unnoticed.

(** sample/etc/sudo_pair.prompt.pair:7 promises that the command terminates
    immediately; here, that it does not survive the next thing to happen. *)
Definition C92_full : Prop := forall pl a rq st c ev g w f w' evs,
  PairedSession pl a rq st c ->
  front_steps (exported SudoPair pl) [ev] (mkFront st [] g true) w = (Done f, w') ->
  w_trace w' = w_trace w ++ evs -> Gone c evs -> f_live f = false.

(** The pair has gone, "x" is typed; then there is output. *)
Definition left_world : world := mkWorld (w_k (snd yes_run))
  [t AOk; t AOk; t (AErr 32); t AOk; t (ANum 1); t (ANum 11); t (ANum 53); t (ANum 1)] [].
Definition left_run : outcome (front SudoPair) * world :=
  front_steps (exported SudoPair release) [Moved Ttyin (B "x"); Moved Ttyout (B "x"); Moved Ttyin (B "y")]
    (mkFront yes_state [] [] true) left_world.
Definition remains (r : outcome (front SudoPair) * world) : option (list (stream * bytes) * bool) :=
  match fst r with Done f => Some (f_given f, f_live f) | _ => None end.

Lemma left_gone : Gone 0 (w_trace (snd left_run)).
Proof.
  assert (K : forallb (fun ev => match e_call ev, e_ans ev with CWrite _ _, AErr _ => true | CWrite _ _, _ => false | _, _ => true end)
                (w_trace (snd left_run)) = true) by (vm_compute; reflexivity).
  intros ev d HI E. rewrite forallb_forall in K. specialize (K ev HI). rewrite E in K.
  clear HI. destruct (e_ans ev) as [|e| |]; try discriminate K. exists e. reflexivity.
Qed.

Example C92_example : PairedSession release to_root to_root_rq yes_state 0
  /\ Gone 0 (w_trace (snd left_run)) /\ remains left_run = Some ([(Ttyin, B "x")], false)
  /\ existsb (fun ev => match e_call ev with CWrite 0 _ => true | _ => false end) (w_trace (snd left_run)) = true
  /\ Forall (Unseen to_root_rq) [Moved Ttyin (B "x"); Suspended 20; Moved Ttyin (B "y")].
Proof.
  split; [exact yes_paired|]. split; [exact left_gone|]. split; [vm_compute; reflexivity|]. split; [vm_compute; reflexivity|].
  repeat constructor.
Qed.

Theorem C92_refuted : exists pl a rq st c ev w f, PairedSession pl a rq st c
  /\ front_steps (exported SudoPair pl) [ev] (mkFront st [] [] true) w = (Done f, w)
  /\ f_live f = true /\ f_given f = data_of ev /\ data_of ev <> [].
Proof.
  exists release, to_root, to_root_rq, yes_state, 0%nat, (Moved Ttyin (B "x")), left_world, (mkFront yes_state [] [(Ttyin, B "x")] true).
  split; [exact yes_paired|].
  split; [apply (unseen_steps release to_root to_root_rq yes_state 0 [Moved Ttyin (B "x")] yes_paired); repeat constructor|].
  split; [reflexivity|]. split; [reflexivity|discriminate].
Qed.
Print Assumptions C92_refuted.

Theorem C92_not_full : ~ C92_full.
Proof.
  intros F. destruct C92_refuted as (pl & a & rq & st & c & ev & w & f & P & R & L & _).
  assert (G : Gone c []) by (intros x d []).
  specialize (F pl a rq st c ev [] w f w [] P R (eq_sym (app_nil_r _)) G). congruence.
Qed.
Print Assumptions C92_not_full.
