(** Property theorems about what a session as sudo runs it depends on: C91. *)
From Verif Require Import Base Num Path Version Options World Sys Io Socket Env Core Pair Spec RequestProofs SessionFacts
  Samples Worlds SameSpec SameFacts PropsSame Frontend FrontSpec PropsFront SessionRun SessionRunFacts.
Local Open Scope Z_scope.

(** Arguments that describe the same request: the same calls, with the same
    effects, and the same data passed on to the command and to the user. *)
Theorem C91_session : forall pl a b rq rq', Describes pl a rq -> Describes pl b rq' -> Alike rq rq' ->
  ~ MasklessAddr pl (oa_settings a) -> ~ MasklessAddr pl (oa_settings b) -> forall h x err w,
  session (exported SudoPair pl) a h x err w = session (exported SudoPair pl) b h x err w.
Proof. exact same_session. Qed.
Print Assumptions C91_session.

(** Further entries and the user's environment. *)
Theorem C91_session_entries : forall pl a a', PaddedArgs a a' -> forall h x err w,
  session (exported SudoPair pl) a h x err w = session (exported SudoPair pl) a' h x err w.
Proof. exact padded_session. Qed.
Print Assumptions C91_session_entries.

(** The arguments of the examples of C91 in the session of C90. *)
Definition outcome_of {A} (r : outcome (option (list (stream * bytes) * bool * list slot)) * A)
  : option (list (stream * bytes) * bool) :=
  match fst r with Done (Some (g, l, _)) => Some (g, l) | _ => None end.
Definition mixed : list happening := [Moved Stdout (B "hello"); Suspended 20; Moved Ttyin (B "typed"); Resized 24 80].
Definition mixed_world : world := world_of k_root (w_script yes_world ++ write_turns 5 ++ write_turns 10 ++ [t AOk; t AOk; t AOk]).
Example C91_session_example :
  Describes release to_root to_root_rq
  /\ Describes release to_root_again (with_log to_root_rq (fun _ => true))
  /\ Alike to_root_rq (with_log to_root_rq (fun _ => true))
  /\ ~ MasklessAddr release (oa_settings to_root) /\ ~ MasklessAddr release (oa_settings to_root_again)
  /\ PaddedArgs to_root to_root_more
  /\ Forall (fun a => outcome_of (session (exported SudoPair release) a mixed 0 0 mixed_world)
                      = Some ([(Stdout, B "hello"); (Ttyin, B "typed")], true)) [to_root; to_root_again; to_root_more].
Proof.
  destruct C91_request_example as (H1 & H2 & H3 & H4 & H5 & _).
  split; [exact H1|]. split; [exact H2|]. split; [exact H3|]. split; [exact H4|]. split; [exact H5|].
  split. { pose proof (proj1 C91_other_entries_example) as P. inversion P as [|? ? ? ? K _]; subst. inversion K; subst; assumption. }
  repeat (apply Forall_cons; [vm_compute; reflexivity|]). apply Forall_nil.
Qed.
