(** Model of examples/raw_plugin_api/src/lib.rs. *)
From Verif Require Import Base Version.
Local Open Scope Z_scope.

(** lib.rs:77-79: the statics (the conversation function is never used). *)
Record raw_state := mkRaw { r_print : bool; r_version : option Z }.
Definition raw0 : raw_state := mkRaw false None.

(** lib.rs:81-82 *)
Definition VERSION_MSG := B "Deny Everything version 1.0" ++ [x0a].
Definition ERRSTR := B "deny_everything: denied" ++ [x0a].

(** What a callback did: return code, texts printed, and *errstr if it was
    written. *)
Record raw_out := mkOut { o_ret : Z; o_printed : list bytes; o_errstr : option bytes }.

(** lib.rs:84-101 *)
Definition raw_open (version : Z) (printf : bool) (st : raw_state) : raw_out * raw_state :=
  (mkOut 1 [] None, mkRaw printf (Some version)).

(** lib.rs:103-122 *)
Definition raw_check (st : raw_state) : raw_out :=
  if negb (r_print st) then mkOut 0 [] None
  else
    mkOut 0 [ERRSTR]
      (match r_version st with
       | Some v => if sudo_api_mkversion 1 17 <=? v then Some ERRSTR else None
       | None => None
       end).

(** lib.rs:124-134 *)
Definition raw_show_version (st : raw_state) : raw_out :=
  if negb (r_print st) then mkOut 0 [] None else mkOut 1 [VERSION_MSG] None.

Inductive raw_callback :=
| RawOpen (version : Z) (printf : bool)
| RawCheck
| RawShowVersion (verbose : Z).

Definition raw_step (st : raw_state) (c : raw_callback) : raw_out * raw_state :=
  match c with
  | RawOpen v p => raw_open v p st
  | RawCheck => (raw_check st, st)
  | RawShowVersion _ => (raw_show_version st, st)
  end.

Fixpoint raw_run (st : raw_state) (h : list raw_callback) : list raw_out * raw_state :=
  match h with
  | [] => ([], st)
  | c :: h' => let (o, st1) := raw_step st c in
               let (os, st2) := raw_run st1 h' in (o :: os, st2)
  end.
