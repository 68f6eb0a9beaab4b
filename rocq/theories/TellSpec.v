(** What the user is told when the arrays handed over by sudo cannot be used. *)
From Verif Require Import Base Options World Env Core Pair Spec TraceSpec.
Local Open Scope Z_scope.

(** A required entry: its key, and which values are acceptable. *)
Definition entry : Type := string * (bytes -> Prop).

Definition AnyText (v : bytes) : Prop := True.
Definition Unsigned32 (v : bytes) : Prop := exists n, UInt 32 v n.
Definition Signed32 (v : bytes) : Prop := exists n, SInt 32 v n.
Definition Unsigned32List (v : bytes) : Prop := exists l, UIntList 32 v l.

(** The required entries, in the order in which they are asked for. *)
Definition SettingsEntries : list entry :=
  [("plugin_dir", AnyText); ("plugin_path", AnyText); ("progname", AnyText)]%string.

Definition UserInfoEntries : list entry :=
  [("cwd", AnyText); ("egid", Unsigned32); ("euid", Unsigned32); ("gid", Unsigned32);
   ("groups", Unsigned32List); ("host", AnyText); ("pgid", Signed32); ("pid", Signed32);
   ("ppid", Signed32); ("uid", Unsigned32); ("user", AnyText)]%string.

(** The array has an acceptable UTF-8 value for the entry. *)
Definition Fine (r : raw) (e : entry) : Prop :=
  exists v, Provides r (B (fst e)) v /\ Utf8 v /\ snd e v.

(** It does not, and this is the complaint. *)
Definition Complaint (r : raw) (e : entry) (text : bytes) : Prop :=
  ((forall v, Provides r (B (fst e)) v -> ~ Utf8 v)
   /\ text = B "sudo called plugin without providing a value for " ++ B (fst e))
  \/ exists v, Provides r (B (fst e)) v /\ Utf8 v /\ ~ snd e v
     /\ text = B "sudo called plugin with an unparseable value for " ++ B (fst e) ++ B ": " ++ v.

(** The complaint about the first entry that is not fine. *)
Definition FirstComplaint (r : raw) (es : list entry) (text : bytes) : Prop :=
  exists before e after,
    es = before ++ e :: after /\ Forall (Fine r) before /\ Complaint r e text.

(** The call came to nothing else than an error report with this text: it
    returned -1 (unless the recording ends first) and left the state alone.
    What has been printed is always a beginning of the report; it is all of it
    if there is a print function and no call failed. *)
Definition ToldAndDenied (a : open_args) (st : pstate SudoPair) (text : bytes)
    (o : outcome (Z * pstate SudoPair)) (evs : list event) : Prop :=
  Only ErrorText evs /\ (o = Stopped \/ o = Done (-1, st))
  /\ (HonestPrintf evs ->
        Prefix (printed 3 evs) ([x0a] ++ B "sudo_pair: " ++ text ++ [x0a])
        /\ (oa_printf a = true -> ~ Exists Failed evs ->
             o = Stopped \/ printed 3 evs = [x0a] ++ B "sudo_pair: " ++ text ++ [x0a])).
