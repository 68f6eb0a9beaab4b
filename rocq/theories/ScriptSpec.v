(** Vocabulary for statements about the approval script and about what is
    shown on the pair's terminal. *)
From Verif Require Import Base World Options Env Core Approve Script Spec.
Local Open Scope Z_scope.

(** In the state [k], the script, run by process [ps] for the session [uid],
    [pid] whose socket is named [p], connects to the socket as process [ps']:
    directly, or after calling itself through sudo once. *)
Inductive Reached (db : database) (k : kernel) (p : path) (groups : Z -> list Z) (uid pid : Z) (ps : process) : process -> Prop :=
| Reached_directly : run_script db k p uid pid ps = Pair -> Reached db k p groups uid pid ps ps
| Reached_as_user v :
    run_script db k p uid pid ps = SudoUser v ->
    run_script db k p uid pid (through_sudo groups ps (SudoUser v)) = Pair ->
    Reached db k p groups uid pid ps (through_sudo groups ps (SudoUser v))
| Reached_as_group g :
    run_script db k p uid pid ps = SudoGroup g ->
    run_script db k p uid pid (through_sudo groups ps (SudoGroup g)) = Pair ->
    Reached db k p groups uid pid ps (through_sudo groups ps (SudoGroup g)).

(** A process started by user [u], not through sudo, or through sudo and with
    the variable it sets. *)
Definition StartedBy (u : Z) (ps : process) : Prop :=
  ps_sudo_uid ps = Some u \/ (ps_sudo_uid ps = None /\ cr_uid (ps_cred ps) = u).

(** ASCII control characters: what makes a terminal do something other than
    show a character. *)
Definition Control (b : byte) : Prop := bz b < 32 \/ bz b = 127.
Definition Printable (s : bytes) : Prop := forall b, In b s -> ~ Control b.
Definition PrintableOpt (o : option bytes) : Prop := forall s, o = Some s -> Printable s.

(** The texts of a request that prompts can show. *)
Record PrintableRequest (rq : request) : Prop := {
  pr_user : Printable (rq_user rq);
  pr_host : Printable (rq_host rq);
  pr_user_cwd : Printable (rq_user_cwd rq);
  pr_policy_cwd : PrintableOpt (rq_policy_cwd rq);
  pr_binary : Printable (rq_binary_path rq);
  pr_progname : Printable (rq_progname rq);
  pr_args : Forall Printable (rq_args rq);
  pr_f_user : PrintableOpt (rq_f_user rq);
  pr_f_group : PrintableOpt (rq_f_group rq);
  pr_f_prompt : PrintableOpt (rq_f_prompt rq);
  pr_f_class : PrintableOpt (rq_f_class rq);
  pr_f_role : PrintableOpt (rq_f_role rq);
  pr_f_type : PrintableOpt (rq_f_type rq);
  pr_f_auth : PrintableOpt (rq_f_auth rq)
}.
