(** The part of sudoers(5) that sample/etc/sudoers.d/sudo_pair and the examples
    of README.md:90-100 use: who may run what as whom, and whether its output
    is to be logged. Simplifications: users and groups are given by number;
    hosts (always ALL in these files), passwords and NOPASSWD play no part;
    commands are full paths without arguments; -u and -g together are left
    out; a group has to be listed even when the user is a member of it. *)
From Verif Require Import Base World Options Sys Io Env Core Spec Approve Script.
Local Open Scope Z_scope.

(** A user or, with a percent sign, the members of a group. *)
Inductive who := WUser (u : Z) | WGroup (g : Z).

(** who ALL = (users : groups) tag: commands. [None] is ALL in a list, and the
    absence of a tag; the tag is LOG_OUTPUT or NOLOG_OUTPUT. *)
Record rule := mkRule {
  ru_who : who; ru_users : option (list Z); ru_groups : list Z;
  ru_tag : option bool; ru_commands : option (list bytes) }.

(** Whether there is a line "Defaults log_output", and the rules. *)
Record sudoers := mkSudoers { sd_log_output : bool; sd_rules : list rule }.

(** sample/etc/sudoers.d/sudo_pair:1
    nobody ALL = (: games) NOPASSWD: LOG_OUTPUT: ALL *)
Definition sample_sudoers (nobody games : Z) : sudoers :=
  mkSudoers false [mkRule (WUser nobody) (Some []) [games] (Some true) None].

(** README.md:91-93
    Defaults log_output
    %wheel ALL = (ALL) NOLOG_OUTPUT: /bin/cat, /bin/ls *)
Definition readme_opt_out (wheel : Z) : sudoers :=
  mkSudoers true [mkRule (WGroup wheel) None [] (Some false) (Some [B "/bin/cat"; B "/bin/ls"])].

(** The same after the rule it is an exception to, which README.md:84-87 takes
    for granted: %wheel ALL = (ALL) ALL *)
Definition with_exception (wheel : Z) : sudoers :=
  mkSudoers true (mkRule (WGroup wheel) None [] None None :: sd_rules (readme_opt_out wheel)).

(** README.md:99
    %wheel ALL = (ALL) LOG_OUTPUT: /usr/bin/visudo *)
Definition readme_opt_in (wheel : Z) : sudoers :=
  mkSudoers false [mkRule (WGroup wheel) None [] (Some true) (Some [B "/usr/bin/visudo"])].

(** sudo -u user, sudo -g group *)
Inductive target := AsUser (u : Z) | AsGroup (g : Z).

Definition Listed {A} (x : A) (o : option (list A)) : Prop := match o with None => True | Some l => In x l end.

Definition Applies (w : who) (u : Z) (gids : list Z) : Prop :=
  match w with WUser v => u = v | WGroup g => In g gids end.

(** With -g alone the user stays the same; the rule has to allow that, or to
    name no users. *)
Definition Permits (r : rule) (u : Z) (gids : list Z) (command : bytes) (t : target) : Prop :=
  Applies (ru_who r) u gids /\ Listed command (ru_commands r)
  /\ match t with
     | AsUser v => Listed v (ru_users r)
     | AsGroup g => In g (ru_groups r) /\ (ru_users r = Some [] \/ Listed u (ru_users r))
     end.

(** The last rule that permits it decides about the tags. *)
Definition Governs (sd : sudoers) (u : Z) (gids : list Z) (command : bytes) (t : target) (r : rule) : Prop :=
  exists l1 l2, sd_rules sd = l1 ++ r :: l2 /\ Permits r u gids command t
    /\ Forall (fun r' => ~ Permits r' u gids command t) l2.

Definition May (sd : sudoers) (u : Z) (gids : list Z) (command : bytes) (t : target) : Prop :=
  exists r, Governs sd u gids command t r.

Definition logs (sd : sudoers) (r : rule) : bool := match ru_tag r with Some b => b | None => sd_log_output sd end.

(** sudo grants the request on account of rule [r], and tells the plugin to
    log the output accordingly: log_output stands for the output of the
    terminal, standard output and standard error. *)
Definition Grants (sd : sudoers) (rq : request) (r : rule) : Prop :=
  exists t, Governs sd (rq_uid rq) (rq_gid rq :: rq_groups rq) (rq_command rq) t r
  /\ match t with
     | AsUser v => rq_to_uid rq = v /\ rq_f_group rq = None
     | AsGroup g => rq_to_uid rq = rq_uid rq /\ rq_to_gid rq = g /\ rq_f_group rq <> None
     end
  /\ forall s, In s [Ttyout; Stdout; Stderr] -> rq_log rq s = logs sd r.

(** The approval script (sudo_approve:95-101) as process [ps], when sudo goes
    by [sd] and finds the script at [bin]: the process that connects. *)
Inductive ReachedUnder (sd : sudoers) (bin : bytes) (db : database) (k : kernel) (p : path) (groups : Z -> list Z)
  (uid pid : Z) (ps : process) : process -> Prop :=
| RU_directly : run_script db k p uid pid ps = Pair -> ReachedUnder sd bin db k p groups uid pid ps ps
| RU_user v :
    run_script db k p uid pid ps = SudoUser v -> May sd (cr_uid (ps_cred ps)) (cr_gids (ps_cred ps)) bin (AsUser v) ->
    run_script db k p uid pid (through_sudo groups ps (SudoUser v)) = Pair ->
    ReachedUnder sd bin db k p groups uid pid ps (through_sudo groups ps (SudoUser v))
| RU_group g :
    run_script db k p uid pid ps = SudoGroup g -> May sd (cr_uid (ps_cred ps)) (cr_gids (ps_cred ps)) bin (AsGroup g) ->
    run_script db k p uid pid (through_sudo groups ps (SudoGroup g)) = Pair ->
    ReachedUnder sd bin db k p groups uid pid ps (through_sudo groups ps (SudoGroup g)).
