(** The sample prompt templates, byte for byte, and how a terminal paints text.

    sample/etc/sudo_pair.prompt.user (all 7 lines) and
    sample/etc/sudo_pair.prompt.pair (all 9 lines; the last has no newline). *)
From Verif Require Import Base Num Options Spec.
Local Open Scope Z_scope.

Definition bold : bytes := [x1b] ++ B "[1m".
Definition red : bytes := [x1b] ++ B "[31m".
Definition blue : bytes := [x1b] ++ B "[34m".
Definition plainly : bytes := [x1b] ++ B "[0m".

(** sample/etc/sudo_pair.prompt.user:1-7 *)
Definition sample_user : bytes :=
  B "Due to security and compliance requirements, this `sudo` session will require approval and monitoring." ++ [x0a]
  ++ [x0a]
  ++ B "To continue, another human must run:" ++ [x0a]
  ++ [x0a]
  ++ B "    docker exec -it %h '%B %u %p'" ++ [x0a]
  ++ [x0a]
  ++ B "If a suitable human is not available and you have an immediate and urgent need to run this command, you may run the above command to approve your own session. "
  ++ bold ++ B "Note that doing so will immediately page an oncall security engineer, so this capability should only be used in the event of an emergency."
  ++ plainly ++ [x0a].

(** sample/etc/sudo_pair.prompt.pair:1-9 *)
Definition sample_pair : bytes :=
  B "You have been asked to approve and monitor the following sudo session:" ++ [x0a]
  ++ [x0a]
  ++ B "    <" ++ bold ++ blue ++ B "%U" ++ plainly ++ B "@" ++ bold ++ red ++ B "%h" ++ plainly ++ B ":"
  ++ bold ++ blue ++ B "%d" ++ plainly ++ B " " ++ red ++ B "$" ++ plainly ++ B " > %C" ++ [x0a]
  ++ [x0a]
  ++ B "Once approved, this terminal will mirror all output from the active sudo session until its completion." ++ [x0a]
  ++ [x0a]
  ++ bold ++ B "Closing this terminal, losing your network connection to this host, or explicitly ending the session by typing <Ctrl-D> will cause the command being run under elevated privileges to terminate immediately."
  ++ plainly ++ [x0a]
  ++ [x0a]
  ++ B "Approve? y/n [n]: ".

(** A terminal, as far as "select graphic rendition" goes (ECMA-48 8.3.117):
    [ESC [ p m] adds the rendition [p], and an empty [p] or 0 takes all of them
    back. Other sequences are swallowed without effect. *)
Inductive tmode := Ground | Escaped | Sequence (p : bytes).
Definition style := list bytes.

Definition restyle (p : bytes) (st : style) : style :=
  if bytes_eqb p [] || bytes_eqb p (B "0") then [] else st ++ [p].

Fixpoint paint (m : tmode) (st : style) (s : bytes) : list (byte * style) :=
  match s with
  | [] => []
  | c :: s' =>
      match m with
      | Ground => if byte_eqb c x1b then paint Escaped st s' else (c, st) :: paint Ground st s'
      | Escaped => if byte_eqb c "[" then paint (Sequence []) st s' else paint Ground st s'
      | Sequence p =>
          if match digit c with Some _ => true | None => false end || byte_eqb c ";" then paint (Sequence (p ++ [c])) st s'
          else if byte_eqb c "m" then paint Ground (restyle p st) s' else paint Ground st s'
      end
  end.

(** What is seen on the terminal. *)
Definition painted (s : bytes) : list (byte * style) := paint Ground [] s.
(** The text [s] in style [st]. *)
Definition in_style (st : style) (s : bytes) : list (byte * style) := map (fun c => (c, st)) s.

(** The directory that the prompts show: where the command is to run if the
    policy says so, else where the user is. *)
Definition Directory (rq : request) (d : bytes) : Prop :=
  rq_policy_cwd rq = Some d \/ rq_policy_cwd rq = None /\ d = rq_user_cwd rq.
