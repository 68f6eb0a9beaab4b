(** Model of the function pair of sample/bin/sudo_approve:25-44: the terminal
    of whoever approves, and what reaches the socket. *)
From Verif Require Import Base.
Local Open Scope Z_scope.

(** The settings of a terminal that matter here; [tm_other] stands for all the
    rest. A special character may be disabled. *)
Record termios := mkTermios {
  tm_icanon : bool; tm_echo : bool; tm_isig : bool;
  tm_intr : option byte; tm_quit : option byte; tm_susp : option byte; tm_eof : option byte;
  tm_other : Z
}.

Definition is_char (o : option byte) (b : byte) : bool := match o with Some c => byte_eqb c b | None => false end.

(** What becomes of the connection. [Open]: no more keys so far. *)
Inductive ending := Open | Interrupted | Killed | Paused | EndOfFile.

(** What socat reads from a terminal with these settings while [keys] are
    typed (one byte each), and why it stops. In canonical mode a line is held
    back ([line]) until it is complete. Simplifications: no line editing, no
    translation of carriage returns. *)
Fixpoint typed (t : termios) (line : bytes) (keys : bytes) : bytes * ending :=
  match keys with
  | [] => ([], Open)
  | k :: ks =>
      if tm_isig t && is_char (tm_intr t) k then ([], Interrupted)
      else if tm_isig t && is_char (tm_quit t) k then ([], Killed)
      else if tm_isig t && is_char (tm_susp t) k then ([], Paused)
      else if tm_icanon t then
        if is_char (tm_eof t) k then
          if is_nil line then ([], EndOfFile)
          else let '(s, e) := typed t [] ks in (line ++ s, e)
        else if byte_eqb k x0a then let '(s, e) := typed t [] ks in (line ++ [k] ++ s, e)
        else typed t (line ++ [k]) ks
      else let '(s, e) := typed t line ks in (k :: s, e)
  end.

(** stty cbreak -echo (sudo_approve:35); cbreak is -icanon. *)
Definition stty_cbreak_noecho (t : termios) : termios :=
  mkTermios false false (tm_isig t) (tm_intr t) (tm_quit t) (tm_susp t) (tm_eof t) (tm_other t).
(** stty intr ^D (sudo_approve:38) *)
Definition ctrl_d : byte := x04.
Definition stty_intr (b : byte) (t : termios) : termios :=
  mkTermios (tm_icanon t) (tm_echo t) (tm_isig t) (Some b) (tm_quit t) (tm_susp t) (tm_eof t) (tm_other t).

(** The programs the function runs, which may fail. *)
Inductive program := SttySave | SttyCbreak | SttyIntr | Clear | Socat | SttyRestore.

Record pairing := mkPairing {
  pr_connected : bool;            (* socat reached the socket *)
  pr_sent : bytes;                (* what it sent *)
  pr_ending : option ending;      (* how it ended, if it began *)
  pr_watching : option termios;   (* the settings while it ran *)
  pr_after : option termios       (* the settings when this function is left,
                                     or those in force if it is not *)
}.

(** sudo_approve:25-44. [tty] is [None] if standard input is not a terminal,
    in which case every stty fails. The script runs under errexit (17), and
    its exit runs the trap (30), which also happens when it is interrupted.
    The trap is set up with the settings of that moment; if stty -g fails it
    is the command stty without arguments, which changes nothing. *)
Definition pair_function (ok : program -> bool) (tty : option termios) (keys : bytes) : pairing :=
  let saved := if ok SttySave then tty else None in
  let trap (t : option termios) :=
    match saved, t with Some s, Some _ => if ok SttyRestore then Some s else t | _, _ => t end in
  let give_up t := mkPairing false [] None None (trap t) in
  match tty with
  | None => give_up None
  | Some t0 =>
      if negb (ok SttyCbreak) then give_up (Some t0) else
      let t1 := stty_cbreak_noecho t0 in
      if negb (ok SttyIntr) then give_up (Some t1) else
      let t2 := stty_intr ctrl_d t1 in
      if negb (ok Clear) then give_up (Some t2) else
      if negb (ok Socat) then give_up (Some t2) else
      let '(s, e) := typed t2 [] keys in
      mkPairing true s (Some e) (Some t2)
        match e with Open | Paused => Some t2 | _ => trap (Some t2) end
  end.
