(** Model of sample/bin/sudo_approve at the level of its textual arguments:
    how they become the path of a socket, what the shell runs while reading
    them, and what happens when the script calls itself through sudo. The
    decision between connecting, calling sudo and refusing is [approve]
    (Approve.v). *)
From Verif Require Import Base Num Path World Approve.
Local Open Scope Z_scope.

(** Bash assigns to an integer variable ([declare -i], sudo_approve:53-59) by
    evaluating the text as an arithmetic expression. Three forms are given a
    meaning: a decimal numeral, possibly negative, without leading zeros; an
    octal numeral, with a leading zero; and an element of an array whose
    subscript is a command substitution. Everything else is [AUnknown]. *)
Inductive arith :=
| ANumber (z : Z)
| ARuns (command : bytes)
| AUnknown.

(** Bash computes in 64 bits. *)
Definition wrap64 (z : Z) : Z :=
  (z + 9223372036854775808) mod 18446744073709551616 - 9223372036854775808.

Fixpoint radix_value (r acc : Z) (l : bytes) : option Z :=
  match l with
  | [] => Some acc
  | c :: l' =>
      match digit c with
      | Some d => if d <? r then radix_value r (acc * r + d) l' else None
      | None => None
      end
  end.

Definition bash_numeral (l : bytes) : option Z :=
  match l with
  | [] => Some 0
  | c :: l' =>
      if byte_eqb c "0" && negb (is_nil l') then option_map wrap64 (radix_value 8 0 l')
      else option_map wrap64 (radix_value 10 0 l)
  end.

Definition is_alpha (b : byte) : bool :=
  ((65 <=? bz b) && (bz b <=? 90)) || ((97 <=? bz b) && (bz b <=? 122)) || (bz b =? 95).

(** name[$(command)] *)
Definition subscript (l : bytes) : option bytes :=
  let '(name, rest) := span (fun b => negb (is_alpha b)) l in
  if is_nil name then None
  else
    match rest with
    | a :: b :: c :: r =>
        if byte_eqb a "[" && byte_eqb b "$" && byte_eqb c "(" then
          let '(cmd, tl) := span (fun x => byte_eqb x "(" || byte_eqb x ")") r in
          if bytes_eqb tl (B ")]") then Some cmd else None
        else None
    | _ => None
    end.

Definition bash_arith (l : bytes) : arith :=
  match (match l with
         | c :: r => if byte_eqb c "-" && negb (is_nil r) then option_map (fun z => wrap64 (- z)) (bash_numeral r)
                     else bash_numeral l
         | [] => bash_numeral l
         end) with
  | Some z => ANumber z
  | None => match subscript l with Some cmd => ARuns cmd | None => AUnknown end
  end.

(** sudo_approve:23 *)
Definition SUDO_SOCKET_PATH : bytes := B "/var/run/sudo_pair".

(** sudo_approve:53-54, 62: the path of the socket, from the two arguments. *)
Definition script_socket (uid pid : bytes) : option bytes :=
  match bash_arith uid, bash_arith pid with
  | ANumber u, ANumber p => Some (SUDO_SOCKET_PATH ++ B "/" ++ to_dec u ++ B "." ++ to_dec p ++ B ".sock")
  | _, _ => None
  end.

(** sudo_approve:53-54: the commands run on account of the arguments. [None]
    if one of them is not understood here. Under errexit the second is not
    reached if the first fails; the command has then been run already. *)
Definition script_commands (uid pid : bytes) : option (list bytes) :=
  match bash_arith uid with
  | ARuns c => Some [c]
  | ANumber _ => match bash_arith pid with ARuns c => Some [c] | ANumber _ => Some [] | AUnknown => None end
  | AUnknown => None
  end.

(** A process running the script: its credentials, and SUDO_UID. *)
Record process := mkProcess { ps_cred : cred; ps_sudo_uid : option Z }.

(** The users and groups that getent knows. *)
Record database := mkDatabase { db_user : Z -> bool; db_group : Z -> bool }.

(** sudo_approve:51-105 in the state [k], for the socket named [p]. stat and
    [ -w ] find what the process running the script can find. *)
Definition run_script (db : database) (k : kernel) (p : path) (uid pid : Z) (ps : process) : decision :=
  let s := option_map (k_inodes k) (finds k (ps_cred ps) p) in
  let on f := match s with Some i => f i | None => false end in
  approve_main [uid; pid] (ps_sudo_uid ps) (cr_uid (ps_cred ps)) (on (may_write (ps_cred ps))) s
    (on (fun i => db_user db (i_uid i) && db_group db (i_gid i))).

(** sudo_approve:97-100: the process in which sudo runs the script again.
    [groups] are the groups of the target user. sudo sets SUDO_UID to the
    user who called it. *)
Definition through_sudo (groups : Z -> list Z) (ps : process) (d : decision) : process :=
  match d with
  | SudoUser v => mkProcess (mkCred v (groups v) (v =? 0)) (Some (cr_uid (ps_cred ps)))
  | SudoGroup g => mkProcess (mkCred (cr_uid (ps_cred ps)) (g :: cr_gids (ps_cred ps)) (cr_priv (ps_cred ps)))
                             (Some (cr_uid (ps_cred ps)))
  | _ => ps
  end.
