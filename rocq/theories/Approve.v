(** Model of the decision made by sample/bin/sudo_approve:51-105. The script's
    effects are the value of [decision]; what stat(1), id(1), [ -w ] and the
    environment report are arguments. *)
From Verif Require Import Base World.
Local Open Scope Z_scope.

Inductive decision :=
| Usage                       (* wrong number of arguments: exit 1 *)
| NotFound                    (* stat fails: exit 1 *)
| NoName                      (* getent fails: exit 2 *)
| RefuseSelf                  (* exit 1 *)
| Pair                        (* socat to the socket *)
| SudoUser (uid : Z)          (* sudo -u <owner of the socket> *)
| SudoGroup (gid : Z)         (* sudo -g <group of the socket> *)
| NotWritable.                (* exit 2 *)

(** sample/bin/sudo_approve:51-105. [sudo_uid] is the SUDO_UID variable, [id_u]
    what `id -u` prints (both already numbers), [writable] is `[ -w socket ]`,
    [sock] what stat reports, if it finds the socket, [named] whether getent
    knows the socket's owner and group. The script runs under errexit and
    pipefail, so it stops at the first of these that fails. Simplification:
    owner and group are identified by number where the script goes through
    their names. *)
Definition approve (sudo_uid : option Z) (id_u uid : Z) (writable : bool) (sock : option inode) (named : bool) : decision :=
  let ruid := match sudo_uid with Some u => u | None => id_u end in
  match sock with
  | None => NotFound
  | Some s =>
      if negb named then NoName
      else if uid =? ruid then RefuseSelf
      else if writable then Pair
      else if negb (Z.land (i_perm s) 128 =? 0) then SudoUser (i_uid s)
      else if negb (Z.land (i_perm s) 16 =? 0) then SudoGroup (i_gid s)
      else NotWritable
  end.

(** sample/bin/sudo_approve:107-110 *)
Definition approve_main (args : list Z) (sudo_uid : option Z) (id_u : Z)
  (writable : bool) (sock : option inode) (named : bool) : decision :=
  match args with
  | [uid; _] => approve sudo_uid id_u uid writable sock named
  | _ => Usage
  end.
