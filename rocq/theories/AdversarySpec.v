(** Vocabulary for statements about hostile processes: who acts between the
    plugin's calls, and what keeps them away from the socket's name. *)
From Verif Require Import Base Path World Sys Spec.
Local Open Scope Z_scope.

(** Whatever happens between two calls of the plugin satisfies [P]. *)
Definition Everyone (P : cred -> action -> Prop) (w : world) : Prop :=
  Forall (fun t : turn => Forall (fun ca => P (fst ca) (snd ca)) (fst t)) (w_script w).

(** Neither privileged, nor running as sudo, nor able to act as [uid]. *)
Definition UserOutsider (euid uid : Z) (c : cred) : Prop :=
  cr_priv c = false /\ cr_uid c <> euid /\ cr_uid c <> uid.

(** Neither privileged, nor running as sudo, nor a member of [gid]. *)
Definition GroupOutsider (euid gid : Z) (c : cred) : Prop :=
  cr_priv c = false /\ cr_uid c <> euid /\ ~ In gid (cr_gids c).

(** Neither privileged nor running as sudo. *)
Definition Unprivileged (euid : Z) (c : cred) : Prop := cr_priv c = false /\ cr_uid c <> euid.

Definition OnlyConnects (a : action) : Prop := exists p, a = Connect p.

(** No process in [T] can alter the name [q], nor any of the names [S] that
    lead to it: [S] holds the directory of [q], the directories above it, and
    the targets of the symbolic links among them; the directories that contain
    these names belong to others and are not writable for [T]. *)
Record GuardedBy (T : cred -> Prop) (S : path -> Prop) (q : path) (k : kernel) : Prop := {
  gd_dir : S (dir_path q);
  gd_self : ~ S q;
  gd_up : forall p, S p -> S (dir_path p);
  gd_link : forall p n t, S p -> k_names k p = Some n -> i_kind (k_inodes k n) = KLink t -> S t;
  gd_known : forall p n, S p -> k_names k p = Some n -> (n < k_next k)%nat;
  gd_safe : forall p d c, S p \/ p = q -> dir_inode k p = Some d -> T c ->
    cr_priv c = false /\ cr_uid c <> i_uid (k_inodes k d) /\ may_write c (k_inodes k d) = false
}.

Definition Guarded (T : cred -> Prop) (q : path) (k : kernel) : Prop := exists S, GuardedBy T S q k.

(** The states of the kernel from the call [b] on, when the calls [e2] follow
    and [k'] is the last state: before and after each call, and at the end.
    The end is also the point at which a run that was cut short stopped. *)
Definition Afterwards (k' : kernel) (b : event) (e2 : list event) (k : kernel) : Prop :=
  k = e_post b \/ k = k' \/ exists ev, In ev e2 /\ (k = e_pre ev \/ k = e_post ev).

(** [p] is another name in the directory of [q]. *)
Definition Beside (q p : path) : Prop := p <> [] /\ q <> [] /\ dir_path p = dir_path q /\ p <> q.

Definition PlainFile (kd : kind) : Prop := match kd with KDir | KLink _ => False | _ => True end.
