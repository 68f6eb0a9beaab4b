(** What a session should leave behind: nothing. *)
From Verif Require Import Base World TraceSpec.
Local Open Scope Z_scope.

(** A process that has just been started: it listens nowhere, its mask is one,
    and its connections are among those made so far. *)
Definition Fresh (k : kernel) : Prop :=
  k_listen k = None /\ 0 <= k_umask k < 512 /\ forall c, In c (k_open k) -> (c < List.length (k_conns k))%nat.

(** Once the socket [q] has been created, looking it up and removing it works. *)
Definition CanTidy (q : path) (evs : list event) : Prop :=
  forall e1 b e2, evs = e1 ++ b :: e2 -> Creates q b ->
  forall ev, In ev e2 -> e_call ev = CStat q \/ e_call ev = CUnlink q -> e_ans ev = AOk.

(** The process itself: its mask, its disposition of SIGINT, its listening
    socket and its connections are what they were. *)
Definition ProcessRestored (k k' : kernel) : Prop :=
  k_umask k' = k_umask k /\ k_sigint k' = k_sigint k /\ k_listen k' = None
  /\ forall c, In c (k_open k') <-> In c (k_open k).

(** [k'] is [k] again: the mask, the disposition of SIGINT, the connections,
    and the files, but for a socket that may have been at [q] and was removed.
    The attributes of the inode that was unused in [k] do not matter. *)
Record Restored (q : path) (k k' : kernel) : Prop := {
  rs_umask : k_umask k' = k_umask k;
  rs_sigint : k_sigint k' = k_sigint k;
  rs_listen : k_listen k' = None;
  rs_open : forall c, In c (k_open k') <-> In c (k_open k);
  rs_names : forall p, p <> q -> k_names k' p = k_names k p;
  rs_socket : k_names k' q = None
              \/ k_names k' q = k_names k q;
  rs_inodes : forall m, m <> k_next k -> k_inodes k' m = k_inodes k m }.
