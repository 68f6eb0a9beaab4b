(** The environment of the plugin: a small Unix kernel, the other processes of
    the machine, and the calls the plugin makes.

    Nothing here models a function of /repo. It fixes what the system calls
    made by sudo_pair/src/socket.rs, sudo_pair/src/lib.rs and
    sudo_plugin/src/output/ do, and what may happen between them. Everything
    the plugin does not control -- which calls fail and how, how many bytes a
    write accepts, what the peer sends, what other processes do in between --
    is an input (the [script]), over which the theorems quantify.

    Simplifications, all of which the theorems inherit:
    - a file name is a list of path components; only a symbolic link in the
      last component is followed, and renaming a directory does not rename
      what is below it;
    - inode numbers are never reused;
    - the sticky bit protects nothing (this only gives other processes more
      power); a name that leads nowhere does not keep anybody from what is
      below it;
    - one call of the plugin is atomic; other processes act between calls. *)
From Verif Require Import Base Path.
Local Open Scope Z_scope.

(** ** Files *)

Definition path := list component.

Inductive kind :=
| KReg | KDir | KSock | KBlk | KChr | KFifo
| KLink (target : path).

Record inode := mkInode { i_kind : kind; i_uid : Z; i_gid : Z; i_perm : Z }.

(** The file-type bits of [st_mode] (<sys/stat.h>). *)
Definition S_IFIFO  := 4096.   (* 0o010000 *)
Definition S_IFCHR  := 8192.   (* 0o020000 *)
Definition S_IFDIR  := 16384.  (* 0o040000 *)
Definition S_IFBLK  := 24576.  (* 0o060000 *)
Definition S_IFREG  := 32768.  (* 0o100000 *)
Definition S_IFLNK  := 40960.  (* 0o120000 *)
Definition S_IFSOCK := 49152.  (* 0o140000 *)

(** Permission bits (<sys/stat.h>). *)
Definition S_IWUSR := 128.     (* 0o200 *)
Definition S_IWGRP := 16.      (* 0o020 *)
Definition S_IWOTH := 2.       (* 0o002 *)
Definition S_IRWXU := 448.     (* 0o700 *)
Definition S_IRWXG := 56.      (* 0o070 *)
Definition S_IRWXO := 7.       (* 0o007 *)

Definition type_bits (k : kind) : Z :=
  match k with
  | KReg => S_IFREG | KDir => S_IFDIR | KSock => S_IFSOCK | KBlk => S_IFBLK
  | KChr => S_IFCHR | KFifo => S_IFIFO | KLink _ => S_IFLNK
  end.

(** [st_mode] as stat(2) reports it. *)
Definition st_mode (i : inode) : Z := Z.lor (type_bits (i_kind i)) (i_perm i).

(** ** Processes *)

(** [cr_priv]: bypasses permission checks (root, CAP_DAC_OVERRIDE...). *)
Record cred := mkCred { cr_uid : Z; cr_gids : list Z; cr_priv : bool }.

Definition mem_z (x : Z) (l : list Z) : bool := existsb (Z.eqb x) l.

(** Unix write permission: only the most specific class counts. *)
Definition may_write (c : cred) (i : inode) : bool :=
  cr_priv c ||
  (if cr_uid c =? i_uid i then negb (Z.land (i_perm i) S_IWUSR =? 0)
   else if mem_z (i_gid i) (cr_gids c) then negb (Z.land (i_perm i) S_IWGRP =? 0)
   else negb (Z.land (i_perm i) S_IWOTH =? 0)).

(** Unix search permission on a directory, likewise. *)
Definition S_IXUSR := 64.      (* 0o100 *)
Definition S_IXGRP := 8.       (* 0o010 *)
Definition S_IXOTH := 1.       (* 0o001 *)
Definition may_search (c : cred) (i : inode) : bool :=
  cr_priv c ||
  (if cr_uid c =? i_uid i then negb (Z.land (i_perm i) S_IXUSR =? 0)
   else if mem_z (i_gid i) (cr_gids c) then negb (Z.land (i_perm i) S_IXGRP =? 0)
   else negb (Z.land (i_perm i) S_IXOTH =? 0)).

(** ** Kernel state *)

(** A signal disposition: the SA_RESTART flag, and everything else. *)
Record sigact := mkSigact { sa_restart : bool; sa_rest : Z }.

(** The plugin's listening socket: its descriptor, its inode once bound,
    whether listen(2) was called, and the queue of connecting processes. *)
Record listener := mkListener {
  l_fd : Z; l_ino : option nat; l_on : bool; l_queue : list cred
}.

Record kernel := mkKernel {
  k_names : path -> option nat;     (* directory entries *)
  k_inodes : nat -> inode;          (* attributes *)
  k_next : nat;                     (* next unused inode number *)
  k_umask : Z;
  k_sigint : sigact;
  k_listen : option listener;
  k_conns : list cred;              (* peers of the connections made so far *)
  k_open : list nat                 (* connections still open on our side *)
}.

Definition set_names f k :=
  mkKernel f (k_inodes k) (k_next k) (k_umask k) (k_sigint k) (k_listen k) (k_conns k) (k_open k).
Definition set_inodes f k :=
  mkKernel (k_names k) f (k_next k) (k_umask k) (k_sigint k) (k_listen k) (k_conns k) (k_open k).
Definition set_next n k :=
  mkKernel (k_names k) (k_inodes k) n (k_umask k) (k_sigint k) (k_listen k) (k_conns k) (k_open k).
Definition set_umask m k :=
  mkKernel (k_names k) (k_inodes k) (k_next k) m (k_sigint k) (k_listen k) (k_conns k) (k_open k).
Definition set_sigint s k :=
  mkKernel (k_names k) (k_inodes k) (k_next k) (k_umask k) s (k_listen k) (k_conns k) (k_open k).
Definition set_listen l k :=
  mkKernel (k_names k) (k_inodes k) (k_next k) (k_umask k) (k_sigint k) l (k_conns k) (k_open k).
Definition set_conns c o k :=
  mkKernel (k_names k) (k_inodes k) (k_next k) (k_umask k) (k_sigint k) (k_listen k) c o.

Definition put_name (p : path) (o : option nat) (f : path -> option nat) : path -> option nat :=
  fun q => if comps_eqb q p then o else f q.
Definition put_inode (n : nat) (i : inode) (f : nat -> inode) : nat -> inode :=
  fun m => if Nat.eqb m n then i else f m.

(** Follow symbolic links; [None]: no such file (or too many links). *)
Fixpoint resolve_fuel (fuel : nat) (k : kernel) (p : path) : option nat :=
  match fuel with
  | O => None
  | S f =>
      match k_names k p with
      | None => None
      | Some n => match i_kind (k_inodes k n) with
                  | KLink t => resolve_fuel f k t
                  | _ => Some n
                  end
      end
  end.

Definition resolve (k : kernel) (p : path) : option nat := resolve_fuel 40 k p.

(** The directory a name lives in. *)
Definition dir_path (p : path) : path := removelast p.

Definition dir_inode (k : kernel) (p : path) : option nat :=
  match p with
  | [] => None
  | _ => match resolve k (dir_path p) with
         | Some d => match i_kind (k_inodes k d) with KDir => Some d | _ => None end
         | None => None
         end
  end.

(** May [c] search all the directories on the way to the name [p]? *)
Definition can_search (k : kernel) (c : cred) (p : path) : bool :=
  forallb (fun n => match resolve k (firstn n p) with
                    | Some d => may_search c (k_inodes k d)
                    | None => true
                    end) (seq 0 (List.length p)).

(** The file that [c] finds under the name [p], following symbolic links. *)
Fixpoint find_fuel (fuel : nat) (k : kernel) (c : cred) (p : path) : option nat :=
  match fuel with
  | O => None
  | S f =>
      if can_search k c p then
        match k_names k p with
        | None => None
        | Some n => match i_kind (k_inodes k n) with
                    | KLink t => find_fuel f k c t
                    | _ => Some n
                    end
        end
      else None
  end.

Definition finds (k : kernel) (c : cred) (p : path) : option nat := find_fuel 40 k c p.

(** A new inode named [p]. *)
Definition add_file (p : path) (i : inode) (k : kernel) : kernel :=
  let n := k_next k in
  set_next (S n) (set_names (put_name p (Some n) (k_names k))
                    (set_inodes (put_inode n i (k_inodes k)) k)).

Definition chmod_inode (n : nat) (m : Z) (k : kernel) : kernel :=
  let i := k_inodes k n in
  set_inodes (put_inode n (mkInode (i_kind i) (i_uid i) (i_gid i) (Z.land m 4095)) (k_inodes k)) k.

(** chown(2): an id of 2^32-1 means "leave unchanged". *)
Definition NO_ID := 4294967295.
Definition chown_inode (n : nat) (u g : Z) (k : kernel) : kernel :=
  let i := k_inodes k n in
  set_inodes (put_inode n (mkInode (i_kind i)
                             (if u =? NO_ID then i_uid i else u)
                             (if g =? NO_ID then i_gid i else g)
                             (i_perm i)) (k_inodes k)) k.

(** ** What other processes may do between two calls of the plugin *)
Inductive action :=
| Connect (p : path)
| Unlink (p : path)
| Create (p : path) (kd : kind) (gid perm : Z)
| Rename (p q : path)
| HardLink (p q : path)
| Chmod (p : path) (perm : Z)
| Chown (p : path) (uid gid : Z).

(** May [c] add, remove or replace the name [p]? *)
Definition can_edit (k : kernel) (c : cred) (p : path) : bool :=
  match dir_inode k p with
  | Some d => may_write c (k_inodes k d) && can_search k c p
  | None => false
  end.

Definition is_owner (k : kernel) (c : cred) (n : nat) : bool :=
  cr_priv c || (cr_uid c =? i_uid (k_inodes k n)).

(** connect(2) reaches the plugin's listener [l] through inode [n]. *)
Definition reaches (l : listener) (n : nat) : bool :=
  l_on l && match l_ino l with Some m => Nat.eqb n m | None => false end.

Definition act (k : kernel) (ca : cred * action) : kernel :=
  let (c, a) := ca in
  match a with
  | Connect p =>
      match finds k c p, k_listen k with
      | Some n, Some l =>
          if reaches l n && may_write c (k_inodes k n)
          then set_listen (Some (mkListener (l_fd l) (l_ino l) (l_on l) (l_queue l ++ [c]))) k
          else k
      | _, _ => k
      end
  | Unlink p =>
      if can_edit k c p then set_names (put_name p None (k_names k)) k else k
  | Create p kd g m =>
      if can_edit k c p
      then match k_names k p with
           | None => add_file p (mkInode kd (cr_uid c) g m) k
           | Some _ => k
           end
      else k
  | Rename p q =>
      if can_edit k c p && can_edit k c q
      then match k_names k p with
           | Some n => set_names (put_name p None (put_name q (Some n) (k_names k))) k
           | None => k
           end
      else k
  | HardLink p q =>
      if can_search k c p && can_edit k c q
      then match k_names k p, k_names k q with
           | Some n, None => set_names (put_name q (Some n) (k_names k)) k
           | _, _ => k
           end
      else k
  | Chmod p m =>
      match finds k c p with
      | Some n => if is_owner k c n then chmod_inode n m k else k
      | None => k
      end
  | Chown p u g =>
      match finds k c p with
      | Some n =>
          if cr_priv c || ((cr_uid c =? i_uid (k_inodes k n))
                           && ((u =? NO_ID) || (u =? i_uid (k_inodes k n)))
                           && ((g =? NO_ID) || mem_z g (cr_gids c)))
          then chown_inode n u g k else k
      | None => k
      end
  end.

(** ** Calls of the plugin, and their answers *)

Inductive answer :=
| AOk                (* succeeds *)
| AErr (errno : Z)   (* fails *)
| ANum (z : Z)       (* succeeds, with a number the plugin does not control *)
| AData (d : bytes). (* succeeds, with data *)

Definition EINTR := 4.
Definition ENOENT := 2.
Definition EINVAL := 22.
Definition EADDRINUSE := 98.

Inductive call :=
| CStat (p : path)
| CUnlink (p : path)
| CUmask (m : Z)
| CSocket
| CBind (p : path)
| CListen
| CChown (p : path) (u g : Z)
| CChmod (p : path) (m : Z)
| CSelect
| CAccept
| CCloseListener
| CSigGet
| CSigSet (s : sigact)
| CWrite (conn : nat) (d : bytes)
| CRead (conn : nat)              (* one byte *)
| CShutdown (conn : nat)
| CClose (conn : nat)
| CReadFile (p : bytes)
| COpenTty (p : bytes)
| CWriteTty (d : bytes)
| CCloseTty
| CPrintf (level : Z) (fmt : bytes).

(** One turn: what other processes do first, then the answer to the call. *)
Definition turn := (list (cred * action) * answer)%type.

(** A call that was answered, with the kernel state just before and after. *)
Record event := mkEvent { e_call : call; e_ans : answer; e_pre : kernel; e_post : kernel }.

Record world := mkWorld { w_k : kernel; w_script : list turn; w_trace : list event }.

(** ** Computations *)

(** [Stopped]: the plugin never gets past the point reached -- the call blocks
    for ever, or the process is killed, or the given answer is not one the
    kernel can give there. *)
Inductive outcome (A : Type) :=
| Done (a : A)
| Panicked
| Stopped.
Arguments Done {A} a.
Arguments Panicked {A}.
Arguments Stopped {A}.

Definition M (A : Type) := world -> outcome A * world.

Definition ret {A} (a : A) : M A := fun w => (Done a, w).
Definition panic {A} : M A := fun w => (Panicked, w).
Definition stop {A} : M A := fun w => (Stopped, w).

Definition bind {A C} (m : M A) (f : A -> M C) : M C :=
  fun w => match m w with
           | (Done a, w') => f a w'
           | (Panicked, w') => (Panicked, w')
           | (Stopped, w') => (Stopped, w')
           end.

Notation "x <- m ;; f" := (bind m (fun x => f))
  (at level 61, m at next level, right associativity).
Notation "m ;;; f" := (bind m (fun _ => f))
  (at level 61, right associativity).

(** [std::panic::catch_unwind]: [None] is a caught panic. *)
Definition catch {A} (m : M A) : M (option A) :=
  fun w => match m w with
           | (Done a, w') => (Done (Some a), w')
           | (Panicked, w') => (Done None, w')
           | (Stopped, w') => (Stopped, w')
           end.

(** Unwinding through a frame that owns a value whose drop is [cleanup]. *)
Definition unwind_with {A} (m : M A) (cleanup : M unit) : M A :=
  fun w => match m w with
           | (Panicked, w') => match cleanup w' with
                               | (Done _, w'') => (Panicked, w'')
                               | (Panicked, w'') => (Panicked, w'')
                               | (Stopped, w'') => (Stopped, w'')
                               end
           | r => r
           end.

(** One call: consume a turn, let the others act, then let [f] apply the
    answer; [f] returns [None] if the kernel cannot give that answer. *)
Definition sys {A} (c : call) (f : answer -> kernel -> option (A * kernel)) : M A :=
  fun w =>
    match w_script w with
    | [] => (Stopped, w)
    | (acts, a) :: rest =>
        let k1 := fold_left act acts (w_k w) in
        match f a k1 with
        | None => (Stopped, w)
        | Some (x, k2) =>
            (Done x, mkWorld k2 rest (w_trace w ++ [mkEvent c a k1 k2]))
        end
    end.

(** How many more calls the script can answer; used as loop fuel. *)
Definition turns_left : M nat := fun w => (Done (S (List.length (w_script w))), w).

(** Whether a string may be passed as a C string. *)
Definition has_nul (b : bytes) : bool := existsb (fun c => byte_eqb c x00) b.
