(** The system calls used by the plugin, as kernel transitions (libc / std
    wrappers; nothing here models a function of /repo). Each returns either a
    value or an errno. Which errors occur is decided by the script; the model
    only rules out answers that POSIX rules out. *)
From Verif Require Import Base Path World.
Local Open Scope Z_scope.

(** [std::io::Error]: an OS error, or one made up by the Rust code. *)
Inductive ioerr :=
| Os (errno : Z)
| InvalidInput
| InvalidData
| NotConnected
| AlreadyExists
| WriteZero
| OtherIo.

Definition io (A : Type) := M (result A ioerr).

(** Fail with the script's errno, or do [f]. *)
Definition ok_or_err {A} (a : answer) (k : kernel) (f : option (result A ioerr * kernel))
  : option (result A ioerr * kernel) :=
  match a with
  | AErr e => Some (Err (Os e), k)
  | AOk => f
  | _ => None
  end.

(** stat(2) *)
Definition sys_stat (p : path) : io inode :=
  sys (CStat p) (fun a k => ok_or_err a k
    (match resolve k p with
     | Some n => Some (Ok (k_inodes k n), k)
     | None => Some (Err (Os ENOENT), k)
     end)).

(** unlink(2): does not follow a final symbolic link *)
Definition sys_unlink (p : path) : io unit :=
  sys (CUnlink p) (fun a k => ok_or_err a k
    (match k_names k p with
     | Some _ => Some (Ok tt, set_names (put_name p None (k_names k)) k)
     | None => Some (Err (Os ENOENT), k)
     end)).

(** umask(2): always succeeds, returns the old mask *)
Definition sys_umask (m : Z) : M Z :=
  sys (CUmask m) (fun a k =>
    match a with
    | AOk => Some (k_umask k, set_umask (Z.land m 511) k)
    | _ => None
    end).

(** socket(2); the answer [ANum] is the descriptor *)
Definition sys_socket : io Z :=
  sys CSocket (fun a k =>
    match a with
    | ANum fd => if 0 <=? fd
                 then Some (Ok fd, set_listen (Some (mkListener fd None false [])) k)
                 else None
    | AErr e => Some (Err (Os e), k)
    | _ => None
    end).

(** bind(2) on a Unix socket: creates the file with mode 0777 & ~umask, owned
    by the effective uid [euid]; its group is the process's or the directory's
    depending on the system, so it is left to the script ([ANum]). *)
Definition sys_bind (euid : Z) (p : path) : io unit :=
  sys (CBind p) (fun a k =>
    match a with
    | AErr e => Some (Err (Os e), k)
    | ANum g =>
        match k_listen k, k_names k p, dir_inode k p with
        | Some l, None, Some _ =>
            let i := mkInode KSock euid g (Z.ldiff 511 (k_umask k)) in
            Some (Ok tt, set_listen (Some (mkListener (l_fd l) (Some (k_next k)) (l_on l) (l_queue l)))
                           (add_file p i k))
        | Some _, Some _, _ => Some (Err (Os EADDRINUSE), k)
        | Some _, None, None => Some (Err (Os ENOENT), k)
        | None, _, _ => None
        end
    | _ => None
    end).

(** listen(2) *)
Definition sys_listen : io unit :=
  sys CListen (fun a k => ok_or_err a k
    (match k_listen k with
     | Some l => Some (Ok tt, set_listen (Some (mkListener (l_fd l) (l_ino l) true (l_queue l))) k)
     | None => None
     end)).

(** chown(2), chmod(2): follow symbolic links *)
Definition sys_chown (p : path) (u g : Z) : io unit :=
  sys (CChown p u g) (fun a k => ok_or_err a k
    (match resolve k p with
     | Some n => Some (Ok tt, chown_inode n u g k)
     | None => Some (Err (Os ENOENT), k)
     end)).

Definition sys_chmod (p : path) (m : Z) : io unit :=
  sys (CChmod p m) (fun a k => ok_or_err a k
    (match resolve k p with
     | Some n => Some (Ok tt, chmod_inode n m k)
     | None => Some (Err (Os ENOENT), k)
     end)).

(** select(2) on the listener alone, without timeout. The number returned is
    the script's; it can only be positive if a process is waiting. *)
Definition sys_select : io Z :=
  sys CSelect (fun a k =>
    match a with
    | AErr e => Some (Err (Os e), k)
    | ANum n =>
        match k_listen k with
        | Some l => if (n <=? 0) || negb (is_nil (l_queue l)) then Some (Ok n, k) else None
        | None => None
        end
    | _ => None
    end).

(** accept(2): takes the process that has been waiting longest. The result is
    the number of the new connection. *)
Definition sys_accept : io nat :=
  sys CAccept (fun a k => ok_or_err a k
    (match k_listen k with
     | Some l =>
         match l_queue l with
         | c :: q =>
             let n := List.length (k_conns k) in
             Some (Ok n, set_listen (Some (mkListener (l_fd l) (l_ino l) (l_on l) q))
                           (set_conns (k_conns k ++ [c]) (n :: k_open k) k))
         | [] => None
         end
     | None => None
     end)).

(** close(2) of the listener: its queue is discarded. *)
Definition sys_close_listener : M unit :=
  sys CCloseListener (fun a k =>
    match a with
    | AOk => Some (tt, set_listen None k)
    | _ => None
    end).

(** sigaction(2) on SIGINT; it never fails with EINTR. *)
Definition sys_sigget : io sigact :=
  sys CSigGet (fun a k =>
    match a with
    | AOk => Some (Ok (k_sigint k), k)
    | AErr e => if e =? EINTR then None else Some (Err (Os e), k)
    | _ => None
    end).

Definition sys_sigset (s : sigact) : io unit :=
  sys (CSigSet s) (fun a k =>
    match a with
    | AOk => Some (Ok tt, set_sigint s k)
    | AErr e => if e =? EINTR then None else Some (Err (Os e), k)
    | _ => None
    end).

Definition zlen (d : bytes) : Z := Z.of_nat (List.length d).

(** write(2) on a connection: accepts between 0 and all of the bytes *)
Definition sys_write (c : nat) (d : bytes) : io Z :=
  sys (CWrite c d) (fun a k =>
    match a with
    | ANum n => if (0 <=? n) && (n <=? zlen d) then Some (Ok n, k) else None
    | AErr e => Some (Err (Os e), k)
    | _ => None
    end).

(** read(2) of at most one byte; no data is end of file *)
Definition sys_read (c : nat) : io bytes :=
  sys (CRead c) (fun a k =>
    match a with
    | AData [] => Some (Ok [], k)
    | AData [b] => Some (Ok [b], k)
    | AErr e => Some (Err (Os e), k)
    | _ => None
    end).

Definition sys_shutdown (c : nat) : io unit :=
  sys (CShutdown c) (fun a k => ok_or_err a k (Some (Ok tt, k))).

Definition sys_close (c : nat) : M unit :=
  sys (CClose c) (fun a k =>
    match a with
    | AOk => Some (tt, set_conns (k_conns k) (remove Nat.eq_dec c (k_open k)) k)
    | _ => None
    end).

(** [File::open(p).and_then(|f| f.bytes().collect())] as one call: the whole
    contents, or an error. *)
Definition sys_read_file (p : bytes) : io bytes :=
  sys (CReadFile p) (fun a k =>
    match a with
    | AData d => Some (Ok d, k)
    | AErr e => Some (Err (Os e), k)
    | _ => None
    end).

(** open(2) for writing, write(2), close(2) on the terminal *)
Definition sys_open_tty (p : bytes) : io unit :=
  sys (COpenTty p) (fun a k => ok_or_err a k (Some (Ok tt, k))).

Definition sys_write_tty (d : bytes) : io Z :=
  sys (CWriteTty d) (fun a k =>
    match a with
    | ANum n => if (0 <=? n) && (n <=? zlen d) then Some (Ok n, k) else None
    | AErr e => Some (Err (Os e), k)
    | _ => None
    end).

Definition sys_close_tty : M unit :=
  sys CCloseTty (fun a k => match a with AOk => Some (tt, k) | _ => None end).

(** sudo's printf, called with the text as format string and no arguments.
    A non-negative count is the script's choice (any C int: it need not be the
    length of the text); [AErr e] is a negative count with errno [e]. *)
Definition sys_printf (level : Z) (fmt : bytes) : io Z :=
  sys (CPrintf level fmt) (fun a k =>
    match a with
    | ANum n => if (0 <=? n) && (n <=? 2147483647) then Some (Ok n, k) else None
    | AErr e => Some (Err (Os e), k)
    | _ => None
    end).
