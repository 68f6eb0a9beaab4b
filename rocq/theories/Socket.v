(** Model of sudo_pair/src/socket.rs. The effective uid of the process is the
    parameter [euid] ([libc::geteuid()]). *)
From Verif Require Import Base Path World Sys Io.
Local Open Scope Z_scope.

(** socket.rs:150-226. The [CString::new] failure (interior NUL) is explicit;
    it is tested on the whole path, whose last component [socket_path] makes
    of two numbers, so that a NUL can only be in the parent;
    [path_parent] gives the components of the parent; the parent of a bare file
    name is the empty path, for which stat(2) always fails with ENOENT. The
    directory test is the bit test of line 174, not a comparison with S_IFMT. *)
Definition enforce_ownership (euid : Z) (p : bytes) : io unit :=
  match path_parent p with
  | None => ret (Err AlreadyExists)                              (* 151-156 *)
  | Some parent =>
      if has_nul p then ret (Err InvalidInput)                   (* 158-160 *)
      else if is_nil parent then ret (Err (Os ENOENT))
      else
        r <- sys_stat parent ;;                                  (* 165-170 *)
        match r with
        | Err e => ret (Err e)
        | Ok st =>
            if Z.land (st_mode st) S_IFDIR =? 0 then ret (Err OtherIo)          (* 174-179 *)
            else if negb (i_uid st =? euid) then ret (Err OtherIo)              (* 181-186 *)
            else if negb (Z.land (st_mode st) (Z.lor S_IWGRP S_IWOTH) =? 0)
            then ret (Err OtherIo)                                              (* 217-222 *)
            else ret (Ok tt)
        end
  end.

Definition is_socket (i : inode) : bool :=
  match i_kind i with KSock => true | _ => false end.

(** [fs::metadata] / [fs::remove_file]: an interior NUL is an error *)
Definition metadata (p : bytes) : io inode :=
  if has_nul p then ret (Err InvalidInput) else sys_stat (components p).
Definition remove_file (p : bytes) : io unit :=
  if has_nul p then ret (Err InvalidInput) else sys_unlink (components p).

(** socket.rs:131-148 *)
Definition unlink_socket (p : bytes) : io unit :=
  r <- metadata p ;;
  match r with
  | Ok md => if is_socket md then remove_file p else ret (Err AlreadyExists)
  | Err _ => ret (Ok tt)
  end.

(** sun_path is 108 bytes on Linux and must keep a terminating NUL. *)
Definition SUN_PATH_MAX : Z := 108.

(** [UnixListener::bind] (std): address check, socket(2), bind(2), listen(2);
    the descriptor is closed on failure. Returns the descriptor. *)
Definition listener_bind (euid : Z) (p : bytes) : io Z :=
  if has_nul p then ret (Err InvalidInput)
  else if SUN_PATH_MAX <=? zlen p then ret (Err InvalidInput)
  else
    r <- sys_socket ;;
    match r with
    | Err e => ret (Err e)
    | Ok fd =>
        r1 <- sys_bind euid (components p) ;;
        match r1 with
        | Err e => sys_close_listener ;;; ret (Err e)
        | Ok _ =>
            r2 <- sys_listen ;;
            match r2 with
            | Err e => sys_close_listener ;;; ret (Err e)
            | Ok _ => ret (Ok fd)
            end
        end
    end.

(** [UnixListener::accept] (std): retries on EINTR. *)
Fixpoint accept_loop (fuel : nat) : io nat :=
  match fuel with
  | O => stop
  | S f =>
      r <- sys_accept ;;
      match r with
      | Ok c => ret (Ok c)
      | Err (Os e) => if e =? EINTR then accept_loop f else ret (Err (Os e))
      | Err e => ret (Err e)
      end
  end.

Definition FD_SETSIZE : Z := 1024.

(** socket.rs:58-108, the body of the [and_then] closure. [FD_SET] (libc crate)
    indexes an array of FD_SETSIZE bits and panics beyond it. [FD_ISSET] is
    true whenever select returned 1, there being one descriptor. *)
Definition serve_one (fd : Z) (p : bytes) (uid gid mode : Z) : io nat :=
  if has_nul p then ret (Err InvalidInput)                        (* 59-61 *)
  else
    r1 <- sys_chown (components p) uid gid ;;                     (* 64-66 *)
    match r1 with
    | Err e => ret (Err e)
    | Ok _ =>
        r2 <- sys_chmod (components p) mode ;;                    (* 68-70 *)
        match r2 with
        | Err e => ret (Err e)
        | Ok _ =>
            if FD_SETSIZE <=? fd then panic                       (* 79 *)
            else
              r3 <- sys_select ;;                                 (* 85-96 *)
              match r3 with
              | Err e => ret (Err e)
              | Ok n =>
                  if n =? 1 then
                    fuel <- turns_left ;; accept_loop fuel        (* 105-107 *)
                  else panic                                      (* 94, 95 *)
              end
        end
    end.

(** socket.rs:38-125. The listener is dropped at the end of the closure, also
    when unwinding. Returns the number of the connection. *)
Definition socket_open (euid : Z) (p : bytes) (uid gid mode : Z) : io nat :=
  r <- enforce_ownership euid p ;;                                (* 46 *)
  match r with
  | Err e => ret (Err e)
  | Ok _ =>
      r <- unlink_socket p ;;                                     (* 50 *)
      match r with
      | Err e => ret (Err e)
      | Ok _ =>
          umask <- sys_umask (Z.lor (Z.lor S_IRWXU S_IRWXG) S_IRWXO) ;;   (* 54-56 *)
          socket <-
            (l <- listener_bind euid p ;;                         (* 58 *)
             match l with
             | Err e => ret (Err e)
             | Ok fd =>
                 c <- unwind_with (serve_one fd p uid gid mode) sys_close_listener ;;
                 sys_close_listener ;;;
                 ret c
             end) ;;
          unlink_socket p ;;;                                     (* 119 *)
          sys_umask umask ;;;                                     (* 122 *)
          ret socket
      end
  end.

(** socket.rs:127-129 *)
Definition socket_close (c : nat) : io unit := sys_shutdown c.

(** socket.rs:229-233 followed by the drop of [UnixStream] *)
Definition socket_drop (c : nat) : M unit :=
  socket_close c ;;; sys_close c.

(** socket.rs:262-303 *)
Definition ctrl_c_aborts_syscalls {A} (func : M A) : io A :=
  r1 <- sys_sigget ;;
  match r1 with
  | Err e => ret (Err e)
  | Ok old =>
      r2 <- sys_sigset (mkSigact false (sa_rest old)) ;;
      match r2 with
      | Err e => ret (Err e)
      | Ok _ =>
          result <- func ;;
          r3 <- sys_sigset old ;;
          match r3 with
          | Err e => ret (Err e)
          | Ok _ => ret (Ok result)
          end
      end
  end.

Definition flatten {A} (r : result (result A ioerr) ioerr) : result A ioerr :=
  match r with Ok x => x | Err e => Err e end.

(** socket.rs:235-243 *)
Definition socket_read (c : nat) : io bytes :=
  r <- ctrl_c_aborts_syscalls (sys_read c) ;; ret (flatten r).

(** socket.rs:245-248 *)
Definition socket_write (c : nat) (buf : bytes) : io Z :=
  r <- ctrl_c_aborts_syscalls (sys_write c buf) ;; ret (flatten r).

(** socket.rs:250-252; [UnixStream::flush] does nothing *)
Definition socket_flush (c : nat) : io unit :=
  r <- ctrl_c_aborts_syscalls (ret (Ok tt)) ;; ret (flatten r).

Definition socket_write_all (c : nat) (buf : bytes) : io unit :=
  write_all (socket_write c) buf.
