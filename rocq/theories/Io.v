(** Model of sudo_plugin/src/output/{print_facility,tty}.rs and of
    [std::io::Write::write_all]. *)
From Verif Require Import Base Path World Sys.
Local Open Scope Z_scope.

(** [std::io::Write::write_all]: retry on EINTR, fail on a zero count, panic
    (slice index) if [write] claims more bytes than it was given. Every
    iteration makes at least one call or returns, so [turns_left] iterations
    are always enough; running out of them means the script is exhausted. *)
Fixpoint write_all_loop (fuel : nat) (write : bytes -> io Z) (buf : bytes) : io unit :=
  match buf with
  | [] => ret (Ok tt)
  | _ =>
      match fuel with
      | O => stop
      | S f =>
          r <- write buf ;;
          match r with
          | Ok n =>
              if n =? 0 then ret (Err WriteZero)
              else if zlen buf <? n then panic
              else write_all_loop f write (skipn (Z.to_nat n) buf)
          | Err (Os e) =>
              if e =? EINTR then write_all_loop f write buf else ret (Err (Os e))
          | Err e => ret (Err e)
          end
      end
  end.

Definition write_all (write : bytes -> io Z) (buf : bytes) : io unit :=
  fuel <- turns_left ;; write_all_loop fuel write buf.

(** ** PrintFacility (print_facility.rs) *)

(** output.rs:23-28 with bindings: SUDO_CONV_ERROR_MSG, SUDO_CONV_INFO_MSG *)
Definition LEVEL_ERROR := 3.
Definition LEVEL_INFO := 4.

(** print_facility.rs:28-40; [pf_present] is whether sudo passed a printf. *)
Record print_facility := mkPf { pf_present : bool; pf_level : Z; pf_tag : bytes }.

(** print_facility.rs:57-68 *)
Definition pf_new (name : option bytes) (printf : bool) : print_facility * print_facility :=
  let tag := match name with Some n => n ++ B ": " | None => [] end in
  (mkPf printf LEVEL_INFO tag, mkPf printf LEVEL_ERROR tag).

(** print_facility.rs:100-120 *)
Definition pf_write (pf : print_facility) (buf : bytes) : io Z :=
  if negb (pf_present pf) then ret (Err NotConnected)
  else if has_nul buf then ret (Err InvalidData)
  else sys_printf (pf_level pf) buf.

Definition pf_write_all (pf : print_facility) (buf : bytes) : io unit :=
  write_all (pf_write pf) buf.

Definition newline : bytes := [x0a].

(** print_facility.rs:71-79 *)
Definition write_line (pf : print_facility) (line : bytes) : io unit :=
  r1 <- pf_write_all pf (pf_tag pf) ;;
  match r1 with
  | Err e => ret (Err e)
  | Ok _ =>
      r2 <- pf_write_all pf line ;;
      match r2 with
      | Err e => ret (Err e)
      | Ok _ =>
          r3 <- pf_write_all pf newline ;;
          match r3 with
          | Err e => ret (Err e)
          | Ok _ => ret (Ok tt)
          end
      end
  end.

(** print_facility.rs:91-93: [while let Some(error) = error.source()]. The
    inner [error] shadows the outer one, which the condition keeps asking, so
    the condition never changes. *)
Fixpoint source_loop (fuel : nat) (pf : print_facility) (source : option bytes) : io unit :=
  match source with
  | None => ret (Ok tt)
  | Some s =>
      match fuel with
      | O => stop
      | S f =>
          r <- write_line pf s ;;
          match r with
          | Err e => ret (Err e)
          | Ok _ => source_loop f pf source
          end
      end
  end.

(** print_facility.rs:82-96. An error is its [Display] text and the [Display]
    text of its [source()], if any. *)
Definition write_error (pf : print_facility) (display : bytes) (source : option bytes) : io unit :=
  r1 <- pf_write_all pf newline ;;
  match r1 with
  | Err e => ret (Err e)
  | Ok _ =>
      r2 <- write_line pf display ;;
      match r2 with
      | Err e => ret (Err e)
      | Ok _ => fuel <- turns_left ;; source_loop fuel pf source
      end
  end.

(** ** Tty (tty.rs:27-43) *)
Definition tty_open (p : bytes) : io unit :=
  if has_nul p then ret (Err InvalidInput) else sys_open_tty p.

Definition tty_write_all (buf : bytes) : io unit := write_all sys_write_tty buf.
