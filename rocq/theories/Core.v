(** Model of sudo_plugin/src/core.rs, sudo_plugin/src/plugin/io_state.rs and
    sudo_plugin/src/plugin/io_plugin.rs, for an arbitrary plugin. *)
From Verif Require Import Base Path Version Options World Sys Io Env.
Local Open Scope Z_scope.

Inductive stream := Ttyin | Ttyout | Stdin | Stdout | Stderr.

(** core.rs:40-60, 70-84 *)
Definition OPEN_OK := 1.
Definition OPEN_DENY := -1.
Definition LOG_OK := 1.
Definition LOG_DENY := 0.

(** io_plugin.rs:25-... : a plugin is its constants, its methods, how its
    errors are displayed and converted to status codes, and how its value is
    dropped. [pg_log] covers the five log_* methods. *)
Record plugin := mkPlugin {
  pg_state : Type;
  pg_error : Type;
  pg_name : bytes;
  pg_version : bytes;
  pg_ignore_hints : bool;
  pg_open : platform -> io_env -> M (result pg_state pg_error);
  pg_close : pg_state -> Z -> Z -> M unit;
  pg_drop : pg_state -> M unit;
  pg_log : platform -> stream -> pg_state -> bytes -> M (result unit pg_error);
  pg_winsize : platform -> pg_state -> Z -> Z -> M (result unit pg_error);
  pg_from_error : error -> pg_error;
  pg_open_status : pg_error -> Z;
  pg_log_status : pg_error -> Z;
  pg_display : pg_error -> bytes;
  pg_source : pg_error -> option bytes
}.

(** The two statics of macros.rs:74-75, initially both [None]. *)
Record pstate (P : plugin) := mkPstate {
  st_env : option io_env;
  st_plugin : option (pg_state P)
}.
Arguments mkPstate {P} _ _.
Arguments st_env {P} _.
Arguments st_plugin {P} _.

Definition pstate0 (P : plugin) : pstate P := mkPstate None None.

(** core.rs:122-124 with 104-111 and errors.rs:82-87: a panic is [Deny]. *)
Definition catch_open (m : M Z) : M Z :=
  r <- catch m ;; match r with Some z => ret z | None => ret OPEN_DENY end.

(** core.rs:126-128 with 113-120 and errors.rs:89-94 *)
Definition catch_log (m : M Z) : M Z :=
  r <- catch m ;; match r with Some z => ret z | None => ret LOG_DENY end.

(** core.rs:131-189 with io_state.rs:54-67. The statics survive a panic, so
    they are returned next to the status. *)
Definition core_open (P : plugin) (pl : platform) (a : open_args) (st : pstate P)
  : M (Z * pstate P) :=
  let '(_, stderr) := pf_new (Some (pg_name P)) (oa_printf a) in          (* 147-149 *)
  match io_env_new pl (pg_name P) (pg_version P) a with                   (* 151-163 *)
  | None => ret (OPEN_DENY, st)
  | Some (Err e) =>                                                       (* 167-171 *)
      z <- catch_open (write_error stderr (display_error e) None ;;;
                       ret (pg_open_status P (pg_from_error P e))) ;;
      ret (z, st)
  | Some (Ok new_env) =>
      let env := match st_env st with Some old => old | None => new_env end in
      let st1 := mkPstate (Some env) (st_plugin st) in                    (* io_state.rs:59 *)
      if path_eqb (ci_command (en_command_info env)) []                   (* 179-181 *)
      then ret (OPEN_OK, st1)
      else
        r <- catch (r <- pg_open P pl env ;;                              (* 183-186 *)
                    match r with
                    | Ok p => ret (Ok p)
                    | Err e => write_error stderr (pg_display P e) (pg_source P e) ;;;
                               ret (Err (pg_open_status P e))
                    end) ;;
        match r with
        | None => ret (OPEN_DENY, st1)
        | Some (Err z) => ret (z, st1)
        | Some (Ok p) =>                                                  (* io_state.rs:60-65 *)
            match st_plugin st with
            | None => ret (OPEN_OK, mkPstate (Some env) (Some p))
            | Some old =>
                z <- catch_open (pg_drop P p ;;; ret OPEN_OK) ;;
                ret (z, st1)
            end
        end
  end.

(** core.rs:192-199 with io_state.rs:78-84: the plugin is taken out and closed
    first; if that panics the environment stays behind. *)
Definition core_close (P : plugin) (exit_status err : Z) (st : pstate P) : M (pstate P) :=
  match st_plugin st with
  | None => ret (mkPstate None None)
  | Some p =>
      r <- catch (pg_close P p exit_status err) ;;
      match r with
      | Some _ => ret (mkPstate None None)
      | None => ret (mkPstate (st_env st) None)
      end
  end.

(** [write!] stops at the first piece that cannot be written. *)
Fixpoint write_pieces (pf : print_facility) (l : list bytes) : io unit :=
  match l with
  | [] => ret (Ok tt)
  | s :: l' =>
      r <- pf_write_all pf s ;;
      match r with Err e => ret (Err e) | Ok _ => write_pieces pf l' end
  end.

(** io_plugin.rs:54-63 (the default, which nothing overrides). [writeln!] with
    this format writes four pieces. *)
Definition show_version (P : plugin) (e : io_env) : M unit :=
  write_pieces (en_stdout e)
    [pg_name P; B " I/O plugin version "; pg_version P; newline] ;;;
  ret tt.

(** core.rs:202-210 *)
Definition core_show_version (P : plugin) (verbose : Z) (st : pstate P) : M Z :=
  catch_open
    (match st_env st with
     | None => panic                                              (* io_state.rs:90-94 *)
     | Some e => show_version P e ;;; ret OPEN_OK
     end).

Definition hint (s : stream) (ci : command_info) : bool :=
  match s with
  | Ttyin => ci_iolog_ttyin ci
  | Ttyout => ci_iolog_ttyout ci
  | Stdin => ci_iolog_stdin ci
  | Stdout => ci_iolog_stdout ci
  | Stderr => ci_iolog_stderr ci
  end.

(** The common tail of the log callbacks: report the error, convert. *)
Definition report (P : plugin) (env : io_env) (m : M (result unit (pg_error P))) : M Z :=
  r <- m ;;
  match r with
  | Ok _ => ret LOG_OK
  | Err e => write_error (en_stderr env) (pg_display P e) (pg_source P e) ;;;
             ret (pg_log_status P e)
  end.

(** core.rs:213-236, 239-262, 265-288, 291-314, 317-340: the five log
    callbacks are the same code up to the stream. *)
Definition core_log (P : plugin) (pl : platform) (s : stream) (data : bytes) (st : pstate P) : M Z :=
  catch_log
    (match st_env st with
     | None => panic
     | Some env =>
         match st_plugin st with
         | None => panic                                          (* io_state.rs:100-104 *)
         | Some p =>
             if negb (hint s (en_command_info env)) && negb (pg_ignore_hints P)
             then ret LOG_OK
             else report P env (pg_log P pl s p data)
         end
     end).

(** core.rs:343-357 *)
Definition core_change_winsize (P : plugin) (pl : platform) (lines cols : Z) (st : pstate P) : M Z :=
  catch_log
    (match st_env st with
     | None => panic
     | Some env =>
         match st_plugin st with
         | None => panic
         | Some p => report P env (pg_winsize P pl p lines cols)
         end
     end).

(** ** Histories of callbacks *)
Inductive callback :=
| CbOpen (a : open_args)
| CbClose (exit_status err : Z)
| CbShowVersion (verbose : Z)
| CbLog (s : stream) (data : bytes)
| CbWinsize (lines cols : Z).

(** The status returned (0 stands for [close]'s void) and the new statics. *)
Definition run_callback (P : plugin) (pl : platform) (c : callback) (st : pstate P)
  : M (Z * pstate P) :=
  match c with
  | CbOpen a => core_open P pl a st
  | CbClose x e => st' <- core_close P x e st ;; ret (0, st')
  | CbShowVersion v => z <- core_show_version P v st ;; ret (z, st)
  | CbLog s d => z <- core_log P pl s d st ;; ret (z, st)
  | CbWinsize l c => z <- core_change_winsize P pl l c st ;; ret (z, st)
  end.

Fixpoint run_history (P : plugin) (pl : platform) (h : list callback) (st : pstate P)
  : M (list Z * pstate P) :=
  match h with
  | [] => ret ([], st)
  | c :: h' =>
      r <- run_callback P pl c st ;;
      let '(z, st1) := r in
      r' <- run_history P pl h' st1 ;;
      let '(zs, st2) := r' in
      ret (z :: zs, st2)
  end.
