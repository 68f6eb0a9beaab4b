(** Model of how the arguments of the callbacks are read from memory:
    sudo_plugin/src/options/option_map.rs:55-96, sudo_plugin/src/plugin/
    io_env.rs:103-156 and sudo_plugin/src/core.rs:131-340 at the level of
    addresses. The other files take the arrays as lists; the theorems of
    PropsMemory.v say that this makes no difference. *)
From Verif Require Import Base Path Version Options World Sys Io Env Core.
Local Open Scope Z_scope.

(** What can be read: the byte at an address, or [None] if the address belongs
    to no object of the process. *)
Definition memory := Z -> option byte.

(** Reading ends with a value, or with undefined behaviour at an address, or is
    cut off by the bound on the number of rounds of a loop. Next to it the
    addresses read, in order. *)
Inductive rout (A : Type) : Type :=
| RDone (a : A)
| RUndefined (p : Z)
| RMore.
Arguments RDone {A} a.
Arguments RUndefined {A} p.
Arguments RMore {A}.

Definition rd (A : Type) := memory -> rout A * list Z.

Definition rret {A} (a : A) : rd A := fun _ => (RDone a, []).
Definition undefined {A} (p : Z) : rd A := fun _ => (RUndefined p, []).
Definition rmore {A} : rd A := fun _ => (RMore, []).

Definition rbind {A C} (m : rd A) (f : A -> rd C) : rd C := fun mem =>
  match m mem with
  | (RDone a, l) => let '(r, l') := f a mem in (r, l ++ l')
  | (RUndefined p, l) => (RUndefined p, l)
  | (RMore, l) => (RMore, l)
  end.
Notation "x <-- m ;; f" := (rbind m (fun x => f)) (at level 100, m at next level, right associativity).

Definition load (p : Z) : rd byte := fun mem =>
  match mem p with
  | Some b => (RDone b, [p])
  | None => (RUndefined p, [])
  end.

Fixpoint load_n (n : nat) (p : Z) : rd bytes :=
  match n with
  | O => rret []
  | S n' => b <-- load p ;; r <-- load_n n' (p + 1) ;; rret (b :: r)
  end.

(** Little-endian, as on the three targets of sudo_plugin-sys/src/bindings. *)
Fixpoint le_value (l : bytes) : Z :=
  match l with
  | [] => 0
  | b :: l' => bz b + 256 * le_value l'
  end.

Section Word.
(** The size of a pointer: 4 (x86) or 8 (x86-64, aarch64). *)
Variable word : nat.
Definition wordz : Z := Z.of_nat word.

(** [*p] for [p : *const *const c_char]: a misaligned or null [p] is undefined
    behaviour as well. *)
Definition load_ptr (p : Z) : rd Z :=
  if (p =? 0) || negb (p mod wordz =? 0) then undefined p
  else l <-- load_n word p ;; rret (le_value l).

(** [CStr::from_ptr]: strlen(3), then the bytes. *)
Fixpoint cstr_from (fuel : nat) (p : Z) : rd bytes :=
  match fuel with
  | O => rmore
  | S n =>
      b <-- load p ;;
      if byte_eqb b NUL then rret []
      else r <-- cstr_from n (p + 1) ;; rret (b :: r)
  end.
Definition cstr_at (fuel : nat) (p : Z) : rd bytes :=
  if p =? 0 then undefined p else cstr_from fuel p.

(** option_map.rs:66-93. [*ptr] is read by the condition (66) and again (67). *)
Fixpoint from_raw_mem_loop (fuel : nat) (p : Z) (m : optmap) : rd optmap :=
  match fuel with
  | O => rmore
  | S n =>
      q <-- load_ptr p ;;
      if q =? 0 then rret m
      else
        q' <-- load_ptr p ;;
        s <-- cstr_at n q' ;;
        let '(k, v) := split_entry s in
        from_raw_mem_loop n (p + wordz) (map_insert k v m)
  end.

(** option_map.rs:55-96 *)
Definition from_raw_mem (fuel : nat) (p : Z) : rd optmap :=
  if p =? 0 then rret [] else from_raw_mem_loop fuel p [].

(** The pointers copied by [to_vec] (io_env.rs:126-129). *)
Fixpoint load_ptrs (n : nat) (p : Z) : rd (list Z) :=
  match n with
  | O => rret []
  | S n' => q <-- load_ptr p ;; r <-- load_ptrs n' (p + wordz) ;; rret (q :: r)
  end.

Fixpoint cstrs (fuel : nat) (l : list Z) : rd (list bytes) :=
  match l with
  | [] => rret []
  | q :: l' => s <-- cstr_at fuel q ;; r <-- cstrs fuel l' ;; rret (s :: r)
  end.

(** io_env.rs:124-134. [slice::from_raw_parts] with a null or misaligned
    pointer, or with more than [isize::MAX] bytes, is undefined behaviour even
    if nothing is read; a negative [argc] becomes such a length by the cast. *)
Definition cmdline_mem (fuel : nat) (argc argv : Z) : rd (list bytes) :=
  if (argv =? 0) || negb (argv mod wordz =? 0) || (argc <? 0) then undefined argv
  else l <-- load_ptrs (Z.to_nat argc) argv ;; cstrs fuel l.

(** The C arguments of [open] (core.rs:131-143). *)
Record c_open_args := mkCOpenArgs {
  co_version : Z;
  co_printf : bool;
  co_settings : Z;
  co_user_info : Z;
  co_command_info : Z;
  co_argc : Z;
  co_argv : Z;
  co_user_env : Z;
  co_plugin_options : Z
}.

(** io_env.rs:103-156 *)
Definition io_env_new_mem (fuel : nat) (pl : platform) (name vers : bytes) (a : c_open_args)
  : rd (panics (result io_env error)) :=
  match version_check (from_ffi (co_version a)) with
  | Err e => rret (Some (Err e))                                                 (* 117 *)
  | Ok v =>
      let '(out, err) := pf_new (Some name) (co_printf a) in                     (* 119-122 *)
      cmdline <-- cmdline_mem fuel (co_argc a) (co_argv a) ;;                    (* 124-134 *)
      ms <-- from_raw_mem fuel (co_settings a) ;;                                (* 144 *)
      match settings_try_from pl ms with
      | None => rret None
      | Some (Err e) => rret (Some (Err e))
      | Some (Ok se) =>
          mu <-- from_raw_mem fuel (co_user_info a) ;;                           (* 145 *)
          match user_info_try_from mu with
          | Err e => rret (Some (Err e))
          | Ok ui =>
              mc <-- from_raw_mem fuel (co_command_info a) ;;                    (* 146 *)
              me <-- from_raw_mem fuel (co_user_env a) ;;                        (* 147 *)
              mo <-- from_raw_mem fuel (co_plugin_options a) ;;                  (* 148 *)
              rret (Some (Ok {|
                en_plugin_name := name;
                en_plugin_version := vers;
                en_api_version := v;
                en_cmdline := cmdline;
                en_settings := se;
                en_user_info := ui;
                en_command_info := command_info_try_from pl mc;
                en_user_env := me;
                en_plugin_options := mo;
                en_stdout := out;
                en_stderr := err
              |}))
          end
      end
  end.

(** core.rs:131-189 from the point where [IoEnv::new] has returned [x]; the
    code of [core_open] (Core.v) after its first [match]. *)
Definition core_open_with (P : plugin) (pl : platform) (printf : bool)
  (x : panics (result io_env error)) (st : pstate P) : M (Z * pstate P) :=
  let '(_, stderr) := pf_new (Some (pg_name P)) printf in
  match x with
  | None => ret (OPEN_DENY, st)
  | Some (Err e) =>
      z <- catch_open (write_error stderr (display_error e) None ;;;
                       ret (pg_open_status P (pg_from_error P e))) ;;
      ret (z, st)
  | Some (Ok new_env) =>
      let env := match st_env st with Some old => old | None => new_env end in
      let st1 := mkPstate (Some env) (st_plugin st) in
      if path_eqb (ci_command (en_command_info env)) []
      then ret (OPEN_OK, st1)
      else
        r <- catch (r <- pg_open P pl env ;;
                    match r with
                    | Ok p => ret (Ok p)
                    | Err e => write_error stderr (pg_display P e) (pg_source P e) ;;;
                               ret (Err (pg_open_status P e))
                    end) ;;
        match r with
        | None => ret (OPEN_DENY, st1)
        | Some (Err z) => ret (z, st1)
        | Some (Ok p) =>
            match st_plugin st with
            | None => ret (OPEN_OK, mkPstate (Some env) (Some p))
            | Some old =>
                z <- catch_open (pg_drop P p ;;; ret OPEN_OK) ;;
                ret (z, st1)
            end
        end
  end.

(** core.rs:131-189. All reading happens before the first call of the plugin
    (lines 151-163). *)
Definition core_open_mem (P : plugin) (fuel : nat) (pl : platform) (a : c_open_args) (st : pstate P)
  : rd (M (Z * pstate P)) :=
  x <-- io_env_new_mem fuel pl (pg_name P) (pg_version P) a ;;
  rret (core_open_with P pl (co_printf a) x st).

(** [slice::from_raw_parts(buf, len)] in the log callbacks. *)
Definition slice_mem (buf len : Z) : rd bytes :=
  if buf =? 0 then undefined buf else load_n (Z.to_nat len) buf.

(** core.rs:213-236, 239-262, 265-288, 291-314, 317-340: the buffer is looked
    at only if the stream is marked. *)
Definition core_log_mem (P : plugin) (pl : platform) (s : stream) (buf len : Z) (st : pstate P) : rd (M Z) :=
  match st_env st with
  | None => rret (catch_log panic)
  | Some env =>
      match st_plugin st with
      | None => rret (catch_log panic)
      | Some p =>
          if negb (hint s (en_command_info env)) && negb (pg_ignore_hints P)
          then rret (catch_log (ret LOG_OK))
          else
            data <-- slice_mem buf len ;;
            rret (catch_log (report P env (pg_log P pl s p data)))
      end
  end.
End Word.
