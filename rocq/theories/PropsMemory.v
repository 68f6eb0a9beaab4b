(** Properties of how the arguments of the callbacks are read from memory:
    C75, C76, C77, and the part of C10 about reading nothing. *)
From Verif Require Import Base Version Options World Sys Io Env Core Pair Spec RequestProofs InputFacts Samples Worlds Memory MemorySpec MemoryFacts.
Local Open Scope Z_scope.

(** *** C75: the arguments are read as sudo lays them out, and nothing else is read *)
Theorem C75_open_reads_arguments : forall word P pl mem c a st,
  Represents word mem c a ->
  exists n0, forall n, (n0 <= n)%nat -> exists addresses,
    core_open_mem word P n pl c st mem = (RDone (core_open P pl a st), addresses)
    /\ Forall (InArguments word mem c a) addresses.
Proof. exact (fun word P pl mem c a st => open_mem_gives word P mem c a pl st). Qed.
Print Assumptions C75_open_reads_arguments.

(** The arguments of [to_root] in memory: each array at an address of its own,
    its strings behind it. *)
Fixpoint place (q : Z) (l : list bytes) : list Z :=
  match l with [] => [] | s :: l' => q :: place (q + Z.of_nat (List.length s) + 1) l' end.
Definition slots (word : nat) (qs : list Z) : bytes :=
  List.concat (map (fun q => map (byte_of q) (seq 0 word)) qs).
Definition regions (word : nat) (p : Z) (l : list bytes) : list (Z * bytes) :=
  [(p, slots word (place (p + 1024) l ++ [0])); (p + 1024, List.concat (map (fun s => s ++ [x00]) l))].
Definition memory_of (rs : list (Z * bytes)) : memory := fun x =>
  match find (fun r => (fst r <=? x) && (x <? fst r + Z.of_nat (List.length (snd r)))) rs with
  | Some r => nth_error (snd r) (Z.to_nat (x - fst r))
  | None => None
  end.
Definition list_of (r : raw) : list bytes := match r with Some l => l | None => [] end.
Definition to_root_mem (word : nat) : memory :=
  memory_of (regions word 4096 (list_of (oa_settings to_root)) ++ regions word 8192 (list_of (oa_user_info to_root))
    ++ regions word 12288 (list_of (oa_command_info to_root)) ++ regions word 16384 (oa_argv to_root)
    ++ regions word 20480 []).
Definition to_root_c : c_open_args := {|
  co_version := api_1_17; co_printf := true; co_settings := 4096; co_user_info := 8192;
  co_command_info := 12288; co_argc := 2; co_argv := 16384; co_user_env := 20480; co_plugin_options := 0 |}.

Example C75_represented :
  Represents 8 (to_root_mem 8) to_root_c to_root /\ Represents 4 (to_root_mem 4) to_root_c to_root.
Proof.
  split; constructor; try reflexivity.
  1: apply passed_b_sound with (qs := place 5120 (list_of (oa_settings to_root))); vm_compute; reflexivity.
  1: apply passed_b_sound with (qs := place 9216 (list_of (oa_user_info to_root))); vm_compute; reflexivity.
  1: apply passed_b_sound with (qs := place 13312 (list_of (oa_command_info to_root))); vm_compute; reflexivity.
  1: apply array_at_sound with (qs := place 17408 (oa_argv to_root)); vm_compute; reflexivity.
  1: apply passed_b_sound with (qs := []); vm_compute; reflexivity.
  1: apply passed_b_sound with (qs := place 5120 (list_of (oa_settings to_root))); vm_compute; reflexivity.
  1: apply passed_b_sound with (qs := place 9216 (list_of (oa_user_info to_root))); vm_compute; reflexivity.
  1: apply passed_b_sound with (qs := place 13312 (list_of (oa_command_info to_root))); vm_compute; reflexivity.
  1: apply array_at_sound with (qs := place 17408 (oa_argv to_root)); vm_compute; reflexivity.
  1: apply passed_b_sound with (qs := []); vm_compute; reflexivity.
Qed.

(** Read from there, the request to become root is approved in the world where
    the pair says yes. *)
Example C75_example :
  match core_open_mem 8 SudoPair 1000 release to_root_c (pstate0 _) (to_root_mem 8) with
  | (RDone m, l) => code (m yes_world) = Some 1 /\ List.length l = 912%nat
  | _ => False
  end.
Proof. vm_compute. split; reflexivity. Qed.

(** *** C76: the callbacks that pass output read the buffer, if at all *)
Theorem C76_buffer : forall P pl s mem buf len data st,
  buf <> 0 -> len = Z.of_nat (List.length data) ->
  (forall i b, nth_error data i = Some b -> mem (buf + Z.of_nat i) = Some b) ->
  exists addresses,
    core_log_mem P pl s buf len st mem = (RDone (core_log P pl s data st), addresses)
    /\ Forall (fun x => buf <= x < buf + len) addresses.
Proof. exact (fun P pl s mem buf len data st => log_mem_gives P mem pl s buf len data st). Qed.
Print Assumptions C76_buffer.

(** Whatever the pointer and the length: the buffer of a stream that sudo was
    not asked to log is not read. *)
Theorem C76_unmarked : forall P pl s mem buf len st,
  pg_ignore_hints P = false ->
  (forall env p, st_env st = Some env -> st_plugin st = Some p -> hint s (en_command_info env) = false) ->
  exists m, core_log_mem P pl s buf len st mem = (RDone m, []).
Proof.
  exact (fun P pl s mem buf len st I H => ex_intro _ _ (log_mem_nothing P mem pl s buf len st I H)).
Qed.
Print Assumptions C76_unmarked.

Definition opened : pstate SudoPair :=
  state_of (pstate0 _) (match core_open SudoPair release to_root (pstate0 _) yes_world with
                        | (o, w) => (o, w) end).
Example C76_example :
  snd (core_log_mem SudoPair release Ttyin 0 17 opened (fun _ => None)) = []
  /\ snd (core_log_mem SudoPair release Ttyout 100 3 opened (memory_of [(100, B "abcd")])) = [100; 101; 102]
  /\ fst (core_log_mem SudoPair release Ttyout 100 5 opened (memory_of [(100, B "abcd")])) = RUndefined 104.
Proof. vm_compute. repeat split; reflexivity. Qed.

(** *** C77: what is relied upon. With a negative count of arguments, with a
    count that exceeds the array, or without the NULL at the end of an array,
    behaviour is undefined. *)
Theorem C77_negative_count : forall word P n pl mem c st,
  ApiAtLeast_1_9 (co_version c) -> co_argc c < 0 ->
  core_open_mem word P n pl c st mem = (RUndefined (co_argv c), []).
Proof. exact (fun word P n pl mem c st => negative_argc_undefined word P mem n pl c st). Qed.
Print Assumptions C77_negative_count.

Theorem C77_count_too_large : forall word P pl mem c st l,
  ApiAtLeast_1_9 (co_version c) -> Terminated word mem (co_argv c) l ->
  Z.of_nat (List.length l) < co_argc c ->
  exists n0, forall n, (n0 <= n)%nat ->
    exists p addresses, core_open_mem word P n pl c st mem = (RUndefined p, addresses).
Proof. exact (fun word P pl mem c st l => many_arguments_undefined word P mem pl c st l). Qed.
Print Assumptions C77_count_too_large.

Theorem C77_no_end : forall word P pl mem c st args l,
  ApiAtLeast_1_9 (co_version c) -> word <> 0%nat ->
  co_argc c = Z.of_nat (List.length args) -> ArrayAt word mem (co_argv c) args ->
  ArrayAt word mem (co_settings c) l -> mem (co_settings c + Z.of_nat word * Z.of_nat (List.length l)) = None ->
  exists n0, forall n, (n0 <= n)%nat ->
    exists p addresses, core_open_mem word P n pl c st mem = (RUndefined p, addresses).
Proof. exact (fun word P pl mem c st args l => unterminated_undefined word P mem pl c st args l). Qed.
Print Assumptions C77_no_end.

Definition with_argc (n : Z) : c_open_args := {|
  co_version := api_1_17; co_printf := true; co_settings := 4096; co_user_info := 8192;
  co_command_info := 12288; co_argc := n; co_argv := 16384; co_user_env := 20480; co_plugin_options := 0 |}.
Definition outcome_of {A} (r : rout A * list Z) : option Z := match r with (RUndefined p, _) => Some p | _ => None end.
(** Settings of four pointers, the last one not NULL. *)
Definition cut : memory := fun x => if (4096 + 32 <=? x) && (x <? 5120) then None else to_root_mem 8 x.
Example C77_example :
  outcome_of (core_open_mem 8 SudoPair 1000 release (with_argc (-1)) (pstate0 _) (to_root_mem 8)) = Some 16384
  /\ outcome_of (core_open_mem 8 SudoPair 1000 release (with_argc 3) (pstate0 _) (to_root_mem 8)) = Some 0
  /\ outcome_of (core_open_mem 8 SudoPair 1000 release (with_argc 4) (pstate0 _) (to_root_mem 8)) = Some 16408
  /\ outcome_of (core_open_mem 8 SudoPair 1000 release (with_argc 2) (pstate0 _) cut) = Some 4128
  /\ outcome_of (core_open_mem 8 SudoPair 1000 release (with_argc 2) (pstate0 _) (to_root_mem 8)) = None.
Proof. vm_compute. repeat split; reflexivity. Qed.

(** *** C10: with an unsupported version nothing at all is read *)
Theorem C10_nothing_read : forall word P n pl mem c st,
  ~ ApiAtLeast_1_9 (co_version c) ->
  exists m, core_open_mem word P n pl c st mem = (RDone m, []).
Proof. exact (fun word P n pl mem c st => old_version_nothing word P mem n pl c st). Qed.
Print Assumptions C10_nothing_read.

Example C10_nothing_example :
  outcome_of (core_open_mem 8 SudoPair 1000 release
    {| co_version := 65544; co_printf := true; co_settings := 1; co_user_info := 2; co_command_info := 3;
       co_argc := -7; co_argv := 4; co_user_env := 5; co_plugin_options := 6 |} (pstate0 _) (fun _ => None)) = None.
Proof. vm_compute. reflexivity. Qed.
