(** C100: what an open session does. *)
From Verif Require Import Base World Sys Core Pair Frontend TraceSpec Samples WatchSpec WatchFacts Worlds PropsFront.
Local Open Scope Z_scope.

(** Whatever happens after an opening, in whatever order and whatever sudo and
    the system do, the plugin reads nothing from anyone, touches no file and
    makes no connection: it prints, handles Ctrl-C and writes to the pair. *)
Theorem C100_calls : forall pl h, Forall NotOpen h -> forall st w o w' evs,
  run_history SudoPair pl h st w = (o, w') -> w_trace w' = w_trace w ++ evs -> Only (SessionCall st) evs.
Proof. exact later_calls. Qed.
Print Assumptions C100_calls.

(** One byte is read for each opening, at most, with any arguments and in any
    state. *)
Theorem C100_reads : forall pl h st w o w' evs,
  run_history SudoPair pl h st w = (o, w') -> w_trace w' = w_trace w ++ evs ->
  (List.length (reads evs) <= List.length (opens h))%nat.
Proof. exact history_reads. Qed.
Print Assumptions C100_reads.

(** The same for a session as sudo runs it: all that is read is read while it
    is opened. *)
Theorem C100_front : forall pl a h w f w' evs,
  front_run (exported SudoPair pl) a h w = (Done (Some f), w') -> w_trace w' = w_trace w ++ evs ->
  exists z w1 asking after, core_open SudoPair pl a (pstate0 _) w = (Done (z, f_state f), w1)
    /\ w_trace w1 = w_trace w ++ asking /\ evs = asking ++ after
    /\ (List.length (reads asking) <= 1)%nat /\ Only (SessionCall (f_state f)) after.
Proof. exact front_calls. Qed.
Print Assumptions C100_front.

(** A session that shows some output and is closed, after an opening that read
    one byte. *)
Definition shown_world : world := mkWorld (w_k (snd yes_run)) (write_turns 5 ++ [t AOk; t AOk; t AOk]) [].
Definition kind (c : call) : option (nat * bytes) :=
  match c with CWrite n d => Some (n, d) | CShutdown n => Some (n, B "shutdown") | CClose n => Some (n, B "close") | _ => None end.
Example C100_example :
  let h := [CbLog Stdout (B "hello"); CbLog Ttyin (B "secret"); CbClose 0 0] in
  let r := run_history SudoPair release h yes_state shown_world in
  Forall NotOpen h
  /\ codes r = Some [1; 1; 0]
  /\ map kind (map e_call (w_trace (snd r)))
     = [None; None; Some (0%nat, B "hello"); None; Some (0%nat, B "shutdown"); Some (0%nat, B "shutdown"); Some (0%nat, B "close")]
  /\ option_map sp_socket (st_plugin yes_state) = Some (Some 0%nat)
  /\ List.length (reads (w_trace (snd (run_history SudoPair release [CbOpen to_root] (pstate0 _) yes_world)))) = 1%nat.
Proof.
  cbv zeta. split; [repeat constructor|]. split; [vm_compute; reflexivity|]. split; [vm_compute; reflexivity|].
  split; [vm_compute; reflexivity|]. vm_compute. reflexivity.
Qed.
Example C100_front_example :
  let h := [Moved Stdout (B "hello"); Moved Ttyin (B "typed")] in
  let r := front_run (exported SudoPair release) to_root h session_world in
  glance r = Some ([(Stdout, B "hello"); (Ttyin, B "typed")], true) /\ List.length (reads (w_trace (snd r))) = 1%nat.
Proof. cbv zeta. split; vm_compute; reflexivity. Qed.
