(** Properties of any plugin built on the library: C102. *)
From Verif Require Import Base Num Path Options World Sys Io Env Core Spec TraceSpec SessionSpec CallbackSpec
  RequestProofs ReadProofs PairPure SessionFacts Frontend FrontSpec FrontFacts Samples Worlds PropsFront Defaults DefaultFacts.
Local Open Scope Z_scope.

(** *** C102: errors and defaults *)
(** An error of [open] is told once, and sudo gets the status that the plugin
    converts it to. Errors with a source are the subject of C48. *)
Theorem C102_open_error : forall P pl a rq open,
  Describes pl a rq -> rq_command rq <> [] -> ~ MasklessAddr pl (oa_settings a) ->
  t_open (exported P pl) = Some open ->
  exists e, Matches e rq /\ forall w w2 er, pg_open P pl e w = (Done (Err er), w2) -> pg_source P er = None ->
    forall o w3, open a (pstate0 P) w = (o, w3) ->
    exists evs, w_trace w3 = w_trace w2 ++ evs
    /\ (HonestPrintf evs -> o = Done (pg_open_status P er, mkPstate (Some e) None) \/ o = Stopped)
    /\ Told (pg_name P) (pg_display P er) (oa_printf a) evs (exists r, o = Done r).
Proof. exact error_in_open. Qed.
Print Assumptions C102_open_error.

(** The same for data and window sizes. *)
Theorem C102_session_error : forall P pl a rq st p w w' open,
  Describes pl a rq -> t_open (exported P pl) = Some open ->
  open a (pstate0 P) w = (Done (1, st), w') -> st_plugin st = Some p -> forall ev ask m,
  asked (exported P pl) ev = Some ask ->
  match ev with
  | Moved s d => (rq_log rq s = true \/ pg_ignore_hints P = true) /\ m = pg_log P pl s p d
  | Resized l c => m = pg_winsize P pl p l c
  | Suspended _ => False
  end ->
  forall w1 w2 er, m w1 = (Done (Err er), w2) -> pg_source P er = None ->
  forall o w3, ask st w1 = (o, w3) ->
  exists evs, w_trace w3 = w_trace w2 ++ evs
    /\ (HonestPrintf evs -> o = Done (pg_log_status P er) \/ o = Stopped)
    /\ Told (pg_name P) (pg_display P er) (oa_printf a) evs (exists z, o = Done z).
Proof. exact error_in_session. Qed.
Print Assumptions C102_session_error.

(** A plugin that only has what it must have lets everything pass and makes no
    calls after its opening, until it is dropped. *)
Theorem C102_defaults : forall S E name open drop from_error os ls display source pl a h rq,
  let P := defaults S E name open drop from_error os ls display source in
  Describes pl a rq -> rq_command rq <> [] -> ~ MasklessAddr pl (oa_settings a) ->
  exists e, Matches e rq /\ forall w p w', open pl e w = (Done (Ok p), w') ->
  exists f, front_run (exported P pl) a h w = (Done (Some f), w')
    /\ f_live f = true /\ f_off f = [] /\ f_given f = flat_map data_of h
    /\ (forall x err w1 w2, drop p w1 = (Done tt, w2) -> front_close (exported P pl) x err f w1 = (Done (pstate0 P), w2)).
Proof. exact default_session. Qed.
Print Assumptions C102_defaults.

(** A plugin that minds a large window and reads no data; one that minds being
    opened by anyone but root; both with the statuses of errors.rs. *)
Definition small : plugin := {|
  pg_state := unit; pg_error := unit; pg_name := B "small"; pg_version := B "1"; pg_ignore_hints := false;
  pg_open := fun _ e => if ui_uid (en_user_info e) =? 0 then ret (Ok tt) else ret (Err tt);
  pg_close := fun _ _ _ => ret tt; pg_drop := fun _ => ret tt;
  pg_log := fun _ _ _ _ => ret (Ok tt);
  pg_winsize := fun _ _ l c => if 80 <? c then ret (Err tt) else ret (Ok tt);
  pg_from_error := fun _ => tt; pg_open_status := fun _ => 0; pg_log_status := fun _ => -1;
  pg_display := fun _ => B "too large"; pg_source := fun _ => None |}.
Definition large : plugin := {|
  pg_state := unit; pg_error := unit; pg_name := B "large"; pg_version := B "1"; pg_ignore_hints := false;
  pg_open := fun _ e => ret (Ok tt);
  pg_close := fun _ _ _ => ret tt; pg_drop := fun _ => ret tt;
  pg_log := fun _ _ _ _ => ret (Ok tt);
  pg_winsize := fun _ _ l c => if 80 <? c then ret (Err tt) else ret (Ok tt);
  pg_from_error := fun _ => tt; pg_open_status := fun _ => 0; pg_log_status := fun _ => -1;
  pg_display := fun _ => B "too large"; pg_source := fun _ => None |}.
Definition plain : plugin := defaults unit unit (B "plain") (fun _ _ => ret (Ok tt)) (fun _ => ret tt)
  (fun _ => tt) (fun _ => 0) (fun _ => 0) (fun _ => []) (fun _ => None).
Definition tells : world := world_of k_root [t (ANum 1); t (ANum 7); t (ANum 9); t (ANum 1)].

Lemma no_maskless : ~ MasklessAddr release (oa_settings to_root).
Proof. intros C. apply get_net_addrs_None in C. vm_compute in C. discriminate. Qed.

(** The second window size disables the function, so the third is not seen;
    an opening that answers 0 leaves the command without the plugin. *)
Example C102_example :
  Describes release to_root to_root_rq /\ rq_command to_root_rq <> [] /\ ~ MasklessAddr release (oa_settings to_root)
  /\ (let r := front_run (exported large release) to_root
        [Resized 24 80; Resized 24 132; Moved Stdout (B "x"); Resized 25 132] tells in
      glance r = Some ([(Stdout, B "x")], true)
      /\ printed 3 (w_trace (snd r)) = [x0a] ++ B "large: too large" ++ [x0a])
  /\ (let r := front_run (exported small release) to_root [Resized 24 132; Moved Stdout (B "x")] tells in
      glance r = Some ([(Stdout, B "x")], true)
      /\ printed 3 (w_trace (snd r)) = [x0a] ++ B "small: too large" ++ [x0a])
  /\ glance (front_run (exported plain release) to_root
       [Moved Stdin (B "a"); Moved Stdout (B "b"); Resized 1 1; Suspended 20; Moved Ttyin (B "c")] (world_of k_root []))
     = Some ([(Stdin, B "a"); (Stdout, B "b"); (Ttyin, B "c")], true).
Proof.
  split; [exact to_root_describes|]. split; [discriminate|]. split; [exact no_maskless|].
  split; [cbv zeta; split; vm_compute; reflexivity|]. split; [cbv zeta; split; vm_compute; reflexivity|].
  vm_compute. reflexivity.
Qed.
