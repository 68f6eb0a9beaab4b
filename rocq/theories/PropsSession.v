(** Property theorems about open sessions and histories of callbacks:
    C36, C37, C38, C39, C40, C41, C42, C43, C56, C61. *)
From Verif Require Import Base Num Path Options World Sys Io Socket Env Core Pair Spec TraceSpec SessionSpec CallbackSpec
  RequestProofs PairPure OpenFacts AskFacts SessionFacts CallbackFacts HistoryFacts FlawFacts Samples Worlds PropsApproval.
Local Open Scope Z_scope.

(** The session opened by [yes_world] is a paired one, on connection 0. *)
Lemma yes_paired : PairedSession release to_root to_root_rq yes_state 0.
Proof.
  destruct (approval_needed release to_root to_root_rq yes_world yes_state (snd yes_run) (w_trace (snd yes_run))
    to_root_describes to_root_not_exempt ltac:(discriminate) yes_opens (no_trace yes_world _ eq_refl)) as [c A].
  assert (P : PairedSession release to_root to_root_rq yes_state c).
  { split; [exact to_root_describes|]. split; [exact to_root_not_exempt|]. split; [discriminate|].
    exists yes_world, (snd yes_run), (w_trace (snd yes_run)). split; [exact yes_opens|]. split; [exact (no_trace yes_world _ eq_refl)|exact A]. }
  destruct (paired_state _ _ _ _ _ P) as (e & M & HE & Hst).
  assert (Hc : option_map sp_socket (st_plugin yes_state) = Some (Some c)) by (rewrite Hst; reflexivity).
  assert (H0 : option_map sp_socket (st_plugin yes_state) = Some (Some 0%nat)) by (vm_compute; reflexivity).
  rewrite H0 in Hc. injection Hc as <-. exact P.
Qed.

(** *** C36: return codes *)
Theorem C36_return_codes : forall pl cb st w o w',
  run_callback SudoPair pl cb st w = (o, w') ->
  match o with
  | Done (z, _) =>
      match cb with
      | CbOpen _ | CbShowVersion _ => z = 1 \/ z = -1
      | CbLog _ _ | CbWinsize _ _ => z = 1 \/ z = 0
      | CbClose _ _ => True
      end
  | Panicked => False
  | Stopped => True
  end.
Proof. intros pl cb st w o w'. exact (callback_documented SudoPair pl cb st w o w' SudoPair_statuses). Qed.
Print Assumptions C36_return_codes.

(** The same for any plugin that converts its own errors to these codes
    ([StatusesOk]), whatever it does otherwise, panics included, and for whole
    histories. *)
Theorem C36_any_plugin : forall P pl h st w o w',
  StatusesOk P -> run_history P pl h st w = (o, w') ->
  match o with Done (zs, _) => Forall2 Documented h zs | Panicked => False | Stopped => True end.
Proof. exact history_documented. Qed.
Print Assumptions C36_any_plugin.

(** A plugin all of whose functions panic, or say no. *)
Definition panicking : plugin := {|
  pg_state := unit; pg_error := unit; pg_name := B "p"; pg_version := B "1"; pg_ignore_hints := true;
  pg_open := fun _ _ => ret (Ok tt); pg_close := fun _ _ _ => panic; pg_drop := fun _ => panic;
  pg_log := fun _ _ _ _ => panic; pg_winsize := fun _ _ _ _ => panic;
  pg_from_error := fun _ => tt; pg_open_status := fun _ => OPEN_DENY; pg_log_status := fun _ => LOG_DENY;
  pg_display := fun _ => B "x"; pg_source := fun _ => None |}.

Example C36_example : StatusesOk panicking
  /\ codes (run_history panicking release
       [CbLog Stdout (B "x"); CbOpen to_root; CbLog Stdout (B "x"); CbWinsize 24 80; CbOpen to_root; CbClose 0 0;
        CbWinsize 24 80; CbClose 0 0; CbShowVersion 0] (pstate0 _) yes_world)
     = Some [0; 1; 0; 0; -1; 0; 0; 0; -1].
Proof. split; [split; intros; right; reflexivity|]. vm_compute. reflexivity. Qed.

(** *** C37: what the pair sees *)
Theorem C37_pair_sees_output : forall pl a rq st c h w zs st' w' evs outs,
  PairedSession pl a rq st c -> Forall InSession h ->
  run_history SudoPair pl h st w = (Done (zs, st'), w') -> w_trace w' = w_trace w ++ evs ->
  Forall (eq 1) zs -> Forall2 (Mirrors rq) h outs ->
  delivered c evs = List.concat outs.
Proof. exact paired_history_all. Qed.
Print Assumptions C37_pair_sees_output.

(** Whatever the return codes: the session stays as it was, and each callback
    contributes all of its text (returning 1) or an initial part of it. *)
Theorem C37_any_codes : forall pl a rq st c h w zs st' w' evs,
  PairedSession pl a rq st c -> Forall InSession h ->
  run_history SudoPair pl h st w = (Done (zs, st'), w') -> w_trace w' = w_trace w ++ evs ->
  st' = st /\ Received rq h zs (delivered c evs).
Proof. exact paired_history. Qed.
Print Assumptions C37_any_codes.

(** Output in two writes, the second interrupted once; a window change. *)
Definition busy_world : world := world_of k_root
  (write_turns 2 ++ [t AOk; t AOk; t (AErr EINTR); t AOk] ++ write_turns 3 ++ write_turns 10).

Example C37_example : PairedSession release to_root to_root_rq yes_state 0
  /\ Forall InSession [CbLog Stdout (B "hello"); CbLog Ttyin (B "typed"); CbWinsize 24 80]
  /\ (exists st' w', run_history SudoPair release [CbLog Stdout (B "hello"); CbLog Ttyin (B "typed"); CbWinsize 24 80]
        yes_state busy_world = (Done ([1; 1; 1], st'), w')
      /\ delivered 0 (w_trace w') = B "hello" ++ [x1b] ++ B "[8;24;80t")
  /\ Forall2 (Mirrors to_root_rq) [CbLog Stdout (B "hello"); CbLog Ttyin (B "typed"); CbWinsize 24 80]
       [B "hello"; []; [x1b] ++ B "[8;24;80t"].
Proof.
  split; [exact yes_paired|]. split; [repeat constructor|]. split.
  - set (r := run_history _ _ _ _ _). destruct (codes_run r [1; 1; 1]) as [st' H]; [vm_compute; reflexivity|].
    exists st', (snd r). split; [exact H|vm_compute; reflexivity].
  - constructor; [apply MI_output; [right; left; reflexivity|reflexivity]|].
    constructor; [apply MI_quiet; right; intros [H|[H|H]]; discriminate|].
    constructor; [|constructor].
    + change ([x1b] ++ B "[8;24;80t") with ([x1b] ++ B "[8;" ++ B "24" ++ B ";" ++ B "80" ++ B "t").
      constructor; apply Decimal_iff; reflexivity.
Qed.

(** *** C38: output reaches the pair before sudo goes on *)
Theorem C38_delivered_first : forall pl a rq st c s d w o w' evs,
  PairedSession pl a rq st c -> OutputStream s -> rq_log rq s = true ->
  core_log SudoPair pl s d st w = (o, w') -> w_trace w' = w_trace w ++ evs ->
  Only (fun x => WritesTo c x \/ ErrorText x) evs
  /\ match o with
     | Done z => (z = 1 /\ delivered c evs = d) \/ (z = 0 /\ Prefix (delivered c evs) d /\ Exists Failed evs)
     | Panicked => False
     | Stopped => Prefix (delivered c evs) d
     end.
Proof. exact paired_output. Qed.
Print Assumptions C38_delivered_first.

(** Data is passed on exactly when no call made for it failed. *)
Theorem C38_exactly : forall pl a rq st c s d w z w' evs,
  PairedSession pl a rq st c -> OutputStream s -> rq_log rq s = true ->
  core_log SudoPair pl s d st w = (Done z, w') -> w_trace w' = w_trace w ++ evs ->
  (z = 1 <-> Forall (fun ev => ~ Failed ev) evs).
Proof. exact output_exactly. Qed.
Print Assumptions C38_exactly.

(** "Exactly when": the converse fails. All bytes arrive, but restoring the
    disposition of SIGINT fails: the callback returns 0. *)
Definition C38_full : Prop := forall pl a rq st c s d w z w' evs,
  PairedSession pl a rq st c -> OutputStream s -> rq_log rq s = true ->
  core_log SudoPair pl s d st w = (Done z, w') -> w_trace w' = w_trace w ++ evs ->
  (z = 1 <-> delivered c evs = d).

Definition restore_fails_world : world := world_of k_root
  ([t AOk; t AOk; t (ANum 5); t (AErr EINVAL)] ++ [t (ANum 1); t (ANum 11); t (ANum 22); t (ANum 1)]).

Theorem C38_refuted : exists pl a rq st c s d w w' evs,
  PairedSession pl a rq st c /\ OutputStream s /\ rq_log rq s = true
  /\ core_log SudoPair pl s d st w = (Done 0, w') /\ w_trace w' = w_trace w ++ evs
  /\ delivered c evs = d.
Proof.
  set (r := core_log SudoPair release Stdout (B "hello") yes_state restore_fails_world).
  exists release, to_root, to_root_rq, yes_state, 0%nat, Stdout, (B "hello"), restore_fails_world, (snd r), (w_trace (snd r)).
  split; [exact yes_paired|]. split; [right; left; reflexivity|]. split; [reflexivity|].
  split; [|split; [exact (no_trace restore_fails_world _ eq_refl)|vm_compute; reflexivity]].
  assert (H : fst r = Done 0) by (vm_compute; reflexivity).
  change (r = (Done 0, snd r)). destruct r as [o w]. cbn in H |- *. rewrite H. reflexivity.
Qed.
Print Assumptions C38_refuted.

Theorem C38_not_full : ~ C38_full.
Proof.
  intros F. destruct C38_refuted as (pl & a & rq & st & c & s & d & w & w' & evs & P & S & L & H & T & E).
  destruct (F _ _ _ _ _ _ _ _ _ _ _ P S L H T) as [_ X]. discriminate (X E).
Qed.
Print Assumptions C38_not_full.

(** The connection breaks after three bytes. *)
Definition broken_world : world := world_of k_root
  (write_turns 3 ++ [t AOk; t AOk; t (AErr 32); t AOk] ++ [t (ANum 1); t (ANum 11); t (ANum 22); t (ANum 1)]).

Example C38_example : PairedSession release to_root to_root_rq yes_state 0
  /\ fst (core_log SudoPair release Ttyout (B "hello") yes_state broken_world) = Done 0
  /\ delivered 0 (w_trace (snd (core_log SudoPair release Ttyout (B "hello") yes_state broken_world))) = B "hel"
  /\ printed 3 (w_trace (snd (core_log SudoPair release Ttyout (B "hello") yes_state broken_world)))
     = [x0a] ++ B "sudo_pair: pair ended the session" ++ [x0a].
Proof. split; [exact yes_paired|]. split; [vm_compute; reflexivity|]. split; vm_compute; reflexivity. Qed.

(** *** C39: hints *)
Theorem C39_hints : forall P pl a rq st p w w',
  Describes pl a rq -> core_open P pl a (pstate0 P) w = (Done (1, st), w') -> st_plugin st = Some p ->
  forall s d w1,
  (rq_log rq s = false -> pg_ignore_hints P = false -> core_log P pl s d st w1 = (Done 1, w1))
  /\ (rq_log rq s = true \/ pg_ignore_hints P = true -> forall w2,
      (pg_log P pl s p d w1 = (Done (Ok tt), w2) -> core_log P pl s d st w1 = (Done 1, w2))
      /\ (pg_log P pl s p d w1 = (Panicked, w2) -> core_log P pl s d st w1 = (Done 0, w2))
      /\ (pg_log P pl s p d w1 = (Stopped, w2) -> core_log P pl s d st w1 = (Stopped, w2))).
Proof. exact hints_decide. Qed.
Print Assumptions C39_hints.

Theorem C39_pairing_plugin : forall pl a rq st s d w,
  OpenSession pl a rq st -> rq_log rq s = false ->
  core_log SudoPair pl s d st w = (Done 1, w).
Proof. exact open_unhinted. Qed.
Print Assumptions C39_pairing_plugin.

(** The same command with only terminal output marked for logging. *)
Definition to_root_silent : open_args := {|
  oa_version := oa_version to_root; oa_printf := oa_printf to_root; oa_settings := oa_settings to_root;
  oa_user_info := oa_user_info to_root;
  oa_command_info := Some [B "command=/bin/cat"; B "runas_uid=0"; B "runas_gid=0"; B "runas_groups=0"; B "iolog_ttyout=true"];
  oa_argv := oa_argv to_root; oa_user_env := oa_user_env to_root; oa_plugin_options := oa_plugin_options to_root |}.

Lemma silent_session : exists rq st c, PairedSession release to_root_silent rq st c
  /\ (forall s, s <> Ttyout -> rq_log rq s = false).
Proof.
  destruct (io_env_new release (B "sudo_pair") (B "1.2.0") to_root_silent) as [[e|]|] eqn:E;
    [|vm_compute in E; discriminate|vm_compute in E; discriminate].
  pose proof (env_Describes _ _ _ _ _ E) as D. pose proof (env_Matches _ _ _ _ _ _ D E) as M.
  assert (NE : ~ Exempt (request_of e)).
  { apply (not_exempt_by release e _ M). vm_compute in E. injection E as <-. vm_compute. reflexivity. }
  assert (NC : rq_command (request_of e) <> []) by (vm_compute in E; injection E as <-; vm_compute; discriminate).
  assert (HL : forall s, s <> Ttyout -> rq_log (request_of e) s = false)
    by (vm_compute in E; injection E as <-; intros [] H; vm_compute; try reflexivity; contradiction).
  destruct (code_run (core_open SudoPair release to_root_silent (pstate0 _) yes_world) 1) as [st H]; [vm_compute; reflexivity|].
  set (w' := snd (core_open SudoPair release to_root_silent (pstate0 _) yes_world)) in *.
  destruct (approval_needed _ _ _ _ _ _ (w_trace w') D NE NC H (no_trace yes_world _ eq_refl)) as [c A].
  exists (request_of e), st, c. split; [|exact HL].
  split; [exact D|]. split; [exact NE|]. split; [exact NC|].
  exists yes_world, w', (w_trace w'). split; [exact H|]. split; [exact (no_trace yes_world _ eq_refl)|exact A].
Qed.

Example C39_example : exists rq st c, PairedSession release to_root_silent rq st c
  /\ forall w, core_log SudoPair release Stdout (B "secret") st w = (Done 1, w).
Proof.
  destruct silent_session as (rq & st & c & P & L). exists rq, st, c. split; [exact P|].
  intros w. apply (C39_pairing_plugin release to_root_silent rq); [apply (paired_open _ _ _ _ _ P)|apply L; discriminate].
Qed.

(** A plugin that panics when it is given anything, with and without
    [IGNORE_IOLOG_HINTS]: terminal output reaches it, input does not unless it
    ignores the hints. *)
Definition touchy (ignore : bool) : plugin := {|
  pg_state := unit; pg_error := unit; pg_name := B "p"; pg_version := B "1"; pg_ignore_hints := ignore;
  pg_open := fun _ _ => ret (Ok tt); pg_close := fun _ _ _ => ret tt; pg_drop := fun _ => ret tt;
  pg_log := fun _ _ _ _ => panic; pg_winsize := fun _ _ _ _ => panic;
  pg_from_error := fun _ => tt; pg_open_status := fun _ => OPEN_DENY; pg_log_status := fun _ => LOG_DENY;
  pg_display := fun _ => B "x"; pg_source := fun _ => None |}.
Example C39_hints_example :
  let run ignore := codes (run_history (touchy ignore) release
    (CbOpen to_root_silent :: map (fun s => CbLog s (B "x")) [Ttyin; Ttyout; Stdin; Stdout; Stderr]) (pstate0 _) yes_world) in
  (exists rq, Describes release to_root_silent rq) /\ run false = Some [1; 1; 0; 1; 1; 1] /\ run true = Some [1; 0; 0; 0; 0; 0].
Proof.
  cbv zeta. split; [|split; vm_compute; reflexivity].
  destruct silent_session as (rq & st & c & (D & _) & _). exists rq. exact D.
Qed.

(** *** C40: piped standard input *)
Theorem C40_stdin_refused : forall pl a rq st c d w o w' evs,
  PairedSession pl a rq st c -> rq_log rq Stdin = true ->
  core_log SudoPair pl Stdin d st w = (o, w') -> w_trace w' = w_trace w ++ evs ->
  Only ErrorText evs /\ (o = Done 0 \/ o = Stopped)
  /\ (HonestPrintf evs -> Prefix (printed 3 evs)
       ([x0a] ++ B "sudo_pair: redirection of stdin to paired sessions is prohibited" ++ [x0a])).
Proof. exact stdin_refused. Qed.
Print Assumptions C40_stdin_refused.

Definition C40_full : Prop := forall pl a rq st c d w o w',
  PairedSession pl a rq st c -> core_log SudoPair pl Stdin d st w = (o, w') -> o = Done 0 \/ o = Stopped.

(** Without the hint it passes, in every paired session. *)
Theorem C40_unmarked_passes : forall pl a rq st c d w,
  PairedSession pl a rq st c -> rq_log rq Stdin = false ->
  core_log SudoPair pl Stdin d st w = (Done 1, w).
Proof. exact (fun pl a rq st c d w P => open_unhinted pl a rq st Stdin d w (paired_open pl a rq st c P)). Qed.
Print Assumptions C40_unmarked_passes.

Theorem C40_refuted : exists pl a rq st c d w,
  PairedSession pl a rq st c /\ d <> [] /\ core_log SudoPair pl Stdin d st w = (Done 1, w).
Proof.
  destruct silent_session as (rq & st & c & P & L). exists release, to_root_silent, rq, st, c, (B "rm -rf /"), yes_world.
  split; [exact P|]. split; [discriminate|]. apply (C40_unmarked_passes _ _ _ _ _ _ _ P). apply L. discriminate.
Qed.
Print Assumptions C40_refuted.

Theorem C40_not_full : ~ C40_full.
Proof.
  intros F. destruct C40_refuted as (pl & a & rq & st & c & d & w & P & _ & H).
  destruct (F _ _ _ _ _ _ _ _ _ P H); discriminate.
Qed.
Print Assumptions C40_not_full.

Definition reject_world : world := world_of k_root [t (ANum 1); t (ANum 11); t (ANum 53); t (ANum 1)].
Example C40_example : PairedSession release to_root to_root_rq yes_state 0 /\ rq_log to_root_rq Stdin = true
  /\ fst (core_log SudoPair release Stdin (B "rm -rf /") yes_state reject_world) = Done 0
  /\ printed 3 (w_trace (snd (core_log SudoPair release Stdin (B "rm -rf /") yes_state reject_world)))
     = [x0a] ++ B "sudo_pair: redirection of stdin to paired sessions is prohibited" ++ [x0a].
Proof. split; [exact yes_paired|]. split; [reflexivity|]. split; vm_compute; reflexivity. Qed.

(** *** C41: window sizes *)
Theorem C41_window_size : forall pl a rq st c l k sl sk w o w' evs,
  PairedSession pl a rq st c -> Decimal l sl -> Decimal k sk ->
  core_change_winsize SudoPair pl l k st w = (o, w') -> w_trace w' = w_trace w ++ evs ->
  let d := [x1b] ++ B "[8;" ++ sl ++ B ";" ++ sk ++ B "t" in
  Only (fun x => WritesTo c x \/ ErrorText x) evs
  /\ match o with
     | Done z => (z = 1 /\ delivered c evs = d) \/ (z = 0 /\ Prefix (delivered c evs) d /\ Exists Failed evs)
     | Panicked => False
     | Stopped => Prefix (delivered c evs) d
     end.
Proof. exact paired_winsize. Qed.
Print Assumptions C41_window_size.

(** It is accepted exactly when no call made for it failed. *)
Theorem C41_exactly : forall pl a rq st c l k w z w' evs,
  PairedSession pl a rq st c ->
  core_change_winsize SudoPair pl l k st w = (Done z, w') -> w_trace w' = w_trace w ++ evs ->
  (z = 1 <-> Forall (fun ev => ~ Failed ev) evs).
Proof. exact winsize_exactly. Qed.
Print Assumptions C41_exactly.

(** "Returns 1 iff it was fully delivered": as for output, not if restoring
    the disposition of SIGINT fails. *)
Definition C41_full : Prop := forall pl a rq st c l k sl sk w z w' evs,
  PairedSession pl a rq st c -> Decimal l sl -> Decimal k sk ->
  core_change_winsize SudoPair pl l k st w = (Done z, w') -> w_trace w' = w_trace w ++ evs ->
  (z = 1 <-> delivered c evs = [x1b] ++ B "[8;" ++ sl ++ B ";" ++ sk ++ B "t").

Definition resize_fails_world : world := world_of k_root
  ([t AOk; t AOk; t (ANum 10); t (AErr EINVAL)] ++ [t (ANum 1); t (ANum 11); t (ANum 22); t (ANum 1)]).

Theorem C41_refuted : exists pl a rq st c l k sl sk w w' evs,
  PairedSession pl a rq st c /\ Decimal l sl /\ Decimal k sk
  /\ core_change_winsize SudoPair pl l k st w = (Done 0, w') /\ w_trace w' = w_trace w ++ evs
  /\ delivered c evs = [x1b] ++ B "[8;" ++ sl ++ B ";" ++ sk ++ B "t".
Proof.
  set (r := core_change_winsize SudoPair release 24 80 yes_state resize_fails_world).
  exists release, to_root, to_root_rq, yes_state, 0%nat, 24, 80, (B "24"), (B "80"), resize_fails_world, (snd r), (w_trace (snd r)).
  split; [exact yes_paired|]. split; [apply Decimal_iff; reflexivity|]. split; [apply Decimal_iff; reflexivity|].
  split; [|split; [exact (no_trace resize_fails_world _ eq_refl)|vm_compute; reflexivity]].
  assert (H : fst r = Done 0) by (vm_compute; reflexivity).
  change (r = (Done 0, snd r)). destruct r as [o w]. cbn in H |- *. rewrite H. reflexivity.
Qed.
Print Assumptions C41_refuted.

Theorem C41_not_full : ~ C41_full.
Proof.
  intros F. destruct C41_refuted as (pl & a & rq & st & c & l & k & sl & sk & w & w' & evs & P & L & K & H & T & E).
  destruct (F _ _ _ _ _ _ _ _ _ _ _ _ _ P L K H T) as [_ X]. discriminate (X E).
Qed.
Print Assumptions C41_not_full.

Example C41_example : PairedSession release to_root to_root_rq yes_state 0
  /\ Decimal 24 (B "24") /\ Decimal 4294967295 (B "4294967295")
  /\ fst (core_change_winsize SudoPair release 24 4294967295 yes_state (world_of k_root (write_turns 18))) = Done 1
  /\ delivered 0 (w_trace (snd (core_change_winsize SudoPair release 24 4294967295 yes_state (world_of k_root (write_turns 18)))))
     = [x1b] ++ B "[8;24;4294967295t".
Proof.
  split; [exact yes_paired|]. split; [apply Decimal_iff; reflexivity|]. split; [apply Decimal_iff; reflexivity|].
  split; vm_compute; reflexivity.
Qed.

(** *** C42: outside a session *)
Theorem C42_inactive : forall P pl cb st w,
  st_plugin st = None \/ st_env st = None ->
  match cb with CbLog _ _ | CbWinsize _ _ => True | _ => False end ->
  run_callback P pl cb st w = (Done (0, st), w).
Proof. exact inactive. Qed.
Print Assumptions C42_inactive.

(** States in which that is so: initially, after closing, after an opening
    that was refused or ran no command. *)
Theorem C42_states :
  (forall P, st_plugin (pstate0 P) = None)
  /\ (forall P x e st w st' w', core_close P x e st w = (Done st', w') -> st_plugin st' = None)
  /\ (forall pl a rq w z st' w', Describes pl a rq -> core_open SudoPair pl a (pstate0 _) w = (Done (z, st'), w') ->
       rq_command rq = [] \/ z <> 1 -> st_plugin st' = None).
Proof. exact inactive_states. Qed.
Print Assumptions C42_states.

(** An opening without a command, as for [sudo -V], is allowed and does
    nothing, nor does anything up to the closing. *)
Theorem C42_no_command : forall pl a rq h x e w,
  Describes pl a rq -> rq_command rq = [] -> ~ MasklessAddr pl (oa_settings a) ->
  Forall (fun cb => match cb with CbLog _ _ | CbWinsize _ _ => True | _ => False end) h ->
  run_history SudoPair pl (CbOpen a :: h ++ [CbClose x e]) (pstate0 _) w
  = (Done (1 :: map (fun _ => 0) h ++ [0], pstate0 _), w).
Proof. exact no_command_history. Qed.
Print Assumptions C42_no_command.

Definition only_version : open_args := {|
  oa_version := oa_version to_root; oa_printf := true; oa_settings := Some settings0; oa_user_info := Some user_info0;
  oa_command_info := None; oa_argv := []; oa_user_env := None; oa_plugin_options := None |}.

Example C42_no_command_example : exists rq, Describes release only_version rq /\ rq_command rq = []
  /\ ~ MasklessAddr release (oa_settings only_version)
  /\ run_history SudoPair release [CbOpen only_version; CbLog Ttyin (B "x"); CbClose 0 0] (pstate0 _) yes_world
     = (Done ([1; 0; 0], pstate0 _), yes_world).
Proof.
  destruct (io_env_new release (B "n") (B "v") only_version) as [[e|]|] eqn:E;
    [|vm_compute in E; discriminate E|vm_compute in E; discriminate E].
  exists (request_of e). split; [exact (env_Describes _ _ _ _ _ E)|].
  assert (X : match io_env_new release (B "n") (B "v") only_version with
              | Some (Ok e') => ci_command (en_command_info e') = [] | _ => True end) by (vm_compute; reflexivity).
  rewrite E in X. split; [exact X|].
  assert (N : ~ MasklessAddr release (oa_settings only_version)) by (apply not_maskless; vm_compute; discriminate).
  split; [exact N|].
  exact (C42_no_command release only_version (request_of e) [CbLog Ttyin (B "x")] 0 0 yes_world
           (env_Describes _ _ _ _ _ E) X N (Forall_cons (CbLog Ttyin (B "x")) I (Forall_nil _))).
Qed.

Example C42_example :
  run_history panicking release [CbLog Ttyout (B "x"); CbWinsize 1 2; CbClose 0 0; CbLog Stdin (B "y")] (pstate0 _) yes_world
  = (Done ([0; 0; 0; 0], pstate0 _), yes_world)
  /\ codes (run_history SudoPair release [CbOpen (to_both (B "wheel")); CbLog Ttyout (B "x")] (pstate0 _) report_world)
     = Some [-1; 0].
Proof. split; [reflexivity|vm_compute; reflexivity]. Qed.

(** *** C43: closing *)
Theorem C43_close_disconnects : forall pl a rq st c x err w o w' evs,
  PairedSession pl a rq st c ->
  core_close SudoPair x err st w = (o, w') -> w_trace w' = w_trace w ++ evs ->
  (o = Stopped /\ Only (fun y => y = CShutdown c \/ y = CClose c) evs)
  \/ (o = Done (pstate0 _) /\ ~ In c (k_open (w_k w'))
      /\ exists s1 s2 cl, evs = [s1; s2; cl]
         /\ e_call s1 = CShutdown c /\ e_call s2 = CShutdown c /\ Is (CClose c) AOk cl).
Proof. exact paired_close_gone. Qed.
Print Assumptions C43_close_disconnects.

(** Whatever happened before, an opening after a close is a first opening. *)
Theorem C43_fresh_after_close : forall pl h x e st0 w zs st w' a w2,
  run_history SudoPair pl (h ++ [CbClose x e]) st0 w = (Done (zs, st), w') ->
  core_open SudoPair pl a st w2 = core_open SudoPair pl a (pstate0 _) w2.
Proof. exact after_close. Qed.
Print Assumptions C43_fresh_after_close.

Theorem C43_nothing_open : forall P x e st w,
  st_plugin st = None -> core_close P x e st w = (Done (pstate0 P), w).
Proof. exact close_none. Qed.
Print Assumptions C43_nothing_open.

Example C43_example : PairedSession release to_root to_root_rq yes_state 0
  /\ seen (w_trace (snd (core_close SudoPair 0 0 yes_state (world_of (w_k (snd yes_run)) [t AOk; t (AErr 107); t AOk]))))
     = [(CShutdown 0, AOk); (CShutdown 0, AErr 107); (CClose 0, AOk)]
  /\ k_open (w_k (snd yes_run)) = [0%nat].
Proof. split; [exact yes_paired|]. split; vm_compute; reflexivity. Qed.

(** *** C56: each opening on its own *)
Lemma second_unasked : exists pl a1 a2 rq2 w st,
  Describes pl a2 rq2 /\ ~ Exempt rq2 /\ rq_command rq2 <> []
  /\ run_history SudoPair pl [CbOpen a1; CbOpen a2] (pstate0 _) w = (Done ([1; 1], st), w).
Proof.
  destruct (io_env_new release (B "sudo_pair") (B "1.2.0") to_root_exempted) as [[e|]|] eqn:E;
    [|vm_compute in E; discriminate|vm_compute in E; discriminate].
  destruct (io_env_new release (B "sudo_pair") (B "1.2.0") to_root) as [[e2|]|] eqn:E2;
    [|vm_compute in E2; discriminate|vm_compute in E2; discriminate].
  assert (X : is_exempt (pair0 e) release = Some true /\ path_eqb (ci_command (en_command_info e)) [] = false)
    by (vm_compute in E; injection E as <-; vm_compute; split; reflexivity).
  destruct (exempt_reopen release to_root_exempted e yes_world E (proj2 X) (proj1 X)) as [H2 H1].
  exists release, to_root_exempted, to_root, to_root_rq, yes_world, (ps e (Some (pair0 e))).
  split; [exact to_root_describes|]. split; [exact to_root_not_exempt|]. split; [discriminate|].
  cbn [run_history run_callback]. rewrite (bind_Done _ _ _ _ _ H1).
  rewrite (stale_env SudoPair release to_root_exempted to_root e e2 (ps e (Some (pair0 e))) e yes_world E E2 eq_refl eq_refl) in H2.
  rewrite (bind_Done _ _ _ _ _ (bind_Done _ _ _ _ _ H2)). reflexivity.
Qed.

Definition C56_full : Prop := forall pl h w zs st w' a w2,
  run_history SudoPair pl h (pstate0 _) w = (Done (zs, st), w') ->
  code (core_open SudoPair pl a st w2) = code (core_open SudoPair pl a (pstate0 _) w2).

(** It holds if the last thing that happened is a close... *)
Theorem C56_after_close : forall pl h x e st0 w zs st w' a w2,
  run_history SudoPair pl (h ++ [CbClose x e]) st0 w = (Done (zs, st), w') ->
  core_open SudoPair pl a st w2 = core_open SudoPair pl a (pstate0 _) w2.
Proof. exact after_close. Qed.
Print Assumptions C56_after_close.

(** ...and otherwise, once the arguments of one opening have been read, those
    of later openings make no difference. *)
Theorem C56_arguments_ignored : forall pl a1 a2 rq1 rq2 st w,
  Describes pl a1 rq1 -> Describes pl a2 rq2 ->
  ~ MasklessAddr pl (oa_settings a1) -> ~ MasklessAddr pl (oa_settings a2) ->
  rq_printf rq1 = rq_printf rq2 -> st_env st <> None ->
  core_open SudoPair pl a1 st w = core_open SudoPair pl a2 st w.
Proof. exact second_open_stale. Qed.
Print Assumptions C56_arguments_ignored.

(** An exempt opening followed by one that is not exempt: nobody is asked. *)
Theorem C56_refuted : exists pl a1 a2 rq2 w st,
  Describes pl a2 rq2 /\ ~ Exempt rq2 /\ rq_command rq2 <> []
  /\ run_history SudoPair pl [CbOpen a1; CbOpen a2] (pstate0 _) w = (Done ([1; 1], st), w).
Proof. exact second_unasked. Qed.
Print Assumptions C56_refuted.

(** For a plugin whose close panics the arguments survive even a close. *)
Theorem C56_panicking_close : exists pl a e w, w_trace w = [] /\
  run_history panicking pl [CbOpen a; CbClose 0 0] (pstate0 _) w = (Done ([1; 0], mkPstate (Some e) None), w).
Proof.
  destruct (io_env_new release (B "p") (B "1") to_root) as [[e|]|] eqn:E;
    [|vm_compute in E; discriminate|vm_compute in E; discriminate].
  exists release, to_root, e, yes_world. split; [reflexivity|].
  cbn [run_history run_callback]. unfold core_open. cbn [pg_name pg_version panicking pf_new].
  rewrite E. cbn [pstate0 st_env st_plugin].
  assert (N : path_eqb (ci_command (en_command_info e)) [] = false) by (vm_compute in E; injection E as <-; vm_compute; reflexivity).
  rewrite N. reflexivity.
Qed.
Print Assumptions C56_panicking_close.

Example C56_example : exists rq1 rq2 st, Describes release to_root_exempted rq1 /\ Describes release to_root rq2
  /\ ~ MasklessAddr release (oa_settings to_root_exempted) /\ ~ MasklessAddr release (oa_settings to_root)
  /\ rq_printf rq1 = rq_printf rq2 /\ @st_env SudoPair st <> None.
Proof.
  destruct to_root_exempted_exempt as (rq & D & X & C & N). exists rq, to_root_rq, yes_state.
  split; [exact D|]. split; [exact to_root_describes|]. split; [exact N|]. split; [exact N|].
  split; [rewrite (d_printf _ _ _ D); reflexivity|].
  destruct (paired_state _ _ _ _ _ yes_paired) as (e & _ & _ & ->). discriminate.
Qed.

(** *** C61: terminal input *)
Theorem C61_ttyin : forall pl a rq st d w,
  OpenSession pl a rq st -> core_log SudoPair pl Ttyin d st w = (Done 1, w).
Proof. exact ttyin_ignored. Qed.
Print Assumptions C61_ttyin.

Example C61_example : OpenSession release to_root to_root_rq yes_state.
Proof. exact (paired_open _ _ _ _ _ yes_paired). Qed.
