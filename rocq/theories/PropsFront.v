(** Property theorems about the exported table and the sessions sudo runs with
    it: C89, C90. *)
From Verif Require Import Base Num Path Version Options World Sys Io Socket Env Core Pair Spec TraceSpec SessionSpec CallbackSpec
  RequestProofs PairPure OpenFacts AskFacts SessionFacts CallbackFacts HistoryFacts Samples Worlds PropsApproval PropsSession
  Frontend FrontSpec FrontFacts.
Local Open Scope Z_scope.

(** *** C89: what reaches a plugin *)
Theorem C89_table : forall P pl,
  t_type (exported P pl) = 2 /\ t_version (exported P pl) = 65553
  /\ t_register_hooks (exported P pl) = None /\ t_deregister_hooks (exported P pl) = None
  /\ t_log_suspend (exported P pl) = None /\ t_event_alloc (exported P pl) = None
  /\ t_open (exported P pl) <> None /\ t_close (exported P pl) <> None /\ t_show_version (exported P pl) <> None
  /\ (forall ev, (exists n, ev = Suspended n) \/ asked (exported P pl) ev <> None).
Proof. exact table_slots. Qed.
Print Assumptions C89_table.

(** The plugin is opened once, for the request sudo was given. *)
Theorem C89_open : forall P pl a rq open,
  Describes pl a rq -> rq_command rq <> [] -> ~ MasklessAddr pl (oa_settings a) ->
  t_open (exported P pl) = Some open ->
  exists e, Matches e rq /\ forall w w2,
    (forall p, pg_open P pl e w = (Done (Ok p), w2) -> open a (pstate0 P) w = (Done (1, mkPstate (Some e) (Some p)), w2))
    /\ (pg_open P pl e w = (Panicked, w2) -> open a (pstate0 P) w = (Done (-1, mkPstate (Some e) None), w2))
    /\ (pg_open P pl e w = (Stopped, w2) -> open a (pstate0 P) w = (Stopped, w2)).
Proof. exact any_open. Qed.
Print Assumptions C89_open.

(** Data and window sizes reach the method meant for them, unchanged, once. *)
Theorem C89_asked : forall P pl a rq st p w w' open,
  Describes pl a rq -> t_open (exported P pl) = Some open ->
  open a (pstate0 P) w = (Done (1, st), w') -> st_plugin st = Some p -> forall ev ask,
  asked (exported P pl) ev = Some ask -> forall w1,
  match ev with
  | Moved s d => rq_log rq s = false /\ pg_ignore_hints P = false -> ask st w1 = (Done 1, w1)
  | _ => True
  end
  /\ forall m, match ev with
     | Moved s d => (rq_log rq s = true \/ pg_ignore_hints P = true) /\ m = pg_log P pl s p d
     | Resized l c => m = pg_winsize P pl p l c
     | Suspended _ => False
     end -> forall w2,
     (m w1 = (Done (Ok tt), w2) -> ask st w1 = (Done 1, w2))
     /\ (m w1 = (Panicked, w2) -> ask st w1 = (Done 0, w2))
     /\ (m w1 = (Stopped, w2) -> ask st w1 = (Stopped, w2)).
Proof. exact any_asked. Qed.
Print Assumptions C89_asked.

(** The exit status and the error reach the plugin, in this order. *)
Theorem C89_close : forall P pl st p close x err w w2,
  st_plugin st = Some p -> t_close (exported P pl) = Some close ->
  (pg_close P p x err w = (Done tt, w2) -> close x err st w = (Done (pstate0 P), w2))
  /\ (pg_close P p x err w = (Panicked, w2) -> close x err st w = (Done (mkPstate (st_env st) None), w2))
  /\ (pg_close P p x err w = (Stopped, w2) -> close x err st w = (Stopped, w2)).
Proof. exact any_close. Qed.
Print Assumptions C89_close.

(** A plugin that accepts only the window of 24 lines and 80 columns, on
    standard output only "hello", and panics unless the command exits with 3. *)
Definition picky : plugin := {|
  pg_state := unit; pg_error := unit; pg_name := B "p"; pg_version := B "1"; pg_ignore_hints := false;
  pg_open := fun _ _ => ret (Ok tt);
  pg_close := fun _ x e => if (x =? 3) && (e =? 0) then ret tt else panic;
  pg_drop := fun _ => ret tt;
  pg_log := fun _ s _ d => match s with Stdout => if path_eqb d (B "hello") then ret (Ok tt) else panic | _ => panic end;
  pg_winsize := fun _ _ l c => if (l =? 24) && (c =? 80) then ret (Ok tt) else panic;
  pg_from_error := fun _ => tt; pg_open_status := fun _ => OPEN_DENY; pg_log_status := fun _ => LOG_DENY;
  pg_display := fun _ => B "x"; pg_source := fun _ => None |}.

(** What the user and the command were given, and whether the session goes
    on; nothing if the command was not run. *)
Definition glance {P} (r : outcome (option (front P)) * world) : option (list (stream * bytes) * bool) :=
  match fst r with Done (Some f) => Some (f_given f, f_live f) | _ => None end.
Definition closes {P} (T : io_table P) (x err : Z) (r : outcome (option (front P)) * world) : option bool :=
  match r with
  | (Done (Some f), w) =>
      match fst (front_close T x err f w) with
      | Done st => Some (match st_env st with Some _ => false | None => true end)
      | _ => None
      end
  | _ => None
  end.

Example C89_example :
  let T := exported picky release in
  let run h := front_run T to_root h yes_world in
  Describes release to_root to_root_rq
  /\ glance (run [Moved Stdout (B "hello"); Suspended 20; Resized 24 80; Moved Stdout (B "hello")])
     = Some ([(Stdout, B "hello"); (Stdout, B "hello")], true)
  /\ glance (run [Moved Stdout (B "hello"); Resized 80 24; Moved Stdout (B "hello")]) = Some ([(Stdout, B "hello")], false)
  /\ glance (run [Moved Stdout (B "bye")]) = Some ([], false)
  /\ closes T 3 0 (run []) = Some true /\ closes T 0 3 (run []) = Some false.
Proof. cbv zeta. split; [exact to_root_describes|]. repeat split; vm_compute; reflexivity. Qed.

(** A function that returned -1 is not called again: everything it would be
    asked about goes through, and nothing else happens... *)
Theorem C89_switched_off : forall P (T : io_table P) h ev f w w' ask,
  f_live f = true -> f_off f = [] -> asked T ev = Some ask -> ask (f_state f) w = (Done (-1), w') ->
  Forall (SameFunction ev) h -> exists f', front_steps T (ev :: h) f w = (Done f', w')
  /\ f_live f' = true /\ f_state f' = f_state f /\ f_given f' = f_given f ++ flat_map data_of (ev :: h).
Proof. exact no_longer_called. Qed.
Print Assumptions C89_switched_off.

(** ...but the others still are, and can end the session. *)
Theorem C89_others_asked : forall P (T : io_table P) ev ev' f w w' ask ask',
  f_live f = true -> f_off f = [] -> asked T ev = Some ask -> ask (f_state f) w = (Done (-1), w') ->
  ~ SameFunction ev ev' -> asked T ev' = Some ask' ->
  forall w2, ask' (f_state f) w' = (Done 0, w2) ->
  exists f', front_steps T [ev; ev'] f w = (Done f', w2) /\ f_live f' = false /\ f_given f' = f_given f ++ data_of ev.
Proof. exact others_still_called. Qed.
Print Assumptions C89_others_asked.

(** A table that wants to hear neither of suspensions nor of typing, and ends
    the session at other things. *)
Definition deaf : io_table picky := {|
  t_type := 2; t_version := 65553;
  t_open := None; t_close := None; t_show_version := None;
  t_log_ttyin := Some (fun _ _ => ret (-1)); t_log_ttyout := Some (fun _ _ => ret 0); t_log_stdin := Some (fun _ _ => ret 0);
  t_log_stdout := Some (fun _ _ => ret 0); t_log_stderr := Some (fun _ _ => ret 0);
  t_register_hooks := None; t_deregister_hooks := None;
  t_change_winsize := Some (fun _ _ _ => ret 0); t_log_suspend := Some (fun _ _ => ret (-1)); t_event_alloc := None |}.
Example C89_switched_off_example :
  let f := mkFront (pstate0 picky) [] [] true in
  let run h := match fst (front_steps deaf h f yes_world) with Done f' => Some (f_given f', f_live f') | _ => None end in
  run [Moved Ttyin (B "a"); Moved Ttyin (B "b")] = Some ([(Ttyin, B "a"); (Ttyin, B "b")], true)
  /\ run [Suspended 20; Suspended 18] = Some ([], true)
  /\ run [Suspended 20; Resized 24 80] = Some ([], false)
  /\ run [Moved Ttyin (B "a"); Moved Ttyout (B "b")] = Some ([(Ttyin, B "a")], false)
  /\ SameFunction (Suspended 20) (Suspended 18) /\ ~ SameFunction (Suspended 20) (Resized 24 80).
Proof. cbv zeta. repeat (split; [vm_compute; reflexivity|]). split; [constructor|]. intros H. inversion H. Qed.

(** *** C90: a whole session with the pairing plugin *)

(** If the command runs, it was approved; no function is ever switched off;
    and whatever was passed on was shown to the pair first, as far as it is
    marked. *)
Theorem C90_watched : forall pl a rq h w o w' evs,
  Describes pl a rq -> ~ Exempt rq -> rq_command rq <> [] ->
  front_run (exported SudoPair pl) a h w = (o, w') -> w_trace w' = w_trace w ++ evs ->
  match o with
  | Done (Some f) => f_off f = [] /\ exists c asking after, evs = asking ++ after /\ Approved rq c asking
      /\ PairedSession pl a rq (f_state f) c /\ Watched rq h f (delivered c after)
  | Panicked => False
  | _ => True
  end.
Proof. exact front_paired. Qed.
Print Assumptions C90_watched.

(** At the end the connection to the pair is closed. *)
Theorem C90_closed : forall pl a rq f c x err w o w' evs,
  PairedSession pl a rq (f_state f) c ->
  front_close (exported SudoPair pl) x err f w = (o, w') -> w_trace w' = w_trace w ++ evs ->
  o = Stopped \/ (o = Done (pstate0 _) /\ ~ In c (k_open (w_k w'))).
Proof. exact front_closed. Qed.
Print Assumptions C90_closed.

(** An exempt session is not touched: no call, everything is passed on. *)
Theorem C90_exempt : forall pl a rq h w,
  Describes pl a rq -> rq_command rq <> [] -> Exempt rq ->
  ~ MasklessAddr pl (oa_settings a) -> pl_debug pl = false \/ Consistent rq ->
  exists f, front_run (exported SudoPair pl) a h w = (Done (Some f), w)
    /\ f_live f = true /\ f_off f = [] /\ f_given f = flat_map data_of h.
Proof. exact front_exempt. Qed.
Print Assumptions C90_exempt.

Definition session_world : world := world_of k_root (w_script yes_world
  ++ write_turns 5 ++ write_turns 10 ++ [t (ANum 1); t (ANum 11); t (ANum 53); t (ANum 1)]).

(** Output, a suspension, typing and a new window size go through; then
    something is piped in, which ends the session. *)
Example C90_example :
  let h := [Moved Stdout (B "hello"); Suspended 20; Moved Ttyin (B "typed"); Resized 24 80;
            Moved Stdin (B "piped"); Moved Stdout (B "unseen")] in
  let r := front_run (exported SudoPair release) to_root h session_world in
  Describes release to_root to_root_rq /\ ~ Exempt to_root_rq /\ rq_command to_root_rq <> []
  /\ glance r = Some ([(Stdout, B "hello"); (Ttyin, B "typed")], false)
  /\ (exists before, delivered 0 (w_trace (snd r)) = before ++ B "hello" ++ [x1b] ++ B "[8;24;80t")
  /\ glance (front_run (exported SudoPair release) to_root h no_world) = None.
Proof.
  cbv zeta. split; [exact to_root_describes|]. split; [exact to_root_not_exempt|]. split; [discriminate|].
  split; [vm_compute; reflexivity|]. split; [|vm_compute; reflexivity].
  set (d := delivered 0 _). exists (firstn (List.length d - 15) d). vm_compute. reflexivity.
Qed.

(** That the pair sees all that the user is given is false: output that is not
    marked for logging is passed on unseen. *)
Definition C90_full : Prop := forall pl a rq h w f w' evs s d,
  Describes pl a rq -> ~ Exempt rq -> rq_command rq <> [] ->
  front_run (exported SudoPair pl) a h w = (Done (Some f), w') -> w_trace w' = w_trace w ++ evs ->
  OutputStream s -> In (s, d) (f_given f) ->
  exists c pre post, delivered c evs = pre ++ d ++ post.

Theorem C90_refuted : exists pl a rq h w f w' s d,
  Describes pl a rq /\ ~ Exempt rq /\ rq_command rq <> [] /\ w_trace w = []
  /\ front_run (exported SudoPair pl) a h w = (Done (Some f), w')
  /\ OutputStream s /\ In (s, d) (f_given f)
  /\ forall c pre post, delivered c (w_trace w') <> pre ++ d ++ post.
Proof.
  destruct silent_session as (rq & st & c0 & (D & NE & NC & _) & _).
  set (r := front_run (exported SudoPair release) to_root_silent [Moved Stdout (B "QED")] yes_world).
  assert (G : glance r = Some ([(Stdout, B "QED")], true)) by (vm_compute; reflexivity).
  destruct r as [[[f|]| |] w'] eqn:E; try discriminate G. unfold glance in G. cbn [fst] in G.
  exists release, to_root_silent, rq, [Moved Stdout (B "QED")], yes_world, f, w', Stdout, (B "QED").
  split; [exact D|]. split; [exact NE|]. split; [exact NC|]. split; [reflexivity|]. split; [exact E|].
  split; [right; left; reflexivity|]. injection G as -> _. split; [left; reflexivity|].
  assert (K : forallb (fun ev => match e_call ev with CWrite c _ => Nat.eqb c 0 | _ => true end) (w_trace w') = true
    /\ existsb (fun b => byte_eqb b "Q"%byte) (delivered 0 (w_trace w')) = false).
  { change w' with (snd (@Done (option (front SudoPair)) (Some f), w')). rewrite <- E. split; vm_compute; reflexivity. }
  destruct K as [K1 K2]. intros c pre post X.
  assert (Y : In "Q"%byte (delivered c (w_trace w'))) by (rewrite X; apply in_or_app; right; left; reflexivity).
  destruct c as [|c].
  - assert (Z : existsb (fun b => byte_eqb b "Q"%byte) (delivered 0 (w_trace w')) = true)
      by (apply existsb_exists; exists "Q"%byte; auto). congruence.
  - clear -K1 Y. induction (w_trace w') as [|ev l IH]; [exact Y|]. cbn [forallb] in K1. apply andb_prop in K1 as [K1 K2].
    unfold delivered in Y. cbn [flat_map] in Y. apply in_app_or in Y as [Y|Y]; [|exact (IH K2 Y)].
    unfold delivered1 in Y. destruct (e_call ev); try contradiction. apply Nat.eqb_eq in K1. subst.
    destruct (e_ans ev); try contradiction.
Qed.
Print Assumptions C90_refuted.

Theorem C90_not_full : ~ C90_full.
Proof.
  intros F. destruct C90_refuted as (pl & a & rq & h & w & f & w' & s & d & D & NE & NC & T & H & O & I & N).
  destruct (F pl a rq h w f w' (w_trace w') s d D NE NC H ltac:(rewrite T; reflexivity) O I) as (c & pre & post & X).
  exact (N c pre post X).
Qed.
Print Assumptions C90_not_full.
