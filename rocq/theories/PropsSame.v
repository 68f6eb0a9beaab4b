(** Property theorems about what a session depends on: C91. *)
From Verif Require Import Base BaseLemmas Num Path Version Options World Sys Io Socket Env Core Pair Spec OptionProofs RequestProofs SessionFacts
  Samples Worlds SameSpec SameFacts.
Local Open Scope Z_scope.

(** *** C91: the request determines the session *)

(** Arguments that describe the same request, however they are written. *)
Theorem C91_request : forall pl a b rq rq', Describes pl a rq -> Describes pl b rq' -> Alike rq rq' ->
  ~ MasklessAddr pl (oa_settings a) -> ~ MasklessAddr pl (oa_settings b) -> forall h w,
  Indistinguishable (run_history SudoPair pl (CbOpen a :: h) (pstate0 _) w)
    (run_history SudoPair pl (CbOpen b :: h) (pstate0 _) w).
Proof. exact same_request_shown. Qed.
Print Assumptions C91_request.

(** Further entries and the user's environment, in any opening of a history,
    including arguments that cannot be read. *)
Theorem C91_other_entries : forall pl h h' w, Forall2 PaddedCall h h' ->
  Indistinguishable (run_history SudoPair pl h (pstate0 _) w) (run_history SudoPair pl h' (pstate0 _) w).
Proof. exact padded_shown. Qed.
Print Assumptions C91_other_entries.

(** Alice's command, in another order, with signs, leading zeros and
    superseded entries, from a user with a different environment. *)
Definition to_root_again : open_args := {|
  oa_version := 65545; oa_printf := true;
  oa_settings := Some ([B "progname=su"; B "runas_user=root"; B "debug_flags=all@debug"; B "implied_shell=true"; B "timeout"]
                       ++ settings0);
  oa_user_info := Some (rev user_info0 ++ [B "umask=077"; B "uid=+01000"]);
  oa_command_info := Some (log_hints ++ [B "runas_groups=0"; B "runas_uid=1"; B "runas_euid=0"; B "runas_gid=0"; B "command=/bin/cat";
                                         B "iolog_ttyin=true"; B "nice=5"]);
  oa_argv := [B "cat" ++ [x00] ++ B "junk"; B "/etc/shadow"];
  oa_user_env := Some [B "LD_PRELOAD=/tmp/x.so"; B "uid=0"; B "gids_exempted=1000"];
  oa_plugin_options := Some [B "gids_exempted"; B "socket_dirs=/tmp"] |}.

Lemma to_root_again_describes : Describes release to_root_again (with_log to_root_rq (fun _ => true)).
Proof.
  destruct (io_env_new release (B "n") (B "v") to_root_again) as [[e|]|] eqn:E;
    [|vm_compute in E; discriminate|vm_compute in E; discriminate].
  assert (H : request_of e = with_log to_root_rq (rq_log (request_of e))).
  { vm_compute in E. injection E as <-. vm_compute. reflexivity. }
  pose proof (env_Describes _ _ _ _ _ E) as D. rewrite H in D.
  assert (HL : forall s, rq_log (request_of e) s = true).
  { vm_compute in E. injection E as <-. intros [| | | |]; vm_compute; reflexivity. }
  pose proof (HL Ttyin) as H1. pose proof (HL Ttyout) as H2. pose proof (HL Stdin) as H3. pose proof (HL Stdout) as H4.
  pose proof (HL Stderr) as H5. destruct D. cbn [rq_log with_log] in *. rewrite H1, H2, H3, H4, H5 in *.
  constructor; cbn [rq_log with_log]; assumption.
Qed.

Example C91_request_example : Describes release to_root to_root_rq
  /\ Describes release to_root_again (with_log to_root_rq (fun _ => true))
  /\ Alike to_root_rq (with_log to_root_rq (fun _ => true))
  /\ ~ MasklessAddr release (oa_settings to_root) /\ ~ MasklessAddr release (oa_settings to_root_again)
  /\ codes (run_history SudoPair release [CbOpen to_root; CbLog Ttyin (B "x")] (pstate0 _) yes_world) = Some [1; 1]
  /\ codes (run_history SudoPair release [CbOpen to_root_again; CbLog Ttyin (B "x")] (pstate0 _) yes_world) = Some [1; 1].
Proof.
  split; [exact to_root_describes|]. split; [exact to_root_again_describes|].
  split; [eexists; split; [reflexivity|intros [| | | |] H; try reflexivity; contradiction]|].
  split; [apply not_maskless; vm_compute; discriminate|]. split; [apply not_maskless; vm_compute; discriminate|].
  split; vm_compute; reflexivity.
Qed.

(** The same with entries of newer versions of sudo, and another environment. *)
Definition to_root_more : open_args := {|
  oa_version := api_1_17; oa_printf := true;
  oa_settings := Some ([B "cmnd_chroot=/srv"] ++ settings0 ++ [B "runas_user=root"; B "remote_host=web2"]);
  oa_user_info := Some user_info0;
  oa_command_info := Some ([B "command=/bin/cat"; B "runas_uid=0"; B "runas_gid=0"; B "runas_groups=0"] ++ log_hints);
  oa_argv := [B "cat"; B "/etc/shadow"];
  oa_user_env := Some [B "TERM=xterm"];
  oa_plugin_options := None |}.

Lemma not_among buf k0 v0 keys : split_entry (cstr buf) = (k0, v0) -> existsb (bytes_eqb k0) (map B keys) = false ->
  forall k v, EntryMeans buf k v -> ~ In k (map B keys).
Proof.
  intros E N k v M HI. assert (k = k0).
  { apply EntryMeans_split in M. rewrite E in M. congruence. }
  subst k. assert (X : existsb (bytes_eqb k0) (map B keys) = true) by (apply existsb_exists; exists k0; split; [exact HI|apply bytes_eqb_refl]).
  congruence.
Qed.

Example C91_other_entries_example :
  Forall2 PaddedCall [CbOpen to_root; CbWinsize 3 4] [CbOpen to_root_more; CbWinsize 3 4]
  /\ codes (run_history SudoPair release [CbOpen to_root_more] (pstate0 _) yes_world) = Some [1].
Proof.
  split; [|vm_compute; reflexivity]. constructor; [|constructor; [apply PC_same|constructor]]. apply PC_open.
  constructor; try reflexivity; try apply PD_same.
  apply (PD_more settings_keys [] (B "cmnd_chroot=/srv") (settings0 ++ [B "runas_user=root"])).
  { eapply not_among; vm_compute; reflexivity. }
  apply (PD_more settings_keys (B "cmnd_chroot=/srv" :: settings0 ++ [B "runas_user=root"]) (B "remote_host=web2") []).
  { eapply not_among; vm_compute; reflexivity. }
  apply PD_same.
Qed.

(** *** None of the entries listed could be left out of the lists *)
Definition in_settings (e : bytes) (a : open_args) : open_args :=
  mkOpenArgs (oa_version a) (oa_printf a) (Some (match oa_settings a with Some l => l | None => [] end ++ [e]))
    (oa_user_info a) (oa_command_info a) (oa_argv a) (oa_user_env a) (oa_plugin_options a).
Definition in_user_info (e : bytes) (a : open_args) : open_args :=
  mkOpenArgs (oa_version a) (oa_printf a) (oa_settings a) (Some (match oa_user_info a with Some l => l | None => [] end ++ [e]))
    (oa_command_info a) (oa_argv a) (oa_user_env a) (oa_plugin_options a).
Definition in_command_info (e : bytes) (a : open_args) : open_args :=
  mkOpenArgs (oa_version a) (oa_printf a) (oa_settings a) (oa_user_info a)
    (Some (match oa_command_info a with Some l => l | None => [] end ++ [e])) (oa_argv a) (oa_user_env a) (oa_plugin_options a).
Definition in_plugin_options (e : bytes) (a : open_args) : open_args :=
  mkOpenArgs (oa_version a) (oa_printf a) (oa_settings a) (oa_user_info a) (oa_command_info a) (oa_argv a) (oa_user_env a)
    (Some (match oa_plugin_options a with Some l => l | None => [] end ++ [e])).

(** An entry for [k] can change a session. *)
Definition MakesADifference (put : bytes -> open_args -> open_args) (k : string) : Prop :=
  exists pl v a rq h w, Describes pl a rq /\ ~ MasklessAddr pl (oa_settings a)
    /\ ~ Indistinguishable (run_history SudoPair pl (CbOpen a :: h) (pstate0 _) w)
          (run_history SudoPair pl (CbOpen (put (B k ++ B "=" ++ v) a) :: h) (pstate0 _) w).

(** Distinguishing runs by what can be compared. *)
Definition names (p : path) : bytes := flat_map (fun c => match c with Normal n => B "/" ++ n | _ => [] end) p.
Definition gist (c : call) : bytes :=
  match c with
  | CStat p | CUnlink p | CBind p => names p
  | CReadFile p | COpenTty p => p
  | CChown p u g => names p ++ to_dec u ++ B ":" ++ to_dec g
  | CWriteTty d | CWrite _ d | CPrintf _ d => d
  | _ => []
  end.
Definition view {A} (r : outcome (list Z * A) * world) : option (list Z) * bytes :=
  (codes r, flat_map (fun e => gist (e_call e)) (w_trace (snd r))).
Definition view_eqb (x y : option (list Z) * bytes) : bool :=
  match fst x, fst y with
  | Some l, Some m => if list_eq_dec Z.eq_dec l m then true else false
  | None, None => true
  | _, _ => false
  end && bytes_eqb (snd x) (snd y).

Lemma views_differ {A C} (x : outcome (list Z * A) * world) (y : outcome (list Z * C) * world) :
  view_eqb (view x) (view y) = false -> ~ Indistinguishable x y.
Proof.
  intros H [HW HO]. assert (E : view x = view y).
  { unfold view, codes. rewrite HW. f_equal. destruct (fst x) as [[? ?]| |], (fst y) as [[? ?]| |]; cbn in HO; try contradiction; congruence. }
  rewrite E in H. unfold view_eqb in H. rewrite bytes_eqb_refl, andb_true_r in H.
  destruct (fst (view y)); [|discriminate]. destruct (list_eq_dec Z.eq_dec l l); congruence.
Qed.

Definition template : bytes := B "%W %U %u %p %g %H %h %d %C %B %b".
Definition told_world : world := world_of k_root [t (AData template); t AOk; t (ANum 1)].

Lemma to_root_debug : Describes debug to_root to_root_rq.
Proof.
  destruct (io_env_new debug (B "n") (B "v") to_root) as [[e|]|] eqn:E;
    [|vm_compute in E; discriminate|vm_compute in E; discriminate].
  assert (H : request_of e = to_root_rq).
  { vm_compute in E. injection E as <-. vm_compute. reflexivity. }
  rewrite <- H. exact (env_Describes _ _ _ _ _ E).
Qed.

Lemma matters put k v h w :
  view_eqb (view (run_history SudoPair debug (CbOpen to_root :: h) (pstate0 _) w))
           (view (run_history SudoPair debug (CbOpen (put (B k ++ B "=" ++ v) to_root) :: h) (pstate0 _) w)) = false ->
  MakesADifference put k.
Proof.
  intros H. exists debug, v, to_root, to_root_rq, h, w. split; [exact to_root_debug|].
  split; [apply not_maskless; vm_compute; discriminate|]. apply views_differ. exact H.
Qed.

Lemma matters_group put k v h w :
  view_eqb (view (run_history SudoPair release (CbOpen (to_group []) :: h) (pstate0 _) w))
           (view (run_history SudoPair release (CbOpen (put (B k ++ B "=" ++ v) (to_group [])) :: h) (pstate0 _) w)) = false ->
  MakesADifference put k.
Proof.
  intros H. exists release, v, (to_group []), (to_group_rq [1000; 27]), h, w. split; [exact to_group_describes|].
  split; [apply not_maskless; vm_compute; discriminate|]. apply views_differ. exact H.
Qed.

Ltac by_run v h w := apply (matters _ _ v h w); vm_compute; reflexivity.
Ltac found := first
  [ by_run (B "true") (@nil callback) told_world | by_run (B "7") (@nil callback) told_world
  | by_run [xff] (@nil callback) told_world | by_run (@nil byte) (@nil callback) told_world
  | by_run (B "10.0.0.1") (@nil callback) told_world | by_run (B "1000") (@nil callback) told_world
  | by_run (B "/x") (@nil callback) yes_world | by_run (B "7") (@nil callback) yes_world
  | apply (matters_group _ _ (B "7") [] yes_world); vm_compute; reflexivity
  | by_run (B "false") [CbLog Ttyout (B "x")] yes_world | by_run (B "false") [CbLog Stdin (B "x")] yes_world
  | by_run (B "false") [CbLog Stdout (B "x")] yes_world | by_run (B "false") [CbLog Stderr (B "x")] yes_world ].
Ltac each H := repeat (destruct H as [<-|H]; [found|]); destruct H.

Theorem C91_every_entry :
  (forall k, In k settings_keys -> MakesADifference in_settings k)
  /\ (forall k, In k user_info_keys -> MakesADifference in_user_info k)
  /\ (forall k, In k command_info_keys -> MakesADifference in_command_info k)
  /\ (forall k, In k plugin_options_keys -> MakesADifference in_plugin_options k).
Proof. split; [|split; [|split]]; intros k H; each H. Qed.
Print Assumptions C91_every_entry.
