(** Sessions under two configurations. *)
From Verif Require Import Base BaseLemmas Num Path Version Options World Sys Io Socket Env Core Pair Spec TraceSpec SessionSpec
  NumProofs Utf8Proofs OptionProofs RequestProofs RunProofs PairPure OpenFacts SessionFacts SameSpec SameFacts ConfigSpec.
From Verif Require Import PropsApproval.
Local Open Scope Z_scope.

Lemma stricter_exempt rq rq' : Stricter rq rq' -> Exempt rq' -> Exempt rq.
Proof.
  intros [[H1 H2 H3 H4 H5 H6 H7 H8 H9 H10] HE HX] X. unfold Exempt in *.
  rewrite H1, H2, H3, H4, H5, H6, H7, H10, !H9 in X.
  destruct X as [X|[X|[X|[X|[(g & X1 & X2)|X]]]]]; auto.
  - right. right. right. right. left. exists g. auto.
  - right. right. right. right. right. intros g Hg G. apply (X g (HE g Hg)).
    unfold GainsGroup in *. rewrite H7, H8, H4. exact G.
Qed.

Lemma stricter_sessions pl a b rq rq' w st' w' evs :
  Describes pl a rq -> Describes pl b rq' -> Stricter rq rq' -> rq_command rq <> [] ->
  ~ MasklessAddr pl (oa_settings a) -> pl_debug pl = false \/ Consistent rq ->
  core_open SudoPair pl b (pstate0 _) w = (Done (1, st'), w') -> w_trace w' = w_trace w ++ evs ->
  (forall ev, In ev evs -> e_call ev <> CAccept) ->
  forall w0, exists st0, core_open SudoPair pl a (pstate0 _) w0 = (Done (1, st0), w0) /\ st_plugin st0 <> None.
Proof.
  intros D D' S NC NM HC H T NA w0. apply (C17_exempt_proceeds pl a rq w0 D NC); try assumption.
  apply (stricter_exempt rq rq' S). apply (C17_pairing_required_iff pl b rq' w st' w' evs D'); try assumption.
  rewrite (sa_command _ _ (sr_same _ _ S)). exact NC.
Qed.

Lemma not_a_number r k v : Provides r (B k) v -> NotANumber v -> Unreadable r k (UIntList 32).
Proof.
  intros HP (pieces & p & HS & HI & HN) x (v2 & HP2 & _ & pieces2 & HS2 & HF).
  rewrite <- (Provides_unique _ _ _ _ HP HP2) in HS2.
  apply Separated_split in HS, HS2. subst pieces pieces2.
  induction HF as [|q y ps ys Hq HF IH]; [exact HI|].
  destruct HI as [->|HI]; [exact (HN y Hq)|exact (IH HI)].
Qed.

Lemma EntryMeans_key buf k k' v v' : EntryMeans buf k v -> EntryMeans buf k' v' -> k = k'.
Proof. intros H H'. apply EntryMeans_split in H, H'. congruence. Qed.

Lemma NoneFor_Provides k l v : NoneFor k l -> ~ Provides (Some l) k v.
Proof. intros N (b & c & d & E & M & _). injection E as ->. apply (N c v); [apply in_or_app; right; left; reflexivity|exact M]. Qed.

Lemma last_Provides x buf y k v : EntryMeans buf k v -> NoneFor k y -> Provides (Some (x ++ buf :: y)) k v.
Proof. intros M N. exists x, buf, y. split; [reflexivity|]. split; [exact M|]. intros l v' HI. exact (N l v' HI). Qed.

(** The entries for other keys are not touched. *)
Lemma others_kept x buf mid y k k' v : EntryMeans buf k v -> (forall e, In e mid -> exists u, EntryMeans e k u) -> k' <> k -> forall u,
  Provides (Some (x ++ buf :: y)) k' u <-> Provides (Some (x ++ mid ++ y)) k' u.
Proof.
  intros M HM NE u. rewrite <- (Provides_insert x buf y k' u).
  2:{ intros v' M'. apply NE. exact (EntryMeans_key _ _ _ _ _ M' M). }
  induction mid as [|e mid IH]; [reflexivity|]. cbn [app].
  rewrite <- (Provides_insert x e (mid ++ y) k' u).
  - apply IH. intros e' HI. apply HM. right. exact HI.
  - intros v' M'. destruct (HM e (or_introl eq_refl)) as [u' M2]. apply NE. exact (EntryMeans_key _ _ _ _ _ M' M2).
Qed.

Lemma with_entries_describes pl a rq l : Describes pl a rq ->
  EqOn ["binary_path"; "user_prompt_path"; "pair_prompt_path"; "socket_dir"]%string (oa_plugin_options a) (Some l) ->
  ReadsOr (Some l) "gids_enforced" (UIntList 32) [0] (rq_enforced rq) ->
  ReadsOr (Some l) "gids_exempted" (UIntList 32) [] (rq_exempted rq) ->
  Describes pl (with_entries a l) rq.
Proof.
  intros D O E X. destruct D. constructor; try assumption; cbn [with_entries oa_plugin_options]; moved O.
Qed.

Lemma bad_run pl a rq l : Describes pl a rq -> Describes pl (with_entries a l) rq -> ~ MasklessAddr pl (oa_settings a) ->
  forall h w, Indistinguishable (run_history SudoPair pl (CbOpen a :: h) (pstate0 _) w)
    (run_history SudoPair pl (CbOpen (with_entries a l) :: h) (pstate0 _) w).
Proof.
  intros D D' N h w. apply (same_request_shown pl a (with_entries a l) rq rq D D'); [|exact N|exact N].
  exists (rq_log rq). split; [destruct rq; reflexivity|reflexivity].
Qed.

Lemma zero_read x y : NoneFor (B "gids_enforced") y ->
  Reads (Some (x ++ B "gids_enforced=0" :: y)) "gids_enforced" (UIntList 32) [0].
Proof.
  intros N. exists (B "0"). split; [apply last_Provides; [apply EntryMeans_split; reflexivity|exact N]|].
  split; [apply valid_utf8_iff; reflexivity|apply parse_u32s; reflexivity].
Qed.

Section Bad.
Variables (pl : platform) (a : open_args) (rq : request) (x : list bytes) (buf : bytes) (y : list bytes) (v : bytes).
Hypothesis D : Describes pl a rq.
Hypothesis HA : oa_plugin_options a = Some (x ++ buf :: y).
Hypothesis NM : ~ MasklessAddr pl (oa_settings a).
Hypothesis NN : NotANumber v.

Let same l := forall h w, Indistinguishable (run_history SudoPair pl (CbOpen a :: h) (pstate0 _) w)
    (run_history SudoPair pl (CbOpen (with_entries a l) :: h) (pstate0 _) w).

Lemma bad_enforced_zero : EntryMeans buf (B "gids_enforced") v -> NoneFor (B "gids_enforced") y ->
  same (x ++ B "gids_enforced=0" :: y).
Proof.
  intros M N h w. refine (bad_run pl a rq _ D _ NM h w).
  assert (HM : forall e, In e [B "gids_enforced=0"] -> exists u, EntryMeans e (B "gids_enforced") u).
  { intros e [<-|[]]. exists (B "0"). apply EntryMeans_split. reflexivity. }
  pose proof (fun k' NE => others_kept x buf [B "gids_enforced=0"] y _ k' v M HM NE) as K. cbn [app] in K.
  apply (with_entries_describes pl a rq _ D).
  - rewrite HA. intros k Hk. apply K. intros E. cbn in Hk.
    repeat (destruct Hk as [Hk|Hk]; [subst k; discriminate E|]). exact Hk.
  - left. destruct (d_enforced _ _ _ D) as [R|[_ ->]]; [|apply zero_read; exact N].
    rewrite HA in R. destruct (not_a_number _ _ _ (last_Provides x buf y _ _ M N) NN _ R).
  - pose proof (d_exempted _ _ _ D) as X. rewrite HA in X.
    eapply (on_Or ["gids_exempted"%string]); [|left; reflexivity|exact X]. intros k [<-|[]]. apply K. discriminate.
Qed.

Lemma bad_enforced_none : EntryMeans buf (B "gids_enforced") v -> NoneFor (B "gids_enforced") (x ++ y) -> same (x ++ y).
Proof.
  intros M N h w. refine (bad_run pl a rq _ D _ NM h w).
  assert (N' : NoneFor (B "gids_enforced") y) by (intros e u HI; apply N; apply in_or_app; auto).
  pose proof (fun k' NE => others_kept x buf [] y _ k' v M (fun e (HI : In e []) => match HI with end) NE) as K. cbn [app] in K.
  apply (with_entries_describes pl a rq _ D).
  - rewrite HA. intros k Hk. apply K. intros E. cbn in Hk.
    repeat (destruct Hk as [Hk|Hk]; [subst k; discriminate E|]). exact Hk.
  - right. split; [intros z (u & P & _); exact (NoneFor_Provides _ _ _ N P)|].
    destruct (d_enforced _ _ _ D) as [R|[_ ->]]; [|reflexivity].
    rewrite HA in R. destruct (not_a_number _ _ _ (last_Provides x buf y _ _ M N') NN _ R).
  - pose proof (d_exempted _ _ _ D) as X. rewrite HA in X.
    eapply (on_Or ["gids_exempted"%string]); [|left; reflexivity|exact X]. intros k [<-|[]]. apply K. discriminate.
Qed.

Lemma bad_exempted_none : EntryMeans buf (B "gids_exempted") v -> NoneFor (B "gids_exempted") (x ++ y) -> same (x ++ y).
Proof.
  intros M N h w. refine (bad_run pl a rq _ D _ NM h w).
  assert (N' : NoneFor (B "gids_exempted") y) by (intros e u HI; apply N; apply in_or_app; auto).
  pose proof (fun k' NE => others_kept x buf [] y _ k' v M (fun e (HI : In e []) => match HI with end) NE) as K. cbn [app] in K.
  apply (with_entries_describes pl a rq _ D).
  - rewrite HA. intros k Hk. apply K. intros E. cbn in Hk.
    repeat (destruct Hk as [Hk|Hk]; [subst k; discriminate E|]). exact Hk.
  - pose proof (d_enforced _ _ _ D) as X. rewrite HA in X.
    eapply (on_Or ["gids_enforced"%string]); [|left; reflexivity|exact X]. intros k [<-|[]]. apply K. discriminate.
  - right. split; [intros z (u & P & _); exact (NoneFor_Provides _ _ _ N P)|].
    destruct (d_exempted _ _ _ D) as [R|[_ ->]]; [|reflexivity].
    rewrite HA in R. destruct (not_a_number _ _ _ (last_Provides x buf y _ _ M N') NN _ R).
Qed.
End Bad.

Lemma bad_entry : forall pl a rq x buf y v,
  Describes pl a rq -> oa_plugin_options a = Some (x ++ buf :: y) -> ~ MasklessAddr pl (oa_settings a) -> NotANumber v ->
  let same l := forall h w, Indistinguishable (run_history SudoPair pl (CbOpen a :: h) (pstate0 _) w)
    (run_history SudoPair pl (CbOpen (with_entries a l) :: h) (pstate0 _) w) in
  (EntryMeans buf (B "gids_enforced") v ->
     (NoneFor (B "gids_enforced") y -> same (x ++ B "gids_enforced=0" :: y))
     /\ (NoneFor (B "gids_enforced") (x ++ y) -> same (x ++ y)))
  /\ (EntryMeans buf (B "gids_exempted") v -> NoneFor (B "gids_exempted") (x ++ y) -> same (x ++ y)).
Proof.
  intros pl a rq x buf y v D HA NM NN same. split; [intros M; split; intros N|intros M N]; intros h w.
  - exact (bad_enforced_zero pl a rq x buf y v D HA NM NN M N h w).
  - exact (bad_enforced_none pl a rq x buf y v D HA NM NN M N h w).
  - exact (bad_exempted_none pl a rq x buf y v D HA NM NN M N h w).
Qed.

Lemma empty_not_a_number : NotANumber [].
Proof.
  exists [[]], []. split; [apply Separated_split; reflexivity|]. split; [left; reflexivity|].
  intros n K. apply parse_u32 in K. discriminate K.
Qed.

Lemma sample_run pl a rq : Describes pl a rq -> oa_plugin_options a = Some [B "gids_enforced="] -> ~ MasklessAddr pl (oa_settings a) ->
  forall h w, Indistinguishable (run_history SudoPair pl (CbOpen a :: h) (pstate0 _) w)
    (run_history SudoPair pl (CbOpen (with_entries a [B "gids_enforced=0"]) :: h) (pstate0 _) w).
Proof.
  intros D HA NM h w. apply (proj1 (proj1 (bad_entry pl a rq [] (B "gids_enforced=") [] [] D HA NM empty_not_a_number)
    ltac:(apply EntryMeans_split; reflexivity))). intros e u [].
Qed.
