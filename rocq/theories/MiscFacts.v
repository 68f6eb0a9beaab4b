(** Facts about the directory test, the sample approval script and the raw
    example plugin. *)
From Coq Require Import Lia.
From Verif Require Import Base Path Version World Sys Io Socket Env Core Pair Approve RawExample Spec TraceSpec SessionSpec
  RunProofs SocketProofs SessionFacts.
Local Open Scope Z_scope.

(** ** The directory test *)
Lemma land_high t p b : 0 <= p < 4096 -> Z.land b 4095 = 0 -> Z.land (Z.lor t p) b = Z.land t b.
Proof.
  intros Hp Hb. rewrite Z.land_lor_distr_l.
  replace (Z.land p b) with 0; [apply Z.lor_0_r|].
  assert (p = Z.land p 4095) as ->.
  { change 4095 with (Z.ones 12). rewrite Z.land_ones by lia. rewrite Z.mod_small by (cbn; lia). reflexivity. }
  rewrite <- Z.land_assoc, (Z.land_comm 4095), Hb, Z.land_0_r. reflexivity.
Qed.

Definition dir_like (k : kind) : Prop := k = KDir \/ k = KBlk \/ k = KSock.

Lemma dir_bit i : 0 <= i_perm i < 4096 -> (Z.land (st_mode i) S_IFDIR <> 0 <-> dir_like (i_kind i)).
Proof.
  intros H. unfold st_mode. rewrite land_high by (reflexivity || exact H). unfold dir_like.
  destruct (i_kind i); vm_compute; intuition (discriminate || congruence).
Qed.

Lemma write_bits i m : 0 <= m < 4096 -> Z.land (st_mode i) m = Z.land (i_perm i) m.
Proof.
  intros Hm. unfold st_mode. rewrite Z.land_lor_distr_l.
  replace (Z.land (type_bits (i_kind i)) m) with 0; [apply Z.lor_0_l|].
  assert (m = Z.land m 4095) as ->.
  { change 4095 with (Z.ones 12). rewrite Z.land_ones by lia. rewrite Z.mod_small by (cbn; lia). reflexivity. }
  rewrite (Z.land_comm m), Z.land_assoc. destruct (i_kind i); cbn [type_bits]; cbn; reflexivity.
Qed.

(** Someone other than the owner may write. *)
Definition OthersWrite (i : inode) : Prop := Z.land (i_perm i) 16 <> 0 \/ Z.land (i_perm i) 2 <> 0.

Lemma no_others i : ~ OthersWrite i <-> Z.land (st_mode i) (Z.lor S_IWGRP S_IWOTH) = 0.
Proof.
  rewrite write_bits by (cbv; split; congruence). unfold OthersWrite, S_IWGRP, S_IWOTH.
  rewrite Z.land_lor_distr_r, Z.lor_eq_0_iff.
  destruct (Z.eq_dec (Z.land (i_perm i) 16) 0), (Z.eq_dec (Z.land (i_perm i) 2) 0); tauto.
Qed.

Lemma dir_test euid p par w r w' ev n :
  path_parent p = Some par ->
  enforce_ownership euid p w = (Done r, w') -> w_trace w' = w_trace w ++ [ev] ->
  e_ans ev = AOk -> resolve (e_pre ev) par = Some n ->
  0 <= i_perm (k_inodes (e_pre ev) n) < 4096 ->
  (r = Ok tt <-> dir_like (i_kind (k_inodes (e_pre ev) n)) /\ i_uid (k_inodes (e_pre ev) n) = euid
                 /\ ~ OthersWrite (k_inodes (e_pre ev) n)).
Proof.
  intros Hpar H T A Rn Hp. destruct (enforce_yields euid p w _ _ H) as (evs & R & E).
  pose proof (Ran_trace _ _ _ _ R) as T'. rewrite T in T'. apply app_inv_head in T'. subst evs.
  rewrite no_others, <- (dir_bit _ Hp).
  change (r = Ok tt <-> dir_ok euid (k_inodes (e_pre ev) n)).
  remember (Done r) as o eqn:Eo. remember [ev] as es eqn:Ee.
  destruct E as [e N| |e par' ev' P NP NN C NO|par' ev' n' P NP NN I R' K]; try discriminate.
  - injection Eo as <-. injection Ee as ->. rewrite P in Hpar. injection Hpar as ->.
    split; [discriminate|]. intros K. destruct (NO n A Rn K).
  - injection Eo as <-. injection Ee as ->. rewrite P in Hpar. injection Hpar as ->.
    rewrite Rn in R'. injection R' as <-. tauto.
Qed.

Lemma approved_dir pl a rq w st' w' evs :
  Describes pl a rq -> ~ Exempt rq -> rq_command rq <> [] ->
  core_open SudoPair pl a (pstate0 _) w = (Done (1, st'), w') -> w_trace w' = w_trace w ++ evs ->
  exists b d, In b evs /\ (exists n, e_call b = CBind (components (rq_socket_dir rq) ++ [Normal n]))
    /\ resolve (e_pre b) (components (rq_socket_dir rq)) = Some d
    /\ i_kind (k_inodes (e_pre b) d) = KDir.
Proof.
  intros D NE NC H T.
  destruct (approval_needed _ _ _ _ _ _ _ D NE NC H T)
    as (c & q & e1 & b & e2 & acc & e3 & rd & e4 & peer & (n & HN & ->) & -> & (Cb & _ & _ & _ & Hd) & _).
  unfold dir_inode in Hd. unfold dir_path in Hd. rewrite removelast_last in Hd.
  destruct (components (rq_socket_dir rq) ++ [Normal n]) eqn:E; [congruence|]. rewrite <- E in *. clear E.
  destruct (resolve (e_pre b) (components (rq_socket_dir rq))) as [d|] eqn:Rd; [|congruence].
  exists b, d. split; [apply in_or_app; right; left; reflexivity|]. split; [exists n; exact Cb|].
  split; [exact Rd|]. destruct (i_kind (k_inodes (e_pre b) d)); congruence.
Qed.

(** ** The approval script *)

(** What the script takes for the identity of the person running it is [u]. *)
Definition TruthfulFor (u : Z) (sudo_uid : option Z) (id_u : Z) : Prop :=
  sudo_uid = Some u \/ (sudo_uid = None /\ id_u = u).

Lemma approve_cases u args sudo_uid id_u writable s named :
  TruthfulFor u sudo_uid id_u ->
  match approve_main args sudo_uid id_u writable s named with
  | Usage => List.length args <> 2%nat
  | NotFound => List.length args = 2%nat /\ s = None
  | NoName => List.length args = 2%nat /\ s <> None /\ named = false
  | RefuseSelf => (exists pid, args = [u; pid]) /\ s <> None /\ named = true
  | Pair => (exists uid pid, args = [uid; pid] /\ uid <> u) /\ writable = true /\ s <> None /\ named = true
  | SudoUser v => (exists uid pid, args = [uid; pid] /\ uid <> u) /\ writable = false /\ named = true
                  /\ exists i, s = Some i /\ v = i_uid i /\ Z.land (i_perm i) 128 <> 0
  | SudoGroup g => (exists uid pid, args = [uid; pid] /\ uid <> u) /\ writable = false /\ named = true
                   /\ exists i, s = Some i /\ g = i_gid i /\ Z.land (i_perm i) 16 <> 0 /\ Z.land (i_perm i) 128 = 0
  | NotWritable => (exists uid pid, args = [uid; pid] /\ uid <> u) /\ writable = false /\ named = true
                   /\ exists i, s = Some i /\ Z.land (i_perm i) 128 = 0 /\ Z.land (i_perm i) 16 = 0
  end.
Proof.
  intros HT. unfold approve_main.
  destruct args as [|uid [|pid [|]]]; try (cbn; discriminate).
  unfold approve.
  replace (match sudo_uid with Some u0 => u0 | None => id_u end) with u
    by (destruct HT as [->|(-> & ->)]; reflexivity).
  destruct s as [s|]; [|auto]. assert (SN : Some s <> None) by discriminate. destruct named; cbn [negb]; [|auto].
  destruct (uid =? u) eqn:E; [apply Z.eqb_eq in E; subst; eauto|]. apply Z.eqb_neq in E.
  destruct writable; [eauto 8|].
  destruct (Z.land (i_perm s) 128 =? 0) eqn:E1; cbn [negb]; [apply Z.eqb_eq in E1|apply Z.eqb_neq in E1; eauto 12].
  destruct (Z.land (i_perm s) 16 =? 0) eqn:E2; cbn [negb]; [apply Z.eqb_eq in E2|apply Z.eqb_neq in E2]; eauto 12.
Qed.

(** ** The raw example *)

(** The last call of open in [h] gave version [v] and a print function or not. *)
Definition LastOpen (h : list raw_callback) (v : Z) (p : bool) : Prop :=
  exists h1 h2, h = h1 ++ RawOpen v p :: h2 /\ forall v' p', ~ In (RawOpen v' p') h2.

Lemma raw_run_app : forall h1 h2 st,
  raw_run st (h1 ++ h2) = let (o1, st1) := raw_run st h1 in let (o2, st2) := raw_run st1 h2 in (o1 ++ o2, st2).
Proof.
  induction h1 as [|c h1 IH]; intros h2 st; cbn.
  - destruct (raw_run st h2). reflexivity.
  - destruct (raw_step st c) as [o st1]. rewrite IH. destruct (raw_run st1 h1) as [o1 st2].
    destruct (raw_run st2 h2). reflexivity.
Qed.

Lemma raw_run_length : forall h st, List.length (fst (raw_run st h)) = List.length h.
Proof.
  induction h as [|c h IH]; intros st; cbn; [reflexivity|].
  destruct (raw_step st c) as [o st1]. specialize (IH st1). destruct (raw_run st1 h). cbn in *. congruence.
Qed.

Lemma last_open_app h1 c v p : LastOpen (h1 ++ [c]) v p <->
  (c = RawOpen v p \/ (LastOpen h1 v p /\ forall v' p', c <> RawOpen v' p')).
Proof.
  split.
  - intros (a & b & E & N). destruct b as [|x b _] using rev_ind.
    + apply app_inj_tail in E as [-> ->]. left. reflexivity.
    + rewrite app_comm_cons, app_assoc in E. apply app_inj_tail in E as [-> ->]. right. split.
      * exists a, b. split; [reflexivity|]. intros v' p' I. apply (N v' p'). apply in_or_app. left. exact I.
      * intros v' p' ->. apply (N v' p'). apply in_or_app. right. left. reflexivity.
  - intros [->|((a & b & -> & N) & NC)].
    + exists h1, []. split; [reflexivity|]. intros v' p' [].
    + exists a, (b ++ [c]). rewrite <- app_assoc. split; [reflexivity|].
      intros v' p' I. apply in_app_or in I as [I|[I|[]]]; [exact (N v' p' I)|exact (NC v' p' I)].
Qed.

Lemma raw_after h : let st := snd (raw_run raw0 h) in
  (forall v p, LastOpen h v p <-> r_version st = Some v /\ r_print st = p)
  /\ (r_version st = None -> r_print st = false).
Proof.
  induction h as [|c h IH] using rev_ind.
  - cbn. split; [|reflexivity]. intros v p. split; [|intros [? _]; discriminate].
    intros ([|] & b & E & _); discriminate.
  - rewrite raw_run_app. destruct (raw_run raw0 h) as [os st]. cbn [snd] in IH. destruct IH as [I1 I2].
    destruct c; cbn; (split; [|cbn; try exact I2; discriminate]); intros v p; rewrite last_open_app.
    + split.
      * intros [E|[_ N]]; [injection E as -> ->; split; reflexivity|destruct (N _ _ eq_refl)].
      * intros [E <-]. injection E as ->. left. reflexivity.
    + split; [intros [E|[L _]]; [discriminate|apply I1; exact L]|intros H; right; split; [apply I1; exact H|discriminate]].
    + split; [intros [E|[L _]]; [discriminate|apply I1; exact L]|intros H; right; split; [apply I1; exact H|discriminate]].
Qed.

Lemma raw_nth h1 c h2 : 
  nth_error (fst (raw_run raw0 (h1 ++ c :: h2))) (List.length h1) = Some (fst (raw_step (snd (raw_run raw0 h1)) c)).
Proof.
  rewrite raw_run_app. pose proof (raw_run_length h1 raw0) as L. destruct (raw_run raw0 h1) as [o1 st1].
  cbn [fst snd] in *. cbn [raw_run]. destruct (raw_step st1 c) as [o st2]. destruct (raw_run st2 h2) as [os st3].
  cbn [fst]. rewrite nth_error_app2 by lia. rewrite L, Nat.sub_diag. reflexivity.
Qed.

Lemma raw_denies h1 h2 : exists out,
  nth_error (fst (raw_run raw0 (h1 ++ RawCheck :: h2))) (List.length h1) = Some out
  /\ o_ret out = 0
  /\ (o_errstr out = Some (B "deny_everything: denied" ++ [x0a]) \/ o_errstr out = None)
  /\ (o_errstr out <> None <-> exists v, LastOpen h1 v true /\ 65536 * 1 + 17 <= v).
Proof.
  eexists. split; [apply raw_nth|]. destruct (raw_after h1) as [I1 I2]. cbn.
  unfold raw_check. destruct (r_print (snd (raw_run raw0 h1))) eqn:Ep; cbn [negb o_ret o_errstr].
  - split; [reflexivity|]. destruct (r_version (snd (raw_run raw0 h1))) as [v|] eqn:Ev; [|discriminate (I2 eq_refl)].
    change (sudo_api_mkversion 1 17) with 65553. destruct (65553 <=? v) eqn:E.
    + split; [left; reflexivity|]. split; [|intros; discriminate]. intros _. exists v. split; [|apply Z.leb_le in E; lia].
      apply I1. split; [exact eq_refl|reflexivity].
    + split; [right; reflexivity|]. split; [congruence|]. intros (v' & L & Hv). apply I1 in L as [E' _].
      injection E' as ->. apply Z.leb_gt in E. lia.
  - split; [reflexivity|]. split; [right; reflexivity|]. split; [congruence|].
    intros (v' & L & Hv). apply I1 in L as [_ E']. discriminate.
Qed.

(** Only open and show_version return 1. *)
Lemma raw_returns_one h1 c h2 out :
  nth_error (fst (raw_run raw0 (h1 ++ c :: h2))) (List.length h1) = Some out ->
  (o_ret out = 1 \/ o_ret out = 0)
  /\ (o_ret out = 1 -> c <> RawCheck)
  /\ (o_printed out <> [] -> exists v, LastOpen h1 v true).
Proof.
  rewrite raw_nth. intros E. injection E as <-. destruct (raw_after h1) as [I1 I2].
  assert (P : r_print (snd (raw_run raw0 h1)) = true -> exists v, LastOpen h1 v true).
  { intros Ep. destruct (r_version (snd (raw_run raw0 h1))) as [v|] eqn:Ev.
    - exists v. apply I1. split; [reflexivity|exact Ep].
    - rewrite (I2 eq_refl) in Ep. discriminate. }
  destruct c; cbn.
  - split; [left; reflexivity|]. split; [discriminate|]. intros N. congruence.
  - unfold raw_check. destruct (r_print _) eqn:Ep; cbn; (split; [right; reflexivity|]); (split; [discriminate|]);
      intros N; [exact (P eq_refl)|congruence].
  - unfold raw_show_version. destruct (r_print _) eqn:Ep; cbn.
    + split; [left; reflexivity|]. split; [discriminate|]. intros _. exact (P eq_refl).
    + split; [right; reflexivity|]. split; [discriminate|]. intros N. congruence.
Qed.

(** What each callback answers and prints. *)
Lemma raw_prints h1 c h2 : exists out,
  nth_error (fst (raw_run raw0 (h1 ++ c :: h2))) (List.length h1) = Some out
  /\ match c with
     | RawOpen _ _ => o_ret out = 1 /\ o_printed out = []
     | RawCheck =>
         ((exists v, LastOpen h1 v true) -> o_printed out = [B "deny_everything: denied" ++ [x0a]])
         /\ (~ (exists v, LastOpen h1 v true) -> o_printed out = [])
     | RawShowVersion _ =>
         ((exists v, LastOpen h1 v true) -> o_ret out = 1 /\ o_printed out = [B "Deny Everything version 1.0" ++ [x0a]])
         /\ (~ (exists v, LastOpen h1 v true) -> o_ret out = 0 /\ o_printed out = [])
     end.
Proof.
  eexists. split; [apply raw_nth|]. destruct (raw_after h1) as [I1 I2].
  assert (P : r_print (snd (raw_run raw0 h1)) = true <-> exists v, LastOpen h1 v true).
  { split.
    - intros Ep. destruct (r_version (snd (raw_run raw0 h1))) as [v|] eqn:Ev.
      + exists v. apply I1. split; [reflexivity|exact Ep].
      + rewrite (I2 eq_refl) in Ep. discriminate.
    - intros (v & L). apply I1 in L. exact (proj2 L). }
  destruct c; cbn [raw_step fst].
  - split; reflexivity.
  - unfold raw_check. destruct (r_print _) eqn:Ep; cbn [negb o_printed]; split; intros L; try reflexivity.
    + destruct (L (proj1 P eq_refl)).
    + apply P in L. discriminate.
  - unfold raw_show_version. destruct (r_print _) eqn:Ep; cbn [negb o_printed o_ret]; split; intros L;
      try (split; reflexivity).
    + destruct (L (proj1 P eq_refl)).
    + apply P in L. discriminate.
Qed.
