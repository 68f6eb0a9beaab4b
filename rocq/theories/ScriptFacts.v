(** Facts about the approval script and about what the prompts show. *)
From Coq Require Import Lia.
From Verif Require Import Base BaseLemmas Num NumProofs Path PathProofs Template Options World Sys Io Socket Env Core Pair
  ReadProofs Approve Script Spec ScriptSpec TraceSpec SessionSpec TalkSpec AdversarySpec HonourSpec RequestProofs PairPure InputFacts
  PairProofs OpenFacts AskFacts AdversaryFacts GuardFacts SessionFacts PeerFacts ForwardFacts.
Local Open Scope Z_scope.

(** ** Arguments of the script *)

Lemma wrap64_id z : - 2 ^ 63 <= z < 2 ^ 63 -> wrap64 z = z.
Proof. intros H. unfold wrap64. rewrite Z.mod_small; lia. Qed.

Lemma radix_digits l : forall acc, Forall IsDigit l -> radix_value 10 acc l = Some (fold_left (fun n b => 10 * n + (bz b - 48)) l acc).
Proof.
  induction l as [|b l IH]; intros acc H; [reflexivity|].
  inversion H as [|? ? Hb Hl]; subst. cbn [radix_value fold_left].
  rewrite (proj2 (digit_Some b (bz b - 48)) (conj Hb eq_refl)).
  destruct (bz b - 48 <? 10) eqn:E; [|unfold IsDigit in Hb; lia].
  rewrite IH by exact Hl. f_equal. f_equal. lia.
Qed.

Lemma numeral_digits l n : Digits l n -> (hd x00 l = "0"%byte -> l = B "0") -> n < 2 ^ 63 -> bash_numeral l = Some n.
Proof.
  intros HD H0 Hn. pose proof (Digits_nonneg _ _ HD) as Hp. destruct HD as (Hl & HF & E).
  destruct l as [|c l]; [congruence|]. unfold bash_numeral.
  replace (byte_eqb c "0" && negb (is_nil l)) with false.
  - rewrite radix_digits by exact HF. cbn [option_map]. f_equal. fold (digits_value (c :: l)). rewrite <- E.
    apply wrap64_id. lia.
  - destruct (byte_eqb c "0") eqn:Ec; [|reflexivity]. apply byte_eqb_eq in Ec. subst c.
    specialize (H0 eq_refl). injection H0 as ->. reflexivity.
Qed.

Lemma arith_decimal n s : Decimal n s -> - 2 ^ 63 < n < 2 ^ 63 -> bash_arith s = ANumber n.
Proof.
  intros [(Hn & HD & H0)|(Hn & t & -> & HD & H0)] Hr; unfold bash_arith.
  - destruct HD as (Hl & HF & E). destruct s as [|c r]; [congruence|].
    replace (byte_eqb c "-") with false.
    + cbn [andb]. rewrite (numeral_digits (c :: r) n); [reflexivity|repeat split; assumption|exact H0|lia].
    + symmetry. apply byte_eqb_neq. intros ->. inversion HF; subst. apply minus_not_digit. assumption.
  - replace (byte_eqb "-" "-" && negb (is_nil t)) with true.
    + rewrite (numeral_digits t (- n)); [|exact HD|intros K; contradiction|lia].
      cbn [option_map]. rewrite Z.opp_involutive, wrap64_id by lia. reflexivity.
    + destruct HD as (Hl & _). destruct t; [congruence|reflexivity].
Qed.

Lemma uid_range pl a rq : Describes pl a rq -> 0 <= rq_uid rq < 2 ^ 32.
Proof. intros D. destruct (d_uid _ _ _ D) as (v & _ & _ & _ & H). exact H. Qed.
Lemma pid_range pl a rq : Describes pl a rq -> - 2 ^ 31 <= rq_pid rq < 2 ^ 31.
Proof. intros D. destruct (d_pid _ _ _ D) as (v & _ & _ & _ & H). exact H. Qed.

Lemma script_socket_decimal pl a rq u p : Describes pl a rq -> Decimal (rq_uid rq) u -> Decimal (rq_pid rq) p ->
  script_socket u p = Some (B "/var/run/sudo_pair/" ++ u ++ B "." ++ p ++ B ".sock").
Proof.
  intros D Hu Hp. pose proof (uid_range _ _ _ D). pose proof (pid_range _ _ _ D).
  unfold script_socket. rewrite (arith_decimal _ _ Hu), (arith_decimal _ _ Hp) by lia.
  apply Decimal_iff in Hu, Hp. subst. reflexivity.
Qed.

Lemma script_runs_nothing u p nu np : Decimal nu u -> Decimal np p -> - 2 ^ 63 < nu < 2 ^ 63 -> - 2 ^ 63 < np < 2 ^ 63 ->
  script_commands u p = Some [].
Proof. intros Hu Hp H1 H2. unfold script_commands. rewrite (arith_decimal _ _ Hu), (arith_decimal _ _ Hp) by assumption. reflexivity. Qed.

Lemma script_leads pl a rq u p : Describes pl a rq -> Decimal (rq_uid rq) u -> Decimal (rq_pid rq) p ->
  exists s, script_socket u p = Some s
  /\ (SocketAddress rq s <-> rq_socket_dir rq = B "/var/run/sudo_pair" \/ rq_socket_dir rq = B "/var/run/sudo_pair/").
Proof.
  intros D Hu Hp. eexists. split; [exact (script_socket_decimal _ _ _ _ _ D Hu Hp)|].
  assert (HN : SocketName rq (u ++ B "." ++ p ++ B ".sock")) by (exists u, p; auto).
  split.
  - intros (n & (u' & p' & Hu' & Hp' & En) & H). apply Decimal_iff in Hu, Hp, Hu', Hp'. subst u' p' u p.
    set (name := to_dec (rq_uid rq) ++ B "." ++ to_dec (rq_pid rq) ++ B ".sock") in *.
    assert (Hs : ~ In "/"%byte name).
    { pose proof (sock_name_ok (rq_uid rq) (rq_pid rq)) as (_ & _ & _ & X). exact X. }
    destruct H as [[_ E]|[(d & Ed & E)|(d & b & Ed & Hb & E)]].
    + exfalso. apply Hs. rewrite <- En, <- E. left. reflexivity.
    + right. subst n. apply app_inv_tail in E. symmetry. exact E.
    + left. subst n. change (B "/var/run/sudo_pair/") with (B "/var/run/sudo_pair" ++ B "/") in E.
      rewrite <- app_assoc in E. change (B "/" ++ name) with ("/"%byte :: name) in E.
      apply app_inv_tail in E. symmetry. exact E.
  - intros H. exists (u ++ B "." ++ p ++ B ".sock"). split; [exact HN|right]. destruct H as [H|H]; rewrite H.
    + right. exists (B "/var/run/sudo_pai"), "r"%byte. split; [reflexivity|]. split; [discriminate|reflexivity].
    + left. exists (B "/var/run/sudo_pair"). split; reflexivity.
Qed.

(** ** Who gets through to the socket *)

Lemma started_refused db k p groups uid pid ps : StartedBy uid ps ->
  In (run_script db k p uid pid ps) [RefuseSelf; NotFound; NoName] /\ forall ps', ~ Reached db k p groups uid pid ps ps'.
Proof.
  intros H. assert (E : In (run_script db k p uid pid ps) [RefuseSelf; NotFound; NoName]).
  { unfold run_script, approve_main, approve.
    replace (match ps_sudo_uid ps with Some u => u | None => cr_uid (ps_cred ps) end) with uid.
    - rewrite Z.eqb_refl. destruct (option_map _ _); [|cbn; auto]. destruct (negb _); cbn; auto.
    - destruct H as [-> |[-> E]]; [reflexivity|symmetry; exact E]. }
  split; [exact E|]. intros ps' HR. destruct HR as [X|v X _|g X _]; rewrite X in E; cbn in E; intuition discriminate.
Qed.

Section Found.
Variables (db : database) (k : kernel) (q : path) (n : nat).
Hypothesis Hway : forall c, OpenWay c q k.
Hypothesis Hname : k_names k q = Some n.
Let s := k_inodes k n.
Hypothesis Hkind : i_kind s = KSock.
Hypothesis Huser : db_user db (i_uid s) = true.
Hypothesis Hgroup : db_group db (i_gid s) = true.

Lemma started_decision uid u pid ps : StartedBy u ps -> u <> uid ->
  run_script db k q uid pid ps =
  if may_write (ps_cred ps) s then Pair
  else if negb (Z.land (i_perm s) 128 =? 0) then SudoUser (i_uid s)
  else if negb (Z.land (i_perm s) 16 =? 0) then SudoGroup (i_gid s) else NotWritable.
Proof.
  intros H N. unfold run_script. rewrite (way_finds _ _ _ _ (Hway _) Hname Hkind). cbn [option_map].
  fold s. rewrite Huser, Hgroup. unfold approve_main, approve. cbn [andb negb].
  replace (match ps_sudo_uid ps with Some u => u | None => cr_uid (ps_cred ps) end) with u.
  - replace (uid =? u) with false; [reflexivity|]. symmetry. apply Z.eqb_neq. congruence.
  - destruct H as [-> |[-> E]]; [reflexivity|symmetry; exact E].
Qed.

Lemma reached_user pl rq gb groups pid ps u : UserStage pl rq gb s -> i_perm s <> 0 ->
  rq_uid rq <> rq_to_uid rq -> rq_to_uid rq <> NO_ID ->
  ps_sudo_uid ps = None -> cr_uid (ps_cred ps) = u -> u <> rq_uid rq ->
  exists ps', Reached db k q groups (rq_uid rq) pid ps ps' /\ Entitled pl rq (ps_cred ps') /\ StartedBy u ps'.
Proof.
  intros HS HP HU HN H0 H1 N. assert (St : StartedBy u ps) by (right; auto).
  pose proof HS as (_ & _ & [[X _]|[X1 X2]]); [contradiction|].
  pose proof (started_decision (rq_uid rq) u pid ps St N) as E.
  destruct (may_write (ps_cred ps) s) eqn:W.
  - exists ps. split; [apply Reached_directly; exact E|]. split; [|exact St].
    destruct (cr_priv (ps_cred ps)) eqn:P; [left; exact P|].
    destruct (Z.eq_dec (cr_uid (ps_cred ps)) (rq_to_uid rq)) as [Y|Y]; [right; left; auto|].
    rewrite (user_stage_write pl rq gb s _ HS P Y) in W. discriminate.
  - rewrite X1, X2 in E. cbn in E.
    assert (W' : may_write (ps_cred (through_sudo groups ps (SudoUser (rq_to_uid rq)))) s = true).
    { unfold may_write. cbn [through_sudo ps_cred cr_priv cr_uid]. rewrite X1, X2, Z.eqb_refl. apply orb_true_r. }
    assert (St' : StartedBy u (through_sudo groups ps (SudoUser (rq_to_uid rq)))).
    { left. cbn [through_sudo ps_sudo_uid]. rewrite H1. reflexivity. }
    eexists. split; [apply Reached_as_user; [exact E|]|].
    + rewrite (started_decision (rq_uid rq) u pid _ St' N), W'. reflexivity.
    + split; [right; left; auto|exact St'].
Qed.

Lemma mem_z_head g l : mem_z g (g :: l) = true.
Proof. apply mem_z_iff. left. reflexivity. Qed.

Lemma reached_group pl rq gb groups pid ps u : GroupStage pl rq gb s -> i_perm s <> 0 ->
  rq_uid rq = rq_to_uid rq -> rq_f_group rq <> None -> rq_to_gid rq <> NO_ID ->
  ps_sudo_uid ps = None -> cr_uid (ps_cred ps) = u -> u <> rq_uid rq ->
  cr_priv (ps_cred ps) = true \/ u <> pl_euid pl ->
  exists ps', Reached db k q groups (rq_uid rq) pid ps ps' /\ Entitled pl rq (ps_cred ps') /\ StartedBy u ps'.
Proof.
  intros HS HP HU HG HN H0 H1 N R. assert (St : StartedBy u ps) by (right; auto).
  pose proof HS as (_ & X0 & [[X _]|[X1 X2]]); [contradiction|].
  pose proof (started_decision (rq_uid rq) u pid ps St N) as E.
  destruct (may_write (ps_cred ps) s) eqn:W.
  - exists ps. split; [apply Reached_directly; exact E|]. split; [|exact St].
    destruct (cr_priv (ps_cred ps)) eqn:P; [left; exact P|]. destruct R as [R|R]; [discriminate|].
    destruct (in_dec Z.eq_dec (rq_to_gid rq) (cr_gids (ps_cred ps))) as [Y|Y].
    + right. right. repeat split; try assumption. congruence.
    + rewrite (group_stage_write pl rq gb s _ HS P Y) in W. discriminate.
  - destruct R as [R|R]; [unfold may_write in W; rewrite R in W; discriminate|].
    rewrite X1, X2 in E. cbn in E.
    assert (W' : may_write (ps_cred (through_sudo groups ps (SudoGroup (rq_to_gid rq)))) s = true).
    { unfold may_write. cbn [through_sudo ps_cred cr_priv cr_uid cr_gids]. rewrite X0, X1, X2.
      replace (cr_uid (ps_cred ps) =? pl_euid pl) with false by (symmetry; apply Z.eqb_neq; congruence).
      rewrite mem_z_head. apply orb_true_r. }
    assert (St' : StartedBy u (through_sudo groups ps (SudoGroup (rq_to_gid rq)))).
    { left. cbn [through_sudo ps_sudo_uid]. rewrite H1. reflexivity. }
    eexists. split; [apply Reached_as_group; [exact E|]|].
    + rewrite (started_decision (rq_uid rq) u pid _ St' N), W'. reflexivity.
    + split; [|exact St']. right. right. cbn [through_sudo ps_cred cr_gids cr_uid].
      repeat split; try assumption; [left; reflexivity|congruence].
Qed.
End Found.

(** A process that may not search the directory does not find the socket. *)
Lemma search_above k c p d : p <> [] -> resolve k (dir_path p) = Some d -> may_search c (k_inodes k d) = false ->
  can_search k c p = false.
Proof.
  intros Hp Hd Hs. destruct (can_search k c p) eqn:E; [|reflexivity]. unfold can_search in E. rewrite forallb_forall in E.
  specialize (E (List.length p - 1)%nat). unfold dir_path in Hd.
  replace (firstn (List.length p - 1) p) with (removelast p) in E.
  - rewrite Hd, Hs in E. symmetry. apply E. apply in_seq. destruct p; [contradiction|cbn; lia].
  - destruct (exists_last Hp) as (l & x & ->). rewrite removelast_last, app_length, Nat.add_sub.
    rewrite firstn_app, Nat.sub_diag, firstn_all. cbn. rewrite app_nil_r. reflexivity.
Qed.
Lemma search_script db k p d uid pid ps : p <> [] -> resolve k (dir_path p) = Some d ->
  ~ MaySearch (ps_cred ps) (k_inodes k d) ->
  run_script db k p uid pid ps = NotFound /\ forall groups ps', ~ Reached db k p groups uid pid ps ps'.
Proof.
  intros Hp Hd Hs. assert (E : run_script db k p uid pid ps = NotFound).
  { unfold run_script, finds. cbn [find_fuel]. rewrite (search_above k _ p d Hp Hd); [reflexivity|].
    destruct (may_search _ _) eqn:X; [|reflexivity]. apply may_search_iff in X. contradiction. }
  split; [exact E|]. intros groups ps' H. destruct H; congruence.
Qed.

(** getent does not know the owner or the group of the socket. *)
Lemma unnamed_script db k p n groups uid pid ps ps' : k_names k p = Some n -> i_kind (k_inodes k n) = KSock ->
  db_user db (i_uid (k_inodes k n)) = false \/ db_group db (i_gid (k_inodes k n)) = false ->
  ~ Reached db k p groups uid pid ps ps'.
Proof.
  intros Hn Hk Hd. assert (E : In (run_script db k p uid pid ps) [NotFound; NoName]).
  { unfold run_script, finds. cbn [find_fuel]. rewrite Hn, Hk. destruct (can_search k (ps_cred ps) p); [right; left|left; reflexivity].
    cbn. replace (_ && _) with false; [reflexivity|]. destruct Hd as [-> | ->]; [reflexivity|symmetry; apply andb_false_r]. }
  intros H. destruct H as [R|v R|g R]; rewrite R in E; cbn in E; intuition discriminate.
Qed.

Section Claims.
Variables (pl : platform) (a : open_args) (rq : request) (w w' : world) (o : outcome (Z * pstate SudoPair)) (evs : list event).
Hypothesis D : Describes pl a rq.
Hypothesis HR : core_open SudoPair pl a (pstate0 _) w = (o, w').
Hypothesis HT : w_trace w' = w_trace w ++ evs.
Notation euid := (pl_euid pl).
Notation UserOut := (UserOutsider euid (rq_to_uid rq)).

Lemma stage_of_user : rq_uid rq <> rq_to_uid rq -> rq_to_uid rq <> 4294967295 ->
  forall q, SocketPath rq q -> Guarded UserOut q (w_k w) -> Everyone (fun c x => UserOut c \/ OnlyConnects x) w ->
  forall e1 b e2, evs = e1 ++ b :: e2 -> Creates q b -> forall k, Afterwards (w_k w') b e2 k ->
  exists gb, UserStage pl rq gb (k_inodes k (k_next (e_pre b))).
Proof.
  intros HU HN q Hq HG HE e1 b e2 E HC.
  apply (user_stage_side pl a rq w w' o evs D HR HT (fun _ => False) HU HN (alone rq _ _ _ Hq HG) (alone_everyone w _ HE) e1 b e2 E).
  rewrite <- (SocketPath_unique rq q Hq). exact HC.
Qed.

Lemma stage_of_group : rq_uid rq = rq_to_uid rq -> rq_to_gid rq <> 4294967295 ->
  forall q, SocketPath rq q -> Guarded (Unprivileged euid) q (w_k w) ->
  Everyone (fun c x => Unprivileged euid c \/ OnlyConnects x) w ->
  forall e1 b e2, evs = e1 ++ b :: e2 -> Creates q b -> forall k, Afterwards (w_k w') b e2 k ->
  exists gb, GroupStage pl rq gb (k_inodes k (k_next (e_pre b))).
Proof.
  intros HU HN q Hq HG HE e1 b e2 E HC.
  apply (group_stage_side pl a rq w w' o evs D HR HT (fun _ => False) HU HN (alone rq _ _ _ Hq HG) (alone_everyone w _ HE) e1 b e2 E).
  rewrite <- (SocketPath_unique rq q Hq). exact HC.
Qed.

Lemma colleague_user : rq_uid rq <> rq_to_uid rq -> rq_to_uid rq <> 4294967295 ->
  forall q, SocketPath rq q -> Guarded UserOut q (w_k w) -> Everyone (fun c x => UserOut c \/ OnlyConnects x) w ->
  forall e1 b e2, evs = e1 ++ b :: e2 -> Creates q b -> forall k, Afterwards (w_k w') b e2 k ->
  let s := k_inodes k (k_next (e_pre b)) in
  k_names k q = Some (k_next (e_pre b)) -> (forall c, OpenWay c q k) ->
  i_perm s = 0
  \/ forall db groups ps u, db_user db (i_uid s) = true -> db_group db (i_gid s) = true -> ps_sudo_uid ps = None -> cr_uid (ps_cred ps) = u -> u <> rq_uid rq ->
     exists ps', Reached db k q groups (rq_uid rq) (rq_pid rq) ps ps' /\ Entitled pl rq (ps_cred ps') /\ StartedBy u ps'.
Proof.
  intros HU HN q Hq HG HE e1 b e2 E HC k HK. cbv zeta. intros Hname Hway.
  destruct (stage_of_user HU HN q Hq HG HE e1 b e2 E HC k HK) as [gb HS].
  destruct (Z.eq_dec (i_perm (k_inodes k (k_next (e_pre b)))) 0) as [Z0|Z0]; [left; exact Z0|right].
  intros db groups ps u Du Dg. apply (reached_user db k q (k_next (e_pre b)) Hway Hname (proj1 HS) Du Dg) with (gb := gb); assumption.
Qed.

Lemma colleague_group : rq_uid rq = rq_to_uid rq -> rq_f_group rq <> None -> rq_to_gid rq <> 4294967295 ->
  forall q, SocketPath rq q -> Guarded (Unprivileged euid) q (w_k w) ->
  Everyone (fun c x => Unprivileged euid c \/ OnlyConnects x) w ->
  forall e1 b e2, evs = e1 ++ b :: e2 -> Creates q b -> forall k, Afterwards (w_k w') b e2 k ->
  let s := k_inodes k (k_next (e_pre b)) in
  k_names k q = Some (k_next (e_pre b)) -> (forall c, OpenWay c q k) ->
  i_perm s = 0
  \/ forall db groups ps u, db_user db (i_uid s) = true -> db_group db (i_gid s) = true -> ps_sudo_uid ps = None -> cr_uid (ps_cred ps) = u -> u <> rq_uid rq ->
     cr_priv (ps_cred ps) = true \/ u <> euid ->
     exists ps', Reached db k q groups (rq_uid rq) (rq_pid rq) ps ps' /\ Entitled pl rq (ps_cred ps') /\ StartedBy u ps'.
Proof.
  intros HU HF HN q Hq HG HE e1 b e2 E HC k HK. cbv zeta. intros Hname Hway.
  destruct (stage_of_group HU HN q Hq HG HE e1 b e2 E HC k HK) as [gb HS].
  destruct (Z.eq_dec (i_perm (k_inodes k (k_next (e_pre b)))) 0) as [Z0|Z0]; [left; exact Z0|right].
  intros db groups ps u Du Dg. apply (reached_group db k q (k_next (e_pre b)) Hway Hname (proj1 HS) Du Dg) with (gb := gb); assumption.
Qed.

Lemma nameless_user : rq_uid rq <> rq_to_uid rq -> rq_to_uid rq <> 4294967295 ->
  forall q, SocketPath rq q -> Guarded UserOut q (w_k w) -> Everyone (fun c x => UserOut c \/ OnlyConnects x) w ->
  forall e1 b e2, evs = e1 ++ b :: e2 -> Creates q b -> forall k, Afterwards (w_k w') b e2 k ->
  let s := k_inodes k (k_next (e_pre b)) in
  k_names k q = Some (k_next (e_pre b)) ->
  i_perm s = 0
  \/ forall db groups ps ps', db_user db (rq_to_uid rq) = false -> ~ Reached db k q groups (rq_uid rq) (rq_pid rq) ps ps'.
Proof.
  intros HU HN q Hq HG HE e1 b e2 E HC k HK. cbv zeta. intros Hname.
  destruct (stage_of_user HU HN q Hq HG HE e1 b e2 E HC k HK) as [gb HS].
  pose proof HS as (Hk & _ & [[X _]|[X1 X2]]); [left; exact X|right].
  intros db groups ps ps' Du. apply (unnamed_script db k q _ groups _ _ ps ps' Hname Hk). left. congruence.
Qed.
Lemma nameless_group : rq_uid rq = rq_to_uid rq -> rq_f_group rq <> None -> rq_to_gid rq <> 4294967295 ->
  forall q, SocketPath rq q -> Guarded (Unprivileged euid) q (w_k w) ->
  Everyone (fun c x => Unprivileged euid c \/ OnlyConnects x) w ->
  forall e1 b e2, evs = e1 ++ b :: e2 -> Creates q b -> forall k, Afterwards (w_k w') b e2 k ->
  let s := k_inodes k (k_next (e_pre b)) in
  k_names k q = Some (k_next (e_pre b)) ->
  i_perm s = 0
  \/ forall db groups ps ps', db_group db (rq_to_gid rq) = false -> ~ Reached db k q groups (rq_uid rq) (rq_pid rq) ps ps'.
Proof.
  intros HU HF HN q Hq HG HE e1 b e2 E HC k HK. cbv zeta. intros Hname.
  destruct (stage_of_group HU HN q Hq HG HE e1 b e2 E HC k HK) as [gb HS].
  pose proof HS as (Hk & _ & [[X _]|[X1 X2]]); [left; exact X|right].
  intros db groups ps ps' Du. apply (unnamed_script db k q _ groups _ _ ps ps' Hname Hk). right. congruence.
Qed.
End Claims.

(** ** Control characters in prompts *)

Lemma printable_app x y : Printable (x ++ y) <-> Printable x /\ Printable y.
Proof.
  split.
  - intros H. split; intros b Hb; apply H; apply in_or_app; auto.
  - intros [H1 H2] b Hb. apply in_app_or in Hb as [Hb|Hb]; auto.
Qed.
Lemma printable_cons b y : Printable (b :: y) <-> ~ Control b /\ Printable y.
Proof.
  split.
  - intros H. split; [apply H; left; reflexivity|intros c Hc; apply H; right; exact Hc].
  - intros [H1 H2] c [<-|Hc]; auto.
Qed.
Lemma printable_nil : Printable [].
Proof. intros b []. Qed.
Definition printableb (s : bytes) : bool := forallb (fun b => (32 <=? bz b) && negb (bz b =? 127)) s.
Lemma printableb_ok s : printableb s = true -> Printable s.
Proof.
  unfold printableb. rewrite forallb_forall. intros H b Hb [K|K]; specialize (H b Hb); lia.
Qed.

Lemma digit_printable l : Forall IsDigit l -> Printable l.
Proof. intros H b Hb. rewrite Forall_forall in H. apply H in Hb. unfold IsDigit in Hb. unfold Control. lia. Qed.
Lemma decimal_printable n s : Decimal n s -> Printable s.
Proof.
  intros [(_ & (_ & H & _) & _)|(_ & t & -> & (_ & H & _) & _)]; [apply digit_printable; exact H|].
  apply printable_cons. split; [unfold Control, bz; cbn; lia|apply digit_printable; exact H].
Qed.

Lemma same_printable p q : SamePath p q -> (Printable p <-> Printable q).
Proof.
  assert (S : ~ Control "/"%byte) by (unfold Control, bz; cbn; lia).
  assert (P : ~ Control "."%byte) by (unfold Control, bz; cbn; lia).
  pose proof printable_nil as N.
  induction 1; repeat (rewrite ?printable_app, ?printable_cons; cbn [B String.list_byte_of_string app]); try tauto.
  all: change (B "/./") with ["/"%byte; "."%byte; "/"%byte]; change (B "/.") with ["/"%byte; "."%byte];
    change (B "/") with ["/"%byte]; repeat rewrite ?printable_app, ?printable_cons; tauto.
Qed.

Lemma spaced_printable ws line : Spaced ws line -> Forall Printable ws -> Printable line.
Proof.
  induction 1 as [x|x ws line HS IH]; intros H; inversion H; subst; [assumption|].
  apply printable_app. split; [assumption|]. apply printable_cons. split; [unfold Control, bz; cbn; lia|auto].
Qed.

Lemma shown_printable b flag l : Shown b flag l -> Printable (B flag) -> Forall Printable l.
Proof. intros [[_ ->]|[_ ->]] H; auto. Qed.
Lemma shownwith_printable o flag l : ShownWith o flag l -> PrintableOpt o -> Printable (B flag) -> Forall Printable l.
Proof.
  intros [(v & Ev & ->)|[_ ->]] H HF; [|auto]. constructor; [|constructor].
  apply printable_app. split; [exact HF|]. apply printable_cons. split; [unfold Control, bz; cbn; lia|exact (H v Ev)].
Qed.

Lemma invocation_printable rq line : PrintableRequest rq -> Invocation rq line -> Printable line.
Proof.
  intros P (words & (f1 & f2 & f3 & f4 & f5 & f6 & f7 & f8 & f9 & f10 & f11 & f12 & f13 & f14 & f15 & f16 & -> & HI) & HS).
  destruct HI as (H1 & H2 & H3 & H4 & H5 & H6 & H7 & H8 & H9 & H10 & H11 & H12 & H13 & H14 & H15 & H16).
  apply (spaced_printable _ _ HS). repeat (apply Forall_app; split).
  1: constructor; [exact (pr_progname _ P)|constructor].
  1: destruct H1 as [[_ H1]|[_ ->]]; [|constructor].
  all: try (eapply shown_printable; [eassumption|apply printableb_ok; vm_compute; reflexivity]).
  all: try (eapply shownwith_printable; [eassumption|apply P|apply printableb_ok; vm_compute; reflexivity]).
  - destruct H16 as [(n & t & _ & Hd & ->)|[_ ->]]; [|constructor]. constructor; [|constructor].
    apply printable_app. split; [apply printableb_ok; vm_compute; reflexivity|].
    apply printable_cons. split; [unfold Control, bz; cbn; lia|exact (decimal_printable _ _ Hd)].
  - exact (pr_args _ P).
Qed.

Lemma directive_printable rq c x : PrintableRequest rq -> Directive rq c x -> forall b, In b x -> Control b -> b = c.
Proof.
  intros P H. assert (Q : Printable x \/ x = [c]).
  { destruct H; auto using pr_user, pr_host, pr_user_cwd, pr_binary.
    - left. destruct H as (_ & _ & _ & _ & [H|(d & H)]).
      + apply (same_printable _ _ H), (pr_binary _ P).
      + pose proof (pr_binary _ P) as K. apply (same_printable _ _ H) in K.
        apply printable_app in K as [_ K]. apply printable_cons in K as [_ K]. exact K.
    - left. eapply invocation_printable; eassumption.
    - left. exact (pr_policy_cwd _ P _ H).
    - left. eapply decimal_printable; eassumption.
    - left. eapply decimal_printable; eassumption.
    - left. eapply decimal_printable; eassumption.
    - left. eapply decimal_printable; eassumption.
    - left. eapply decimal_printable; eassumption. }
  intros b Hb Hc. destruct Q as [Q| ->]; [destruct (Q b Hb Hc)|]. destruct Hb as [<-|[]]. reflexivity.
Qed.

Lemma expands_printable esc def t out : Expands esc def t out ->
  (forall c x b, def c x -> In b x -> Control b -> b = c) ->
  forall b, In b out -> Control b -> In b t.
Proof.
  induction 1 as [|  |c x t out Hd HE IH|c t out Hc HE IH]; intros HD b Hb HC.
  - destruct Hb.
  - destruct Hb.
  - apply in_app_or in Hb as [Hb|Hb]; [right; left; symmetry; exact (HD _ _ _ Hd Hb HC)|right; right; apply IH; assumption].
  - destruct Hb as [<-|Hb]; [left; reflexivity|right; apply IH; assumption].
Qed.

Lemma prompt_printable rq t out : PrintableRequest rq -> Expands "%" (Directive rq) t out ->
  forall b, In b out -> Control b -> In b t.
Proof. intros P H. apply (expands_printable _ _ _ _ H). intros c x b Hd. exact (directive_printable rq c x P Hd b). Qed.

Lemma pair_prompt_printable rq evs out : PrintableRequest rq -> PairPrompt rq evs out ->
  exists t, TemplateFrom (rq_pair_prompt_path rq) (B "%U@%h:%d$ %C" ++ [x0a] ++ B "y/n? [n]: ") evs t
  /\ forall b, In b out -> Control b -> In b t.
Proof. intros P (t & HT & HE). exists t. split; [exact HT|]. apply (prompt_printable rq); assumption. Qed.

(** ** The default prompt for the user *)

Lemma expands_literal esc def c t out : Expands esc def (c :: t) out -> c <> esc ->
  exists out', out = c :: out' /\ Expands esc def t out'.
Proof. intros H N. inversion H; subst; [congruence|congruence|]. eauto. Qed.
Lemma expands_directive esc def c t out : Expands esc def (esc :: c :: t) out ->
  exists x out', def c x /\ out = x ++ out' /\ Expands esc def t out'.
Proof. intros H. inversion H; subst; [eauto|congruence]. Qed.
Lemma expands_end esc def out : Expands esc def [] out -> out = [].
Proof. intros H. inversion H. reflexivity. Qed.

Lemma default_instruction rq out : Expands "%" (Directive rq) (B "%B %u %p" ++ [x0a]) out ->
  exists u p, Decimal (rq_uid rq) u /\ Decimal (rq_pid rq) p
  /\ out = rq_binary_path rq ++ B " " ++ u ++ B " " ++ p ++ [x0a].
Proof.
  intros H. change (B "%B %u %p" ++ [x0a]) with ["%"; "B"; " "; "%"; "u"; " "; "%"; "p"; x0a]%byte in H.
  apply expands_directive in H as (x1 & o1 & H1 & -> & H). apply expands_literal in H as (o2 & -> & H); [|discriminate].
  apply expands_directive in H as (x2 & o3 & H2 & -> & H). apply expands_literal in H as (o4 & -> & H); [|discriminate].
  apply expands_directive in H as (x3 & o5 & H3 & -> & H). apply expands_literal in H as (o6 & -> & H); [|discriminate].
  apply expands_end in H. subst o6. exists x2, x3.
  assert (E1 : x1 = rq_binary_path rq).
  { inversion H1; [reflexivity|]. match goal with K : ~ In _ _ |- _ => exfalso; apply K; cbn; tauto end. }
  assert (E2 : Decimal (rq_uid rq) x2).
  { inversion H2; [assumption|]. match goal with K : ~ In _ _ |- _ => exfalso; apply K; cbn; tauto end. }
  assert (E3 : Decimal (rq_pid rq) x3).
  { inversion H3; [assumption|]. match goal with K : ~ In _ _ |- _ => exfalso; apply K; cbn; tauto end. }
  subst x1. split; [exact E2|]. split; [exact E3|reflexivity].
Qed.

Lemma instruction_leads pl a rq out : Describes pl a rq -> Expands "%" (Directive rq) (B "%B %u %p" ++ [x0a]) out ->
  exists u p s, out = rq_binary_path rq ++ B " " ++ u ++ B " " ++ p ++ [x0a]
  /\ script_commands u p = Some []
  /\ script_socket u p = Some s
  /\ (SocketAddress rq s <-> rq_socket_dir rq = B "/var/run/sudo_pair" \/ rq_socket_dir rq = B "/var/run/sudo_pair/").
Proof.
  intros D H. apply default_instruction in H as (u & p & Hu & Hp & E).
  destruct (script_leads pl a rq u p D Hu Hp) as (s & Hs & HA). exists u, p, s.
  split; [exact E|]. pose proof (uid_range _ _ _ D). pose proof (pid_range _ _ _ D).
  split; [apply (script_runs_nothing u p _ _ Hu Hp); lia|]. split; assumption.
Qed.
