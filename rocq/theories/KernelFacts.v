(** What other processes and the plugin's own calls leave unchanged. *)
From Coq Require Import Lia.
From Verif Require Import Base BaseLemmas Path World Sys TraceSpec RunProofs.
Local Open Scope Z_scope.

(** ** Splitting a linked list of events *)
(** What a process finds under a name is what the name stands for. *)
Lemma finds_resolve k c p n : finds k c p = Some n -> resolve k p = Some n.
Proof.
  unfold finds, resolve. generalize 40%nat. intros f. revert p. induction f as [|f IH]; intros p; [discriminate|].
  cbn [find_fuel resolve_fuel]. destruct (can_search k c p); [|discriminate].
  destruct (k_names k p) as [m|]; [|discriminate]. destruct (i_kind (k_inodes k m)); auto.
Qed.
(** Names in the same directory are reached in the same way. *)
Lemma can_search_beside k c p q : p <> [] -> q <> [] -> dir_path p = dir_path q -> can_search k c p = can_search k c q.
Proof.
  intros Hp Hq E.
  destruct (exists_last Hp) as (d & x & ->). destruct (exists_last Hq) as (d' & y & ->).
  unfold dir_path in E. rewrite !removelast_last in E. subst d'. unfold can_search.
  rewrite !app_length. cbn [List.length]. apply eq_iff_eq_true. rewrite !forallb_forall.
  assert (F : forall z n, In n (seq 0 (List.length d + 1)) -> firstn n (d ++ [z]) = firstn n d).
  { intros z n Hn. apply in_seq in Hn. rewrite firstn_app. replace (n - List.length d)%nat with 0%nat by lia.
    cbn. apply app_nil_r. }
  split; intros H n Hn; specialize (H n Hn); rewrite F in H |- * by exact Hn; exact H.
Qed.
Lemma can_edit_write k c p d : can_edit k c p = true -> dir_inode k p = Some d -> may_write c (k_inodes k d) = true.
Proof. unfold can_edit. intros H E. rewrite E in H. apply andb_true_iff in H. apply H. Qed.

Lemma Linked_at euid k ts e1 ev e2 k' :
  Linked euid k ts (e1 ++ ev :: e2) k' ->
  exists ts1 acts a ts2 k1, ts = ts1 ++ (acts, a) :: ts2
    /\ Linked euid k ts1 e1 k1 /\ e_pre ev = fold_left act acts k1
    /\ e_ans ev = a
    /\ e_post ev = effect euid (e_call ev) (e_ans ev) (e_pre ev)
    /\ Linked euid (e_post ev) ts2 e2 k'.
Proof.
  intros H. apply Linked_split in H as (ts1 & ts2 & k1 & -> & H1 & H2).
  inversion H2 as [|k0 acts a c ka kb ts' evs' k'' E1 E2 HL]; subst.
  exists ts1, acts, a, ts', k1. repeat split; assumption.
Qed.

Lemma Linked_nil euid k ts k' : Linked euid k ts [] k' -> k' = k.
Proof. inversion 1; reflexivity. Qed.

(** ** Functions of the kernel that nobody changes *)
Section Keeps.
Context {X : Type} (f : kernel -> X) (euid : Z).
Hypothesis f_act : forall k ca, f (act k ca) = f k.

Lemma acts_keep acts : forall k, f (fold_left act acts k) = f k.
Proof. induction acts as [|x acts IH]; intros k; [reflexivity|]. cbn [fold_left]. rewrite IH. apply f_act. Qed.

Lemma Linked_keeps k ts evs k' :
  Linked euid k ts evs k' ->
  Forall (fun ev => forall k0, f (effect euid (e_call ev) (e_ans ev) k0) = f k0) evs -> f k' = f k.
Proof.
  induction 1 as [|k acts a c k1 k2 ts evs k' E1 E2 HL IH]; intros HF; [reflexivity|].
  apply Forall_inv in HF as H1. apply Forall_inv_tail in HF. cbn in H1.
  rewrite (IH HF), E2, H1, E1. apply acts_keep.
Qed.

Lemma Linked_keeps_pre k ts e1 ev e2 k' :
  Linked euid k ts (e1 ++ ev :: e2) k' ->
  Forall (fun ev => forall k0, f (effect euid (e_call ev) (e_ans ev) k0) = f k0) e1 -> f (e_pre ev) = f k.
Proof.
  intros H HF. apply Linked_at in H as (ts1 & acts & a & ts2 & k1 & _ & H1 & -> & _).
  rewrite acts_keep. eapply Linked_keeps; eassumption.
Qed.
End Keeps.

Ltac destr_act := repeat match goal with
  | |- context [match ?x with _ => _ end] => destruct x
  end.

Lemma act_umask k ca : k_umask (act k ca) = k_umask k.
Proof. destruct ca as [c []]; cbn; destr_act; reflexivity. Qed.
Lemma act_sigint k ca : k_sigint (act k ca) = k_sigint k.
Proof. destruct ca as [c []]; cbn; destr_act; reflexivity. Qed.
Lemma act_conns k ca : k_conns (act k ca) = k_conns k.
Proof. destruct ca as [c []]; cbn; destr_act; reflexivity. Qed.
Lemma act_open k ca : k_open (act k ca) = k_open k.
Proof. destruct ca as [c []]; cbn; destr_act; reflexivity. Qed.

Definition listening (k : kernel) : bool := match k_listen k with Some _ => true | None => false end.
Definition listen_ino (k : kernel) : option (option nat) := option_map l_ino (k_listen k).

Lemma act_listening k ca : listening (act k ca) = listening k.
Proof.
  destruct ca as [c []]; cbn [act].
  1: { unfold listening. destruct (finds k c p); [|reflexivity]. destruct (k_listen k) eqn:E; [|rewrite E; reflexivity].
       destruct (_ && _); cbn; [reflexivity|rewrite E; reflexivity]. }
  all: destr_act; reflexivity.
Qed.

Lemma act_listen_ino k ca : listen_ino (act k ca) = listen_ino k.
Proof.
  destruct ca as [c []]; cbn [act].
  1: { unfold listen_ino. destruct (finds k c p); [|reflexivity]. destruct (k_listen k) eqn:E; [|rewrite E; reflexivity].
       destruct (_ && _); cbn; rewrite ?E; reflexivity. }
  all: destr_act; reflexivity.
Qed.

(** ** Which calls change what *)
Ltac destr_effect := cbn; repeat match goal with
  | |- context [match ?x with _ => _ end] => destruct x
  end; try reflexivity.

Definition NotUmask (c : call) : Prop := match c with CUmask _ => False | _ => True end.
Lemma effect_umask euid c a k : NotUmask c -> k_umask (effect euid c a k) = k_umask k.
Proof. intros H. destruct c; try contradiction; destr_effect. Qed.

Definition NotSigSet (c : call) : Prop := match c with CSigSet _ => False | _ => True end.
Lemma effect_sigint euid c a k : NotSigSet c -> k_sigint (effect euid c a k) = k_sigint k.
Proof. intros H. destruct c; try contradiction; destr_effect. Qed.

Definition NotListener (c : call) : Prop :=
  match c with CSocket | CBind _ | CCloseListener => False | _ => True end.
Lemma effect_listen_ino euid c a k : NotListener c -> listen_ino (effect euid c a k) = listen_ino k.
Proof.
  intros H. unfold listen_ino. destruct c; try contradiction; cbn; destruct a; try reflexivity.
  - destruct (k_names k p); reflexivity.
  - destruct (k_listen k) eqn:E; cbn; rewrite ?E; reflexivity.
  - destruct (resolve k p); reflexivity.
  - destruct (resolve k p); reflexivity.
  - destruct (k_listen k) as [l|] eqn:E; cbn; [|rewrite E; reflexivity]. destruct (l_queue l); cbn; rewrite ?E; reflexivity.
Qed.

Definition NotSock (c : call) : Prop :=
  match c with CSocket | CCloseListener => False | _ => True end.
Lemma effect_listening euid c a k : NotSock c -> listening (effect euid c a k) = listening k.
Proof.
  intros H. unfold listening. destruct c; try contradiction; cbn; destruct a; try reflexivity.
  - destruct (k_names k p); reflexivity.
  - destruct (k_listen k) eqn:E; [|rewrite E; reflexivity].
    destruct (k_names k p); cbn; [rewrite E; reflexivity|]. destruct (dir_inode k p); cbn; rewrite ?E; reflexivity.
  - destruct (k_listen k) eqn:E; cbn; rewrite ?E; reflexivity.
  - destruct (resolve k p); reflexivity.
  - destruct (resolve k p); reflexivity.
  - destruct (k_listen k) as [l|] eqn:E; cbn; [|rewrite E; reflexivity]. destruct (l_queue l); cbn; rewrite ?E; reflexivity.
Qed.

Definition NotConn (c : call) : Prop := match c with CAccept | CClose _ => False | _ => True end.
Lemma effect_open euid c a k : NotConn c -> k_open (effect euid c a k) = k_open k.
Proof. intros H. destruct c; try contradiction; destr_effect. Qed.
Lemma effect_conns euid c a k : c <> CAccept -> k_conns (effect euid c a k) = k_conns k.
Proof. intros H. destruct c; try congruence; destr_effect. Qed.

(** Instances. *)
Lemma keeps_calls {X} (f : kernel -> X) (C : call -> Prop) euid evs :
  (forall c a k, C c -> f (effect euid c a k) = f k) -> Only C evs ->
  Forall (fun ev => forall k0, f (effect euid (e_call ev) (e_ans ev) k0) = f k0) evs.
Proof. intros H. apply Forall_impl. intros ev HC k0. apply H. exact HC. Qed.

Lemma Linked_umask euid k ts evs k' : Linked euid k ts evs k' -> Only NotUmask evs -> k_umask k' = k_umask k.
Proof. intros H HO. eapply (Linked_keeps k_umask); eauto using act_umask, keeps_calls, effect_umask. Qed.

Lemma Linked_umask_pre euid k ts e1 ev e2 k' : Linked euid k ts (e1 ++ ev :: e2) k' -> Only NotUmask e1 ->
  k_umask (e_pre ev) = k_umask k.
Proof. intros H HO. eapply (Linked_keeps_pre k_umask); eauto using act_umask, keeps_calls, effect_umask. Qed.

Lemma Linked_sigint euid k ts evs k' : Linked euid k ts evs k' -> Only NotSigSet evs -> k_sigint k' = k_sigint k.
Proof. intros H HO. eapply (Linked_keeps k_sigint); eauto using act_sigint, keeps_calls, effect_sigint. Qed.

Lemma Linked_sigint_pre euid k ts e1 ev e2 k' : Linked euid k ts (e1 ++ ev :: e2) k' -> Only NotSigSet e1 ->
  k_sigint (e_pre ev) = k_sigint k.
Proof. intros H HO. eapply (Linked_keeps_pre k_sigint); eauto using act_sigint, keeps_calls, effect_sigint. Qed.

Lemma Linked_ino_pre euid k ts e1 ev e2 k' : Linked euid k ts (e1 ++ ev :: e2) k' -> Only NotListener e1 ->
  listen_ino (e_pre ev) = listen_ino k.
Proof. intros H HO. eapply (Linked_keeps_pre listen_ino); eauto using act_listen_ino, keeps_calls, effect_listen_ino. Qed.

Lemma Linked_listening euid k ts evs k' : Linked euid k ts evs k' -> Only NotSock evs -> listening k' = listening k.
Proof. intros H HO. eapply (Linked_keeps listening); eauto using act_listening, keeps_calls, effect_listening. Qed.

Lemma Linked_open euid k ts evs k' : Linked euid k ts evs k' -> Only NotConn evs -> k_open k' = k_open k.
Proof. intros H HO. eapply (Linked_keeps k_open); eauto using act_open, keeps_calls, effect_open. Qed.

Lemma Linked_conns euid k ts evs k' : Linked euid k ts evs k' -> Only (fun c => c <> CAccept) evs -> k_conns k' = k_conns k.
Proof.
  intros H HO. eapply (Linked_keeps k_conns); [exact act_conns|exact H|].
  eapply keeps_calls; [|exact HO]. intros. apply effect_conns. assumption.
Qed.

Lemma listening_None k : listening k = false <-> k_listen k = None.
Proof. unfold listening. destruct (k_listen k); split; congruence. Qed.
