(** The bounds on the loops of the model do not matter: each round of a loop
    that is to be followed by another one uses up an answer of the script. *)
From Coq Require Import Lia.
From Verif Require Import Base BaseLemmas Path World Sys Io Socket.
Local Open Scope Z_scope.

Definition left_in (w : world) : nat := List.length (w_script w).

(** [m] never adds answers to the script. *)
Definition Shrinks {A} (m : M A) : Prop := forall w, (left_in (snd (m w)) <= left_in w)%nat.

(** [m] uses up an answer, unless time stops. *)
Definition Strict {A} (m : M A) : Prop := forall w,
  (left_in (snd (m w)) <= left_in w)%nat /\ (fst (m w) <> Stopped -> (left_in (snd (m w)) < left_in w)%nat).

(** [m] uses up an answer whenever it ends in a way after which it may be
    tried again. *)
Definition Uses {A} (m : io A) : Prop := forall w,
  (left_in (snd (m w)) <= left_in w)%nat
  /\ ((exists x, fst (m w) = Done (Ok x)) \/ (exists e, fst (m w) = Done (Err (Os e))) ->
      (left_in (snd (m w)) < left_in w)%nat).

Lemma Strict_sys A c f : Strict (@sys A c f).
Proof.
  intros w. unfold sys, left_in. destruct (w_script w) as [|[acts an] rest] eqn:E.
  - cbn [fst snd]. rewrite E. cbn [List.length]. split; [lia|]. intros H. destruct H. reflexivity.
  - cbv zeta. destruct (f an _) as [[x k]|]; cbn [fst snd w_script].
    + cbn [List.length]. split; lia.
    + rewrite E. cbn [List.length]. split; [lia|]. intros H. destruct H. reflexivity.
Qed.
Lemma Strict_Shrinks A (m : M A) : Strict m -> Shrinks m.
Proof. intros H w. exact (proj1 (H w)). Qed.
Lemma Strict_Uses A (m : io A) : Strict m -> Uses m.
Proof.
  intros H w. split; [exact (proj1 (H w))|]. intros [[x E]|[x E]]; apply (proj2 (H w)); rewrite E; discriminate.
Qed.
Lemma Uses_Shrinks A (m : io A) : Uses m -> Shrinks m.
Proof. intros H w. exact (proj1 (H w)). Qed.
Lemma Shrinks_sys A c f : Shrinks (@sys A c f).
Proof. apply Strict_Shrinks, Strict_sys. Qed.
Lemma Shrinks_ret A (x : A) : Shrinks (ret x).
Proof. intros w. cbn. lia. Qed.
Lemma Shrinks_bind A C (m : M A) (f : A -> M C) : Shrinks m -> (forall x, Shrinks (f x)) -> Shrinks (bind m f).
Proof.
  intros Hm Hf w. unfold bind. specialize (Hm w). destruct (m w) as [[x| |] w1]; cbn in *; try exact Hm.
  specialize (Hf x w1). lia.
Qed.
Lemma Strict_bind A C (m : M A) (f : A -> M C) : Strict m -> (forall x, Shrinks (f x)) -> Strict (bind m f).
Proof.
  intros Hm Hf w. unfold bind. destruct (Hm w) as [H1 H2]. destruct (m w) as [[x| |] w1]; cbn [fst snd] in *.
  - specialize (Hf x w1). split; [lia|]. intros _. assert (X : (left_in w1 < left_in w)%nat) by (apply H2; discriminate). lia.
  - split; [exact H1|]. intros _. apply H2. discriminate.
  - split; [exact H1|]. intros H. destruct H. reflexivity.
Qed.

Lemma Uses_pf_write pf b : Uses (pf_write pf b).
Proof.
  unfold pf_write. destruct (negb (pf_present pf)); [|destruct (has_nul b); [|apply Strict_Uses, Strict_sys]];
    (intros w; cbn; split; [lia|]; intros [[x H]|[x H]]; discriminate).
Qed.

Lemma Uses_tty_write b : Uses (sys_write_tty b).
Proof. apply Strict_Uses, Strict_sys. Qed.

Lemma Uses_socket_write c b : Uses (socket_write c b).
Proof.
  apply Strict_Uses. unfold socket_write, ctrl_c_aborts_syscalls.
  apply Strict_bind; [|intros; apply Shrinks_ret].
  apply Strict_bind; [apply Strict_sys|]. intros [old|er]; [|apply Shrinks_ret].
  apply Shrinks_bind; [apply Shrinks_sys|]. intros [u|er]; [|apply Shrinks_ret].
  apply Shrinks_bind; [apply Shrinks_sys|]. intros r.
  apply Shrinks_bind; [apply Shrinks_sys|]. intros [v|er]; apply Shrinks_ret.
Qed.

(** Any two bounds that are large enough give the same result. *)
Lemma write_all_loop_fuel write : (forall b, Uses (write b)) -> forall n n' buf w,
  (left_in w < n)%nat -> (left_in w < n')%nat -> write_all_loop n write buf w = write_all_loop n' write buf w.
Proof.
  intros HU. induction n as [|n IH]; intros n' buf w Hn Hn'; [lia|]. destruct n' as [|n']; [lia|].
  cbn [write_all_loop]. destruct buf as [|x buf]; [reflexivity|]. unfold bind.
  destruct (HU (x :: buf) w) as [H1 H2]. destruct (write (x :: buf) w) as [[[z|er]| |] w1]; cbn [fst snd] in *; try reflexivity.
  - destruct (z =? 0); [reflexivity|]. destruct (zlen (x :: buf) <? z); [reflexivity|].
    assert (left_in w1 < left_in w)%nat by (apply H2; eauto). apply IH; lia.
  - destruct er as [e| | | | | |]; try reflexivity. destruct (e =? EINTR); [|reflexivity].
    assert (left_in w1 < left_in w)%nat by (apply H2; eauto). apply IH; lia.
Qed.

Lemma accept_loop_fuel : forall n n' w, (left_in w < n)%nat -> (left_in w < n')%nat -> accept_loop n w = accept_loop n' w.
Proof.
  induction n as [|n IH]; intros n' w Hn Hn'; [lia|]. destruct n' as [|n']; [lia|].
  cbn [accept_loop]. unfold bind. destruct (Strict_sys _ CAccept (fun a k => ok_or_err a k
    (match k_listen k with
     | Some l =>
         match l_queue l with
         | c :: q =>
             let n := List.length (k_conns k) in
             Some (Ok n, set_listen (Some (mkListener (l_fd l) (l_ino l) (l_on l) q))
                           (set_conns (k_conns k ++ [c]) (n :: k_open k) k))
         | [] => None
         end
     | None => None
     end)) w) as [H1 H2]. fold sys_accept in H1, H2.
  destruct (sys_accept w) as [[[c|er]| |] w1]; cbn [fst snd] in *; try reflexivity.
  destruct er as [e| | | | | |]; try reflexivity. destruct (e =? EINTR); [|reflexivity].
  assert (left_in w1 < left_in w)%nat by (apply H2; discriminate). apply IH; lia.
Qed.

Lemma Shrinks_write_all_loop write : (forall b, Uses (write b)) -> forall n buf, Shrinks (write_all_loop n write buf).
Proof.
  intros HU. induction n as [|n IH]; intros buf; cbn [write_all_loop]; destruct buf as [|x buf]; try apply Shrinks_ret.
  - intros w. cbn. lia.
  - apply Shrinks_bind; [apply Uses_Shrinks, HU|]. intros [z|er].
    + destruct (z =? 0); [apply Shrinks_ret|]. destruct (zlen (x :: buf) <? z); [intros w; cbn; lia|apply IH].
    + destruct er as [e| | | | | |]; try apply Shrinks_ret. destruct (e =? EINTR); [apply IH|apply Shrinks_ret].
Qed.

Lemma Shrinks_write_all write : (forall b, Uses (write b)) -> forall buf, Shrinks (write_all write buf).
Proof.
  intros HU buf w. unfold write_all, bind, turns_left. apply (Shrinks_write_all_loop write HU).
Qed.

Lemma write_all_uses write : (forall b, Uses (write b)) -> forall buf, buf <> [] -> forall w u,
  fst (write_all write buf w) = Done (Ok u) -> (left_in (snd (write_all write buf w)) < left_in w)%nat.
Proof.
  intros HU buf Hb w u. unfold write_all, bind, turns_left. cbn [write_all_loop]. destruct buf as [|x buf]; [congruence|].
  unfold bind. destruct (HU (x :: buf) w) as [H1 H2].
  destruct (write (x :: buf) w) as [[[z|er]| |] w1]; cbn [fst snd] in *; try discriminate.
  - destruct (z =? 0); [discriminate|]. destruct (zlen (x :: buf) <? z); [discriminate|]. intros _.
    assert (left_in w1 < left_in w)%nat by (apply H2; eauto).
    pose proof (Shrinks_write_all_loop write HU (List.length (w_script w)) (skipn (Z.to_nat z) (x :: buf)) w1). lia.
  - destruct er as [e| | | | | |]; try discriminate. destruct (e =? EINTR); [|discriminate]. intros _.
    assert (left_in w1 < left_in w)%nat by (apply H2; eauto).
    pose proof (Shrinks_write_all_loop write HU (List.length (w_script w)) (x :: buf) w1). lia.
Qed.

Lemma write_line_uses pf line w u : fst (write_line pf line w) = Done (Ok u) ->
  (left_in (snd (write_line pf line w)) < left_in w)%nat.
Proof.
  unfold write_line, bind, pf_write_all.
  pose proof (Shrinks_write_all _ (Uses_pf_write pf) (pf_tag pf) w) as S1.
  destruct (write_all (pf_write pf) (pf_tag pf) w) as [[[v1|er]| |] w1]; cbn [fst snd] in *; try discriminate.
  pose proof (Shrinks_write_all _ (Uses_pf_write pf) line w1) as S2.
  destruct (write_all (pf_write pf) line w1) as [[[v2|er]| |] w2]; cbn [fst snd] in *; try discriminate.
  pose proof (write_all_uses _ (Uses_pf_write pf) newline ltac:(discriminate) w2) as S3.
  destruct (write_all (pf_write pf) newline w2) as [[[v3|er]| |] w3]; cbn [fst snd] in *; try discriminate.
  intros _. specialize (S3 _ eq_refl). cbn [ret snd]. lia.
Qed.

Lemma source_loop_fuel pf source : forall n n' w, (left_in w < n)%nat -> (left_in w < n')%nat ->
  source_loop n pf source w = source_loop n' pf source w.
Proof.
  induction n as [|n IH]; intros n' w Hn Hn'; [lia|]. destruct n' as [|n']; [lia|].
  cbn [source_loop]. destruct source as [s|]; [|reflexivity]. unfold bind.
  pose proof (write_line_uses pf s w) as H. destruct (write_line pf s w) as [[[u|er]| |] w1]; cbn [fst snd] in *; try reflexivity.
  specialize (H _ eq_refl). apply IH; lia.
Qed.

Lemma write_bounds w buf n : (List.length (w_script w) < n)%nat ->
  (forall c, write_all_loop n (socket_write c) buf w = socket_write_all c buf w)
  /\ (forall pf, write_all_loop n (pf_write pf) buf w = pf_write_all pf buf w)
  /\ write_all_loop n sys_write_tty buf w = tty_write_all buf w.
Proof.
  intros H. split; [|split]; [intros c|intros pf|];
    unfold socket_write_all, pf_write_all, tty_write_all, write_all; unfold bind, turns_left;
    apply write_all_loop_fuel; unfold left_in; try lia.
  - apply Uses_socket_write.
  - apply Uses_pf_write.
  - apply Uses_tty_write.
Qed.

Lemma other_bounds w n m : (List.length (w_script w) < n)%nat -> (List.length (w_script w) < m)%nat ->
  accept_loop n w = accept_loop m w
  /\ forall pf source, source_loop n pf source w = source_loop m pf source w.
Proof.
  intros H1 H2. split; [apply accept_loop_fuel; assumption|]. intros pf source. apply source_loop_fuel; assumption.
Qed.
