(** Reasoning about computations: every computation of the model appends a
    linked list of events to the trace. *)
From Verif Require Import Base BaseLemmas Path World Sys.
Local Open Scope Z_scope.

Global Arguments resolve : simpl never.
Global Arguments dir_inode : simpl never.

(** ** The effect of a call on the kernel *)
Definition effect (euid : Z) (c : call) (a : answer) (k : kernel) : kernel :=
  match c, a with
  | CUnlink p, AOk =>
      match k_names k p with
      | Some _ => set_names (put_name p None (k_names k)) k
      | None => k
      end
  | CUmask m, AOk => set_umask (Z.land m 511) k
  | CSocket, ANum fd => set_listen (Some (mkListener fd None false [])) k
  | CBind p, ANum g =>
      match k_listen k, k_names k p, dir_inode k p with
      | Some l, None, Some _ =>
          set_listen (Some (mkListener (l_fd l) (Some (k_next k)) (l_on l) (l_queue l)))
            (add_file p (mkInode KSock euid g (Z.ldiff 511 (k_umask k))) k)
      | _, _, _ => k
      end
  | CListen, AOk =>
      match k_listen k with
      | Some l => set_listen (Some (mkListener (l_fd l) (l_ino l) true (l_queue l))) k
      | None => k
      end
  | CChown p u g, AOk =>
      match resolve k p with Some n => chown_inode n u g k | None => k end
  | CChmod p m, AOk =>
      match resolve k p with Some n => chmod_inode n m k | None => k end
  | CAccept, AOk =>
      match k_listen k with
      | Some l =>
          match l_queue l with
          | c :: q =>
              set_listen (Some (mkListener (l_fd l) (l_ino l) (l_on l) q))
                (set_conns (k_conns k ++ [c]) (List.length (k_conns k) :: k_open k) k)
          | [] => k
          end
      | None => k
      end
  | CCloseListener, AOk => set_listen None k
  | CSigSet s, AOk => set_sigint s k
  | CClose c, AOk => set_conns (k_conns k) (remove Nat.eq_dec c (k_open k)) k
  | _, _ => k
  end.

(** A list of events produced from state [k] by the turns [ts]. *)
Inductive Linked (euid : Z) : kernel -> list turn -> list event -> kernel -> Prop :=
| L_nil k : Linked euid k [] [] k
| L_cons k acts a c k1 k2 ts evs k' :
    k1 = fold_left act acts k -> k2 = effect euid c a k1 ->
    Linked euid k2 ts evs k' ->
    Linked euid k ((acts, a) :: ts) (mkEvent c a k1 k2 :: evs) k'.

Definition Ran (euid : Z) (w : world) (evs : list event) (w' : world) : Prop :=
  exists ts, w_script w = ts ++ w_script w'
    /\ w_trace w' = w_trace w ++ evs
    /\ Linked euid (w_k w) ts evs (w_k w').

Lemma Linked_app euid k ts1 evs1 k1 ts2 evs2 k2 :
  Linked euid k ts1 evs1 k1 -> Linked euid k1 ts2 evs2 k2 ->
  Linked euid k (ts1 ++ ts2) (evs1 ++ evs2) k2.
Proof. induction 1; intros; cbn; [assumption|]. econstructor; eauto. Qed.

Lemma Linked_split euid evs1 : forall k ts evs2 k',
  Linked euid k ts (evs1 ++ evs2) k' ->
  exists ts1 ts2 k1, ts = ts1 ++ ts2 /\ Linked euid k ts1 evs1 k1 /\ Linked euid k1 ts2 evs2 k'.
Proof.
  induction evs1 as [|e evs1 IH]; intros k ts evs2 k' H; cbn in H.
  - exists [], ts, k. split; [reflexivity|]. split; [constructor|exact H].
  - inversion H as [|k0 acts a c k1 k2 ts' evs' k'' E1 E2 HL]; subst.
    apply IH in HL as (ts1 & ts2 & k1 & -> & H1 & H2).
    exists ((acts, a) :: ts1), ts2, k1. split; [reflexivity|]. split; [|exact H2].
    econstructor; eauto.
Qed.

Lemma Linked_length euid k ts evs k' : Linked euid k ts evs k' -> List.length ts = List.length evs.
Proof. induction 1; cbn; congruence. Qed.

Lemma Ran_refl euid w : Ran euid w [] w.
Proof. exists []. rewrite app_nil_r. repeat split. constructor. Qed.

Lemma Ran_trans euid w e1 w1 e2 w2 : Ran euid w e1 w1 -> Ran euid w1 e2 w2 -> Ran euid w (e1 ++ e2) w2.
Proof.
  intros (t1 & S1 & T1 & L1) (t2 & S2 & T2 & L2). exists (t1 ++ t2). split; [|split].
  - rewrite S1, S2, app_assoc. reflexivity.
  - rewrite T2, T1, app_assoc. reflexivity.
  - eapply Linked_app; eassumption.
Qed.

Lemma Ran_trace euid w evs w' : Ran euid w evs w' -> w_trace w' = w_trace w ++ evs.
Proof. intros (ts & _ & H & _). exact H. Qed.

Lemma Ran_unique euid w evs1 evs2 w' : Ran euid w evs1 w' -> Ran euid w evs2 w' -> evs1 = evs2.
Proof.
  intros H1 H2. apply Ran_trace in H1, H2. rewrite H1 in H2. eapply app_inv_head. exact H2.
Qed.

Lemma Ran_given euid w evs evs' w' : Ran euid w evs w' -> w_trace w' = w_trace w ++ evs' -> evs' = evs.
Proof. intros H1 H2. apply Ran_trace in H1. rewrite H1 in H2. symmetry. eapply app_inv_head. exact H2. Qed.

(** ** Specifications *)
Definition yields {A} (euid : Z) (m : M A) (Q : outcome A -> list event -> Prop) : Prop :=
  forall w o w', m w = (o, w') -> exists evs, Ran euid w evs w' /\ Q o evs.

Definition Tr {A} : outcome A -> list event -> Prop := fun _ _ => True.

Lemma yields_weaken {A} euid (m : M A) (Q R : outcome A -> list event -> Prop) :
  yields euid m Q -> (forall o evs, Q o evs -> R o evs) -> yields euid m R.
Proof. intros H HQ w o w' E. destruct (H w o w' E) as (evs & H1 & H2). eauto. Qed.

Lemma yields_and {A} euid (m : M A) (Q R : outcome A -> list event -> Prop) :
  yields euid m Q -> yields euid m R -> yields euid m (fun o evs => Q o evs /\ R o evs).
Proof.
  intros H1 H2 w o w' E. destruct (H1 w o w' E) as (evs & R1 & Q1). destruct (H2 w o w' E) as (evs' & R2 & Q2).
  rewrite (Ran_unique _ _ _ _ _ R2 R1) in Q2. eauto.
Qed.

Lemma yields_ret {A} euid (a : A) : yields euid (ret a) (fun o evs => o = Done a /\ evs = []).
Proof. intros w o w' E. injection E as <- <-. exists []. split; [apply Ran_refl|auto]. Qed.

Lemma yields_panic {A} euid : yields euid (@panic A) (fun o evs => o = Panicked /\ evs = []).
Proof. intros w o w' E. injection E as <- <-. exists []. split; [apply Ran_refl|auto]. Qed.

Lemma yields_stop {A} euid : yields euid (@stop A) (fun o evs => o = Stopped /\ evs = []).
Proof. intros w o w' E. injection E as <- <-. exists []. split; [apply Ran_refl|auto]. Qed.

Lemma yields_turns_left euid : yields euid turns_left (fun o evs => exists n, o = Done n /\ evs = []).
Proof. intros w o w' E. injection E as <- <-. exists []. split; [apply Ran_refl|eauto]. Qed.

Lemma yields_seq {A C} euid (m : M A) (f : A -> M C) Q (R : outcome C -> list event -> Prop) :
  yields euid m Q ->
  (forall a e1, Q (Done a) e1 -> yields euid (f a) (fun o e2 => R o (e1 ++ e2))) ->
  (forall e1, Q Panicked e1 -> R Panicked e1) ->
  (forall e1, Q Stopped e1 -> R Stopped e1) ->
  yields euid (bind m f) R.
Proof.
  intros H1 H2 H3 H4 w o w' E. unfold bind in E. destruct (m w) as [[a| |] w1] eqn:Em.
  - destruct (H1 _ _ _ Em) as (e1 & R1 & Q1).
    destruct (H2 a e1 Q1 _ _ _ E) as (e2 & R2 & Q2).
    exists (e1 ++ e2). split; [eapply Ran_trans; eassumption|exact Q2].
  - injection E as <- <-. destruct (H1 _ _ _ Em) as (e1 & R1 & Q1). eauto.
  - injection E as <- <-. destruct (H1 _ _ _ Em) as (e1 & R1 & Q1). eauto.
Qed.

Lemma yields_ret' {A} euid (a : A) (R : outcome A -> list event -> Prop) :
  R (Done a) [] -> yields euid (ret a) R.
Proof. intros H. eapply yields_weaken; [apply yields_ret|]. intros o evs [-> ->]. exact H. Qed.

Lemma yields_panic' {A} euid (R : outcome A -> list event -> Prop) :
  R Panicked [] -> yields euid panic R.
Proof. intros H. eapply yields_weaken; [apply yields_panic|]. intros o evs [-> ->]. exact H. Qed.

Lemma yields_stop' {A} euid (R : outcome A -> list event -> Prop) :
  R Stopped [] -> yields euid stop R.
Proof. intros H. eapply yields_weaken; [apply yields_stop|]. intros o evs [-> ->]. exact H. Qed.

Lemma yields_catch {A} euid (m : M A) (Q : outcome A -> list event -> Prop) :
  yields euid m Q ->
  yields euid (catch m) (fun o evs => match o with
    | Done (Some a) => Q (Done a) evs | Done None => Q Panicked evs
    | Panicked => False | Stopped => Q Stopped evs end).
Proof.
  intros H w o w' E. unfold catch in E. destruct (m w) as [[a| |] w1] eqn:Em; injection E as <- <-;
    destruct (H _ _ _ Em) as (evs & R1 & Q1); eauto.
Qed.

Lemma yields_unwind {A} euid (m : M A) (c : M unit) Q R :
  yields euid m Q -> yields euid c R ->
  yields euid (unwind_with m c) (fun o evs => match o with
    | Done a => Q (Done a) evs
    | Panicked => exists e1 e2, evs = e1 ++ e2 /\ Q Panicked e1 /\ (R (Done tt) e2 \/ R Panicked e2)
    | Stopped => Q Stopped evs \/ exists e1 e2, evs = e1 ++ e2 /\ Q Panicked e1 /\ R Stopped e2 end).
Proof.
  intros H1 H2 w o w' E. unfold unwind_with in E. destruct (m w) as [[a| |] w1] eqn:Em.
  - injection E as <- <-. destruct (H1 _ _ _ Em) as (evs & R1 & Q1). eauto.
  - destruct (H1 _ _ _ Em) as (e1 & R1 & Q1). destruct (c w1) as [[[]| |] w2] eqn:Ec;
      injection E as <- <-; destruct (H2 _ _ _ Ec) as (e2 & R2 & Q2); exists (e1 ++ e2);
      (split; [eapply Ran_trans; eassumption|]); [eauto 10|eauto 10|right; eauto 10].
  - injection E as <- <-. destruct (H1 _ _ _ Em) as (evs & R1 & Q1). eauto.
Qed.

(** One call. *)
Lemma yields_sys {A} euid c (f : answer -> kernel -> option (A * kernel)) :
  (forall a k x k', f a k = Some (x, k') -> k' = effect euid c a k) ->
  yields euid (sys c f) (fun o evs =>
    (o = Stopped /\ evs = [])
    \/ exists a x k, o = Done x /\ f a k = Some (x, effect euid c a k)
                     /\ evs = [mkEvent c a k (effect euid c a k)]).
Proof.
  intros Hf w o w' E. unfold sys in E. destruct (w_script w) as [|[acts a] rest] eqn:Es.
  - injection E as <- <-. exists []. split; [apply Ran_refl|auto].
  - destruct (f a (fold_left act acts (w_k w))) as [[x k2]|] eqn:Ef.
    + injection E as <- <-. pose proof (Hf _ _ _ _ Ef) as Hk. subst k2.
      eexists [_]. split.
      * exists [(acts, a)]. cbn. split; [exact Es|]. split; [reflexivity|].
        econstructor; [reflexivity|reflexivity|constructor].
      * right. exists a, x, (fold_left act acts (w_k w)). split; [reflexivity|]. split; [exact Ef|reflexivity].
    + injection E as <- <-. exists []. split; [apply Ran_refl|auto].
Qed.

(** What an answer means for a call, as seen by the plugin. *)
Definition one {A} (c : call) (euid : Z) (Q : A -> answer -> kernel -> Prop)
  (o : outcome A) (evs : list event) : Prop :=
  (o = Stopped /\ evs = [])
  \/ exists x a k, o = Done x /\ evs = [mkEvent c a k (effect euid c a k)] /\ Q x a k.

Ltac solve_one :=
  eapply yields_weaken;
  [ apply yields_sys; intros a k x k' H;
    destruct a; cbn [ok_or_err] in H; cbn [effect]; try discriminate;
    repeat match type of H with context [match ?y with _ => _ end] => destruct y eqn:? end;
    try discriminate; injection H as <- <-; try reflexivity
  | intros o evs [H|(a & x & k & -> & H & ->)]; [left; exact H|right; exists x, a, k; split; [reflexivity|];
      split; [reflexivity|]] ].

Lemma stat_spec euid p : yields euid (sys_stat p) (one (CStat p) euid (fun r a k =>
  match a with
  | AErr e => r = Err (Os e)
  | AOk => r = match resolve k p with Some n => Ok (k_inodes k n) | None => Err (Os ENOENT) end
  | _ => False end)).
Proof.
  solve_one. destruct a; cbn in H; try discriminate.
  - destruct (resolve k p); injection H as <-; reflexivity.
  - injection H as <-. reflexivity.
Qed.

Lemma unlink_spec euid p : yields euid (sys_unlink p) (one (CUnlink p) euid (fun r a k =>
  match a with
  | AErr e => r = Err (Os e)
  | AOk => r = match k_names k p with Some _ => Ok tt | None => Err (Os ENOENT) end
  | _ => False end)).
Proof.
  solve_one. destruct a; cbn in H; try discriminate.
  - destruct (k_names k p); injection H as <-; reflexivity.
  - injection H as <-. reflexivity.
Qed.

Lemma umask_spec euid m : yields euid (sys_umask m) (one (CUmask m) euid (fun r a k => a = AOk /\ r = k_umask k)).
Proof. solve_one. destruct a; cbn in H; try discriminate. injection H as <-. auto. Qed.

Lemma socket_spec euid : yields euid sys_socket (one CSocket euid (fun r a k =>
  match a with AErr e => r = Err (Os e) | ANum fd => 0 <= fd /\ r = Ok fd | _ => False end)).
Proof.
  solve_one. destruct a; cbn in H; try discriminate.
  - injection H as <-. reflexivity.
  - destruct (0 <=? z) eqn:E; [|discriminate]. apply Z.leb_le in E. injection H as <-. auto.
Qed.

Lemma bind_spec euid p : yields euid (sys_bind euid p) (one (CBind p) euid (fun r a k =>
  match a with
  | AErr e => r = Err (Os e)
  | ANum g => exists l, k_listen k = Some l /\
      match k_names k p, dir_inode k p with
      | None, Some _ => r = Ok tt
      | Some _, _ => r = Err (Os EADDRINUSE)
      | None, None => r = Err (Os ENOENT)
      end
  | _ => False end)).
Proof.
  solve_one. destruct a; try discriminate.
  - injection H as <-. reflexivity.
  - destruct (k_listen k) as [l|]; [|discriminate]. exists l. split; [reflexivity|].
    destruct (k_names k p); [injection H as <-; reflexivity|].
    destruct (dir_inode k p); injection H as <-; reflexivity.
Qed.

Lemma listen_spec euid : yields euid sys_listen (one CListen euid (fun r a k =>
  match a with AErr e => r = Err (Os e) | AOk => k_listen k <> None /\ r = Ok tt | _ => False end)).
Proof.
  solve_one. destruct a; cbn in H; try discriminate.
  - destruct (k_listen k); [|discriminate]. injection H as <-. split; [discriminate|reflexivity].
  - injection H as <-. reflexivity.
Qed.

Lemma chown_spec euid p u g : yields euid (sys_chown p u g) (one (CChown p u g) euid (fun r a k =>
  match a with
  | AErr e => r = Err (Os e)
  | AOk => r = match resolve k p with Some _ => Ok tt | None => Err (Os ENOENT) end
  | _ => False end)).
Proof.
  solve_one. destruct a; cbn in H; try discriminate.
  - destruct (resolve k p); injection H as <-; reflexivity.
  - injection H as <-. reflexivity.
Qed.

Lemma chmod_spec euid p m : yields euid (sys_chmod p m) (one (CChmod p m) euid (fun r a k =>
  match a with
  | AErr e => r = Err (Os e)
  | AOk => r = match resolve k p with Some _ => Ok tt | None => Err (Os ENOENT) end
  | _ => False end)).
Proof.
  solve_one. destruct a; cbn in H; try discriminate.
  - destruct (resolve k p); injection H as <-; reflexivity.
  - injection H as <-. reflexivity.
Qed.

Lemma select_spec euid : yields euid sys_select (one CSelect euid (fun r a k =>
  match a with
  | AErr e => r = Err (Os e)
  | ANum n => r = Ok n /\ exists l, k_listen k = Some l /\ (0 < n -> l_queue l <> [])
  | _ => False end)).
Proof.
  solve_one. destruct a; cbn in H; try discriminate.
  - injection H as <-. reflexivity.
  - destruct (k_listen k) as [l|]; [|discriminate].
    destruct ((z <=? 0) || negb (is_nil (l_queue l))) eqn:E; [|discriminate]. injection H as <-.
    split; [reflexivity|]. exists l. split; [reflexivity|]. intros Hz Hq. rewrite Hq in E.
    cbn in E. rewrite orb_false_r in E. apply Z.leb_le in E. lia.
Qed.

Lemma accept_spec euid : yields euid sys_accept (one CAccept euid (fun r a k =>
  match a with
  | AErr e => r = Err (Os e)
  | AOk => r = Ok (List.length (k_conns k)) /\ exists l c q, k_listen k = Some l /\ l_queue l = c :: q
  | _ => False end)).
Proof.
  solve_one. destruct a; cbn in H; try discriminate.
  - destruct (k_listen k) as [l|]; [|discriminate]. destruct (l_queue l) as [|c q] eqn:Eq; [discriminate|].
    injection H as <-. split; [reflexivity|]. exists l, c, q. auto.
  - injection H as <-. reflexivity.
Qed.

Lemma close_listener_spec euid : yields euid sys_close_listener (one CCloseListener euid (fun r a k => a = AOk)).
Proof. solve_one. destruct a; cbn in H; try discriminate. reflexivity. Qed.

Lemma sigget_spec euid : yields euid sys_sigget (one CSigGet euid (fun r a k =>
  match a with AErr e => e <> EINTR /\ r = Err (Os e) | AOk => r = Ok (k_sigint k) | _ => False end)).
Proof.
  solve_one. destruct a; cbn in H; try discriminate.
  - injection H as <-. reflexivity.
  - destruct (errno =? EINTR) eqn:E; [discriminate|]. injection H as <-. apply Z.eqb_neq in E. auto.
Qed.

Lemma sigset_spec euid s : yields euid (sys_sigset s) (one (CSigSet s) euid (fun r a k =>
  match a with AErr e => e <> EINTR /\ r = Err (Os e) | AOk => r = Ok tt | _ => False end)).
Proof.
  solve_one. destruct a; cbn in H; try discriminate.
  - injection H as <-. reflexivity.
  - destruct (errno =? EINTR) eqn:E; [discriminate|]. injection H as <-. apply Z.eqb_neq in E. auto.
Qed.

Lemma write_spec euid c d : yields euid (sys_write c d) (one (CWrite c d) euid (fun r a k =>
  match a with AErr e => r = Err (Os e) | ANum n => 0 <= n <= zlen d /\ r = Ok n | _ => False end)).
Proof.
  solve_one. destruct a; cbn in H; try discriminate.
  - injection H as <-. reflexivity.
  - destruct ((0 <=? z) && (z <=? zlen d)) eqn:E; [|discriminate].
    apply andb_true_iff in E as [E1 E2]. apply Z.leb_le in E1, E2. injection H as <-. auto.
Qed.

Lemma read_spec euid c : yields euid (sys_read c) (one (CRead c) euid (fun r a k =>
  match a with
  | AErr e => r = Err (Os e)
  | AData d => r = Ok d /\ (d = [] \/ exists b, d = [b])
  | _ => False end)).
Proof.
  solve_one. destruct a as [| | |[|b [|b' d]]]; cbn in H; try discriminate; injection H as <-; eauto.
Qed.

Lemma shutdown_spec euid c : yields euid (sys_shutdown c) (one (CShutdown c) euid (fun r a k =>
  match a with AErr e => r = Err (Os e) | AOk => r = Ok tt | _ => False end)).
Proof. solve_one. destruct a; cbn in H; try discriminate; injection H as <-; reflexivity. Qed.

Lemma close_spec euid c : yields euid (sys_close c) (one (CClose c) euid (fun r a k => a = AOk)).
Proof. solve_one. destruct a; cbn in H; try discriminate. reflexivity. Qed.

Lemma read_file_spec euid p : yields euid (sys_read_file p) (one (CReadFile p) euid (fun r a k =>
  match a with AErr e => r = Err (Os e) | AData d => r = Ok d | _ => False end)).
Proof. solve_one. destruct a; cbn in H; try discriminate; injection H as <-; reflexivity. Qed.

Lemma open_tty_spec euid p : yields euid (sys_open_tty p) (one (COpenTty p) euid (fun r a k =>
  match a with AErr e => r = Err (Os e) | AOk => r = Ok tt | _ => False end)).
Proof. solve_one. destruct a; cbn in H; try discriminate; injection H as <-; reflexivity. Qed.

Lemma write_tty_spec euid d : yields euid (sys_write_tty d) (one (CWriteTty d) euid (fun r a k =>
  match a with AErr e => r = Err (Os e) | ANum n => 0 <= n <= zlen d /\ r = Ok n | _ => False end)).
Proof.
  solve_one. destruct a; cbn in H; try discriminate.
  - injection H as <-. reflexivity.
  - destruct ((0 <=? z) && (z <=? zlen d)) eqn:E; [|discriminate].
    apply andb_true_iff in E as [E1 E2]. apply Z.leb_le in E1, E2. injection H as <-. auto.
Qed.

Lemma close_tty_spec euid : yields euid sys_close_tty (one CCloseTty euid (fun r a k => a = AOk)).
Proof. solve_one. destruct a; cbn in H; try discriminate. reflexivity. Qed.

Lemma printf_spec euid l d : yields euid (sys_printf l d) (one (CPrintf l d) euid (fun r a k =>
  match a with AErr e => r = Err (Os e) | ANum n => 0 <= n <= 2147483647 /\ r = Ok n | _ => False end)).
Proof.
  solve_one. destruct a; cbn in H; try discriminate.
  - injection H as <-. reflexivity.
  - destruct ((0 <=? z) && (z <=? 2147483647)) eqn:E; [|discriminate].
    apply andb_true_iff in E as [E1 E2]. apply Z.leb_le in E1, E2. injection H as <-. auto.
Qed.
