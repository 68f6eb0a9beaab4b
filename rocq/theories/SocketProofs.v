(** The calls made by socket.rs, function by function: for each function, the
    possible sequences of calls together with the outcome they lead to. *)
From Verif Require Import Base BaseLemmas Path World Sys Io Socket TraceSpec RunProofs IoProofs.
Local Open Scope Z_scope.

Lemma yields_call {A C} euid (m : M A) (f : A -> M C) c (Q : A -> answer -> kernel -> Prop)
  (R : outcome C -> list event -> Prop) :
  yields euid m (one c euid Q) ->
  (forall x a k, Q x a k ->
     yields euid (f x) (fun o e2 => R o (mkEvent c a k (effect euid c a k) :: e2))) ->
  R Stopped [] ->
  yields euid (bind m f) R.
Proof.
  intros H1 H2 H3. eapply yields_seq; [exact H1| | |].
  - intros x e1 [[H _]|(x' & a & k & H & -> & HQ)]; [discriminate H|]. injection H as <-.
    apply (H2 _ _ _ HQ).
  - intros e1 [[H _]|(x' & a & k & H & _)]; discriminate.
  - intros e1 [[_ ->]|(x' & a & k & H & _)]; [exact H3|discriminate].
Qed.

Lemma yields_last {A} euid (m : M A) c (Q : A -> answer -> kernel -> Prop)
  (R : outcome A -> list event -> Prop) :
  yields euid m (one c euid Q) ->
  (forall x a k, Q x a k -> R (Done x) [mkEvent c a k (effect euid c a k)]) ->
  R Stopped [] -> yields euid m R.
Proof.
  intros H1 H2 H3. eapply yields_weaken; [exact H1|].
  intros o evs [[-> ->]|(x & a & k & -> & -> & HQ)]; [exact H3|apply H2; exact HQ].
Qed.

(** ** Directory check *)
Definition dir_ok (euid : Z) (i : inode) : Prop :=
  Z.land (st_mode i) S_IFDIR <> 0 /\ i_uid i = euid
  /\ Z.land (st_mode i) (Z.lor S_IWGRP S_IWOTH) = 0.

Definition no_parent (p : bytes) : Prop :=
  path_parent p = None \/ has_nul p = true \/ path_parent p = Some [].

Inductive EnforceT (euid : Z) (p : bytes) : outcome (result unit ioerr) -> list event -> Prop :=
| ET_none e : no_parent p -> EnforceT euid p (Done (Err e)) []
| ET_stop : EnforceT euid p Stopped []
| ET_bad e par ev : path_parent p = Some par -> par <> [] -> has_nul p = false -> e_call ev = CStat par ->
    (forall n, e_ans ev = AOk -> resolve (e_pre ev) par = Some n -> ~ dir_ok euid (k_inodes (e_pre ev) n)) ->
    EnforceT euid p (Done (Err e)) [ev]
| ET_ok par ev n : path_parent p = Some par -> par <> [] -> has_nul p = false -> Is (CStat par) AOk ev ->
    resolve (e_pre ev) par = Some n -> dir_ok euid (k_inodes (e_pre ev) n) ->
    EnforceT euid p (Done (Ok tt)) [ev].

Lemma is_nil_true {A} (l : list A) : is_nil l = true <-> l = [].
Proof. destruct l; cbn; split; congruence. Qed.

Lemma enforce_yields euid p : yields euid (enforce_ownership euid p) (EnforceT euid p).
Proof.
  unfold enforce_ownership. destruct (path_parent p) as [par|] eqn:Ep.
  2: { apply yields_ret'. constructor. left. exact Ep. }
  destruct (has_nul p) eqn:En.
  { apply yields_ret'. constructor. right. left. exact En. }
  destruct (is_nil par) eqn:El.
  { apply yields_ret'. constructor. right. right. apply is_nil_true in El. subst. exact Ep. }
  assert (Hpar : par <> []) by (intros ->; discriminate).
  eapply yields_call; [apply stat_spec| |constructor].
  intros r a k H. destruct a; try contradiction.
  - destruct (resolve k par) as [n|] eqn:Er; subst r.
    + repeat match goal with |- yields _ (if ?c then _ else _) _ => destruct c eqn:? end;
        apply yields_ret'.
      1-3: eapply ET_bad; try eassumption; [reflexivity|]; cbn; intros n' _ Hn; rewrite Er in Hn; injection Hn as <-;
        intros (H1 & H2 & H3).
      * apply Z.eqb_eq in Heqb. contradiction.
      * rewrite H2, Z.eqb_refl in Heqb0. discriminate.
      * rewrite H3 in Heqb1. discriminate.
      * eapply ET_ok; try eassumption; [split; reflexivity|].
        apply Z.eqb_neq in Heqb. apply negb_false_iff, Z.eqb_eq in Heqb0. apply negb_false_iff, Z.eqb_eq in Heqb1.
        repeat split; assumption.
    + apply yields_ret'. eapply ET_bad; try eassumption; [reflexivity|]. cbn. intros n _ Hn. congruence.
  - subst r. apply yields_ret'. eapply ET_bad; try eassumption; [reflexivity|]. cbn. intros n Hn. discriminate.
Qed.

(** ** Removing a stale socket *)
Inductive UnlinkT (p : bytes) : outcome (result unit ioerr) -> list event -> Prop :=
| UT_stop : UnlinkT p Stopped []
| UT_absent ev : e_call ev = CStat (components p) ->
    (e_ans ev = AOk -> resolve (e_pre ev) (components p) = None) -> UnlinkT p (Done (Ok tt)) [ev]
| UT_other ev n e : Is (CStat (components p)) AOk ev -> resolve (e_pre ev) (components p) = Some n ->
    i_kind (k_inodes (e_pre ev) n) <> KSock -> UnlinkT p (Done (Err e)) [ev]
| UT_stop2 ev n : Is (CStat (components p)) AOk ev -> resolve (e_pre ev) (components p) = Some n ->
    i_kind (k_inodes (e_pre ev) n) = KSock -> UnlinkT p Stopped [ev]
| UT_done ev n ev2 m : Is (CStat (components p)) AOk ev -> resolve (e_pre ev) (components p) = Some n ->
    i_kind (k_inodes (e_pre ev) n) = KSock ->
    Is (CUnlink (components p)) AOk ev2 -> k_names (e_pre ev2) (components p) = Some m ->
    UnlinkT p (Done (Ok tt)) [ev; ev2]
| UT_fail ev n ev2 e : Is (CStat (components p)) AOk ev -> resolve (e_pre ev) (components p) = Some n ->
    i_kind (k_inodes (e_pre ev) n) = KSock ->
    e_call ev2 = CUnlink (components p) ->
    (e_ans ev2 = AOk -> k_names (e_pre ev2) (components p) = None) ->
    UnlinkT p (Done (Err e)) [ev; ev2].

Lemma is_socket_iff i : is_socket i = true <-> i_kind i = KSock.
Proof. unfold is_socket. destruct (i_kind i); split; congruence. Qed.

Lemma unlink_yields euid p : has_nul p = false -> yields euid (unlink_socket p) (UnlinkT p).
Proof.
  intros Hn. unfold unlink_socket, metadata, remove_file. rewrite Hn.
  eapply yields_call; [apply stat_spec| |constructor].
  intros r a k H. destruct a; try contradiction.
  - destruct (resolve k (components p)) as [n|] eqn:Er; subst r.
    + destruct (is_socket (k_inodes k n)) eqn:Es.
      * apply is_socket_iff in Es. eapply yields_last; [apply unlink_spec| |].
        -- intros r a k2 H. destruct a; try contradiction.
           ++ destruct (k_names k2 (components p)) eqn:En; subst r.
              ** eapply UT_done; try (split; reflexivity); [exact Er|exact Es|exact En].
              ** eapply UT_fail; try (split; reflexivity); try reflexivity. exact Er. exact Es. cbn. auto.
           ++ subst r. eapply UT_fail; try (split; reflexivity); try reflexivity. exact Er. exact Es. discriminate.
        -- eapply UT_stop2; try (split; reflexivity). exact Er. exact Es.
      * apply yields_ret'. eapply UT_other; try (split; reflexivity). exact Er. cbn. intros Hk.
        apply is_socket_iff in Hk. congruence.
    + apply yields_ret'. eapply UT_absent; [reflexivity|]. auto.
  - subst r. apply yields_ret'. eapply UT_absent; [reflexivity|]. discriminate.
Qed.

(** ** Creating the listening socket *)
Definition bound (p : bytes) (ev : event) : Prop :=
  e_call ev = CBind (components p) /\ (exists g, e_ans ev = ANum g) /\
  k_listen (e_pre ev) <> None /\ k_names (e_pre ev) (components p) = None /\
  dir_inode (e_pre ev) (components p) <> None.

Definition unbound (p : bytes) (ev : event) : Prop :=
  e_call ev = CBind (components p) /\
  ((exists e, e_ans ev = AErr e)
   \/ (exists g, e_ans ev = ANum g) /\ (k_names (e_pre ev) (components p) <> None \/ dir_inode (e_pre ev) (components p) = None)).

Inductive BindT (p : bytes) : outcome (result Z ioerr) -> list event -> Prop :=
| BT_long e : 108 <= zlen p -> BindT p (Done (Err e)) []
| BT_stop : BindT p Stopped []
| BT_sock e e' ev : Is CSocket (AErr e') ev -> zlen p < 108 -> BindT p (Done (Err e)) [ev]
| BT_stop1 fd ev : Is CSocket (ANum fd) ev -> zlen p < 108 -> BindT p Stopped [ev]
| BT_bind_stop fd ev b : Is CSocket (ANum fd) ev -> unbound p b -> zlen p < 108 -> BindT p Stopped [ev; b]
| BT_bind e fd ev b cl : Is CSocket (ANum fd) ev -> unbound p b -> Is CCloseListener AOk cl ->
    zlen p < 108 -> BindT p (Done (Err e)) [ev; b; cl]
| BT_stop2 fd ev b : Is CSocket (ANum fd) ev -> bound p b -> zlen p < 108 -> BindT p Stopped [ev; b]
| BT_listen_stop fd e' ev b li : Is CSocket (ANum fd) ev -> bound p b -> Is CListen (AErr e') li ->
    zlen p < 108 -> BindT p Stopped [ev; b; li]
| BT_listen e fd e' ev b li cl : Is CSocket (ANum fd) ev -> bound p b -> Is CListen (AErr e') li ->
    Is CCloseListener AOk cl -> zlen p < 108 -> BindT p (Done (Err e)) [ev; b; li; cl]
| BT_ok fd ev b li : 0 <= fd -> Is CSocket (ANum fd) ev -> bound p b -> Is CListen AOk li ->
    zlen p < 108 -> BindT p (Done (Ok fd)) [ev; b; li].

Ltac is_ev := try (split; reflexivity).

Lemma listener_bind_yields euid p : has_nul p = false -> yields euid (listener_bind euid p) (BindT p).
Proof.
  intros Hn. unfold listener_bind. rewrite Hn. unfold SUN_PATH_MAX.
  destruct (108 <=? zlen p) eqn:El.
  { apply yields_ret'. constructor. apply Z.leb_le. exact El. }
  apply Z.leb_gt in El.
  eapply yields_call; [apply socket_spec| |constructor].
  intros r a k H. destruct a; try contradiction.
  { subst r. apply yields_ret'. eapply BT_sock; is_ev; exact El. }
  destruct H as [Hfd ->]. rename z into fd.
  eapply yields_call; [apply bind_spec| |eapply BT_stop1; is_ev; exact El].
  intros r a k2 H.
  assert (Hun : forall e, r = Err e -> unbound p (mkEvent (CBind (components p)) a k2 (effect euid (CBind (components p)) a k2))).
  { intros e ->. split; [reflexivity|]. cbn. destruct a; try contradiction; [left; eauto|]. right.
    destruct H as (l & Hl & H). split; [eauto|].
    destruct (k_names k2 (components p)); [left; discriminate|].
    destruct (dir_inode k2 (components p)); [discriminate|right; reflexivity]. }
  destruct r as [[]|e].
  - assert (Hb : bound p (mkEvent (CBind (components p)) a k2 (effect euid (CBind (components p)) a k2))).
    { split; [reflexivity|]. cbn. destruct a; try contradiction; [discriminate|].
      destruct H as (l & Hl & H). split; [eauto|]. split; [congruence|].
      destruct (k_names k2 (components p)); [discriminate|]. split; [reflexivity|].
      destruct (dir_inode k2 (components p)); discriminate. }
    eapply yields_call; [apply listen_spec| |eapply BT_stop2; [is_ev|exact Hb|exact El]].
    intros r a3 k3 H3. destruct a3; try contradiction.
    + destruct H3 as [H3 ->]. apply yields_ret'. eapply BT_ok; is_ev; try assumption.
    + subst r. eapply yields_call; [apply close_listener_spec| |eapply BT_listen_stop; [is_ev|exact Hb|is_ev|exact El]].
      intros u a4 k4 ->. apply yields_ret'. eapply BT_listen; [is_ev|exact Hb|is_ev|is_ev|exact El].
  - eapply yields_call; [apply close_listener_spec| |eapply BT_bind_stop; [is_ev|apply (Hun _ eq_refl)|exact El]].
    intros u a4 k4 ->. apply yields_ret'. eapply BT_bind; [is_ev|apply (Hun _ eq_refl)|is_ev|exact El].
Qed.

(** ** Waiting for a peer *)
Definition interrupted_accept (ev : event) : Prop := Is CAccept (AErr EINTR) ev.

(** The peer that an accept event hands over, and the connection's number. *)
Definition accepted (c : nat) (ev : event) : Prop :=
  Is CAccept AOk ev /\ c = List.length (k_conns (e_pre ev))
  /\ exists l x q, k_listen (e_pre ev) = Some l /\ l_queue l = x :: q.

Inductive AcceptT : outcome (result nat ioerr) -> list event -> Prop :=
| AT_stop es : Forall interrupted_accept es -> AcceptT Stopped es
| AT_err es ev e : Forall interrupted_accept es -> e <> EINTR -> Is CAccept (AErr e) ev ->
    AcceptT (Done (Err (Os e))) (es ++ [ev])
| AT_ok es ev c : Forall interrupted_accept es -> accepted c ev -> AcceptT (Done (Ok c)) (es ++ [ev]).

Lemma accept_yields euid fuel : yields euid (accept_loop fuel) AcceptT.
Proof.
  induction fuel as [|fuel IH]; cbn [accept_loop].
  { apply yields_stop'. constructor. constructor. }
  eapply yields_call; [apply accept_spec| |constructor; constructor].
  intros r a k H. destruct a; try contradiction.
  - destruct H as [-> H]. apply yields_ret'. apply (AT_ok []); [constructor|]. split; [split; reflexivity|].
    split; [reflexivity|exact H].
  - subst r. destruct (errno =? EINTR) eqn:E.
    + apply Z.eqb_eq in E. subst errno. eapply yields_weaken; [exact IH|]. intros o evs H. destruct H.
      * constructor. constructor; [split; reflexivity|assumption].
      * apply (AT_err (_ :: es)); [constructor; [split; reflexivity|assumption]|assumption|assumption].
      * apply (AT_ok (_ :: es)); [constructor; [split; reflexivity|assumption]|assumption].
    + apply Z.eqb_neq in E. apply yields_ret'. apply (AT_err []); [constructor|exact E|split; reflexivity].
Qed.

Definition failed (ev : event) (p : path) : Prop :=
  (exists e, e_ans ev = AErr e) \/ (e_ans ev = AOk /\ resolve (e_pre ev) p = None).

Definition chowned (p : bytes) (uid gid : Z) (ev : event) : Prop :=
  Is (CChown (components p) uid gid) AOk ev /\ resolve (e_pre ev) (components p) <> None.
Definition chmoded (p : bytes) (mode : Z) (ev : event) : Prop :=
  Is (CChmod (components p) mode) AOk ev /\ resolve (e_pre ev) (components p) <> None.

Inductive ServeT (fd : Z) (p : bytes) (uid gid mode : Z) : outcome (result nat ioerr) -> list event -> Prop :=
| ST_stop : ServeT fd p uid gid mode Stopped []
| ST_chown e co : e_call co = CChown (components p) uid gid -> failed co (components p) ->
    ServeT fd p uid gid mode (Done (Err e)) [co]
| ST_stop1 co : chowned p uid gid co -> ServeT fd p uid gid mode Stopped [co]
| ST_chmod e co cm : chowned p uid gid co -> e_call cm = CChmod (components p) mode -> failed cm (components p) ->
    ServeT fd p uid gid mode (Done (Err e)) [co; cm]
| ST_fd co cm : chowned p uid gid co -> chmoded p mode cm -> 1024 <= fd ->
    ServeT fd p uid gid mode Panicked [co; cm]
| ST_stop2 co cm : chowned p uid gid co -> chmoded p mode cm -> fd < 1024 ->
    ServeT fd p uid gid mode Stopped [co; cm]
| ST_select e e' co cm se : chowned p uid gid co -> chmoded p mode cm -> fd < 1024 -> Is CSelect (AErr e') se ->
    ServeT fd p uid gid mode (Done (Err e)) [co; cm; se]
| ST_count n co cm se : chowned p uid gid co -> chmoded p mode cm -> fd < 1024 -> n <> 1 -> Is CSelect (ANum n) se ->
    ServeT fd p uid gid mode Panicked [co; cm; se]
| ST_accept o co cm se es : chowned p uid gid co -> chmoded p mode cm -> fd < 1024 -> Is CSelect (ANum 1) se ->
    AcceptT o es ->
    ServeT fd p uid gid mode o (co :: cm :: se :: es).

Lemma serve_yields euid fd p uid gid mode : has_nul p = false ->
  yields euid (serve_one fd p uid gid mode) (ServeT fd p uid gid mode).
Proof.
  intros Hn. unfold serve_one. rewrite Hn.
  eapply yields_call; [apply chown_spec| |constructor].
  intros r a k H. destruct a; try contradiction.
  2: { subst r. apply yields_ret'. apply ST_chown; [reflexivity|]. left. cbn. eauto. }
  destruct (resolve k (components p)) eqn:Er; subst r.
  2: { apply yields_ret'. apply ST_chown; [reflexivity|]. right. cbn. auto. }
  match goal with |- yields _ _ (fun o e2 => ServeT _ _ _ _ _ o (?x :: e2)) => set (co := x) end.
  assert (Hco : chowned p uid gid co) by (split; [split; reflexivity|cbn; congruence]). clearbody co. clear Er n k.
  eapply yields_call; [apply chmod_spec| |apply ST_stop1; assumption].
  intros r a k H. destruct a; try contradiction.
  2: { subst r. apply yields_ret'. apply ST_chmod; [assumption|reflexivity|]. left. cbn. eauto. }
  destruct (resolve k (components p)) eqn:Er; subst r.
  2: { apply yields_ret'. apply ST_chmod; [assumption|reflexivity|]. right. cbn. auto. }
  match goal with |- yields _ _ (fun o e2 => ServeT _ _ _ _ _ o (_ :: ?x :: e2)) => set (cm := x) end.
  assert (Hcm : chmoded p mode cm) by (split; [split; reflexivity|cbn; congruence]). clearbody cm. clear Er n k.
  unfold FD_SETSIZE. destruct (1024 <=? fd) eqn:Ef.
  { apply yields_panic'. apply ST_fd; try assumption. apply Z.leb_le. exact Ef. }
  apply Z.leb_gt in Ef.
  eapply yields_call; [apply select_spec| |apply ST_stop2; assumption].
  intros r a k H. destruct a; try contradiction.
  { subst r. apply yields_ret'. eapply ST_select; try eassumption. split; reflexivity. }
  destruct H as [-> _]. destruct (z =? 1) eqn:Ez.
  - apply Z.eqb_eq in Ez. subst z. eapply yields_seq; [apply yields_turns_left| | |].
    + intros n e2 (m & _ & ->). eapply yields_weaken; [apply accept_yields|]. intros o evs H.
      apply ST_accept; try assumption. split; reflexivity.
    + intros e1 (m & ? & _). discriminate.
    + intros e1 (m & ? & _). discriminate.
  - apply Z.eqb_neq in Ez. apply yields_panic'. eapply ST_count; try eassumption. split; reflexivity.
Qed.

(** ** Opening *)
Definition UMASK_ALL : Z := 511.

(** The removal of the socket and the restoration of the umask. *)
Inductive TailT (p : bytes) (old : Z) {A} (r : A) : outcome A -> list event -> Prop :=
| TT_stop es : UnlinkT p Stopped es -> TailT p old r Stopped es
| TT_stop2 es x : UnlinkT p (Done x) es -> TailT p old r Stopped es
| TT_done es x um : UnlinkT p (Done x) es -> Is (CUmask old) AOk um -> TailT p old r (Done r) (es ++ [um]).

(** Everything after the umask was set. *)
Inductive MaskedT (p : bytes) (uid gid mode old : Z) : outcome (result nat ioerr) -> list event -> Prop :=
| MT_stop es : BindT p Stopped es -> MaskedT p uid gid mode old Stopped es
| MT_bind e o es ts : BindT p (Done (Err e)) es -> TailT p old (Err e) o ts ->
    MaskedT p uid gid mode old o (es ++ ts)
| MT_serve_stop fd es ss : BindT p (Done (Ok fd)) es -> ServeT fd p uid gid mode Stopped ss ->
    MaskedT p uid gid mode old Stopped (es ++ ss)
| MT_panic_stop fd es ss : BindT p (Done (Ok fd)) es -> ServeT fd p uid gid mode Panicked ss ->
    MaskedT p uid gid mode old Stopped (es ++ ss)
| MT_panic fd es ss cl : BindT p (Done (Ok fd)) es -> ServeT fd p uid gid mode Panicked ss ->
    Is CCloseListener AOk cl -> MaskedT p uid gid mode old Panicked (es ++ ss ++ [cl])
| MT_done_stop fd r es ss : BindT p (Done (Ok fd)) es -> ServeT fd p uid gid mode (Done r) ss ->
    MaskedT p uid gid mode old Stopped (es ++ ss)
| MT_done fd r o es ss cl ts : BindT p (Done (Ok fd)) es -> ServeT fd p uid gid mode (Done r) ss ->
    Is CCloseListener AOk cl -> TailT p old r o ts ->
    MaskedT p uid gid mode old o (es ++ ss ++ cl :: ts).

Inductive OpenT (euid : Z) (p : bytes) (uid gid mode : Z) : outcome (result nat ioerr) -> list event -> Prop :=
| OT_enf_stop es : EnforceT euid p Stopped es -> OpenT euid p uid gid mode Stopped es
| OT_enf e es : EnforceT euid p (Done (Err e)) es -> OpenT euid p uid gid mode (Done (Err e)) es
| OT_unl_stop es us : EnforceT euid p (Done (Ok tt)) es -> UnlinkT p Stopped us ->
    OpenT euid p uid gid mode Stopped (es ++ us)
| OT_unl e es us : EnforceT euid p (Done (Ok tt)) es -> UnlinkT p (Done (Err e)) us ->
    OpenT euid p uid gid mode (Done (Err e)) (es ++ us)
| OT_um_stop es us : EnforceT euid p (Done (Ok tt)) es -> UnlinkT p (Done (Ok tt)) us ->
    OpenT euid p uid gid mode Stopped (es ++ us)
| OT_masked es us um o ms : EnforceT euid p (Done (Ok tt)) es -> UnlinkT p (Done (Ok tt)) us ->
    Is (CUmask UMASK_ALL) AOk um -> MaskedT p uid gid mode (k_umask (e_pre um)) o ms ->
    OpenT euid p uid gid mode o (es ++ us ++ um :: ms).

Lemma EnforceT_nul euid p es : EnforceT euid p (Done (Ok tt)) es -> has_nul p = false.
Proof. inversion 1; assumption. Qed.

Lemma tail_yields {A} euid p old (r : A) : has_nul p = false ->
  yields euid (unlink_socket p ;;; sys_umask old ;;; ret r) (TailT p old r).
Proof.
  intros Hn. eapply yields_seq; [apply unlink_yields; exact Hn| | |].
  - intros u e1 H1. eapply yields_call; [apply umask_spec| |].
    + intros x a k [-> ->]. apply yields_ret'. eapply TT_done; [eassumption|split; reflexivity].
    + rewrite app_nil_r. eapply TT_stop2. eassumption.
  - intros e1 H1. inversion H1.
  - intros e1 H1. apply TT_stop. exact H1.
Qed.

Lemma masked_yields euid p uid gid mode old : has_nul p = false ->
  yields euid
    (socket <-
       (l <- listener_bind euid p ;;
        match l with
        | Err e => ret (Err e)
        | Ok fd =>
            c <- unwind_with (serve_one fd p uid gid mode) sys_close_listener ;;
            sys_close_listener ;;;
            ret c
        end) ;;
     unlink_socket p ;;; sys_umask old ;;; ret socket)
    (MaskedT p uid gid mode old).
Proof.
  intros Hn.
  set (Q := fun (o : outcome (result nat ioerr)) es =>
    match o with
    | Stopped => MaskedT p uid gid mode old Stopped es
    | Panicked => MaskedT p uid gid mode old Panicked es
    | Done r => forall o' ts, TailT p old r o' ts -> MaskedT p uid gid mode old o' (es ++ ts)
    end).
  eapply yields_seq with (Q := Q).
  - eapply yields_seq; [apply listener_bind_yields; exact Hn| | |].
    + intros [fd|e] es Hb.
      * eapply yields_seq.
        { apply yields_unwind; [apply serve_yields; exact Hn|apply close_listener_spec]. }
        -- intros r ss Hs. cbn in Hs. eapply yields_call; [apply close_listener_spec| |].
           ++ intros u a k ->. apply yields_ret'. cbn. intros o' ts Ht. rewrite <- !app_assoc. cbn.
              eapply MT_done; try eassumption. split; reflexivity.
           ++ rewrite app_nil_r. eapply MT_done_stop; eassumption.
        -- intros ss (e1 & e2 & -> & H1 & H2). destruct H2 as [[[H2 _]|(x & a & k & _ & -> & ->)]|[[H2 _]|(x & a & k & H2 & _)]]; try discriminate.
           eapply MT_panic; try eassumption. split; reflexivity.
        -- intros ss [H|(e1 & e2 & -> & H1 & H2)].
           ++ eapply MT_serve_stop; eassumption.
           ++ destruct H2 as [[_ ->]|(x & a & k & H2 & _)]; [|discriminate]. rewrite app_nil_r.
              eapply MT_panic_stop; eassumption.
      * apply yields_ret'. rewrite app_nil_r. cbn. intros o' ts Ht. eapply MT_bind; eassumption.
    + intros es Hb. inversion Hb.
    + intros es Hb. apply MT_stop. exact Hb.
  - intros r es HQ. eapply yields_weaken; [apply tail_yields; exact Hn|]. exact HQ.
  - intros es HQ. exact HQ.
  - intros es HQ. exact HQ.
Qed.

Lemma socket_open_yields euid p uid gid mode :
  yields euid (socket_open euid p uid gid mode) (OpenT euid p uid gid mode).
Proof.
  unfold socket_open. eapply yields_seq; [apply enforce_yields| | |].
  - intros [[]|e] es He.
    + pose proof (EnforceT_nul _ _ _ He) as Hn.
      eapply yields_seq; [apply unlink_yields; exact Hn| | |].
      * intros [[]|e] us Hu.
        -- eapply yields_call; [apply umask_spec| |].
           ++ intros x a k [-> ->]. eapply yields_weaken; [apply masked_yields; exact Hn|].
              intros o ms Hm. rewrite <- ?app_assoc. eapply OT_masked; [exact He|exact Hu|split; reflexivity|exact Hm].
           ++ rewrite ?app_nil_r. eapply OT_um_stop; eassumption.
        -- apply yields_ret'. rewrite app_nil_r. eapply OT_unl; eassumption.
      * intros us Hu. inversion Hu.
      * intros us Hu. eapply OT_unl_stop; eassumption.
    + apply yields_ret'. rewrite app_nil_r. apply OT_enf. exact He.
  - intros es He. inversion He.
  - intros es He. apply OT_enf_stop. exact He.
Qed.

(** ** Reading and writing *)
Definition quiet_sig (k : kernel) : sigact := mkSigact false (sa_rest (k_sigint k)).

Inductive CtrlT {A} (F : outcome A -> list event -> Prop) : outcome (result A ioerr) -> list event -> Prop :=
| CT_stop : CtrlT F Stopped []
| CT_get g e : e <> EINTR -> Is CSigGet (AErr e) g -> CtrlT F (Done (Err (Os e))) [g]
| CT_stop1 g : Is CSigGet AOk g -> CtrlT F Stopped [g]
| CT_set g s e : e <> EINTR -> Is CSigGet AOk g -> Is (CSigSet (quiet_sig (e_pre g))) (AErr e) s ->
    CtrlT F (Done (Err (Os e))) [g; s]
| CT_panic g s fs : Is CSigGet AOk g -> Is (CSigSet (quiet_sig (e_pre g))) AOk s ->
    F Panicked fs -> CtrlT F Panicked (g :: s :: fs)
| CT_stop2 g s fs : Is CSigGet AOk g -> Is (CSigSet (quiet_sig (e_pre g))) AOk s ->
    F Stopped fs -> CtrlT F Stopped (g :: s :: fs)
| CT_stop3 g s r fs : Is CSigGet AOk g -> Is (CSigSet (quiet_sig (e_pre g))) AOk s ->
    F (Done r) fs -> CtrlT F Stopped (g :: s :: fs)
| CT_reset g s r fs s2 e : e <> EINTR -> Is CSigGet AOk g -> Is (CSigSet (quiet_sig (e_pre g))) AOk s ->
    F (Done r) fs -> Is (CSigSet (k_sigint (e_pre g))) (AErr e) s2 ->
    CtrlT F (Done (Err (Os e))) (g :: s :: fs ++ [s2])
| CT_done g s r fs s2 : Is CSigGet AOk g -> Is (CSigSet (quiet_sig (e_pre g))) AOk s ->
    F (Done r) fs -> Is (CSigSet (k_sigint (e_pre g))) AOk s2 ->
    CtrlT F (Done (Ok r)) (g :: s :: fs ++ [s2]).

Lemma ctrl_c_yields {A} euid (m : M A) F :
  yields euid m F -> yields euid (ctrl_c_aborts_syscalls m) (CtrlT F).
Proof.
  intros Hm. unfold ctrl_c_aborts_syscalls.
  eapply yields_call; [apply sigget_spec| |constructor].
  intros r a k H. destruct a; try contradiction.
  2: { destruct H as [He ->]. apply yields_ret'. apply CT_get; [exact He|split; reflexivity]. }
  subst r. set (g := mkEvent CSigGet AOk k _).
  assert (Hg : Is CSigGet AOk g) by (split; reflexivity). change (k_sigint k) with (k_sigint (e_pre g)). clearbody g. clear k.
  eapply yields_call; [apply sigset_spec| |constructor; exact Hg].
  intros r a k H. destruct a; try contradiction.
  2: { destruct H as [He ->]. apply yields_ret'. apply CT_set; [exact He|exact Hg|split; reflexivity]. }
  subst r. match goal with |- yields _ _ (fun o e2 => CtrlT F o (_ :: ?x :: e2)) => set (s := x) end.
  assert (Hs : Is (CSigSet (quiet_sig (e_pre g))) AOk s) by (split; reflexivity). clearbody s. clear k.
  eapply yields_seq; [exact Hm| | |].
  - intros r fs Hf. eapply yields_call; [apply sigset_spec| |].
    + intros r2 a k H. destruct a; try contradiction.
      * subst r2. apply yields_ret'. eapply CT_done; try eassumption. split; reflexivity.
      * destruct H as [He ->]. apply yields_ret'. eapply CT_reset; try eassumption. split; reflexivity.
    + rewrite app_nil_r. eapply CT_stop3; eassumption.
  - intros fs Hf. apply CT_panic; assumption.
  - intros fs Hf. apply CT_stop2; assumption.
Qed.

(** Calls that may be made while writing to connection [c]. *)
Definition SigCall (c : call) : Prop :=
  match c with CSigGet | CSigSet _ => True | _ => False end.
Definition OnConn (c : nat) (ev : event) : Prop :=
  SigCall (e_call ev) \/ exists d, e_call ev = CWrite c d.

Lemma delivered_app c a b : delivered c (a ++ b) = delivered c a ++ delivered c b.
Proof. apply flat_map_app. Qed.

Lemma delivered1_sig c ev : SigCall (e_call ev) -> delivered1 c ev = [].
Proof. unfold delivered1. destruct (e_call ev); cbn; intros []; reflexivity. Qed.

Lemma Is_sig c a ev : SigCall c -> Is c a ev -> SigCall (e_call ev).
Proof. intros H [-> _]. exact H. Qed.

Ltac fa := repeat first [assumption | apply Forall_nil | apply Forall_cons].

Lemma socket_write_yields euid c b :
  yields euid (socket_write c b) (one_write never (OnConn c) (delivered c) b).
Proof.
  unfold socket_write. eapply yields_seq; [apply ctrl_c_yields; apply write_spec| | |].
  - intros r e1 H.
    assert (HG : forall g a0, Is CSigGet a0 g -> OnConn c g /\ delivered1 c g = []).
    { intros g a0 Hi. apply (Is_sig CSigGet a0 g I) in Hi. split; [left; exact Hi|apply delivered1_sig; exact Hi]. }
    assert (HS : forall g s0 a0, Is (CSigSet s0) a0 g -> OnConn c g /\ delivered1 c g = []).
    { intros g s0 a0 Hi. apply (Is_sig (CSigSet s0) a0 g I) in Hi. split; [left; exact Hi|apply delivered1_sig; exact Hi]. }
    apply yields_ret'. rewrite app_nil_r.
    inversion H; subst; clear H; cbn [flatten].
    + apply HG in H2 as [Hc Hd]. split; [fa|]. unfold delivered. cbn. rewrite Hd.
      split; [reflexivity|apply Prefix_nil].
    + apply HG in H2 as [Hc Hd]. apply HS in H3 as [Hc2 Hd2]. split; [fa|].
      unfold delivered. cbn. rewrite Hd, Hd2. split; [reflexivity|apply Prefix_nil].
    + apply HG in H2 as [Hc Hd]. apply HS in H3 as [Hc2 Hd2]. apply HS in H5 as [Hc3 Hd3].
      destruct H4 as [[H4 _]|(x & a & k & H4 & -> & Hx)]; [discriminate|]. 
      split; [fa; right; eexists; reflexivity|].
      unfold delivered. cbn [flat_map app]. rewrite Hd, Hd2, Hd3.
      split; [intros; contradiction|]. cbn. rewrite ?app_nil_r. unfold delivered1. cbn. rewrite Nat.eqb_refl.
      destruct a; try apply Prefix_nil. apply Prefix_firstn.
    + apply HG in H1 as [Hc Hd]. apply HS in H2 as [Hc2 Hd2]. apply HS in H4 as [Hc3 Hd3].
      destruct H3 as [[H3 _]|(x & a & k & H3 & -> & Hx)]; [discriminate|]. injection H3 as <-.
      split; [fa; right; eexists; reflexivity|].
      unfold delivered. cbn [flat_map app]. rewrite Hd, Hd2, Hd3. cbn. rewrite ?app_nil_r. unfold delivered1. cbn.
      rewrite Nat.eqb_refl. destruct a; try contradiction.
      * subst r0. split; [reflexivity|apply Prefix_nil].
      * destruct Hx as [Hr ->]. split; [lia|]. split; [reflexivity|left; lia].
  - intros e1 H. inversion H; subst. destruct H2 as [[H2 _]|(x & a & k & H2 & _)]; discriminate.
  - intros e1 H.
    assert (HG : forall g a0, Is CSigGet a0 g -> OnConn c g /\ delivered1 c g = []).
    { intros g a0 Hi. apply (Is_sig CSigGet a0 g I) in Hi. split; [left; exact Hi|apply delivered1_sig; exact Hi]. }
    assert (HS : forall g s0 a0, Is (CSigSet s0) a0 g -> OnConn c g /\ delivered1 c g = []).
    { intros g s0 a0 Hi. apply (Is_sig (CSigSet s0) a0 g I) in Hi. split; [left; exact Hi|apply delivered1_sig; exact Hi]. }
    inversion H; subst; clear H.
    + split; [constructor|apply Prefix_nil].
    + apply HG in H0 as [Hc Hd]. split; [fa|]. unfold delivered. cbn. rewrite Hd. apply Prefix_nil.
    + apply HG in H0 as [Hc Hd]. apply HS in H1 as [Hc2 Hd2].
      destruct H2 as [[_ ->]|(x & a & k & H2 & _)]; [|discriminate]. split; [fa|].
      unfold delivered. cbn. rewrite Hd, Hd2. apply Prefix_nil.
    + apply HG in H0 as [Hc Hd]. apply HS in H1 as [Hc2 Hd2].
      destruct H2 as [[H2 _]|(x & a & k & H2 & -> & Hx)]; [discriminate|].
      split; [fa; right; eexists; reflexivity|].
      unfold delivered. cbn [flat_map app]. rewrite Hd, Hd2. cbn. rewrite ?app_nil_r. unfold delivered1. cbn.
      rewrite Nat.eqb_refl. destruct a; try apply Prefix_nil. apply Prefix_firstn.
Qed.

Definition sent (c : nat) := all_written never (OnConn c) (delivered c).

Lemma socket_write_all_yields euid c b : yields euid (socket_write_all c b) (sent c b).
Proof.
  apply write_all_yields with (I := fun _ => True); [intros ? ? []|reflexivity|intros; apply flat_map_app|auto| |exact I].
  intros b' _. apply socket_write_yields.
Qed.

Definition SigOnly (evs : list event) : Prop := Forall (fun ev => SigCall (e_call ev)) evs.

(** At most one byte is read, by one call. *)
Definition read1 (c : nat) (o : outcome (result bytes ioerr)) (evs : list event) : Prop :=
  match o with
  | Done (Ok d) => exists e1 ev e2, evs = e1 ++ ev :: e2 /\ SigOnly e1 /\ SigOnly e2
                     /\ Is (CRead c) (AData d) ev /\ (d = [] \/ exists b, d = [b])
  | Panicked => False
  | _ => SigOnly evs
         \/ exists e1 ev e2, evs = e1 ++ ev :: e2 /\ SigOnly e1 /\ SigOnly e2 /\ e_call ev = CRead c
  end.

Lemma socket_read_yields euid c : yields euid (socket_read c) (read1 c).
Proof.
  unfold socket_read. eapply yields_seq; [apply ctrl_c_yields; apply read_spec| | |].
  - intros r e1 H. apply yields_ret'. rewrite app_nil_r.
    inversion H; subst; clear H; cbn [flatten].
    + left. constructor; [|constructor]. eapply Is_sig; [|eassumption]. exact I.
    + left. repeat constructor; (eapply Is_sig; [|eassumption]; exact I).
    + destruct H4 as [[H4 _]|(x & a & k & H4 & -> & Hx)]; [discriminate|]. right.
      eexists [g; s], _, [s2]. split; [reflexivity|].
      repeat split; repeat constructor; (eapply Is_sig; [|eassumption]; exact I).
    + destruct H3 as [[H3 _]|(x & a & k & H3 & -> & Hx)]; [discriminate|]. injection H3 as <-.
      assert (HS1 : SigOnly [g; s]) by (repeat constructor; (eapply Is_sig; [|eassumption]; exact I)).
      assert (HS2 : SigOnly [s2]) by (repeat constructor; (eapply Is_sig; [|eassumption]; exact I)).
      destruct a; try contradiction.
      * subst r0. right. eexists [g; s], _, [s2]. split; [reflexivity|]. repeat split; assumption.
      * destruct Hx as [-> Hx]. eexists [g; s], _, [s2]. split; [reflexivity|]. repeat split; assumption.
  - intros e1 H. inversion H; subst. destruct H2 as [[H2 _]|(x & a & k & H2 & _)]; discriminate.
  - intros e1 H. inversion H; subst; clear H.
    + left. constructor.
    + left. constructor; [|constructor]. eapply Is_sig; [|eassumption]. exact I.
    + destruct H2 as [[_ ->]|(x & a & k & H2 & _)]; [|discriminate].
      left. repeat constructor; (eapply Is_sig; [|eassumption]; exact I).
    + destruct H2 as [[H2 _]|(x & a & k & H2 & -> & Hx)]; [discriminate|]. right.
      eexists [g; s], _, []. split; [reflexivity|].
      repeat split; repeat constructor; (eapply Is_sig; [|eassumption]; exact I).
Qed.

Lemma socket_flush_yields euid c :
  yields euid (socket_flush c) (fun o evs => o <> Panicked /\ SigOnly evs).
Proof.
  unfold socket_flush. eapply yields_seq; [apply ctrl_c_yields; apply yields_ret| | |].
  - intros r e1 H. apply yields_ret'. rewrite app_nil_r. split; [discriminate|].
    inversion H; subst; clear H; repeat match goal with H : _ /\ ?fs = [] |- _ => destruct H as [_ ->] end;
      repeat constructor; (eapply Is_sig; [|eassumption]; exact I).
  - intros e1 H. inversion H; subst. destruct H2 as [H2 _]. discriminate.
  - intros e1 H. split; [discriminate|].
    inversion H; subst; clear H; repeat match goal with H : _ /\ ?fs = [] |- _ => destruct H as [_ ->] end;
      repeat constructor; (eapply Is_sig; [|eassumption]; exact I).
Qed.
