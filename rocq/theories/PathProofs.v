(** Path equality, joins and names. *)
From Verif Require Import Base BaseLemmas Path Spec.

Lemma component_eqb_eq a b : component_eqb a b = true <-> a = b.
Proof.
  destruct a, b; cbn; split; try congruence; try reflexivity; try discriminate.
  - intros H. apply bytes_eqb_eq in H. congruence.
  - intros H. injection H as ->. apply bytes_eqb_refl.
Qed.

Lemma comps_eqb_eq a b : comps_eqb a b = true <-> a = b.
Proof.
  revert b. induction a as [|x a IH]; intros [|y b]; cbn; split; try congruence; try reflexivity.
  - intros H. apply andb_true_iff in H as [H1 H2]. apply component_eqb_eq in H1 as ->.
    apply IH in H2 as ->. reflexivity.
  - intros H. injection H as -> ->. apply andb_true_iff. split.
    + apply component_eqb_eq. reflexivity.
    + apply IH. reflexivity.
Qed.

Lemma comps_eqb_refl a : comps_eqb a a = true.
Proof. apply comps_eqb_eq. reflexivity. Qed.

Lemma comps_eqb_neq a b : comps_eqb a b = false <-> a <> b.
Proof.
  split.
  - intros H E. apply comps_eqb_eq in E. congruence.
  - intros H. destruct (comps_eqb a b) eqn:E; [|reflexivity]. apply comps_eqb_eq in E. contradiction.
Qed.

Lemma path_eqb_eq p q : path_eqb p q = true <-> components p = components q.
Proof. apply comps_eqb_eq. Qed.

(** [components] seen through the first piece. *)
Definition lead (p : bytes) : list component :=
  match p with
  | [] => []
  | c :: _ =>
      if byte_eqb c slash then [RootDir]
      else match split_on slash p with
           | s :: _ => if bytes_eqb s (B ".") then [CurDir] else []
           | [] => []
           end
  end.

Lemma components_lead p : components p = lead p ++ flat_map seg_comp (split_on slash p).
Proof. destruct p; reflexivity. Qed.

Lemma split_on_app_any sep a b :
  exists init last rest r0,
    split_on sep a = init ++ [last] /\ split_on sep b = r0 :: rest
    /\ split_on sep (a ++ b) = init ++ (last ++ r0) :: rest
    /\ ~ In sep last.
Proof.
  induction a as [|x a IH].
  - destruct (split_on sep b) as [|r0 rest] eqn:E; [exfalso; eapply split_on_nonempty; exact E|].
    exists [], [], rest, r0. cbn. rewrite E. auto.
  - destruct IH as (init & last & rest & r0 & E1 & E2 & E3 & E4). cbn.
    destruct (byte_eqb x sep) eqn:E.
    + exists ([] :: init), last, rest, r0. rewrite E1, E3. auto.
    + rewrite E1, E3. destruct init as [|i init]; cbn.
      * exists [], (x :: last), rest, r0. cbn. repeat split; auto.
        intros [H|H]; [|contradiction]. subst. rewrite byte_eqb_refl in E. discriminate.
      * exists ((x :: i) :: init), last, rest, r0. auto.
Qed.

(** Splitting a path at a separator. *)
Lemma split_sep a b : split_on slash (a ++ slash :: b) = split_on slash a ++ split_on slash b.
Proof.
  induction a as [|x a IH]; cbn.
  - reflexivity.
  - destruct (byte_eqb x slash) eqn:E; rewrite IH; [reflexivity|].
    destruct (split_on slash a) as [|s r] eqn:F; [exfalso; eapply split_on_nonempty; exact F|].
    reflexivity.
Qed.

Lemma lead_sep a b c : lead (a ++ slash :: b) = lead (a ++ slash :: c).
Proof.
  destruct a as [|x a]; [reflexivity|]. unfold lead. cbn [app].
  destruct (byte_eqb x slash); [reflexivity|].
  change (x :: a ++ slash :: b) with ((x :: a) ++ slash :: b).
  change (x :: a ++ slash :: c) with ((x :: a) ++ slash :: c).
  rewrite !split_sep. destruct (split_on slash (x :: a)) eqn:E; [|reflexivity].
  exfalso. eapply split_on_nonempty. exact E.
Qed.

Lemma components_sep a b :
  components (a ++ slash :: b)
  = lead (a ++ [slash]) ++ flat_map seg_comp (split_on slash a) ++ flat_map seg_comp (split_on slash b).
Proof.
  rewrite components_lead, split_sep, flat_map_app. rewrite (lead_sep a b []). reflexivity.
Qed.

Lemma lead_trailing p : p <> [] -> lead (p ++ [slash]) = lead p.
Proof.
  destruct p as [|x p]; [congruence|]. intros _. unfold lead. cbn [app].
  destruct (byte_eqb x slash); [reflexivity|].
  change (x :: p ++ [slash]) with ((x :: p) ++ [slash]). rewrite split_sep.
  destruct (split_on slash (x :: p)) eqn:E; [|reflexivity].
  exfalso. eapply split_on_nonempty. exact E.
Qed.

Lemma SamePath_components p q : SamePath p q -> components p = components q.
Proof.
  induction 1 as [p|p q _ IH|p q r _ IH1 _ IH2|p q|p q|p Hp|p].
  - reflexivity.
  - congruence.
  - congruence.
  - change ("/"%byte) with slash. rewrite !components_sep. cbn [split_on].
    rewrite byte_eqb_refl. reflexivity.
  - change (B "/./" ++ q) with (slash :: "."%byte :: slash :: q).
    change (B "/" ++ q) with (slash :: q). rewrite !components_sep.
    change ("."%byte :: slash :: q) with (["."%byte] ++ slash :: q). rewrite split_sep. reflexivity.
  - change (B "/") with [slash]. rewrite components_sep. cbn. rewrite app_nil_r.
    rewrite lead_trailing by exact Hp. rewrite components_lead. reflexivity.
  - change (B "/.") with (slash :: ["."%byte]). change (B "/") with [slash].
    rewrite !components_sep. reflexivity.
Qed.

(** Canonical spelling of a component. *)
Definition comp_text (c : component) : bytes :=
  match c with RootDir => [] | CurDir => B "." | ParentDir => B ".." | Normal s => s end.

Fixpoint tail_text (l : list component) : bytes :=
  match l with [] => [] | c :: l' => slash :: comp_text c ++ tail_text l' end.

(** The text of a relative or absolute path; the root alone is "/". *)
Definition text (l : list component) : bytes :=
  match l with
  | [] => []
  | [RootDir] => [slash]
  | RootDir :: l' => tail_text l'
  | c :: l' => comp_text c ++ tail_text l'
  end.

(** Pieces after the first: p/segs ~ p/canonical. *)
Lemma slash_app p q : p ++ B "/" ++ q = p ++ slash :: q.
Proof. reflexivity. Qed.

Lemma seg_comp_text s : ~ In slash s ->
  (seg_comp s = [] /\ (s = [] \/ s = B ".")) \/
  (exists c, seg_comp s = [c] /\ comp_text c = s).
Proof.
  intros _. unfold seg_comp.
  destruct (bytes_eqb s []) eqn:E1; [apply bytes_eqb_eq in E1; left; auto|].
  destruct (bytes_eqb s (B ".")) eqn:E2; [apply bytes_eqb_eq in E2; left; auto|].
  destruct (bytes_eqb s (B "..")) eqn:E3.
  - apply bytes_eqb_eq in E3 as ->. right. exists ParentDir. auto.
  - right. exists (Normal s). auto.
Qed.

Lemma join_cons sep x y l : join_with [sep] (x :: y :: l) = x ++ sep :: join_with [sep] (y :: l).
Proof. reflexivity. Qed.

(** Appending pieces to a non-empty prefix [p] that is separated from them. *)
Lemma tail_same segs : segs <> [] -> Forall (fun s => ~ In slash s) segs ->
  forall p, p <> [] ->
  SamePath (p ++ slash :: join_with [slash] segs) (p ++ tail_text (flat_map seg_comp segs)).
Proof.
  induction segs as [|s segs IH]; intros Hne Hs p Hp; [congruence|].
  inversion Hs as [|? ? Hs1 Hs2]; subst.
  destruct segs as [|s2 segs].
  - cbn [join_with flat_map]. rewrite app_nil_r.
    destruct (seg_comp_text s Hs1) as [[-> Hc]|[c [-> Hc]]].
    + cbn. rewrite app_nil_r. destruct Hc as [->| ->].
      * apply (SP_trailing_slash p Hp).
      * eapply SP_trans; [apply (SP_trailing_dot p)|]. apply (SP_trailing_slash p Hp).
    + cbn. rewrite app_nil_r, Hc. apply SP_refl.
  - rewrite join_cons.
    change (flat_map seg_comp (s :: s2 :: segs)) with (seg_comp s ++ flat_map seg_comp (s2 :: segs)).
    destruct (seg_comp_text s Hs1) as [[-> Hc]|[c [-> Hc]]].
    + cbn [app]. destruct Hc as [->| ->].
      * eapply SP_trans; [apply SP_slash|]. apply IH; [discriminate|assumption|assumption].
      * eapply SP_trans; [apply (SP_dot p)|]. apply IH; [discriminate|assumption|assumption].
    + cbn [app tail_text]. rewrite Hc.
      specialize (IH ltac:(discriminate) Hs2 (p ++ slash :: s)).
      rewrite <- !app_assoc in IH. cbn [app] in IH. apply IH. destruct p; discriminate.
Qed.

(** The same for the root prefix. *)
Lemma root_same segs : segs <> [] -> Forall (fun s => ~ In slash s) segs ->
  SamePath (slash :: join_with [slash] segs) (text (RootDir :: flat_map seg_comp segs)).
Proof.
  induction segs as [|s segs IH]; intros Hne Hs; [congruence|].
  inversion Hs as [|? ? Hs1 Hs2]; subst.
  destruct segs as [|s2 segs].
  - cbn [join_with flat_map]. rewrite app_nil_r.
    destruct (seg_comp_text s Hs1) as [[-> Hc]|[c [-> Hc]]].
    + cbn. destruct Hc as [->| ->]; [apply SP_refl|]. apply (SP_trailing_dot []).
    + cbn. rewrite app_nil_r, Hc. apply SP_refl.
  - rewrite join_cons.
    change (flat_map seg_comp (s :: s2 :: segs)) with (seg_comp s ++ flat_map seg_comp (s2 :: segs)).
    destruct (seg_comp_text s Hs1) as [[-> Hc]|[c [-> Hc]]].
    + cbn [app]. destruct Hc as [->| ->].
      * eapply SP_trans; [apply (SP_slash [])|]. apply IH; [discriminate|assumption].
      * eapply SP_trans; [apply (SP_dot [])|]. apply IH; [discriminate|assumption].
    + change (text (RootDir :: [c] ++ flat_map seg_comp (s2 :: segs)))
        with (slash :: comp_text c ++ tail_text (flat_map seg_comp (s2 :: segs))).
      rewrite Hc.
      apply (tail_same (s2 :: segs) ltac:(discriminate) Hs2 (slash :: s)). discriminate.
Qed.

Lemma SamePath_text p : SamePath p (text (components p)).
Proof.
  rewrite components_lead. destruct p as [|x p]; [apply SP_refl|].
  pose proof (split_on_pieces slash (x :: p)) as Hp.
  pose proof (split_on_join slash (x :: p)) as Hj.
  unfold lead. destruct (byte_eqb x slash) eqn:E.
  - apply byte_eqb_eq in E as ->. cbn [split_on] in *. rewrite byte_eqb_refl in *.
    inversion Hp as [|? ? _ Hp']; subst.
    change (flat_map seg_comp ([] :: split_on slash p)) with (flat_map seg_comp (split_on slash p)).
    rewrite <- (split_on_join slash p) at 1.
    apply root_same; [apply split_on_nonempty|assumption].
  - destruct (split_on slash (x :: p)) as [|s segs] eqn:F; [exfalso; eapply split_on_nonempty; exact F|].
    inversion Hp as [|? ? Hs Hsegs]; subst.
    assert (Hs0 : s <> []).
    { intros ->. destruct segs as [|s2 segs]; cbn in Hj; [discriminate|].
      injection Hj as Hj _. subst. rewrite byte_eqb_refl in E. discriminate. }
    rewrite <- Hj. clear Hj F Hp E.
    assert (K : forall pre c, comp_text c = s ->
      text (c :: flat_map seg_comp segs) = s ++ tail_text (flat_map seg_comp segs) ->
      pre ++ seg_comp s = [c] ->
      SamePath (join_with [slash] (s :: segs)) (text (pre ++ flat_map seg_comp (s :: segs)))).
    { intros pre c Hc Ht Hpre. cbn [flat_map]. rewrite app_assoc, Hpre. cbn [app]. rewrite Ht.
      destruct segs as [|s2 segs].
      - cbn. rewrite app_nil_r. apply SP_refl.
      - rewrite join_cons. apply tail_same; [discriminate|assumption|assumption]. }
    destruct (bytes_eqb s (B ".")) eqn:E1.
    + apply bytes_eqb_eq in E1 as ->. apply (K [CurDir] CurDir); reflexivity.
    + destruct (bytes_eqb s []) eqn:E2; [apply bytes_eqb_eq in E2; contradiction|].
      destruct (bytes_eqb s (B "..")) eqn:E3.
      * apply bytes_eqb_eq in E3 as ->. apply (K [] ParentDir); reflexivity.
      * apply (K [] (Normal s)); try reflexivity.
        cbn [app]. unfold seg_comp. rewrite E1, E2, E3. reflexivity.
Qed.

Lemma SamePath_iff p q : SamePath p q <-> path_eqb p q = true.
Proof.
  rewrite path_eqb_eq. split; [apply SamePath_components|].
  intros E. eapply SP_trans; [apply SamePath_text|]. rewrite E. apply SP_sym. apply SamePath_text.
Qed.

Lemma SamePath_empty p : SamePath p [] <-> p = [].
Proof.
  split; [|intros ->; apply SP_refl]. intros H. apply SamePath_components in H.
  change (components []) with (@nil component) in H.
  destruct p as [|x p]; [reflexivity|]. exfalso. rewrite components_lead in H.
  apply app_eq_nil in H as [H1 H2]. unfold lead in H1.
  destruct (byte_eqb x slash) eqn:E; [discriminate|].
  destruct (split_on slash (x :: p)) as [|s segs] eqn:F; [eapply split_on_nonempty; exact F|].
  destruct (bytes_eqb s (B ".")) eqn:E1; [discriminate|].
  cbn [flat_map] in H2. apply app_eq_nil in H2 as [H2 _]. unfold seg_comp in H2.
  rewrite E1 in H2. destruct (bytes_eqb s []) eqn:E2.
  - apply bytes_eqb_eq in E2 as ->. cbn in F. rewrite E in F.
    destruct (split_on slash p); discriminate.
  - destruct (bytes_eqb s (B "..")); discriminate.
Qed.
