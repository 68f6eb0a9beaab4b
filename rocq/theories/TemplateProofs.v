(** Template expansion. *)
From Verif Require Import Base BaseLemmas Template Spec.

Definition meaning (s : spec) (c : byte) : bytes :=
  match exp_get (sp_expansions s) c with Some x => x | None => [c] end.

(** A structural version of the expansion. *)
Fixpoint expand_spec (esc : byte) (m : byte -> bytes) (t : bytes) : bytes :=
  match t with
  | [] => []
  | x :: t1 =>
      if byte_eqb x esc
      then match t1 with
           | [] => []
           | c :: t2 => m c ++ expand_spec esc m t2
           end
      else x :: expand_spec esc m t1
  end.

Lemma expand_spec_literals esc m a b :
  Forall (fun x => byte_eqb x esc = false) a ->
  expand_spec esc m (a ++ b) = a ++ expand_spec esc m b.
Proof.
  induction 1 as [|x a Hx _ IH]; [reflexivity|]. cbn [app expand_spec]. rewrite Hx, IH. reflexivity.
Qed.

Lemma expand_loop_spec s : forall fuel iter res, (List.length iter < fuel)%nat ->
  expand_loop fuel s iter res = res ++ expand_spec (sp_escape s) (meaning s) iter.
Proof.
  induction fuel as [|f IH]; intros iter res Hf; [lia|].
  cbn [expand_loop]. destruct iter as [|i0 iter']; [cbn; rewrite app_nil_r; reflexivity|].
  set (iter := i0 :: iter') in *. clearbody iter. clear i0 iter'.
  unfold take_while_ref. destruct (span _ iter) as [a b] eqn:E.
  pose proof (span_app _ _ _ _ E) as Happ. pose proof (span_fst _ _ _ _ E) as Ha.
  assert (Hlen : (List.length a + List.length b = List.length iter)%nat).
  { rewrite Happ, app_length. reflexivity. }
  rewrite Happ, expand_spec_literals by exact Ha.
  destruct b as [|x b].
  - cbn. rewrite app_nil_r. reflexivity.
  - pose proof (span_snd _ _ _ _ _ E) as Hx. cbn [expand_spec]. rewrite Hx.
    destruct b as [|c b].
    + rewrite app_nil_r. reflexivity.
    + rewrite IH by (cbn in Hlen; lia). unfold meaning. rewrite <- !app_assoc. reflexivity.
Qed.

Lemma expand_eq s t : expand s t = expand_spec (sp_escape s) (meaning s) t.
Proof. unfold expand. rewrite expand_loop_spec by lia. reflexivity. Qed.

Lemma expand_spec_Expands esc m (def : byte -> bytes -> Prop) :
  (forall c, def c (m c)) -> forall t, Expands esc def t (expand_spec esc m t).
Proof.
  intros Hd t. remember (List.length t) as n eqn:Hn. assert (H : (List.length t <= n)%nat) by lia.
  clear Hn. revert t H. induction n as [|n IH]; intros t H.
  - destruct t; [constructor|cbn in H; lia].
  - destruct t as [|x t1]; [constructor|]. cbn [expand_spec].
    destruct (byte_eqb x esc) eqn:E.
    + apply byte_eqb_eq in E as ->. destruct t1 as [|c t2]; [constructor|].
      apply Ex_directive; [apply Hd|]. apply IH. cbn in H. lia.
    + apply Ex_literal; [apply byte_eqb_neq; exact E|]. apply IH. cbn in H. lia.
Qed.

Lemma Expands_functional esc m (def : byte -> bytes -> Prop) :
  (forall c x, def c x -> x = m c) -> forall t out, Expands esc def t out -> out = expand_spec esc m t.
Proof.
  intros Hd t out H. induction H as [| |c x t out Hx _ IH|c t out Hc _ IH].
  - reflexivity.
  - cbn. rewrite byte_eqb_refl. reflexivity.
  - cbn [expand_spec]. rewrite byte_eqb_refl. rewrite (Hd _ _ Hx), IH. reflexivity.
  - cbn [expand_spec]. apply byte_eqb_neq in Hc. rewrite Hc, IH. reflexivity.
Qed.

Lemma Expands_expand s (def : byte -> bytes -> Prop) :
  (forall c x, def c x <-> x = meaning s c) ->
  forall t out, Expands (sp_escape s) def t out <-> out = expand s t.
Proof.
  intros Hd t out. rewrite expand_eq. split.
  - apply Expands_functional. intros c x H. apply Hd. exact H.
  - intros ->. apply expand_spec_Expands. intros c. apply Hd. reflexivity.
Qed.

(** Definitions made by a sequence of [spec_replace]. *)
Definition define_all (defs : list (byte * bytes)) (s : spec) : spec :=
  fold_left (fun s kv => spec_replace (fst kv) (snd kv) s) defs s.

Lemma exp_get_filter m k k0 :
  exp_get (filter (fun kv => negb (byte_eqb (fst kv) k0)) m) k
  = if byte_eqb k0 k then None else exp_get m k.
Proof.
  induction m as [|[k1 v1] m IH]; cbn.
  - destruct (byte_eqb k0 k); reflexivity.
  - destruct (byte_eqb k1 k0) eqn:E1; cbn.
    + apply byte_eqb_eq in E1 as ->. rewrite IH. destruct (byte_eqb k0 k); reflexivity.
    + rewrite IH. destruct (byte_eqb k1 k) eqn:E2; [|reflexivity].
      apply byte_eqb_eq in E2 as ->. rewrite byte_eqb_sym, E1. reflexivity.
Qed.

Lemma meaning_replace k v s c :
  meaning (spec_replace k v s) c = if byte_eqb k c then v else meaning s c.
Proof.
  unfold meaning, spec_replace. cbn. destruct (byte_eqb k c) eqn:E; [reflexivity|].
  rewrite exp_get_filter, E. reflexivity.
Qed.

Lemma define_all_app d1 d2 s : define_all (d1 ++ d2) s = define_all d2 (define_all d1 s).
Proof. apply fold_left_app. Qed.

Lemma define_all_escape defs : forall s, sp_escape (define_all defs s) = sp_escape s.
Proof. induction defs as [|[k v] defs IH]; intros s; cbn; [reflexivity|]. exact (IH (spec_replace k v s)). Qed.

Lemma Defined_meaning esc defs c x :
  Defined defs c x <-> x = meaning (define_all defs (spec_with_escape esc)) c.
Proof.
  revert x. induction defs as [|[k v] defs IH] using rev_ind; intros x.
  - cbn. unfold Defined. split.
    + intros [(b & a & E & _)|[_ ->]]; [destruct b; discriminate|reflexivity].
    + intros ->. right. split; [intros y []|reflexivity].
  - rewrite define_all_app. cbn [define_all fold_left fst snd]. fold (define_all defs (spec_with_escape esc)).
    rewrite meaning_replace. destruct (byte_eqb k c) eqn:E.
    + apply byte_eqb_eq in E as ->. split.
      * intros [(b & a & Eq & Hn)|[Hn _]].
        -- destruct a as [|a0 a] using rev_ind.
           ++ apply app_inj_tail in Eq as [_ Eq]. injection Eq as ->. reflexivity.
           ++ exfalso. rewrite app_comm_cons, app_assoc in Eq.
              apply app_inj_tail in Eq as [_ <-]. apply (Hn v). apply in_or_app. right. left. reflexivity.
        -- exfalso. apply (Hn v). apply in_or_app. right. left. reflexivity.
      * intros ->. left. exists defs, []. split; [reflexivity|]. intros y [].
    + apply byte_eqb_neq in E. rewrite <- IH. unfold Defined. split.
      * intros [(b & a & Eq & Hn)|[Hn ->]].
        -- destruct a as [|a0 a _] using rev_ind.
           ++ apply app_inj_tail in Eq as [_ Eq]. congruence.
           ++ rewrite app_comm_cons, app_assoc in Eq. apply app_inj_tail in Eq as [-> _].
              left. exists b, a. split; [reflexivity|]. intros y Hy. apply (Hn y).
              apply in_or_app. left. exact Hy.
        -- right. split; [|reflexivity]. intros y Hy. apply (Hn y). apply in_or_app. left. exact Hy.
      * intros [(b & a & -> & Hn)|[Hn ->]].
        -- left. exists b, (a ++ [(k, v)]). rewrite <- app_assoc. split; [reflexivity|].
           intros y Hy. apply in_app_or in Hy as [Hy|[Hy|[]]]; [exact (Hn y Hy)|congruence].
        -- right. split; [|reflexivity]. intros y Hy.
           apply in_app_or in Hy as [Hy|[Hy|[]]]; [exact (Hn y Hy)|congruence].
Qed.

Lemma Defined_expand esc defs t out :
  Expands esc (Defined defs) t out <-> out = expand (define_all defs (spec_with_escape esc)) t.
Proof.
  rewrite <- (Expands_expand _ (Defined defs)).
  - rewrite define_all_escape. reflexivity.
  - intros c x. apply Defined_meaning.
Qed.

Lemma expand_spec_app esc m t1 t2 : Closed esc t1 ->
  expand_spec esc m (t1 ++ t2) = expand_spec esc m t1 ++ expand_spec esc m t2.
Proof.
  induction 1 as [|c t _ IH|c t Hc _ IH].
  - reflexivity.
  - cbn [app expand_spec]. rewrite byte_eqb_refl, IH, app_assoc. reflexivity.
  - cbn [app expand_spec]. apply byte_eqb_neq in Hc. rewrite Hc, IH. reflexivity.
Qed.
