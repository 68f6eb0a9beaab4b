(** Typed reads against Spec.v. *)
From Verif Require Import Base BaseLemmas Utf8 Num Options Spec OptionProofs NumProofs Utf8Proofs.
Local Open Scope Z_scope.

Section Generic.
Context {A : Type} (p : bytes -> option A) (R : bytes -> A -> Prop).
Hypothesis HR : forall s x, p s = Some x <-> R s x.

Lemma get_Ok r k x : get p (from_raw r) k = Ok x <-> ReadsKey r k R x.
Proof.
  unfold get, get_str, ReadsKey.
  destruct (get_bytes (from_raw r) k) as [v|] eqn:E.
  - apply get_bytes_Provides in E. destruct (valid_utf8 v) eqn:U.
    + apply valid_utf8_iff in U. destruct (p v) as [y|] eqn:P.
      * apply HR in P. split.
        -- intros H. injection H as ->. eauto.
        -- intros (v' & Hv & _ & Hr). rewrite (Provides_unique _ _ _ _ Hv E) in Hr.
           apply HR in Hr. apply HR in P. congruence.
      * split; [discriminate|]. intros (v' & Hv & _ & Hr).
        rewrite (Provides_unique _ _ _ _ Hv E) in Hr. apply HR in Hr. congruence.
    + split; [discriminate|]. intros (v' & Hv & Hu & _).
      rewrite (Provides_unique _ _ _ _ Hv E) in Hu. apply valid_utf8_iff in Hu. congruence.
  - split; [discriminate|]. intros (v & Hv & _). apply get_bytes_Provides in Hv. congruence.
Qed.

Lemma get_Missing r k :
  get p (from_raw r) k = Err (OptionMissing k) <-> (forall v, Provides r k v -> ~ Utf8 v).
Proof.
  unfold get, get_str.
  destruct (get_bytes (from_raw r) k) as [v|] eqn:E.
  - apply get_bytes_Provides in E. destruct (valid_utf8 v) eqn:U.
    + apply valid_utf8_iff in U. split.
      * destruct (p v); discriminate.
      * intros H. exfalso. exact (H v E U).
    + split; [|reflexivity]. intros _ v' Hv Hu.
      rewrite (Provides_unique _ _ _ _ Hv E) in Hu. apply valid_utf8_iff in Hu. congruence.
  - split; [|reflexivity]. intros _ v Hv. apply get_bytes_Provides in Hv. congruence.
Qed.

Lemma get_Invalid r k v :
  get p (from_raw r) k = Err (OptionInvalid k v)
  <-> Provides r k v /\ Utf8 v /\ forall x, ~ R v x.
Proof.
  unfold get, get_str.
  destruct (get_bytes (from_raw r) k) as [v'|] eqn:E.
  - apply get_bytes_Provides in E. destruct (valid_utf8 v') eqn:U.
    + apply valid_utf8_iff in U. destruct (p v') as [y|] eqn:P.
      * split; [discriminate|]. intros (Hv & _ & Hr).
        rewrite <- (Provides_unique _ _ _ _ Hv E) in P. apply HR in P. exfalso. exact (Hr y P).
      * split.
        -- intros H. injection H as ->. split; [exact E|]. split; [exact U|].
           intros x Hx. apply HR in Hx. congruence.
        -- intros (Hv & _). rewrite (Provides_unique _ _ _ _ Hv E). reflexivity.
    + split; [discriminate|]. intros (Hv & Hu & _).
      rewrite (Provides_unique _ _ _ _ Hv E) in Hu. apply valid_utf8_iff in Hu. congruence.
  - split; [discriminate|]. intros (Hv & _). apply get_bytes_Provides in Hv. congruence.
Qed.

Lemma get_cases r k :
  (exists x, get p (from_raw r) k = Ok x) \/ get p (from_raw r) k = Err (OptionMissing k)
  \/ (exists v, get p (from_raw r) k = Err (OptionInvalid k v)).
Proof.
  unfold get. destruct (get_str _ k) as [v|]; [|auto]. destruct (p v); eauto.
Qed.

Lemma get_req_Ok r k x : get_req p (from_raw r) k = Ok x <-> Reads r k R x.
Proof. apply get_Ok. Qed.

Lemma get_req_Err r k : (exists e, get_req p (from_raw r) k = Err e) <-> Unreadable r k R.
Proof.
  unfold Unreadable. split.
  - intros [e He] x Hx. apply get_req_Ok in Hx. congruence.
  - intros H. destruct (get_req p (from_raw r) k) as [x|e] eqn:E; [|eauto].
    exfalso. apply (H x). apply get_req_Ok. exact E.
Qed.

Lemma get_or_iff r k d x : get_or p (from_raw r) k d = x <-> ReadsOr r k R d x.
Proof.
  unfold get_or, ReadsOr. fold (get_req p (from_raw r) k).
  destruct (get_req p (from_raw r) k) as [y|e] eqn:E.
  - cbn. pose proof E as E'. apply get_req_Ok in E. split.
    + intros ->. left. exact E.
    + intros [H|[H _]]; [|exfalso; exact (H y E)].
      apply get_req_Ok in H. congruence.
  - cbn. assert (U : Unreadable r k R) by (apply get_req_Err; eauto). split.
    + intros ->. right. auto.
    + intros [H|[_ ->]]; [exfalso; exact (U x H)|reflexivity].
Qed.

Lemma get_opt_iff r k o : get_opt p (from_raw r) k = o <-> ReadsOpt r k R o.
Proof.
  unfold get_opt, ReadsOpt. fold (get_req p (from_raw r) k).
  destruct (get_req p (from_raw r) k) as [y|e] eqn:E.
  - cbn. pose proof E as E'. apply get_req_Ok in E. split.
    + intros <-. exact E.
    + destruct o as [x|]; intros H.
      * apply get_req_Ok in H. congruence.
      * exfalso. exact (H y E).
  - cbn. assert (U : Unreadable r k R) by (apply get_req_Err; eauto). split.
    + intros <-. exact U.
    + destruct o as [x|]; intros H; [exfalso; exact (U x H)|reflexivity].
Qed.
End Generic.

(** ** Network addresses *)
Lemma parse_net_addr_None pl s :
  parse_net_addr pl s = None <-> ~ In "/"%byte s /\ pl_parse_ip pl s <> None.
Proof.
  unfold parse_net_addr. destruct (span _ s) as [a b] eqn:E.
  pose proof (span_app _ _ _ _ E) as Happ. pose proof (span_fst _ _ _ _ E) as Ha.
  apply Forall_neq_In in Ha.
  destruct b as [|x b].
  - rewrite app_nil_r in Happ. subst a. destruct (pl_parse_ip pl s); split; try discriminate.
    + intros _. split; [exact Ha|discriminate].
    + reflexivity.
    + intros [_ H]. congruence.
  - pose proof (span_snd _ _ _ _ _ E) as Hx. apply byte_eqb_eq in Hx as ->.
    split.
    + destruct (pl_parse_ip pl a); [|discriminate]. destruct (pl_parse_ip pl b); discriminate.
    + intros [H _]. exfalso. apply H. rewrite Happ. apply in_or_app. right. left. reflexivity.
Qed.

Lemma parse_net_addr_Some pl s :
  (exists n, parse_net_addr pl s = Some (Some n)) <-> AddrMask pl s.
Proof.
  unfold parse_net_addr, AddrMask. destruct (span _ s) as [a b] eqn:E.
  pose proof (span_app _ _ _ _ E) as Happ. pose proof (span_fst _ _ _ _ E) as Ha.
  apply Forall_neq_In in Ha.
  destruct b as [|x b].
  - rewrite app_nil_r in Happ. subst a. split.
    + intros [n H]. destruct (pl_parse_ip pl s); discriminate.
    + intros (a & m & -> & _). exfalso. apply Ha. apply in_or_app. right. left. reflexivity.
  - pose proof (span_snd _ _ _ _ _ E) as Hx. apply byte_eqb_eq in Hx as ->. split.
    + intros [n H]. exists a, b. destruct (pl_parse_ip pl a); [|discriminate].
      destruct (pl_parse_ip pl b); [|discriminate]. repeat split; auto; discriminate.
    + intros (a' & m & E' & Ha' & H1 & H2). rewrite Happ in E'.
      apply first_split_unique in E' as [<- <-]; auto.
      destruct (pl_parse_ip pl a); [|congruence]. destruct (pl_parse_ip pl b); [|congruence]. eauto.
Qed.

Lemma parse_net_all_None pl l :
  parse_net_all pl l = None <->
  exists before piece after, l = before ++ piece :: after
    /\ Forall (AddrMask pl) before /\ ~ In "/"%byte piece /\ pl_parse_ip pl piece <> None.
Proof.
  induction l as [|s l IH]; cbn.
  - split; [discriminate|]. intros (b & p & a & E & _). destruct b; discriminate.
  - destruct (parse_net_addr pl s) as [[n|]|] eqn:E.
    + assert (Hs : AddrMask pl s) by (apply parse_net_addr_Some; eauto). split.
      * intros H. assert (parse_net_all pl l = None) as H'.
        { destruct (parse_net_all pl l) as [[?|]|]; congruence. }
        apply IH in H' as (b & p & a & -> & Hb & Hp). exists (s :: b), p, a.
        split; [reflexivity|]. split; [constructor; assumption|exact Hp].
      * intros (b & p & a & Eq & Hb & Hp). destruct b as [|b0 b]; cbn in Eq; injection Eq as -> ->.
        -- apply parse_net_addr_None in Hp. congruence.
        -- inversion Hb; subst.
           assert (parse_net_all pl (b ++ p :: a) = None) as -> by (apply IH; eauto 6). reflexivity.
    + split; [discriminate|].
      intros (b & p & a & Eq & Hb & Hp). destruct b as [|b0 b]; cbn in Eq; injection Eq as -> ->.
      -- apply parse_net_addr_None in Hp. congruence.
      -- inversion Hb as [|? ? H _]; subst. apply parse_net_addr_Some in H as [n H]. congruence.
    + split; [|reflexivity]. intros _. apply parse_net_addr_None in E.
      exists [], s, l. auto.
Qed.

Lemma get_net_addrs_None pl r :
  get_net_addrs pl (from_raw r) (B "network_addrs") = None <-> MasklessAddr pl r.
Proof.
  unfold get_net_addrs, get_str, MasklessAddr.
  destruct (get_bytes (from_raw r) (B "network_addrs")) as [v|] eqn:E.
  - apply get_bytes_Provides in E. destruct (valid_utf8 v) eqn:U.
    + apply valid_utf8_iff in U. unfold parse_net_addrs. split.
      * intros H. assert (parse_net_all pl (split_on " "%byte v) = None) as H'.
        { destruct (parse_net_all pl (split_on " "%byte v)) as [[?|]|]; congruence. }
        apply parse_net_all_None in H' as (b & p & a & Es & Hb & Hp).
        exists v, b, p, a. split; [exact E|]. split; [exact U|]. split; [|auto].
        apply Separated_split. auto.
      * intros (v' & b & p & a & Hv & _ & Hs & Hb & Hp).
        rewrite (Provides_unique _ _ _ _ Hv E) in Hs. apply Separated_split in Hs.
        assert (parse_net_all pl (split_on " "%byte v) = None) as ->; [|reflexivity].
        apply parse_net_all_None. eauto 8.
    + split; [discriminate|]. intros (v' & b & p & a & Hv & Hu & _).
      rewrite (Provides_unique _ _ _ _ Hv E) in Hu. apply valid_utf8_iff in Hu. congruence.
  - split; [discriminate|]. intros (v' & b & p & a & Hv & _).
    apply get_bytes_Provides in Hv. congruence.
Qed.
