(** Option arrays: the model's parser against Spec.v. *)
From Verif Require Import Base BaseLemmas Utf8 Num Options Spec.
Local Open Scope Z_scope.

(** ** C strings *)
Lemma cstr_CString buf : CString buf (cstr buf).
Proof.
  unfold cstr, CString. destruct (span _ buf) as [a b] eqn:E. cbn.
  pose proof (span_app _ _ _ _ E) as Happ.
  split.
  - apply Forall_neq_In. eapply span_fst. exact E.
  - destruct b as [|x b].
    + left. rewrite app_nil_r in Happ. exact Happ.
    + right. exists b. pose proof (span_snd _ _ _ _ _ E) as Hx.
      apply byte_eqb_eq in Hx as ->. exact Happ.
Qed.

Lemma CString_unique buf s1 s2 : CString buf s1 -> CString buf s2 -> s1 = s2.
Proof.
  intros [H1 [E1|[r1 E1]]] [H2 [E2|[r2 E2]]]; subst.
  - reflexivity.
  - exfalso. apply H1. apply in_or_app. right. left. reflexivity.
  - exfalso. apply H2. apply in_or_app. right. left. reflexivity.
  - apply first_split_unique in E2 as [-> _]; auto.
Qed.

Lemma CString_cstr buf s : CString buf s <-> s = cstr buf.
Proof.
  split.
  - intros H. eapply CString_unique; [exact H | apply cstr_CString].
  - intros ->. apply cstr_CString.
Qed.

Lemma Forall2_CString l l' : Forall2 CString l l' <-> l' = map cstr l.
Proof.
  split.
  - induction 1 as [|b s l l' Hb _ IH]; cbn; [reflexivity|].
    apply CString_cstr in Hb as ->. f_equal. exact IH.
  - intros ->. induction l as [|b l IH]; cbn; constructor; auto. apply cstr_CString.
Qed.

(** ** Entries *)
Lemma split_entry_Means e k v : Means e k v <-> split_entry e = (k, v).
Proof.
  unfold split_entry. destruct (span _ e) as [a b] eqn:E.
  pose proof (span_app _ _ _ _ E) as Happ.
  pose proof (span_fst _ _ _ _ E) as Ha. apply Forall_neq_In in Ha.
  destruct b as [|x b].
  - rewrite app_nil_r in Happ. subst a. split.
    + intros [[Hk He]|[_ [-> ->]]]; [|reflexivity].
      exfalso. apply Ha. rewrite He. apply in_or_app. right. left. reflexivity.
    + intros H. injection H as <- <-. right. auto.
  - pose proof (span_snd _ _ _ _ _ E) as Hx. apply byte_eqb_eq in Hx as ->.
    split.
    + intros [[Hk He]|[He _]].
      * rewrite Happ in He. apply first_split_unique in He as [-> ->]; auto.
      * exfalso. apply He. rewrite Happ. apply in_or_app. right. left. reflexivity.
    + intros H. injection H as <- <-. left. auto.
Qed.

Lemma EntryMeans_split buf k v : EntryMeans buf k v <-> split_entry (cstr buf) = (k, v).
Proof.
  unfold EntryMeans. split.
  - intros [e [He Hm]]. apply CString_cstr in He as ->. apply split_entry_Means. exact Hm.
  - intros H. exists (cstr buf). split; [apply cstr_CString|]. apply split_entry_Means. exact H.
Qed.

(** ** Association lists *)
Lemma map_get_filter m k k0 :
  map_get (filter (fun kv => negb (bytes_eqb (fst kv) k0)) m) k
  = if bytes_eqb k0 k then None else map_get m k.
Proof.
  induction m as [|[k1 v1] m IH]; cbn.
  - destruct (bytes_eqb k0 k); reflexivity.
  - destruct (bytes_eqb k1 k0) eqn:E1; cbn.
    + apply bytes_eqb_eq in E1 as ->. rewrite IH.
      destruct (bytes_eqb k0 k); reflexivity.
    + rewrite IH. destruct (bytes_eqb k1 k) eqn:E2; [|reflexivity].
      apply bytes_eqb_eq in E2 as ->.
      destruct (bytes_eqb k0 k) eqn:E3; [|reflexivity].
      apply bytes_eqb_eq in E3 as ->. rewrite bytes_eqb_refl in E1. discriminate.
Qed.

Lemma map_get_insert m k v k' :
  map_get (map_insert k v m) k' = if bytes_eqb k k' then Some v else map_get m k'.
Proof.
  unfold map_insert. cbn. destruct (bytes_eqb k k') eqn:E; [reflexivity|].
  rewrite map_get_filter, E. reflexivity.
Qed.

Lemma from_raw_loop_get l : forall m k,
  map_get (from_raw_loop l m) k
  = match map_get (from_raw_loop l []) k with Some v => Some v | None => map_get m k end.
Proof.
  induction l as [|b l IH]; intros m k; cbn; [reflexivity|].
  destruct (split_entry (cstr b)) as [k1 v1].
  rewrite IH. rewrite (IH (map_insert k1 v1 [])).
  destruct (map_get (from_raw_loop l []) k); [reflexivity|].
  rewrite !map_get_insert. destruct (bytes_eqb k1 k); reflexivity.
Qed.

Lemma loop_Provides l k v :
  map_get (from_raw_loop l []) k = Some v <-> Provides (Some l) k v.
Proof.
  revert v. induction l as [|b l IH]; intros v.
  - cbn. split; [discriminate|].
    intros (before & buf & after & E & _). injection E as E.
    destruct before; discriminate.
  - cbn [from_raw_loop]. destruct (split_entry (cstr b)) as [k1 v1] eqn:Es.
    rewrite from_raw_loop_get.
    destruct (map_get (from_raw_loop l []) k) as [v'|] eqn:El.
    + pose proof (proj1 (IH v') eq_refl) as (before & buf & after & E & Hm & Hl). injection E as ->.
      split.
      * intros H. injection H as <-. exists (b :: before), buf, after. auto.
      * intros (bf & bu & af & E & Hm' & Hl'). injection E as E.
        destruct bf as [|b' bf].
        -- cbn in E. injection E as _ <-. exfalso.
           apply (Hl' buf v'); [|exact Hm]. apply in_or_app. right. left. reflexivity.
        -- cbn in E. injection E as -> E.
           assert (HP : Provides (Some (before ++ buf :: after)) k v).
           { exists bf, bu, af. rewrite <- E. auto. }
           apply IH in HP.
           assert (HP' : Provides (Some (before ++ buf :: after)) k v').
           { exists before, buf, after. auto. }
           apply IH in HP'. congruence.
    + rewrite map_get_insert. cbn.
      assert (Hnone : forall later v', In later l -> ~ EntryMeans later k v').
      { intros later v' Hin Hm.
        (* the last such entry would be found *)
        assert (Hex : exists v'', map_get (from_raw_loop l []) k = Some v'').
        { clear -Hin Hm. revert v' Hm. induction l as [|c l IHl]; intros v' Hm; [destruct Hin|].
          cbn. destruct (split_entry (cstr c)) as [kc vc] eqn:Ec.
          rewrite from_raw_loop_get.
          destruct (map_get (from_raw_loop l []) k) as [x|] eqn:Ex; [eauto|].
          destruct Hin as [->|Hin].
          - apply EntryMeans_split in Hm. rewrite Hm in Ec. injection Ec as <- <-.
            rewrite map_get_insert, bytes_eqb_refl. eauto.
          - destruct (IHl Hin v' Hm) as [x Hx]. congruence. }
        destruct Hex as [v'' Hv]. congruence. }
      split.
      * destruct (bytes_eqb k1 k) eqn:Ek; [|discriminate].
        apply bytes_eqb_eq in Ek as ->. intros H. injection H as <-.
        exists [], b, l. split; [reflexivity|]. split; [|exact Hnone].
        apply EntryMeans_split. exact Es.
      * intros (bf & bu & af & E & Hm & Hl). injection E as E.
        destruct bf as [|b' bf]; cbn in E; injection E as -> ->.
        -- apply EntryMeans_split in Hm. rewrite Hm in Es. injection Es as <- <-.
           rewrite bytes_eqb_refl. reflexivity.
        -- exfalso. apply (Hnone bu v); [|exact Hm]. apply in_or_app. right. left. reflexivity.
Qed.

(** C01 *)
Lemma get_bytes_Provides r k v : get_bytes (from_raw r) k = Some v <-> Provides r k v.
Proof.
  unfold get_bytes. destruct r as [l|]; cbn.
  - apply loop_Provides.
  - split; [discriminate|]. intros (? & ? & ? & E & _). discriminate.
Qed.

Lemma Provides_unique r k v1 v2 : Provides r k v1 -> Provides r k v2 -> v1 = v2.
Proof. rewrite <- !get_bytes_Provides. congruence. Qed.

Lemma get_bytes_None r k : get_bytes (from_raw r) k = None <-> forall v, ~ Provides r k v.
Proof.
  split.
  - intros H v Hv. apply get_bytes_Provides in Hv. congruence.
  - intros H. destruct (get_bytes (from_raw r) k) as [v|] eqn:E; [|reflexivity].
    exfalso. apply (H v). apply get_bytes_Provides. exact E.
Qed.
