(** * Facts about dictionaries as association lists. *)
From Coq Require Import Lia.
From Verif Require Import Py Num Util Classes Mixins Entity LayerProofs WireProofs.

Lemma key_eqb_eq k k' : key_eqb k k' = true <-> k = k'.
Proof.
  destruct k as [s|z], k' as [s'|z']; cbn; try (split; congruence).
  - rewrite String.eqb_eq. split; congruence.
  - rewrite Z.eqb_eq. split; congruence.
Qed.
Lemma key_eqb_refl k : key_eqb k k = true. Proof. now apply key_eqb_eq. Qed.
Lemma key_eqb_neq k k' : key_eqb k k' = false <-> k <> k'.
Proof. rewrite <- key_eqb_eq. destruct (key_eqb k k'); split; congruence. Qed.
Lemma key_eqb_sym k k' : key_eqb k k' = key_eqb k' k.
Proof. destruct (key_eqb k' k) eqn:E; [apply key_eqb_eq in E; subst; apply key_eqb_refl|]. apply key_eqb_neq in E. apply key_eqb_neq. congruence. Qed.
Lemma key_dec (k k' : key) : {k = k'} + {k <> k'}.
Proof. destruct (key_eqb k k') eqn:E; [left; now apply key_eqb_eq|right; now apply key_eqb_neq]. Qed.

Lemma ddel_filter {V} k (d : list (key * V)) : ddel k d = filter (fun kv => negb (key_eqb k (fst kv))) d.
Proof. induction d as [|[k' v] d IH]; cbn; auto. destruct (key_eqb k k'); cbn; now rewrite IH. Qed.
Lemma dget_filter {V} (f : key -> bool) k (d : list (key * V)) :
  dget k (filter (fun kv => f (fst kv)) d) = if f k then dget k d else None.
Proof.
  induction d as [|[k' v] d IH]; cbn; [now destruct (f k)|]. destruct (key_eqb k k') eqn:E.
  - apply key_eqb_eq in E. subst k'. destruct (f k) eqn:F; cbn; rewrite ?key_eqb_refl; auto.
  - destruct (f k'); cbn; [rewrite E|]; auto.
Qed.
Lemma dget_ddel_same {V} k (d : list (key * V)) : dget k (ddel k d) = None.
Proof. rewrite ddel_filter, (dget_filter (fun k' => negb (key_eqb k k'))). now rewrite key_eqb_refl. Qed.
Lemma dget_ddel_other {V} k k' (d : list (key * V)) : k' <> k -> dget k' (ddel k d) = dget k' d.
Proof.
  intros N. rewrite ddel_filter, (dget_filter (fun k0 => negb (key_eqb k k0))).
  assert (key_eqb k k' = false) as -> by (apply key_eqb_neq; congruence). reflexivity.
Qed.
Lemma dget_ddel {V} k k' (d : list (key * V)) : dget k' (ddel k d) = if key_eqb k' k then None else dget k' d.
Proof.
  destruct (key_eqb k' k) eqn:E; [apply key_eqb_eq in E; subst; apply dget_ddel_same|].
  apply dget_ddel_other. now apply key_eqb_neq.
Qed.
Lemma ddel_absent {V} k (d : list (key * V)) : dget k d = None -> ddel k d = d.
Proof.
  induction d as [|[k' v] d IH]; cbn; auto. destruct (key_eqb k k'); [discriminate|]. intros H. now rewrite IH.
Qed.
Lemma ddel_comm {V} k k' (d : list (key * V)) : ddel k (ddel k' d) = ddel k' (ddel k d).
Proof.
  induction d as [|[k0 v] d IH]; cbn; auto. destruct (key_eqb k' k0) eqn:A, (key_eqb k k0) eqn:B; cbn; rewrite ?A, ?B; auto. now rewrite IH.
Qed.
Lemma ddel_twice {V} k (d : list (key * V)) : ddel k (ddel k d) = ddel k d.
Proof. apply ddel_absent, dget_ddel_same. Qed.
Lemma dget_none_nil {V} (d : list (key * V)) : (forall k, dget k d = None) -> d = [].
Proof. destruct d as [|[k v] d]; auto. intros H. specialize (H k). cbn in H. now rewrite key_eqb_refl in H. Qed.
Lemma dmem_dget {V} k (d : list (key * V)) : dmem k d = true <-> exists v, dget k d = Some v.
Proof. unfold dmem. destruct (dget k d); split; try discriminate; eauto. intros (v & E); discriminate. Qed.
Lemma dmem_false {V} k (d : list (key * V)) : dmem k d = false <-> dget k d = None.
Proof. unfold dmem. destruct (dget k d); split; congruence. Qed.
Lemma all_KS_dget {V} (d : list (key * V)) z : all_KS d = true -> dget (KI z) d = None.
Proof. induction d as [|[[s|y] v] d IH]; cbn; auto. discriminate. Qed.
Lemma all_KS_filter {V} f (d : list (key * V)) : all_KS d = true -> all_KS (filter f d) = true.
Proof. induction d as [|[[s|y] v] d IH]; cbn; auto; [|discriminate]. intros H. destruct (f (KS s, v)); cbn; auto. Qed.
Lemma all_KS_ddel {V} k (d : list (key * V)) : all_KS d = true -> all_KS (ddel k d) = true.
Proof. rewrite ddel_filter. apply all_KS_filter. Qed.
Definition named (ks : list string) (k : key) : bool := existsb (fun s => key_eqb (KS s) k) ks.
Lemma named_In ks s : named ks (KS s) = true <-> In s ks.
Proof.
  unfold named. rewrite existsb_exists. split.
  - intros (x & I & E). apply key_eqb_eq in E. congruence.
  - intros I. exists s. split; auto. apply key_eqb_refl.
Qed.
Lemma drop_keys_filter ks : forall d : dict, drop_keys ks d = filter (fun kv => negb (named ks (fst kv))) d.
Proof.
  unfold drop_keys. induction ks as [|s ks IH]; intros d; cbn [fold_left].
  - symmetry. induction d as [|kv d IHd]; cbn; auto. cbn in IHd. f_equal. exact IHd.
  - rewrite IH, ddel_filter. induction d as [|kv d IHd]; cbn [filter]; auto. unfold named at 2. cbn [existsb]. fold (named ks (fst kv)).
    destruct (key_eqb (KS s) (fst kv)); cbn [negb orb filter]; rewrite IHd; auto.
Qed.
Lemma dget_drop_keys ks (d : dict) k : dget k (drop_keys ks d) = if named ks k then None else dget k d.
Proof. rewrite drop_keys_filter, (dget_filter (fun k => negb (named ks k))). now destruct (named ks k). Qed.
Lemma ddel_drop_keys ks k (d : dict) : ddel k (drop_keys ks d) = drop_keys ks (ddel k d).
Proof. unfold drop_keys. revert d. induction ks as [|s ks IH]; intros d; cbn; auto. now rewrite IH, ddel_comm. Qed.
