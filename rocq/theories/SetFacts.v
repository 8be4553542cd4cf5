(** * Facts about assignments to mixin attributes. *)
From Verif Require Import Py Num Util Classes Mixins Entity Setters World WorldFacts.

Lemma key_refl k : key_eqb k k = true.
Proof. destruct k; cbn; [apply String.eqb_refl|apply Z.eqb_refl]. Qed.
Lemma key_true k k' : key_eqb k k' = true -> k = k'.
Proof. destruct k as [s|z], k' as [s'|z']; cbn; try discriminate; intros E; [apply String.eqb_eq in E|apply Z.eqb_eq in E]; congruence. Qed.
Lemma set_get k v (d : dict) k' : dget k' (dset k v d) = if key_eqb k' k then Some v else dget k' d.
Proof.
  induction d as [|[k0 v0] d IH]; cbn; [reflexivity|]. destruct (key_eqb k k0) eqn:E; cbn.
  - apply key_true in E. subst k0. destruct (key_eqb k' k) eqn:E'; reflexivity.
  - rewrite IH. destruct (key_eqb k' k0) eqn:E1, (key_eqb k' k) eqn:E2; auto. apply key_true in E1, E2. subst. rewrite key_refl in E. discriminate.
Qed.

(** where an attribute is kept *)
Definition kept_at (k : mattr) : list string :=
  match k with
  | AInventory => ["inventory_bar"; "inventory_filters"]
  | AInfinity => ["infinity_remove"; "infinity_filters"]
  | AInfinityRemove => ["infinity_remove"]
  | AInfinityFilters => ["infinity_filters"]
  | _ => [attr_name k]
  end.
(** [a'] differs from [a] at [ks] only and has everything [a] has *)
Definition changed (ks : list string) (a a' : dict) : Prop :=
  (forall s : key, (forall k, In k ks -> s <> KS k) -> dget s a' = dget s a) /\ (forall s : key, dmem s a = true -> dmem s a' = true).
Lemma changed_refl ks a : changed ks a a. Proof. split; auto. Qed.
Lemma changed_dset ks k v a a' : changed ks a a' -> In k ks -> changed ks a (dset (KS k) v a').
Proof.
  intros [H G] I. split; intros s; [intros N|intros M]; [|unfold dmem]; rewrite set_get; destruct (key_eqb s (KS k)) eqn:E; auto.
  - apply key_true in E. destruct (N _ I E).
  - exact (G s M).
Qed.
Lemma changed_put ks k r a : In k ks -> changed ks a (fst (put k r a)).
Proof. intros I. destruct r; cbn; [apply changed_dset; auto|]; apply changed_refl. Qed.
Lemma changed_fill ks k f v a a' : changed ks a a' -> In k ks -> changed ks a (fst (fill_attr k f v a')).
Proof.
  intros H I. unfold fill_attr. destruct (match v with VNone => Ok [] | _ => iter_val v end); [destruct (fill f a0 [])|]; apply changed_dset; auto.
Qed.
Lemma set_at_changed p s k v a : changed (kept_at k) a (fst (set_at p s k v a)).
Proof.
  destruct k; cbn [set_at kept_at attr_name]; try (apply changed_put; cbn; auto; fail); try (apply changed_fill; cbn; auto using changed_refl; fail).
  - assert (H : forall x a', changed ["inventory_bar"; "inventory_filters"] a a' -> changed ["inventory_bar"; "inventory_filters"] a (dset "inventory_filters" x a')) by (intros; apply changed_dset; cbn; auto).
    assert (H' : forall x a', changed ["inventory_bar"; "inventory_filters"] a a' -> changed ["inventory_bar"; "inventory_filters"] a (dset "inventory_bar" x a')) by (intros; apply changed_dset; cbn; auto).
    destruct v; try (cbn; auto using changed_refl; fail); destruct (getdef _ "bar" VNone); cbn [fst]; auto using changed_refl;
      destruct (bind _ _); [destruct (fill _ _ [])|]; cbn [fst]; auto 6 using changed_refl.
  - destruct (getitem v "remove_unfiltered_items"); cbn; auto using changed_refl.
    destruct (getitem v "filters"); cbn [fst]; [apply changed_fill|]; cbn; auto; apply changed_dset; cbn; auto using changed_refl.
Qed.

(** entities *)
Lemma set_attr_form p k v e : exists a, changed (kept_at k) (e_at e) a /\ fst (set_attr p k v e) = with_at a e.
Proof.
  assert (N : exists a, changed (kept_at k) (e_at e) a /\ e = with_at a e) by (exists (e_at e); split; [apply changed_refl|destruct e; reflexivity]).
  unfold set_attr. pose proof (set_at_changed p (e_strict e) k v (e_at e)) as C. destruct (set_at p (e_strict e) k v (e_at e)) as [a r]. cbn in C.
  destruct (attr_cls k); [|cbn; eauto]. destruct (has_cls s _); cbn; eauto. destruct k; cbn; eauto.
Qed.
Lemma set_cb_at_changed p l k v a : changed [k] a (fst (set_cb_at p l k v a)).
Proof.
  unfold set_cb_at. repeat match goal with |- context [if ?b then _ else _] => destruct b end; try (apply changed_put; cbn; auto); apply changed_refl.
Qed.
Lemma set_cb_form p k v e : fst (set_cb_attr p k v e) = e \/
  exists cb a, e_cb e = Some cb /\ changed [k] (cb_at cb) a /\ fst (set_cb_attr p k v e) = with_cb (Some (mkCb (cb_cls cb) a)) e.
Proof.
  unfold set_cb_attr. destruct (e_cb e) as [cb|]; [right|left; reflexivity]. exists cb.
  pose proof (set_cb_at_changed p (cb_cls cb) k v (cb_at cb)) as C. destruct (set_cb_at p (cb_cls cb) k v (cb_at cb)) as [a r]. exists a. auto.
Qed.

(** worlds *)
Lemma upd_const i e f w : ent w i = Some e -> upd_ent i (fun _ => f e) w = upd_ent i f w.
Proof.
  intros H. unfold upd_ent. f_equal. unfold ent in H. revert i H. induction (w_ents w) as [|x l IH]; intros [|i] H; cbn in *; try discriminate; auto.
  - now injection H as ->.
  - f_equal. auto.
Qed.
Lemma upd_same i e w : ent w i = Some e -> upd_ent i (fun _ => e) w = w.
Proof. intros H. unfold upd_ent. rewrite lupd_id; [destruct w; reflexivity|]. intros x Hx. unfold ent in H. congruence. Qed.
Lemma assign_attr_form i k v w : fst (assign_attr i k v w) = w \/
  exists e a, ent w i = Some e /\ changed (kept_at k) (e_at e) a /\ fst (assign_attr i k v w) = upd_ent i (with_at a) w.
Proof.
  unfold assign_attr. destruct (ent w i) as [e|] eqn:E; [right|left; reflexivity]. exists e.
  destruct (set_attr_form (w_protos w) k v e) as (a & C & F). exists a. destruct (set_attr (w_protos w) k v e) as [e' r]. cbn in *. subst.
  split; auto. split; auto. apply upd_const, E.
Qed.
Lemma assign_cb_form i k v w : fst (assign_cb i k v w) = w \/
  exists e cb a, ent w i = Some e /\ e_cb e = Some cb /\ changed [k] (cb_at cb) a /\ fst (assign_cb i k v w) = upd_ent i (with_cb (Some (mkCb (cb_cls cb) a))) w.
Proof.
  unfold assign_cb. destruct (ent w i) as [e|] eqn:E; [|left; reflexivity].
  destruct (set_cb_form (w_protos w) k v e) as [F|(cb & a & H & C & F)]; destruct (set_cb_attr (w_protos w) k v e) as [e' r]; cbn in *; subst.
  - left. apply upd_same, E.
  - right. exists e, cb, a. split; auto. split; auto. split; auto. apply (upd_const i e (with_cb (Some (mkCb (cb_cls cb) a)))), E.
Qed.
