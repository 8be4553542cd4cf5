(** * Basic facts about the heap, effects and sorting. *)
From Coq Require Import Lia Permutation Sorted Setoid.
From Verif Require Import Py Num NumFacts Util Classes Mixins Entity World.

(** ** lists *)
Lemma lupd_length {A} (f : A -> A) l : forall i, length (lupd i f l) = length l.
Proof. induction l; destruct i; simpl; auto. Qed.
Lemma nth_lupd {A} (f : A -> A) l : forall i j,
  nth_error (lupd i f l) j = if Nat.eqb i j then option_map f (nth_error l j) else nth_error l j.
Proof.
  induction l as [|x r IH]; intros i j.
  - destruct i, j; simpl; auto; destruct (Nat.eqb _ _); auto.
  - destruct i, j; simpl; auto.
Qed.
Lemma lupd_id {A} (f : A -> A) l i : (forall x, nth_error l i = Some x -> f x = x) -> lupd i f l = l.
Proof.
  revert i. induction l as [|y r IH]; intros i H; destruct i; simpl; auto.
  - f_equal. apply H. reflexivity.
  - f_equal. apply IH. intros x Hx. apply H. exact Hx.
Qed.

Lemma ent_upd i f w j : ent (upd_ent i f w) j = if Nat.eqb i j then option_map f (ent w j) else ent w j.
Proof. apply nth_lupd. Qed.
Lemma blu_upd b f w c : blu (upd_bp b f w) c = if Nat.eqb b c then option_map f (blu w c) else blu w c.
Proof. apply nth_lupd. Qed.
Lemma ent_upd_bp b f w j : ent (upd_bp b f w) j = ent w j.
Proof. reflexivity. Qed.
Lemma blu_upd_ent i f w c : blu (upd_ent i f w) c = blu w c.
Proof. reflexivity. Qed.
Lemma ent_new e w j : ent (new_ent e w) j = if Nat.eqb j (length (w_ents w)) then Some e else ent w j.
Proof.
  unfold ent, new_ent; simpl. destruct (Nat.eqb_spec j (length (w_ents w))) as [->|H].
  - rewrite nth_error_app2 by lia. rewrite Nat.sub_diag. reflexivity.
  - destruct (Nat.lt_ge_cases j (length (w_ents w))) as [L|L].
    + rewrite nth_error_app1 by lia. reflexivity.
    + rewrite nth_error_app2 by lia.
      destruct (j - length (w_ents w))%nat eqn:E; [lia|].
      simpl. destruct n; symmetry; apply nth_error_None; lia.
Qed.
Lemma blu_new x w c : blu (new_bp x w) c = if Nat.eqb c (length (w_bps w)) then Some x else blu w c.
Proof.
  unfold blu, new_bp; simpl. destruct (Nat.eqb_spec c (length (w_bps w))) as [->|H].
  - rewrite nth_error_app2 by lia. rewrite Nat.sub_diag. reflexivity.
  - destruct (Nat.lt_ge_cases c (length (w_bps w))) as [L|L].
    + rewrite nth_error_app1 by lia. reflexivity.
    + rewrite nth_error_app2 by lia.
      destruct (c - length (w_bps w))%nat eqn:E; [lia|].
      simpl. destruct n; symmetry; apply nth_error_None; lia.
Qed.

(** ** effects *)
Lemma mbind_fst {A B} (m : M A) (f : A -> M B) w :
  fst (mbind m f w) = match snd (m w) with Ok a => fst (f a (fst (m w))) | Err _ => fst (m w) end.
Proof. unfold mbind. destruct (m w) as [w' [a|e]]; reflexivity. Qed.
Lemma mbind_snd {A B} (m : M A) (f : A -> M B) w :
  snd (mbind m f w) = match snd (m w) with Ok a => snd (f a (fst (m w))) | Err e => Err e end.
Proof. unfold mbind. destruct (m w) as [w' [a|e]]; reflexivity. Qed.
Lemma mbind_ok {A B} (m : M A) (f : A -> M B) w w' r :
  mbind m f w = (w', Ok r) -> exists a w1, m w = (w1, Ok a) /\ f a w1 = (w', Ok r).
Proof. unfold mbind. destruct (m w) as [w1 [a|e]]; intros H; [eauto|discriminate]. Qed.

(** [m] keeps [P] whether or not it raises *)
Definition keeps {A} (P : world -> Prop) (m : M A) : Prop := forall w, P w -> P (fst (m w)).
Lemma keeps_bind {A B} P (m : M A) (f : A -> M B) :
  keeps P m -> (forall a, keeps P (f a)) -> keeps P (mbind m f).
Proof.
  intros Hm Hf w H. rewrite mbind_fst. destruct (snd (m w)); [apply Hf|]; apply Hm; exact H.
Qed.
Lemma keeps_ret {A} P (a : A) : keeps P (ret a).
Proof. intros w H; exact H. Qed.
Lemma keeps_raise {A} P e : keeps P (@raise A e).
Proof. intros w H; exact H. Qed.
Lemma keeps_gets {A} P (f : world -> res A) : keeps P (gets f).
Proof. intros w H; exact H. Qed.
Lemma keeps_modify (P : world -> Prop) f : (forall w, P w -> P (f w)) -> keeps P (modify f).
Proof. intros Hf w H. apply Hf, H. Qed.
Lemma foldE_inv {A X} (P : A -> Prop) (f : A -> X -> A * res unit) l :
  (forall a x, In x l -> P a -> P (fst (f a x))) -> forall a, P a -> P (fst (foldE f l a)).
Proof.
  induction l as [|x r IH]; simpl; intros Hf a H; auto.
  pose proof (Hf a x (or_introl eq_refl) H) as H1. destruct (f a x) as [a' [u|e]]; simpl in *; auto.
Qed.
Lemma keeps_forM {X} P (f : X -> M unit) l : (forall x, In x l -> keeps P (f x)) -> keeps P (forM f l).
Proof. intros H w Hw. unfold forM. apply foldE_inv; auto. intros a x Hx Ha. apply H; auto. Qed.
Lemma keeps_mapMM {X Y} P (f : X -> M Y) l : (forall x, In x l -> keeps P (f x)) -> keeps P (mapMM f l).
Proof.
  induction l as [|x r IH]; simpl; intros H.
  - apply keeps_ret.
  - apply keeps_bind; [apply H; auto|]. intros y. apply keeps_bind; [apply IH; auto|].
    intros ys. apply keeps_ret.
Qed.
Lemma keeps_if {A} P (b : bool) (m n : M A) : keeps P m -> keeps P n -> keeps P (if b then m else n).
Proof. destruct b; auto. Qed.
(** use what [gets] returned *)
Lemma keeps_gets_bind {A B} (P : world -> Prop) (f : world -> res A) (k : A -> M B) :
  (forall w a, P w -> f w = Ok a -> P (fst (k a w))) -> keeps P (mbind (gets f) k).
Proof.
  intros H w Hw. rewrite mbind_fst. simpl. destruct (f w) eqn:E; auto.
Qed.

(** ** [mapM] *)
Lemma mapM_ok {A B} (f : A -> res B) l r : mapM f l = Ok r -> Forall2 (fun x y => f x = Ok y) l r.
Proof.
  revert r. induction l as [|x l IH]; simpl; intros r H.
  - injection H as <-. constructor.
  - destruct (f x) as [y|] eqn:E; [|discriminate]. simpl in H.
    destruct (mapM f l) as [ys|]; [|discriminate]. injection H as <-. constructor; auto.
Qed.
Lemma mapM_ok_inv {A B} (f : A -> res B) l r : Forall2 (fun x y => f x = Ok y) l r -> mapM f l = Ok r.
Proof.
  induction 1; simpl; auto. rewrite H. simpl. rewrite IHForall2. reflexivity.
Qed.
Lemma mapM_err {A B} (f : A -> res B) l e : mapM f l = Err e -> exists x, In x l /\ f x = Err e.
Proof.
  induction l as [|x l IH]; simpl; intros H; [discriminate|].
  destruct (f x) as [y|] eqn:E.
  - simpl in H. destruct (mapM f l); [discriminate|]. injection H as ->.
    destruct IH as (z & Hz & Ez); auto. exists z; auto.
  - injection H as ->. exists x; auto.
Qed.
Lemma mapM_ext {A B} (f g : A -> res B) l : (forall x, In x l -> f x = g x) -> mapM f l = mapM g l.
Proof.
  induction l as [|x l IH]; simpl; intros H; auto.
  rewrite H by auto. destruct (g x); simpl; auto. rewrite IH; auto.
Qed.

(** ** stable sorting *)
Section SortFacts.
  Context {K X : Type} (lt : K -> K -> bool).
  Notation ins := (@insert K X lt).
  Notation srt := (@isort K X lt).

  Lemma insert_perm x l : Permutation (x :: l) (ins x l).
  Proof.
    induction l as [|y r IH]; simpl; auto. destruct (lt (fst x) (fst y)); auto.
    eapply perm_trans; [apply perm_swap|]. apply perm_skip, IH.
  Qed.
  Lemma isort_acc_perm l : forall acc, Permutation (acc ++ l) (fold_left (fun acc x => ins x acc) l acc).
  Proof.
    induction l as [|x r IH]; simpl; intros acc.
    - rewrite app_nil_r. auto.
    - eapply perm_trans; [|apply IH]. eapply perm_trans; [symmetry; apply Permutation_middle|].
      change (x :: acc ++ r) with ((x :: acc) ++ r). apply Permutation_app_tail, insert_perm.
  Qed.
  Lemma isort_perm l : Permutation l (srt l).
  Proof. apply (isort_acc_perm l []). Qed.
End SortFacts.

Lemma sorted_objs_perm w l l' : sorted_objs w l = Ok l' -> Permutation l l'.
Proof.
  unfold sorted_objs. intros H.
  destruct (mapM _ l) as [ks|] eqn:E; [|discriminate]. injection H as <-.
  transitivity (map snd ks).
  - apply mapM_ok in E. assert (l = map snd ks) as ->; [|reflexivity].
    clear -E. induction E; simpl; auto. destruct (ent w x) as [e|]; [|discriminate].
    destruct (pos_key e); [|discriminate]. injection H as <-. simpl. congruence.
  - apply Permutation_map, isort_perm.
Qed.

(** ** reindex *)
Lemma reindex_bps i l w : w_bps (reindex i l w) = w_bps w.
Proof. revert i w. induction l as [|o r IH]; simpl; intros i w; auto. rewrite IH. reflexivity. Qed.
Lemma reindex_protos i l w : w_protos (reindex i l w) = w_protos w.
Proof. revert i w. induction l as [|o r IH]; simpl; intros i w; auto. rewrite IH. reflexivity. Qed.
Lemma reindex_length i l w : length (w_ents (reindex i l w)) = length (w_ents w).
Proof.
  revert i w. induction l as [|o r IH]; simpl; intros i w; auto. rewrite IH.
  apply lupd_length.
Qed.
Lemma reindex_not_in i l w j : ~ In j l -> ent (reindex i l w) j = ent w j.
Proof.
  revert i w. induction l as [|o r IH]; simpl; intros i w H; auto.
  rewrite IH by auto. rewrite ent_upd. destruct (Nat.eqb_spec o j); auto. subst; tauto.
Qed.
Lemma reindex_nth l : NoDup l -> forall k i w j e, nth_error l k = Some j -> ent w j = Some e ->
  ent (reindex i l w) j = Some (with_auto (VInt (i + Z.of_nat k)) e).
Proof.
  induction 1 as [|o r Ho Hr IH]; intros k i w j e Hk He; destruct k; simpl in *; try discriminate.
  - injection Hk as ->. rewrite reindex_not_in by auto. rewrite ent_upd, Nat.eqb_refl, He.
    simpl. do 3 f_equal. lia.
  - rewrite (IH k (i + 1) _ j e Hk).
    + do 3 f_equal. lia.
    + rewrite ent_upd. destruct (Nat.eqb_spec o j); auto. subst.
      exfalso. apply Ho. eapply nth_error_In; eauto.
Qed.
(** everything but the number is kept *)
Lemma reindex_ent i l w j : option_map (with_auto VNone) (ent (reindex i l w) j) = option_map (with_auto VNone) (ent w j).
Proof.
  revert i w. induction l as [|o r IH]; simpl; intros i w; auto.
  rewrite IH, ent_upd. destruct (Nat.eqb o j); auto. destruct (ent w j); reflexivity.
Qed.
