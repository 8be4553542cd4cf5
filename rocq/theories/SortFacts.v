(** * Stable sorting: order, stability, and the (y, x) key order. *)
From Coq Require Import Lia Permutation Sorted QArith.
From Verif Require Import Py Num NumFacts Util UtilFacts Classes Mixins Entity World WorldFacts.
Open Scope Z_scope.

Section Generic.
  Context {K X : Type} (lt : K -> K -> bool) (P : K -> Prop).
  Hypothesis asym : forall a b, P a -> P b -> lt a b = true -> lt b a = false.
  Hypothesis letrans : forall a b c, P a -> P b -> P c -> lt b a = false -> lt c b = false -> lt c a = false.
  Notation le a b := (lt b a = false).
  Definition kle (x y : K * X) : Prop := le (fst x) (fst y).
  Definition allP (l : list (K * X)) : Prop := Forall (fun x => P (fst x)) l.

  Lemma insert_allP x l : P (fst x) -> allP l -> allP (insert lt x l).
  Proof.
    intros Hx H. induction H as [|y r Hy Hr IH]; simpl; [repeat constructor; auto|].
    destruct (lt (fst x) (fst y)); repeat constructor; auto.
  Qed.
  Lemma insert_Forall (Q : K * X -> Prop) x l : Q x -> Forall Q l -> Forall Q (insert lt x l).
  Proof.
    intros Hx H. induction H as [|y r Hy Hr IH]; simpl; [repeat constructor; auto|].
    destruct (lt (fst x) (fst y)); repeat constructor; auto.
  Qed.
  Lemma insert_sorted x l : P (fst x) -> allP l -> StronglySorted kle l -> StronglySorted kle (insert lt x l).
  Proof.
    intros Hx HP H. induction H as [|y r Hr IH Hy]; simpl; [repeat constructor|].
    apply Forall_cons_iff in HP as [Py Pr].
    destruct (lt (fst x) (fst y)) eqn:E.
    - constructor; [constructor; auto|]. constructor; [unfold kle; auto|].
      rewrite Forall_forall in *. intros z Hz. unfold kle. eapply letrans; [| |apply Pr|apply asym|apply Hy]; auto.
    - constructor; auto. apply insert_Forall; [exact E|exact Hy].
  Qed.
  Lemma insert_filter (q : K * X -> bool) x l : allP l -> P (fst x) -> StronglySorted kle l ->
    (forall y, In y l -> q y = true -> q x = true -> lt (fst x) (fst y) = false) ->
    filter q (insert lt x l) = filter q l ++ (if q x then [x] else []).
  Proof.
    intros HP Px Hs Hq. induction Hs as [|y r Hr IH Hy]; simpl; [destruct (q x); auto|].
    apply Forall_cons_iff in HP as [Py Pr].
    destruct (lt (fst x) (fst y)) eqn:E.
    - simpl. destruct (q x) eqn:Qx.
      + (* then no element of y :: r satisfies q *)
        assert (N : forall z, In z (y :: r) -> q z = false).
        { intros z Hz. destruct (q z) eqn:Qz; auto. exfalso.
          assert (Lz : lt (fst x) (fst z) = false) by (apply Hq; auto).
          destruct Hz as [<-|Hz]; [congruence|].
          rewrite Forall_forall in Hy, Pr. specialize (Hy z Hz). unfold kle in Hy.
          (* y <= z <= x and x < y *)
          assert (le (fst y) (fst x)) by (eapply letrans; [exact Py|apply Pr; eauto|exact Px|exact Hy|exact Lz]).
          congruence. }
        rewrite (N y) by (left; auto).
        assert (filter q r = []) as ->; [|reflexivity].
        { clear -N. induction r as [|z r IH]; simpl; auto. rewrite (N z) by (right; left; auto).
          apply IH. intros w [<-|Hw]; apply N; [left|right; right]; auto. }
      + rewrite app_nil_r. reflexivity.
    - simpl. rewrite IH; auto. 2: { intros; apply Hq; auto. right; auto. } destruct (q y); reflexivity.
  Qed.

  Lemma isort_spec l : allP l ->
    StronglySorted kle (isort lt l) /\ allP (isort lt l) /\
    (forall q : K * X -> bool,
       (forall x y, In x l -> In y l -> q x = true -> q y = true -> lt (fst x) (fst y) = false) ->
       filter q (isort lt l) = filter q l).
  Proof.
    unfold isort.
    assert (G : forall l acc, allP l -> allP acc -> StronglySorted kle acc ->
       let r := fold_left (fun acc x => insert lt x acc) l acc in
       StronglySorted kle r /\ allP r /\
       (forall q : K * X -> bool,
          (forall x y, In x (acc ++ l) -> In y (acc ++ l) -> q x = true -> q y = true -> lt (fst x) (fst y) = false) ->
          filter q r = filter q acc ++ filter q l)).
    { clear l. induction l as [|x l IH]; simpl; intros acc Hl Ha Hs.
      - split; [auto|split; auto]. intros q _. rewrite app_nil_r. reflexivity.
      - apply Forall_cons_iff in Hl as [Px Pl].
        destruct (IH (insert lt x acc)) as (A & B & C); auto.
        + apply insert_allP; auto.
        + apply insert_sorted; auto.
        + split; [exact A|]. split; [exact B|]. intros q Hq. rewrite C.
          * rewrite insert_filter; auto.
            -- rewrite <- app_assoc. destruct (q x); reflexivity.
            -- intros y Hy Qy Qx. apply Hq; auto; apply in_or_app; simpl; auto.
          * assert (I : forall y, In y (insert lt x acc ++ l) -> In y (acc ++ x :: l)).
            { intros y Hy. apply in_app_or in Hy as [Hy|Hy]; apply in_or_app; simpl; auto.
              eapply Permutation_in in Hy; [|symmetry; apply insert_perm]. destruct Hy as [->|Hy]; auto. }
            intros y z Hy Hz. apply Hq; auto. }
    intros H. destruct (G l [] H) as (A & B & C); [constructor|constructor|].
    split; [exact A|]. split; [exact B|]. intros q Hq. rewrite C; auto.
  Qed.
End Generic.

(** ** the key order *)
Definition finite_key (v : vec) : Prop := nanb (vx v) = false /\ nanb (vy v) = false.
Lemma nanb_false n : nanb n = false -> nval n <> XNaN.
Proof. unfold nanb. destruct (nval n); congruence. Qed.

Lemma key_ltb_cases a b : finite_key a -> finite_key b ->
  key_ltb a b = true <-> xlt (nval (vy a)) (nval (vy b)) \/ (xeq (nval (vy a)) (nval (vy b)) /\ xlt (nval (vx a)) (nval (vx b))).
Proof.
  intros [Fa Fa'] [Fb Fb']. unfold key_ltb. destruct (neqb (vy a) (vy b)) eqn:E.
  - apply neqb_spec in E. rewrite nltb_spec. split; [auto|]. intros [H|[_ H]]; auto.
    exfalso. apply (xlt_irrefl (nval (vy b))). eapply xlt_eq_l; [apply xeq_sym; exact E|exact H].
  - rewrite nltb_spec. split; [auto|]. intros [H|[H _]]; auto. apply neqb_spec in H. congruence.
Qed.
Lemma key_le_cases a b : finite_key a -> finite_key b ->
  key_ltb b a = false <-> xlt (nval (vy a)) (nval (vy b)) \/
    (xeq (nval (vy a)) (nval (vy b)) /\ (xlt (nval (vx a)) (nval (vx b)) \/ xeq (nval (vx a)) (nval (vx b)))).
Proof.
  intros Fa Fb. pose proof (key_ltb_cases b a Fb Fa) as C. destruct Fa as [Fa Fa'], Fb as [Fb Fb'].
  destruct (xcmp_total (nval (vy a)) (nval (vy b))) as [Y|[Y|Y]]; try (apply nanb_false; auto);
  destruct (xcmp_total (nval (vx a)) (nval (vx b))) as [X|[X|X]]; try (apply nanb_false; auto);
  (destruct (key_ltb b a) eqn:E; [split; [discriminate|]; intros H; exfalso|split; [intros _|auto]; tauto || (exfalso; assert (false = true) by (apply C; eauto using xeq_sym); discriminate)]);
  destruct C as [C _]; destruct (C eq_refl) as [D|[D D']]; clear C;
  repeat match goal with
  | H : _ \/ _ |- _ => destruct H
  | H : _ /\ _ |- _ => destruct H
  end;
  first [ eapply xlt_irrefl; eapply xlt_trans; eassumption
        | eapply xlt_irrefl; eapply xlt_eq_l; eassumption
        | eapply xlt_irrefl; eapply xlt_eq_r; eassumption
        | eapply xlt_irrefl; eapply xlt_eq_l; [apply xeq_sym|]; eassumption
        | eapply xlt_irrefl; eapply xlt_eq_r; [|apply xeq_sym]; eassumption
        | idtac ].
Qed.
Lemma key_asym a b : finite_key a -> finite_key b -> key_ltb a b = true -> key_ltb b a = false.
Proof.
  intros Fa Fb H. apply key_le_cases; auto. apply key_ltb_cases in H; auto. tauto.
Qed.
Lemma key_letrans a b c : finite_key a -> finite_key b -> finite_key c ->
  key_ltb b a = false -> key_ltb c b = false -> key_ltb c a = false.
Proof.
  intros Fa Fb Fc H1 H2. apply key_le_cases in H1, H2; auto. apply key_le_cases; auto.
  destruct H1 as [H1|[H1 H1']], H2 as [H2|[H2 H2']].
  - left. eapply xlt_trans; eauto.
  - left. eapply xlt_eq_r; eauto.
  - left. eapply xlt_eq_l; eauto.
  - right. split; [eapply xeq_trans; eauto|].
    destruct H1' as [H1'|H1'], H2' as [H2'|H2']; [left; eapply xlt_trans|left; eapply xlt_eq_r|left; eapply xlt_eq_l|right; eapply xeq_trans]; eauto.
Qed.
Lemma veqb_not_lt a b : veqb a b = true -> key_ltb a b = false.
Proof.
  unfold veqb, key_ltb. intros H. apply andb_true_iff in H as [H1 H2]. rewrite H2. apply neqb_nltb, H1.
Qed.
