(** * The state invariant and its preservation by every API operation. *)
From Coq Require Import Lia Permutation.
From Verif Require Import Py Num NumFacts Util SpecUtil UtilFacts Classes Mixins Entity World WorldFacts SetFacts.

(** no two entries denote the same wire *)
Definition wires_distinct (l : list conn) : Prop :=
  forall i j a b, nth_error l i = Some a -> nth_error l j = Some b -> i <> j -> ~ same_wire a b.

Record inv (w : world) : Prop := mkInv {
  inv_owner : forall b x i, blu w b = Some x -> In i (b_objs x) ->
              exists e, ent w i = Some e /\ e_layer e = Some b;
  inv_nodup : forall b x, blu w b = Some x -> NoDup (b_objs x);
  inv_tiles : forall b x, blu w b = Some x -> b_tiles x = [];
  inv_conns : forall b x c i, blu w b = Some x -> In c (b_conns x) ->
              c_from c = Some i \/ c_to c = Some i -> exists e, ent w i = Some e;
  inv_scheds : forall b x s i, blu w b = Some x -> In s (b_scheds x) -> In i (fst s) ->
               exists e, ent w i = Some e;
  inv_layer : forall i e b, ent w i = Some e -> e_layer e = Some b -> exists x, blu w b = Some x }.

Definition wires_ok (w : world) : Prop := forall b x, blu w b = Some x -> wires_distinct (b_conns x).

(** ** Elementary updates *)
(** updating entities without touching the layer *)
Lemma inv_upd_ent i f w : (forall e, e_layer (f e) = e_layer e) -> inv w -> inv (upd_ent i f w).
Proof.
  intros Hf [H1 H2 H3 H4 H5 H6].
  assert (E : forall j e, ent w j = Some e -> exists e', ent (upd_ent i f w) j = Some e' /\ e_layer e' = e_layer e).
  { intros j e He. rewrite ent_upd, He. destruct (Nat.eqb i j); simpl; eauto. }
  split; intros; rewrite ?blu_upd_ent in *.
  - destruct (H1 _ _ _ H H0) as (e & He & Hl). destruct (E _ _ He) as (e' & ? & ?).
    exists e'; split; congruence.
  - eauto.
  - eauto.
  - destruct (H4 _ _ _ _ H H0 H7) as (e & He). destruct (E _ _ He) as (e' & ? & ?). eauto.
  - destruct (H5 _ _ _ _ H H0 H7) as (e & He). destruct (E _ _ He) as (e' & ? & ?). eauto.
  - rewrite ent_upd in H. destruct (Nat.eqb i i0).
    + destruct (ent w i0) as [e0|] eqn:E0; [|discriminate]. injection H as <-.
      rewrite Hf in H0. eauto.
    + eauto.
Qed.
Lemma inv_reindex i l w : inv w -> inv (reindex i l w).
Proof.
  revert i w. induction l; simpl; intros i w H; auto. apply IHl, inv_upd_ent; auto.
Qed.
Lemma wires_bps w w' : w_bps w' = w_bps w -> wires_ok w -> wires_ok w'.
Proof. unfold wires_ok, blu. intros ->. auto. Qed.

(** updating a blueprint *)
Definition bp_fine (w : world) (b : nat) (x : bp) : Prop :=
  (forall i, In i (b_objs x) -> exists e, ent w i = Some e /\ e_layer e = Some b) /\
  NoDup (b_objs x) /\ b_tiles x = [] /\
  (forall c i, In c (b_conns x) -> c_from c = Some i \/ c_to c = Some i -> exists e, ent w i = Some e) /\
  (forall s i, In s (b_scheds x) -> In i (fst s) -> exists e, ent w i = Some e).

Lemma inv_bp w b x : inv w -> blu w b = Some x -> bp_fine w b x.
Proof.
  intros [H1 H2 H3 H4 H5 H6] Hx. unfold bp_fine. intuition eauto.
Qed.
Lemma inv_upd_bp b f w : inv w -> (forall x, blu w b = Some x -> bp_fine w b (f x)) -> inv (upd_bp b f w).
Proof.
  intros [H1 H2 H3 H4 H5 H6] Hf.
  assert (B : forall c x, blu (upd_bp b f w) c = Some x -> bp_fine w c x).
  { intros c x. rewrite blu_upd. destruct (Nat.eqb_spec b c) as [->|].
    - destruct (blu w c) eqn:E; simpl; [|discriminate]. intros [= <-]. auto.
    - intros H. eapply inv_bp; eauto. constructor; auto. }
  split; intros; rewrite ?ent_upd_bp in *; try (specialize (B _ _ H); unfold bp_fine in B);
    try (destruct B as (B1 & B2 & B3 & B4 & B5); eauto).
  destruct (H6 _ _ _ H H0) as (x & Hx). rewrite blu_upd, Hx. destruct (Nat.eqb b b0); simpl; eauto.
Qed.
(** changes that matter to no invariant *)
Lemma inv_upd_bp_meta b f w : inv w ->
  (forall x, b_objs (f x) = b_objs x /\ b_tiles (f x) = b_tiles x /\
             b_conns (f x) = b_conns x /\ b_scheds (f x) = b_scheds x) -> inv (upd_bp b f w).
Proof.
  intros H Hf. apply inv_upd_bp; auto. intros x Hx. destruct (inv_bp _ _ _ H Hx) as (B1 & B2 & B3 & B4 & B5).
  destruct (Hf x) as (E1 & E2 & E3 & E4). unfold bp_fine. rewrite E1, E2, E3, E4. auto.
Qed.
Lemma wires_upd_bp b f w : wires_ok w -> (forall x, blu w b = Some x -> wires_distinct (b_conns (f x))) ->
  wires_ok (upd_bp b f w).
Proof.
  intros H Hf c x. rewrite blu_upd. destruct (Nat.eqb_spec b c) as [->|]; [|apply H].
  destruct (blu w c) eqn:E; simpl; [|discriminate]. intros [= <-]. auto.
Qed.
Lemma wires_upd_bp_meta b f w : wires_ok w -> (forall x, b_conns (f x) = b_conns x) -> wires_ok (upd_bp b f w).
Proof. intros H Hf. apply wires_upd_bp; auto. intros x Hx. rewrite Hf. eapply H; eauto. Qed.
Lemma wires_reindex i l w : wires_ok w -> wires_ok (reindex i l w).
Proof. apply wires_bps, reindex_bps. Qed.

Lemma inv_new_ent e w : inv w -> (forall b, e_layer e = Some b -> exists x, blu w b = Some x) -> inv (new_ent e w).
Proof.
  intros [H1 H2 H3 H4 H5 H6] He.
  assert (E : forall j e', ent w j = Some e' -> ent (new_ent e w) j = Some e').
  { intros j e' Hj. rewrite ent_new. destruct (Nat.eqb_spec j (length (w_ents w))) as [->|]; auto.
    exfalso. assert (length (w_ents w) < length (w_ents w))%nat; [|lia].
    apply nth_error_Some. unfold ent in Hj. congruence. }
  split; intros.
  - destruct (H1 _ _ _ H H0) as (e' & ? & ?); eauto.
  - eapply H2; eauto.
  - eapply H3; eauto.
  - destruct (H4 _ _ _ _ H H0 H7) as (e' & ?); eauto.
  - destruct (H5 _ _ _ _ H H0 H7) as (e' & ?); eauto.
  - rewrite ent_new in H. destruct (Nat.eqb i (length (w_ents w))).
    + injection H as <-. apply He in H0. exact H0.
    + apply (H6 _ _ _ H H0).
Qed.

(** *** both together *)
Section Keep.
(** wires are only claimed distinct under the condition [Wf] (no recolouring) *)
Variable Wf : Prop.
Definition good (w : world) : Prop := inv w /\ (Wf -> wires_ok w).

Lemma good_upd_ent i f w : (forall e, e_layer (f e) = e_layer e) -> good w -> good (upd_ent i f w).
Proof.
  intros Hf [H W]. split; [apply inv_upd_ent; auto|]. intros F. eapply wires_bps; [|exact (W F)]. reflexivity.
Qed.
Lemma good_reindex i l w : good w -> good (reindex i l w).
Proof. intros [H W]. split; [apply inv_reindex|intros F; apply wires_reindex]; auto. Qed.
Lemma good_meta b f w : good w ->
  (forall x, b_objs (f x) = b_objs x /\ b_tiles (f x) = b_tiles x /\
             b_conns (f x) = b_conns x /\ b_scheds (f x) = b_scheds x) -> good (upd_bp b f w).
Proof.
  intros [H W] Hf. split; [apply inv_upd_bp_meta; auto|]. intros F. apply wires_upd_bp_meta; auto. apply Hf.
Qed.
Lemma good_objs b l w : good w ->
  (forall x, blu w b = Some x -> NoDup l /\ forall i, In i l -> exists e, ent w i = Some e /\ e_layer e = Some b) ->
  good (upd_bp b (b_set_objs l) w).
Proof.
  intros [H W] Hl. split; [|intros F; apply wires_upd_bp_meta; auto].
  apply inv_upd_bp; auto. intros x Hx. destruct (inv_bp _ _ _ H Hx) as (B1 & B2 & B3 & B4 & B5).
  destruct (Hl x Hx) as [L1 L2]. unfold bp_fine; simpl. auto.
Qed.
Lemma good_conns b l w : good w -> (Wf -> wires_distinct l) ->
  (forall c i, In c l -> c_from c = Some i \/ c_to c = Some i -> exists e, ent w i = Some e) ->
  good (upd_bp b (b_set_conns l) w).
Proof.
  intros [H W] Hd Hl. split; [|intros F; apply wires_upd_bp; auto].
  apply inv_upd_bp; auto. intros x Hx. destruct (inv_bp _ _ _ H Hx) as (B1 & B2 & B3 & B4 & B5).
  unfold bp_fine; simpl. auto.
Qed.

(** ** Sorting *)
Lemma keeps_sort b : keeps good (sort_layer b).
Proof.
  intros w G. unfold sort_layer, mbind, get_bp, gets, modify.
  destruct (blu w b) as [x|] eqn:Hx; simpl; auto.
  destruct (sorted_objs w (b_objs x)) as [l|e] eqn:Hs; simpl; auto.
  apply good_reindex, good_objs; auto. intros x' Hx'.
  assert (x' = x) as -> by congruence. pose proof (sorted_objs_perm _ _ _ Hs) as P.
  destruct G as [I W]. destruct (inv_bp _ _ _ I Hx) as (B1 & B2 & _). split.
  - eapply Permutation_NoDup; eauto.
  - intros i Hi. apply B1. eapply Permutation_in; [symmetry|]; eauto.
Qed.

(** ** add / remove / make *)
Lemma mem_nat_In i l : mem_nat i l = true <-> In i l.
Proof.
  unfold mem_nat. rewrite existsb_exists. split.
  - intros (x & Hx & E). apply Nat.eqb_eq in E. congruence.
  - intros H. exists i. split; auto. apply Nat.eqb_refl.
Qed.
Lemma remove1_In i l j : NoDup l -> (In j (remove1 i l) <-> In j l /\ j <> i).
Proof.
  induction 1 as [|x r Hx Hr IH]; simpl; [tauto|].
  destruct (Nat.eqb_spec i x) as [->|N].
  - split; [intros H; split; auto; intros ->; tauto|]. intros [[->|H] D]; tauto.
  - simpl. rewrite IH. split.
    + intros [->|[A B]]; split; auto.
    + intros [[->|A] B]; auto.
Qed.
Lemma remove1_NoDup i l : NoDup l -> NoDup (remove1 i l).
Proof.
  intros H. induction H as [|x r Hx Hr IH]; simpl; [constructor|].
  destruct (Nat.eqb i x); auto. constructor; auto. intros A. apply remove1_In in A; auto. tauto.
Qed.

Lemma keeps_drop b i : keeps good (drop_obj b i).
Proof.
  intros w G. unfold drop_obj, mbind, get_bp, gets, modify, raise.
  destruct (blu w b) as [x|] eqn:Hx; simpl; auto.
  destruct (mem_nat i (b_objs x)) eqn:Hm; simpl; auto.
  destruct G as [I W]. pose proof (inv_bp _ _ _ I Hx) as (B1 & B2 & B3 & B4 & B5).
  split.
  - destruct I as [H1 H2 H3 H4 H5 H6].
    set (w1 := upd_bp b (b_set_objs (remove1 i (b_objs x))) w).
    assert (E : forall j, ent w1 j = ent w j) by reflexivity.
    assert (D : forall j, ent (upd_ent i (with_layer None) w1) j =
                          if Nat.eqb i j then option_map (with_layer None) (ent w j) else ent w j).
    { intros j. rewrite ent_upd, E. reflexivity. }
    assert (F : forall j e, ent w j = Some e -> exists e', ent (upd_ent i (with_layer None) w1) j = Some e').
    { intros j e He. rewrite D, He. destruct (Nat.eqb i j); simpl; eauto. }
    assert (Bw : forall c y, blu (upd_ent i (with_layer None) w1) c = Some y ->
                 exists y0, blu w c = Some y0 /\ b_tiles y = b_tiles y0 /\ b_conns y = b_conns y0 /\
                            b_scheds y = b_scheds y0 /\
                            b_objs y = if Nat.eqb b c then remove1 i (b_objs x) else b_objs y0).
    { intros c y. rewrite blu_upd_ent. unfold w1. rewrite blu_upd. destruct (Nat.eqb b c).
      - destruct (blu w c); simpl; [|discriminate]. intros [= <-]. eexists; simpl; eauto.
      - intros Hy. exists y; auto. }
    split; intros.
    + destruct (Bw _ _ H) as (y0 & Hy0 & _ & _ & _ & Ho). rewrite Ho in H0.
      destruct (Nat.eqb_spec b b0) as [<-|Hn].
      * apply remove1_In in H0; auto. destruct H0 as [Hi Hne]. destruct (B1 _ Hi) as (e & He & Hl).
        exists e. rewrite D. destruct (Nat.eqb_spec i i0); [congruence|auto].
      * destruct (H1 _ _ _ Hy0 H0) as (e & He & Hl). exists e. rewrite D.
        destruct (Nat.eqb_spec i i0) as [->|]; auto. exfalso.
        apply mem_nat_In in Hm. destruct (B1 _ Hm) as (e2 & He2 & Hl2). congruence.
    + destruct (Bw _ _ H) as (y0 & Hy0 & _ & _ & _ & Ho). rewrite Ho.
      destruct (Nat.eqb b b0); [apply remove1_NoDup; auto|eauto].
    + destruct (Bw _ _ H) as (y0 & Hy0 & Ht & _ & _ & Ho). rewrite Ht. eauto.
    + destruct (Bw _ _ H) as (y0 & Hy0 & _ & Hc & _ & Ho). rewrite Hc in H0.
      destruct (H4 _ _ _ _ Hy0 H0 H7) as (e & He). eauto.
    + destruct (Bw _ _ H) as (y0 & Hy0 & _ & _ & Hs & Ho). rewrite Hs in H0.
      destruct (H5 _ _ _ _ Hy0 H0 H7) as (e & He). eauto.
    + rewrite D in H. assert (exists x0, blu w b0 = Some x0) as (x0 & Hx0).
      { destruct (Nat.eqb i i0); [|eauto]. destruct (ent w i0); [|discriminate].
        injection H as <-. discriminate. }
      rewrite blu_upd_ent. unfold w1. rewrite blu_upd, Hx0. destruct (Nat.eqb b b0); simpl; eauto.
  - intros F. eapply wires_bps; [reflexivity|]. apply wires_upd_bp_meta; auto.
Qed.

Lemma keeps_add b o : keeps good (layer_add b o).
Proof.
  destruct o as [i|]; [|apply keeps_raise].
  intros w G. unfold layer_add, mbind at 1. simpl.
  destruct (ent w i) as [e|] eqn:He; simpl; auto. unfold mbind at 1; simpl.
  destruct (blu w b) as [x|] eqn:Hx; simpl; auto.
  destruct (negb _ && negb _) eqn:Hd; simpl; auto.
  destruct (mem_nat i (b_objs x)) eqn:Hm; simpl; auto.
  unfold mbind, modify. apply keeps_sort.
  assert (HL : e_layer e = None \/ e_layer e = Some b).
  { destruct (e_layer e) as [c|]; auto. right. simpl in Hd.
    destruct (Nat.eqb_spec c b); [congruence|discriminate]. }
  assert (Hn : ~ In i (b_objs x)) by (rewrite <- mem_nat_In; congruence).
  (* first set the layer, then list it: the updates commute *)
  set (w1 := upd_ent i (with_layer (Some b)) w).
  change (good (upd_bp b (b_set_objs (b_objs x ++ [i])) w1)).
  destruct G as [I W].
  assert (D : forall j, ent w1 j = if Nat.eqb i j then option_map (with_layer (Some b)) (ent w j) else ent w j).
  { intros j. apply ent_upd. }
  assert (G1 : good w1).
  { split.
    - destruct I as [H1 H2 H3 H4 H5 H6].
      assert (F : forall j e, ent w j = Some e -> exists e', ent w1 j = Some e').
      { intros j e0 He0. rewrite D, He0. destruct (Nat.eqb i j); simpl; eauto. }
      assert (Bw : forall c, blu w1 c = blu w c) by reflexivity.
      split; intros; rewrite ?Bw in *.
      + destruct (H1 _ _ _ H H0) as (e0 & He0 & Hl0). rewrite D.
        destruct (Nat.eqb_spec i i0) as [<-|]; [|eauto].
        rewrite He0. simpl. eexists; split; [reflexivity|].
        simpl. assert (e0 = e) as -> by congruence. destruct HL as [HL|HL]; congruence.
      + eauto.
      + eauto.
      + destruct (H4 _ _ _ _ H H0 H7) as (e0 & He0). eauto.
      + destruct (H5 _ _ _ _ H H0 H7) as (e0 & He0). eauto.
      + rewrite D in H. destruct (Nat.eqb i i0); [|eauto].
        destruct (ent w i0); [|discriminate]. injection H as <-. simpl in H0. injection H0 as <-. eauto.
    - intros F. eapply wires_bps; [|exact (W F)]. reflexivity. }
  apply good_objs; auto. intros x' Hx'. assert (x' = x) as -> by (change (blu w b = Some x') in Hx'; congruence).
  destruct G1 as [I1 W1]. destruct (inv_bp _ _ _ I1 Hx') as (B1 & B2 & _). split.
  - eapply Permutation_NoDup; [apply Permutation_cons_append|]. constructor; auto.
  - intros j Hj. apply in_app_or in Hj as [Hj|[<-|[]]]; auto.
    exists (with_layer (Some b) e). rewrite D, Nat.eqb_refl, He. auto.
Qed.

(** ** construction *)
Lemma set_name_layer p cust v e : e_layer (fst (set_name p cust v e)) = e_layer e.
Proof.
  unfold set_name. destruct (negb (e_strict e)); [destruct v; reflexivity|].
  destruct (in_table v (p_entity p)) as [[]|]; try reflexivity.
  destruct v; try reflexivity.
  match goal with |- context [match ?t with Ok _ => _ | Err _ => _ end] => destruct t end; reflexivity.
Qed.
Lemma construct_layer p cust l kw e : snd (construct p cust l kw) = Ok e -> e_layer e = l.
Proof.
  unfold construct. destruct (_ || _); [discriminate|].
  destruct (dget "name" kw) as [n|]; [|discriminate].
  destruct (dget "position" kw) as [q|]; [|discriminate].
  match goal with |- context [set_name p cust n ?e0] => set (e0' := e0);
    pose proof (set_name_layer p cust n e0') as HN; destruct (set_name p cust n e0') as [e1 [u|x]] end;
    [|discriminate]. simpl in HN.
  destruct (vec_of_val q) as [pos|]; [|discriminate]. cbn [bind].
  destruct (dir_of_val _) as [dir|]; [|discriminate]. cbn [bind].
  destruct (dget "control_behavior" kw) as [cb|].
  - destruct (as_kwargs cb) as [cbkw|]; [|discriminate].
    destruct (dmem "self" cbkw || dmem "_entity" cbkw); [discriminate|].
    destruct (cb_init_chain _ _ _ _ _ _) as [st [a|x]]; [|discriminate].
    simpl. destruct (init_chain _ _ _ _ _ _); simpl; [|discriminate]. intros [= <-]. simpl. auto.
  - simpl. destruct (init_chain _ _ _ _ _ _); simpl; [|discriminate]. intros [= <-]. simpl. auto.
Qed.

Lemma keeps_new_entity l kw : keeps good (new_entity l kw).
Proof.
  intros w G. unfold new_entity. rewrite mbind_fst.
  destruct l as [b|]; simpl.
  - unfold mbind; simpl. destruct (blu w b) as [x|] eqn:Hx; simpl; auto.
    destruct (snd (construct (w_protos w) (b_custom x) (Some b) kw)) as [e|] eqn:E; simpl; auto.
    destruct G as [I W]. split; [apply inv_new_ent|]; auto.
    apply construct_layer in E. intros c Hc. rewrite E in Hc. injection Hc as <-. eauto.
  - destruct (snd (construct (w_protos w) [] None kw)) as [e|] eqn:E; simpl; auto.
    destruct G as [I W]. split; [apply inv_new_ent|]; auto.
    apply construct_layer in E. congruence.
Qed.
Lemma keeps_make b kw : keeps good (layer_make b kw).
Proof.
  apply keeps_bind; [apply keeps_new_entity|]. intros i.
  apply keeps_bind; [apply keeps_add|]. intros _. apply keeps_ret.
Qed.

(** ** wires *)
Lemma wires_distinct_snoc l c : wires_distinct l -> (forall d, In d l -> ~ same_wire c d) ->
  wires_distinct (l ++ [c]).
Proof.
  intros H Hc i j a b Ha Hb N.
  assert (X : forall k d, nth_error (l ++ [c]) k = Some d ->
              (k < length l)%nat /\ nth_error l k = Some d \/ k = length l /\ d = c).
  { intros k d Hk. destruct (Nat.lt_ge_cases k (length l)) as [L|L].
    - rewrite nth_error_app1 in Hk; auto.
    - rewrite nth_error_app2 in Hk by auto. right. destruct (k - length l)%nat eqn:E.
      + simpl in Hk. injection Hk as <-. split; [lia|reflexivity].
      + simpl in Hk. destruct n; discriminate. }
  destruct (X _ _ Ha) as [[La Ea]|[-> ->]]; destruct (X _ _ Hb) as [[Lb Eb]|[-> ->]].
  - eapply H; eauto.
  - intros S. apply (Hc a); [eapply nth_error_In; eauto|apply same_wire_sym; auto].
  - apply Hc. eapply nth_error_In; eauto.
  - congruence.
Qed.
Lemma wires_distinct_map f l : (forall c, same_wire (f c) c) -> wires_distinct l -> wires_distinct (map f l).
Proof.
  intros Hf H i j a b Ha Hb N S.
  rewrite nth_error_map in Ha, Hb.
  destruct (nth_error l i) as [a0|] eqn:Ea; [|discriminate]. destruct (nth_error l j) as [b0|] eqn:Eb; [|discriminate].
  injection Ha as <-. injection Hb as <-. apply (H i j a0 b0 Ea Eb N).
  eapply same_wire_trans; [apply same_wire_sym, Hf|]. eapply same_wire_trans; [exact S|apply Hf].
Qed.
Lemma not_existsb_wire c l : existsb (fun d => conn_eqb c d) l = false -> forall d, In d l -> ~ same_wire c d.
Proof.
  intros H d Hd S. apply conn_eqb_spec in S.
  assert (existsb (fun d => conn_eqb c d) l = true); [|congruence].
  apply existsb_exists. eauto.
Qed.
Lemma conn_new_ends f t fs ts col c : conn_new f t fs ts col = Ok c -> c_from c = f /\ c_to c = t /\ c_color c = col.
Proof.
  unfold conn_new. destruct (py_int fs); [|discriminate]. simpl. destruct (py_int ts); [|discriminate].
  simpl. intros [= <-]. auto.
Qed.

(** entity arguments of operations denote existing objects *)
Definition live (w : world) (o : option nat) : Prop := match o with Some i => exists e, ent w i = Some e | None => True end.
Lemma keeps_connect e t fs ts col w : good w -> live w t -> good (fst (connect e t fs ts col w)).
Proof.
  intros G L. unfold connect, mbind, get_ent, gets, get_bp, modify, raise, ret; simpl.
  destruct (ent w e) as [en|] eqn:He; simpl; auto.
  destruct (conn_new (Some e) t fs ts col) as [c|] eqn:Hc; simpl; auto.
  destruct (e_layer en) as [b|]; simpl; auto.
  destruct (blu w b) as [x|] eqn:Hx; simpl; auto.
  destruct (existsb _ (b_conns x)) eqn:Hm; simpl; auto.
  destruct (conn_new_ends _ _ _ _ _ _ Hc) as (Ef & Et & _).
  apply good_conns; auto.
  - intros F. apply wires_distinct_snoc; [destruct G as [I W]; eapply W; eauto|].
    apply not_existsb_wire; auto.
  - intros d i Hd Hi. apply in_app_or in Hd as [Hd|[<-|[]]].
    + destruct G as [I W]. eapply inv_conns; eauto.
    + destruct Hi as [Hi|Hi]; [rewrite Ef in Hi; injection Hi as <-; eauto|].
      rewrite Et in Hi. rewrite Hi in L. exact L.
Qed.

Lemma turn_wire e c : same_wire (turn_towards e c) c.
Proof.
  unfold turn_towards. destruct (attached_to c e); [apply same_wire_orientate|apply same_wire_refl].
Qed.
Lemma turn_ends e c i : c_from (turn_towards e c) = Some i \/ c_to (turn_towards e c) = Some i ->
  c_from c = Some i \/ c_to c = Some i.
Proof.
  unfold turn_towards, orientate, conn_flip. destruct (attached_to c e); auto.
  destruct (end_eqb (c_to c) (Some e)); simpl; tauto.
Qed.
Lemma keeps_get_connections e : keeps good (get_connections e).
Proof.
  intros w G. unfold get_connections, mbind, get_ent, gets, get_bp, modify, raise; simpl.
  destruct (ent w e) as [en|] eqn:He; simpl; auto.
  destruct (e_layer en) as [b|]; simpl; auto.
  destruct (blu w b) as [x|] eqn:Hx; simpl; auto.
  destruct G as [I W]. apply good_conns; [split; auto| |].
  - intros F. apply wires_distinct_map; [apply turn_wire|]. eapply W; eauto.
  - intros c i Hc Hi. apply in_map_iff in Hc as (d & <- & Hd). apply turn_ends in Hi.
    eapply inv_conns; eauto.
Qed.

(** ** export *)
Lemma keeps_connections_to_json e : keeps good (connections_to_json e).
Proof. apply keeps_bind; [apply keeps_get_connections|]. intros. apply keeps_gets. Qed.
Lemma keeps_ent_json i : keeps good (ent_json i).
Proof.
  apply keeps_bind; [apply keeps_gets|]. intros e.
  destruct (e_pos e); [|apply keeps_raise]. apply keeps_bind; [apply keeps_connections_to_json|].
  intros. apply keeps_gets.
Qed.
Lemma keeps_bp_json b : keeps good (bp_json b).
Proof.
  apply keeps_bind; [apply keeps_gets|]. intros x.
  apply keeps_bind.
  - apply keeps_bind; [apply keeps_gets|]. intros y. apply keeps_bind; [|intros; apply keeps_ret].
    apply keeps_mapMM. intros; apply keeps_ent_json.
  - intros es. apply keeps_bind; [apply keeps_gets|]. intros ic. apply keeps_bind; [apply keeps_gets|].
    intros sc. apply keeps_ret.
Qed.

(** ** rotation *)
Lemma entity_rotate_layer n a cw e : e_layer (fst (entity_rotate n a cw e)) = e_layer e.
Proof.
  unfold entity_rotate. destruct (e_pos e) as [v|]; auto.
  match goal with |- context [match ?t with Ok _ => _ | Err _ => _ end] => destruct t end; auto.
  match goal with |- context [rotate_chain ?x ?y ?z] => destruct (rotate_chain x y z) as [[d at'] r] end.
  reflexivity.
Qed.
Lemma keeps_rotate_ent n a r i : keeps good (rotate_ent n a r i).
Proof.
  intros w G. unfold rotate_ent. destruct (ent w i) as [e|] eqn:He; simpl; auto.
  pose proof (entity_rotate_layer n a (ent_cw r) e) as HL.
  destruct (entity_rotate n a (ent_cw r) e) as [e' o]. simpl in *.
  (* the update is constant: it is only applied at i *)
  assert (G1 : good (upd_ent i (fun e0 => with_layer (e_layer e0) e') w)) by (apply good_upd_ent; auto).
  replace (upd_ent i (fun _ => e') w) with (upd_ent i (fun e0 => with_layer (e_layer e0) e') w); auto.
  unfold upd_ent. f_equal. unfold ent in He. revert He. generalize (w_ents w). clear -HL.
  induction i; destruct l; simpl; intros H; try discriminate; auto.
  - injection H as ->. f_equal. rewrite <- HL. destruct e'; reflexivity.
  - f_equal. auto.
Qed.
Lemma keeps_layer_rotate b n a r : keeps good (layer_rotate b n a r).
Proof.
  apply keeps_bind; [apply keeps_gets|]. intros x. apply keeps_bind; [|intros; apply keeps_sort].
  apply keeps_forM. intros; apply keeps_rotate_ent.
Qed.
Lemma keeps_tiles_rotate b n a r : keeps good (tiles_rotate b n a r).
Proof.
  intros w G. unfold tiles_rotate, mbind, get_bp, gets, modify; simpl.
  destruct (blu w b) as [x|] eqn:Hx; simpl; auto.
  pose proof G as [I W]. destruct (inv_bp _ _ _ I Hx) as (B1 & B2 & B3 & B4 & B5). rewrite B3. simpl.
  assert (T : forall w, good w -> good (upd_bp b (b_set_tiles []) w)).
  { intros w1 [I1 W1]. split; [|intros F; apply wires_upd_bp_meta; auto]. apply inv_upd_bp; auto.
    intros y Hy. destruct (inv_bp _ _ _ I1 Hy) as (C1 & C2 & C3 & C4 & C5). unfold bp_fine; simpl; auto. }
  assert (T2 : forall w, good w -> good (upd_bp b (fun x => b_set_tiles (sort_tiles (b_tiles x)) x) w)).
  { intros w1 [I1 W1]. split; [|intros F; apply wires_upd_bp_meta; auto]. apply inv_upd_bp; auto.
    intros y Hy. destruct (inv_bp _ _ _ I1 Hy) as (C1 & C2 & C3 & C4 & C5). unfold bp_fine; simpl.
    rewrite C3. auto. }
  apply T2, T, G.
Qed.

(** ** load *)
Lemma keeps_load_entities b cust l : forall w, good w -> (exists x, blu w b = Some x) ->
  good (fst (fst (load_entities b cust l w))) /\ exists x, blu (fst (fst (load_entities b cust l w))) b = Some x.
Proof.
  induction l as [|v r IH]; simpl; intros w G (x & Hx); eauto.
  destruct v; simpl; eauto.
  pose proof (construct_layer (w_protos w) cust (Some b) d) as HL.
  destruct (construct (w_protos w) cust (Some b) d) as [kw' [e|y]]; simpl; [|eauto].
  specialize (HL e eq_refl).
  set (w1 := upd_bp b (fun x => b_set_objs (b_objs x ++ [length (w_ents w)]) x) (new_ent e w)).
  assert (G1 : good w1 /\ exists x, blu w1 b = Some x).
  { split.
    - destruct G as [I W].
      assert (G0 : good (new_ent e w)).
      { split; [apply inv_new_ent|]; auto. intros c Hc. rewrite HL in Hc. injection Hc as <-. eauto. }
      assert (Hb0 : blu (new_ent e w) b = Some x) by exact Hx.
      replace w1 with (upd_bp b (b_set_objs (b_objs x ++ [length (w_ents w)])) (new_ent e w)).
      2: { unfold w1, upd_bp. f_equal. unfold blu in Hb0. revert Hb0. generalize (w_bps (new_ent e w)).
           clear. induction b; destruct l; simpl; intros H; try discriminate; auto.
           - injection H as ->. reflexivity.
           - f_equal. auto. }
      apply good_objs; auto. intros x' Hx'. assert (x' = x) as -> by congruence.
      destruct (inv_bp _ _ _ I Hx) as (B1 & B2 & _). split.
      + eapply Permutation_NoDup; [apply Permutation_cons_append|]. constructor; auto.
        intros Hin. destruct (B1 _ Hin) as (e0 & He0 & _).
        assert (length (w_ents w) < length (w_ents w))%nat; [|lia]. apply nth_error_Some. unfold ent in He0. congruence.
      + intros j Hj. apply in_app_or in Hj as [Hj|[<-|[]]].
        * destruct (B1 _ Hj) as (e0 & He0 & Hl0). exists e0. rewrite ent_new.
          destruct (Nat.eqb_spec j (length (w_ents w))) as [->|]; auto. exfalso.
          assert (length (w_ents w) < length (w_ents w))%nat; [|lia]. apply nth_error_Some. unfold ent in He0. congruence.
        * exists e. rewrite ent_new, Nat.eqb_refl. auto.
    - unfold w1. rewrite blu_upd, Nat.eqb_refl. change (blu (new_ent e w) b) with (blu w b). rewrite Hx. simpl. eauto. }
  destruct G1 as [G1 B1]. specialize (IH w1 G1 B1). destruct (load_entities b cust r w1) as [[w2 r'] o].
  exact IH.
Qed.

Lemma find_number_live w n l i : find_number w n l = Some i -> In i l.
Proof.
  induction l as [|x r IH]; simpl; [discriminate|]. destruct (ent w x); auto.
  destruct (py_eqb _ _); auto. intros [= ->]. auto.
Qed.
Lemma get_by_id_live w b n : inv w -> live w (get_entity_by_id w b n).
Proof.
  intros I. unfold get_entity_by_id. destruct (blu w b) as [x|] eqn:Hx; simpl; auto.
  destruct (find_number w n (b_objs x)) as [i|] eqn:E; simpl; auto.
  apply find_number_live in E. destruct (inv_owner _ I _ _ _ Hx E) as (e & He & _). eauto.
Qed.

Definition conns_fine (w : world) (l : list conn) : Prop :=
  wires_distinct l /\
  forall c i, In c l -> c_from c = Some i \/ c_to c = Some i -> exists e, ent w i = Some e.
Lemma parse_conns_fine w b l : inv w -> (forall i, In i l -> exists e, ent w i = Some e) ->
  conns_fine w (fst (foldE (parse_entity w b) l [])).
Proof.
  intros I Hl. apply foldE_inv.
  2: { split; [|intros ? ? []]. intros i j a c Ha. destruct i; discriminate. }
  intros acc i Hi Hacc. unfold parse_entity. destruct (Hl _ Hi) as (e & He). rewrite He.
  assert (S : forall raw, conns_fine w (fst (match items_of raw with Err x => (acc, Err x)
                                           | Ok d => foldE (parse_side w b i) d acc end))).
  { intros raw. destruct (items_of raw) as [d|]; [|exact Hacc].
    apply foldE_inv; auto. clear acc Hacc. intros acc [side v] _ Hacc. unfold parse_side. simpl.
    destruct (items_of v) as [d'|]; [|exact Hacc].
    apply foldE_inv; auto. clear acc Hacc. intros acc [col v'] _ Hacc. unfold parse_color. simpl.
    destruct (iter_val v') as [l'|]; [|exact Hacc].
    apply foldE_inv; auto. clear acc Hacc. intros acc c _ Hacc. unfold parse_one.
    match goal with |- context [match ?t with Ok _ => _ | Err _ => _ end] => destruct t as [n|] eqn:En end; [|exact Hacc].
    simpl. destruct (getitem c "entity_id") as [id|]; [|discriminate]. simpl in En.
    destruct (getdef c "circuit_id" (VStr "1")) as [ci|]; [|discriminate]. simpl in En.
    destruct (key_str col) as [cs|]; [|discriminate]. simpl in En.
    apply conn_new_ends in En as (Ef & Et & _).
    destruct (existsb _ acc) eqn:Ex; [exact Hacc|]. destruct Hacc as [D V]. split.
    - apply wires_distinct_snoc; auto. apply not_existsb_wire, Ex.
    - intros c' j Hc' Hj. apply in_app_or in Hc' as [Hc'|[<-|[]]]; [eauto|].
      destruct Hj as [Hj|Hj]; [rewrite Ef in Hj; injection Hj as <-; eauto|].
      rewrite Et in Hj. pose proof (get_by_id_live w b id I) as L. rewrite Hj in L. exact L. }
  destruct (e_raw e); try apply S. exact Hacc.
Qed.
Lemma keeps_parse b : keeps good (parse_connections b).
Proof.
  intros w G. unfold parse_connections. rewrite mbind_fst. unfold get_bp, gets; simpl.
  destruct (blu w b) as [x|] eqn:Hx; simpl; auto.
  rewrite mbind_fst. simpl.
  pose proof G as [I W]. destruct (inv_bp _ _ _ I Hx) as (B1 & _).
  pose proof (parse_conns_fine w b (b_objs x) I) as F.
  assert (HV : forall i, In i (b_objs x) -> exists e, ent w i = Some e).
  { intros i Hi. destruct (B1 _ Hi) as (e & He & _). eauto. }
  specialize (F HV). destruct (foldE (parse_entity w b) (b_objs x) []) as [cs r]. simpl in *.
  destruct F as [F1 F2].
  assert (G1 : good (upd_bp b (b_set_conns cs) w)) by (apply good_conns; auto).
  destruct r; simpl; auto.
  apply keeps_forM; auto. intros i _. apply keeps_bind; [apply keeps_get_connections|]. intros; apply keeps_ret.
Qed.

Lemma tile_init_layer tp kw : forall t, tile_init tp ((KS "blueprint_layer", VNone) :: kw) <> Ok t.
Proof.
  intros t. unfold tile_init. cbn [dget key_eqb String.eqb]. simpl.
  destruct (dget "name" kw); [|discriminate]. destruct (in_table v tp); [|discriminate]. simpl.
  destruct (negb a); [discriminate|]. destruct (dget "position" kw); [|discriminate].
  destruct (vec_of_val v0); discriminate.
Qed.
Lemma load_tile_never p acc v : fst (load_tile acc p v) = acc /\ exists e, snd (load_tile acc p v) = Err e.
Proof.
  unfold load_tile. destruct (as_kwargs v) as [kw|]; simpl; eauto.
  destruct (dmem "self" kw || dmem "blueprint_layer" kw); simpl; eauto.
  destruct (tile_init _ _) as [t|] eqn:E; simpl; eauto. apply tile_init_layer in E. tauto.
Qed.
Lemma load_tiles_fst p l acc : fst (foldE (fun acc v => load_tile acc p v) l acc) = acc.
Proof.
  destruct l as [|v r]; auto. simpl. destruct (load_tile_never p acc v) as [H1 [e H2]].
  destruct (load_tile acc p v) as [a o]. simpl in *. subst. reflexivity.
Qed.

Lemma sched_live w b v s i : inv w -> sched_new w b v = Ok s -> In i (fst s) -> exists e, ent w i = Some e.
Proof.
  intros I. unfold sched_new. destruct (as_kwargs v) as [kw|]; [|discriminate]. simpl.
  destruct (dmem "self" kw || dmem "blueprint" kw); [discriminate|].
  destruct (dget "schedule" kw) as [sv|]; [|discriminate].
  destruct (dget "locomotives" kw) as [lv|]; [|discriminate].
  destruct (ddel "locomotives" (ddel "schedule" kw)); [|discriminate].
  destruct (iter_val lv) as [l|]; [|discriminate]. simpl. intros [= <-] Hi. simpl in Hi.
  apply in_flat_map in Hi as (o & Ho & Hi). apply in_map_iff in Ho as (n & <- & _).
  pose proof (get_by_id_live w b n I) as L. destruct (get_entity_by_id w b n) as [j|]; [|destruct Hi].
  destruct Hi as [<-|[]]. exact L.
Qed.

Lemma load_head_bp b data w c : exists f, blu (fst (load_head b data w)) c = option_map f (blu w c).
Proof.
  assert (X : forall (P : world -> Prop), (forall g w, P w -> P (upd_bp b g w)) -> keeps P (load_head b data)).
  { intros P HP. unfold load_head. apply keeps_bind; [apply keeps_modify; auto|]. intros _.
    apply keeps_bind.
    - destruct (dataget data "label_color" VNone); try apply keeps_ret;
        (apply keeps_bind; [apply keeps_gets|]; intros; apply keeps_modify; auto).
    - intros _. apply keeps_bind; [apply keeps_modify; auto|]. intros _. apply keeps_bind; [apply keeps_gets|].
      intros icons w1 H. destruct (foldE _ icons _) as [ic r]. simpl. auto. }
  apply (X (fun w' => exists f, blu w' c = option_map f (blu w c))).
  - intros g w' (f & Hf). rewrite blu_upd. destruct (Nat.eqb b c); [|eauto].
    rewrite Hf. exists (fun x => g (f x)). destruct (blu w c); reflexivity.
  - exists (fun x => x). destruct (blu w c); reflexivity.
Qed.
Lemma keeps_load_head b data : keeps good (load_head b data).
Proof.
  apply keeps_bind; [apply keeps_modify; intros; apply good_meta; auto|]. intros _.
  apply keeps_bind.
  - destruct (dataget data "label_color" VNone); try apply keeps_ret;
      (apply keeps_bind; [apply keeps_gets|]; intros; apply keeps_modify; intros; apply good_meta; auto).
  - intros _. apply keeps_bind; [apply keeps_modify; intros; apply good_meta; auto|]. intros _.
    apply keeps_bind; [apply keeps_gets|].
    intros icons w G. destruct (foldE _ icons _) as [ic r]. simpl. apply good_meta; auto.
Qed.
Lemma good_tiles b f w : good w -> (forall x, blu w b = Some x -> f x = []) ->
  good (upd_bp b (fun x => b_set_tiles (f x) x) w).
Proof.
  intros [I1 W1] Hf. split; [|intros F; apply wires_upd_bp_meta; auto]. apply inv_upd_bp; auto.
  intros y Hy. destruct (inv_bp _ _ _ I1 Hy) as (C1 & C2 & C3 & C4 & C5). unfold bp_fine; simpl; auto.
Qed.
Lemma keeps_load_tail b data : keeps good (load_tail b data).
Proof.
  apply keeps_bind; [apply keeps_sort|]. intros _. apply keeps_bind; [apply keeps_parse|]. intros _.
  apply keeps_bind; [apply keeps_gets|]. intros tiles. intros w G. unfold get_bp, gets, mbind.
  destruct (blu w b) as [x|] eqn:Hx; simpl; auto.
  assert (b_tiles x = []) as Hn by (destruct G as [I W]; eapply inv_tiles; eauto).
  pose proof (load_tiles_fst (w_protos w) tiles (b_tiles x)) as HT.
  destruct (foldE _ tiles _) as [ts r]. simpl in HT. subst ts. rewrite Hn.
  assert (G1 : good (upd_bp b (b_set_tiles []) w)) by (apply (good_tiles b (fun _ => [])); auto).
  destruct r; simpl; auto.
  apply (good_tiles b (fun x => sort_tiles (b_tiles x))); auto.
  intros y Hy. destruct G1 as [I W]. rewrite (inv_tiles _ I _ _ Hy). reflexivity.
Qed.
Lemma keeps_load_scheds b data : keeps good (load_scheds b data).
Proof.
  apply keeps_gets_bind. intros w ss G Es. simpl.
  destruct (iter_val (dataget data "schedules" (VList []))) as [l|]; [|discriminate]. simpl in Es.
  apply mapM_ok in Es. destruct G as [I W]. split; [|intros F; apply wires_upd_bp_meta; auto].
  apply inv_upd_bp; auto. intros y Hy. destruct (inv_bp _ _ _ I Hy) as (C1 & C2 & C3 & C4 & C5).
  unfold bp_fine; simpl. split; [auto|]. split; [auto|]. split; [auto|]. split; [auto|].
  intros s i Hs Hi. clear -Es Hs Hi I. induction Es; [destruct Hs|].
  destruct Hs as [<-|Hs]; [eapply sched_live; eauto|auto].
Qed.
Lemma keeps_load_inner b cust data w : good w -> (exists x, blu w b = Some x) ->
  good (fst (fst (load_inner b cust data w))).
Proof.
  intros G (x & Hx). unfold load_inner.
  pose proof (keeps_load_head b data w G) as G1. destruct (load_head_bp b data w b) as (f & Hf).
  destruct (load_head b data w) as [w1 [u|e]]; simpl in *; [|exact G1].
  rewrite Hx in Hf. simpl in Hf.
  destruct (iter_val _) as [ents|]; [|exact G1].
  destruct (keeps_load_entities b cust ents w1 G1) as [G2 B2]; [eauto|].
  destruct (load_entities b cust ents w1) as [[w2 ents'] [u2|e]]; simpl in *; [|exact G2].
  pose proof (keeps_load_tail b data w2 G2) as G3. destruct (load_tail b data w2) as [w3 [u3|e]]; [|exact G3].
  simpl in *. pose proof (keeps_load_scheds b data w3 G3) as G4. destruct (load_scheds b data w3) as [w4 r]. exact G4.
Qed.
Lemma keeps_load b doc w : good w -> good (fst (fst (load b doc w))).
Proof.
  intros G. unfold load. destruct (blu w b) as [x|] eqn:Hx; [|exact G].
  destruct doc; try exact G.
  destruct (dget "blueprint" d) as [v|].
  - destruct v; try exact G. pose proof (keeps_load_inner b (b_custom x) d0 w G) as K.
    destruct (load_inner b (b_custom x) d0 w) as [[w' i'] r]. simpl in *. eauto.
  - pose proof (keeps_load_inner b (b_custom x) d w G) as K. destruct (load_inner b (b_custom x) d w) as [[w' i'] r]. simpl in *. eauto.
Qed.

(** ** the rest *)
Lemma keeps_rename i v : keeps good (rename i v).
Proof.
  intros w G. unfold rename. destruct (ent w i) as [e|] eqn:He; simpl; auto.
  match goal with |- context [set_name ?p ?c v e] => pose proof (set_name_layer p c v e) as HL;
    destruct (set_name p c v e) as [e' o] end. simpl in *.
  assert (G1 : good (upd_ent i (fun e0 => with_layer (e_layer e0) e') w)) by (apply good_upd_ent; auto).
  replace (upd_ent i (fun _ => e') w) with (upd_ent i (fun e0 => with_layer (e_layer e0) e') w); auto.
  unfold upd_ent. f_equal. unfold ent in He. revert He. generalize (w_ents w). clear -HL.
  induction i; destruct l; simpl; intros H; try discriminate; auto.
  - injection H as ->. f_equal. rewrite <- HL. destruct e'; reflexivity.
  - f_equal. auto.
Qed.
Lemma keeps_upd_ent i f : (forall e, e_layer (f e) = e_layer e) -> keeps good (modify (upd_ent i f)).
Proof. intros H. apply keeps_modify. intros w. apply good_upd_ent; auto. Qed.
Lemma keeps_meta b f : (forall x, b_objs (f x) = b_objs x /\ b_tiles (f x) = b_tiles x /\
   b_conns (f x) = b_conns x /\ b_scheds (f x) = b_scheds x) -> keeps good (modify (upd_bp b f)).
Proof. intros H. apply keeps_modify. intros w G. apply good_meta; auto. Qed.
Lemma keeps_recenter b a : keeps good (recenter b a).
Proof.
  apply keeps_bind; [apply keeps_gets|]. intros x. apply keeps_bind.
  - destruct a; [apply keeps_ret|]. apply keeps_bind; [|intros; apply keeps_gets].
    apply keeps_bind; [|intros; apply keeps_gets]. apply keeps_bind; [apply keeps_gets|intros; apply keeps_gets].
  - intros c. apply keeps_if; [apply keeps_ret|]. apply keeps_bind; [|intros; apply keeps_raise].
    apply keeps_forM. intros i _. apply keeps_bind; [apply keeps_gets|]. intros e.
    destruct (e_pos e); [|apply keeps_raise]. apply keeps_bind; [apply keeps_gets|]. intros q.
    apply keeps_upd_ent; auto.
Qed.
Lemma good_protos p w : good w -> good (set_protos p w).
Proof. intros [I W]. destruct I. split; [split|]; auto. Qed.
Lemma keeps_set_label b l c : keeps good (set_label b l c).
Proof.
  apply keeps_bind; [apply keeps_gets|]. intros x. apply keeps_bind; [apply keeps_meta; auto|]. intros _.
  destruct c; [apply keeps_ret|apply keeps_meta; auto|]. apply keeps_bind; [apply keeps_gets|].
  intros; apply keeps_meta; auto.
Qed.
Lemma good_lupd_conns b k f x w : good w -> blu w b = Some x -> (forall c, same_wire (f c) c) ->
  (forall c i, c_from (f c) = Some i \/ c_to (f c) = Some i -> c_from c = Some i \/ c_to c = Some i) ->
  good (upd_bp b (b_set_conns (lupd k f (b_conns x))) w).
Proof.
  intros G Hx Hf Hi. destruct G as [I W].
  apply good_conns; [split; auto| |].
  - intros F. pose proof (W F _ _ Hx) as D. intros i j a c Ha Hc N S. rewrite nth_lupd in Ha, Hc.
    assert (X : forall i a, (if Nat.eqb k i then option_map f (nth_error (b_conns x) i) else nth_error (b_conns x) i) = Some a ->
                exists a0, nth_error (b_conns x) i = Some a0 /\ same_wire a a0).
    { intros i0 a0 H. destruct (Nat.eqb k i0).
      - destruct (nth_error (b_conns x) i0); [|discriminate]. injection H as <-. eauto.
      - exists a0. split; auto. apply same_wire_refl. }
    apply X in Ha as (a0 & Ha & Sa). apply X in Hc as (c0 & Hc & Sc). apply (D _ _ _ _ Ha Hc N).
    eapply same_wire_trans; [apply same_wire_sym; eauto|]. eapply same_wire_trans; eauto.
  - intros c i Hc Hci. apply In_nth_error in Hc as (n & Hn). rewrite nth_lupd in Hn.
    destruct (Nat.eqb k n).
    + destruct (nth_error (b_conns x) n) eqn:E; [|discriminate]. injection Hn as <-.
      apply nth_error_In in E. eapply inv_conns; eauto.
    + apply nth_error_In in Hn. eapply inv_conns; eauto.
Qed.

(** ** Histories *)
(** Operations refer to existing objects (Python cannot name others).  Recolouring a wire
    through Connection.flip_color is considered separately. *)
Definition args_live (w : world) (o : op) : Prop :=
  match o with OConnect _ t _ _ _ => live w t | _ => True end.
Definition recolours (o : op) : bool := match o with OFlipColor _ _ => true | _ => false end.

Lemma drop_res_fst {A} (x : world * res A) : fst (drop_res x) = fst x.
Proof. destruct x; reflexivity. Qed.
Lemma step_good o w : good w -> args_live w o -> recolours o = false -> good (fst (step o w)).
Proof.
  intros G L R. destruct o; simpl step; rewrite ?drop_res_fst; try discriminate.
  - (* new blueprint *) unfold new_blueprint; simpl. destruct G as [I W].
    assert (E : forall c x, blu (new_bp (empty_bp strict cust) w) c = Some x -> blu w c = Some x \/ x = empty_bp strict cust).
    { intros c x. rewrite blu_new. destruct (Nat.eqb c _); [intros [= <-]|]; auto. }
    destruct I as [H1 H2 H3 H4 H5 H6].
    split; [split; intros; try (apply E in H as [H| ->]); simpl in *; try tauto; eauto; try (constructor; fail)|].
    + destruct (H6 _ _ _ H H0) as (x & Hx). exists x. rewrite blu_new.
      destruct (Nat.eqb_spec b (length (w_bps w))) as [->|]; auto.
      exfalso. assert (length (w_bps w) < length (w_bps w))%nat; [|lia]. apply nth_error_Some.
      unfold blu in Hx. congruence.
    + intros F b x Hx. apply E in Hx as [Hx| ->]; [eapply W; eauto|]. intros i j a c Ha. destruct i; discriminate.
  - (* load *) pose proof (keeps_load b doc w G) as K. destruct (load b doc w) as [[w' d'] r]. exact K.
  - apply keeps_new_entity; auto.
  - apply keeps_make; auto.
  - apply keeps_add; auto.
  - destruct o; [apply (keeps_drop b i w G)|exact G].
  - clear L R. revert w G. apply keeps_bind.
    + apply keeps_bind; [apply keeps_gets|]. intros; apply keeps_gets.
    + intros l. apply keeps_forM. intros; apply keeps_drop.
  - clear L R. revert w G. apply keeps_bind; [apply keeps_gets|intros; apply keeps_gets].
  - apply keeps_connect; auto.
  - apply keeps_get_connections; auto.
  - clear L R. revert w G. apply keeps_bind; [apply keeps_layer_rotate|intros; apply keeps_tiles_rotate].
  - apply keeps_rotate_ent; auto.
  - apply keeps_rename; auto.
  - clear L R. revert w G. apply keeps_bind; [apply keeps_gets|]. intros.
    apply keeps_bind; [apply keeps_gets|]. intros. apply keeps_upd_ent; auto.
  - clear L R. revert w G. apply keeps_bind; [apply keeps_gets|]. intros.
    apply keeps_bind; [apply keeps_gets|]. intros. apply keeps_upd_ent; auto.
  - destruct (assign_attr_form e k v w) as [->|(x & a & _ & _ & ->)]; auto. apply good_upd_ent; auto.
  - destruct (assign_cb_form e k v w) as [->|(x & cb & a & _ & _ & _ & ->)]; auto. apply good_upd_ent; auto.
  - clear L R. revert w G. apply keeps_bind; [apply keeps_gets|]. intros.
    apply keeps_bind; [apply keeps_gets|]. intros. apply keeps_upd_ent; auto.
  - clear L R. revert w G. apply keeps_bind; [apply keeps_gets|]. intros.
    apply keeps_bind; [apply keeps_gets|]. intros. apply keeps_upd_ent; auto.
  - clear L R. revert w G. apply keeps_bind; [apply keeps_gets|]. intros.
    apply keeps_bind; [apply keeps_gets|]. intros. apply keeps_bind; [apply keeps_gets|]. intros.
    apply keeps_raise.
  - clear L R. revert w G. apply keeps_bind; [apply keeps_gets|]. intros.
    destruct t; apply keeps_raise.
  - unfold conn_call, mbind, get_bp, gets, modify. destruct (blu w b) as [x|] eqn:Hx; simpl; auto.
    apply good_lupd_conns; auto; [apply same_wire_flip|]. simpl. tauto.
  - apply keeps_set_label; auto.
  - apply keeps_recenter; auto.
  - apply keeps_bp_json; auto.
  - apply keeps_ent_json; auto.
  - apply keeps_sort; auto.
  - apply good_protos; auto.
  - destruct (import_prototype_data file append (w_protos w)). apply good_protos; auto.
Qed.

End Keep.

(** ** Recolouring keeps everything but the distinctness of wires *)
Lemma recolour_inv b k w : inv w -> inv (fst (conn_call flip_color b k w)).
Proof.
  intros I. unfold conn_call, mbind, get_bp, gets, modify. destruct (blu w b) as [x|] eqn:Hx; simpl; auto.
  apply inv_upd_bp; auto. intros x' Hx'. assert (x' = x) as -> by congruence.
  destruct (inv_bp _ _ _ I Hx) as (B1 & B2 & B3 & B4 & B5). unfold bp_fine; simpl.
  split; [auto|]. split; [auto|]. split; [auto|]. split; [|auto].
  intros c i Hc Hi. apply In_nth_error in Hc as (n & Hn). rewrite nth_lupd in Hn.
  destruct (Nat.eqb k n); [|apply nth_error_In in Hn; eauto].
  destruct (nth_error (b_conns x) n) eqn:E; [|discriminate]. injection Hn as <-.
  apply nth_error_In in E. eauto.
Qed.

(** a history whose operations only mention existing objects *)
Fixpoint history (ops : list op) (w : world) : Prop :=
  match ops with [] => True | o :: r => args_live w o /\ history r (fst (step o w)) end.
Lemma step_inv o w : inv w -> args_live w o -> inv (fst (step o w)).
Proof.
  intros I L. destruct (recolours o) eqn:R.
  - destruct o; try discriminate. apply recolour_inv, I.
  - apply (step_good False o w); auto. split; [auto|tauto].
Qed.
Lemma run_inv ops : forall w, inv w -> history ops w -> inv (run ops w).
Proof.
  induction ops as [|o r IH]; simpl; intros w I H; auto. destruct H as [L H]. apply IH; auto.
  apply step_inv; auto.
Qed.
Lemma run_wires ops : forall w, inv w -> wires_ok w -> history ops w -> existsb recolours ops = false ->
  wires_ok (run ops w).
Proof.
  induction ops as [|o r IH]; simpl; intros w I W H R; auto.
  apply orb_false_iff in R as [R1 R2]. destruct H as [L H].
  destruct (step_good True o w) as [I' W']; auto. { split; auto. }
Qed.
Lemma start_inv : inv start /\ wires_ok start.
Proof.
  assert (B : forall b x, blu start b = Some x -> False) by (intros [] x H; discriminate).
  assert (N : forall i e, ent start i = Some e -> False) by (intros [] e H; discriminate).
  split; [split|]; repeat intro; exfalso; eauto.
Qed.
