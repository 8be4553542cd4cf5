(** * Properties every entity of every history has: a predicate that the constructor establishes and
      that renaming, moving, rotating and adding mixins preserve holds for all entities. *)
From Coq Require Import Lia QArith.
From Verif Require Import Py Num NumFacts Util Classes Mixins Entity World WorldFacts SetFacts
  Inv SortFacts SpecWorld LayerProofs.
Open Scope Z_scope.

Record stable (Q : entity -> Prop) : Prop := {
  st_layer : forall e l, Q e -> Q (with_layer l e);
  st_auto : forall e v, Q e -> Q (with_auto v e);
  st_construct : forall p cust l kw e, snd (construct p cust l kw) = Ok e -> Q e;
  st_rotate : forall n a cw e, Q e -> Q (fst (entity_rotate n a cw e));
  st_name : forall p cust v e, Q e -> Q (fst (set_name p cust v e));
  st_position : forall v o e, Q e -> vec_of_val v = Ok o -> Q (with_pos o e);
  st_moved : forall v c q e, Q e -> e_pos e = Some v -> vsub v (OVec c) = Ok q -> Q (with_pos (Some q) e);
  st_direction : forall v d e, Q e -> dir_of_val v = Ok d -> Q (with_dir d e);
  st_attr : forall k a e, Q e -> changed (kept_at k) (e_at e) a -> Q (with_at a e);
  st_cb : forall k cb a e, Q e -> e_cb e = Some cb -> changed [k] (cb_at cb) a -> Q (with_cb (Some (mkCb (cb_cls cb) a)) e);
  st_set_mixins : forall ms c e, Q e -> set_mixins (e_cls e) ms = Ok c -> Q (with_cls c e);
  st_add_mixins : forall ms c e, Q e -> add_mixins (e_cls e) ms = Ok c -> Q (with_cls c e) }.

Section Stable.
  Context (Q : entity -> Prop) (St : stable Q).
  Definition all_ents (w : world) : Prop := forall i e, ent w i = Some e -> Q e.
  Lemma all_upd i f w : all_ents w -> (forall e, ent w i = Some e -> Q e -> Q (f e)) -> all_ents (upd_ent i f w).
  Proof.
    intros H Hf j e He. rewrite ent_upd in He. destruct (Nat.eqb_spec i j) as [->|]; [|eauto].
    destruct (ent w j) as [e0|] eqn:E0; [|discriminate]. injection He as <-. eauto.
  Qed.
  Lemma all_bp b f w : all_ents w -> all_ents (upd_bp b f w). Proof. intros H i e He; eauto. Qed.
  Lemma all_new e w : all_ents w -> Q e -> all_ents (new_ent e w).
  Proof. intros H He i e' H'. rewrite ent_new in H'. destruct (Nat.eqb _ _); [congruence|eauto]. Qed.
  Notation kp := (keeps all_ents).
  Lemma all_reindex l : forall i w, all_ents w -> all_ents (reindex i l w).
  Proof.
    induction l as [|o r IH]; simpl; intros i w H; auto. apply IH. apply all_upd; auto.
    intros; apply (st_auto _ St); auto.
  Qed.
  Ltac kp :=
    repeat match goal with
      | |- kp (ret _) => apply keeps_ret
      | |- kp (raise _) => apply keeps_raise
      | |- kp (gets _) => apply keeps_gets
      | |- kp (mbind _ _) => apply keeps_bind; [|intros ?]
      | |- kp (forM _ _) => apply keeps_forM; intros ? _
      | |- kp (mapMM _ _) => apply keeps_mapMM; intros ? _
      | |- kp (modify _) => apply keeps_modify; intros ? ?
      | |- kp (if ?c then _ else _) => destruct c
      | |- kp (match ?c with _ => _ end) => destruct c
      | |- all_ents (upd_bp _ _ _) => apply all_bp; assumption
      | |- all_ents (reindex _ _ _) => apply all_reindex; assumption
      | |- all_ents (upd_ent _ (with_layer _) _) => apply all_upd; [assumption|intros; apply (st_layer _ St); assumption]
      end.
  Lemma kp_sort b : kp (sort_layer b). Proof. unfold sort_layer, get_bp. kp. Qed.
  Lemma kp_add b o : kp (layer_add b o).
  Proof. unfold layer_add, get_ent, get_bp. destruct o; kp. apply kp_sort. Qed.
  Lemma kp_drop b i : kp (drop_obj b i). Proof. unfold drop_obj, get_bp. kp. Qed.
  Lemma kp_new_entity l kw : kp (new_entity l kw).
  Proof.
    unfold new_entity, get_bp. apply keeps_bind; [kp|]. intros cust w H.
    destruct (snd (construct _ _ _ _)) eqn:C; simpl; auto. apply all_new; auto. eapply (st_construct _ St); eauto.
  Qed.
  Lemma kp_make b kw : kp (layer_make b kw).
  Proof. unfold layer_make. kp; [apply kp_new_entity|apply kp_add]. Qed.
  Lemma kp_get_connections e : kp (get_connections e).
  Proof. unfold get_connections, get_ent, get_bp. kp. Qed.
  Lemma kp_ent_json i : kp (ent_json i).
  Proof. unfold ent_json, get_ent, connections_to_json. kp. apply kp_get_connections. Qed.
  Lemma kp_bp_json b : kp (bp_json b).
  Proof. unfold bp_json, layer_json, get_bp. kp. apply kp_ent_json. Qed.
  Lemma kp_parse b : kp (parse_connections b).
  Proof.
    unfold parse_connections, get_bp. apply keeps_bind; [kp|]. intros x. apply keeps_bind.
    - intros w H. destruct (foldE _ _ _). now apply all_bp.
    - intros _. kp. apply kp_get_connections.
  Qed.
  Lemma kp_rotate_ent n a r i : kp (rotate_ent n a r i).
  Proof.
    intros w H. unfold rotate_ent. destruct (ent w i) as [e|] eqn:He; auto.
    pose proof (st_rotate _ St n a (ent_cw r) e (H _ _ He)) as F. destruct (entity_rotate n a (ent_cw r) e) as [e' o].
    simpl in *. apply all_upd; auto.
  Qed.
  Lemma kp_load_entities b cust l : forall w, all_ents w -> all_ents (fst (fst (load_entities b cust l w))).
  Proof.
    induction l as [|v r IH]; simpl; intros w H; auto. destruct v; auto.
    destruct (construct (w_protos w) cust (Some b) d) as [kw' [e|y]] eqn:C; auto.
    specialize (IH (upd_bp b (fun x => b_set_objs (b_objs x ++ [length (w_ents w)]) x) (new_ent e w))).
    destruct (load_entities b cust r _) as [[w2 r'] o]. simpl in *. apply IH.
    apply all_bp, all_new; auto. apply (st_construct _ St (w_protos w) cust (Some b) d). now rewrite C.
  Qed.
  Lemma kp_load b doc w : all_ents w -> all_ents (fst (fst (load b doc w))).
  Proof.
    intros H.
    assert (L : forall cust d, all_ents (fst (fst (load_inner b cust d w)))).
    { intros cust d. unfold load_inner.
      assert (P1 : kp (load_head b d)).
      { unfold load_head. kp. intros w1 H1. destruct (foldE _ _ _). now apply all_bp. }
      assert (P2 : kp (load_tail b d)).
      { unfold load_tail, get_bp. apply keeps_bind; [apply kp_sort|]. intros _. apply keeps_bind; [apply kp_parse|]. intros _.
        apply keeps_bind; [kp|]. intros tiles. apply keeps_bind; [kp|]. intros x. apply keeps_bind; [|intros; kp].
        intros w1 H1. destruct (foldE _ _ _). now apply all_bp. }
      assert (P3 : kp (load_scheds b d)) by (unfold load_scheds; kp).
      specialize (P1 w H). destruct (load_head b d w) as [w1 [u|e]]; simpl in *; auto.
      destruct (iter_val _) as [ents|]; auto.
      pose proof (kp_load_entities b cust ents w1 P1) as P4. destruct (load_entities b cust ents w1) as [[w2 l'] [u2|e]]; simpl in *; auto.
      specialize (P2 w2 P4). destruct (load_tail b d w2) as [w3 [u3|e]]; simpl in *; auto.
      specialize (P3 w3 P2). destruct (load_scheds b d w3) as [w4 r]. simpl in *. auto. }
    unfold load. destruct (blu w b) as [x|]; auto.
    destruct doc; auto. destruct (dget "blueprint" d) as [v|].
    - destruct v; auto. specialize (L (b_custom x) d0).
      destruct (load_inner b (b_custom x) d0 w) as [[w' i'] r]. exact L.
    - specialize (L (b_custom x) d). destruct (load_inner b (b_custom x) d w) as [[w' i'] r]. exact L.
  Qed.
  (** an update computed from the entity it replaces *)
  Lemma kp_upd {B} i (f : entity -> res B) (g : B -> entity -> entity) :
    (forall e x, Q e -> f e = Ok x -> Q (g x e)) ->
    kp (do e <- get_ent i; do x <- gets (fun _ => f e); modify (upd_ent i (g x))).
  Proof.
    intros F w H. rewrite mbind_fst. unfold get_ent, gets; simpl.
    destruct (ent w i) as [e|] eqn:He; auto. unfold mbind. destruct (f e) as [x|] eqn:Fe; simpl; auto.
    apply all_upd; auto. intros e0 E0 Q0. replace e0 with e by congruence. eauto.
  Qed.
  Lemma step_all o w : all_ents w -> all_ents (fst (step o w)).
  Proof.
    intros H. destruct o; simpl step; rewrite ?drop_res_fst.
    - intros i e He. eauto.
    - pose proof (kp_load b doc w H) as K. destruct (load b doc w) as [[w' d'] r]. exact K.
    - now apply kp_new_entity.
    - now apply kp_make.
    - now apply kp_add.
    - destruct o; [now apply kp_drop|auto].
    - assert (kp (layer_del_at b pt)) as K; [|now apply K]. unfold layer_del_at, layer_at, get_bp. kp. apply kp_drop.
    - assert (kp (layer_at b pt)) as K; [|now apply K]. unfold layer_at, get_bp. kp.
    - assert (kp (connect e target fs ts col)) as K; [|now apply K]. unfold connect, get_ent, get_bp. kp.
    - now apply kp_get_connections.
    - assert (kp (bp_rotate b amount around r)) as K; [|now apply K]. unfold bp_rotate, layer_rotate, tiles_rotate, get_bp.
      apply keeps_bind; [apply keeps_bind; [kp|]; intros; apply keeps_bind; [apply keeps_forM; intros; apply kp_rotate_ent|intros; apply kp_sort]|].
      intros _. apply keeps_bind; [kp|]. intros x. apply keeps_bind; [|intros; kp].
      intros w1 H1. destruct (rotate_tiles _ _ _ _). now apply all_bp.
    - now apply kp_rotate_ent.
    - unfold rename. destruct (ent w e) as [en|] eqn:He; auto.
      match goal with |- context [set_name ?p ?c v en] => pose proof (st_name _ St p c v en (H _ _ He)) as HF;
        destruct (set_name p c v en) as [e' o] end. simpl in *. apply all_upd; auto.
    - apply (kp_upd e (fun _ => vec_of_val v) with_pos); auto. intros; eapply (st_position _ St); eauto.
    - apply (kp_upd e (fun _ => dir_of_val v) with_dir); auto. intros; eapply (st_direction _ St); eauto.
    - destruct (assign_attr_form e k v w) as [->|(x & a & E & C & ->)]; auto. apply all_upd; auto. intros e0 E0 Q0.
      replace e0 with x in * by congruence. eapply (st_attr _ St); eauto.
    - destruct (assign_cb_form e k v w) as [->|(x & cb & a & E & B & C & ->)]; auto. apply all_upd; auto. intros e0 E0 Q0.
      replace e0 with x in * by congruence. eapply (st_cb _ St); eauto.
    - apply (kp_upd e (fun en => set_mixins (e_cls en) ms) with_cls); auto. intros; eapply (st_set_mixins _ St); eauto.
    - apply (kp_upd e (fun en => add_mixins (e_cls en) ms) with_cls); auto. intros; eapply (st_add_mixins _ St); eauto.
    - assert (kp (tiles_make b kw)) as K; [|now apply K]. unfold tiles_make, tiles_add, get_bp. kp.
    - assert (kp (tiles_add b t)) as K; [|now apply K]. unfold tiles_add, get_bp. kp.
    - assert (kp (conn_call conn_flip b k)) as K; [|now apply K]. unfold conn_call, get_bp. kp.
    - assert (kp (conn_call flip_color b k)) as K; [|now apply K]. unfold conn_call, get_bp. kp.
    - assert (kp (set_label b label c)) as K; [|now apply K]. unfold set_label, get_bp. kp.
    - assert (kp (recenter b around)) as K; [|now apply K]. unfold recenter, center, maximum_values, get_bp.
      apply keeps_bind; [kp|intros x]. apply keeps_bind; [kp|intros c]. destruct (veqb c vzero); [kp|].
      apply keeps_bind; [apply keeps_forM; intros i _|intros; kp].
      intros w1 H1. rewrite mbind_fst. unfold get_ent, gets; simpl. destruct (ent w1 i) as [e|] eqn:He; auto.
      destruct (e_pos e) as [v|] eqn:Hp; simpl; auto. unfold mbind. destruct (vsub v (OVec c)) as [q|] eqn:V; simpl; auto.
      apply all_upd; auto. intros e0 E0 Q0. replace e0 with e in * by congruence. eapply (st_moved _ St); eauto.
    - now apply kp_bp_json.
    - now apply kp_ent_json.
    - now apply kp_sort.
    - auto.
    - destruct (import_prototype_data _ _ _). auto.
  Qed.
  Lemma reach_all w : reachable w -> all_ents w.
  Proof.
    induction 1 as [|w o R IH Ho]; [intros [|i] e He; discriminate|now apply step_all].
  Qed.
End Stable.
