(** * What never changes about an entity once it is constructed: the strict flag, the number of the
      source document and the raw connections. *)
From Coq Require Import Lia QArith.
From Verif Require Import Py Num NumFacts Util Classes Mixins Entity World WorldFacts SetFacts
  Inv SortFacts SpecWorld LayerProofs.
Open Scope Z_scope.

(** *** what never changes about an entity *)
Definition persists (w0 w : world) : Prop :=
  forall i e, ent w0 i = Some e -> exists e', ent w i = Some e' /\ fixed_part e' = fixed_part e.
Lemma persists_refl w : persists w w.
Proof. intros i e H. eauto. Qed.
Lemma persists_trans a b c : persists a b -> persists b c -> persists a c.
Proof.
  intros H K i e He. destruct (H _ _ He) as (e1 & H1 & E1). destruct (K _ _ H1) as (e2 & H2 & E2).
  exists e2. split; congruence.
Qed.
Lemma per_upd i f w : (forall e, ent w i = Some e -> fixed_part (f e) = fixed_part e) -> persists w (upd_ent i f w).
Proof.
  intros Hf j e He. rewrite ent_upd, He. destruct (Nat.eqb_spec i j) as [->|]; simpl; eauto.
Qed.
Lemma per_bp b f w : persists w (upd_bp b f w).
Proof. intros i e He. eauto. Qed.
Lemma per_new e w : persists w (new_ent e w).
Proof.
  intros i e0 He. rewrite ent_new. destruct (Nat.eqb_spec i (length (w_ents w))) as [->|]; eauto. exfalso.
  assert (length (w_ents w) < length (w_ents w))%nat; [|lia]. apply nth_error_Some. unfold ent in He. congruence.
Qed.
Definition per {A} (m : M A) : Prop := forall w, persists w (fst (m w)).
Lemma per_bind {A B} (m : M A) (f : A -> M B) : per m -> (forall a, per (f a)) -> per (mbind m f).
Proof.
  intros H K w. rewrite mbind_fst. destruct (snd (m w)) as [a|]; [|apply H].
  eapply persists_trans; [apply H|apply K].
Qed.
Lemma per_ret {A} (a : A) : per (ret a). Proof. intros w; apply persists_refl. Qed.
Lemma per_raise {A} e : per (@raise A e). Proof. intros w; apply persists_refl. Qed.
Lemma per_gets {A} (f : world -> res A) : per (gets f). Proof. intros w; apply persists_refl. Qed.
Lemma per_modify f : (forall w, persists w (f w)) -> per (modify f). Proof. intros H w; apply H. Qed.
Lemma per_forM {X} (f : X -> M unit) l : (forall x, per (f x)) -> per (forM f l).
Proof.
  intros H w. unfold forM. apply (foldE_inv (fun w' => persists w w')); [|apply persists_refl].
  intros a x _ Ha. eapply persists_trans; [exact Ha|apply H].
Qed.
Lemma per_mapMM {X Y} (f : X -> M Y) l : (forall x, per (f x)) -> per (mapMM f l).
Proof.
  intros H. induction l as [|x r IH]; simpl; [apply per_ret|].
  apply per_bind; auto. intros y. apply per_bind; auto. intros ys. apply per_ret.
Qed.
Lemma per_reindex l : forall i w, persists w (reindex i l w).
Proof.
  induction l as [|o r IH]; simpl; intros i w; [apply persists_refl|].
  eapply persists_trans; [|apply IH]. apply per_upd. auto.
Qed.
Ltac per :=
  repeat match goal with
    | |- per (ret _) => apply per_ret
    | |- per (raise _) => apply per_raise
    | |- per (gets _) => apply per_gets
    | |- per (mbind _ _) => apply per_bind; [|intros ?]
    | |- per (forM _ _) => apply per_forM; intros ?
    | |- per (mapMM _ _) => apply per_mapMM; intros ?
    | |- per (modify _) => apply per_modify; intros ?
    | |- per (if ?c then _ else _) => destruct c
    | |- per (match ?c with _ => _ end) => destruct c
    | |- persists ?w ?w => apply persists_refl
    | |- persists ?w (upd_bp _ _ ?w) => apply per_bp
    | |- persists ?w (upd_ent _ _ ?w) => apply per_upd; solve [auto]
    | |- persists _ (reindex _ _ _) => eapply persists_trans; [|apply per_reindex]
    end.
Lemma per_sort b : per (sort_layer b).
Proof. unfold sort_layer, get_bp. per. Qed.
Lemma per_add b o : per (layer_add b o).
Proof. unfold layer_add, get_ent, get_bp. destruct o; per. apply per_sort. Qed.
Lemma per_drop b i : per (drop_obj b i).
Proof. unfold drop_obj, get_bp. per. Qed.
Lemma per_new_entity l kw : per (new_entity l kw).
Proof.
  unfold new_entity, get_bp. apply per_bind; [per|]. intros cust w.
  destruct (snd (construct _ _ _ _)); simpl; [apply per_new|apply persists_refl].
Qed.
Lemma per_make b kw : per (layer_make b kw).
Proof. unfold layer_make. per; [apply per_new_entity|apply per_add]. Qed.
Lemma per_get_connections e : per (get_connections e).
Proof. unfold get_connections, get_ent, get_bp. per. Qed.
Lemma per_ent_json i : per (ent_json i).
Proof. unfold ent_json, get_ent, connections_to_json. per. apply per_get_connections. Qed.
Lemma per_bp_json b : per (bp_json b).
Proof. unfold bp_json, layer_json, get_bp. per. apply per_ent_json. Qed.
Lemma per_parse b : per (parse_connections b).
Proof.
  unfold parse_connections, get_bp. apply per_bind; [per|]. intros x. apply per_bind.
  - intros w. destruct (foldE _ _ _). apply per_bp.
  - intros _. per. apply per_get_connections.
Qed.
Lemma entity_rotate_fixed n a cw e : fixed_part (fst (entity_rotate n a cw e)) = fixed_part e.
Proof.
  unfold entity_rotate. destruct (e_pos e) as [v|]; auto.
  match goal with |- context [match ?t with Ok _ => _ | Err _ => _ end] => destruct t end; auto.
  match goal with |- context [rotate_chain ?x ?y ?z] => destruct (rotate_chain x y z) as [[d at'] r] end.
  reflexivity.
Qed.
Lemma per_rotate_ent n a r i : per (rotate_ent n a r i).
Proof.
  intros w. unfold rotate_ent. destruct (ent w i) as [e|] eqn:He; [|apply persists_refl].
  pose proof (entity_rotate_fixed n a (ent_cw r) e) as F. destruct (entity_rotate n a (ent_cw r) e) as [e' o].
  simpl in *. apply per_upd. intros e0 He0. congruence.
Qed.
Lemma set_name_fixed p cust v e : fixed_part (fst (set_name p cust v e)) = fixed_part e.
Proof.
  unfold set_name. destruct (negb (e_strict e)); [destruct v; reflexivity|].
  destruct (in_table v (p_entity p)) as [[]|]; try reflexivity.
  destruct v; try reflexivity.
  match goal with |- context [match ?t with Ok _ => _ | Err _ => _ end] => destruct t end; reflexivity.
Qed.
Lemma per_load_entities b cust l : forall w, persists w (fst (fst (load_entities b cust l w))).
Proof.
  induction l as [|v r IH]; simpl; intros w; [apply persists_refl|].
  destruct v; try apply persists_refl.
  destruct (construct (w_protos w) cust (Some b) d) as [kw' [e|y]]; [|apply persists_refl].
  specialize (IH (upd_bp b (fun x => b_set_objs (b_objs x ++ [length (w_ents w)]) x) (new_ent e w))).
  destruct (load_entities b cust r _) as [[w2 r'] o]. simpl in *.
  eapply persists_trans; [|exact IH]. eapply persists_trans; [apply per_new|apply per_bp].
Qed.
Lemma per_load b doc w : persists w (fst (fst (load b doc w))).
Proof.
  assert (L : forall cust d, persists w (fst (fst (load_inner b cust d w)))).
  { intros cust d. unfold load_inner.
    assert (P1 : per (load_head b d)).
    { unfold load_head. per. intros w1. destruct (foldE _ _ _). apply per_bp. }
    assert (P2 : per (load_tail b d)).
    { unfold load_tail, get_bp. apply per_bind; [apply per_sort|]. intros _. apply per_bind; [apply per_parse|]. intros _.
      apply per_bind; [per|]. intros tiles. apply per_bind; [per|]. intros x. apply per_bind; [|intros; per].
      intros w1. destruct (foldE _ _ _). apply per_bp. }
    assert (P3 : per (load_scheds b d)) by (unfold load_scheds; per).
    specialize (P1 w). destruct (load_head b d w) as [w1 [u|e]]; simpl in *; auto.
    destruct (iter_val _) as [ents|]; auto.
    pose proof (per_load_entities b cust ents w1) as P4. destruct (load_entities b cust ents w1) as [[w2 l'] [u2|e]]; simpl in *.
    2: { eapply persists_trans; eauto. }
    specialize (P2 w2). destruct (load_tail b d w2) as [w3 [u3|e]]; simpl in *.
    2: { eapply persists_trans; [eauto|]. eapply persists_trans; eauto. }
    specialize (P3 w3). destruct (load_scheds b d w3) as [w4 r]. simpl in *.
    eapply persists_trans; [eauto|]. eapply persists_trans; [eauto|]. eapply persists_trans; eauto. }
  unfold load. destruct (blu w b) as [x|]; [|apply persists_refl].
  destruct doc; try apply persists_refl. destruct (dget "blueprint" d) as [v|].
  - destruct v; try apply persists_refl. specialize (L (b_custom x) d0).
    destruct (load_inner b (b_custom x) d0 w) as [[w' i'] r]. exact L.
  - specialize (L (b_custom x) d). destruct (load_inner b (b_custom x) d w) as [[w' i'] r]. exact L.
Qed.
Lemma per_protos p w : persists w (set_protos p w).
Proof. intros i e He. eauto. Qed.
Lemma step_persists o w : persists w (fst (step o w)).
Proof.
  destruct o; simpl step; rewrite ?drop_res_fst; unfold get_ent, get_bp.
  - intros i e He. eauto.
  - pose proof (per_load b doc w) as K. destruct (load b doc w) as [[w' d'] r]. exact K.
  - apply per_new_entity.
  - apply per_make.
  - apply per_add.
  - destruct o; [apply per_drop|apply persists_refl].
  - assert (per (layer_del_at b pt)) as H; [|apply H]. unfold layer_del_at, layer_at, get_bp. per. apply per_drop.
  - assert (per (layer_at b pt)) as H; [|apply H]. unfold layer_at, get_bp. per.
  - assert (per (connect e target fs ts col)) as H; [|apply H]. unfold connect, get_ent, get_bp. per.
  - apply per_get_connections.
  - assert (per (bp_rotate b amount around r)) as H; [|apply H]. unfold bp_rotate, layer_rotate, tiles_rotate, get_bp.
    apply per_bind; [apply per_bind; [per|]; intros; apply per_bind; [apply per_forM; intros; apply per_rotate_ent|intros; apply per_sort]|].
    intros _. apply per_bind; [per|]. intros x. apply per_bind; [|intros; per].
    intros w1. destruct (rotate_tiles _ _ _ _). apply per_bp.
  - apply per_rotate_ent.
  - unfold rename. destruct (ent w e) as [en|] eqn:He; [|apply persists_refl].
    match goal with |- context [set_name ?p ?c v en] => pose proof (set_name_fixed p c v en) as HF;
      destruct (set_name p c v en) as [e' o] end. simpl in *. apply per_upd. intros e0 He0. congruence.
  - assert (per (set_position e v)) as H; [|apply H]. unfold set_position, get_ent. per.
  - assert (per (set_direction e v)) as H; [|apply H]. unfold set_direction, get_ent. per.
  - destruct (assign_attr_form e k v w) as [->|(x & a & _ & _ & ->)]; [apply persists_refl|]. apply per_upd; auto.
  - destruct (assign_cb_form e k v w) as [->|(x & cb & a & _ & _ & _ & ->)]; [apply persists_refl|]. apply per_upd; auto.
  - assert (per (ent_set_mixins e ms)) as H; [|apply H]. unfold ent_set_mixins, get_ent. per.
  - assert (per (ent_add_mixins e ms)) as H; [|apply H]. unfold ent_add_mixins, get_ent. per.
  - assert (per (tiles_make b kw)) as H; [|apply H]. unfold tiles_make, tiles_add, get_bp. per.
  - assert (per (tiles_add b t)) as H; [|apply H]. unfold tiles_add, get_bp. per.
  - assert (per (conn_call conn_flip b k)) as H; [|apply H]. unfold conn_call, get_bp. per.
  - assert (per (conn_call flip_color b k)) as H; [|apply H]. unfold conn_call, get_bp. per.
  - assert (per (set_label b label c)) as H; [|apply H]. unfold set_label, get_bp. per.
  - assert (per (recenter b around)) as H; [|apply H]. unfold recenter, center, maximum_values, get_ent, get_bp. per.
  - apply per_bp_json.
  - apply per_ent_json.
  - apply per_sort.
  - apply per_protos.
  - destruct (import_prototype_data _ _ _). apply per_protos.
Qed.
Lemma run_persists ops : forall w, persists w (run ops w).
Proof.
  induction ops as [|o r IH]; simpl; intros w; [apply persists_refl|].
  eapply persists_trans; [apply step_persists|apply IH].
Qed.
Lemma construct_fixed p cust l kw e : snd (construct p cust l kw) = Ok e ->
  e_number e = odflt VNone (dget "entity_number" kw) /\ e_raw e = odflt VNone (dget "connections" kw).
Proof.
  unfold construct. destruct (_ || _); [discriminate|].
  destruct (dget "name" kw) as [n|]; [|discriminate].
  destruct (dget "position" kw) as [q|]; [|discriminate].
  match goal with |- context [set_name p cust n ?e0] => set (e0' := e0);
    pose proof (set_name_fixed p cust n e0') as HN; destruct (set_name p cust n e0') as [e1 [u|x]] end;
    [|discriminate]. simpl in HN. unfold fixed_part in HN. simpl in HN. injection HN as H1 H2 H3.
  destruct (vec_of_val q) as [pos|]; [|discriminate]. cbn [bind].
  destruct (dir_of_val _) as [dir|]; [|discriminate]. cbn [bind].
  destruct (dget "control_behavior" kw) as [cb|].
  - destruct (as_kwargs cb) as [cbkw|]; [|discriminate].
    destruct (dmem "self" cbkw || dmem "_entity" cbkw); [discriminate|].
    destruct (cb_init_chain _ _ _ _ _ _) as [st [a|x]]; [|discriminate].
    simpl. destruct (init_chain _ _ _ _ _ _); simpl; [|discriminate]. intros [= <-]. simpl. auto.
  - simpl. destruct (init_chain _ _ _ _ _ _); simpl; [|discriminate]. intros [= <-]. simpl. auto.
Qed.
(** the number given at construction is what lookups see for ever after *)
Lemma p_C49_made w b kw w' i ops : layer_make b kw w = (w', Ok i) ->
  exists e, ent (run ops w') i = Some e /\ e_number e = odflt VNone (dget "entity_number" kw).
Proof.
  intros H. unfold layer_make in H. apply mbind_ok in H as (j & w1 & H1 & H2).
  apply mbind_ok in H2 as ([] & w2 & H2 & H3). injection H3 as <- <-.
  apply new_entity_ok in H1 as (-> & e & -> & _ & cust & Hc & _).
  apply construct_fixed in Hc as [Hn _].
  pose proof (per_add b (OEnt (length (w_ents w))) (new_ent e w)) as P. rewrite H2 in P.
  assert (He : ent (new_ent e w) (length (w_ents w)) = Some e) by (rewrite ent_new, Nat.eqb_refl; auto).
  destruct (P _ _ He) as (e1 & He1 & F1). destruct (run_persists ops w2 _ _ He1) as (e2 & He2 & F2).
  exists e2. split; auto. unfold fixed_part in *. congruence.
Qed.
Lemma load_entities_old b cust l : forall w w' l' n e, load_entities b cust l w = (w', l', Ok tt) ->
  ent w n = Some e -> ent w' n = Some e.
Proof.
  induction l as [|v r IH]; simpl; intros w w' l' n e E He; [injection E as <- _; auto|].
  destruct v; try discriminate. destruct (construct _ _ _ _) as [kw' [e'|]]; [|discriminate].
  destruct (load_entities b cust r _) as [[w3 r''] o] eqn:E'. injection E as <- <- ->.
  eapply IH; [exact E'|]. rewrite ent_upd_bp, ent_new.
  destruct (Nat.eqb_spec n (length (w_ents w))) as [->|]; auto. exfalso.
  assert (length (w_ents w) < length (w_ents w))%nat; [|lia]. apply nth_error_Some. unfold ent in He. congruence.
Qed.
Lemma load_entities_nth b cust l : forall w w' l' k kw, load_entities b cust l w = (w', l', Ok tt) ->
  nth_error l k = Some (VDict kw) ->
  exists e, ent w' (length (w_ents w) + k) = Some e /\ snd (construct (w_protos w) cust (Some b) kw) = Ok e.
Proof.
  induction l as [|v r IH]; simpl; intros w w' l' k kw H Hk; [destruct k; discriminate|].
  destruct v; try discriminate.
  destruct (construct (w_protos w) cust (Some b) d) as [kw' [e|y]] eqn:C; [|discriminate].
  set (w1 := upd_bp b (fun x => b_set_objs (b_objs x ++ [length (w_ents w)]) x) (new_ent e w)) in *.
  pose proof (IH w1) as IH1. 
  destruct (load_entities b cust r w1) as [[w2 r'] o] eqn:E. injection H as <- <- ->.
  destruct k; simpl in Hk.
  - injection Hk as ->. rewrite Nat.add_0_r. exists e. rewrite C. split; auto.
    assert (ent w1 (length (w_ents w)) = Some e) as He1.
    { unfold w1. rewrite ent_upd_bp, ent_new, Nat.eqb_refl. auto. }
    eapply load_entities_old; eauto.
  - destruct (IH1 w2 r' k kw eq_refl Hk) as (e1 & H1 & H2). exists e1. split; [|exact H2].
    rewrite <- H1. f_equal. unfold w1. simpl. rewrite app_length. simpl. lia.
Qed.
Lemma load_ent_nth b doc w w' d' x k kw : blu w b = Some x -> load b doc w = (w', d', Ok tt) ->
  nth_error (doc_list (inner_doc doc) "entities") k = Some (VDict kw) ->
  exists e0 e, snd (construct (w_protos w) (b_custom x) (Some b) kw) = Ok e0 /\
    ent w' (length (w_ents w) + k) = Some e /\ with_auto VNone e = with_auto VNone e0.
Proof.
  intros Hx H Hk. destruct (load_cases _ _ _ _ _ _ H Hx) as (i' & L).
  apply load_inner_ok with (x := x) in L as (w1 & w2 & l' & w3 & w4 & E1 & E2 & E3 & E4 & E5); auto.
  pose proof (frame_load_head _ _ b (inner_doc doc) w (frame_refl w)) as [F1 F1']. rewrite E1 in F1, F1'. simpl in F1, F1'.
  assert (Pr : w_protos w1 = w_protos w).
  { assert (K : keeps (fun w1 => w_protos w1 = w_protos w) (load_head b (inner_doc doc))).
    { unfold load_head. apply keeps_bind; [apply keeps_modify; auto|]. intros _. apply keeps_bind.
      - destruct (dataget _ "label_color" VNone); try apply keeps_ret;
          (apply keeps_bind; [apply keeps_gets|]; intros; apply keeps_modify; auto).
      - intros _. apply keeps_bind; [apply keeps_modify; auto|]. intros _. apply keeps_bind; [apply keeps_gets|].
        intros icons w1' HH. destruct (foldE _ icons _). auto. }
    specialize (K w eq_refl). rewrite E1 in K. exact K. }
  destruct (load_entities_nth _ _ _ _ _ _ _ _ E2 Hk) as (e0 & He0 & Hc). rewrite Pr in Hc. rewrite F1 in He0.
  apply sort_layer_ok in E3 as (x2 & l2 & Hx2 & Hs & ->).
  set (n := (length (w_ents w) + k)%nat) in *.
  pose proof (reindex_ent 1 l2 (upd_bp b (b_set_objs l2) w2) n) as R. rewrite ent_upd_bp, He0 in R.
  destruct (ent (reindex 1 l2 (upd_bp b (b_set_objs l2) w2)) n) as [e|] eqn:He; [|discriminate]. injection R as R.
  exists e0, e. split; auto. split; [|unfold with_auto; congruence].
  pose proof (frame_load_tail2 _ _ b (inner_doc doc) _ (frame_refl (reindex 1 l2 (upd_bp b (b_set_objs l2) w2)))) as [F4 _]. rewrite E4 in F4. simpl in F4.
  pose proof (frame_load_scheds _ _ b (inner_doc doc) w4 (frame_refl w4)) as [F5 _]. rewrite E5 in F5. simpl in F5.
  unfold ent. rewrite F5, F4. exact He.
Qed.
Lemma p_C49_loaded w b doc w' d' x k kw ops : blu w b = Some x -> load b doc w = (w', d', Ok tt) ->
  nth_error (doc_list (inner_doc doc) "entities") k = Some (VDict kw) ->
  exists e, ent (run ops w') (length (w_ents w) + k) = Some e /\
            e_number e = odflt VNone (dget "entity_number" kw).
Proof.
  intros Hx H Hk. destruct (load_ent_nth _ _ _ _ _ _ _ _ Hx H Hk) as (e0 & e & Hc & He & EQ).
  apply construct_fixed in Hc as [Hn _].
  destruct (run_persists ops w' _ _ He) as (e2 & He2 & F2). exists e2. split; auto.
  assert (e_number e = e_number e0) by (unfold with_auto in EQ; congruence).
  unfold fixed_part in F2. congruence.
Qed.
