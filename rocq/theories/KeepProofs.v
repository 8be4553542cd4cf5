(** * What only a load changes in a blueprint. *)
From Coq Require Import Lia.
From Verif Require Import Py Num Util Classes Mixins Entity World WorldFacts SetFacts Inv SpecWorld LayerProofs PersistProofs SpecDoc.

Section Keep.
Context (t : nat).
Definition keeps (w0 w : world) : Prop :=
  forall x, blu w0 t = Some x -> exists x', blu w t = Some x' /\ settings x' = settings x.
Lemma keeps_refl w : keeps w w.
Proof. intros x H. eauto. Qed.
Lemma keeps_trans a b c : keeps a b -> keeps b c -> keeps a c.
Proof.
  intros H K x Hx. destruct (H _ Hx) as (y & H1 & E1). destruct (K _ H1) as (z & H2 & E2). exists z. split; congruence.
Qed.
Lemma keeps_ents w w' : w_bps w' = w_bps w -> keeps w w'.
Proof. intros E x Hx. exists x. split; auto. unfold blu in *. now rewrite E. Qed.
Lemma kp_upd i f w : keeps w (upd_ent i f w). Proof. now apply keeps_ents. Qed.
Lemma kp_new e w : keeps w (new_ent e w). Proof. now apply keeps_ents. Qed.
Lemma kp_bp b f w : (forall x, settings (f x) = settings x) -> keeps w (upd_bp b f w).
Proof. intros H x Hx. rewrite blu_upd, Hx. destruct (Nat.eqb b t); cbn; eauto. Qed.
Lemma kp_bp_other b f w : b <> t -> keeps w (upd_bp b f w).
Proof. intros H x Hx. rewrite blu_upd, Hx. destruct (Nat.eqb_spec b t); [congruence|eauto]. Qed.
Definition kp {A} (m : M A) : Prop := forall w, keeps w (fst (m w)).
Lemma kp_bind {A B} (m : M A) (f : A -> M B) : kp m -> (forall a, kp (f a)) -> kp (mbind m f).
Proof.
  intros H K w. rewrite mbind_fst. destruct (snd (m w)) as [a|]; [|apply H].
  eapply keeps_trans; [apply H|apply K].
Qed.
Lemma kp_ret {A} (a : A) : kp (ret a). Proof. intros w; apply keeps_refl. Qed.
Lemma kp_raise {A} e : kp (@raise A e). Proof. intros w; apply keeps_refl. Qed.
Lemma kp_gets {A} (f : world -> res A) : kp (gets f). Proof. intros w; apply keeps_refl. Qed.
Lemma kp_modify f : (forall w, keeps w (f w)) -> kp (modify f). Proof. intros H w; apply H. Qed.
Lemma kp_forM {X} (f : X -> M unit) l : (forall x, kp (f x)) -> kp (forM f l).
Proof.
  intros H w. unfold forM. apply (foldE_inv (fun w' => keeps w w')); [|apply keeps_refl].
  intros a x _ Ha. eapply keeps_trans; [exact Ha|apply H].
Qed.
Lemma kp_mapMM {X Y} (f : X -> M Y) l : (forall x, kp (f x)) -> kp (mapMM f l).
Proof.
  intros H. induction l as [|x r IH]; simpl; [apply kp_ret|].
  apply kp_bind; auto. intros y. apply kp_bind; auto. intros ys. apply kp_ret.
Qed.
Lemma kp_reindex l : forall i w, keeps w (reindex i l w).
Proof.
  induction l as [|o r IH]; simpl; intros i w; [apply keeps_refl|].
  eapply keeps_trans; [|apply IH]. apply kp_upd.
Qed.
Ltac kp :=
  repeat match goal with
    | |- kp (ret _) => apply kp_ret
    | |- kp (raise _) => apply kp_raise
    | |- kp (gets _) => apply kp_gets
    | |- kp (mbind _ _) => apply kp_bind; [|intros ?]
    | |- kp (forM _ _) => apply kp_forM; intros ?
    | |- kp (mapMM _ _) => apply kp_mapMM; intros ?
    | |- kp (modify _) => apply kp_modify; intros ?
    | |- kp (if ?c then _ else _) => destruct c
    | |- kp (match ?c with _ => _ end) => destruct c
    | |- keeps ?w ?w => apply keeps_refl
    | |- keeps ?w (upd_bp _ _ ?w) => apply kp_bp; solve [intros ?; reflexivity]
    | |- keeps ?w (upd_ent _ _ ?w) => apply kp_upd
    | |- keeps _ (reindex _ _ _) => eapply keeps_trans; [|apply kp_reindex]
    end.
Lemma kp_sort b : kp (sort_layer b).
Proof. unfold sort_layer, get_bp. kp. Qed.
Lemma kp_add b o : kp (layer_add b o).
Proof. unfold layer_add, get_ent, get_bp. destruct o; kp. apply kp_sort. Qed.
Lemma kp_drop b i : kp (drop_obj b i).
Proof. unfold drop_obj, get_bp. kp. Qed.
Lemma kp_new_entity l kw : kp (new_entity l kw).
Proof.
  unfold new_entity, get_bp. apply kp_bind; [kp|]. intros cust w.
  destruct (snd (construct _ _ _ _)); simpl; [apply kp_new|apply keeps_refl].
Qed.
Lemma kp_make b kw : kp (layer_make b kw).
Proof. unfold layer_make. kp; [apply kp_new_entity|apply kp_add]. Qed.
Lemma kp_get_connections e : kp (get_connections e).
Proof. unfold get_connections, get_ent, get_bp. kp. Qed.
Lemma kp_ent_json i : kp (ent_json i).
Proof. unfold ent_json, get_ent, connections_to_json. kp. apply kp_get_connections. Qed.
Lemma kp_bp_json b : kp (bp_json b).
Proof. unfold bp_json, layer_json, get_bp. kp. apply kp_ent_json. Qed.
Lemma kp_parse b : kp (parse_connections b).
Proof.
  unfold parse_connections, get_bp. apply kp_bind; [kp|]. intros x. apply kp_bind.
  - intros w. destruct (foldE _ _ _). apply kp_bp. reflexivity.
  - intros _. kp. apply kp_get_connections.
Qed.
Lemma kp_rotate_ent n a r i : kp (rotate_ent n a r i).
Proof.
  intros w. unfold rotate_ent. destruct (ent w i) as [e|]; [|apply keeps_refl]. destruct (entity_rotate _ _ _ _). intros x Hx. eauto.
Qed.
Lemma kp_load_entities b cust l : forall w, keeps w (fst (fst (load_entities b cust l w))).
Proof.
  induction l as [|v r IH]; simpl; intros w; [apply keeps_refl|].
  destruct v; try apply keeps_refl.
  destruct (construct (w_protos w) cust (Some b) d) as [kw' [e|y]]; [|apply keeps_refl].
  specialize (IH (upd_bp b (fun x => b_set_objs (b_objs x ++ [length (w_ents w)]) x) (new_ent e w))).
  destruct (load_entities b cust r _) as [[w2 r'] o]. simpl in *.
  eapply keeps_trans; [|exact IH]. eapply keeps_trans; [apply kp_new|apply kp_bp; reflexivity].
Qed.
Lemma kp_load_tail b d : kp (load_tail b d).
Proof.
  unfold load_tail, get_bp. apply kp_bind; [apply kp_sort|]. intros _. apply kp_bind; [apply kp_parse|]. intros _.
  apply kp_bind; [kp|]. intros tiles. apply kp_bind; [kp|]. intros x. apply kp_bind; [|intros; kp].
  intros w1. destruct (foldE _ _ _). apply kp_bp. reflexivity.
Qed.
Ltac kpo := repeat (kp; try match goal with |- keeps ?w (upd_bp _ _ ?w) => apply kp_bp_other; assumption end).
Lemma kp_load b doc w : b <> t -> keeps w (fst (fst (load b doc w))).
Proof.
  intros NB.
  assert (L : forall cust d, keeps w (fst (fst (load_inner b cust d w)))).
  { intros cust d. unfold load_inner.
    assert (P1 : kp (load_head b d)).
    { unfold load_head. kpo. intros w1. destruct (foldE _ _ _). now apply kp_bp_other. }
    assert (P2 : kp (load_tail b d)).
    { unfold load_tail, get_bp. apply kp_bind; [apply kp_sort|]. intros _. apply kp_bind; [apply kp_parse|]. intros _.
      apply kp_bind; [kp|]. intros tiles. apply kp_bind; [kp|]. intros x. apply kp_bind; [|intros; kpo].
      intros w1. destruct (foldE _ _ _). now apply kp_bp_other. }
    assert (P3 : kp (load_scheds b d)) by (unfold load_scheds; kpo).
    specialize (P1 w). destruct (load_head b d w) as [w1 [u|e]]; simpl in *; auto.
    destruct (iter_val _) as [ents|]; auto.
    pose proof (kp_load_entities b cust ents w1) as P4. destruct (load_entities b cust ents w1) as [[w2 l'] [u2|e]]; simpl in *.
    2: { eapply keeps_trans; eauto. }
    specialize (P2 w2). destruct (load_tail b d w2) as [w3 [u3|e]]; simpl in *.
    2: { eapply keeps_trans; [eauto|]. eapply keeps_trans; eauto. }
    specialize (P3 w3). destruct (load_scheds b d w3) as [w4 r]. simpl in *.
    eapply keeps_trans; [eauto|]. eapply keeps_trans; [eauto|]. eapply keeps_trans; eauto. }
  unfold load. destruct (blu w b) as [x|]; [|apply keeps_refl].
  destruct doc; try apply keeps_refl. destruct (dget "blueprint" d) as [v|].
  - destruct v; try apply keeps_refl. specialize (L (b_custom x) d0).
    destruct (load_inner b (b_custom x) d0 w) as [[w' i'] r]. exact L.
  - specialize (L (b_custom x) d). destruct (load_inner b (b_custom x) d w) as [[w' i'] r]. exact L.
Qed.
Lemma kp_protos p w : keeps w (set_protos p w).
Proof. now apply keeps_ents. Qed.
Lemma step_keeps o w : is_load_of t o = false -> keeps w (fst (step o w)).
Proof.
  intros NL. destruct o; simpl step; rewrite ?drop_res_fst; unfold get_ent, get_bp.
  - intros x Hx. exists x. split; auto. cbn. unfold blu in *. cbn. rewrite nth_error_app1; auto. apply nth_error_Some. congruence.
  - apply Nat.eqb_neq in NL. pose proof (kp_load b doc w NL) as K. destruct (load b doc w) as [[w' d'] r]. exact K.
  - apply kp_new_entity.
  - apply kp_make.
  - apply kp_add.
  - destruct o; [apply kp_drop|apply keeps_refl].
  - assert (kp (layer_del_at b pt)) as H; [|apply H]. unfold layer_del_at, layer_at, get_bp. kp. apply kp_drop.
  - assert (kp (layer_at b pt)) as H; [|apply H]. unfold layer_at, get_bp. kp.
  - assert (kp (connect e target fs ts col)) as H; [|apply H]. unfold connect, get_ent, get_bp. kp.
  - apply kp_get_connections.
  - assert (kp (bp_rotate b amount around r)) as H; [|apply H]. unfold bp_rotate, layer_rotate, tiles_rotate, get_bp.
    apply kp_bind; [apply kp_bind; [kp|]; intros; apply kp_bind; [apply kp_forM; intros; apply kp_rotate_ent|intros; apply kp_sort]|].
    intros _. apply kp_bind; [kp|]. intros x. apply kp_bind; [|intros; kp].
    intros w1. destruct (rotate_tiles _ _ _ _). apply kp_bp. reflexivity.
  - apply kp_rotate_ent.
  - unfold rename. destruct (ent w e) as [en|] eqn:He; [|apply keeps_refl].
    destruct (set_name _ _ _ _). apply kp_upd.
  - assert (kp (set_position e v)) as H; [|apply H]. unfold set_position, get_ent. kp.
  - assert (kp (set_direction e v)) as H; [|apply H]. unfold set_direction, get_ent. kp.
  - destruct (assign_attr_form e k v w) as [->|(x & a & _ & _ & ->)]; [apply keeps_refl|apply kp_upd].
  - destruct (assign_cb_form e k v w) as [->|(x & cb & a & _ & _ & _ & ->)]; [apply keeps_refl|apply kp_upd].
  - assert (kp (ent_set_mixins e ms)) as H; [|apply H]. unfold ent_set_mixins, get_ent. kp.
  - assert (kp (ent_add_mixins e ms)) as H; [|apply H]. unfold ent_add_mixins, get_ent. kp.
  - assert (kp (tiles_make b kw)) as H; [|apply H]. unfold tiles_make, tiles_add, get_bp. kp.
  - assert (kp (tiles_add b t0)) as H; [|apply H]. unfold tiles_add, get_bp. kp.
  - assert (kp (conn_call conn_flip b k)) as H; [|apply H]. unfold conn_call, get_bp. kp.
  - assert (kp (conn_call flip_color b k)) as H; [|apply H]. unfold conn_call, get_bp. kp.
  - assert (kp (set_label b label c)) as H; [|apply H]. unfold set_label, get_bp. kp.
  - assert (kp (recenter b around)) as H; [|apply H]. unfold recenter, center, maximum_values, get_ent, get_bp. kp.
  - apply kp_bp_json.
  - apply kp_ent_json.
  - apply kp_sort.
  - apply kp_protos.
  - destruct (import_prototype_data _ _ _). apply kp_protos.
Qed.
Lemma run_keeps ops : forall w, (forall o, In o ops -> is_load_of t o = false) -> keeps w (run ops w).
Proof.
  induction ops as [|o r IH]; simpl; intros w H; [apply keeps_refl|].
  eapply keeps_trans; [apply step_keeps; apply H; auto|apply IH; intros; apply H; auto].
Qed.
End Keep.
