(** * How one entity may change: a preorder that every operation respects. *)
From Coq Require Import Lia QArith.
From Verif Require Import Py Num NumFacts Util Classes Mixins Entity World WorldFacts SetFacts
  Inv SortFacts SpecWorld SpecDoc SpecEntity SpecRename LayerProofs.
Open Scope Z_scope.

(** [R] is respected by everything that changes neither names nor mixins; by everything but
    [set_mixins] *)
Record tame (R : entity -> entity -> Prop) : Prop := mkTame {
  g_refl : forall e, R e e; g_trans : forall a b c, R a b -> R b c -> R a c;
  g_layer : forall l e, R e (with_layer l e); g_auto : forall v e, R e (with_auto v e);
  g_pos : forall p e, R e (with_pos p e); g_dir : forall d e, R e (with_dir d e);
  g_rotate : forall n a cw e, R e (fst (entity_rotate n a cw e)) }.
Record growing (R : entity -> entity -> Prop) : Prop := mkGrowing {
  g_tame :> tame R;
  g_name : forall p cust v e, R e (fst (set_name p cust v e));
  g_add : forall ms c e, add_mixins (e_cls e) ms = Ok c -> R e (with_cls c e) }.
(** [R] is respected by assignments to attributes too *)
Definition tolerant (R : entity -> entity -> Prop) : Prop := (forall a e, R e (with_at a e)) /\ (forall c e, R e (with_cb (Some c) e)).
Section Grow.
Context (tg : nat) (R : entity -> entity -> Prop) (G : tame R).
Definition persists (w0 w : world) : Prop :=
  forall e, ent w0 tg = Some e -> exists e', ent w tg = Some e' /\ R e e'.
Lemma persists_refl w : persists w w.
Proof. intros e H. eauto using (g_refl R G). Qed.
Lemma persists_trans a b c : persists a b -> persists b c -> persists a c.
Proof.
  intros H K e He. destruct (H _ He) as (e1 & H1 & E1). destruct (K _ H1) as (e2 & H2 & E2).
  exists e2. split; auto. eapply (g_trans R G); eauto.
Qed.
Lemma per_upd i f w : (forall e, ent w i = Some e -> i = tg -> R e (f e)) -> persists w (upd_ent i f w).
Proof.
  intros Hf e He. rewrite ent_upd, He. destruct (Nat.eqb_spec i tg) as [->|]; simpl; eauto using (g_refl R G).
Qed.
Lemma per_bp b f w : persists w (upd_bp b f w).
Proof. intros e He. eauto using (g_refl R G). Qed.
Lemma per_new e w : persists w (new_ent e w).
Proof.
  intros e0 He. rewrite ent_new. destruct (Nat.eqb_spec tg (length (w_ents w))) as [E|]; eauto using (g_refl R G). exfalso. rewrite E in He.
  assert (length (w_ents w) < length (w_ents w))%nat; [|lia]. apply nth_error_Some. unfold ent in He. congruence.
Qed.
Definition per {A} (m : M A) : Prop := forall w, persists w (fst (m w)).
Lemma per_bind {A B} (m : M A) (f : A -> M B) : per m -> (forall a, per (f a)) -> per (mbind m f).
Proof.
  intros H K w. rewrite mbind_fst. destruct (snd (m w)) as [a|]; [|apply H].
  eapply persists_trans; [apply H|apply K].
Qed.
Lemma per_ret {A} (a : A) : per (ret a). Proof. intros w; apply persists_refl. Qed.
Lemma per_raise {A} e : per (@raise A e). Proof. intros w; apply persists_refl. Qed.
Lemma per_gets {A} (f : world -> res A) : per (gets f). Proof. intros w; apply persists_refl. Qed.
Lemma per_modify f : (forall w, persists w (f w)) -> per (modify f). Proof. intros H w; apply H. Qed.
Lemma per_forM {X} (f : X -> M unit) l : (forall x, per (f x)) -> per (forM f l).
Proof.
  intros H w. unfold forM. apply (foldE_inv (fun w' => persists w w')); [|apply persists_refl].
  intros a x _ Ha. eapply persists_trans; [exact Ha|apply H].
Qed.
Lemma per_mapMM {X Y} (f : X -> M Y) l : (forall x, per (f x)) -> per (mapMM f l).
Proof.
  intros H. induction l as [|x r IH]; simpl; [apply per_ret|].
  apply per_bind; auto. intros y. apply per_bind; auto. intros ys. apply per_ret.
Qed.
Lemma per_reindex l : forall i w, persists w (reindex i l w).
Proof.
  induction l as [|o r IH]; simpl; intros i w; [apply persists_refl|].
  eapply persists_trans; [|apply IH]. apply per_upd. intros; apply (g_auto R G).
Qed.
Ltac per :=
  repeat match goal with
    | |- per (ret _) => apply per_ret
    | |- per (raise _) => apply per_raise
    | |- per (gets _) => apply per_gets
    | |- per (mbind _ _) => apply per_bind; [|intros ?]
    | |- per (forM _ _) => apply per_forM; intros ?
    | |- per (mapMM _ _) => apply per_mapMM; intros ?
    | |- per (modify _) => apply per_modify; intros ?
    | |- per (if ?c then _ else _) => destruct c
    | |- per (match ?c with _ => _ end) => destruct c
    | |- persists ?w ?w => apply persists_refl
    | |- persists ?w (upd_bp _ _ ?w) => apply per_bp
    | |- persists ?w (upd_ent _ _ ?w) => apply per_upd; solve [intros; first [apply (g_layer R G)|apply (g_auto R G)|apply (g_pos R G)|apply (g_dir R G)]]
    | |- persists _ (reindex _ _ _) => eapply persists_trans; [|apply per_reindex]
    end.
Lemma per_sort b : per (sort_layer b).
Proof. unfold sort_layer, get_bp. per. Qed.
Lemma per_add b o : per (layer_add b o).
Proof. unfold layer_add, get_ent, get_bp. destruct o; per. apply per_sort. Qed.
Lemma per_drop b i : per (drop_obj b i).
Proof. unfold drop_obj, get_bp. per. Qed.
Lemma per_new_entity l kw : per (new_entity l kw).
Proof.
  unfold new_entity, get_bp. apply per_bind; [per|]. intros cust w.
  destruct (snd (construct _ _ _ _)); simpl; [apply per_new|apply persists_refl].
Qed.
Lemma per_make b kw : per (layer_make b kw).
Proof. unfold layer_make. per; [apply per_new_entity|apply per_add]. Qed.
Lemma per_get_connections e : per (get_connections e).
Proof. unfold get_connections, get_ent, get_bp. per. Qed.
Lemma per_ent_json i : per (ent_json i).
Proof. unfold ent_json, get_ent, connections_to_json. per. apply per_get_connections. Qed.
Lemma per_bp_json b : per (bp_json b).
Proof. unfold bp_json, layer_json, get_bp. per. apply per_ent_json. Qed.
Lemma per_parse b : per (parse_connections b).
Proof.
  unfold parse_connections, get_bp. apply per_bind; [per|]. intros x. apply per_bind.
  - intros w. destruct (foldE _ _ _). apply per_bp.
  - intros _. per. apply per_get_connections.
Qed.
Lemma per_rotate_ent n a r i : per (rotate_ent n a r i).
Proof.
  intros w. unfold rotate_ent. destruct (ent w i) as [e|] eqn:He; [|apply persists_refl].
  pose proof (g_rotate R G n a (ent_cw r) e) as F. destruct (entity_rotate n a (ent_cw r) e) as [e' o].
  simpl in *. apply per_upd. intros e0 He0 _. congruence.
Qed.
Lemma per_load_entities b cust l : forall w, persists w (fst (fst (load_entities b cust l w))).
Proof.
  induction l as [|v r IH]; simpl; intros w; [apply persists_refl|].
  destruct v; try apply persists_refl.
  destruct (construct (w_protos w) cust (Some b) d) as [kw' [e|y]]; [|apply persists_refl].
  specialize (IH (upd_bp b (fun x => b_set_objs (b_objs x ++ [length (w_ents w)]) x) (new_ent e w))).
  destruct (load_entities b cust r _) as [[w2 r'] o]. simpl in *.
  eapply persists_trans; [|exact IH]. eapply persists_trans; [apply per_new|apply per_bp].
Qed.
Lemma per_tail b d : per (load_tail b d).
Proof.
  unfold load_tail, get_bp. apply per_bind; [apply per_sort|]. intros _. apply per_bind; [apply per_parse|]. intros _.
  apply per_bind; [per|]. intros tiles. apply per_bind; [per|]. intros x. apply per_bind; [|intros; per].
  intros w1. destruct (foldE _ _ _). apply per_bp.
Qed.
Lemma per_scheds b d : per (load_scheds b d).
Proof. unfold load_scheds; per. Qed.
Lemma per_load b doc w : persists w (fst (fst (load b doc w))).
Proof.
  assert (L : forall cust d, persists w (fst (fst (load_inner b cust d w)))).
  { intros cust d. unfold load_inner.
    assert (P1 : per (load_head b d)).
    { unfold load_head. per. intros w1. destruct (foldE _ _ _). apply per_bp. }
    pose proof (per_tail b d) as P2.
    pose proof (per_scheds b d) as P3.
    specialize (P1 w). destruct (load_head b d w) as [w1 [u|e]]; simpl in *; auto.
    destruct (iter_val _) as [ents|]; auto.
    pose proof (per_load_entities b cust ents w1) as P4. destruct (load_entities b cust ents w1) as [[w2 l'] [u2|e]]; simpl in *.
    2: { eapply persists_trans; eauto. }
    specialize (P2 w2). destruct (load_tail b d w2) as [w3 [u3|e]]; simpl in *.
    2: { eapply persists_trans; [eauto|]. eapply persists_trans; eauto. }
    specialize (P3 w3). destruct (load_scheds b d w3) as [w4 r]. simpl in *.
    eapply persists_trans; [eauto|]. eapply persists_trans; [eauto|]. eapply persists_trans; eauto. }
  unfold load. destruct (blu w b) as [x|]; [|apply persists_refl].
  destruct doc; try apply persists_refl. destruct (dget "blueprint" d) as [v|].
  - destruct v; try apply persists_refl. specialize (L (b_custom x) d0).
    destruct (load_inner b (b_custom x) d0 w) as [[w' i'] r]. exact L.
  - specialize (L (b_custom x) d). destruct (load_inner b (b_custom x) d w) as [[w' i'] r]. exact L.
Qed.
Lemma per_protos p w : persists w (set_protos p w).
Proof. intros e He. eauto using (g_refl R G). Qed.
Context (GG : growing R).
Lemma step_grows o w : leaves_settings tg o \/ leaves_mixins tg o /\ tolerant R -> persists w (fst (step o w)).
Proof.
  intros LS. assert (LM : leaves_mixins tg o) by (destruct LS as [LS|[LM _]]; [destruct o; cbn in *; auto|auto]). destruct o; simpl step; rewrite ?drop_res_fst; unfold get_ent, get_bp.
  - intros e He. eauto using (g_refl R G).
  - pose proof (per_load b doc w) as K. destruct (load b doc w) as [[w' d'] r]. exact K.
  - apply per_new_entity.
  - apply per_make.
  - apply per_add.
  - destruct o; [apply per_drop|apply persists_refl].
  - assert (per (layer_del_at b pt)) as H; [|apply H]. unfold layer_del_at, layer_at, get_bp. per. apply per_drop.
  - assert (per (layer_at b pt)) as H; [|apply H]. unfold layer_at, get_bp. per.
  - assert (per (connect e target fs ts col)) as H; [|apply H]. unfold connect, get_ent, get_bp. per.
  - apply per_get_connections.
  - assert (per (bp_rotate b amount around r)) as H; [|apply H]. unfold bp_rotate, layer_rotate, tiles_rotate, get_bp.
    apply per_bind; [apply per_bind; [per|]; intros; apply per_bind; [apply per_forM; intros; apply per_rotate_ent|intros; apply per_sort]|].
    intros _. apply per_bind; [per|]. intros x. apply per_bind; [|intros; per].
    intros w1. destruct (rotate_tiles _ _ _ _). apply per_bp.
  - apply per_rotate_ent.
  - unfold rename. destruct (ent w e) as [en|] eqn:He; [|apply persists_refl].
    match goal with |- context [set_name ?p ?c v en] => pose proof (g_name R GG p c v en) as HF;
      destruct (set_name p c v en) as [e' o] end. simpl in *. apply per_upd. intros e0 He0 _. congruence.
  - assert (per (set_position e v)) as H; [|apply H]. unfold set_position, get_ent. per.
  - assert (per (set_direction e v)) as H; [|apply H]. unfold set_direction, get_ent. per.
  - destruct (assign_attr_form e k v w) as [->|(x & a & _ & _ & ->)]; [apply persists_refl|]. apply per_upd. intros e0 _ E.
    destruct LS as [LS|[_ T]]; [destruct (LS E)|apply T].
  - destruct (assign_cb_form e k v w) as [->|(x & cb & a & _ & _ & _ & ->)]; [apply persists_refl|]. apply per_upd. intros e0 _ E.
    destruct LS as [LS|[_ T]]; [destruct (LS E)|apply T].
  - assert (per (ent_set_mixins e ms)) as H; [|apply H]. unfold ent_set_mixins, get_ent. per.
    apply per_upd. intros e0 He0 E. destruct (LM E).
  - unfold ent_add_mixins, mbind, get_ent, gets. destruct (ent w e) as [en|] eqn:He; [|apply persists_refl].
    destruct (add_mixins (e_cls en) ms) as [c|] eqn:D; [|apply persists_refl]. cbn. apply per_upd. intros e0 He0 _.
    replace e0 with en by congruence. now apply (g_add R GG ms).
  - assert (per (tiles_make b kw)) as H; [|apply H]. unfold tiles_make, tiles_add, get_bp. per.
  - assert (per (tiles_add b t)) as H; [|apply H]. unfold tiles_add, get_bp. per.
  - assert (per (conn_call conn_flip b k)) as H; [|apply H]. unfold conn_call, get_bp. per.
  - assert (per (conn_call flip_color b k)) as H; [|apply H]. unfold conn_call, get_bp. per.
  - assert (per (set_label b label c)) as H; [|apply H]. unfold set_label, get_bp. per.
  - assert (per (recenter b around)) as H; [|apply H]. unfold recenter, center, maximum_values, get_ent, get_bp. per.
  - apply per_bp_json.
  - apply per_ent_json.
  - apply per_sort.
  - apply per_protos.
  - destruct (import_prototype_data _ _ _). apply per_protos.
Qed.
Lemma run_grows ops : Forall (leaves_settings tg) ops \/ Forall (leaves_mixins tg) ops /\ tolerant R -> forall w, persists w (run ops w).
Proof.
  intros H. assert (F : Forall (fun o => leaves_settings tg o \/ leaves_mixins tg o /\ tolerant R) ops).
  { destruct H as [H|[H T]]; eapply Forall_impl; [|exact H| |exact H]; auto. }
  clear H. revert F. induction ops as [|o r IH]; simpl; intros F w; [apply persists_refl|]. inversion F; subst.
  eapply persists_trans; [apply step_grows|apply IH]; auto.
Qed.
End Grow.
