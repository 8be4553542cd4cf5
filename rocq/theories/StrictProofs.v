(** * The [strict] flag of a blueprint is never read. *)
From Coq Require Import Lia.
From Verif Require Import Py Num Util Classes Mixins Entity Setters World WorldFacts SpecStrict.

Definition erb (x : bp) : bp :=
  mkBp true (b_custom x) (b_objs x) (b_tiles x) (b_item x) (b_label x) (b_label_color x) (b_icons x)
       (b_version x) (b_conns x) (b_scheds x).
Definition er (w : world) : world := mkWorld (w_protos w) (w_ents w) (map erb (w_bps w)).

Lemma er_ent w i : ent (er w) i = ent w i. Proof. reflexivity. Qed.
Lemma er_blu w b : blu (er w) b = option_map erb (blu w b).
Proof. unfold blu, er. cbn. apply nth_error_map. Qed.
Lemma lupd_map {A B} (g : A -> B) f f' l : (forall x, f' (g x) = g (f x)) ->
  forall i, lupd i f' (map g l) = map g (lupd i f l).
Proof. intros H. induction l as [|x r IH]; intros [|i]; cbn; auto; now rewrite ?H, ?IH. Qed.
Lemma er_upd_bp b f w : (forall x, f (erb x) = erb (f x)) -> upd_bp b f (er w) = er (upd_bp b f w).
Proof. intros H. unfold upd_bp, er. cbn. f_equal. now apply lupd_map. Qed.
Lemma er_upd_ent i f w : upd_ent i f (er w) = er (upd_ent i f w). Proof. reflexivity. Qed.
Lemma er_new_ent e w : new_ent e (er w) = er (new_ent e w). Proof. reflexivity. Qed.
Lemma er_new_bp x w : new_bp (erb x) (er w) = er (new_bp x w).
Proof. unfold new_bp, er. cbn. now rewrite map_app. Qed.
Lemma er_reindex l : forall i w, reindex i l (er w) = er (reindex i l w).
Proof. induction l; intros; cbn; auto. rewrite er_upd_ent. apply IHl. Qed.
Lemma er_sorted w l : sorted_objs (er w) l = sorted_objs w l. Proof. reflexivity. Qed.
Lemma er_byid w b n : get_entity_by_id (er w) b n = get_entity_by_id w b n.
Proof.
  unfold get_entity_by_id. rewrite er_blu. destruct (blu w b) as [x|]; cbn; auto.
  induction (b_objs x) as [|i r IH]; cbn; auto. rewrite er_ent, IH. reflexivity.
Qed.

Definition com {A} (m : M A) : Prop := forall w, m (er w) = (er (fst (m w)), snd (m w)).
Lemma com_bind {A B} (m : M A) (f : A -> M B) : com m -> (forall a, com (f a)) -> com (mbind m f).
Proof.
  intros H K w. unfold mbind. rewrite H. destruct (m w) as [w1 [a|e]]; cbn; auto. apply K.
Qed.
Lemma com_ret {A} (a : A) : com (ret a). Proof. intros w; reflexivity. Qed.
Lemma com_raise {A} e : com (@raise A e). Proof. intros w; reflexivity. Qed.
Lemma com_gets {A} (f : world -> res A) : (forall w, f (er w) = f w) -> com (gets f).
Proof. intros H w. unfold gets. now rewrite H. Qed.
Lemma com_modify f : (forall w, f (er w) = er (f w)) -> com (modify f).
Proof. intros H w. unfold modify. cbn. now rewrite H. Qed.
Lemma com_get_bp {B} b (k : bp -> M B) :
  (forall x, k (erb x) = k x) -> (forall x, com (k x)) -> com (do x <- get_bp b; k x).
Proof.
  intros E K w. unfold mbind, get_bp, gets. rewrite er_blu.
  destruct (blu w b) as [x|]; cbn; auto. rewrite E. apply K.
Qed.
Lemma com_get_ent i : com (get_ent i). Proof. apply com_gets. reflexivity. Qed.
Lemma com_forM {X} (f : X -> M unit) l : (forall x, com (f x)) -> com (forM f l).
Proof.
  intros H. unfold forM. intros w. revert w. induction l as [|x r IH]; intros w; cbn; auto.
  rewrite (H x w). destruct (f x w) as [w1 [u|e]]; cbn; auto.
Qed.
Lemma com_mapMM {X Y} (f : X -> M Y) l : (forall x, com (f x)) -> com (mapMM f l).
Proof.
  intros H. induction l as [|x r IH]; cbn; [apply com_ret|].
  apply com_bind; auto. intros y. apply com_bind; auto. intros ys. apply com_ret.
Qed.
Ltac com :=
  repeat match goal with
    | |- com (ret _) => apply com_ret
    | |- com (raise _) => apply com_raise
    | |- com (get_ent _) => apply com_get_ent
    | |- com (mbind (get_bp _) _) => apply com_get_bp; [intros ?; reflexivity|intros ?]
    | |- com (gets _) => apply com_gets; intros ?; try reflexivity
    | |- com (mbind _ _) => apply com_bind; [|intros ?]
    | |- com (forM _ _) => apply com_forM; intros ?
    | |- com (mapMM _ _) => apply com_mapMM; intros ?
    | |- com (modify (upd_bp _ _)) => apply com_modify; intros ?; apply er_upd_bp; intros ?; reflexivity
    | |- com (modify _) => apply com_modify; intros ?; try reflexivity
    | |- com (if ?c then _ else _) => destruct c
    | |- com (match ?c with _ => _ end) => destruct c
    end.

Lemma com_sort b : com (sort_layer b).
Proof. unfold sort_layer. com. apply er_reindex. Qed.
Lemma com_add b o : com (layer_add b o).
Proof. unfold layer_add. com. apply com_sort. Qed.
Lemma com_drop b i : com (drop_obj b i).
Proof. unfold drop_obj. com. Qed.
Lemma at_list_er w pt l : at_list (er w) pt l = at_list w pt l.
Proof. induction l as [|i r IH]; cbn; auto. rewrite IH. reflexivity. Qed.
Lemma com_at b pt : com (layer_at b pt).
Proof. unfold layer_at. com. apply at_list_er. Qed.
Lemma com_del_at b pt : com (layer_del_at b pt).
Proof. unfold layer_del_at. com. apply com_at. apply com_drop. Qed.
Lemma com_new_entity l kw : com (new_entity l kw).
Proof.
  unfold new_entity. apply com_bind; [com|]. intros cust w. cbn.
  destruct (snd (construct _ _ _ _)); reflexivity.
Qed.
Lemma com_make b kw : com (layer_make b kw).
Proof. unfold layer_make. com. apply com_new_entity. apply com_add. Qed.
Lemma com_connect e t fs ts col : com (connect e t fs ts col).
Proof. unfold connect. com. Qed.
Lemma com_get_connections e : com (get_connections e).
Proof. unfold get_connections. com. Qed.
Lemma conns_json_er w self l : forall o, conns_json (er w) self l o = conns_json w self l o.
Proof. induction l as [|c r IH]; intros o; cbn; auto. unfold conn_json1. rewrite ?er_ent.
  destruct (c_to c) as [t|]; cbn; auto. rewrite er_ent. destruct (ent w t); cbn; auto.
Qed.
Lemma com_ctj e : com (connections_to_json e).
Proof. unfold connections_to_json. com. apply com_get_connections. apply conns_json_er. Qed.
Lemma com_ent_json e : com (ent_json e).
Proof. unfold ent_json. com. apply com_ctj. Qed.
Lemma com_layer_json b : com (layer_json b).
Proof. unfold layer_json. com. apply com_ent_json. Qed.
Lemma com_bp_json b : com (bp_json b).
Proof. unfold bp_json. cbv zeta. com. apply com_layer_json. Qed.

Lemma foldE_ext {A X} (f g : A -> X -> A * res unit) l : (forall a x, f a x = g a x) ->
  forall a, foldE f l a = foldE g l a.
Proof. intros H. induction l as [|x r IH]; intros a; cbn; auto. rewrite H. destruct (g a x) as [a1 [u|e]]; auto. Qed.
Lemma parse_entity_er w b acc i : parse_entity (er w) b acc i = parse_entity w b acc i.
Proof.
  unfold parse_entity. rewrite er_ent. destruct (ent w i) as [e|]; auto.
  assert (E : forall d, foldE (parse_side (er w) b i) d acc = foldE (parse_side w b i) d acc).
  { intros d. apply foldE_ext. intros a kv. unfold parse_side. destruct (items_of (snd kv)); auto.
    apply foldE_ext. intros a' kv'. unfold parse_color. destruct (iter_val (snd kv')); auto.
    apply foldE_ext. intros a'' v. unfold parse_one.
    destruct (getitem v "entity_id"); cbn; auto. destruct (getdef v "circuit_id" (VStr "1")); cbn; auto.
    destruct (key_str (fst kv')); cbn; auto. now rewrite er_byid. }
  destruct (e_raw e); auto; destruct (items_of _); auto.
Qed.
Lemma com_parse b : com (parse_connections b).
Proof.
  unfold parse_connections. com.
  - intros w. rewrite (foldE_ext _ (parse_entity w b)) by (intros; apply parse_entity_er).
    destruct (foldE (parse_entity w b) (b_objs x) []) as [cs r]. cbn. f_equal. now rewrite er_upd_bp.
  - apply com_get_connections.
Qed.
Lemma com_head b d : com (load_head b d).
Proof.
  unfold load_head. com. intros w. cbn.
  destruct (foldE _ _ _) as [ic r]. cbn. f_equal. now rewrite er_upd_bp.
Qed.
Lemma com_tail b d : com (load_tail b d).
Proof.
  unfold load_tail. com; [apply com_sort|apply com_parse|]. intros w. cbn.
  destruct (foldE _ _ _) as [ic r]. cbn. f_equal. now rewrite er_upd_bp.
Qed.
Lemma com_scheds b d : com (load_scheds b d).
Proof.
  unfold load_scheds. com. destruct (iter_val _); cbn; auto. apply mapM_ext. intros v _.
  unfold sched_new. destruct (as_kwargs v) as [kw|]; cbn; auto. destruct (_ || _); auto.
  destruct (dget "schedule" kw) as [sv|], (dget "locomotives" kw) as [lv|]; auto.
  destruct (ddel "locomotives" (ddel "schedule" kw)); auto.
  destruct (iter_val _); cbn; auto. do 3 f_equal. apply map_ext. intros n. apply er_byid.
Qed.
Lemma load_entities_er b cust l : forall w,
  load_entities b cust l (er w) =
  (er (fst (fst (load_entities b cust l w))), snd (fst (load_entities b cust l w)), snd (load_entities b cust l w)).
Proof.
  induction l as [|v r IH]; intros w; cbn; auto. destruct v as [| | | | | |kw]; cbn; auto.
  destruct (construct (w_protos w) cust (Some b) kw) as [kw' [e|x]]; cbn; auto.
  rewrite er_new_ent, er_upd_bp by reflexivity. rewrite IH.
  destruct (load_entities b cust r _) as [[w1 r1] x1]. reflexivity.
Qed.
Lemma load_inner_er b cust d w :
  load_inner b cust d (er w) =
  (er (fst (fst (load_inner b cust d w))), snd (fst (load_inner b cust d w)), snd (load_inner b cust d w)).
Proof.
  unfold load_inner. rewrite (com_head b d w). destruct (load_head b d w) as [w1 [u|e]]; cbn [fst snd]; auto.
  destruct (iter_val _) as [ents|]; cbn [fst snd]; auto. rewrite load_entities_er.
  destruct (load_entities b cust ents w1) as [[w2 ents'] [u2|e2]]; cbn [fst snd]; auto.
  rewrite (com_tail b d w2). destruct (load_tail b d w2) as [w3 [u3|e3]]; cbn [fst snd]; auto.
  rewrite (com_scheds b d w3). destruct (load_scheds b d w3) as [w4 r4]; cbn [fst snd]; auto.
Qed.
Lemma load_er b doc w :
  load b doc (er w) = (er (fst (fst (load b doc w))), snd (fst (load b doc w)), snd (load b doc w)).
Proof.
  unfold load. rewrite er_blu. destruct (blu w b) as [x|]; cbn; auto.
  destruct doc as [| | | | | |d]; cbn; auto.
  destruct (dget "blueprint" d) as [v|].
  - destruct v as [| | | | | |inner]; cbn; auto. rewrite load_inner_er.
    destruct (load_inner b (b_custom x) inner w) as [[w1 i1] r1]; reflexivity.
  - rewrite load_inner_er. destruct (load_inner b (b_custom x) d w) as [[w1 i1] r1]; reflexivity.
Qed.
Lemma com_label b l c : com (set_label b l c).
Proof. unfold set_label. com. Qed.
Lemma com_rotate_ent n a r i : com (rotate_ent n a r i).
Proof.
  intros w. unfold rotate_ent. rewrite er_ent. destruct (ent w i) as [e|]; cbn; auto.
  destruct (entity_rotate n a (ent_cw r) e); reflexivity.
Qed.
Lemma com_rotate b n a r : com (bp_rotate b n a r).
Proof.
  unfold bp_rotate, layer_rotate, tiles_rotate. com; [apply com_rotate_ent|apply com_sort|].
  intros w. destruct (rotate_tiles _ _ _ _) as [ts o]. cbn. f_equal. now rewrite er_upd_bp.
Qed.
Lemma com_max b : com (maximum_values b).
Proof. unfold maximum_values. com. Qed.
Lemma com_recenter b a : com (recenter b a).
Proof. unfold recenter, center. com. apply com_max. Qed.
Lemma com_rename i v : com (rename i v).
Proof.
  intros w. unfold rename. rewrite er_ent. destruct (ent w i) as [e|]; cbn; auto.
  replace (match e_layer e with Some b => match blu (er w) b with Some x => b_custom x | None => [] end | None => [] end)
    with (match e_layer e with Some b => match blu w b with Some x => b_custom x | None => [] end | None => [] end).
  - destruct (set_name _ _ v e); reflexivity.
  - destruct (e_layer e) as [b|]; auto. rewrite er_blu. destruct (blu w b); reflexivity.
Qed.
Lemma com_assign_attr i k v : com (assign_attr i k v).
Proof.
  intros w. unfold assign_attr. rewrite er_ent. destruct (ent w i) as [e|]; cbn; auto. destruct (set_attr _ k v e); reflexivity.
Qed.
Lemma com_assign_cb i k v : com (assign_cb i k v).
Proof.
  intros w. unfold assign_cb. rewrite er_ent. destruct (ent w i) as [e|]; cbn; auto. destruct (set_cb_attr _ k v e); reflexivity.
Qed.
Lemma com_call f b k : com (conn_call f b k).
Proof. unfold conn_call. com. Qed.
Lemma com_drop_res {A} (m : M A) : com m -> com (fun w => drop_res (m w)).
Proof. intros H w. cbn. rewrite H. destruct (m w) as [w1 r]; reflexivity. Qed.

Definition unstrict (o : op) : op := match o with ONewBlueprint _ c => ONewBlueprint true c | _ => o end.
Lemma step_er o w : step (unstrict o) (er w) = (er (fst (step o w)), snd (step o w)).
Proof.
  destruct o; cbn [unstrict step].
  - cbn. f_equal. exact (er_new_bp (empty_bp strict cust) w).
  - rewrite load_er. destruct (load b doc w) as [[w1 d1] r1]; reflexivity.
  - apply (com_drop_res _ (com_new_entity layer kw)).
  - apply (com_drop_res _ (com_make b kw)).
  - apply com_add.
  - destruct o; cbn; auto. apply com_drop.
  - apply com_del_at.
  - apply (com_drop_res _ (com_at b pt)).
  - apply com_connect.
  - apply (com_drop_res _ (com_get_connections e)).
  - apply com_rotate.
  - apply com_rotate_ent.
  - apply com_rename.
  - assert (H : com (set_position e v)) by (unfold set_position; com). apply H.
  - assert (H : com (set_direction e v)) by (unfold set_direction; com). apply H.
  - apply com_assign_attr.
  - apply com_assign_cb.
  - assert (H : com (ent_set_mixins e ms)) by (unfold ent_set_mixins; com). apply H.
  - assert (H : com (ent_add_mixins e ms)) by (unfold ent_add_mixins; com). apply H.
  - assert (H : com (tiles_make b kw)) by (unfold tiles_make, tiles_add; com). apply H.
  - assert (H : com (tiles_add b t)) by (unfold tiles_add; com). apply H.
  - apply com_call.
  - apply com_call.
  - apply com_label.
  - apply com_recenter.
  - apply (com_drop_res _ (com_bp_json b)).
  - apply (com_drop_res _ (com_ent_json e)).
  - apply com_sort.
  - reflexivity.
  - change (w_protos (er w)) with (w_protos w). destruct (import_prototype_data file append (w_protos w)); reflexivity.
Qed.
Lemma same_unstrict o o' : same_call o o' -> unstrict o = unstrict o'.
Proof. intros [o1|s s' c]; reflexivity. Qed.
Lemma outcomes_er ops : forall w, outcomes (map unstrict ops) (er w) = outcomes ops w.
Proof. induction ops as [|o r IH]; intros w; cbn; auto. rewrite step_er. cbn. now rewrite IH. Qed.
Lemma run_er ops : forall w, run (map unstrict ops) (er w) = er (run ops w).
Proof. induction ops as [|o r IH]; intros w; cbn; auto. rewrite step_er. cbn. now rewrite IH. Qed.
Lemma start_er : er start = start. Proof. reflexivity. Qed.
Lemma com_obs {A} (m : M A) w w' : com m -> er w = er w' -> snd (m w) = snd (m w').
Proof.
  intros H E. pose proof (f_equal snd (H w)) as H1. pose proof (f_equal snd (H w')) as H2. cbn in *. congruence.
Qed.

Lemma p_C53 ops ops' : Forall2 same_call ops ops' ->
  outcomes ops start = outcomes ops' start /\
  w_protos (run ops start) = w_protos (run ops' start) /\
  w_ents (run ops start) = w_ents (run ops' start) /\
  (forall b, snd (bp_json b (run ops start)) = snd (bp_json b (run ops' start))) /\
  (forall i, snd (ent_json i (run ops start)) = snd (ent_json i (run ops' start))) /\
  (forall i, snd (get_connections i (run ops start)) = snd (get_connections i (run ops' start))) /\
  (forall b pt, snd (layer_at b pt (run ops start)) = snd (layer_at b pt (run ops' start))) /\
  (forall b, snd (maximum_values b (run ops start)) = snd (maximum_values b (run ops' start))) /\
  (forall b n, get_entity_by_id (run ops start) b n = get_entity_by_id (run ops' start) b n).
Proof.
  intros H. assert (E : map unstrict ops = map unstrict ops').
  { induction H; cbn; auto. f_equal; auto. now apply same_unstrict. }
  assert (W : er (run ops start) = er (run ops' start)).
  { rewrite <- (run_er ops), <- (run_er ops'), start_er. now rewrite E. }
  split; [rewrite <- (outcomes_er ops), <- (outcomes_er ops'), start_er; now rewrite E|].
  split; [exact (f_equal w_protos W)|]. split; [exact (f_equal w_ents W)|].
  repeat match goal with |- _ /\ _ => split end; intros.
  - apply com_obs; auto. apply com_bp_json.
  - apply com_obs; auto. apply com_ent_json.
  - apply com_obs; auto. apply com_get_connections.
  - apply com_obs; auto. apply com_at.
  - apply com_obs; auto. apply com_max.
  - rewrite <- (er_byid (run ops start)), W. apply er_byid.
Qed.
