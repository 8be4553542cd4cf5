(** * Unknown names, books, icons, schedules, the caller's data. *)
From Coq Require Import Lia Permutation Sorting.Sorted.
From Verif Require Import Py Num NumFacts Util UtilFacts UtilProofs SpecUtil Classes Mixins Entity World WorldFacts Inv
  SpecWorld LayerProofs PersistProofs ExportProofs RotateProofs DictFacts SpecDoc KeepProofs.
Open Scope Z_scope.

(** ** C31 *)
Lemma dmem_none (k : string) (d : dict) : dget k d = None -> dmem k d = false.
Proof. unfold dmem. now intros ->. Qed.
Lemma construct_unknown p cust l kw : unknown_name p kw -> checked kw -> construct p cust l kw = (kw, Err EUnknownEntity).
Proof.
  intros (s & (A & S & B & N & P) & U) C. unfold construct. rewrite A, (dmem_none _ _ S), (dmem_none _ _ B). cbn [negb orb].
  rewrite N. destruct (dget "position" kw) as [pos|]; [|congruence].
  assert (T : truthy (odflt (VBool true) (dget "strict" kw)) = true).
  { destruct (dget "strict" kw) as [v|] eqn:E; [|reflexivity]. cbn. now apply C. }
  unfold set_name. cbn [e_strict]. rewrite T. cbn [negb]. unfold in_table. rewrite (dmem_none _ _ U). reflexivity.
Qed.
Lemma p_C31_make w b x kw : blu w b = Some x -> unknown_name (w_protos w) kw -> checked kw ->
  step (OMake b kw) w = (w, Err EUnknownEntity).
Proof.
  intros Hx U C. cbn [step]. unfold layer_make, new_entity, mbind, get_bp, gets. rewrite Hx. unfold ret.
  rewrite (construct_unknown _ _ _ _ U C). reflexivity.
Qed.
Lemma p_C31_new w l kw : (forall b, l = Some b -> blu w b <> None) -> unknown_name (w_protos w) kw -> checked kw ->
  step (ONewEntity l kw) w = (w, Err EUnknownEntity).
Proof.
  intros H U C. cbn [step]. unfold new_entity, mbind, get_bp, gets. destruct l as [b|].
  - specialize (H b eq_refl). destruct (blu w b) as [x|]; [|congruence]. unfold ret. rewrite (construct_unknown _ _ _ _ U C). reflexivity.
  - unfold ret. rewrite (construct_unknown _ _ _ _ U C). reflexivity.
Qed.
Lemma load_entities_bad b cust pre kw post w : unknown_name (w_protos w) kw -> checked kw ->
  exists w' l' e, load_entities b cust (pre ++ VDict kw :: post) w = (w', l', Err e).
Proof.
  intros U C. revert w U. induction pre as [|v pre IH]; intros w U; cbn [app load_entities].
  - rewrite (construct_unknown _ _ _ _ U C). eauto.
  - destruct v as [| | | | | |kv]; eauto. destruct (construct _ _ _ kv) as [kw' [e|x]]; eauto.
    destruct (IH (upd_bp b (fun x => b_set_objs (b_objs x ++ [length (w_ents w)]) x) (new_ent e w)) U) as (w' & l' & x & E).
    rewrite E. eauto.
Qed.
Lemma load_head_frame b d w : w_protos (fst (load_head b d w)) = w_protos w /\ w_ents (fst (load_head b d w)) = w_ents w.
Proof.
  unfold load_head, mbind, modify, gets, ret.
  destruct (dataget d "label_color" VNone); try (destruct (color_of_val _)); try (split; reflexivity);
  (destruct (iter_val _) as [icons|]; [|split; reflexivity]; destruct (foldE _ icons _); split; reflexivity).
Qed.
Lemma p_C31_load w b doc kw : In (VDict kw) (doc_list (inner_doc doc) "entities") -> unknown_name (w_protos w) kw -> checked kw ->
  exists e, snd (step (OLoad b doc) w) = Err e.
Proof.
  intros I U C. cbn [step]. unfold load. destruct (blu w b) as [x|]; [|cbn; eauto].
  assert (K : forall d, In (VDict kw) (doc_list d "entities") -> forall cust, exists w' d' e, load_inner b cust d w = (w', d', Err e)).
  { intros d J cust. unfold load_inner. pose proof (proj1 (load_head_frame b d w)) as PP.
    destruct (load_head b d w) as [w1 [[]|e]] eqn:H1; [|eauto]. cbn [fst] in PP.
    unfold doc_list, dataget in *. destruct (dget "entities" d) as [v|] eqn:E; [|destruct J]. destruct v; try (destruct J).
    - cbn [odflt iter_val]. apply in_split in J as (pre & post & ->).
      destruct (load_entities_bad b cust pre kw post w1) as (w' & l' & e & ->); [now rewrite PP|auto|eauto]. }
  destruct doc as [| | | | | |d]; cbn; eauto. unfold inner_doc in I.
  destruct (dget "blueprint" d) as [v|] eqn:E.
  - destruct v as [| | | | | |inner]; try (cbn; eauto; fail). destruct (K inner I (b_custom x)) as (w' & d' & e & ->). cbn. eauto.
  - destruct (K d I (b_custom x)) as (w' & d' & e & ->). cbn. eauto.
Qed.

(** ** The head of a document *)
Lemma upd_bp_twice b f g w : upd_bp b f (upd_bp b g w) = upd_bp b (fun x => f (g x)) w.
Proof.
  unfold upd_bp. cbn. f_equal. generalize (w_bps w). intros l. revert b. induction l as [|y l IH]; intros [|b]; cbn; auto. now rewrite IH.
Qed.
Definition head_set (d : dict) (ic : list (option val)) (x : bp) : bp :=
  b_set_icons ic (b_set_version (dataget d "version" (VInt 0)) (b_set_label (dataget d "label" VNone)
    (b_set_item (dataget d "item" (VStr "blueprint")) x))).
Lemma load_head_eq b d w : dget "label_color" d = None -> (dget "icons" d = None \/ exists l, dget "icons" d = Some (VList l)) ->
  load_head b d w = let '(ic, r) := foldE (load_icon (w_protos w)) (doc_list d "icons") [None; None; None; None] in
                    (upd_bp b (head_set d ic) w, r).
Proof.
  intros L I. assert (L' : dataget d "label_color" VNone = VNone) by (unfold dataget; now rewrite L).
  unfold load_head, mbind, modify, gets, ret. rewrite L'.
  assert (E : iter_val (dataget d "icons" (VList [])) = Ok (doc_list d "icons")).
  { unfold dataget, doc_list. destruct I as [-> | (l & ->)]; reflexivity. }
  rewrite E. cbn [w_protos]. rewrite !upd_bp_twice. cbn [w_protos upd_bp].
  match goal with |- context [foldE (load_icon ?q) ?l ?a] => change q with (w_protos w) end.
  destruct (foldE _ _ _) as [ic r]. rewrite upd_bp_twice. reflexivity.
Qed.
Lemma load_entities_first b cust pre kw post w : (forall v, In v pre -> exists kv e, v = VDict kv /\ snd (construct (w_protos w) cust (Some b) kv) = Ok e) ->
  unknown_name (w_protos w) kw -> checked kw ->
  exists w' l', load_entities b cust (pre ++ VDict kw :: post) w = (w', l', Err EUnknownEntity).
Proof.
  intros H U C. revert w H U. induction pre as [|v pre IH]; intros w H U; cbn [app load_entities].
  - rewrite (construct_unknown _ _ _ _ U C). eauto.
  - destruct (H v (or_introl eq_refl)) as (kv & e & -> & E). destruct (construct _ _ _ kv) as [kw' r]. cbn [snd] in E. subst r.
    destruct (IH (upd_bp b (fun x => b_set_objs (b_objs x ++ [length (w_ents w)]) x) (new_ent e w))) as (w' & l' & E); auto.
    { intros v I. apply (H v). now right. }
    rewrite E. eauto.
Qed.
Lemma load_holds b doc d w x : blu w b = Some x -> holds doc d ->
  load b doc w = let '(w', d', r) := load_inner b (b_custom x) d w in (w', refilled doc d', r).
Proof.
  intros Hx [(-> & E) | (o & -> & E)]; unfold load, refilled; rewrite Hx, E;
  destruct (load_inner _ _ _ _) as [[w' d'] r]; reflexivity.
Qed.
Lemma refilled_same doc d : holds doc d -> refilled doc d = doc.
Proof. intros [(-> & E) | (o & -> & E)]; unfold refilled; rewrite E; auto. f_equal. now apply dset_get. Qed.
Lemma p_C31_first w b x doc d pre kw post : blu w b = Some x -> holds doc d ->
  dget "entities" d = Some (VList (pre ++ VDict kw :: post)) ->
  dget "label_color" d = None -> dget "icons" d = None ->
  (forall v, In v pre -> exists kv e, v = VDict kv /\ snd (construct (w_protos w) (b_custom x) (Some b) kv) = Ok e) ->
  unknown_name (w_protos w) kw -> checked kw ->
  snd (step (OLoad b doc) w) = Err EUnknownEntity.
Proof.
  intros Hx Hd E L I H U C. cbn [step]. rewrite (load_holds b doc d w x Hx Hd).
  unfold load_inner. rewrite load_head_eq by auto. unfold doc_list at 1. rewrite I. cbn [foldE].
  unfold dataget. rewrite E. cbn [odflt iter_val].
  destruct (load_entities_first b (b_custom x) pre kw post (upd_bp b (head_set d [None; None; None; None]) w)) as (w' & l' & ->); auto.
Qed.
(** only the entity's own strict = False lets an unknown name through *)
Lemma drop_keys_all (kw : dict) : (forall k, dget k kw <> None -> exists s, k = KS s /\ In s entity_keys) -> drop_keys entity_keys kw = [].
Proof.
  intros H. apply dget_none_nil. intros k. rewrite dget_drop_keys. destruct (named entity_keys k) eqn:E; auto.
  destruct (dget k kw) as [v|] eqn:G; auto. destruct (H k) as (s & -> & I); [congruence|].
  apply named_In in I. congruence.
Qed.
Lemma p_C31_unchecked p cust l kw s sv pos q dir z : describes kw (VStr s) ->
  dget "strict" kw = Some sv -> truthy sv = false ->
  dget "position" kw = Some pos -> vec_of_val pos = Ok q ->
  odflt (VInt 0) (dget "direction" kw) = dir -> dir_of_val dir = Ok z ->
  dget "control_behavior" kw = None ->
  (forall k, dget k kw <> None -> exists s, k = KS s /\ In s entity_keys) ->
  construct p cust l kw =
    (kw, Ok (mkEnt false l (odflt VNone (dget "entity_number" kw)) (odflt VNone (dget "entity_number" kw)) (VStr s)
               entity_cls q z (odflt VNone (dget "connections" kw)) None [])).
Proof.
  intros (A & S & B & N & _) T F P V D Z C K. unfold construct. rewrite A, (dmem_none _ _ S), (dmem_none _ _ B). cbn [negb orb].
  rewrite N, P, T. unfold odflt at 1. rewrite F. unfold set_name. cbn [e_strict negb].
  rewrite V. cbn [bind]. rewrite D, Z. cbn [bind]. rewrite C. rewrite (drop_keys_all _ K). reflexivity.
Qed.

(** ** C39 *)
Definition bare_bp (d : dict) (x : bp) : bp :=
  mkBp (b_strict x) (b_custom x) [] [] (dataget d "item" (VStr "blueprint")) (dataget d "label" VNone) (b_label_color x)
       [None; None; None; None] (dataget d "version" (VInt 0)) [] [].
Lemma upd_bp_ext b f g w : (forall x, blu w b = Some x -> f x = g x) -> upd_bp b f w = upd_bp b g w.
Proof.
  unfold upd_bp, blu. intros H. f_equal. revert b H. generalize (w_bps w). intros l. induction l as [|y l IH]; intros [|b] H; cbn; auto.
  - now rewrite (H y eq_refl).
  - f_equal. apply IH. auto.
Qed.
Lemma load_bare b d w x : blu w b = Some x -> b_objs x = [] -> b_tiles x = [] -> bare d ->
  load_inner b (b_custom x) d w = (upd_bp b (bare_bp d) w, d, Ok tt).
Proof.
  intros Hx O T (E & I & TT & S & L). unfold load_inner. rewrite load_head_eq by auto. unfold doc_list at 1. rewrite I. cbn [foldE].
  set (w1 := upd_bp b _ w). assert (H1 : blu w1 b = Some (head_set d [None; None; None; None] x)).
  { unfold w1. rewrite blu_upd, Nat.eqb_refl, Hx. reflexivity. }
  unfold dataget at 1. rewrite E. cbn [odflt iter_val load_entities].
  assert (LT : load_tail b d w1 = (upd_bp b (fun x => b_set_tiles (b_tiles x) (b_set_conns [] (b_set_objs [] x))) w1, Ok tt)).
  { unfold load_tail, sort_layer, mbind, get_bp, gets. rewrite H1. unfold modify, ret. cbn [b_objs head_set b_set_icons b_set_version b_set_label b_set_item].
    rewrite O. cbn [sorted_objs mapM bind map isort fold_left reindex].
    set (w2 := upd_bp b (b_set_objs []) w1). assert (H2 : blu w2 b = Some (b_set_objs [] (head_set d [None; None; None; None] x))).
    { unfold w2. rewrite blu_upd, Nat.eqb_refl, H1. reflexivity. }
    unfold parse_connections, mbind, get_bp, gets. rewrite H2. cbn [b_objs b_set_objs foldE]. unfold forM. cbn [foldE].
    set (w3 := upd_bp b (b_set_conns []) w2). assert (H3 : blu w3 b = Some (b_set_conns [] (b_set_objs [] (head_set d [None; None; None; None] x)))).
    { unfold w3. rewrite blu_upd, Nat.eqb_refl, H2. reflexivity. }
    unfold dataget at 1. rewrite TT. cbn [odflt iter_val]. rewrite H3. cbn [foldE b_tiles b_set_conns b_set_objs head_set b_set_icons b_set_version b_set_label b_set_item].
    rewrite T. f_equal. unfold w3, w2, w1. rewrite !upd_bp_twice. apply upd_bp_ext. intros y Hy. assert (y = x) by congruence. subst y.
    cbn. unfold sort_tiles. cbn. rewrite T. reflexivity. }
  rewrite LT. unfold load_scheds, mbind, gets, modify. unfold dataget at 1. rewrite S. cbn [odflt iter_val bind mapM].
  rewrite (ddel_absent "schedules" d S). f_equal. f_equal. unfold w1. rewrite !upd_bp_twice. apply upd_bp_ext.
  intros y Hy. assert (y = x) by congruence. subst y. unfold bare_bp. cbn. rewrite T. reflexivity.
Qed.
Lemma p_C39 w b x doc d : reachable w -> blu w b = Some x -> b_objs x = [] -> holds doc d -> bare d ->
  exists w' x', load b doc w = (w', doc, Ok tt) /\ blu w' b = Some x' /\
    b_objs x' = [] /\ b_tiles x' = [] /\ b_conns x' = [] /\ b_scheds x' = [] /\ b_icons x' = [None; None; None; None] /\
    b_item x' = odflt (VStr "blueprint") (dget "item" d) /\ b_label x' = odflt VNone (dget "label" d) /\
    b_version x' = odflt (VInt 0) (dget "version" d) /\
    w_ents w' = w_ents w /\ w_protos w' = w_protos w /\ (forall c, c <> b -> blu w' c = blu w c).
Proof.
  intros R Hx O Hd B. exists (upd_bp b (bare_bp d) w), (bare_bp d x). split.
  { rewrite (load_holds _ _ _ _ _ Hx Hd), (load_bare _ _ _ _ Hx O); auto.
    - now rewrite (refilled_same _ _ Hd).
    - apply reach_inv in R. eapply inv_tiles; eauto. }
  rewrite blu_upd, Nat.eqb_refl, Hx. repeat split; auto. intros c N. rewrite blu_upd.
  destruct (Nat.eqb_spec b c); [congruence|auto].
Qed.
Lemma p_C39_export w b x : reachable w -> blu w b = Some x -> b_objs x = [] -> b_scheds x = [] -> b_icons x = [None; None; None; None] ->
  exists o, bp_json b w = (w, Ok (VDict [(KS "blueprint", VDict o)])) /\
    dget "item" o = Some (b_item x) /\ dget "version" o = Some (b_version x) /\ dget "icons" o = Some (VList []) /\
    dget "entities" o = None /\ dget "tiles" o = None /\ dget "schedules" o = None.
Proof.
  intros R Hx O S I. assert (T : b_tiles x = []) by (apply reach_inv in R; eapply inv_tiles; eauto).
  unfold bp_json, layer_json, mbind, get_bp, gets. rewrite Hx. rewrite O, T, S, I. cbn [mapMM none_if_empty icons_json mapM map].
  unfold ret. eexists. split; [reflexivity|]. unfold obj_set. destruct (b_label x), (b_label_color x); cbn; auto 10.
Qed.

(** ** C40 *)
Lemma icon_signal p v s z : icon_for p v s z ->
  exists d sig, v = VDict d /\ getitem v "signal" = Ok sig /\ getitem v "index" = Ok (VInt z) /\ signal_set p sig = Ok (VStr s).
Proof.
  intros (d & sig & -> & S & I & N & [-> | (sd & -> & D)] & K); exists d; eexists; (split; [reflexivity|]).
  all: split; [cbn; now rewrite S|]; split; [cbn; now rewrite I|].
  all: cbn [signal_set]; try rewrite D; cbn [odflt]; unfold signal_check, truthy; destruct (String.eqb_spec s ""); try congruence; cbn [negb].
  all: unfold in_table; replace (dmem s (p_signal p)) with true by (symmetry; apply dmem_dget; destruct (dget s (p_signal p)); [eauto|congruence]); reflexivity.
Qed.
Lemma icon_signal_unknown p v : icon_unknown p v -> exists sig, getitem v "signal" = Ok sig /\ signal_set p sig = Err EUnknownSignal.
Proof.
  intros (d & sig & s & -> & S & N & [-> | (sd & -> & D)] & K); eexists; (split; [cbn; rewrite S; reflexivity|]).
  all: cbn [signal_set]; try rewrite D; cbn [odflt]; unfold signal_check, truthy; destruct (String.eqb_spec s ""); try congruence; cbn [negb].
  all: unfold in_table; rewrite (dmem_none _ _ K); reflexivity.
Qed.
Lemma foldE_app {A X} (f : A -> X -> A * res unit) l m a :
  foldE f (l ++ m) a = let '(a', r) := foldE f l a in match r with Ok _ => foldE f m a' | Err e => (a', Err e) end.
Proof.
  revert a. induction l as [|x l IH]; intros a; cbn; auto. destruct (f a x) as [a' [u|e]]; auto.
Qed.
Lemma load_icon_ok p acc v s z k : length acc = 4%nat -> icon_for p v s z -> slot_of z k ->
  load_icon p acc v = (lupd k (fun _ => Some (VStr s)) acc, Ok tt).
Proof.
  intros L I K. destruct (icon_signal _ _ _ _ I) as (d & sig & _ & S & X & G). unfold load_icon. rewrite S. cbn [bind]. rewrite G. cbn [bind].
  rewrite X. cbn [bind icon_index]. unfold list_set_py. rewrite L. change (Z.of_nat 4) with 4.
  assert (E : (if z - 1 <? 0 then z - 1 + 4 else z - 1) = Z.of_nat k) by (destruct K as [(B & ->)|(B & ->)]; destruct (Z.ltb_spec (Z.of_nat k + 1 - 1) 0) + destruct (Z.ltb_spec (Z.of_nat k - 3 - 1) 0); lia).
  assert (K4 : Z.of_nat k < 4) by (destruct K as [(B & ?)|(B & ?)]; lia).
  rewrite E. destruct (Z.ltb_spec (Z.of_nat k) 0); [lia|]. destruct (Z.leb_spec 4 (Z.of_nat k)); [lia|]. cbn [orb]. now rewrite Nat2Z.id.
Qed.
Lemma slot_dec z : (exists k, slot_of z k /\ (k < 4)%nat) \/ (forall k, ~ slot_of z k) /\ (z < -3 \/ 4 < z).
Proof.
  destruct (Z_lt_dec z (-3)); [right; split; [intros k [(B & E)|(B & E)]; lia|lia]|].
  destruct (Z_lt_dec 4 z); [right; split; [intros k [(B & E)|(B & E)]; lia|lia]|].
  left. destruct (Z_le_dec z 0).
  - exists (Z.to_nat (z + 3)). split; [right; lia|lia].
  - exists (Z.to_nat (z - 1)). split; [left; lia|lia].
Qed.
Lemma slot_inj z k k' : slot_of z k -> slot_of z k' -> k = k'.
Proof. intros [(B & E)|(B & E)] [(B' & E')|(B' & E')]; lia. Qed.
Lemma length_lupd {A} n (f : A -> A) l : length (lupd n f l) = length l.
Proof. revert n. induction l as [|x l IH]; intros [|n]; cbn; auto. Qed.
Lemma fold_icons p l : (forall v, In v l -> exists s z, icon_for p v s z /\ -3 <= z <= 4) ->
  exists acc, foldE (load_icon p) l [None; None; None; None] = (acc, Ok tt) /\ length acc = 4%nat /\
    forall k o, nth_error acc k = Some o -> shows p k l o.
Proof.
  induction l as [|v l IH] using rev_ind; intros H.
  - eexists. split; [reflexivity|]. split; [reflexivity|]. intros k o E.
    assert (o = None) as -> by (do 4 (destruct k as [|k]; [cbn in E; congruence|]); destruct k; discriminate). constructor.
  - destruct IH as (acc & E & L & N). { intros u I. apply H. apply in_or_app. auto. }
    destruct (H v) as (s & z & I & B). { apply in_or_app. right. now left. }
    destruct (slot_dec z) as [(k & K & K4)|(_ & X)]; [|lia].
    exists (lupd k (fun _ => Some (VStr s)) acc). rewrite foldE_app, E. cbn [foldE]. rewrite (load_icon_ok _ _ _ _ _ _ L I K).
    split; auto. split; [now rewrite length_lupd|]. intros k' o E'. rewrite nth_lupd in E'. destruct (Nat.eqb_spec k k') as [<-|NK].
    + destruct (nth_error acc k) as [o'|] eqn:E2; [|discriminate]. cbn in E'. injection E' as <-. eapply sh_here; eauto.
    + eapply sh_skip; eauto. intros K'. apply NK. eapply slot_inj; eauto.
Qed.
Lemma fold_icons_index p l v s z m : (forall u, In u l -> exists s z, icon_for p u s z /\ -3 <= z <= 4) ->
  icon_for p v s z -> (z < -3 \/ 4 < z) -> snd (foldE (load_icon p) (l ++ v :: m) [None; None; None; None]) = Err EIndex.
Proof.
  intros H I B. destruct (fold_icons p l H) as (acc & E & L & _). rewrite foldE_app, E. cbn [foldE].
  destruct (icon_signal _ _ _ _ I) as (d & sig & _ & S & X & G). unfold load_icon at 1. rewrite S. cbn [bind]. rewrite G. cbn [bind].
  rewrite X. cbn [bind icon_index]. unfold list_set_py. rewrite L. change (Z.of_nat 4) with 4.
  destruct (Z.ltb_spec (z - 1) 0).
  - destruct (Z.ltb_spec (z - 1 + 4) 0); [reflexivity|lia].
  - destruct (Z.ltb_spec (z - 1) 0); [lia|]. destruct (Z.leb_spec 4 (z - 1)); [reflexivity|lia].
Qed.
Lemma fold_icons_unknown p l v m : (forall u, In u l -> exists s z, icon_for p u s z /\ -3 <= z <= 4) ->
  icon_unknown p v -> snd (foldE (load_icon p) (l ++ v :: m) [None; None; None; None]) = Err EUnknownSignal.
Proof.
  intros H I. destruct (fold_icons p l H) as (acc & E & L & _). rewrite foldE_app, E. cbn [foldE].
  destruct (icon_signal_unknown _ _ I) as (sig & S & G). unfold load_icon at 1. rewrite S. cbn [bind]. rewrite G. reflexivity.
Qed.
Lemma load_head_icons b d w l : colour_fine d -> dget "icons" d = Some (VList l) ->
  snd (load_head b d w) = snd (foldE (load_icon (w_protos w)) l [None; None; None; None]).
Proof.
  intros C I. assert (D : dataget d "label_color" VNone = VNone \/ exists c, color_of_val (dataget d "label_color" VNone) = Ok c).
  { unfold dataget. destruct (dget "label_color" d) as [v|] eqn:E; cbn [odflt]; auto. }
  assert (E : iter_val (dataget d "icons" (VList [])) = Ok l) by (unfold dataget; now rewrite I).
  unfold load_head, mbind, modify, gets, ret. rewrite E. destruct D as [-> | (c & D)].
  - cbn [w_protos upd_bp]. destruct (foldE _ _ _). reflexivity.
  - destruct (dataget d "label_color" VNone); try rewrite D; cbn [w_protos upd_bp]; destruct (foldE _ _ _); reflexivity.
Qed.
Lemma load_head_ok b d w w1 x l : blu w b = Some x -> load_head b d w = (w1, Ok tt) -> dget "icons" d = Some (VList l) ->
  exists x1, blu w1 b = Some x1 /\ foldE (load_icon (w_protos w)) l [None; None; None; None] = (b_icons x1, Ok tt).
Proof.
  intros Hx H I. unfold load_head in H. apply mbind_ok in H as ([] & w2 & H2 & H). injection H2 as <-.
  apply mbind_ok in H as ([] & w3 & H3 & H). apply mbind_ok in H as ([] & w4 & H4 & H). injection H4 as <-.
  apply mbind_ok in H as (ic & w5 & H5 & H). unfold dataget in H5. rewrite I in H5. cbn in H5. injection H5 as <- <-.
  cbn [w_protos upd_bp] in H.
  assert (P3 : w_protos w3 = w_protos w /\ exists x3, blu w3 b = Some x3).
  { assert (B2 : exists x2, blu (upd_bp b (fun x => b_set_label (dataget d "label" VNone) (b_set_item (dataget d "item" (VStr "blueprint")) x)) w) b = Some x2).
    { rewrite blu_upd, Nat.eqb_refl, Hx. cbn. eauto. }
    destruct B2 as (x2 & B2). destruct (dataget d "label_color" VNone) eqn:LC.
    1: { injection H3 as <-. split; eauto. }
    all: unfold mbind, gets in H3; destruct (color_of_val _); try discriminate; injection H3 as <-; split; [reflexivity|];
         rewrite blu_upd, Nat.eqb_refl, B2; cbn; eauto. }
  destruct P3 as (P3 & x3 & B3). rewrite P3 in H. destruct (foldE _ _ _) as [acc r]. injection H as <- ->.
  eexists. split; [rewrite blu_upd, Nat.eqb_refl, blu_upd, Nat.eqb_refl, B3; reflexivity|]. reflexivity.
Qed.
Lemma load_inner_ok b cust d w w' d' : load_inner b cust d w = (w', d', Ok tt) ->
  exists w1 ents w2 l' w3, load_head b d w = (w1, Ok tt) /\ iter_val (dataget d "entities" (VList [])) = Ok ents /\
    load_entities b cust ents w1 = (w2, l', Ok tt) /\ load_tail b d w2 = (w3, Ok tt) /\ load_scheds b d w3 = (w', Ok tt).
Proof.
  unfold load_inner. destruct (load_head b d w) as [w1 [[]|e]] eqn:E1; [|discriminate]. destruct (iter_val _) as [ents|]; [|discriminate].
  destruct (load_entities b cust ents w1) as [[w2 l'] [[]|e]] eqn:E2; [|discriminate].
  destruct (load_tail b d w2) as [w3 [[]|e]] eqn:E3; [|discriminate]. destruct (load_scheds b d w3) as [w4 r] eqn:E4.
  intros [= <- <- ->]. exists w1, ents, w2, l', w3. auto.
Qed.
Lemma p_C40_slots w b x doc d l w' doc' : blu w b = Some x -> holds doc d -> dget "icons" d = Some (VList l) ->
  (forall v, In v l -> exists s z, icon_for (w_protos w) v s z /\ -3 <= z <= 4) ->
  load b doc w = (w', doc', Ok tt) ->
  exists x', blu w' b = Some x' /\ length (b_icons x') = 4%nat /\
    forall k o, nth_error (b_icons x') k = Some o -> shows (w_protos w) k l o.
Proof.
  intros Hx Hd I G H. rewrite (load_holds _ _ _ _ _ Hx Hd) in H. destruct (load_inner _ _ _ _) as [[w4 d4] r] eqn:L. injection H as <- _ ->.
  destruct (load_inner_ok _ _ _ _ _ _ L) as (w1 & ents & w2 & l' & w3 & H1 & HE & H2 & H3 & H4).
  destruct (load_head_ok _ _ _ _ _ _ Hx H1 I) as (x1 & B1 & F1).
  pose proof (kp_load_entities b b (b_custom x) ents w1) as K2. rewrite H2 in K2. destruct (K2 _ B1) as (x2 & B2 & S2).
  pose proof (kp_load_tail b b d w2) as K3. rewrite H3 in K3. destruct (K3 _ B2) as (x3 & B3 & S3). cbn [fst] in B2, B3.
  unfold load_scheds in H4. apply mbind_ok in H4 as (ss & w5 & H5 & H6). unfold gets in H5.
  destruct (_ : res (list (list nat * val))); [|discriminate]. injection H5 as <- <-. injection H6 as <-.
  eexists. split; [rewrite blu_upd, Nat.eqb_refl, B3; reflexivity|]. cbn [b_icons b_set_scheds].
  unfold settings in S2, S3. replace (b_icons x3) with (b_icons x1) by congruence.
  destruct (fold_icons _ _ G) as (acc & E & LA & N). rewrite F1 in E. injection E as <-. auto.
Qed.
Lemma load_head_fails w b x doc d e : blu w b = Some x -> holds doc d -> snd (load_head b d w) = Err e ->
  snd (step (OLoad b doc) w) = Err e.
Proof.
  intros Hx Hd H. cbn [step]. rewrite (load_holds _ _ _ _ _ Hx Hd). unfold load_inner. destruct (load_head b d w) as [w1 r].
  cbn [snd] in H. subst r. reflexivity.
Qed.
Lemma p_C40_index w b x doc d l v s z m : blu w b = Some x -> holds doc d -> colour_fine d ->
  dget "icons" d = Some (VList (l ++ v :: m)) -> (forall v, In v l -> exists s z, icon_for (w_protos w) v s z /\ -3 <= z <= 4) ->
  icon_for (w_protos w) v s z -> (z < -3 \/ 4 < z) -> snd (step (OLoad b doc) w) = Err EIndex.
Proof.
  intros Hx Hd C I G IV B. eapply load_head_fails; eauto. rewrite (load_head_icons _ _ _ _ C I). eapply fold_icons_index; eauto.
Qed.
Lemma p_C40_unknown w b x doc d l v m : blu w b = Some x -> holds doc d -> colour_fine d ->
  dget "icons" d = Some (VList (l ++ v :: m)) -> (forall v, In v l -> exists s z, icon_for (w_protos w) v s z /\ -3 <= z <= 4) ->
  icon_unknown (w_protos w) v -> snd (step (OLoad b doc) w) = Err EUnknownSignal.
Proof.
  intros Hx Hd C I G IV. eapply load_head_fails; eauto. rewrite (load_head_icons _ _ _ _ C I). eapply fold_icons_unknown; eauto.
Qed.
Lemma p_C40_kept ops w b x : (forall o, In o ops -> is_load_of b o = false) -> blu w b = Some x ->
  exists x', blu (run ops w) b = Some x' /\ b_icons x' = b_icons x.
Proof. intros H Hx. destruct (run_keeps b ops w H x Hx) as (x' & B & S). exists x'. split; auto. unfold settings in S. congruence. Qed.
Lemma icons_json_ok p slots : forall i l, icons_json p (Z.of_nat i + 1) slots = Ok l ->
  exists ks, StronglySorted lt ks /\ Forall (fun k => i <= k)%nat ks /\
    (forall k v, nth_error slots k = Some (Some v) -> In (i + k)%nat ks) /\
    Forall2 (fun k v => exists s data t, (i <= k)%nat /\ nth_error slots (k - i) = Some (Some (VStr s)) /\ dget s (p_signal p) = Some (VDict data) /\
               dget "type" data = Some t /\
               v = VDict [(KS "index", VInt (Z.of_nat k + 1)); (KS "signal", VDict [(KS "name", VStr s); (KS "type", t)])]) ks l.
Proof.
  induction slots as [|o slots IH]; intros i l H; cbn [icons_json] in H.
  - injection H as <-. exists []. repeat split; auto using SSorted_nil. intros k v E. destruct k; discriminate.
  - replace (Z.of_nat i + 1 + 1) with (Z.of_nat (S i) + 1) in H by lia.
    assert (STEP : forall l, icons_json p (Z.of_nat (S i) + 1) slots = Ok l -> exists ks,
       StronglySorted lt ks /\ Forall (fun k => S i <= k)%nat ks /\
       (forall k v, nth_error (o :: slots) (S k) = Some (Some v) -> In (i + S k)%nat ks) /\
       Forall2 (fun k v => exists s data t, (i <= k)%nat /\ nth_error (o :: slots) (k - i) = Some (Some (VStr s)) /\ dget s (p_signal p) = Some (VDict data) /\
               dget "type" data = Some t /\
               v = VDict [(KS "index", VInt (Z.of_nat k + 1)); (KS "signal", VDict [(KS "name", VStr s); (KS "type", t)])]) ks l).
    { intros m Hm. destruct (IH _ _ Hm) as (ks & A & B & C & D). exists ks. split; auto. split; auto. split.
      - intros k v E. replace (i + S k)%nat with (S i + k)%nat by lia. apply (C k v E).
      - eapply Forall2_impl'; [|exact D]. intros k v (s & data & t & I & N & Q). exists s, data, t. split; [lia|]. split; auto.
        replace (k - i)%nat with (S (k - S i)) by lia. exact N. }
    destruct o as [v|].
    + destruct (signal_json p v) as [j|] eqn:J; [|discriminate]. cbn [bind] in H.
      destruct (icons_json p (Z.of_nat (S i) + 1) slots) as [t|] eqn:T; [|discriminate]. cbn [bind] in H. injection H as <-.
      destruct (STEP _ eq_refl) as (ks & A & B & C & D). exists (i :: ks). split; [|split; [|split]].
      * constructor; auto.
      * constructor; auto. eapply Forall_impl; [|exact B]. cbn. intros; lia.
      * intros [|k] u E; [left; lia|right; eapply C; eauto].
      * constructor; auto. unfold signal_json in J. destruct v as [| | | |s| |]; try discriminate.
        destruct (dget s (p_signal p)) as [data|] eqn:Ds; [|discriminate]. destruct data as [| | | | | |data]; try discriminate.
        cbn [getitem] in J. destruct (dget "type" data) as [ty|] eqn:Dt; [|discriminate]. cbn in J. injection J as <-.
        exists s, data, ty. split; [lia|]. rewrite Nat.sub_diag. auto.
    + destruct (STEP _ H) as (ks & A & B & C & D). exists ks. split; auto. split; [|split; auto].
      * eapply Forall_impl; [|exact B]. cbn. intros; lia.
      * intros [|k] u E; [discriminate|eapply C; eauto].
Qed.
Lemma dget_dset' {V} k k' (v : V) d : dget k' (dset k v d) = if key_eqb k' k then Some v else dget k' d.
Proof.
  induction d as [|[k0 v0] d IH]; cbn.
  - destruct (key_eqb k' k); reflexivity.
  - destruct (key_eqb k k0) eqn:E; cbn.
    + apply key_eqb_eq in E. subst. destruct (key_eqb k' k0); reflexivity.
    + rewrite IH. destruct (key_eqb k' k) eqn:F; auto. apply key_eqb_eq in F. subst. now rewrite E.
Qed.
Lemma bp_json_parts b w w' doc : bp_json b w = (w', Ok doc) ->
  exists x ic sc o w1, blu w b = Some x /\ doc = VDict [(KS "blueprint", VDict o)] /\
    icons_json (w_protos w) 1 (b_icons x) = Ok ic /\ dget "icons" o = Some (VList ic) /\
    sim w w1 /\ mapM (sched_json w1) (b_scheds x) = Ok sc /\ doc_list o "schedules" = sc /\ (b_scheds x = [] -> dget "schedules" o = None).
Proof.
  intros H. unfold bp_json in H. apply mbind_ok in H as (x & w0 & H0 & H). unfold get_bp, gets in H0.
  destruct (blu w b) as [x0|] eqn:Hx; [|discriminate]. injection H0 as <- <-.
  apply mbind_ok in H as (es & w1 & H1 & H). apply mbind_ok in H as (ic & w2 & H2 & H). unfold gets in H2. injection H2 as <- H2.
  apply mbind_ok in H as (sc & w3 & H3 & H). unfold gets in H3. injection H3 as <- H3. injection H as <- <-.
  assert (S : sim w w1).
  { unfold layer_json in H1. apply mbind_ok in H1 as (x1 & wa & Ha & H1). unfold get_bp, gets in Ha. rewrite Hx in Ha. injection Ha as <- <-.
    apply mbind_ok in H1 as (vs & wb & Hb & H1). injection H1 as <- <-. eapply mapMM_sims; eauto. apply sims_ent_json. }
  assert (P : w_protos w1 = w_protos w) by (destruct S as (P & _); auto).
  eexists x0, ic, sc, _, w1. split; [reflexivity|]. split; [reflexivity|]. split; [now rewrite <- P|].
  assert (IC : forall o, dget "icons" (match sc with [] => dset "version" (b_version x0) (dset "icons" (VList ic) o)
                        | _ :: _ => dset "schedules" (VList sc) (dset "version" (b_version x0) (dset "icons" (VList ic) o)) end) = Some (VList ic)).
  { intros o. destruct sc; rewrite !dget_dset'; reflexivity. }
  split; [apply IC|]. split; auto. split; auto.
  set (o0 := obj_set (obj_set _ "entities" es) "tiles" _).
  assert (N0 : dget "schedules" o0 = None).
  { unfold o0, obj_set. destruct (none_if_empty _), es, (b_label_color x0), (b_label x0); reflexivity. }
  split.
  - unfold doc_list. destruct sc; rewrite !dget_dset'; cbn; [now rewrite N0|reflexivity].
  - intros E. rewrite E in H3. cbn in H3. injection H3 as <-. rewrite !dget_dset'. cbn. exact N0.
Qed.
Lemma p_C40_export w b w' doc : bp_json b w = (w', Ok doc) ->
  exists x l, blu w b = Some x /\ dget "icons" (inner_doc doc) = Some (VList l) /\ icon_docs (w_protos w) (b_icons x) l.
Proof.
  intros H. destruct (bp_json_parts _ _ _ _ H) as (x & ic & sc & o & w1 & Hx & -> & I & D & _). exists x, ic. split; auto. split; auto.
  destruct (icons_json_ok _ _ 0 _ I) as (ks & A & _ & B & C). exists ks. split; auto. split; auto.
  eapply Forall2_impl'; [|exact C]. intros k v (s & data & t & _ & N & Q). rewrite Nat.sub_0_r in N. eauto 8.
Qed.

(** ** C41 *)
Lemma found_flat w b nums : found w b nums (flat_map (fun o => match o with Some i => [i] | None => [] end) (map (fun n => get_entity_by_id w b n) nums)).
Proof.
  induction nums as [|n nums IH]; cbn; [constructor|]. destruct (get_entity_by_id w b n) eqn:E; cbn; [now apply fo_hit|now apply fo_miss].
Qed.
Lemma mapM_F2 {X Y} (f : X -> res Y) l m : mapM f l = Ok m -> Forall2 (fun x y => f x = Ok y) l m.
Proof.
  revert m. induction l as [|x l IH]; cbn; intros m H; [injection H as <-; constructor|].
  destruct (f x) as [y|] eqn:E; [|discriminate]. cbn in H. destruct (mapM f l) as [ys|]; [|discriminate]. injection H as <-. constructor; auto.
Qed.
Lemma by_id_upd_bp w b n f c : (forall x, b_objs (f x) = b_objs x) -> get_entity_by_id (upd_bp c f w) b n = get_entity_by_id w b n.
Proof.
  intros H. assert (F : forall l, find_number (upd_bp c f w) n l = find_number w n l).
  { induction l as [|i l IH]; cbn; auto. rewrite ent_upd_bp. now rewrite IH. }
  unfold get_entity_by_id. rewrite blu_upd. destruct (Nat.eqb c b); destruct (blu w b) as [x|]; cbn; rewrite ?H, ?F; auto.
Qed.
Lemma found_ext w w' b nums l : (forall n, get_entity_by_id w' b n = get_entity_by_id w b n) -> found w b nums l -> found w' b nums l.
Proof.
  intros H. induction 1; [constructor|apply fo_hit; auto; now rewrite H|apply fo_miss; auto; now rewrite H].
Qed.
Lemma p_C41_load w b x doc d w' doc' : blu w b = Some x -> holds doc d ->
  (dget "schedules" d = None \/ exists l, dget "schedules" d = Some (VList l)) ->
  (forall v dv, In v (doc_list d "schedules") -> v = VDict dv -> exists nums, dget "locomotives" dv = Some (VList nums)) ->
  load b doc w = (w', doc', Ok tt) ->
  exists x', blu w' b = Some x' /\ Forall2 (sched_of w' b) (doc_list d "schedules") (b_scheds x').
Proof.
  intros Hx Hd SL NL H. rewrite (load_holds _ _ _ _ _ Hx Hd) in H. destruct (load_inner _ _ _ _) as [[w4 d4] r] eqn:L. injection H as <- _ ->.
  destruct (load_inner_ok _ _ _ _ _ _ L) as (w1 & ents & w2 & l' & w3 & H1 & HE & H2 & H3 & H4).
  assert (B1 : exists x1, blu w1 b = Some x1).
  { assert (K : forall b d w, blu w b <> None -> blu (fst (load_head b d w)) b <> None).
    { clear. intros b d w K. unfold load_head, mbind, modify, gets, ret.
      destruct (dataget d "label_color" VNone); try (destruct (color_of_val _)); try (destruct (iter_val _) as [icons|]; [destruct (foldE _ icons _)|]);
      cbn [fst]; rewrite ?blu_upd, ?Nat.eqb_refl; destruct (blu w b); cbn; congruence. }
    specialize (K b d w). rewrite H1 in K. cbn in K. destruct (blu w1 b); eauto. exfalso. apply K; congruence. }
  destruct B1 as (x1 & B1).
  pose proof (kp_load_entities b b (b_custom x) ents w1) as K2. rewrite H2 in K2. destruct (K2 _ B1) as (x2 & B2 & S2).
  pose proof (kp_load_tail b b d w2) as K3. rewrite H3 in K3. destruct (K3 _ B2) as (x3 & B3 & S3). cbn [fst] in B2, B3.
  unfold load_scheds in H4. apply mbind_ok in H4 as (ss & w5 & H5 & H6). unfold gets in H5.
  assert (IT : iter_val (dataget d "schedules" (VList [])) = Ok (doc_list d "schedules")).
  { unfold dataget, doc_list. destruct SL as [-> | (l & ->)]; reflexivity. }
  rewrite IT in H5. cbn [bind] in H5. injection H5 as <- H5. injection H6 as <-.
  eexists. split; [rewrite blu_upd, Nat.eqb_refl, B3; reflexivity|]. cbn [b_scheds b_set_scheds].
  enough (G : Forall2 (sched_of w3 b) (doc_list d "schedules") ss).
  { eapply Forall2_impl'; [|exact G]. intros v s (kw & nums & A1 & A2 & A3 & A4). exists kw, nums. repeat (split; auto).
    eapply found_ext; [|exact A4]. intros n. apply by_id_upd_bp. reflexivity. }
  apply mapM_F2 in H5. clear - H5 NL. induction H5 as [|v s l ss E F IH]; constructor; [|apply IH; intros; eapply NL; eauto; now right].
  unfold sched_new in E. destruct (as_kwargs v) as [kw|] eqn:AK; [|discriminate]. cbn [bind] in E.
  assert (v = VDict kw) as ->. { destruct v; try discriminate. cbn in AK. destruct (all_KS _) in AK; try discriminate. congruence. }
  destruct (dmem "self" kw || dmem "blueprint" kw); [discriminate|].
  destruct (dget "schedule" kw) as [sc|] eqn:ES; [|discriminate]. destruct (NL _ kw (or_introl eq_refl) eq_refl) as (nums & EL). rewrite EL in E.
  destruct (ddel "locomotives" (ddel "schedule" kw)) eqn:DD; [|discriminate]. cbn [iter_val bind] in E. injection E as <-.
  exists kw, nums. split; auto. split; auto. split; auto. apply found_flat.
Qed.
Lemma p_C41_kept ops w b x : (forall o, In o ops -> is_load_of b o = false) -> blu w b = Some x ->
  exists x', blu (run ops w) b = Some x' /\ b_scheds x' = b_scheds x.
Proof. intros H Hx. destruct (run_keeps b ops w H x Hx) as (x' & B & S). exists x'. split; auto. unfold settings in S. congruence. Qed.
Lemma p_C41_export w b w' doc : bp_json b w = (w', Ok doc) ->
  exists x, blu w b = Some x /\ Forall2 (sched_doc w) (b_scheds x) (doc_list (inner_doc doc) "schedules") /\
    (b_scheds x = [] -> dget "schedules" (inner_doc doc) = None).
Proof.
  intros H. destruct (bp_json_parts _ _ _ _ H) as (x & ic & sc & o & w1 & Hx & -> & _ & _ & S & M & D & N). exists x. split; auto.
  cbn [inner_doc dget key_eqb String.eqb Ascii.eqb Bool.eqb]. split; auto. rewrite D. apply mapM_F2 in M.
  eapply Forall2_impl'; [|exact M]. intros s v E. unfold sched_json in E.
  destruct (mapM _ (fst s)) as [nums|] eqn:MM; [|discriminate]. cbn in E. injection E as <-. exists nums. split; auto.
  apply mapM_F2 in MM. eapply Forall2_impl'; [|exact MM]. intros i n Ei. cbn in Ei. destruct S as (_ & SE & _).
  unfold ent in *. rewrite SE in *. destruct (nth_error (w_ents w) i) as [e|]; [|discriminate]. injection Ei as <-. eauto.
Qed.
Lemma F2_nth {A B} (R : A -> B -> Prop) l m k a : Forall2 R l m -> nth_error l k = Some a -> exists b, nth_error m k = Some b /\ R a b.
Proof. intros F. revert k. induction F; intros [|k] E; cbn in *; try discriminate; eauto. injection E as ->. eauto. Qed.
Lemma p_C41_denotes w b x w' doc m s j i k : blu w b = Some x -> numbered w (b_objs x) -> bp_json b w = (w', Ok doc) ->
  nth_error (b_scheds x) m = Some s -> nth_error (fst s) j = Some i -> nth_error (b_objs x) k = Some i ->
  exists nums d, nth_error (doc_list (inner_doc doc) "schedules") m = Some (VDict [(KS "locomotives", VList nums); (KS "schedule", snd s)]) /\
    nth_error nums j = Some (VInt (Z.of_nat k + 1)) /\
    nth_error (doc_list (inner_doc doc) "entities") k = Some (VDict d) /\ dget "entity_number" d = Some (VInt (Z.of_nat k + 1)).
Proof.
  intros Hx N H Hs Hj Hk. destruct (p_C41_export _ _ _ _ H) as (x' & Hx' & F & _). rewrite Hx in Hx'. injection Hx' as <-.
  destruct (F2_nth _ _ _ _ _ F Hs) as (v & Hv & nums & -> & FN). destruct (F2_nth _ _ _ _ _ FN Hj) as (n & Hn & e & He & <-).
  destruct (N _ _ Hk) as (e' & He' & A). assert (e' = e) by (unfold ent in *; congruence). subst e'.
  destruct (bp_json_nth _ _ _ _ H) as (x' & Hx' & L & G). rewrite Hx in Hx'. injection Hx' as <-.
  destruct (G _ _ Hk) as (v & w1 & w2 & Hv2 & (_ & E & _) & J). destruct (ent_json_ok _ _ _ _ J) as (e1 & q & cs & d & He1 & _ & -> & _ & D & _).
  exists nums, d. rewrite <- A. repeat split; auto. assert (e1 = e) by (unfold ent in *; congruence). congruence.
Qed.

(** ** C37 *)
Lemma shrunk_refl d : shrunk d d. Proof. intros k. auto. Qed.
Lemma shrunk_trans a b c : shrunk a b -> shrunk b c -> shrunk a c.
Proof. intros H K k. destruct (K k) as [E|E]; [rewrite E; apply H|auto]. Qed.
Lemma shrunk_ddel k d : shrunk d (ddel k d).
Proof. intros k'. rewrite dget_ddel. destruct (key_eqb k' k); auto. Qed.
Lemma shrunk_dpop k v d : shrunk d (snd (dpop k v d)).
Proof. unfold dpop. destruct (dget k d); cbn; apply shrunk_ddel || apply shrunk_refl. Qed.
Lemma shrunk_get_from typ k d : shrunk d (fst (get_from typ k d)).
Proof.
  unfold get_from. match goal with |- context [dpop ?c VNone d] => pose proof (shrunk_dpop c VNone d) as H; destruct (dpop c VNone d) as [v d1] end.
  cbn in H. destruct v; try exact H.
  match goal with |- context [dpop ?c VNone d1] => pose proof (shrunk_dpop c VNone d1) as H2; destruct (dpop c VNone d1) as [v d2] end.
  cbn in H2. assert (shrunk d d2) by (eapply shrunk_trans; eauto). destruct v; assumption.
Qed.
Lemma shrunk_take_signal p typ k d : shrunk d (fst (take_signal p typ k d)).
Proof. unfold take_signal. pose proof (shrunk_get_from typ k d) as H. destruct (get_from typ k d) as [d1 r]. exact H. Qed.
Lemma shrunk_comb_take p cbl typ op d : shrunk d (fst (comb_take p cbl typ op d)).
Proof.
  unfold comb_take. destruct (dget op d); [|apply shrunk_refl]. pose proof (shrunk_ddel op d) as H0. destruct (comb_operator cbl v); [|exact H0].
  pose proof (shrunk_take_signal p typ "first" (ddel op d)) as H1. destruct (take_signal p typ "first" (ddel op d)) as [d1 [f|]]; cbn in H1; [|cbn; eapply shrunk_trans; eauto].
  pose proof (shrunk_take_signal p typ "second" d1) as H2. destruct (take_signal p typ "second" d1) as [d2 [s|]]; cbn in H2; [|cbn; eauto using shrunk_trans].
  pose proof (shrunk_take_signal p typ "output" d2) as H3. destruct (take_signal p typ "output" d2) as [d3 [t|]]; cbn in H3; cbn; eauto using shrunk_trans.
Qed.
Definition cfield (cls : list scls) : option string := option_map (fun n => (fst n ++ "_conditions")%string) (comb_names cls).
Lemma cfield_conditions cls f : cfield cls = Some f -> conditions f.
Proof.
  unfold cfield, conditions. induction cls as [|c l IH]; [discriminate|]. cbn [comb_names].
  destruct c; try exact IH; cbn; intros [= <-]; auto.
Qed.
(** the state of a running constructor: nothing popped from the conditions yet, or the rest
    of them is what remains under the key *)
Definition cgood (cls : list scls) (cbkw : dict) (st : cst) : Prop :=
  match k_mut st with
  | None => forall f, conditions f -> dget f (k_kw st) = dget f cbkw
  | Some (f, d') => cfield cls = Some f /\ (exists d, dget f cbkw = Some (VDict d) /\ shrunk d d') /\
                    (dget f (k_kw st) = Some (VDict d') \/ dget f (k_kw st) = None /\ d' = [])
  end.
Definition cdone (cls : list scls) (cbkw : dict) (st : cst) : Prop :=
  forall f d', k_mut st = Some (f, d') -> cfield cls = Some f /\ exists d, dget f cbkw = Some (VDict d) /\ shrunk d d'.
Lemma cgood_done cls cbkw st : cgood cls cbkw st -> cdone cls cbkw st.
Proof. unfold cgood, cdone. intros H f d' E. rewrite E in H. destruct H as (A & B & _). auto. Qed.
Lemma cgood_same cls cbkw st st' : (forall f, conditions f -> dget f (k_kw st') = dget f (k_kw st)) -> k_mut st' = k_mut st ->
  cgood cls cbkw st -> cgood cls cbkw st'.
Proof.
  intros K M. unfold cgood. rewrite M. destruct (k_mut st) as [[f d']|].
  - intros (A & B & C). rewrite (K f (cfield_conditions _ _ A)). auto.
  - intros H f C. rewrite K; auto.
Qed.
Lemma cconsume_same st (ks : list string) (ats : dict) (f : string) : ~ In f ks -> dget f (k_kw (cconsume st ks ats)) = dget f (k_kw st) /\ k_mut (cconsume st ks ats) = k_mut st.
Proof.
  intros N. split; [|reflexivity]. unfold cconsume. cbn [k_kw]. pose proof (dget_drop_keys ks (k_kw st) (KS f)) as D. unfold drop_keys in D. rewrite D.
  destruct (named ks (KS f)) eqn:E; auto. apply named_In in E. tauto.
Qed.
Lemma cb_simple_good p cls c cbkw st st' : cb_simple p cls c st = Ok st' -> cgood cls cbkw st -> cgood cls cbkw st'.
Proof.
  intros H. assert (K : st' = st \/ exists ks ats, st' = cconsume st ks ats /\ forall f, conditions f -> ~ In f ks).
  { unfold cb_simple in H. unfold bind in H.
    destruct c; repeat match type of H with match ?t with _ => _ end = _ => destruct t; try discriminate end;
    injection H as <-; auto; right; eexists; eexists; (split; [reflexivity|]);
    intros f [-> | [-> | ->]]; cbn; intuition discriminate. }
  destruct K as [-> | (ks & ats & -> & N)]; auto. apply cgood_same.
  - intros f C. apply cconsume_same. auto.
  - reflexivity.
Qed.
Lemma put_back (kw : dict) (f : string) (d' : dict) :
  let kw' := match d' with [] => ddel f kw | _ => dset f (VDict d') (ddel f kw) end in
  dget f kw' = Some (VDict d') \/ dget f kw' = None /\ d' = [].
Proof. destruct d'; cbn zeta; [right; split; auto; apply dget_ddel_same|left; rewrite dget_dset', key_eqb_refl; reflexivity]. Qed.
Lemma cgood_field cls cbkw st f d : cgood cls cbkw st -> cfield cls = Some f -> dget f (k_kw st) = Some (VDict d) ->
  exists d0, dget f cbkw = Some (VDict d0) /\ shrunk d0 d.
Proof.
  unfold cgood. destruct (k_mut st) as [[f' d']|].
  - intros (A & (d0 & B & S) & C) F D. assert (f' = f) by congruence. subst f'. destruct C as [C|(C & _)]; [|congruence].
    assert (d' = d) by congruence. subst d'. eauto.
  - intros H F D. exists d. split; [|apply shrunk_refl]. rewrite <- H; auto. eapply cfield_conditions; eauto.
Qed.
Lemma comb_init_good p cls cbl cbkw st st' r : comb_init p cls cbl st = (st', r) -> cgood cls cbkw st ->
  (r = Ok tt -> cgood cls cbkw st') /\ cdone cls cbkw st'.
Proof.
  unfold comb_init. destruct (comb_names cls) as [[typ op]|] eqn:CN.
  2: { intros [= <- <-] G. split; [discriminate|now apply cgood_done]. }
  set (field := (typ ++ "_conditions")%string). assert (F : cfield cls = Some field) by (unfold cfield; now rewrite CN).
  destruct (dget field (k_kw st)) as [v|] eqn:E; cbn [odflt].
  - destruct v as [| | | | | |d]; try (intros [= <- <-] G; split; [discriminate|now apply cgood_done]).
    pose proof (shrunk_comb_take p cbl typ op d) as SH. destruct (comb_take p cbl typ op d) as [d' o]. cbn [fst] in SH.
    unfold dmem. rewrite E. intros H G. destruct (cgood_field _ _ _ _ _ G F E) as (d0 & D0 & S0).
    assert (S1 : shrunk d0 d') by (eapply shrunk_trans; eauto).
    destruct o as [ats|e]; injection H as <- <-.
    + split; [intros _|]; [|intros f x [= <- <-]; eauto]. cbn. split; auto. split; eauto. apply put_back.
    + split; [discriminate|]. intros f x [= <- <-]; eauto.
  - cbn. unfold comb_take. cbn. unfold dmem. rewrite E. intros [= <- <-] G. split; [discriminate|].
    apply cgood_done in G. intros f d' M. apply (G f d' M).
Qed.
Lemma decider_init_good cls cbkw st st' r : decider_init cls st = (st', r) -> cgood cls cbkw st ->
  (r = Ok tt -> cgood cls cbkw st') /\ cdone cls cbkw st'.
Proof.
  unfold decider_init. destruct (comb_names cls) as [[typ op]|] eqn:CN.
  2: { intros [= <- <-] G. split; [discriminate|now apply cgood_done]. }
  set (field := (typ ++ "_conditions")%string). assert (F : cfield cls = Some field) by (unfold cfield; now rewrite CN).
  destruct (dget field (k_kw st)) as [v|] eqn:E.
  2: { intros [= <- <-] G. split; [discriminate|now apply cgood_done]. }
  destruct v as [| | | | | |d]; try (intros [= <- <-] G; split; [discriminate|now apply cgood_done]).
  pose proof (shrunk_dpop "copy_count_from_input" (VBool false) d) as SH. destruct (dpop "copy_count_from_input" (VBool false) d) as [c d']. cbn [snd] in SH.
  intros H G. destruct (cgood_field _ _ _ _ _ G F E) as (d0 & D0 & S0). assert (S1 : shrunk d0 d') by (eapply shrunk_trans; eauto).
  injection H as <- <-. split; [intros _|]; [|intros f x [= <- <-]; eauto]. cbn. split; auto. split; eauto. apply put_back.
Qed.
Lemma cb_link_good p cls cbl c cbkw st st' r : cb_link p cls cbl c st = (st', r) -> cgood cls cbkw st ->
  (r = Ok tt -> cgood cls cbkw st') /\ cdone cls cbkw st'.
Proof.
  intros H G. assert (K : (match cb_simple p cls c st with Ok st' => (st', Ok tt) | Err e => (st, Err e) end) = (st', r) ->
    (r = Ok tt -> cgood cls cbkw st') /\ cdone cls cbkw st').
  { destruct (cb_simple p cls c st) as [s|] eqn:E; intros [= <- <-].
    - pose proof (cb_simple_good _ _ _ _ _ _ E G). split; auto. now apply cgood_done.
    - split; [discriminate|]. now apply cgood_done. }
  destruct c; try (apply K; exact H).
  - eapply comb_init_good; eauto.
  - eapply decider_init_good; eauto.
Qed.
Lemma cb_chain_done p name cls all l cbkw : forall st st' r, cb_init_chain p name cls all l st = (st', r) -> cgood cls cbkw st -> cdone cls cbkw st'.
Proof.
  assert (STEP : forall c l, (forall st st' r, cb_init_chain p name cls all l st = (st', r) -> cgood cls cbkw st -> cdone cls cbkw st') ->
     forall st st' r, (let '(st, x) := cb_link p cls all c st in match x with Ok _ => cb_init_chain p name cls all l st | Err e => (st, Err e) end) = (st', r) ->
     cgood cls cbkw st -> cdone cls cbkw st').
  { intros c m IH st st' r H G. destruct (cb_link p cls all c st) as [s x] eqn:E. destruct (cb_link_good _ _ _ _ _ _ _ _ E G) as (A & B).
    destruct x as [[]|e]; [eapply IH; eauto|]. injection H as <- <-. exact B. }
  induction l as [|c l IH]; intros st st' r H G; [cbn in H; injection H as <- <-; now apply cgood_done|].
  cbn [cb_init_chain] in H. destruct c; try (eapply STEP; eauto; fail).
  - destruct (base_init _ _ _ _); injection H as <- <-; apply cgood_done in G; intros f d' M; apply (G f d' M).
  - destruct (cb_link p cls all CInserter st) as [s x] eqn:E. destruct (cb_link_good _ _ _ _ _ _ _ _ E G) as (A & B).
    destruct x; injection H as <- <-; exact B.
Qed.
Lemma as_kwargs_dict v d : as_kwargs v = Ok d -> v = VDict d.
Proof. destruct v; try discriminate. cbn. destruct (all_KS d0); try discriminate. congruence. Qed.
Lemma construct_spent p cust layer kw : entity_spent (VDict kw) (VDict (fst (construct p cust layer kw))).
Proof.
  unfold construct. destruct (_ || _); [now left|]. destruct (dget "name" kw) as [nm|]; [|now left].
  destruct (dget "position" kw) as [pos|]; [|now left].
  destruct (set_name _ _ _ _) as [e [[]|x]]; [|now left].
  match goal with |- context [match ?t with Ok _ => _ | Err _ => _ end] => destruct t as [e1|]; [|now left] end.
  destruct (dget "control_behavior" kw) as [cbv|] eqn:C; [|now left].
  destruct (as_kwargs cbv) as [cbkw|] eqn:K; [|now left]. apply as_kwargs_dict in K. subst cbv.
  destruct (_ || _); [now left|].
  destruct (cb_init_chain _ _ _ _ _ _) as [st r] eqn:E.
  assert (D : cdone (statics (e_cls e1)) cbkw st). { eapply cb_chain_done; [exact E|]. intros f _. reflexivity. }
  assert (Z : entity_spent (VDict kw) (VDict (match k_mut st with None => kw | Some (f, d) => dset "control_behavior" (VDict (dset f (VDict d) cbkw)) kw end))).
  { destruct (k_mut st) as [[f d']|] eqn:M; [|now left]. destruct (D f d' M) as (F & d & G & S). right. exists kw, cbkw, (dset f (VDict d') cbkw).
    repeat split; auto. exists f, d, d'. repeat split; auto. eapply cfield_conditions; eauto. }
  destruct r; exact Z.
Qed.
Lemma load_entities_spent b cust l : forall w, Forall2 entity_spent l (snd (fst (load_entities b cust l w))).
Proof.
  induction l as [|v l IH]; intros w; cbn [load_entities]; [constructor|].
  assert (RF : forall m, Forall2 entity_spent m m) by (induction m; constructor; auto; now left).
  destruct v as [| | | | | |kw]; try apply RF. pose proof (construct_spent (w_protos w) cust (Some b) kw) as CS.
  destruct (construct _ _ _ kw) as [kw' [e|x]]; cbn [fst] in CS.
  - specialize (IH (upd_bp b (fun x => b_set_objs (b_objs x ++ [length (w_ents w)]) x) (new_ent e w))).
    destruct (load_entities b cust l _) as [[w2 l'] r]. cbn in *. constructor; auto.
  - cbn. constructor; auto.
Qed.
Lemma p_C37_load w b doc d w' doc' r : holds doc d -> load b doc w = (w', doc', r) ->
  exists d', doc' = refilled doc d' /\ doc_spent d d' /\ (r = Ok tt -> dget "schedules" d' = None).
Proof.
  intros Hd H. destruct (blu w b) as [x|] eqn:Hx.
  2: { unfold load in H. rewrite Hx in H. injection H as <- <- <-. exists d. rewrite (refilled_same _ _ Hd). repeat split; try discriminate.
       exists d. auto. }
  rewrite (load_holds _ _ _ _ _ Hx Hd) in H. destruct (load_inner b (b_custom x) d w) as [[w1 d1] r1] eqn:L. injection H as <- <- <-.
  exists d1. split; auto. unfold load_inner in L.
  assert (SELF : doc_spent d d) by (exists d; auto).
  destruct (load_head b d w) as [w2 [[]|e]]; [|injection L as <- <- <-; split; [auto|discriminate]].
  destruct (iter_val (dataget d "entities" (VList []))) as [ents|] eqn:IT; [|injection L as <- <- <-; split; [auto|discriminate]].
  pose proof (load_entities_spent b (b_custom x) ents w2) as SP. destruct (load_entities b (b_custom x) ents w2) as [[w3 ents'] r3]. cbn [fst snd] in SP.
  set (d2 := match dget "entities" d with Some (VList _) => dset "entities" (VList ents') d | _ => d end) in *.
  assert (D2 : d2 = d \/ exists l l', dget "entities" d = Some (VList l) /\ Forall2 entity_spent l l' /\ d2 = dset "entities" (VList l') d).
  { unfold d2. unfold dataget in IT. destruct (dget "entities" d) as [[| | | | |l|]|]; auto. right. cbn in IT. injection IT as <-. eauto. }
  assert (S2 : doc_spent d d2) by (exists d2; auto).
  destruct r3 as [[]|e]; [|injection L as <- <- <-; split; [auto|discriminate]].
  destruct (load_tail b d w3) as [w4 [[]|e]]; [|injection L as <- <- <-; split; [auto|discriminate]].
  destruct (load_scheds b d w4) as [w5 r5]. injection L as <- <- <-. split; [exists d2; auto|]. intros _. apply dget_ddel_same.
Qed.
Lemma p_C37_rejected w b doc w' doc' r : (forall d, ~ holds doc d) -> load b doc w = (w', doc', r) -> doc' = doc /\ w' = w /\ exists e, r = Err e.
Proof.
  intros N H. unfold load in H. destruct (blu w b) as [x|]; [|injection H as <- <- <-; eauto].
  destruct doc as [| | | | | |o]; try (injection H as <- <- <-; eauto; fail).
  destruct (dget "blueprint" o) as [v|] eqn:E.
  - destruct v as [| | | | | |d]; try (injection H as <- <- <-; eauto; fail). exfalso. apply (N d). right. eauto.
  - exfalso. apply (N o). left. auto.
Qed.
(** documents without schedules and conditions are not changed *)
Lemma p_C37_untouched d d' : doc_spent d d' -> dget "schedules" d = None ->
  (forall l v kw cb f, dget "entities" d = Some (VList l) -> In v l -> v = VDict kw -> dget "control_behavior" kw = Some (VDict cb) ->
     conditions f -> dget f cb = None) -> d' = d.
Proof.
  intros (d1 & A & B) S N. assert (d1 = d) as ->.
  { destruct A as [->|(l & l' & E & F & ->)]; auto. replace l' with l; [now apply dset_get|].
    assert (K : forall m m', Forall2 entity_spent m m' -> (forall v, In v m -> In v l) -> m = m').
    { clear F. induction 1 as [|v v' m m' R F IH]; intros I; auto. f_equal; [|apply IH; intros; apply I; now right].
      destruct R as [->|(kw & cb & cb' & -> & C & (f & x & x' & Cf & G & _) & _)]; auto.
      rewrite (N l _ kw cb f E (I _ (or_introl eq_refl)) eq_refl C Cf) in G. discriminate. }
    apply K; auto. }
  destruct B as [->| ->]; auto. now apply ddel_absent.
Qed.
(** a successful load has used up the conditions of the combinators *)
Lemma cb_link_mut p cls cbl c st st' r : cb_link p cls cbl c st = (st', r) -> k_mut st <> None -> k_mut st' <> None.
Proof.
  intros H N. assert (K : (match cb_simple p cls c st with Ok st' => (st', Ok tt) | Err e => (st, Err e) end) = (st', r) -> k_mut st' <> None).
  { destruct (cb_simple p cls c st) as [s|] eqn:E; intros [= <- <-]; auto. assert (k_mut s = k_mut st); [|congruence].
    unfold cb_simple, bind in E.
    destruct c; repeat match type of E with match ?t with _ => _ end = _ => destruct t; try discriminate end; injection E as <-; auto. }
  destruct c; try (apply K; exact H); cbn in H.
  - unfold comb_init in H. destruct (comb_names cls) as [[typ op]|]; [|injection H as <- <-; auto].
    destruct (odflt _ _); try (injection H as <- <-; auto; fail). destruct (comb_take _ _ _ _ _) as [d' [ats|e]]; injection H as <- <-; cbn;
    destruct (dmem _ _); congruence.
  - unfold decider_init in H. destruct (comb_names cls) as [[typ op]|]; [|injection H as <- <-; auto].
    destruct (dget _ _) as [[]|]; try (injection H as <- <-; auto; fail). destruct (dpop _ _ _). injection H as <- <-. cbn. congruence.
Qed.
Lemma comb_init_mut p cls cbl st st' : comb_init p cls cbl st = (st', Ok tt) -> k_mut st' <> None.
Proof.
  unfold comb_init. destruct (comb_names cls) as [[typ op]|]; [|discriminate]. unfold dmem.
  destruct (dget _ (k_kw st)) as [v|]; cbn [odflt].
  - destruct v; try discriminate. destruct (comb_take _ _ _ _ _) as [d' [ats|e]]; intros [= <-]; cbn; congruence.
  - cbn. discriminate.
Qed.
Lemma cb_chain_ok p name cls all l cbkw : forall st st' a, cb_init_chain p name cls all l st = (st', Ok a) -> cgood cls cbkw st ->
  In CBaseMixin l -> ~ In CInserter l ->
  cgood cls cbkw st' /\ k_kw st' = [] /\ (k_mut st <> None -> k_mut st' <> None) /\
  ((exists r, l = [] ++ CCombinator :: r) \/ (exists r, l = [CArithmetic] ++ CCombinator :: r) \/ (exists r, l = [CDecider] ++ CCombinator :: r) -> k_mut st' <> None).
Proof.
  assert (STEP : forall c l, (forall st st' a, cb_init_chain p name cls all l st = (st', Ok a) -> cgood cls cbkw st ->
      cgood cls cbkw st' /\ k_kw st' = [] /\ (k_mut st <> None -> k_mut st' <> None) /\ ((exists r, l = CCombinator :: r) -> k_mut st' <> None)) ->
     forall st st' a, (let '(st, x) := cb_link p cls all c st in match x with Ok _ => cb_init_chain p name cls all l st | Err e => (st, Err e) end) = (st', Ok a) ->
     cgood cls cbkw st -> cgood cls cbkw st' /\ k_kw st' = [] /\ (k_mut st <> None -> k_mut st' <> None) /\ ((exists r, l = CCombinator :: r) -> k_mut st' <> None) /\
       (c = CCombinator -> k_mut st' <> None)).
  { intros c m IH st st' r H G. destruct (cb_link p cls all c st) as [s x] eqn:E. destruct (cb_link_good _ _ _ _ _ _ _ _ E G) as (A & B).
    destruct x as [[]|e]; [|discriminate]. destruct (IH _ _ _ H (A eq_refl)) as (I1 & I2 & I3 & I4). repeat split; auto.
    - intros N. apply I3. eapply cb_link_mut; eauto.
    - intros ->. apply I3. eapply comb_init_mut. exact E. }
  assert (MAIN : forall l, In CBaseMixin l -> ~ In CInserter l -> forall st st' a, cb_init_chain p name cls all l st = (st', Ok a) -> cgood cls cbkw st ->
      cgood cls cbkw st' /\ k_kw st' = [] /\ (k_mut st <> None -> k_mut st' <> None) /\ ((exists r, l = CCombinator :: r) -> k_mut st' <> None)).
  { clear l. induction l as [|c l IH]; intros IB NI st st' a H G; [destruct IB|].
    assert (c = CBaseMixin \/ c <> CBaseMixin) as [->|NB] by (destruct c; auto; right; discriminate).
    - cbn in H. unfold base_init in H. destruct (k_args st); [|discriminate]. destruct (k_kw st) eqn:KW; [|discriminate]. injection H as <- _. cbn.
      split; [eapply cgood_same; [| |exact G]; cbn; auto; now rewrite KW|]. split; auto. split; auto. intros (r & [=]).
    - assert (In CBaseMixin l) as IB' by (destruct IB; [congruence|auto]). assert (~ In CInserter l) as NI' by (intros I; apply NI; now right).
      assert (c <> CInserter) as NC by (intros ->; apply NI; now left).
      assert (HH : (let '(st, x) := cb_link p cls all c st in match x with Ok _ => cb_init_chain p name cls all l st | Err e => (st, Err e) end) = (st', Ok a)).
      { cbn [cb_init_chain] in H. destruct c; try exact H; congruence. }
      destruct (STEP c l (IH IB' NI') _ _ _ HH G) as (A & B & C & D & E). repeat split; auto. intros (r & [= -> _]). auto. }
  intros st st' a H G IB NI. destruct (MAIN l IB NI _ _ _ H G) as (A & B & C & D). repeat split; auto.
  intros [(r & E)|[(r & ->)|(r & ->)]]; [apply D; eauto| |].
  all: cbn [app] in *; assert (IB' : In CBaseMixin (CCombinator :: r)) by (destruct IB; [congruence|auto]);
       assert (NI' : ~ In CInserter (CCombinator :: r)) by (intros I; apply NI; now right).
  all: match type of H with cb_init_chain _ _ _ _ (?c :: _) _ = _ =>
         destruct (STEP c _ (MAIN _ IB' NI') st st' a H G) as (_ & _ & _ & X & _) end; apply X; eauto.
Qed.
Lemma construct_emptied p cust layer (kw : dict) e s data ty f cb : snd (construct p cust layer kw) = Ok e -> checked kw ->
  dget "name" kw = Some (VStr s) -> dget s (p_entity p) = Some (VDict data) -> dget "type" data = Some (VStr ty) -> conditions_of ty = Some f ->
  dget ty cust = None -> dget "control_behavior" kw = Some (VDict cb) ->
  fst (construct p cust layer kw) = dset "control_behavior" (VDict (dset f (VDict []) cb)) kw.
Proof.
  intros H CK N ED TY CF CU CB. unfold construct in H |- *. destruct (_ || _); [discriminate|]. rewrite N in H |- *.
  destruct (dget "position" kw) as [pos|]; [|discriminate].
  assert (T : truthy (odflt (VBool true) (dget "strict" kw)) = true).
  { destruct (dget "strict" kw) as [v|] eqn:E; [|reflexivity]. cbn. now apply CK. }
  unfold set_name in H |- *. cbn [e_strict e_cls] in H |- *. rewrite T in H |- *. cbn [negb in_table] in H |- *.
  assert (M : dmem s (p_entity p) = true) by (unfold dmem; now rewrite ED). rewrite M in H |- *. rewrite ED in H |- *. cbn [getitem] in H |- *. rewrite TY in H |- *. cbn [bind] in H |- *.
  rewrite CU in H |- *. cbn [odflt app] in H |- *.
  assert (K : exists ms ic, dget ty type_mixins = Some ms /\ add_mixins entity_cls ms = Ok ic /\ cfield (statics ic) = Some f /\
     In CBaseMixin (cb_chain ic) /\ ~ In CInserter (cb_chain ic) /\
     ((exists r, cb_chain ic = [] ++ CCombinator :: r) \/ (exists r, cb_chain ic = [CArithmetic] ++ CCombinator :: r) \/ (exists r, cb_chain ic = [CDecider] ++ CCombinator :: r))).
  { unfold conditions_of in CF. destruct (String.eqb_spec ty "arithmetic-combinator") as [->|]; [|destruct (String.eqb_spec ty "decider-combinator") as [->|]; [|discriminate]];
    injection CF as <-; eexists; eexists; (split; [reflexivity|]); (split; [vm_compute; reflexivity|]); (split; [reflexivity|]);
    (split; [vm_compute; auto 10|]); (split; [vm_compute; intuition discriminate|]); vm_compute; eauto. }
  destruct K as (ms & ic & E1 & E2 & CFI & IB & NI & SH). rewrite E1 in H |- *. cbn [e_cls with_name] in H |- *. rewrite E2 in H |- *.
  match type of H with context [match ?t with Ok _ => _ | Err _ => _ end] => match t with bind (vec_of_val _) _ => destruct t as [e1|] eqn:PE; [|discriminate] end end.
  assert (EC : e_cls e1 = ic). { unfold bind in PE. destruct (vec_of_val pos); [|discriminate]. destruct (dir_of_val _); [|discriminate]. injection PE as <-. reflexivity. }
  rewrite CB in H |- *. destruct (as_kwargs (VDict cb)) as [cbkw|] eqn:AK; [|discriminate]. apply as_kwargs_dict in AK. injection AK as <-.
  destruct (_ || _); [discriminate|]. rewrite EC in H |- *.
  destruct (cb_init_chain p (e_name e1) (statics ic) (cb_chain ic) (cb_chain ic) _) as [st [a|x]] eqn:CI; [|discriminate].
  assert (G0 : cgood (statics ic) cb (mkCst 0 cb [] None)) by (intros f' _; reflexivity).
  destruct (cb_chain_ok _ _ _ _ _ _ _ _ _ CI G0 IB NI) as (G & KW & _ & MU). specialize (MU SH).
  cbn [fst]. unfold cgood in G. destruct (k_mut st) as [[f' d']|]; [|congruence]. destruct G as (F' & _ & R). rewrite KW in R. cbn in R.
  assert (f' = f) by congruence. subst f'. destruct R as [R|(_ & ->)]; [discriminate|reflexivity].
Qed.
Lemma load_entities_docs b cust l : forall w w' l' k kw, load_entities b cust l w = (w', l', Ok tt) -> nth_error l k = Some (VDict kw) ->
  nth_error l' k = Some (VDict (fst (construct (w_protos w) cust (Some b) kw))) /\ exists e, snd (construct (w_protos w) cust (Some b) kw) = Ok e.
Proof.
  induction l as [|v r IH]; cbn [load_entities]; intros w w' l' k kw H Hk; [destruct k; discriminate|].
  destruct v as [| | | | | |kv]; try discriminate. destruct (construct (w_protos w) cust (Some b) kv) as [kv' [e|]] eqn:E; [|discriminate].
  destruct (load_entities b cust r _) as [[w2 r'] o] eqn:L. injection H as <- <- ->. destruct k as [|k]; cbn in Hk.
  - injection Hk as <-. rewrite E. cbn. eauto.
  - apply (IH _ _ _ k kw L Hk).
Qed.
Lemma p_C37_emptied w b x doc d w' doc' l k kw s data ty f cb : blu w b = Some x -> holds doc d -> load b doc w = (w', doc', Ok tt) ->
  dget "entities" d = Some (VList l) -> nth_error l k = Some (VDict kw) -> checked kw -> dget "name" kw = Some (VStr s) ->
  dget s (p_entity (w_protos w)) = Some (VDict data) -> dget "type" data = Some (VStr ty) -> conditions_of ty = Some f -> dget ty (b_custom x) = None ->
  dget "control_behavior" kw = Some (VDict cb) ->
  nth_error (doc_list (inner_doc doc') "entities") k = Some (VDict (dset "control_behavior" (VDict (dset f (VDict []) cb)) kw)).
Proof.
  intros Hx Hd H EL Hk CK N ED TY CF CU CB. rewrite (load_holds _ _ _ _ _ Hx Hd) in H.
  destruct (load_inner b (b_custom x) d w) as [[w1 d1] r1] eqn:L. injection H as <- <- ->.
  assert (D1 : nth_error (doc_list d1 "entities") k = Some (VDict (dset "control_behavior" (VDict (dset f (VDict []) cb)) kw)) /\ (dget "blueprint" d = None -> dget "blueprint" d1 = None)).
  { unfold load_inner in L. pose proof (proj1 (load_head_frame b d w)) as PP. destruct (load_head b d w) as [w2 [[]|e]]; [|discriminate]. cbn [fst] in PP.
    unfold dataget at 1 in L. rewrite EL in L. cbn [odflt iter_val] in L.
    destruct (load_entities b (b_custom x) l w2) as [[w3 l'] [[]|e]] eqn:LE; [|discriminate].
    destruct (load_entities_docs _ _ _ _ _ _ _ _ LE Hk) as (K & e & Ke). rewrite PP in K, Ke.
    erewrite construct_emptied in K by eauto.
    destruct (load_tail b d w3) as [w4 [[]|e4]]; [|discriminate]. destruct (load_scheds b d w4) as [w5 r5]. injection L as <- <- ->.
    split; [|intros B; rewrite dget_ddel, dget_dset'; exact B].
    unfold doc_list. rewrite dget_ddel, dget_dset'. cbn. exact K. }
  destruct D1 as (D1 & BN). destruct Hd as [(-> & E)|(o & -> & E)]; unfold refilled; rewrite E; cbn [inner_doc].
  - rewrite (BN E). exact D1.
  - rewrite dget_dset'. cbn. exact D1.
Qed.
