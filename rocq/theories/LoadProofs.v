(** * Proofs about what a call of load leaves: C60, C61. *)
From Coq Require Import Lia Permutation Sorted.
From Verif Require Import Py Num NumFacts Util SpecUtil UtilFacts Classes Mixins Entity World WorldFacts
  Inv SortFacts SpecWorld SpecDoc SpecLoad LayerProofs PersistProofs WireProofs ExportProofs ParseProofs DictFacts KeepProofs DocProofs.
Open Scope Z_scope.

Lemma given_dataget d k v : given d k v = dataget d k v.
Proof. unfold given, dataget, odflt. destruct (dget k d); reflexivity. Qed.
Lemma elsewhere_refl w b : elsewhere w w b. Proof. split; auto. Qed.
Lemma elsewhere_trans a b c i : elsewhere a b i -> elsewhere b c i -> elsewhere a c i.
Proof. intros (A & B) (C & D). split; [congruence|]. intros j N. rewrite D, B; auto. Qed.
Lemma elsewhere_upd b f w : elsewhere w (upd_bp b f w) b.
Proof. split; [reflexivity|]. intros c N. rewrite blu_upd. destruct (Nat.eqb_spec b c); [congruence|reflexivity]. Qed.
Lemma blu_upd_same b f w x : blu w b = Some x -> blu (upd_bp b f w) b = Some (f x).
Proof. intros H. rewrite blu_upd, Nat.eqb_refl, H. reflexivity. Qed.

(** ** the head *)
Lemma load_icon_length p acc v : length (fst (load_icon p acc v)) = length acc.
Proof.
  unfold load_icon. destruct (getitem v "signal") as [s|]; cbn [bind fst]; auto. destruct (signal_set p s) as [s'|]; cbn [bind fst]; auto.
  destruct (getitem v "index") as [i|]; cbn [bind fst]; auto. destruct (icon_index i) as [z|]; cbn [bind fst]; auto.
  destruct (list_set_py _ _ _) as [l|] eqn:E; cbn [fst]; auto. unfold list_set_py in E. destruct (_ || _); [discriminate|].
  injection E as <-. apply lupd_length.
Qed.
Lemma fold_icon_length p l : forall acc, length (fst (foldE (load_icon p) l acc)) = length acc.
Proof. intros acc. apply (foldE_inv (fun a => length a = length acc)); auto. intros a v _ H. now rewrite load_icon_length. Qed.
Definition untouched (x x' : bp) : Prop :=
  fixed x x' /\ b_objs x' = b_objs x /\ b_conns x' = b_conns x /\ b_scheds x' = b_scheds x.
Lemma val_eq_none (v : val) : v = VNone \/ v <> VNone.
Proof. destruct v; auto; right; discriminate. Qed.
Definition head_colour (b : nat) (v : val) : M unit :=
  match v with
  | VNone => ret tt
  | v => do c <- gets (fun _ => color_of_val v); modify (upd_bp b (b_set_label_color (Some c)))
  end.
Lemma load_head_split b d : load_head b d =
  (do _ <- modify (upd_bp b (fun x => b_set_label (given d "label" VNone) (b_set_item (given d "item" (VStr "blueprint")) x)));
   do _ <- head_colour b (given d "label_color" VNone);
   do _ <- modify (upd_bp b (fun x => b_set_icons [None; None; None; None] (b_set_version (given d "version" (VInt 0)) x)));
   do icons <- gets (fun _ => iter_val (given d "icons" (VList [])));
   fun w => let '(ic, r) := foldE (load_icon (w_protos w)) icons [None; None; None; None] in (upd_bp b (b_set_icons ic) w, r)).
Proof. unfold load_head, given, head_colour, dataget, odflt. destruct (dget "label_color" d) as [[]|]; reflexivity. Qed.
Lemma head_cases w b x d w1 r : blu w b = Some x -> load_head b d w = (w1, r) ->
  elsewhere w w1 b /\ w_ents w1 = w_ents w /\ exists x1, blu w1 b = Some x1 /\ untouched x x1 /\
  match r with
  | Ok _ => headed d x x1
  | Err err => stopped_at_colour w w1 d x x1 err \/ stopped_at_icons w w1 d x x1
  end.
Proof.
  intros Hx H. rewrite load_head_split in H. unfold mbind at 1 in H. unfold modify at 1 in H. cbv beta iota in H.
  set (x0 := b_set_label (given d "label" VNone) (b_set_item (given d "item" (VStr "blueprint")) x)).
  set (w0 := upd_bp b _ w) in H.
  assert (H0 : blu w0 b = Some x0) by (unfold w0; rewrite (blu_upd_same _ _ _ _ Hx); reflexivity).
  assert (E0 : elsewhere w w0 b) by apply elsewhere_upd.
  assert (C : (exists w2 x2, colour_after d (b_label_color x) (b_label_color x2) /\ blu w2 b = Some x2 /\ elsewhere w w2 b /\ w_ents w2 = w_ents w /\
                 x2 = b_set_label_color (b_label_color x2) x0 /\
                 head_colour b (given d "label_color" VNone) w0 = (w2, Ok tt)) \/
              (exists e, given d "label_color" VNone <> VNone /\ color_of_val (given d "label_color" VNone) = Err e /\
                 head_colour b (given d "label_color" VNone) w0 = (w0, Err e))).
  { destruct (val_eq_none (given d "label_color" VNone)) as [N|N].
    - left. exists w0, x0. rewrite N. split; [left; auto|]. split; auto.
    - destruct (color_of_val (given d "label_color" VNone)) as [c|e] eqn:V.
      + left. exists (upd_bp b (b_set_label_color (Some c)) w0), (b_set_label_color (Some c) x0).
        split; [right; eauto|]. split; [now apply blu_upd_same|]. split; [eapply elsewhere_trans; [exact E0|apply elsewhere_upd]|].
        split; [reflexivity|]. split; [reflexivity|]. destruct (given d "label_color" VNone); try congruence; unfold head_colour, mbind, gets, modify; rewrite V; reflexivity.
      + right. exists e. split; auto. split; auto.
        destruct (given d "label_color" VNone); try congruence; unfold head_colour, mbind, gets; rewrite V; reflexivity. }
  unfold mbind at 1 in H. destruct C as [(w2 & x2 & CA & H2 & E2 & N2 & X2 & C)|(e & N & V & C)]; rewrite C in H.
  - unfold mbind at 1 in H. unfold modify at 1 in H. cbv beta iota in H.
    set (w3 := upd_bp b _ w2) in H.
    assert (H3 : blu w3 b = Some (b_set_icons [None; None; None; None] (b_set_version (given d "version" (VInt 0)) x2)))
      by (unfold w3; rewrite (blu_upd_same _ _ _ _ H2); reflexivity).
    assert (E3 : elsewhere w w3 b) by (eapply elsewhere_trans; [exact E2|apply elsewhere_upd]).
    unfold mbind, gets in H. destruct (iter_val (given d "icons" (VList []))) as [icons|e] eqn:I.
    + pose proof (fold_icon_length (w_protos w3) icons [None; None; None; None]) as L.
      destruct (foldE (load_icon (w_protos w3)) icons [None; None; None; None]) as [ic q] eqn:F. injection H as <- <-.
      split; [eapply elsewhere_trans; [exact E3|apply elsewhere_upd]|]. split; [exact N2|].
      eexists. split; [apply blu_upd_same; exact H3|]. split.
      { rewrite X2. repeat split. }
      assert (HD : headed d x (b_set_icons ic (b_set_icons [None; None; None; None] (b_set_version (given d "version" (VInt 0)) x2)))).
      { split; [split; rewrite X2; reflexivity|]. split; [exact CA|]. split; [reflexivity|exact L]. }
      destruct q as [[]|err]; [exact HD|]. right. unfold given in I. split; [|split].
      * intros Z. rewrite Z in I. injection I as <-. cbn in F. discriminate.
      * intros Z. rewrite Z in I. injection I as <-. cbn in F. discriminate.
      * split; [exact N2|]. split; [exact HD|]. rewrite X2. auto.
    + injection H as <- <-. split; [exact E3|]. split; [exact N2|]. eexists. split; [exact H3|]. split.
      { rewrite X2. repeat split. }
      right. unfold given in I. split; [|split].
      * intros Z. rewrite Z in I. discriminate.
      * intros Z. rewrite Z in I. discriminate.
      * split; [exact N2|]. split; [|rewrite X2; auto]. split; [split; rewrite X2; reflexivity|]. split; [exact CA|]. split; reflexivity.
  - injection H as <- <-. split; [exact E0|]. split; [reflexivity|]. exists x0. split; auto. split; [repeat split|].
    left. split; auto. split; auto. split; [reflexivity|]. split; [split; reflexivity|]. repeat split.
Qed.

(** ** the entities *)
Definition made_by (p : protos) (cust : customs) (b : nat) (v : val) (e : entity) : Prop :=
  exists kw, v = VDict kw /\ snd (construct p cust (Some b) kw) = Ok e.
Lemma entities_cases b cust l : forall w w' l' r x, load_entities b cust l w = (w', l', r) -> blu w b = Some x ->
  exists es, w_ents w' = w_ents w ++ es /\ elsewhere w w' b /\
    blu w' b = Some (b_set_objs (b_objs x ++ seq (length (w_ents w)) (length es)) x) /\
    match r with
    | Ok _ => Forall2 (made_by (w_protos w) cust b) l es
    | Err err => exists pre v post, l = pre ++ v :: post /\ Forall2 (made_by (w_protos w) cust b) pre es /\
        (((forall kw, v <> VDict kw) /\ err = EType) \/ exists kw, v = VDict kw /\ snd (construct (w_protos w) cust (Some b) kw) = Err err)
    end.
Proof.
  induction l as [|v l IH]; cbn [load_entities]; intros w w' l' r x H Hx.
  - injection H as <- _ <-. exists []. rewrite app_nil_r. split; auto. split; [apply elsewhere_refl|]. split; [|constructor].
    cbn. rewrite app_nil_r. rewrite Hx. destruct x; reflexivity.
  - assert (Stop : forall e, (w', r) = (w, Err e) ->
        (((forall kw, v <> VDict kw) /\ e = EType) \/ exists kw, v = VDict kw /\ snd (construct (w_protos w) cust (Some b) kw) = Err e) ->
        exists es, w_ents w' = w_ents w ++ es /\ elsewhere w w' b /\
          blu w' b = Some (b_set_objs (b_objs x ++ seq (length (w_ents w)) (length es)) x) /\
          match r with
          | Ok _ => Forall2 (made_by (w_protos w) cust b) (v :: l) es
          | Err err => exists pre v0 post, v :: l = pre ++ v0 :: post /\ Forall2 (made_by (w_protos w) cust b) pre es /\
              (((forall kw, v0 <> VDict kw) /\ err = EType) \/
               exists kw, v0 = VDict kw /\ snd (construct (w_protos w) cust (Some b) kw) = Err err)
          end).
    { intros e [= -> ->] U. exists []. rewrite app_nil_r. split; auto. split; [apply elsewhere_refl|]. split.
      - cbn. rewrite app_nil_r, Hx. destruct x; reflexivity.
      - exists [], v, l. split; auto. }
    destruct v as [| | | | | |kw]; try (injection H as <- _ <-; eapply Stop; [reflexivity|left; split; [intros; discriminate|reflexivity]]).
    destruct (construct (w_protos w) cust (Some b) kw) as [kw' [e|y]] eqn:C.
    2: { injection H as <- _ <-. eapply Stop; [reflexivity|]. right. exists kw. rewrite C. auto. }
    clear Stop. destruct (load_entities b cust l _) as [[w2 r2] o] eqn:E. injection H as <- _ <-.
    apply (IH _ _ _ _ (b_set_objs (b_objs x ++ [length (w_ents w)]) x)) in E.
    2: { rewrite (blu_upd_same b _ (new_ent e w) x Hx). reflexivity. }
    destruct E as (es & A & B & D & F). exists (e :: es). cbn [w_ents upd_bp new_ent] in A, D. rewrite app_length in D. cbn [length] in D.
    assert (M0 : made_by (w_protos w) cust b (VDict kw) e) by (exists kw; rewrite C; auto).
    split; [rewrite A, <- app_assoc; reflexivity|]. split; [|split].
    + eapply elsewhere_trans; [|exact B]. split; [reflexivity|]. intros c N. rewrite blu_upd. destruct (Nat.eqb_spec b c); [congruence|reflexivity].
    + rewrite D. cbn [b_objs b_set_objs]. rewrite <- app_assoc. cbn [app length seq]. rewrite Nat.add_1_r. reflexivity.
    + destruct o as [[]|err]; [constructor; auto|]. destruct F as (pre & v & post & -> & G & U). exists (VDict kw :: pre), v, post.
      split; auto.
Qed.

(** ** the sorting *)
Lemma nanb_true n : nanb n = true -> nval n = XNaN.
Proof. unfold nanb. destruct (nval n); congruence. Qed.
Lemma sorted_objs_fails w l e : (forall i, In i l -> ent w i <> None) -> sorted_objs w l = Err e ->
  exists i en, In i l /\ ent w i = Some en /\ forall p, e_pos en = Some p -> nval (vx p) = XNaN \/ nval (vy p) = XNaN.
Proof.
  intros L H. unfold sorted_objs in H. destruct (mapM _ l) as [ks|y] eqn:E; [discriminate|]. clear H e.
  revert y E. induction l as [|i r IH]; intros y E; [discriminate|]. cbn [mapM] in E.
  destruct (ent w i) as [en|] eqn:He; [|destruct (L i (or_introl eq_refl) He)].
  destruct (pos_key en) as [k|z] eqn:K; cbn [bind] in E.
  - destruct (IH (fun j J => L j (or_intror J)) y) as (j & ej & J & Hj & P); [destruct (mapM _ r); [discriminate|auto]|].
    exists j, ej. split; [right; auto|auto].
  - exists i, en. split; [left; auto|]. split; auto. intros p Hp. unfold pos_key in K. rewrite Hp in K.
    destruct (nanb (vx p)) eqn:N1; [left; now apply nanb_true|]. destruct (nanb (vy p)) eqn:N2; [right; now apply nanb_true|]. discriminate.
Qed.
Lemma Forall2_nth {A B} (R : A -> B -> Prop) l m : length l = length m ->
  (forall k a b, nth_error l k = Some a -> nth_error m k = Some b -> R a b) -> Forall2 R l m.
Proof.
  revert m. induction l as [|a l IH]; intros [|b m] L H; try discriminate; constructor.
  - apply (H 0%nat); auto.
  - apply IH; [injection L; auto|]. intros k x y. apply (H (S k)).
Qed.
Lemma reindex_renumbered i l w : Forall2 renumbered (w_ents w) (w_ents (reindex i l w)).
Proof.
  apply Forall2_nth; [symmetry; apply reindex_length|]. intros k e e' H H'.
  pose proof (reindex_ent i l w k) as R. unfold ent in R. rewrite H, H' in R. cbn in R. injection R as R. unfold renumbered.
  unfold with_auto in R |- *. destruct e, e'. cbn in *. congruence.
Qed.

(** ** the wires *)
Lemma parse_one_sound w b i sk ck (P : conn -> Prop) acc v :
  (forall col n, ck = KS col -> entry_denotes w b i sk col v n -> P n) ->
  (forall c, In c acc -> P c) -> forall c, In c (fst (parse_one w b i sk ck acc v)) -> P c.
Proof.
  intros H A. pose proof (parse_one_adds w b i sk ck acc v) as K. destruct (parse_one w b i sk ck acc v) as [acc' [[]|e]] eqn:E.
  - destruct (K acc' eq_refl) as (col & -> & (_ & S & _) & _). intros c Hc. destruct (S c Hc) as [J|J]; [auto|]. eapply H; eauto.
  - unfold parse_one in E. destruct (_ : res conn); [discriminate|]. injection E as <- _. exact A.
Qed.
Lemma parse_sound_partial w b x : blu w b = Some x -> forall c, In c (fst (foldE (parse_entity w b) (b_objs x) [])) -> mentions w b c.
Proof.
  intros Hx. apply (foldE_inv (fun acc => forall c, In c acc -> mentions w b c)); [|intros c []].
  intros acc i Hi A. unfold parse_entity. destruct (ent w i) as [e|] eqn:He; [|exact A].
  assert (S : forall raw, e_raw e = raw -> forall c, In c (fst (match items_of raw with Err x => (acc, Err x)
                                           | Ok d => foldE (parse_side w b i) d acc end)) -> mentions w b c).
  { intros raw Hr. destruct raw as [| | | | | |d]; try exact A. cbn [items_of].
    apply (foldE_inv (fun acc => forall c, In c acc -> mentions w b c)); auto. clear acc A. intros acc [side v] I1 A. unfold parse_side. cbn [fst snd].
    destruct v as [| | | | | |d']; try exact A. cbn [items_of].
    apply (foldE_inv (fun acc => forall c, In c acc -> mentions w b c)); auto. clear acc A. intros acc [ck v'] I2 A. unfold parse_color. cbn [fst snd].
    destruct (iter_val v') as [l'|] eqn:IV; [|exact A].
    apply (foldE_inv (fun acc => forall c, In c acc -> mentions w b c)); auto. clear acc A. intros acc v I3 A.
    apply parse_one_sound; auto. intros col n -> D. destruct v'; try discriminate; cbn in IV; injection IV as <-.
    - exists x, i, e, side, col, v. split; auto. split; auto. split; auto. split; auto. exists d, d', l. auto.
    - destruct D as (q & _ & _ & _ & -> & _). apply in_map_iff in I3 as ([[]] & E & _); discriminate. }
  destruct (e_raw e) eqn:Hr; try exact A; apply (S _ eq_refl).
Qed.
Lemma turn_towards_eq e c : turn_eq c (turn_towards e c).
Proof. unfold turn_towards, orientate. destruct (attached_to c e); [|left; auto]. unfold turn_eq. destruct (end_eqb _ _); auto. Qed.
Lemma parse_cases w b x w' r : inv w -> blu w b = Some x -> parse_connections b w = (w', r) ->
  elsewhere w w' b /\ w_ents w' = w_ents w /\
  exists cs, blu w' b = Some (b_set_conns cs x) /\ forall c, In c cs -> exists n, mentions w b n /\ same_wire c n.
Proof.
  intros I Hx H. unfold parse_connections, mbind at 1, get_bp, gets in H. rewrite Hx in H.
  pose proof (parse_sound_partial w b x Hx) as PS.
  unfold mbind at 1 in H. destruct (foldE (parse_entity w b) (b_objs x) []) as [cs0 q] eqn:F. cbn [fst] in PS.
  set (w1 := upd_bp b (b_set_conns cs0) w) in *.
  assert (E1 : elsewhere w w1 b) by apply elsewhere_upd.
  assert (H1 : blu w1 b = Some (b_set_conns cs0 x)) by now apply blu_upd_same.
  destruct q as [[]|e].
  2: { injection H as <- _. split; [exact E1|]. split; [reflexivity|]. exists cs0. split; auto. intros c Hc. exists c.
       split; auto. apply same_wire_refl. }
  set (P := fun w2 : world => elsewhere w w2 b /\ w_ents w2 = w_ents w /\
      exists cs, blu w2 b = Some (b_set_conns cs x) /\ forall c, In c cs -> exists n, mentions w b n /\ same_wire c n).
  assert (K : P (fst (forM (fun i => do _ <- get_connections i; ret tt) (b_objs x) w1))).
  { unfold forM. apply (foldE_inv P).
    - intros w2 i Hi (A & B & cs & C & D). destruct (inv_owner _ I _ _ _ Hx Hi) as (e & He & Hl).
      assert (He2 : ent w2 i = Some e) by (unfold ent in *; rewrite B; exact He).
      rewrite mbind_fst. assert (G : P (fst (get_connections i w2))).
      { unfold get_connections, mbind, get_ent, gets, get_bp, modify. rewrite He2. cbv beta iota zeta. rewrite Hl. cbv beta iota zeta. unfold gets at 1. rewrite C. cbn [fst].
        split; [eapply elsewhere_trans; [exact A|apply elsewhere_upd]|]. split; [exact B|].
        eexists. split; [rewrite (blu_upd_same _ _ _ _ C); reflexivity|]. cbn [b_conns b_set_conns].
        intros c Hc. apply in_map_iff in Hc as (c0 & <- & Hc0). destruct (D _ Hc0) as (n & Hn & W). exists n. split; auto.
        eapply same_wire_trans; [|exact W]. apply same_wire_sym, turn_same, turn_towards_eq. }
      destruct (snd (get_connections i w2)); exact G.
    - split; [exact E1|]. split; [reflexivity|]. exists cs0. split; auto. intros c Hc. exists c. split; auto. apply same_wire_refl. }
  rewrite H in K. exact K.
Qed.

(** ** wires, tiles and schedules *)
Lemma tiles_cases (p : protos) l r ts : foldE (fun acc v => load_tile acc p v) l [] = (ts, r) -> ts = [].
Proof.
  destruct l as [|v l]; cbn [foldE]; [congruence|]. destruct (load_tile_never p [] v) as [A [e E]].
  destruct (load_tile [] p v) as [acc o]. cbn in A, E. subst o. congruence.
Qed.
Lemma b_set_tiles_nil x : b_tiles x = [] -> b_set_tiles [] x = x.
Proof. destruct x; simpl; intros ->. reflexivity. Qed.
Definition wires_mentioned (w : world) (b : nat) (cs : list conn) : Prop := forall c, In c cs -> exists n, mentions w b n /\ same_wire c n.
Lemma tail2_cases w b x d w' r : inv w -> blu w b = Some x -> load_tail2 b d w = (w', r) ->
  elsewhere w w' b /\ w_ents w' = w_ents w /\ exists cs, blu w' b = Some (b_set_conns cs x) /\ wires_mentioned w b cs.
Proof.
  intros I Hx H. unfold load_tail2, mbind at 1 in H. destruct (parse_connections b w) as [w1 q] eqn:P.
  destruct (parse_cases _ _ _ _ _ I Hx P) as (A & B & cs & C & D). destruct q as [[]|e].
  2: { injection H as <- _. eauto 10. }
  assert (T : b_tiles (b_set_conns cs x) = []) by (apply (inv_tiles _ I) in Hx; exact Hx).
  unfold mbind at 1, gets in H. destruct (iter_val _) as [tl|e]; [|injection H as <- _; eauto 10].
  unfold mbind at 1, get_bp, gets in H. rewrite C in H. rewrite T in H. unfold mbind at 1 in H.
  destruct (foldE _ tl []) as [ts o] eqn:F. apply tiles_cases in F as ->.
  assert (B1 : blu (upd_bp b (b_set_tiles []) w1) b = Some (b_set_conns cs x)).
  { rewrite (blu_upd_same _ _ _ _ C), (b_set_tiles_nil _ T). reflexivity. }
  assert (E1 : elsewhere w (upd_bp b (b_set_tiles []) w1) b) by (eapply elsewhere_trans; [exact A|apply elsewhere_upd]).
  destruct o as [[]|e]; injection H as <- _.
  - split; [eapply elsewhere_trans; [exact E1|apply elsewhere_upd]|]. split; [exact B|]. exists cs. split; [|exact D].
    rewrite (blu_upd_same _ _ _ _ B1). rewrite T. cbn [sort_tiles isort map fold_left]. rewrite (b_set_tiles_nil _ T). reflexivity.
  - eauto 10.
Qed.

(** ** all phases *)
Lemma fixed_trans x y z : fixed x y -> fixed y z -> fixed x z.
Proof. intros (A & B & C) (D & E & F). repeat split; congruence. Qed.
Lemma made_by_of w w1 x b l es : w_protos w1 = w_protos w -> Forall2 (made_by (w_protos w1) (b_custom x) b) l es -> Forall2 (made_of w x b) l es.
Proof. intros P H. rewrite P in H. exact H. Qed.
Lemma entities_value d :
  iter_val (given d "entities" (VList [])) = Ok (doc_list d "entities") \/
  exists v, dget "entities" d = Some v /\ (forall l, v <> VList l) /\
   ((exists e, iter_val (given d "entities" (VList [])) = Err e /\ ((forall s, v <> VStr s) -> e = EType)) \/
    exists u r, iter_val (given d "entities" (VList [])) = Ok (u :: r) /\ forall kw, u <> VDict kw).
Proof.
  unfold given, doc_list. destruct (dget "entities" d) as [v|]; [|left; reflexivity].
  destruct v as [| | | |s|l|o]; cbn [iter_val].
  6: left; reflexivity.
  6: { destruct o as [|[[k|k] v] r]; cbn [map fst]; [left; reflexivity| |]; right; eexists; (split; [reflexivity|]);
       (split; [intros; discriminate|]); right; do 2 eexists; (split; [reflexivity|]); intros; discriminate. }
  1-4: right; eexists; (split; [reflexivity|]); (split; [intros; discriminate|]); left; eexists; (split; [reflexivity|]); auto.
  right; eexists; (split; [reflexivity|]); (split; [intros; discriminate|]); left; eexists; (split; [reflexivity|]).
  intros H. destruct (H s). reflexivity.
Qed.
Lemma appended_as w w1 x x1 es : w_ents w1 = w_ents w -> b_objs x1 = b_objs x ->
  b_objs x1 ++ seq (length (w_ents w1)) (length es) = appended w x es.
Proof. intros A B. unfold appended. rewrite A, B. reflexivity. Qed.
Definition nothing_lost (w w' : world) (b : nat) (x : bp) (Q : bp -> Prop) : Prop :=
  elsewhere w w' b /\ exists x', blu w' b = Some x' /\ fixed x x' /\ Q x'.
Lemma inner_cases w b x d w' d' r : inv w -> blu w b = Some x -> load_inner b (b_custom x) d w = (w', d', r) ->
  nothing_lost w w' b x (fun x' =>
    match r with
    | Ok _ => merged w w' b d x x' /\ wires_mentioned w' b (b_conns x')
    | Err err => b_scheds x' = b_scheds x /\ left_behind w w' b d x x' err
    end).
Proof.
  intros I Hx H. unfold load_inner in H.
  pose proof (keeps_load_head False b d w (good_False _ I)) as [I1 _].
  destruct (load_head b d w) as [w1 q] eqn:E1. cbn [fst] in I1.
  destruct (head_cases _ _ _ _ _ _ Hx E1) as (EW1 & N1 & x1 & H1 & (F1 & O1 & C1 & S1) & Q1).
  destruct q as [[]|err].
  2: { injection H as <- _ <-. split; auto. exists x1. split; auto. split; auto. split; auto.
       destruct Q1 as [Q1|Q1]; [left; auto|right; left; auto]. }
  rewrite <- given_dataget in H.
  destruct EW1 as [P1 B1]. destruct F1 as (F1s & F1c & F1t).
  destruct (entities_value d) as [EV|(v & Ev & NL & [(e & EV & TE)|(u & r0 & EV & NU)])]; rewrite EV in H.
  2: { injection H as <- _ <-. split; [split; auto|]. exists x1. split; auto. split; [repeat split; auto|]. split; auto.
       right; right; left. right. split; [exists v; auto|]. split; [|auto]. unfold exactly_added. rewrite app_nil_r. auto. }
  2: { destruct u; try (destruct (NU d0); reflexivity); cbn [load_entities] in H; injection H as <- _ <-;
       (split; [split; auto|]); exists x1; (split; [auto|]); (split; [repeat split; auto|]); (split; [auto|]);
       right; right; left; right; (split; [exists v; auto|]); (split; [|auto]); unfold exactly_added; rewrite app_nil_r; auto. }
  pose proof (keeps_load_entities False b (b_custom x) (doc_list d "entities") w1 (good_False _ I1)) as [[I2 _] _]; [eauto|].
  destruct (load_entities b (b_custom x) (doc_list d "entities") w1) as [[w2 l'] q] eqn:E2. cbn [fst] in I2.
  destruct (entities_cases _ _ _ _ _ _ _ _ E2 H1) as (es & N2 & (P2 & B2) & H2 & Q2).
  rewrite (appended_as w w1 x x1 es N1 O1) in H2. rewrite N1 in N2.
  assert (HD : headed d x (b_set_objs (appended w x es) x1)) by exact Q1.
  assert (EW2 : elsewhere w w2 b) by (split; [congruence|intros c N; rewrite B2, B1; auto]).
  destruct q as [[]|err].
  2: { injection H as <- _ <-. split; auto. eexists. split; [exact H2|]. split; [repeat split; auto|]. split; [exact S1|].
       right; right; left. left. destruct Q2 as (pre & v & post & El & M & U). exists pre, v, post, es.
       split. { unfold doc_list in El. destruct (dget "entities" d) as [v0|]; [destruct v0|]; try (destruct pre; discriminate). congruence. }
       split; [unfold unmakable; rewrite <- P1; exact U|]. split; [eapply made_by_of; eauto|]. split; [exact N2|]. split; [exact HD|]. split; [reflexivity|exact C1]. }
  apply (made_by_of w w1) in Q2; [|exact P1].
  destruct (load_tail b d w2) as [w4 q] eqn:E4.
  change (load_tail b d) with (mbind (sort_layer b) (fun _ => load_tail2 b d)) in E4. unfold mbind in E4.
  pose proof (keeps_sort False b w2 (good_False _ I2)) as [I3 _].
  destruct (sort_layer b w2) as [w3 s] eqn:E3. cbn [fst] in I3.
  pose proof E3 as E3'. rewrite (sort_layer_eq _ _ _ H2) in E3'. cbn [b_objs b_set_objs] in E3'.
  destruct (sorted_objs w2 (appended w x es)) as [l|y] eqn:SO.
  2: { injection E3' as <- <-. injection E4 as <- <-. injection H as <- _ <-. split; auto. eexists. split; [exact H2|].
       split; [repeat split; auto|]. split; [exact S1|]. right; right; right; left. exists es. split; auto. split; [exact N2|]. split; [exact HD|].
       split; [reflexivity|]. split; [exact C1|]. apply sorted_objs_fails in SO; [exact SO|].
       intros i Hi. destruct (inv_owner _ I2 b _ i H2 Hi) as (e & He & _). congruence. }
  injection E3' as W3 <-. pose proof (sort_layer_sorted b w2 w3 tt _ I2 H2 E3) as SL.
  pose proof SL as (x3 & H3 & RO & NU).
  assert (X3 : x3 = b_set_objs l (b_set_objs (appended w x es) x1)).
  { rewrite <- W3, blu_reindex, (blu_upd_same _ _ _ _ H2) in H3. congruence. }
  destruct (tail2_cases _ _ _ _ _ _ I3 H3 E4) as ((P4 & B4) & N4 & cs & H4 & WM).
  assert (EW3 : elsewhere w w3 b).
  { eapply elsewhere_trans; [exact EW2|]. rewrite <- W3. split; [rewrite reindex_protos; reflexivity|]. intros c N. rewrite blu_reindex.
    apply elsewhere_upd, N. }
  assert (EW4 : elsewhere w w4 b) by (eapply elsewhere_trans; [exact EW3|split; auto]).
  assert (AR : added_and_renumbered w w4 es).
  { unfold added_and_renumbered. rewrite N4, <- N2, <- W3. exact (reindex_renumbered 1 l (upd_bp b (b_set_objs l) w2)). }
  assert (SL4 : sorted_layer w4 b (appended w x es)).
  { eapply sorted_layer_frame; [exact N4| |exact SL]. unfold objs_of. rewrite H4, H3. reflexivity. }
  assert (WM4 : wires_mentioned w4 b cs).
  { intros c Hc. destruct (WM c Hc) as (n & Hn & W). exists n. split; auto. eapply mentions_ents; [exact N4| |exact Hn].
    unfold objs_of. rewrite H4, H3. reflexivity. }
  assert (HD4 : headed d x (b_set_conns cs x3)) by (rewrite X3; exact Q1).
  assert (FX4 : fixed x (b_set_conns cs x3)) by (rewrite X3; repeat split; auto).
  assert (SC4 : b_scheds (b_set_conns cs x3) = b_scheds x) by (rewrite X3; exact S1).
  destruct q as [[]|err].
  2: { injection H as <- _ <-. split; auto. eexists. split; [exact H4|]. split; auto. split; auto.
       right; right; right; right. exists es. auto. }
  unfold load_scheds, mbind, gets in H. destruct (_ : res (list (list nat * val))) as [ss|err].
  2: { injection H as <- _ <-. split; auto. eexists. split; [exact H4|]. split; auto. split; auto.
       right; right; right; right. exists es. auto. }
  injection H as <- _ <-. split; [eapply elsewhere_trans; [exact EW4|apply elsewhere_upd]|].
  eexists. split; [rewrite (blu_upd_same _ _ _ _ H4); reflexivity|]. split; [exact FX4|].
  assert (OB : objs_of (upd_bp b (b_set_scheds ss) w4) b = objs_of w4 b) by (unfold objs_of; rewrite (blu_upd_same _ _ _ _ H4), H4; reflexivity).
  split.
  - exists es. split; auto. split; auto. split; auto. eapply sorted_layer_frame; [| |exact SL4]; auto.
  - intros c Hc. destruct (WM4 c Hc) as (n & Hn & W). exists n. split; auto. eapply mentions_ents; [| |exact Hn]; auto.
Qed.

Lemma p_C60_merge w b x doc d w' doc' : reachable w -> blu w b = Some x -> holds doc d -> load b doc w = (w', doc', Ok tt) ->
  elsewhere w w' b /\ exists x', blu w' b = Some x' /\ fixed x x' /\ merged w w' b d x x'.
Proof.
  intros R Hx Hd H. apply reach_inv in R. rewrite (load_holds _ _ _ _ _ Hx Hd) in H.
  destruct (load_inner b (b_custom x) d w) as [[w1 d1] r] eqn:E. injection H as <- _ ->.
  destruct (inner_cases _ _ _ _ _ _ _ R Hx E) as (A & x' & B & C & D & _). eauto 10.
Qed.
Lemma p_C61 w b x doc d w' doc' err : reachable w -> blu w b = Some x -> holds doc d -> load b doc w = (w', doc', Err err) ->
  elsewhere w w' b /\ exists x', blu w' b = Some x' /\ fixed x x' /\ b_scheds x' = b_scheds x /\ left_behind w w' b d x x' err.
Proof.
  intros R Hx Hd H. apply reach_inv in R. rewrite (load_holds _ _ _ _ _ Hx Hd) in H.
  destruct (load_inner b (b_custom x) d w) as [[w1 d1] r] eqn:E. injection H as <- _ ->.
  destruct (inner_cases _ _ _ _ _ _ _ R Hx E) as (A & x' & B & C & D & F). eauto 10.
Qed.

(** ** wires that no document mentions *)
Lemma renumbered_raw e e' : renumbered e e' -> e_raw e' = e_raw e.
Proof. intros ->. reflexivity. Qed.
Lemma renumbered_ent w w' es i e : added_and_renumbered w w' es -> ent w i = Some e -> exists e', ent w' i = Some e' /\ renumbered e e'.
Proof.
  unfold added_and_renumbered, ent. intros F H.
  assert (H2 : nth_error (w_ents w ++ es) i = Some e) by (rewrite nth_error_app1; [auto|apply nth_error_Some; congruence]).
  clear H. revert i H2. induction F as [|a c l m R F IH]; intros [|i] H; try discriminate; cbn in *.
  - injection H as ->. eauto.
  - eauto.
Qed.
Lemma Forall2_len {A B} (R : A -> B -> Prop) l m : Forall2 R l m -> length l = length m.
Proof. induction 1; cbn; auto. Qed.
Lemma renumbered_new w w' es k e' : added_and_renumbered w w' es -> ent w' (length (w_ents w) + k) = Some e' ->
  exists e, nth_error es k = Some e /\ renumbered e e'.
Proof.
  unfold added_and_renumbered, ent. intros F H. apply Forall2_app_inv_l in F as (l1 & l2 & F1 & F2 & E). rewrite E in H.
  pose proof (Forall2_len _ _ _ F1) as L. rewrite nth_error_app2 in H by lia. replace (_ - _)%nat with k in H by lia.
  clear -F2 H. revert k H. induction F2 as [|a c l m R F IH]; intros [|k] H; try discriminate; cbn in *; eauto. injection H as ->. eauto.
Qed.
Lemma p_C60_lost w b x doc d w' doc' x' c i j ei ej : reachable w -> blu w b = Some x -> holds doc d -> load b doc w = (w', doc', Ok tt) ->
  blu w' b = Some x' -> c_from c = Some i -> c_to c = Some j -> ent w i = Some ei -> ent w j = Some ej ->
  e_raw ei = VNone -> e_raw ej = VNone -> forall c', In c' (b_conns x') -> ~ same_wire c c'.
Proof.
  intros R Hx Hd H Hx' Fi Fj Hi Hj Ri Rj c' Hc W. apply reach_inv in R. rewrite (load_holds _ _ _ _ _ Hx Hd) in H.
  destruct (load_inner b (b_custom x) d w) as [[w1 d1] r] eqn:E. injection H as <- _ ->.
  destruct (inner_cases _ _ _ _ _ _ _ R Hx E) as (_ & y & Hy & _ & (es & _ & AR & _) & WM). rewrite Hx' in Hy. injection Hy as <-.
  destruct (WM c' Hc) as (n & (z & k & e & sk & col & v & Hz & _ & He & (raw & cols & l & Hraw & _) & (q & id & s & t & _ & _ & _ & _ & En)) & W2).
  assert (W3 : same_wire c n) by (eapply same_wire_trans; eauto).
  assert (K : k = i \/ k = j).
  { subst n. unfold same_wire, ends in W3. cbn in W3. rewrite Fi, Fj in W3. destruct W3 as [_ [W3|W3]]; injection W3 as A1 A2 A3 A4; auto. }
  destruct K as [-> | ->].
  - destruct (renumbered_ent _ _ _ _ _ AR Hi) as (e' & He' & RN). apply renumbered_raw in RN. congruence.
  - destruct (renumbered_ent _ _ _ _ _ AR Hj) as (e' & He' & RN). apply renumbered_raw in RN. congruence.
Qed.

(** ** which entity a number denotes after several documents *)
Definition before {A} (l : list A) (a c : A) : Prop := exists l1 l2 l3, l = l1 ++ a :: l2 ++ c :: l3.
Lemma before_filter {A} (f : A -> bool) l a c : before l a c -> f a = true -> f c = true -> before (filter f l) a c.
Proof.
  intros (l1 & l2 & l3 & ->) Ha Hc. rewrite filter_app. cbn [filter]. rewrite Ha, filter_app. cbn [filter]. rewrite Hc.
  exists (filter f l1), (filter f l2), (filter f l3). reflexivity.
Qed.
Lemma before_asym {A} (l : list A) a c : NoDup l -> before l a c -> ~ before l c a.
Proof.
  intros N (l1 & l2 & l3 & ->) (m1 & m2 & m3 & E).
  revert m1 E N. induction l1 as [|y l1 IH]; intros m1 E N; cbn [app] in *.
  - inversion N as [|? ? X Y]; subst. destruct m1 as [|z m1]; cbn [app] in E; injection E as E1 E2.
    + subst. apply X. rewrite in_app_iff. right. left. auto.
    + subst z. apply X. rewrite E2. rewrite !in_app_iff. right. right. rewrite in_app_iff. right. left. auto.
  - inversion N as [|? ? X Y]; subst. destruct m1 as [|z m1]; cbn [app] in E; injection E as E1 E2.
    + subst y. apply X. rewrite !in_app_iff. right. right. rewrite in_app_iff. right. left. auto.
    + eapply IH; eauto.
Qed.
Lemma before_nth {A} (l : list A) a c : before l a c -> exists k m, (k < m)%nat /\ nth_error l k = Some a /\ nth_error l m = Some c.
Proof.
  intros (l1 & l2 & l3 & ->). exists (length l1), (length l1 + S (length l2))%nat. split; [lia|]. split.
  - rewrite nth_error_app2, Nat.sub_diag by lia. reflexivity.
  - rewrite nth_error_app2 by lia. replace (_ - _)%nat with (S (length l2)) by lia. cbn [nth_error].
    rewrite nth_error_app2, Nat.sub_diag by lia. reflexivity.
Qed.
Lemma xlt_not_eq a b : xlt a b -> ~ xeq a b.
Proof. intros H E. apply (xlt_irrefl a). eapply xlt_eq_r; [exact H|now apply xeq_sym]. Qed.
Lemma xlt_asym a b : xlt a b -> ~ xlt b a.
Proof. intros H K. apply (xlt_irrefl a). eapply xlt_trans; eauto. Qed.
Lemma pos_le_antisym v u : pos_le v u -> pos_le u v -> xeq (nval (vx v)) (nval (vx u)) /\ xeq (nval (vy v)) (nval (vy u)).
Proof.
  intros [A|(A & B)] [C|(C & D)].
  - destruct (xlt_asym _ _ A C).
  - destruct (xlt_not_eq _ _ A). now apply xeq_sym.
  - destruct (xlt_not_eq _ _ C). now apply xeq_sym.
  - split; auto. destruct B as [B|B]; auto. destruct D as [D|D]; [destruct (xlt_asym _ _ B D)|now apply xeq_sym].
Qed.

Lemma find_number_first w id l i : find_number w id l = Some i ->
  exists l1 l2 e, l = l1 ++ i :: l2 /\ ent w i = Some e /\ py_eqb (e_number e) id = true /\
    forall j f, In j l1 -> ent w j = Some f -> py_eqb (e_number f) id = false.
Proof.
  induction l as [|k r IH]; cbn [find_number]; [discriminate|]. destruct (ent w k) as [e|] eqn:He.
  - destruct (py_eqb (e_number e) id) eqn:E.
    + intros [= <-]. exists [], r, e. cbn. tauto.
    + intros H. destruct (IH H) as (l1 & l2 & f & -> & A & B & C). exists (k :: l1), l2, f. split; auto. split; auto. split; auto.
      intros j g [<-|J]; [congruence|eauto].
  - intros H. destruct (IH H) as (l1 & l2 & f & -> & A & B & C). exists (k :: l1), l2, f. split; auto. split; auto. split; auto.
    intros j g [<-|J]; [congruence|eauto].
Qed.
Lemma find_number_found w id l j e : In j l -> ent w j = Some e -> py_eqb (e_number e) id = true -> exists i, find_number w id l = Some i.
Proof.
  induction l as [|k r IH]; [intros []|]. cbn [find_number]. intros [->|J] He E.
  - rewrite He, E. eauto.
  - destruct (ent w k) as [f|]; [destruct (py_eqb (e_number f) id); [eauto|]|]; apply IH; auto.
Qed.
Lemma in_app_before {A} (l1 l2 : list A) a c : In a l1 -> In c l2 -> before (l1 ++ l2) a c.
Proof.
  intros H K. apply in_split in H as (p & q & ->). apply in_split in K as (r & s & ->). exists p, (q ++ r), s.
  rewrite <- !app_assoc. reflexivity.
Qed.
Lemma at_pos_at w p i e u : ent w i = Some e -> e_pos e = Some u -> xeq (nval (vx u)) (nval (vx p)) -> xeq (nval (vy u)) (nval (vy p)) -> at_pos w p i = true.
Proof. intros H U X Y. unfold at_pos. rewrite H, U. apply andb_true_iff. split; apply neqb_spec; auto. Qed.
Lemma first_is_old w w' b x x' es id j ej i : inv w' -> blu w' b = Some x' -> added_and_renumbered w w' es -> sorted_layer w' b (appended w x es) ->
  In j (b_objs x) -> ent w j = Some ej -> py_eqb (e_number ej) id = true ->
  (forall e u p, nth_error es (i - length (w_ents w)) = Some e -> py_eqb (e_number e) id = true -> e_pos e = Some u -> e_pos ej = Some p ->
     pos_le u p -> pos_le p u) ->
  get_entity_by_id w' b id = Some i -> In i (b_objs x).
Proof.
  intros I Hx' AR SL Hj Ej Nj G F. unfold get_entity_by_id in F. rewrite Hx' in F.
  destruct SL as (y & Hy & (Perm & Ord & Same) & _). rewrite Hx' in Hy. injection Hy as <-.
  destruct (find_number_first _ _ _ _ F) as (l1 & l2 & e & EL & He & En & First).
  assert (Hi : In i (appended w x es)).
  { eapply Permutation_in; [symmetry; exact Perm|]. rewrite EL, in_app_iff. right. left. auto. }
  unfold appended in Hi. apply in_app_or in Hi as [Hi|Hi]; [exact Hi|]. exfalso. pose proof Hi as Hseq.
  apply in_seq in Hi as [Hi1 Hi2]. set (m := (i - length (w_ents w))%nat) in *.
  assert (Him : i = (length (w_ents w) + m)%nat) by (unfold m; lia).
  pose proof He as He'. rewrite Him in He'.
  destruct (renumbered_new _ _ _ _ _ AR He') as (e0 & N0 & RN).
  assert (E0 : e_number e = e_number e0) by (rewrite RN; reflexivity).
  assert (P0 : e_pos e = e_pos e0) by (rewrite RN; reflexivity).
  destruct (renumbered_ent _ _ _ _ _ AR Ej) as (ej' & Hej & RNj).
  assert (Ej0 : e_number ej' = e_number ej) by (rewrite RNj; reflexivity).
  assert (Pj0 : e_pos ej' = e_pos ej) by (rewrite RNj; reflexivity).
  assert (Bij : before (b_objs x') i j).
  { assert (J : In j (b_objs x')). { eapply Permutation_in; [exact Perm|]. unfold appended. rewrite in_app_iff. auto. }
    rewrite EL in J. apply in_app_or in J as [J|[J|J]].
    - specialize (First j ej' J Hej). congruence.
    - exfalso. assert (j < length (w_ents w))%nat; [|lia]. apply nth_error_Some. unfold ent in Ej. congruence.
    - apply in_split in J as (q & s & ->). exists l1, q, s. exact EL. }
  destruct (before_nth _ _ _ Bij) as (k & n & L & K1 & K2).
  destruct (Ord _ _ _ _ L K1 K2) as (u & p & (f1 & Hf1 & Hp1) & (f2 & Hf2 & Hp2) & Le2).
  rewrite He in Hf1. injection Hf1 as <-. rewrite Hej in Hf2. injection Hf2 as <-.
  assert (Le : pos_le p u). { apply (G e0 u p); auto; congruence. }
  destruct (pos_le_antisym _ _ Le2 Le) as [X Y].
  assert (Ai : at_pos w' p i = true) by (eapply at_pos_at; [exact He|exact Hp1|auto|auto]).
  assert (Aj : at_pos w' p j = true).
  { eapply at_pos_at; [exact Hej|exact Hp2| |].
    - eapply xeq_trans; [apply xeq_sym; exact X|exact X].
    - eapply xeq_trans; [apply xeq_sym; exact Y|exact Y]. }
  assert (Bji : before (appended w x es) j i) by (apply in_app_before; auto).
  apply (before_filter (at_pos w' p)) in Bij; auto. apply (before_filter (at_pos w' p)) in Bji; auto.
  rewrite Same in Bij. eapply before_asym; [|exact Bji|exact Bij].
  apply NoDup_filter. eapply Permutation_NoDup; [symmetry; exact Perm|]. eapply inv_nodup; eauto.
Qed.

Lemma load_reach w b doc w' doc' r : reachable w -> load b doc w = (w', doc', r) -> reachable w'.
Proof. intros R H. pose proof (reach_step w (OLoad b doc) R I) as K. cbn [step] in K. rewrite H in K. exact K. Qed.
Lemma Forall2_in_r {A B} (R : A -> B -> Prop) l m y : Forall2 R l m -> In y m -> exists x, In x l /\ R x y.
Proof. induction 1; intros []; [subst; eexists; split; [left|]; eauto|]. destruct IHForall2 as (z & ? & ?); auto. exists z. split; [right|]; auto. Qed.
Lemma p_C60_wins w b x doc d w' doc' z j ej p : reachable w -> blu w b = Some x -> holds doc d -> load b doc w = (w', doc', Ok tt) ->
  In j (b_objs x) -> ent w j = Some ej -> denotes (e_number ej) z -> e_pos ej = Some p ->
  (forall v e, In v (doc_list d "entities") -> made_of w x b v e -> denotes (e_number e) z -> exists u, e_pos e = Some u /\ pos_le p u) ->
  exists i, get_entity_by_id w' b (VInt z) = Some i /\ In i (b_objs x).
Proof.
  intros R Hx Hd H Hj Ej Nj Pj G. destruct (p_C60_merge _ _ _ _ _ _ _ R Hx Hd H) as (_ & x' & Hx' & _ & es & M & AR & _ & SL).
  pose proof (load_reach _ _ _ _ _ _ R H) as R'. apply reach_inv in R'. apply py_eqb_int in Nj.
  assert (exists i, get_entity_by_id w' b (VInt z) = Some i) as (i & Hi).
  { unfold get_entity_by_id. rewrite Hx'. destruct (renumbered_ent _ _ _ _ _ AR Ej) as (e' & He' & RN).
    eapply find_number_found; [|exact He'|rewrite RN; exact Nj]. destruct SL as (y & Hy & (Perm & _) & _). rewrite Hx' in Hy. injection Hy as <-.
    eapply Permutation_in; [exact Perm|]. unfold appended. rewrite in_app_iff. auto. }
  exists i. split; auto. eapply first_is_old; eauto. intros e u q Hn En Pu Pq _. apply nth_error_In in Hn.
  destruct (Forall2_in_r _ _ _ _ M Hn) as (v & Hv & Mv).
  destruct (G v e Hv Mv) as (u' & Hu' & Le); [apply py_eqb_int, En|]. congruence.
Qed.
Lemma F2_nth_r {A B} (R : A -> B -> Prop) l m k y : Forall2 R l m -> nth_error m k = Some y -> exists x, nth_error l k = Some x /\ R x y.
Proof.
  intros F. revert k. induction F as [|a c l m H F IH]; intros k N; [destruct k; discriminate|]. destruct k; cbn in *; [|auto].
  injection N as <-. eauto.
Qed.
Lemma F2_nth_l {A B} (R : A -> B -> Prop) l m k x : Forall2 R l m -> nth_error l k = Some x -> exists y, nth_error m k = Some y /\ R x y.
Proof.
  intros F. revert k. induction F as [|a c l m H F IH]; intros k N; [destruct k; discriminate|]. destruct k; cbn in *; [|auto].
  injection N as <-. eauto.
Qed.
Lemma p_C60_twice w b x doc d w1 doc1 w2 doc2 x1 : reachable w -> blu w b = Some x -> b_objs x = [] -> holds doc d ->
  load b doc w = (w1, doc1, Ok tt) -> load b doc w1 = (w2, doc2, Ok tt) -> blu w1 b = Some x1 ->
  exists x2, blu w2 b = Some x2 /\ Permutation (b_objs x1 ++ seq (length (w_ents w1)) (length (b_objs x1))) (b_objs x2) /\
    forall c, In c (b_conns x2) -> exists i, (c_from c = Some i \/ c_to c = Some i) /\ In i (b_objs x1).
Proof.
  intros R Hx Hnil Hd H1 H2 Hx1. pose proof (load_reach _ _ _ _ _ _ R H1) as R1. pose proof (load_reach _ _ _ _ _ _ R1 H2) as R2.
  destruct (p_C60_merge _ _ _ _ _ _ _ R Hx Hd H1) as (EW1 & y & Hy & FX & es & M & AR & _ & SL). rewrite Hx1 in Hy. injection Hy as <-.
  pose proof (reach_inv _ R1) as I1. pose proof (reach_inv _ R2) as I2.
  destruct (p_C60_merge _ _ _ _ _ _ _ R1 Hx1 Hd H2) as (_ & x2 & Hx2 & _ & es2 & M2 & AR2 & _ & SL2).
  pose proof (Forall2_len _ _ _ M) as L. pose proof (Forall2_len _ _ _ M2) as L2.
  destruct SL as (y & Hy & (Perm & Ord & _) & _). rewrite Hx1 in Hy. injection Hy as <-.
  assert (LO : length (b_objs x1) = length es2).
  { apply Permutation_length in Perm. unfold appended in Perm. rewrite app_length, seq_length, Hnil in Perm. cbn [length] in Perm. lia. }
  exists x2. split; auto. split.
  { destruct SL2 as (y & Hy & (Perm2 & _) & _). rewrite Hx2 in Hy. injection Hy as <-. rewrite LO. exact Perm2. }
  intros c Hc. rewrite (load_holds _ _ _ _ _ Hx1 Hd) in H2. destruct (load_inner b (b_custom x1) d w1) as [[w2' d2] r2] eqn:E2.
  injection H2 as <- _ ->.
  destruct (inner_cases _ _ _ _ _ _ _ I1 Hx1 E2) as (_ & y & Hy & _ & _ & WM). rewrite Hx2 in Hy. injection Hy as <-.
  destruct (p_C48_loaded w1 b doc w2' (refilled doc d2) x2 R1) as (_ & NN & _); auto.
  { rewrite (load_holds _ _ _ _ _ Hx1 Hd), E2. reflexivity. }
  destruct (WM c Hc) as (n & Hn & W). destruct (NN n Hn) as [NT _].
  destruct Hn as (y & k & ek & sk & col & v & Hy & Hk & Hek & _ & (q & id & s & t & _ & _ & _ & _ & En)).
  destruct (c_to n) as [i|] eqn:Ti; [|congruence].
  assert (Gi : get_entity_by_id w2' b id = Some i) by (rewrite En in Ti; exact Ti).
  exists i. split.
  { unfold same_wire, ends in W. rewrite Ti in W. destruct W as [_ [W|W]]; injection W as A1 A2 A3 A4; auto. }
  (* the entity found has that number; its description was read before, so an old one lies at the same place *)
  pose proof Gi as F. unfold get_entity_by_id in F. rewrite Hx2 in F. destruct (find_number_first _ _ _ _ F) as (l1 & l2 & e & EL & He & Ne & _).
  assert (Hi : In i (appended w1 x1 es2)).
  { destruct SL2 as (y2 & Hy2 & (Perm2 & _) & _). rewrite Hx2 in Hy2. injection Hy2 as <-.
    eapply Permutation_in; [symmetry; exact Perm2|]. rewrite EL, in_app_iff. right. left. auto. }
  unfold appended in Hi. apply in_app_or in Hi as [Hi|Hi]; [exact Hi|].
  apply in_seq in Hi as [Hi1 Hi2]. set (m := (i - length (w_ents w1))%nat).
  replace i with (length (w_ents w1) + m)%nat in He by (unfold m; lia). destruct (renumbered_new _ _ _ _ _ AR2 He) as (e2 & N2 & RN2).
  assert (exists v2, nth_error (doc_list d "entities") m = Some v2 /\ made_of w1 x1 b v2 e2) as (v2 & Nv & Mv).
  { eapply F2_nth_r; eauto. }
  assert (exists e1, nth_error es m = Some e1 /\ made_of w x b v2 e1) as (e1 & N1 & Mv1).
  { eapply F2_nth_l; eauto. }
  assert (e1 = e2) as ->.
  { destruct Mv as (kw & -> & C2), Mv1 as (kw1 & [= <-] & C1). destruct EW1 as [PW _]. destruct FX as (_ & FC & _). rewrite PW, FC in C2. congruence. }
  set (j := (length (w_ents w) + m)%nat).
  assert (Hj : In j (b_objs x1)).
  { eapply Permutation_in; [exact Perm|]. unfold appended, j. rewrite Hnil. apply in_seq. cbn [app].
    assert (m < length es)%nat by (apply nth_error_Some; congruence). lia. }
  destruct (inv_owner _ I1 _ _ _ Hx1 Hj) as (ej & Ej & _). destruct (renumbered_new _ _ _ _ _ AR Ej) as (e1' & N1' & RN1).
  rewrite N1 in N1'. injection N1' as <-.
  assert (Pe : e_pos ej = e_pos e2) by (rewrite RN1; reflexivity).
  eapply (first_is_old w1 w2' b x1 x2 es2 id j ej i); eauto.
  - rewrite RN1. cbn. rewrite RN2 in Ne. exact Ne.
  - intros e0 u p H0 _ U P Le. fold m in H0. assert (e0 = e2) by congruence. subst e0. assert (u = p) by congruence. subst u. exact Le.
Qed.

Lemma p_C61_refuted : ~ (forall w b doc err, reachable w -> snd (step (OLoad b doc) w) = Err err ->
     snd (bp_json b (fst (step (OLoad b doc) w))) = snd (bp_json b w)).
Proof.
  intros H. set (w := fst (step (ONewBlueprint true []) start)).
  assert (R : reachable w) by (apply reach_step; [constructor|exact I]).
  specialize (H w 0%nat (VDict [(KS "label", VStr "broken"); (KS "entities", VList [VDict [(KS "name", VStr "x"); (KS "position", VNone)]])]) EUnknownEntity R).
  vm_compute in H. specialize (H eq_refl). discriminate.
Qed.
