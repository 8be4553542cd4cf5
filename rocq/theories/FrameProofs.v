(** * Calls that have nothing to do with a blueprint leave it alone. *)
From Coq Require Import Lia Permutation.
From Verif Require Import Py Num Util Classes Mixins Entity World WorldFacts Inv SpecWorld LayerProofs SpecFrame.

Section Frame.
Context (w0 : world) (b : nat) (B : bp) (C : nat -> Prop).
Context (HB : blu w0 b = Some B) (CB : ~ C b).
Let F := depends w0 b.
Context (FL : forall i, F i -> exists e, ent w0 i = Some e).

Definition alien (w : world) (i : nat) : Prop := ~ F i /\ forall e, ent w i = Some e -> e_layer e <> Some b.
Definition PP (L : list nat) (w : world) : Prop :=
  w_protos w = w_protos w0 /\ blu w b = Some B /\ (forall i, F i -> ent w i = ent w0 i) /\
  (forall c x i, C c -> blu w c = Some x -> In i (b_objs x) -> alien w i) /\
  (forall i, In i L -> alien w i).

Lemma PP_sub L L' w : incl L L' -> PP L' w -> PP L w.
Proof. intros H (P1 & P2 & P3 & P4 & P5). split; [|split; [|split; [|split]]]; auto. Qed.
Lemma PP_objs L w c x : C c -> blu w c = Some x -> PP L w -> PP (b_objs x ++ L) w.
Proof.
  intros Hc Hx (P1 & P2 & P3 & P4 & P5). split; [|split; [|split; [|split]]]; auto.
  intros i Hi. apply in_app_iff in Hi as [Hi|Hi]; eauto.
Qed.
Definition mild (f : entity -> entity) : Prop := forall e, e_layer (f e) = e_layer e \/ e_layer (f e) <> Some b.
Lemma alien_upd i f w j : mild f -> alien w j -> alien (upd_ent i f w) j.
Proof.
  intros Hf [N A]. split; auto. intros e. rewrite ent_upd. destruct (Nat.eqb i j); [|apply A].
  destruct (ent w j) as [e0|] eqn:E; cbn; [|discriminate]. intros H; injection H as <-.
  destruct (Hf e0) as [->|]; auto.
Qed.
Lemma PP_upd L i f w : ~ F i -> mild f -> PP L w -> PP L (upd_ent i f w).
Proof.
  intros Hi Hf (P1 & P2 & P3 & P4 & P5). split; [|split; [|split; [|split]]]; auto.
  - intros j Hj. rewrite ent_upd. destruct (Nat.eqb_spec i j); [subst; contradiction|auto].
  - intros c x j Hc Hx Hj. rewrite blu_upd_ent in Hx. apply alien_upd; eauto.
  - intros j Hj. apply alien_upd; auto.
Qed.
Lemma PP_bp L d f w : d <> b ->
  (forall x i, blu w d = Some x -> In i (b_objs (f x)) -> In i (b_objs x) \/ alien w i) ->
  PP L w -> PP L (upd_bp d f w).
Proof.
  intros Hd Hf (P1 & P2 & P3 & P4 & P5). split; [|split; [|split; [|split]]]; auto.
  - rewrite blu_upd. destruct (Nat.eqb_spec d b); congruence.
  - intros c x j Hc Hx Hj. rewrite blu_upd in Hx. destruct (Nat.eqb_spec d c); [subst d|eapply P4; eauto].
    destruct (blu w c) as [y|] eqn:E; cbn in Hx; [|discriminate]. injection Hx as <-.
    destruct (Hf _ _ eq_refl Hj); auto. change (alien w j). eapply P4; eauto.
Qed.
Lemma PP_bp_same L d f w : d <> b -> (forall x, b_objs (f x) = b_objs x) -> PP L w -> PP L (upd_bp d f w).
Proof. intros Hd Hf. apply PP_bp; auto. intros x i _ Hi. rewrite Hf in Hi. auto. Qed.
Lemma alien_new e w j : e_layer e <> Some b -> alien w j -> alien (new_ent e w) j.
Proof. intros He [N A]. split; auto. intros e'. rewrite ent_new. destruct (Nat.eqb _ _); [congruence|apply A]. Qed.
Lemma F_old L w : PP L w -> ~ F (length (w_ents w)).
Proof.
  intros (P1 & P2 & P3 & P4 & P5) H. destruct (FL _ H) as (e & He). rewrite <- P3 in He by auto.
  unfold ent in He. assert (nth_error (w_ents w) (length (w_ents w)) <> None) by congruence.
  apply nth_error_Some in H0. lia.
Qed.
Lemma PP_new L e w : e_layer e <> Some b -> PP L w -> PP (length (w_ents w) :: L) (new_ent e w).
Proof.
  intros He HP. pose proof (F_old _ _ HP) as FO. destruct HP as (P1 & P2 & P3 & P4 & P5).
  split; [|split; [|split; [|split]]]; auto.
  - intros j Hj. rewrite ent_new. destruct (Nat.eqb_spec j (length (w_ents w))); [subst; contradiction|auto].
  - intros c x j Hc Hx Hj. apply alien_new; auto. eapply P4; eauto.
  - intros j [<-|Hj]; [|apply alien_new; auto]. split; auto. intros e' E.
    rewrite ent_new, Nat.eqb_refl in E. congruence.
Qed.

(** ** monadic closure *)
Definition kf {A} (m : M A) : Prop := forall L, keeps (PP L) m.
Lemma kf_bind {A D} (m : M A) (k : A -> M D) : kf m -> (forall a, kf (k a)) -> kf (mbind m k).
Proof. intros H K L. apply keeps_bind; [exact (H L)|]. intros a. exact (K a L). Qed.
Lemma kf_ret {A} (a : A) : kf (ret a). Proof. intros L. apply keeps_ret. Qed.
Lemma kf_raise {A} e : kf (@raise A e). Proof. intros L. apply keeps_raise. Qed.
Lemma kf_gets {A} (f : world -> res A) : kf (gets f). Proof. intros L. apply keeps_gets. Qed.
Lemma kf_forM {X} (f : X -> M unit) l : (forall x, In x l -> kf (f x)) -> kf (forM f l).
Proof. intros H L. apply keeps_forM. intros x Hx. now apply H. Qed.
Lemma kf_upd i f : ~ F i -> mild f -> kf (modify (upd_ent i f)).
Proof. intros Hi Hf L w HP. now apply PP_upd. Qed.
Lemma kf_bp d f : d <> b -> (forall x i, In i (b_objs (f x)) -> In i (b_objs x)) -> kf (modify (upd_bp d f)).
Proof. intros Hd Hf L w HP. apply PP_bp; auto. Qed.
(** reading a blueprint of [C]: what it lists is alien from then on *)
Lemma kf_get_bp {D} c (k : bp -> M D) : C c ->
  (forall x L, incl (b_objs x) L -> keeps (PP L) (k x)) -> kf (do x <- get_bp c; k x).
Proof.
  intros Hc K L. apply keeps_gets_bind. intros w x HP E. destruct (blu w c) as [y|] eqn:Hy; [|discriminate].
  injection E as ->. eapply PP_sub; [|eapply (K x (b_objs x ++ L)); [|eapply PP_objs; eauto]].
  - intros i Hi. apply in_app_iff; auto.
  - intros i Hi. apply in_app_iff; auto.
Qed.
Lemma Cb c : C c -> c <> b. Proof. intros H ->. auto. Qed.

Lemma mild_auto v : mild (with_auto v). Proof. left. destruct e; reflexivity. Qed.
Lemma PP_reindex L l : (forall i, In i l -> ~ F i) -> forall k w, PP L w -> PP L (reindex k l w).
Proof.
  induction l as [|o r IH]; intros H k w HP; cbn; auto. apply IH; [intros; apply H; right; auto|].
  apply PP_upd; auto; [apply H; left; auto|apply mild_auto].
Qed.
Lemma kf_sort c : C c -> kf (sort_layer c).
Proof.
  intros Hc. unfold sort_layer. apply kf_get_bp; auto. intros x L Hx.
  apply keeps_gets_bind. intros w l HP E. apply sorted_objs_perm in E.
  assert (A : forall i, In i l -> In i L). { intros i Hi. apply Hx. eapply Permutation_in; [symmetry; exact E|auto]. }
  unfold mbind, modify. cbn [fst snd]. apply PP_reindex.
  - intros i Hi. destruct HP as (_ & _ & _ & _ & P5). apply P5; auto.
  - apply PP_bp; auto; [now apply Cb|]. intros y i _ Hi. destruct y; cbn in Hi. right. destruct HP as (_ & _ & _ & _ & P5).
    apply P5; auto.
Qed.
Lemma kf_add c o : C c -> (forall i, o = OEnt i -> ~ F i) -> kf (layer_add c o).
Proof.
  intros Hc Ho. destruct o as [i|]; [|apply kf_raise]. specialize (Ho i eq_refl). unfold layer_add.
  intros L. apply keeps_gets_bind. intros w e HP E. destruct (ent w i) as [e'|] eqn:He; [|discriminate]. injection E as ->.
  rewrite mbind_fst. unfold get_bp, gets. cbn [fst snd].
  destruct (blu w c) as [x|] eqn:Hx; [|exact HP].
  destruct (negb _ && negb _) eqn:N; [exact HP|]. destruct (mem_nat i (b_objs x)); [exact HP|].
  assert (Le : e_layer e <> Some b).
  { intros Q. rewrite Q in N. cbn in N. destruct (Nat.eqb_spec b c); [subst; contradiction|discriminate]. }
  unfold mbind, modify. cbn [fst snd]. apply kf_sort; auto. apply PP_upd; auto.
  - intros e1. right. destruct e1; cbn. intros Q. injection Q as ->. contradiction.
  - apply PP_bp; auto; [now apply Cb|]. intros y j Hy Hj. assert (y = x) by congruence. subst y. destruct x; cbn in *.
    apply in_app_iff in Hj as [Hj|[<-|[]]]; auto. right. split; auto. intros e1 E1. congruence.
Qed.
Lemma remove1_in i l j : In j (remove1 i l) -> In j l.
Proof. induction l as [|x r IH]; cbn; auto. destruct (Nat.eqb i x); cbn; intuition. Qed.
Lemma kf_drop c i : C c -> ~ F i -> kf (drop_obj c i).
Proof.
  intros Hc Hi. unfold drop_obj. apply kf_get_bp; auto. intros x L Hx. destruct (mem_nat i (b_objs x)); [|apply keeps_raise].
  intros w HP. unfold mbind, modify. cbn [fst snd]. apply PP_upd; auto.
  - intros e. right. destruct e; cbn. discriminate.
  - apply PP_bp; auto; [now apply Cb|]. intros y j _ Hj. destruct y; cbn in Hj. apply remove1_in in Hj. right.
    destruct HP as (_ & _ & _ & _ & P5). apply P5; auto.
Qed.
Lemma at_list_in w pt l r : at_list w pt l = Ok r -> incl r l.
Proof.
  revert r. induction l as [|i l IH]; cbn; intros r H; [injection H as <-; intros ? []|].
  destruct (ent w i); [|discriminate]. destruct (collides (w_protos w) e pt) as [c|]; [|discriminate]. cbn in H.
  destruct (at_list w pt l) as [t|]; [|discriminate]. cbn in H. specialize (IH _ eq_refl).
  destruct c; injection H as <-; intros j; cbn; [intros [|]|intros]; auto.
Qed.
Lemma kf_del_at c pt : C c -> kf (layer_del_at c pt).
Proof.
  intros Hc L w HP. unfold layer_del_at. rewrite mbind_fst. unfold layer_at, mbind, get_bp, gets.
  destruct (blu w c) as [x|] eqn:Hx; [|exact HP]. cbn [fst snd].
  destruct (at_list w pt (b_objs x)) as [l|] eqn:E; [|exact HP]. apply at_list_in in E.
  apply keeps_forM; [|exact HP]. intros i Hi. apply kf_drop; auto.
  destruct HP as (_ & _ & _ & P4 & _). eapply P4; eauto.
Qed.
Lemma kf_make c kw : C c -> kf (layer_make c kw).
Proof.
  intros Hc L w HP. unfold layer_make, new_entity. rewrite mbind_fst.
  unfold mbind, get_bp, gets, ret. destruct (blu w c) as [x|] eqn:Hx; [|exact HP]. cbn [fst snd].
  destruct (snd (construct (w_protos w) (b_custom x) (Some c) kw)) as [e|] eqn:E; [|exact HP]. cbn [fst snd].
  apply construct_layer in E. pose proof (F_old _ _ HP) as FO.
  apply (PP_new L e) in HP; [|rewrite E; intros Q; injection Q as Q; apply (Cb c); auto].
  pose proof (kf_add c (OEnt (length (w_ents w))) Hc ltac:(intros i Q; injection Q as <-; auto) _ _ HP) as K.
  destruct (layer_add c (OEnt (length (w_ents w))) (new_ent e w)) as [w1 [u|x1]]; cbn [fst snd] in *;
    eapply PP_sub; try exact K; intros i Hi; right; auto.
Qed.
Lemma PP_connect L e t fs ts col w : (forall en, ent w e = Some en -> e_layer en <> Some b) -> PP L w ->
  PP L (fst (connect e t fs ts col w)).
Proof.
  intros H HP. unfold connect, mbind, get_ent, gets. destruct (ent w e) as [en|] eqn:Q; [|exact HP].
  cbn [fst snd]. destruct (conn_new (Some e) t fs ts col) as [c|]; [|exact HP]. cbn [fst snd].
  destruct (e_layer en) as [d|] eqn:Hd; [|exact HP].
  unfold get_bp, gets. destruct (blu w d) as [x|] eqn:Hx; [|exact HP]. cbn [fst snd].
  destruct (existsb _ _); [exact HP|]. apply PP_bp_same; [|intros []; reflexivity|exact HP].
  intros ->. apply (H en); auto.
Qed.
(** reading the wires of an alien entity *)
Lemma PP_conns L e w : (forall en, ent w e = Some en -> e_layer en <> Some b) -> PP L w -> PP L (fst (get_connections e w)).
Proof.
  intros H HP. unfold get_connections, mbind, get_ent, gets. destruct (ent w e) as [en|] eqn:Q; [|exact HP].
  cbn [fst snd]. destruct (e_layer en) as [d|] eqn:Hd; [|exact HP]. unfold get_bp, gets, modify.
  destruct (blu w d) as [x|]; [|exact HP]. cbn [fst snd]. apply PP_bp_same; [|intros []; reflexivity|exact HP].
  intros ->. apply (H en); auto.
Qed.
Lemma PP_ent_json L e w : (forall en, ent w e = Some en -> e_layer en <> Some b) -> PP L w -> PP L (fst (ent_json e w)).
Proof.
  intros H HP. unfold ent_json, mbind at 1, get_ent, gets at 1. destruct (ent w e) as [en|] eqn:Q; [|exact HP]. cbn [fst snd].
  destruct (e_pos en); [|exact HP]. cbv zeta.
  pose proof (PP_conns L e w ltac:(intros; apply H; congruence) HP) as K.
  unfold connections_to_json, mbind, gets. destruct (get_connections e w) as [w1 [cs|]]; [|exact K]. cbn [fst snd] in *.
  destruct (conns_json w1 e cs []); exact K.
Qed.
Lemma keeps_aliens {X} (f : X -> M unit) (g : X -> nat) l L : (forall x, In x l -> In (g x) L) ->
  (forall x w, In (g x) L -> PP L w -> PP L (fst (f x w))) -> keeps (PP L) (forM f l).
Proof. intros H K. apply keeps_forM. intros x Hx w HP. apply K; auto. Qed.
Lemma PP_layer L w i : In i L -> PP L w -> forall en, ent w i = Some en -> e_layer en <> Some b.
Proof. intros Hi (_ & _ & _ & _ & P5) en. now apply P5. Qed.
Lemma kf_layer_json c : C c -> kf (layer_json c).
Proof.
  intros Hc. unfold layer_json. apply kf_get_bp; auto. intros x L Hx. apply keeps_bind; [|intros; apply keeps_ret].
  apply keeps_mapMM. intros i Hi w HP. apply PP_ent_json; auto. eapply PP_layer; [|exact HP]. auto.
Qed.
Lemma kf_bp_json c : C c -> kf (bp_json c).
Proof.
  intros Hc. unfold bp_json. apply kf_bind; [apply kf_gets|]. intros x. cbv zeta. apply kf_bind; [now apply kf_layer_json|].
  intros. apply kf_bind; [apply kf_gets|]. intros. apply kf_bind; [apply kf_gets|]. intros. apply kf_ret.
Qed.
Lemma kf_parse c : C c -> kf (parse_connections c).
Proof.
  intros Hc. unfold parse_connections. apply kf_get_bp; auto. intros x L Hx. apply keeps_bind.
  - intros w HP. destruct (foldE _ _ _) as [cs r]. cbn [fst]. apply PP_bp_same; [now apply Cb|intros []; reflexivity|exact HP].
  - intros _. apply keeps_forM. intros i Hi. apply keeps_bind; [|intros; apply keeps_ret].
    intros w HP. apply PP_conns; auto. eapply PP_layer; [|exact HP]. auto.
Qed.
Ltac bpmod := apply kf_bp; [now apply Cb|intros [] ?; cbn; auto].
Lemma kf_head c d : C c -> kf (load_head c d).
Proof.
  intros Hc. unfold load_head. apply kf_bind; [bpmod|intros _]. apply kf_bind.
  { destruct (dataget d "label_color" VNone); try apply kf_ret; (apply kf_bind; [apply kf_gets|intros; bpmod]). }
  intros _. apply kf_bind; [bpmod|intros _]. apply kf_bind; [apply kf_gets|]. intros ics L w HP.
  destruct (foldE _ _ _) as [ic r]. cbn [fst]. apply PP_bp_same; [now apply Cb|intros []; reflexivity|exact HP].
Qed.
Lemma kf_tail c d : C c -> kf (load_tail c d).
Proof.
  intros Hc. unfold load_tail. apply kf_bind; [now apply kf_sort|intros _]. apply kf_bind; [now apply kf_parse|intros _].
  apply kf_bind; [apply kf_gets|]. intros ts. apply kf_bind; [apply kf_gets|]. intros x. apply kf_bind; [|intros _; bpmod].
  intros L w HP. destruct (foldE _ _ _) as [ic r]. cbn [fst]. apply PP_bp_same; [now apply Cb|intros []; reflexivity|exact HP].
Qed.
Lemma kf_scheds c d : C c -> kf (load_scheds c d).
Proof. intros Hc. unfold load_scheds. apply kf_bind; [apply kf_gets|]. intros. bpmod. Qed.
Lemma PP_load_entities c cust l : C c -> forall L w, PP L w -> PP L (fst (fst (load_entities c cust l w))).
Proof.
  intros Hc. induction l as [|v r IH]; intros L w HP; cbn; auto. destruct v as [| | | | | |kw]; cbn; auto.
  destruct (construct (w_protos w) cust (Some c) kw) as [kw' [e|x]] eqn:E; cbn; auto.
  assert (EL : e_layer e = Some c) by (eapply construct_layer; rewrite E; reflexivity).
  apply (PP_new L e) in HP; [|rewrite EL; intros Q; injection Q as Q; apply (Cb c); auto].
  apply (PP_bp _ c (fun x => b_set_objs (b_objs x ++ [length (w_ents w)]) x)) in HP as H2.
  - specialize (IH _ _ H2). destruct (load_entities c cust r _) as [[w1 r1] x1]. cbn [fst] in *.
    eapply PP_sub; [|exact IH]. intros i Hi; right; auto.
  - now apply Cb.
  - intros y i _ Hi. destruct y; cbn in Hi. apply in_app_iff in Hi as [Hi|[<-|[]]]; auto. right.
    destruct HP as (_ & _ & _ & _ & P5). apply P5. left; auto.
Qed.
Lemma PP_load_inner c cust d L w : C c -> PP L w -> PP L (fst (fst (load_inner c cust d w))).
Proof.
  intros Hc HP. unfold load_inner. pose proof (kf_head c d Hc L w HP) as H1.
  destruct (load_head c d w) as [w1 [u|]]; [|exact H1]. cbn [fst] in H1. destruct (iter_val _) as [es|]; [|exact H1].
  pose proof (PP_load_entities c cust es Hc L w1 H1) as H2. destruct (load_entities c cust es w1) as [[w2 es'] [u2|]]; [|exact H2].
  cbn [fst] in H2. pose proof (kf_tail c d Hc L w2 H2) as H3. destruct (load_tail c d w2) as [w3 [u3|]]; [|exact H3].
  cbn [fst] in H3. pose proof (kf_scheds c d Hc L w3 H3) as H4. destruct (load_scheds c d w3) as [w4 r4]. exact H4.
Qed.
Lemma PP_load c doc L w : C c -> PP L w -> PP L (fst (fst (load c doc w))).
Proof.
  intros Hc HP. unfold load. destruct (blu w c) as [x|]; [|exact HP]. destruct doc as [| | | | | |d]; try exact HP.
  destruct (dget "blueprint" d) as [v|].
  - destruct v as [| | | | | |inner]; try exact HP. pose proof (PP_load_inner c (b_custom x) inner L w Hc HP) as K.
    destruct (load_inner _ _ _ _) as [[w1 i1] r1]. exact K.
  - pose proof (PP_load_inner c (b_custom x) d L w Hc HP) as K. destruct (load_inner _ _ _ _) as [[w1 i1] r1]. exact K.
Qed.
Lemma kf_rotate_ent n a r i : ~ F i -> kf (rotate_ent n a r i).
Proof.
  intros Hi L w HP. unfold rotate_ent. destruct (ent w i) as [e|] eqn:E; [|exact HP].
  pose proof (entity_rotate_layer n a (ent_cw r) e) as H. destruct (entity_rotate n a (ent_cw r) e) as [e' x]. cbn [fst] in *.
  destruct HP as (P1 & P2 & P3 & P4 & P5).
  assert (A : forall j, alien w j -> alien (upd_ent i (fun _ => e') w) j).
  { intros j [N A]. split; auto. intros e1. rewrite ent_upd. destruct (Nat.eqb_spec i j); [subst j|apply A].
    rewrite E. cbn. intros Q; injection Q as <-. rewrite H. apply A; auto. }
  split; [|split; [|split; [|split]]]; auto.
  - intros j Hj. rewrite ent_upd. destruct (Nat.eqb_spec i j); [subst; contradiction|auto].
  - intros c x0 j Hc Hx Hj. apply A. eapply P4; eauto.
Qed.
Lemma kf_rename i v : ~ F i -> kf (rename i v).
Proof.
  intros Hi L w HP. unfold rename. destruct (ent w i) as [e|] eqn:E; [|exact HP]. cbv zeta.
  match goal with |- context [set_name ?p ?c v e] => pose proof (set_name_layer p c v e) as H; destruct (set_name p c v e) as [e' x] end.
  cbn [fst] in *. destruct HP as (P1 & P2 & P3 & P4 & P5).
  assert (A : forall j, alien w j -> alien (upd_ent i (fun _ => e') w) j).
  { intros j [N A]. split; auto. intros e1. rewrite ent_upd. destruct (Nat.eqb_spec i j); [subst j|apply A].
    rewrite E. cbn. intros Q; injection Q as <-. rewrite H. apply A; auto. }
  split; [|split; [|split; [|split]]]; auto.
  - intros j Hj. rewrite ent_upd. destruct (Nat.eqb_spec i j); [subst; contradiction|auto].
  - intros c x0 j Hc Hx Hj. apply A. eapply P4; eauto.
Qed.
Lemma kf_rotate c n a r : C c -> kf (bp_rotate c n a r).
Proof.
  intros Hc. unfold bp_rotate. apply kf_bind; [|intros _].
  - unfold layer_rotate. apply kf_get_bp; auto. intros x L Hx. apply keeps_bind; [|intros _; now apply kf_sort].
    intros w HP. apply keeps_forM; auto. intros i Hi. apply kf_rotate_ent.
    destruct HP as (_ & _ & _ & _ & P5). apply P5; auto.
  - unfold tiles_rotate. apply kf_bind; [apply kf_gets|]. intros x. apply kf_bind; [|intros _; bpmod].
    intros L w HP. destruct (rotate_tiles _ _ _ _) as [ts o]. cbn [fst]. apply PP_bp_same; [now apply Cb|intros []; reflexivity|exact HP].
Qed.
Lemma kf_recenter c a : C c -> kf (recenter c a).
Proof.
  intros Hc. unfold recenter. apply kf_get_bp; auto. intros x L Hx. apply keeps_bind.
  { destruct a; [apply keeps_ret|]. apply keeps_bind; [|intros; apply keeps_gets]. unfold center, maximum_values.
    apply keeps_bind; [|intros; apply keeps_gets]. apply keeps_bind; [apply keeps_gets|intros; apply keeps_gets]. }
  intros v. destruct (veqb v vzero); [apply keeps_ret|]. apply keeps_bind; [|intros; apply keeps_raise].
  intros w HP. apply keeps_forM; auto. intros i Hi. apply keeps_bind; [apply keeps_gets|]. intros e.
  destruct (e_pos e); [|apply keeps_raise]. apply keeps_bind; [apply keeps_gets|]. intros q. apply kf_upd.
  - destruct HP as (_ & _ & _ & _ & P5). apply P5; auto.
  - left. destruct e0; reflexivity.
Qed.
Lemma kf_label c l a : C c -> kf (set_label c l a).
Proof.
  intros Hc. unfold set_label. apply kf_bind; [apply kf_gets|intros _]. apply kf_bind; [bpmod|intros _].
  destruct a; [apply kf_ret|bpmod|]. apply kf_bind; [apply kf_gets|intros; bpmod].
Qed.
Lemma kf_call f c k : C c -> kf (conn_call f c k).
Proof. intros Hc. unfold conn_call. apply kf_bind; [apply kf_gets|intros]. bpmod. Qed.
End Frame.
