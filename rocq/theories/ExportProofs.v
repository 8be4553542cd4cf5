(** * Proofs about exported documents: the fields Entity.to_json writes itself, repeatability (C18),
      exported numbers (C21), dangling wires (C22). *)
From Coq Require Import Lia Permutation Sorted.
From Verif Require Import Py Num NumFacts Util SpecUtil UtilFacts Classes Mixins Entity World WorldFacts
  Inv SortFacts SpecWorld LayerProofs PersistProofs WireProofs.
Open Scope Z_scope.

(** ** the mixins do not touch the fields of Entity.to_json *)
Definition own_field (k : key) : Prop := In k [KS "entity_number"; KS "name"; KS "position"; KS "connections"].
Lemma dget_dset_field k (f : string) v (o : dict) : own_field k -> ~ own_field f -> dget k (dset f v o) = dget k o.
Proof. intros H N. apply dget_dset_other. intros ->. tauto. Qed.
Lemma dget_obj_set_field k (f : string) v (o : dict) : own_field k -> ~ own_field f -> dget k (obj_set o f v) = dget k o.
Proof. intros H N. unfold obj_set. destruct v; auto; apply dget_dset_field; auto. Qed.
Ltac nof := let H := fresh in intros H; unfold own_field in H; simpl in H;
  repeat (destruct H as [H|H]; [discriminate H|]); destruct H.
Lemma json_mixin_field p dir c a o o' k : own_field k -> json_mixin p dir c a o = Ok o' -> dget k o' = dget k o.
Proof.
  intros Hk H. destruct c; simpl in H;
    repeat match goal with
           | H : Ok _ = Ok _ |- _ => injection H as <-
           | H : (let! _ := ?m in _) = Ok _ |- _ => destruct m eqn:?; simpl in H; [|discriminate]
           | H : match ?m with _ => _ end = Ok _ |- _ => destruct m eqn:?; try discriminate; simpl in H
           | H : Err _ = Ok _ |- _ => discriminate
           end; auto;
    repeat first [ rewrite dget_obj_set_field by (auto; nof) | rewrite dget_dset_field by (auto; nof) ]; auto;
    repeat match goal with |- context [if ?c then _ else _] => destruct c end;
    repeat first [ rewrite dget_obj_set_field by (auto; nof) | rewrite dget_dset_field by (auto; nof) ]; auto.
Qed.
Lemma json_chain_field p dir cls cb l a k : own_field k -> forall o o', json_chain p dir cls cb l a o = Ok o' -> dget k o' = dget k o.
Proof.
  intros Hk. induction l as [|c r IH]; intros o o' H; simpl in H; [injection H as <-; auto|].
  assert (G : (let! o := json_mixin p dir c a o in json_chain p dir cls cb r a o) = Ok o' -> dget k o' = dget k o).
  { intros G. destruct (json_mixin p dir c a o) as [o1|] eqn:E; [|discriminate]. simpl in G.
    rewrite (IH _ _ G). eapply json_mixin_field; eauto. }
  destruct c; try (exact (G H)).
  destruct cb as [cb|]; [|injection H as <-; auto]. destruct (cb_json p cls cb); [|discriminate]. simpl in H.
  injection H as <-. apply dget_obj_set_field; auto. nof.
Qed.

(** ** one entity *)
Definition conn_field (cs : dict) : option val := match cs with [] => None | _ => Some (VDict cs) end.
Lemma ent_json_ok i w w' v : ent_json i w = (w', Ok v) ->
  exists e q cs d, ent w i = Some e /\ e_pos e = Some q /\ v = VDict d /\
    connections_to_json i w = (w', Ok cs) /\
    dget "entity_number" d = Some (e_auto e) /\ dget "name" d = Some (e_name e) /\
    dget "position" d = Some (vec_to_json q) /\ dget "connections" d = conn_field cs.
Proof.
  intros H. unfold ent_json in H. apply mbind_ok in H as (e & w1 & H1 & H).
  unfold get_ent, gets in H1. destruct (ent w i) as [e'|] eqn:He; [|discriminate]. injection H1 as <- ->.
  destruct (e_pos e) as [q|] eqn:Hq; [|discriminate]. apply mbind_ok in H as (cs & w2 & Hc & H).
  unfold gets in H.
  match type of H with (_, let! d := json_chain ?p ?dir ?cls ?cb ?l ?a ?o in _) = _ => set (obj := o) in *;
    destruct (json_chain p dir cls cb l a obj) as [d|] eqn:E; [|discriminate] end.
  injection H as <- <-. exists e, q, cs, d. split; [auto|]. split; [auto|]. split; [auto|]. split; [auto|].
  assert (K : forall k, own_field k -> dget k d = dget k obj) by (intros k Hk; eapply json_chain_field; eauto).
  rewrite !K by (unfold own_field; simpl; auto). unfold obj, conn_field. destruct cs; simpl; auto.
Qed.

(** ** exporting only turns wires around *)
Definition turn_eq (c d : conn) : Prop := d = c \/ d = conn_flip c.
(** [w'] is [w] up to a relation between corresponding wires *)
Definition simr (R : conn -> conn -> Prop) (w w' : world) : Prop :=
  w_protos w' = w_protos w /\ w_ents w' = w_ents w /\
  forall b, match blu w b, blu w' b with
            | Some x, Some x' => b_set_conns [] x' = b_set_conns [] x /\ Forall2 R (b_conns x) (b_conns x')
            | None, None => True
            | _, _ => False
            end.
Definition sim := simr turn_eq.
Lemma flip_flip c : conn_flip (conn_flip c) = c.
Proof. destruct c; reflexivity. Qed.
Lemma turn_eq_trans a b c : turn_eq a b -> turn_eq b c -> turn_eq a c.
Proof. unfold turn_eq. intros [->| ->] [->| ->]; rewrite ?flip_flip; auto. Qed.
Lemma turn_eq_refl c : turn_eq c c. Proof. left; auto. Qed.
Lemma Forall2_refl_on {A} (R : A -> A -> Prop) l : (forall x, R x x) -> Forall2 R l l.
Proof. intros H. induction l; constructor; auto. Qed.
Lemma Forall2_trans {A} (R : A -> A -> Prop) : (forall x y z, R x y -> R y z -> R x z) ->
  forall l m n, Forall2 R l m -> Forall2 R m n -> Forall2 R l n.
Proof.
  intros T l m n H. revert n. induction H; intros n K; inversion K; subst; constructor; eauto.
Qed.
Section Simr.
  Variable R : conn -> conn -> Prop.
  Hypothesis Rrefl : forall c, R c c.
  Hypothesis Rtrans : forall a b c, R a b -> R b c -> R a c.
  Lemma simr_refl w : simr R w w.
  Proof. split; [auto|split; auto]. intros b. destruct (blu w b); auto. split; auto. apply Forall2_refl_on, Rrefl. Qed.
  Lemma simr_trans a b c : simr R a b -> simr R b c -> simr R a c.
  Proof.
    intros (P1 & E1 & B1) (P2 & E2 & B2). split; [congruence|split; [congruence|]]. intros i. specialize (B1 i). specialize (B2 i).
    destruct (blu a i), (blu b i), (blu c i); auto; try tauto. destruct B1 as [F1 G1], B2 as [F2 G2]. split; [congruence|].
    eapply Forall2_trans; eauto.
  Qed.
  Lemma simr_upd b w x cs : blu w b = Some x -> Forall2 R (b_conns x) cs -> simr R w (upd_bp b (b_set_conns cs) w).
  Proof.
    intros Hx H. split; [auto|split; auto]. intros c. rewrite blu_upd. destruct (Nat.eqb_spec b c) as [<-|].
    - rewrite Hx. simpl. split; auto.
    - destruct (blu w c); auto. split; auto. apply Forall2_refl_on, Rrefl.
  Qed.
  Definition simsr {A} (m : M A) : Prop := forall w, simr R w (fst (m w)).
  Lemma simsr_bind {A B} (m : M A) (f : A -> M B) : simsr m -> (forall a, simsr (f a)) -> simsr (mbind m f).
  Proof.
    intros H K w. rewrite mbind_fst. destruct (snd (m w)) as [a|]; [|apply H]. eapply simr_trans; [apply H|apply K].
  Qed.
  Lemma simsr_gets {A} (f : world -> res A) : simsr (gets f). Proof. intros w; apply simr_refl. Qed.
  Lemma simsr_ret {A} (a : A) : simsr (ret a). Proof. intros w; apply simr_refl. Qed.
  Lemma simsr_raise {A} e : simsr (@raise A e). Proof. intros w; apply simr_refl. Qed.
  Lemma simsr_get_connections e : (forall c, R c (turn_towards e c)) -> simsr (get_connections e).
  Proof.
    intros T w. unfold get_connections, mbind, get_ent, get_bp, gets, modify, raise.
    destruct (ent w e) as [en|]; [|apply simr_refl]. destruct (e_layer en) as [b|]; [|apply simr_refl].
    destruct (blu w b) as [x|] eqn:Hx; [|apply simr_refl]. simpl. eapply simr_upd; eauto.
    induction (b_conns x); simpl; constructor; auto.
  Qed.
  Lemma simsr_connections e : (forall c, R c (turn_towards e c)) -> simsr (connections_to_json e).
  Proof. intros T. unfold connections_to_json. apply simsr_bind; [apply simsr_get_connections, T|intros; apply simsr_gets]. Qed.
  Lemma simsr_ent_json i : (forall c, R c (turn_towards i c)) -> simsr (ent_json i).
  Proof.
    intros T. unfold ent_json. apply simsr_bind; [apply simsr_gets|]. intros e. destruct (e_pos e); [|apply simsr_raise].
    apply simsr_bind; [apply simsr_connections, T|]. intros; apply simsr_gets.
  Qed.
  Lemma simsr_mapMM {X Y} (f : X -> M Y) l : (forall x, In x l -> simsr (f x)) -> simsr (mapMM f l).
  Proof.
    induction l; simpl; intros H; [apply simsr_ret|]. apply simsr_bind; auto. intros y. apply simsr_bind; auto. intros; apply simsr_ret.
  Qed.
  Lemma simsr_layer_json b : (forall e c, R c (turn_towards e c)) -> simsr (layer_json b).
  Proof.
    intros T. unfold layer_json. apply simsr_bind; [apply simsr_gets|]. intros y. apply simsr_bind; [|intros; apply simsr_ret].
    apply simsr_mapMM. intros; apply simsr_ent_json, T.
  Qed.
  Lemma simsr_bp_json b : (forall e c, R c (turn_towards e c)) -> simsr (bp_json b).
  Proof.
    intros T. unfold bp_json. apply simsr_bind; [apply simsr_gets|]. intros x. apply simsr_bind; [apply simsr_layer_json, T|].
    intros es. apply simsr_bind; [apply simsr_gets|]. intros ic. apply simsr_bind; [apply simsr_gets|]. intros; apply simsr_ret.
  Qed.
End Simr.
Lemma turn_turn_eq e c : turn_eq c (turn_towards e c).
Proof.
  unfold turn_towards, orientate. destruct (attached_to c e); [|left; auto]. destruct (end_eqb _ _); [right|left]; auto.
Qed.
Definition sims {A} (m : M A) : Prop := forall w, sim w (fst (m w)).
Lemma sim_refl w : sim w w. Proof. apply simr_refl, turn_eq_refl. Qed.
Lemma sim_trans a b c : sim a b -> sim b c -> sim a c. Proof. apply simr_trans, turn_eq_trans. Qed.
Lemma sims_bind {A B} (m : M A) (f : A -> M B) : sims m -> (forall a, sims (f a)) -> sims (mbind m f).
Proof. apply (simsr_bind _ turn_eq_trans). Qed.
Lemma sims_gets {A} (f : world -> res A) : sims (gets f). Proof. apply simsr_gets, turn_eq_refl. Qed.
Lemma sim_get_connections e w : sim w (fst (get_connections e w)).
Proof. apply (simsr_get_connections _ turn_eq_refl). apply turn_turn_eq. Qed.
Lemma sims_connections e : sims (connections_to_json e).
Proof. apply (simsr_connections _ turn_eq_refl turn_eq_trans). apply turn_turn_eq. Qed.
Lemma sims_ent_json i : sims (ent_json i).
Proof. apply (simsr_ent_json _ turn_eq_refl turn_eq_trans). apply turn_turn_eq. Qed.
Lemma sims_layer_json b : sims (layer_json b).
Proof. apply (simsr_layer_json _ turn_eq_refl turn_eq_trans). apply turn_turn_eq. Qed.
Lemma sims_bp_json b : sims (bp_json b).
Proof. apply (simsr_bp_json _ turn_eq_refl turn_eq_trans). apply turn_turn_eq. Qed.
Lemma sim_sym w w' : sim w w' -> sim w' w.
Proof.
  intros (P & E & B). split; [auto|split; auto]. intros b. specialize (B b).
  destruct (blu w b), (blu w' b); auto. destruct B as [B F]. split; auto.
  clear -F. induction F as [|c d ? ? T]; constructor; auto. destruct T as [->| ->]; [left|right]; rewrite ?flip_flip; auto.
Qed.

(** ** what an export reads does not depend on how wires are turned *)
Lemma mine_turn e cs ds : Forall2 turn_eq cs ds -> (forall c, In c cs -> ~ skew_loop c) -> mine e ds = mine e cs.
Proof.
  unfold mine. induction 1 as [|c d cs ds T F IH]; simpl; intros N; auto.
  assert (A : attached_to d e = attached_to c e).
  { destruct T as [->| ->]; auto. unfold attached_to, conn_flip. simpl. apply orb_comm. }
  rewrite A. destruct (attached_to c e) eqn:Ac; [|apply IH; auto]. simpl. f_equal; [|apply IH; auto].
  destruct T as [->| ->]; auto. assert (NS : ~ skew_loop c) by auto. unfold turn_towards. rewrite A, Ac. unfold orientate.
  simpl. destruct (end_eqb (c_from c) (Some e)) eqn:Ef, (end_eqb (c_to c) (Some e)) eqn:Et; rewrite ?flip_flip; auto.
  - destruct c as [[f|] [t|] fs ts col]; try discriminate. apply Nat.eqb_eq in Ef, Et. subst.
    unfold skew_loop in NS. simpl in *. destruct (Z.eq_dec fs ts) as [->|]; [reflexivity|exfalso; auto].
  - unfold attached_to in Ac. rewrite Ef, Et in Ac. discriminate.
Qed.
(** no wire of the blueprint of [i] is a skew loop *)
Definition plain_layer (w : world) (b : nat) : Prop :=
  forall x c, blu w b = Some x -> In c (b_conns x) -> ~ skew_loop c.
Lemma skew_turn c d : turn_eq c d -> (skew_loop c <-> skew_loop d).
Proof. intros [->| ->]; [tauto|]. destruct c as [f t fs ts col]. unfold skew_loop. simpl. split; intros [A B]; auto. Qed.
Lemma plain_sim w w' b : sim w w' -> plain_layer w b -> plain_layer w' b.
Proof.
  intros (_ & _ & S) H x c Hx Hc. specialize (S b). rewrite Hx in S. destruct (blu w b) as [y|] eqn:Hy; [|tauto].
  destruct S as [_ F]. assert (exists d, In d (b_conns y) /\ turn_eq d c) as (d & Hd & T).
  { clear -F Hc. induction F; [destruct Hc|]. destruct Hc as [->|Hc]; [eauto using in_eq|].
    destruct IHF as (d & ? & ?); auto. exists d. split; auto. right; auto. }
  rewrite <- (skew_turn _ _ T). eapply H; eauto.
Qed.
Lemma get_connections_sim e w w' : sim w w' -> (forall en b, ent w e = Some en -> e_layer en = Some b -> plain_layer w b) ->
  snd (get_connections e w') = snd (get_connections e w).
Proof.
  intros (P & E & S) N. destruct (ent w e) as [en|] eqn:He.
  2: { unfold get_connections, mbind, get_ent, gets, ent in *. rewrite E, He. auto. }
  assert (He' : ent w' e = Some en) by (unfold ent in *; congruence).
  destruct (e_layer en) as [b|] eqn:Hl.
  2: { unfold get_connections, mbind, get_ent, gets. rewrite He, He'. cbv beta iota. rewrite Hl. auto. }
  specialize (S b). destruct (blu w b) as [x|] eqn:Hx; destruct (blu w' b) as [x'|] eqn:Hx'; try tauto.
  - rewrite (get_connections_eq _ _ _ _ _ He Hl Hx), (get_connections_eq _ _ _ _ _ He' Hl Hx'). simpl.
    rewrite (my_wires_ents w w') by auto. unfold my_wires. rewrite (mine_turn e (b_conns x) (b_conns x')); auto.
    + tauto.
    + intros c Hc. eapply (N en b); eauto.
  - unfold get_connections, mbind, get_ent, get_bp, gets. rewrite He, He'. cbv beta iota. rewrite Hl, Hx, Hx'. auto.
Qed.
Lemma connections_sim e w w' : sim w w' -> (forall en b, ent w e = Some en -> e_layer en = Some b -> plain_layer w b) ->
  snd (connections_to_json e w') = snd (connections_to_json e w).
Proof.
  intros S N. unfold connections_to_json. rewrite !mbind_snd, (get_connections_sim e w w' S N).
  destruct (snd (get_connections e w)); auto. unfold gets. simpl. apply conns_json_ents.
  pose proof (sim_get_connections e w) as (_ & E1 & _). pose proof (sim_get_connections e w') as (_ & E2 & _).
  destruct S as (_ & E & _). congruence.
Qed.
Lemma ent_json_sim i w w' : sim w w' -> (forall en b, ent w i = Some en -> e_layer en = Some b -> plain_layer w b) ->
  snd (ent_json i w') = snd (ent_json i w).
Proof.
  intros S N. unfold ent_json. rewrite !mbind_snd. unfold get_ent, gets. simpl.
  assert (E : ent w' i = ent w i) by (destruct S as (_ & E & _); unfold ent; congruence). rewrite E.
  destruct (ent w i) as [e|] eqn:He; auto. destruct (e_pos e); auto. rewrite !mbind_snd.
  rewrite (connections_sim i w w' S) by (intros; eapply N; eauto; congruence).
  destruct (snd (connections_to_json i w)); auto. simpl.
  pose proof (sims_connections i w) as (P1 & _). pose proof (sims_connections i w') as (P2 & _).
  destruct S as (P & _). rewrite P1, P2, P. auto.
Qed.
Lemma mapMM_sim {Y} (f : nat -> M Y) (G : world -> nat -> Prop) l :
  (forall w w' x, sim w w' -> G w x -> G w' x) -> (forall x, sims (f x)) ->
  (forall x w w', sim w w' -> G w x -> snd (f x w') = snd (f x w)) ->
  forall w w', sim w w' -> (forall x, In x l -> G w x) -> snd (mapMM f l w') = snd (mapMM f l w).
Proof.
  intros HG Hs Hf. induction l as [|x r IH]; simpl; intros w w' S K; auto.
  rewrite !mbind_snd, (Hf x w w' S) by auto. destruct (snd (f x w)) as [y|]; auto.
  assert (S1 : sim (fst (f x w)) (fst (f x w'))).
  { eapply sim_trans; [|apply Hs]. eapply sim_trans; [|exact S]. apply sim_sym, Hs. }
  rewrite !mbind_snd. rewrite (IH (fst (f x w)) (fst (f x w')) S1); auto.
  intros z Hz. eapply HG; [apply Hs|]. auto.
Qed.
Lemma bp_json_sim b w w' : inv w -> sim w w' -> plain_layer w b -> snd (bp_json b w') = snd (bp_json b w).
Proof.
  intros I S N. unfold bp_json. rewrite !mbind_snd. unfold get_bp, gets. simpl.
  pose proof S as (P & E & B). specialize (B b).
  destruct (blu w b) as [x|] eqn:Hx; destruct (blu w' b) as [x'|] eqn:Hx'; try tauto. destruct B as [B F].
  rewrite !mbind_snd.
  assert (L : snd (layer_json b w') = snd (layer_json b w)).
  { unfold layer_json. rewrite !mbind_snd. unfold get_bp, gets. simpl. rewrite Hx, Hx'. rewrite !mbind_snd.
    assert (Ob : b_objs x' = b_objs x) by (apply (f_equal b_objs) in B; exact B). rewrite Ob.
    rewrite (mapMM_sim ent_json (fun w i => forall en b, ent w i = Some en -> e_layer en = Some b -> plain_layer w b)
               (b_objs x)) with (w := w) (w' := w'); auto.
    - intros a a' i Sa G en c He Hl. destruct Sa as (Pa & Ea & Ba). eapply plain_sim; [split; [exact Pa|split; [exact Ea|exact Ba]]|].
      eapply G; eauto. unfold ent in *. congruence.
    - apply sims_ent_json.
    - intros i a a' Sa G. apply ent_json_sim; auto.
    - intros i Hi en c He Hl. destruct (inv_owner _ I _ _ _ Hx Hi) as (en' & He' & Hl').
      rewrite He in He'. injection He' as <-. rewrite Hl in Hl'. injection Hl' as ->. auto. }
  rewrite L. destruct (snd (layer_json b w)) as [es|]; auto.
  assert (SL : sims (layer_json b)) by apply sims_layer_json.
  pose proof (SL w) as (P1 & E1 & _). pose proof (SL w') as (P2 & E2 & _).
  set (w1 := fst (layer_json b w)) in *. set (w2 := fst (layer_json b w')) in *.
  assert (Ew : w_ents w2 = w_ents w1) by congruence. assert (Pw : w_protos w2 = w_protos w1) by congruence.
  assert (D : x' = b_set_conns (b_conns x') x) by (destruct x, x'; unfold b_set_conns in *; simpl in *; congruence).
  rewrite D. rewrite !mbind_snd. cbn [b_icons b_set_conns snd fst]. rewrite Pw.
  destruct (icons_json (w_protos w1) 1 (b_icons x)); auto. rewrite !mbind_snd. cbn [b_scheds b_set_conns snd fst].
  assert (SJ : mapM (sched_json w2) (b_scheds x) = mapM (sched_json w1) (b_scheds x)).
  { apply mapM_ext. intros s _. unfold sched_json, ent. rewrite Ew. auto. }
  rewrite SJ. destruct (mapM (sched_json w1) (b_scheds x)); auto.
Qed.
Lemma lupd_flip_turn k cs : Forall2 turn_eq cs (lupd k conn_flip cs).
Proof.
  revert k. induction cs as [|c r IH]; intros k; destruct k; simpl; constructor; auto.
  - right; auto.
  - apply Forall2_refl_on, turn_eq_refl.
  - left; auto.
Qed.
Lemma looks_sim o w : looks o = true -> sim w (fst (step o w)).
Proof.
  destruct o; try discriminate; intros _; simpl step; rewrite ?drop_res_fst.
  - unfold layer_at, get_bp. apply sims_bind; [apply sims_gets|]. intros; apply sims_gets.
  - apply sim_get_connections.
  - unfold conn_call, mbind, get_bp, gets, modify. destruct (blu w b) as [x|] eqn:Hx; [|apply sim_refl].
    simpl. eapply simr_upd; eauto; [apply turn_eq_refl|apply lupd_flip_turn].
  - apply sims_bp_json.
  - apply sims_ent_json.
Qed.
Lemma looks_run ops : forall w, forallb looks ops = true -> sim w (run ops w).
Proof.
  induction ops as [|o r IH]; simpl; intros w H; [apply sim_refl|]. apply andb_true_iff in H as [H1 H2].
  eapply sim_trans; [apply looks_sim; eauto|auto].
Qed.
Lemma p_C18_repeat w b x ops : reachable w -> blu w b = Some x -> (forall c, In c (b_conns x) -> ~ skew_loop c) ->
  forallb looks ops = true -> snd (bp_json b (run ops w)) = snd (bp_json b w).
Proof.
  intros R Hx N L. apply bp_json_sim; [apply reach_inv; auto|apply looks_run; auto|].
  intros y c Hy. rewrite Hx in Hy. injection Hy as <-. auto.
Qed.

(** ** the whole document *)
Lemma bp_json_ok b w w' doc : bp_json b w = (w', Ok doc) ->
  exists x vs ic sc o, blu w b = Some x /\ mapMM ent_json (b_objs x) w = (w', Ok vs) /\
    icons_json (w_protos w') 1 (b_icons x) = Ok ic /\ mapM (sched_json w') (b_scheds x) = Ok sc /\
    doc = VDict [(KS "blueprint", VDict o)] /\
    o = (let o := obj_set [(KS "item", b_item x)] "label" (b_label x) in
         let o := match b_label_color x with Some c => dset "label_color" (color_to_json c) o | None => o end in
         let o := obj_set o "entities" (none_if_empty vs) in
         let o := obj_set o "tiles" (none_if_empty (map tile_to_json (b_tiles x))) in
         let o := dset "icons" (VList ic) o in
         let o := dset "version" (b_version x) o in
         match sc with [] => o | _ => dset "schedules" (VList sc) o end).
Proof.
  intros H. unfold bp_json in H. apply mbind_ok in H as (x & w1 & H1 & H).
  unfold get_bp, gets in H1. destruct (blu w b) as [x'|] eqn:Hx; [|discriminate]. injection H1 as <- ->.
  apply mbind_ok in H as (es & w2 & H2 & H). unfold layer_json in H2. apply mbind_ok in H2 as (y & w3 & H3 & H2).
  unfold get_bp, gets in H3. rewrite Hx in H3. injection H3 as <- <-. apply mbind_ok in H2 as (vs & w4 & H4 & H2).
  injection H2 as <- <-. apply mbind_ok in H as (ic & w5 & H5 & H). unfold gets in H5. injection H5 as <- H5.
  apply mbind_ok in H as (sc & w6 & H6 & H). unfold gets in H6. injection H6 as <- H6. injection H as <- <-.
  eexists x, vs, ic, sc, _. split; [auto|]. split; [exact H4|]. split; [exact H5|]. split; [exact H6|]. split; reflexivity.
Qed.
Lemma bp_json_entities b w w' doc : bp_json b w = (w', Ok doc) ->
  exists x, blu w b = Some x /\ mapMM ent_json (b_objs x) w = (w', Ok (doc_list (inner_doc doc) "entities")).
Proof.
  intros H. destruct (bp_json_ok _ _ _ _ H) as (x & vs & ic & sc & o & Hx & Hm & _ & _ & -> & ->). exists x. split; auto.
  rewrite Hm. f_equal. f_equal. unfold inner_doc, doc_list.
  assert (E : dget "entities" (obj_set [(KS "item", b_item x)] "label" (b_label x)) = None)
    by (unfold obj_set; destruct (b_label x); reflexivity).
  set (o1 := obj_set [(KS "item", b_item x)] "label" (b_label x)) in *.
  assert (E2 : dget "entities" (match b_label_color x with Some c => dset "label_color" (color_to_json c) o1 | None => o1 end) = None).
  { destruct (b_label_color x); auto. rewrite dget_dset_other; auto. discriminate. }
  clear H. cbv zeta. match goal with |- context [obj_set ?o "entities" _] => set (o2 := o) in * end.
  set (o3 := obj_set o2 "entities" (none_if_empty vs)).
  assert (E3 : dget "entities" o3 = match vs with [] => None | _ => Some (VList vs) end).
  { unfold o3, obj_set, none_if_empty. destruct vs; auto. apply dget_dset_same. }
  set (o4 := obj_set o3 "tiles" (none_if_empty (map tile_to_json (b_tiles x)))).
  assert (E4 : dget "entities" o4 = dget "entities" o3).
  { unfold o4, obj_set, none_if_empty. destruct (map tile_to_json (b_tiles x)); auto. apply dget_dset_other. discriminate. }
  cbn [dget]. destruct sc; cbn -[dset dget]; rewrite ?key_eqb_refl;
    repeat (rewrite dget_dset_other by discriminate); rewrite E4, E3; destruct vs; auto.
Qed.
Lemma mapMM_split {X Y} (f : X -> M Y) l1 e l2 : forall w w' vs, mapMM f (l1 ++ e :: l2) w = (w', Ok vs) ->
  exists w1 w2 v1 v v2, mapMM f l1 w = (w1, Ok v1) /\ f e w1 = (w2, Ok v) /\ mapMM f l2 w2 = (w', Ok v2) /\ vs = v1 ++ v :: v2.
Proof.
  induction l1 as [|x r IH]; simpl; intros w w' vs H; apply mbind_ok in H as (y & w1 & H1 & H);
    apply mbind_ok in H as (ys & w2 & H2 & H); injection H as <- <-.
  - exists w, w1, [], y, ys. auto.
  - destruct (IH _ _ _ H2) as (w3 & w4 & v1 & v & v2 & A & B & C & ->). exists w3, w4, (y :: v1), v, v2.
    split; [|auto]. unfold mbind. rewrite H1, A. auto.
Qed.
Lemma mapMM_length {X Y} (f : X -> M Y) l : forall w w' vs, mapMM f l w = (w', Ok vs) -> length vs = length l.
Proof.
  induction l as [|x r IH]; simpl; intros w w' vs H; [injection H as <- <-; auto|].
  apply mbind_ok in H as (y & w1 & H1 & H). apply mbind_ok in H as (ys & w2 & H2 & H). injection H as <- <-.
  simpl. f_equal. eauto.
Qed.
Lemma mapMM_sims {X Y} (f : X -> M Y) l w w' vs : (forall x, sims (f x)) -> mapMM f l w = (w', Ok vs) -> sim w w'.
Proof.
  intros H E. assert (S : sim w (fst (mapMM f l w))); [|rewrite E in S; exact S].
  apply (simsr_mapMM _ turn_eq_refl turn_eq_trans). intros x _. apply H.
Qed.
(** the document entry of a listed entity *)
Lemma bp_json_nth b w w' doc : bp_json b w = (w', Ok doc) ->
  exists x, blu w b = Some x /\ length (doc_list (inner_doc doc) "entities") = length (b_objs x) /\
  forall k i, nth_error (b_objs x) k = Some i -> exists v w1 w2,
    nth_error (doc_list (inner_doc doc) "entities") k = Some v /\ sim w w1 /\ ent_json i w1 = (w2, Ok v).
Proof.
  intros H. destruct (bp_json_entities _ _ _ _ H) as (x & Hx & Hm). exists x. split; auto. split; [eapply mapMM_length; eauto|].
  intros k i Hk. apply nth_error_split in Hk as (l1 & l2 & E & <-). rewrite E in Hm.
  destruct (mapMM_split _ _ _ _ _ _ _ Hm) as (w1 & w2 & v1 & v & v2 & A & B & C & ->). exists v, w1, w2.
  rewrite <- (mapMM_length _ _ _ _ _ A). split; [rewrite nth_error_app2, Nat.sub_diag; auto|]. split; auto.
  eapply mapMM_sims; eauto. apply sims_ent_json.
Qed.
Lemma views_sim e cs ds : Forall2 turn_eq cs ds -> (forall c, In c cs -> ~ skew_loop c) ->
  flat_map (views e) ds = flat_map (views e) cs.
Proof.
  induction 1 as [|c d cs ds T F IH]; intros N; simpl; auto. rewrite IH by (intros; apply N; right; auto). f_equal.
  destruct T as [->| ->]; auto. assert (NS : ~ skew_loop c) by (apply N; left; auto).
  destruct c as [[f|] [t|] fs ts col]; try reflexivity. unfold views, skew_loop in *. simpl in *.
  destruct (Nat.eqb_spec t e) as [->|], (Nat.eqb_spec f e) as [->|]; auto.
  destruct (Z.eq_dec fs ts) as [->|]; auto. exfalso; auto.
Qed.
Lemma Forall2_impl' {A B} (R S : A -> B -> Prop) l m : (forall x y, R x y -> S x y) -> Forall2 R l m -> Forall2 S l m.
Proof. intros H. induction 1; constructor; auto. Qed.
Lemma p_C16_document w b w' doc : reachable w -> bp_json b w = (w', Ok doc) ->
  exists x, blu w b = Some x /\ length (doc_list (inner_doc doc) "entities") = length (b_objs x) /\
  ((forall c, In c (b_conns x) -> ~ skew_loop c) ->
   forall k i, nth_error (b_objs x) k = Some i ->
   exists v, nth_error (doc_list (inner_doc doc) "entities") k = Some v /\ exports_entity w x i v).
Proof.
  intros R H. apply reach_inv in R. destruct (bp_json_nth _ _ _ _ H) as (x & Hx & L & G). exists x. split; auto. split; auto.
  intros N k i Hk. destruct (G _ _ Hk) as (v & w1 & w2 & Hv & S & Hi). exists v. split; auto.
  destruct (ent_json_ok _ _ _ _ Hi) as (e & q & cs & d & He & Hq & -> & Hc & D1 & D2 & D3 & D4).
  pose proof S as (P & E & B). specialize (B b). rewrite Hx in B. destruct (blu w1 b) as [x1|] eqn:Hx1; [|tauto].
  destruct B as [_ F]. destruct (inv_owner _ R _ _ _ Hx (nth_error_In _ _ Hk)) as (e' & He' & Hl).
  assert (e' = e) by (unfold ent in *; congruence). subst e'.
  exists e, q, d. split; [auto|]. repeat (split; [auto|]). intros s col.
  destruct (p_C16_exact _ _ _ _ _ _ _ He Hl Hx1 Hc s col) as (l & Pl & Fl). exists l. split.
  - replace (conns_of_doc d) with cs; auto. unfold conns_of_doc. rewrite D4. destruct cs; auto.
  - rewrite <- (views_sim i _ _ F N). eapply Forall2_impl'; [|exact Fl]. intros [[[s' c'] f'] t'] v'. simpl.
    unfold entry_for, ent. rewrite E. auto.
Qed.
Lemma p_C21_exported w b x w' doc : reachable w -> blu w b = Some x -> numbered w (b_objs x) ->
  bp_json b w = (w', Ok doc) ->
  length (doc_list (inner_doc doc) "entities") = length (b_objs x) /\
  forall k v, nth_error (doc_list (inner_doc doc) "entities") k = Some v ->
  exists d, v = VDict d /\ dget "entity_number" d = Some (VInt (Z.of_nat k + 1)).
Proof.
  intros R Hx N H. destruct (bp_json_nth _ _ _ _ H) as (x' & Hx' & L & G). rewrite Hx in Hx'. injection Hx' as <-.
  split; auto. intros k v Hk. assert (Hlt : (k < length (b_objs x))%nat) by (rewrite <- L; apply nth_error_Some; congruence).
  destruct (nth_error (b_objs x) k) as [i|] eqn:Hi; [|apply nth_error_None in Hi; lia].
  destruct (G _ _ Hi) as (v' & w1 & w2 & Hv & (_ & E & _) & J). rewrite Hk in Hv. injection Hv as <-.
  destruct (ent_json_ok _ _ _ _ J) as (e & q & cs & d & He & _ & -> & _ & D & _). exists d. split; auto.
  destruct (N _ _ Hi) as (e' & He' & A). assert (e' = e) by (unfold ent in *; congruence). congruence.
Qed.
(** deleting [i]: its wires are still exported, with the number nobody else has *)
Lemma p_C22_dangling w b i x e s col t w' doc : reachable w -> blu w b = Some x -> In i (b_objs x) ->
  numbered w (b_objs x) -> In e (b_objs x) -> e <> i ->
  (forall c, In c (b_conns x) -> ~ skew_loop c) ->
  In (s, col, i, t) (flat_map (views e) (b_conns x)) ->
  bp_json b (fst (step (ORemove b (OEnt i)) w)) = (w', Ok doc) ->
  exists ei n, ent w i = Some ei /\ e_auto ei = VInt n /\
    (* e's document has an entry with i's old number *)
    (exists d v, In (VDict d) (doc_list (inner_doc doc) "entities") /\ In v (port (conns_of_doc d) s col) /\
       entry_for w i t v) /\
    (* which no exported entity has *)
    forall d, In (VDict d) (doc_list (inner_doc doc) "entities") -> dget "entity_number" d <> Some (VInt n).
Proof.
  intros R Hx Hi N He Ne NS V H. set (w1 := fst (step (ORemove b (OEnt i)) w)) in *.
  assert (R1 : reachable w1) by (apply reach_step; simpl; auto).
  destruct (p_C22_remove _ _ _ _ R Hx Hi) as [_ (D1 & D2 & D3 & D4)]. fold w1 in D1, D2, D3, D4.
  specialize (D1 _ Hx). set (x1 := b_set_objs _ x) in D1.
  destruct (In_nth_error _ _ Hi) as [ki Hki]. destruct (N _ _ Hki) as (ei & Hei & An).
  exists ei, (Z.of_nat ki + 1). split; auto. split; auto.
  destruct (p_C16_document _ _ _ _ R1 H) as (y & Hy & L & G). rewrite D1 in Hy. injection Hy as <-.
  specialize (G NS).
  assert (Hin : In e (b_objs x1)). { unfold x1. simpl. apply filter_In. split; auto. apply negb_true_iff, Nat.eqb_neq. auto. }
  split.
  - destruct (In_nth_error _ _ Hin) as [k Hk]. destruct (G _ _ Hk) as (v & Hv & (en & q & d & _ & _ & -> & _ & _ & _ & Pt)).
    destruct (Pt s col) as (l & Pl & Fl).
    assert (I' : In (s, col, i, t) (filter (seen_at s col) (flat_map (views e) (b_conns x1)))).
    { apply filter_In. split; [exact V|]. simpl. rewrite Z.eqb_refl, String.eqb_refl. auto. }
    exists d. assert (exists v, In v l /\ entry_of w1 (s, col, i, t) v) as (v & Hvl & Ev).
    { clear -Fl I'. induction Fl as [|o v os vs E F IH]; [destruct I'|]. destruct I' as [->|I']; [eauto using in_eq|].
      destruct (IH I') as (v' & ? & ?). exists v'. split; auto. right; auto. }
    exists v. split; [eapply nth_error_In; eauto|]. split; [eapply Permutation_in; [apply Permutation_sym; eauto|auto]|].
    simpl in Ev. destruct Ev as (fe & Hf & Ev). rewrite D3, Nat.eqb_refl, Hei in Hf. simpl in Hf. injection Hf as <-.
    exists ei. split; auto.
  - intros d Hd C. destruct (In_nth_error _ _ Hd) as [k Hk].
    assert (Hlt : (k < length (b_objs x1))%nat) by (rewrite <- L; apply nth_error_Some; congruence).
    destruct (nth_error (b_objs x1) k) as [j|] eqn:Hj; [|apply nth_error_None in Hj; lia].
    destruct (G _ _ Hj) as (v & Hv & (ej & q & d' & Hej & _ & -> & A & _)). rewrite Hk in Hv. injection Hv as <-.
    rewrite A in C. injection C as C. apply nth_error_In in Hj. unfold x1 in Hj. simpl in Hj. apply filter_In in Hj as [Hj Nj].
    apply negb_true_iff, Nat.eqb_neq in Nj. rewrite D3 in Hej. destruct (Nat.eqb_spec i j); [congruence|].
    destruct (In_nth_error _ _ Hj) as [kj Hkj]. destruct (N _ _ Hkj) as (ej' & Hej' & Aj).
    assert (ej' = ej) by congruence. subst ej'. rewrite C in Aj. injection Aj as Aj.
    assert (ki = kj) by lia. subst. congruence.
Qed.

(** ** loops between different sides make exports differ *)
Definition at_loop (e : nat) (c : conn) : Prop := c_from c = Some e /\ c_to c = Some e.
Definition keep (e : nat) (c d : conn) : Prop := d = c \/ (d = conn_flip c /\ ~ at_loop e c).
Lemma keep_refl e c : keep e c c. Proof. left; auto. Qed.
Lemma loop_flip e c : at_loop e (conn_flip c) <-> at_loop e c.
Proof. unfold at_loop, conn_flip. simpl. tauto. Qed.
Lemma keep_trans e a b c : keep e a b -> keep e b c -> keep e a c.
Proof.
  intros [->|[-> N]] [->|[-> N']]; unfold keep; rewrite ?flip_flip; auto.
Qed.
Lemma keep_turn e f c : f <> e -> keep e c (turn_towards f c).
Proof.
  intros N. unfold turn_towards, orientate. destruct (attached_to c f) eqn:A; [|left; auto].
  destruct (end_eqb _ _); [right|left]; auto. split; auto. intros [F T]. unfold attached_to in A. rewrite F, T in A. simpl in A.
  destruct (Nat.eqb_spec e f); simpl in A; congruence.
Qed.
Lemma Forall2_In_r {A B} (R : A -> B -> Prop) l m y : Forall2 R l m -> In y m -> exists x, In x l /\ R x y.
Proof.
  induction 1; intros I; [destruct I|]. destruct I as [->|I]; [eauto using in_eq|].
  destruct (IHForall2 I) as (z & ? & ?). exists z. split; auto. right; auto.
Qed.
Lemma Forall2_In_l {A B} (R : A -> B -> Prop) l m x : Forall2 R l m -> In x l -> exists y, In y m /\ R x y.
Proof.
  induction 1; intros I; [destruct I|]. destruct I as [->|I]; [eauto using in_eq|].
  destruct (IHForall2 I) as (z & ? & ?). exists z. split; auto. right; auto.
Qed.
Lemma mapMM_keep e l w w' vs : ~ In e l -> mapMM ent_json l w = (w', Ok vs) -> simr (keep e) w w'.
Proof.
  intros N H. assert (S : simr (keep e) w (fst (mapMM ent_json l w))); [|rewrite H in S; exact S].
  apply (simsr_mapMM _ (keep_refl e) (keep_trans e)). intros f Hf. apply simsr_ent_json; [apply keep_refl|apply keep_trans|].
  intros c. apply keep_turn. congruence.
Qed.
Lemma simr_conns R w w' b x x' : simr R w w' -> blu w b = Some x -> blu w' b = Some x' ->
  b_objs x' = b_objs x /\ Forall2 R (b_conns x) (b_conns x').
Proof.
  intros (_ & _ & B) Hx Hx'. specialize (B b). rewrite Hx, Hx' in B. destruct B as [B F]. split; auto.
  apply (f_equal b_objs) in B. exact B.
Qed.
Lemma simr_blu R w w' b x : simr R w w' -> blu w b = Some x -> exists x', blu w' b = Some x'.
Proof. intros (_ & _ & B) Hx. specialize (B b). rewrite Hx in B. destruct (blu w' b); [eauto|tauto]. Qed.
Lemma simr_ent R w w' i : simr R w w' -> ent w' i = ent w i.
Proof. intros (_ & E & _). unfold ent. congruence. Qed.
Lemma ent_json_turned i w w' v : ent_json i w = (w', Ok v) -> forall e b x, ent w i = Some e -> e_layer e = Some b ->
  blu w b = Some x -> w' = turned i b x w.
Proof.
  intros H e b x He Hl Hx. destruct (ent_json_ok _ _ _ _ H) as (e' & q & cs & d & He' & _ & _ & Hc & _).
  rewrite He in He'. injection He' as <-. rewrite (connections_to_json_eq _ _ _ _ _ He Hl Hx) in Hc. injection Hc as Hc _. auto.
Qed.
Lemma views_skew e c s col f t : In (s, col, f, t) (views e c) -> s <> t ->
  c = mkConn (Some e) (Some e) s t col.
Proof.
  destruct c as [[a|] [b|] fs ts cc]; simpl; try (intros []).
  unfold views. simpl. destruct (Nat.eqb_spec a e) as [->|], (Nat.eqb_spec b e) as [->|]; simpl; intros H N.
  - destruct H as [H|[H|[]]]; injection H as <- <- <- <-; congruence.
  - destruct H as [H|[]]; injection H as <- <- <- <-; congruence.
  - destruct H as [H|[]]; injection H as <- <- <- <-; congruence.
  - destruct H.
Qed.
Lemma p_C18_loop w b x c e en w1 d1 w2 d2 : reachable_plain w -> blu w b = Some x -> In c (b_conns x) -> skew_loop c ->
  c_from c = Some e -> In e (b_objs x) -> ent w e = Some en -> two_sided en ->
  bp_json b w = (w1, Ok d1) -> bp_json b w1 = (w2, Ok d2) -> d1 <> d2.
Proof.
  intros Rp Hx Hc [Lp Sk] Fe Ie He Ts H1 H2 EQ. pose proof (p_C14_distinct _ _ _ Rp Hx) as DW.
  assert (I : inv w) by (apply reach_inv, reachp_reach; auto).
  destruct (inv_owner _ I _ _ _ Hx Ie) as (en' & He' & Hl). rewrite He in He'. injection He' as <-.
  destruct (bp_json_entities _ _ _ _ H1) as (x' & Hx' & M1). rewrite Hx in Hx'. injection Hx' as <-.
  destruct (bp_json_entities _ _ _ _ H2) as (x1 & Hx1 & M2).
  assert (S01 : sim w w1) by (eapply mapMM_sims; [|exact M1]; apply sims_ent_json).
  destruct (simr_conns _ _ _ _ _ _ S01 Hx Hx1) as [O1 _]. rewrite O1 in M2.
  destruct (in_split _ _ Ie) as (l1 & l2 & El). rewrite El in M1, M2.
  assert (ND : NoDup (l1 ++ e :: l2)) by (rewrite <- El; eapply inv_nodup; eauto).
  apply NoDup_remove_2 in ND.
  assert (N1 : ~ In e l1) by (intros ?; apply ND, in_or_app; auto). assert (N2 : ~ In e l2) by (intros ?; apply ND, in_or_app; auto).
  destruct (mapMM_split _ _ _ _ _ _ _ M1) as (wa & wb & va & v & vb & A1 & A2 & A3 & A4).
  destruct (mapMM_split _ _ _ _ _ _ _ M2) as (wc & wd & vc & v' & vd & B1 & B2 & B3 & B4).
  assert (v = v').
  { rewrite EQ in A4. rewrite A4 in B4. pose proof (mapMM_length _ _ _ _ _ A1) as La. pose proof (mapMM_length _ _ _ _ _ B1) as Lb.
    assert (L : length va = length vc) by congruence. clear -B4 L. revert vc B4 L.
    induction va as [|y va IH]; destruct vc as [|y' vc]; simpl; intros B4 L; try discriminate; injection B4 as B4 B5; auto.
    eapply IH; eauto. }
  subst v'.
  pose proof (mapMM_keep _ _ _ _ _ N1 A1) as Ka. pose proof (mapMM_keep _ _ _ _ _ N2 A3) as Kb.
  pose proof (mapMM_keep _ _ _ _ _ N1 B1) as Kc.
  destruct (simr_blu _ _ _ _ _ Ka Hx) as [xa Hxa].
  assert (Hea : ent wa e = Some en) by (rewrite (simr_ent _ _ _ _ Ka); auto).
  pose proof (ent_json_turned _ _ _ _ A2 _ _ _ Hea Hl Hxa) as Eb.
  assert (Hxb : blu wb b = Some (b_set_conns (map (turn_towards e) (b_conns xa)) xa)).
  { subst wb. unfold turned. rewrite blu_upd, Nat.eqb_refl, Hxa. auto. }
  destruct (simr_blu _ _ _ _ _ Kc Hx1) as [xc Hxc].
  assert (Eab : ent w1 e = Some en) by (destruct S01 as (_ & E & _); unfold ent in *; congruence).
  assert (Hec : ent wc e = Some en) by (rewrite (simr_ent _ _ _ _ Kc); auto).
  destruct (ent_json_ok _ _ _ _ A2) as (e1 & q1 & cs1 & o1 & Q1 & _ & V1 & J1 & _ & _ & _ & C1).
  destruct (ent_json_ok _ _ _ _ B2) as (e2 & q2 & cs2 & o2 & Q2 & _ & V2 & J2 & _ & _ & _ & C2).
  assert (o2 = o1) by congruence. subst o2. assert (cs2 = cs1).
  { rewrite C1 in C2. unfold conn_field in C2. destruct cs1, cs2; congruence. }
  subst cs2.
  set (a := c_fs c) in *. set (z := c_ts c) in *. set (col := c_color c).
  assert (Ec : c = mkConn (Some e) (Some e) a z col).
  { unfold a, z, col. destruct c; simpl in *. congruence. }
  (* the loop is seen in the first export *)
  destruct (simr_conns _ _ _ _ _ _ Ka Hx Hxa) as [_ Fa].
  assert (Hca : In c (b_conns xa)).
  { destruct (Forall2_In_l _ _ _ _ Fa Hc) as (d & Hd & [->|[_ N]]); auto. exfalso. apply N. rewrite Ec. split; auto. }
  assert (Vin : In (a, col, e, z) (flat_map (views e) (b_conns xa))).
  { apply in_flat_map. exists c. split; auto. rewrite Ec. unfold views. simpl. rewrite Nat.eqb_refl. left; auto. }
  destruct (in_views_port _ _ _ _ _ _ _ _ _ _ _ Hea Hl Hxa J1 Vin) as (u & Hu & (ee & Hee & Eu)).
  rewrite Hea in Hee. injection Hee as <-.
  destruct Eu as [[_ Eu]|[Nt _]]; [|tauto].
  (* so the second export has it too *)
  destruct (p_C16_only _ _ _ _ _ _ _ _ _ _ Hec Hl Hxc J2 Hu) as (d & f & t & Hd & Vd & (fe & _ & Ef)).
  assert (t = z). { destruct Ef as [[_ Ef]|[_ Ef]]; rewrite Eu in Ef; [injection Ef as _ <-; auto|discriminate]. }
  subst t. pose proof (views_skew _ _ _ _ _ _ Vd Sk) as Dd.
  (* which was the opposite loop in the beginning *)
  destruct (simr_conns _ _ _ _ _ _ Kb Hxb Hx1) as [_ Fb]. destruct (simr_conns _ _ _ _ _ _ Kc Hx1 Hxc) as [_ Fc].
  destruct (Forall2_In_r _ _ _ _ Fc Hd) as (d' & Hd' & K1). assert (d' = d).
  { destruct K1 as [->|[-> N]]; auto. exfalso. apply N. apply loop_flip. rewrite Dd. split; auto. }
  subst d'. destruct (Forall2_In_r _ _ _ _ Fb Hd') as (d'' & Hd'' & K2). assert (d'' = d).
  { destruct K2 as [->|[-> N]]; auto. exfalso. apply N. apply loop_flip. rewrite Dd. split; auto. }
  subst d''. simpl in Hd''. apply in_map_iff in Hd'' as (g & Tg & Hg).
  assert (G : g = mkConn (Some e) (Some e) z a col).
  { assert (At : at_loop e g). { rewrite <- (loop_flip e g). destruct (turn_turn_eq e g) as [T|T]; rewrite Tg in T.
      - apply loop_flip. rewrite <- T, Dd. split; auto.
      - rewrite <- T, Dd. split; auto. }
    destruct At as [F T]. unfold turn_towards, attached_to, orientate in Tg. rewrite F, T in Tg. simpl in Tg. rewrite Nat.eqb_refl in Tg.
    simpl in Tg. rewrite Dd in Tg. destruct g as [gf gt gfs gts gc]. simpl in *. unfold conn_flip in Tg. simpl in Tg.
    injection Tg as _ _ -> -> ->. congruence. }
  destruct (Forall2_In_r _ _ _ _ Fa Hg) as (g' & Hg' & K3). assert (g' = g).
  { destruct K3 as [->|[-> N]]; auto. exfalso. apply N. apply loop_flip. rewrite G. split; auto. }
  subst g'. destruct (In_nth_error _ _ Hc) as [i Hi]. destruct (In_nth_error _ _ Hg') as [j Hj].
  destruct (Nat.eq_dec i j) as [->|Nij]; [|].
  - rewrite Hi in Hj. injection Hj as Hj. apply Sk. rewrite Ec, G in Hj. injection Hj as Hj. auto.
  - apply (DW i j c g Hi Hj Nij). rewrite Ec, G. unfold same_wire. simpl. auto.
Qed.
