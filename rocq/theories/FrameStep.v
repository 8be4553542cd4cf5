(** * Calls that have nothing to do with a blueprint leave it and its document alone: steps,
    histories and exports. *)
From Coq Require Import Lia Permutation.
From Verif Require Import Py Num Util Classes Mixins Entity World WorldFacts SetFacts Inv SpecWorld LayerProofs SpecFrame FrameProofs.

Lemma depends_old w b i : inv w -> depends w b i -> exists e, ent w i = Some e.
Proof.
  intros I (x & Hx & [H|[(c & Hc & Hi)|(s & Hs & Hi)]]).
  - destruct (inv_owner _ I _ _ _ Hx H) as (e & He & _). eauto.
  - eapply inv_conns; eauto.
  - eapply inv_scheds; eauto.
Qed.
Lemma depends_blu w w' b : blu w' b = blu w b -> forall i, depends w' b i <-> depends w b i.
Proof. intros E i. unfold depends. now rewrite E. Qed.

Section Step.
Context (w0 : world) (b : nat) (B : bp) (o : op).
Context (I : inv w0) (HB : blu w0 b = Some B) (FO : foreign w0 o b).
Let C := calls_blueprint w0 o.
Notation P := (PP w0 b B C).
Lemma CB : ~ C b. Proof. apply FO. Qed.
Lemma FL i : depends w0 b i -> exists e, ent w0 i = Some e. Proof. now apply depends_old. Qed.
Lemma P0 : P [] w0.
Proof.
  split; [|split; [|split; [|split]]]; auto; [|intros i []]. intros c x i Hc Hx Hi. split.
  - eapply FO; eauto. exists x; auto.
  - intros e He. destruct (inv_owner _ I _ _ _ Hx Hi) as (e' & He' & L). rewrite He in He'. injection He' as <-.
    rewrite L. intros Q; injection Q as ->. apply CB; auto.
Qed.
Lemma called i : calls_entity o i -> ~ depends w0 b i. Proof. apply FO. Qed.
End Step.

Lemma drop_fst {A} (x : world * res A) : fst (drop_res x) = fst x. Proof. destruct x; reflexivity. Qed.
Lemma home_not w0 b e : ~ at_home w0 e b -> forall en, ent w0 e = Some en -> e_layer en <> Some b.
Proof. intros H en He Hl. apply H. exists en. auto. Qed.
Ltac ent_op L K := let i := fresh "i" in
  intros L; apply K; [|left; match goal with e : entity |- _ => destruct e; reflexivity end].

Lemma step_PP w0 b B o : inv w0 -> blu w0 b = Some B -> foreign w0 o b -> PP w0 b B (calls_blueprint w0 o) [] (fst (step o w0)).
Proof.
  intros I HB FO. pose proof (P0 w0 b B o I HB FO) as P. pose proof (CB w0 b o FO) as NB.
  pose proof (called w0 b o FO) as NE. pose proof (FL w0 b I) as FL.
  destruct o; cbn [step]; rewrite ?drop_fst.
  - destruct P as (P1 & P2 & P3 & P4 & P5). split; [|split; [|split; [|split]]]; auto; [|cbn; intros ? ? ? []].
    cbn. rewrite blu_new. destruct (Nat.eqb_spec b (length (w_bps w0))); auto. exfalso. subst b. unfold blu in HB.
    assert (nth_error (w_bps w0) (length (w_bps w0)) <> None) by congruence. apply nth_error_Some in H. lia.
  - pose proof (PP_load w0 b B _ NB FL b0 doc [] w0 eq_refl P) as K. destruct (load b0 doc w0) as [[w1 d1] r1]. exact K.
  - unfold new_entity. rewrite mbind_fst.
    match goal with |- context [snd (?m w0)] => assert (E : fst (m w0) = w0) by (destruct layer; [|reflexivity];
      unfold mbind, get_bp, gets, ret; destruct (blu w0 n); reflexivity); destruct (snd (m w0)) as [cust|]; rewrite E; [|exact P] end.
    destruct (snd (construct _ _ _ _)) as [e|]; [|exact P]. cbn [fst].
    pose proof (F_old w0 b B _ FL _ _ P) as FN. destruct P as (P1 & P2 & P3 & P4 & P5).
    split; [|split; [|split; [|split]]]; auto; [|cbn; intros ? ? ? []|intros ? []].
    intros j Hj. rewrite ent_new. destruct (Nat.eqb_spec j (length (w_ents w0))); [subst; contradiction|auto].
  - exact (kf_make w0 b B _ NB FL b0 kw eq_refl _ _ P).
  - refine (kf_add w0 b B _ NB b0 o eq_refl _ _ _ P). intros i ->. apply NE. reflexivity.
  - destruct o as [i|]; [|exact P]. refine (kf_drop w0 b B _ NB b0 i eq_refl _ _ _ P). apply NE. reflexivity.
  - exact (kf_del_at w0 b B _ NB b0 pt eq_refl _ _ P).
  - unfold layer_at, mbind, get_bp, gets. destruct (blu w0 b0); exact P.
  - apply PP_connect; auto. now apply home_not.
  - apply PP_conns; auto. now apply home_not.
  - exact (kf_rotate w0 b B _ NB b0 amount around r eq_refl _ _ P).
  - refine (kf_rotate_ent w0 b B _ amount around r e _ _ _ P). apply NE; reflexivity.
  - refine (kf_rename w0 b B _ e v _ _ _ P). apply NE; reflexivity.
  - unfold set_position. refine (kf_bind w0 b B _ _ _ (kf_gets w0 b B _ _) (fun _ => kf_bind w0 b B _ _ _ (kf_gets w0 b B _ _) (fun q => kf_upd w0 b B _ e _ _ _)) _ _ P).
    + apply NE; reflexivity.
    + left. destruct e0; reflexivity.
  - unfold set_direction. refine (kf_bind w0 b B _ _ _ (kf_gets w0 b B _ _) (fun _ => kf_bind w0 b B _ _ _ (kf_gets w0 b B _ _) (fun q => kf_upd w0 b B _ e _ _ _)) _ _ P).
    + apply NE; reflexivity.
    + left. destruct e0; reflexivity.
  - destruct (assign_attr_form e k v w0) as [->|(x & a & _ & _ & ->)]; [exact P|].
    refine (PP_upd w0 b B _ _ e _ _ _ _ P); [apply NE; reflexivity|]. left. destruct e0; reflexivity.
  - destruct (assign_cb_form e k v w0) as [->|(x & cb & a & _ & _ & _ & ->)]; [exact P|].
    refine (PP_upd w0 b B _ _ e _ _ _ _ P); [apply NE; reflexivity|]. left. destruct e0; reflexivity.
  - unfold ent_set_mixins. refine (kf_bind w0 b B _ _ _ (kf_gets w0 b B _ _) (fun en => kf_bind w0 b B _ _ _ (kf_gets w0 b B _ _) (fun q => kf_upd w0 b B _ e _ _ _)) _ _ P).
    + apply NE; reflexivity.
    + left. destruct e0; reflexivity.
  - unfold ent_add_mixins. refine (kf_bind w0 b B _ _ _ (kf_gets w0 b B _ _) (fun en => kf_bind w0 b B _ _ _ (kf_gets w0 b B _ _) (fun q => kf_upd w0 b B _ e _ _ _)) _ _ P).
    + apply NE; reflexivity.
    + left. destruct e0; reflexivity.
  - unfold tiles_make. refine (kf_bind w0 b B _ _ _ (kf_gets w0 b B _ _) (fun _ => kf_bind w0 b B _ _ _ (kf_gets w0 b B _ _) (fun q => _)) _ _ P).
    unfold tiles_add. apply kf_bind; [apply kf_gets|]. intros. apply kf_raise.
  - unfold tiles_add. refine (kf_bind w0 b B _ _ _ (kf_gets w0 b B _ _) (fun _ => _) _ _ P). destruct t; apply kf_raise.
  - exact (kf_call w0 b B _ NB _ b0 k eq_refl _ _ P).
  - exact (kf_call w0 b B _ NB _ b0 k eq_refl _ _ P).
  - exact (kf_label w0 b B _ NB b0 label c eq_refl _ _ P).
  - exact (kf_recenter w0 b B _ b0 around eq_refl _ _ P).
  - exact (kf_bp_json w0 b B _ b0 eq_refl _ _ P).
  - apply PP_ent_json; auto. now apply home_not.
  - exact (kf_sort w0 b B _ NB b0 eq_refl _ _ P).
  - exfalso. apply (proj1 FO). exact Logic.I.
  - exfalso. apply (proj1 FO). exact Logic.I.
Qed.

(** ** The document depends on nothing else *)
Section Export.
Context (b : nat) (F : nat -> Prop) (O : list nat).
Definition closed (x : bp) : Prop :=
  b_objs x = O /\ (forall c i, In c (b_conns x) -> wire_end c i -> F i) /\ (forall s i, In s (b_scheds x) -> In i (fst s) -> F i).
Definition RR (w w' : world) : Prop :=
  w_protos w = w_protos w' /\ (forall i, F i -> ent w i = ent w' i) /\
  (forall i, In i O -> F i /\ exists e, ent w i = Some e /\ e_layer e = Some b) /\
  exists x, blu w b = Some x /\ blu w' b = Some x /\ closed x.
Definition rl {A} (m : M A) : Prop := forall w w', RR w w' -> RR (fst (m w)) (fst (m w')) /\ snd (m w) = snd (m w').
Lemma rl_ret {A} (a : A) : rl (ret a). Proof. intros w w' H; split; auto. Qed.
Lemma rl_gets {A} (f : world -> res A) : (forall w w', RR w w' -> f w = f w') -> rl (gets f).
Proof. intros H w w' R. cbn. auto. Qed.
Lemma rl_bind {A D} (m : M A) (k : A -> M D) : rl m -> (forall a, rl (k a)) -> rl (mbind m k).
Proof.
  intros H K w w' R. destruct (H _ _ R) as [H1 H2]. unfold mbind.
  destruct (m w) as [w1 r1], (m w') as [w2 r2]. cbn in *. subst r2. destruct r1; auto. now apply K.
Qed.
Lemma rl_get_bp {D} (k : bp -> M D) : (forall x, closed x -> rl (k x)) -> rl (do x <- get_bp b; k x).
Proof.
  intros K w w' R. pose proof R as (_ & _ & _ & x & E1 & E2 & Cx). unfold mbind, get_bp, gets. rewrite E1, E2. now apply K.
Qed.
Lemma rl_mapMM {X Y} (f : X -> M Y) l : (forall x, In x l -> rl (f x)) -> rl (mapMM f l).
Proof.
  intros H. induction l as [|x r IH]; cbn; [apply rl_ret|].
  apply rl_bind; [apply H; left; auto|]. intros y. apply rl_bind; [apply IH; intros; apply H; right; auto|]. intros. apply rl_ret.
Qed.
Lemma turn_end e c i : wire_end (turn_towards e c) i -> wire_end c i.
Proof.
  unfold wire_end, turn_towards. destruct (attached_to c e); auto. unfold orientate. destruct (end_eqb _ _); auto.
  destruct c; cbn. tauto.
Qed.
Lemma conn_key_rl w w' c : RR w w' -> (forall i, wire_end c i -> F i) -> conn_key w c = conn_key w' c.
Proof.
  intros (_ & E & _) H. unfold conn_key, end_auto. unfold wire_end in H.
  destruct (c_from c) as [i|], (c_to c) as [j|]; rewrite ?(E i), ?(E j); auto.
Qed.
Lemma RR_conns w w' x : RR w w' -> blu w b = Some x -> forall cs, (forall c i, In c cs -> wire_end c i -> F i) ->
  RR (upd_bp b (b_set_conns cs) w) (upd_bp b (b_set_conns cs) w').
Proof.
  intros (E1 & E2 & E3 & y & Y1 & Y2 & C1 & C2 & C3) Hx cs H. split; [|split; [|split]]; auto.
  exists (b_set_conns cs y). rewrite !blu_upd, Nat.eqb_refl, Y1, Y2. split; [|split]; auto. destruct y; repeat split; auto.
Qed.
(** attached wires of a listed entity, and the same result in both states *)
Lemma gc_rl i : In i O -> forall w w', RR w w' -> RR (fst (get_connections i w)) (fst (get_connections i w')) /\
  snd (get_connections i w) = snd (get_connections i w') /\
  (forall cs c j, snd (get_connections i w) = Ok cs -> In c cs -> wire_end c j -> F j).
Proof.
  intros Hi w w' R. pose proof R as (E1 & E2 & E3 & x & X1 & X2 & C1 & C2 & C3).
  destruct (E3 _ Hi) as (Fi & e & He & Le). assert (He' : ent w' i = Some e) by (rewrite <- E2; auto).
  unfold get_connections, mbind, get_ent, gets. rewrite He, He'. rewrite Le. cbv zeta. unfold get_bp, gets, modify. rewrite X1, X2. cbn [fst snd].
  set (cs := map (turn_towards i) (b_conns x)).
  assert (HF : forall c j, In c cs -> wire_end c j -> F j).
  { intros c j Hc Hj. apply in_map_iff in Hc as (d & <- & Hd). apply turn_end in Hj. eauto. }
  assert (R' := RR_conns _ _ _ R X1 cs HF). split; [exact R'|]. split.
  - f_equal. set (W := upd_bp b (b_set_conns cs) w) in *. set (W' := upd_bp b (b_set_conns cs) w') in *.
    rewrite (mapM_ext _ (fun c => let! k := conn_key W' c in Ok (k, c))); auto. intros c Hc. apply filter_In in Hc as [Hc _].
    rewrite (conn_key_rl W W'); auto. intros j. now apply HF.
  - intros l c j H Hc Hj.
    destruct (mapM (fun c0 => let! k := conn_key (upd_bp b (b_set_conns cs) w) c0 in Ok (k, c0)) (filter (fun c0 => attached_to c0 i) cs)) as [ks|] eqn:EM; [|discriminate].
    cbn in H. unfold sorted_conns in H. destruct (existsb _ _); [discriminate|]. destruct (negb _); [discriminate|]. injection H as <-.
    apply in_map_iff in Hc as ((k & c0) & <- & Hk). cbn in Hj.
    assert (Hk' : In (k, c0) ks) by (eapply Permutation_in; [symmetry; apply isort_perm|exact Hk]).
    apply mapM_ok in EM. assert (In c0 cs); [|eauto]. clear -EM Hk'.
    assert (In c0 (filter (fun c0 => attached_to c0 i) cs)); [|apply filter_In in H; tauto].
    induction EM as [|c ks0 l r Q QS IH]; [destruct Hk'|]. destruct Hk' as [->|Hk']; [|right; auto]. left.
    destruct (conn_key _ c); [|discriminate]. cbn in Q. congruence.
Qed.
Lemma conns_json_rl w w' self l : RR w w' -> (forall c j, In c l -> wire_end c j -> F j) ->
  forall o, conns_json w self l o = conns_json w' self l o.
Proof.
  intros R. pose proof R as (_ & E & _). induction l as [|c r IH]; intros H o; cbn; auto.
  assert (Q : conn_json1 w self o c = conn_json1 w' self o c).
  { unfold conn_json1. destruct (c_to c) as [t|] eqn:T; auto. rewrite (E t); auto. eapply H; [left; reflexivity|right; auto]. }
  rewrite Q. destruct (conn_json1 w' self o c); cbn; auto. apply IH. intros; eapply H; [right|]; eauto.
Qed.
Lemma ctj_rl i : In i O -> rl (connections_to_json i).
Proof.
  intros Hi w w' R. destruct (gc_rl i Hi w w' R) as (G1 & G2 & G3).
  unfold connections_to_json, mbind, gets. destruct (get_connections i w) as [w1 r1], (get_connections i w') as [w2 r2].
  cbn [fst snd] in *. subst r2. destruct r1 as [cs|]; [|split; auto].
  assert (Q := conns_json_rl w1 w2 i cs G1 (fun c j => G3 cs c j eq_refl) []). rewrite <- Q. split; auto.
Qed.
Lemma ent_json_rl i : In i O -> rl (ent_json i).
Proof.
  intros Hi. unfold ent_json. apply rl_bind.
  { apply rl_gets. intros w w' (_ & E2 & E3 & _). rewrite (E2 i); auto. now apply E3. }
  intros e. destruct (e_pos e); [|intros w w' R; split; auto]. cbv zeta. apply rl_bind; [now apply ctj_rl|].
  intros cs. apply rl_gets. intros w w' (E & _). now rewrite E.
Qed.
Lemma bp_json_rl : rl (bp_json b).
Proof.
  unfold bp_json. apply rl_get_bp. intros x (C1 & C2 & C3). cbv zeta. apply rl_bind.
  { unfold layer_json. apply rl_get_bp. intros y (D1 & D2 & D3). apply rl_bind; [|intros; apply rl_ret].
    apply rl_mapMM. rewrite D1. apply ent_json_rl. }
  intros es. apply rl_bind.
  { apply rl_gets. intros w w' (E & _). now rewrite E. }
  intros ic. apply rl_bind; [|intros; apply rl_ret]. apply rl_gets. intros w w' (_ & E & _). apply mapM_ext. intros s Hs.
  unfold sched_json. f_equal. apply mapM_ext. intros i Hi. rewrite (E i); auto. eapply C3; eauto.
Qed.
Lemma at_list_rl w w' pt l : RR w w' -> incl l O -> at_list w pt l = at_list w' pt l.
Proof.
  intros R H. pose proof R as (EP & E & EO & _). induction l as [|i r IH]; cbn; auto.
  rewrite <- (E i) by (apply EO; apply H; left; auto). destruct (ent w i); auto. rewrite EP, IH; auto.
  intros j Hj; apply H; right; auto.
Qed.
Lemma layer_at_rl pt : rl (layer_at b pt).
Proof.
  unfold layer_at. apply rl_get_bp. intros x (C1 & _). apply rl_gets. intros w w' R. apply at_list_rl; auto.
  rewrite C1. apply incl_refl.
Qed.
Lemma max_rl : rl (maximum_values b).
Proof.
  unfold maximum_values. apply rl_get_bp. intros x (C1 & _). apply rl_gets. intros w w' R.
  pose proof R as (EP & E & EO & _). replace (layer_ents w' x) with (layer_ents w x); [now rewrite EP|].
  unfold layer_ents. apply mapM_ext. intros i Hi. rewrite (E i); auto. apply EO. congruence.
Qed.
End Export.

Lemma PP_RR w0 b B C w : inv w0 -> blu w0 b = Some B -> PP w0 b B C [] w -> RR b (depends w0 b) (b_objs B) w0 w.
Proof.
  intros I HB (P1 & P2 & P3 & _). split; [|split; [|split]]; auto.
  - intros i Hi. now rewrite P3.
  - intros i Hi. split; [exists B; auto|]. eapply inv_owner; eauto.
  - exists B. split; [|split]; auto. split; [|split]; auto.
    + intros c i Hc Hi. exists B. eauto 6.
    + intros s i Hs Hi. exists B. eauto 6.
Qed.

Lemma p_C54_step w b o : reachable w -> blu w b <> None -> foreign w o b -> undisturbed w (fst (step o w)) b.
Proof.
  intros R HB FO. apply reach_inv in R as I. destruct (blu w b) as [B|] eqn:Hx; [|congruence].
  pose proof (step_PP w b B o I Hx FO) as P. pose proof (PP_RR _ _ _ _ _ I Hx P) as Q.
  destruct P as (P1 & P2 & P3 & _). split; [congruence|]. split; [exact P3|]. split; [|split].
  - symmetry. now apply (bp_json_rl b _ _ _ _ Q).
  - intros pt. symmetry. now apply (layer_at_rl b _ _ pt _ _ Q).
  - symmetry. now apply (max_rl b _ _ _ _ Q).
Qed.

Lemma undisturbed_trans a m c b : undisturbed a m b -> undisturbed m c b -> undisturbed a c b.
Proof.
  intros (A1 & A2 & A3 & A4 & A5) (B1 & B2 & B3 & B4 & B5). split; [congruence|]. split; [|split; [congruence|split; [|congruence]]].
  - intros i Hi. rewrite B2; auto. apply (depends_blu a m); auto.
  - intros pt. now rewrite B4.
Qed.
Lemma p_C54_history b ops : forall w, reachable w -> blu w b <> None -> foreign_history b ops w -> undisturbed w (run ops w) b.
Proof.
  induction ops as [|o r IH]; intros w R HB H; cbn.
  - repeat split; auto.
  - inversion H as [|? ? ? OK FO H1]; subst. pose proof (p_C54_step w b o R HB FO) as U. eapply undisturbed_trans; [exact U|].
    apply IH; auto.
    + now constructor.
    + destruct U as (-> & _). exact HB.
Qed.
Lemma p_C54_self w b o : reachable w -> self_contained w b -> ~ sets_prototypes o -> ~ calls_blueprint w o b ->
  (forall i, calls_entity o i -> ~ listed w b i) -> foreign w o b.
Proof.
  intros R S NP NB NE. apply reach_inv in R as I. split; [|split; [|split]]; auto.
  - intros i Hi D. apply (NE i Hi). auto.
  - intros c i Hc (x & Hx & Hi) D. apply S in D as (y & Hy & Hj).
    destruct (inv_owner _ I _ _ _ Hx Hi) as (e & He & L). destruct (inv_owner _ I _ _ _ Hy Hj) as (e' & He' & L').
    rewrite He in He'. injection He' as <-. rewrite L in L'. injection L' as ->. auto.
Qed.
Lemma p_C54_stays w w' b : undisturbed w w' b -> self_contained w b -> self_contained w' b.
Proof.
  intros (E & _) S i Hi. apply (depends_blu _ _ _ E) in Hi. apply S in Hi as (x & Hx & Hi). exists x. split; congruence.
Qed.
