(** * Proofs about the wires read from documents: C17, C48. *)
From Coq Require Import Lia Permutation Sorted.
From Verif Require Import Py Num NumFacts Util SpecUtil UtilFacts Classes Mixins Entity World WorldFacts
  Inv SortFacts SpecWorld LayerProofs PersistProofs WireProofs ExportProofs.
Open Scope Z_scope.

(** ** what a loop over documents collects *)
Definition adds (S : conn -> Prop) (acc acc' : list conn) : Prop :=
  (forall c, In c acc -> In c acc') /\
  (forall c, In c acc' -> In c acc \/ S c) /\
  (forall n, S n -> exists c, In c acc' /\ same_wire c n).
Lemma adds_none acc : adds (fun _ => False) acc acc.
Proof. split; [auto|split; [auto|tauto]]. Qed.
Lemma adds_ext S S' acc acc' : (forall n, S n <-> S' n) -> adds S acc acc' -> adds S' acc acc'.
Proof.
  intros E (A & B & C). split; auto. split.
  - intros c Hc. destruct (B c Hc); auto. right. apply E; auto.
  - intros n Hn. apply C, E, Hn.
Qed.
Lemma foldE_adds {X} (f : list conn -> X -> list conn * res unit) (S : X -> conn -> Prop) l :
  (forall x acc acc', In x l -> f acc x = (acc', Ok tt) -> adds (S x) acc acc') ->
  forall acc acc', foldE f l acc = (acc', Ok tt) -> adds (fun n => exists x, In x l /\ S x n) acc acc'.
Proof.
  induction l as [|x r IH]; simpl; intros H acc acc' E.
  - injection E as <-. eapply adds_ext; [|apply adds_none]. split; [tauto|]. intros (y & [] & _).
  - destruct (f acc x) as [a [[]|e]] eqn:F; [|discriminate].
    destruct (H x acc a (or_introl eq_refl) F) as (A1 & B1 & C1).
    destruct (IH (fun y b b' Hy => H y b b' (or_intror Hy)) _ _ E) as (A2 & B2 & C2).
    split; [auto|]. split.
    + intros c Hc. destruct (B2 c Hc) as [Hc'|(y & Hy & Sy)]; [|right; exists y; auto].
      destruct (B1 c Hc'); auto. right. exists x. auto.
    + intros n (y & [->|Hy] & Sy); [|apply C2; eauto].
      destruct (C1 n Sy) as (c & Hc & W). exists c. auto.
Qed.
Lemma parse_one_adds w b i sk ck acc v acc' : parse_one w b i sk ck acc v = (acc', Ok tt) ->
  exists col, ck = KS col /\ adds (entry_denotes w b i sk col v) acc acc' /\ exists n, entry_denotes w b i sk col v n.
Proof.
  unfold parse_one. intros H. destruct (getitem v "entity_id") as [id|] eqn:G; [|discriminate]. simpl in H.
  destruct v; try discriminate. simpl in G, H. destruct (dget "entity_id" d) as [id'|] eqn:D; [|discriminate]. injection G as ->.
  destruct ck as [col|]; [|discriminate]. simpl in H. exists col. split; auto. unfold conn_new in H.
  destruct (py_int (val_of_key sk)) as [s|] eqn:Ps; [|discriminate]. simpl in H.
  destruct (py_int (odflt (VStr "1") (dget "circuit_id" d))) as [t|] eqn:Pt; [|discriminate]. simpl in H.
  injection H as H. set (n := mkConn (Some i) (get_entity_by_id w b id) s t col) in *.
  assert (En : entry_denotes w b i sk col (VDict d) n).
  { exists d, id, s, t. auto. }
  assert (U : forall m, entry_denotes w b i sk col (VDict d) m -> m = n).
  { intros m (d' & id' & s' & t' & Ed & A & B & C & ->). injection Ed as <-. unfold n. congruence. }
  split; [|eauto]. destruct (existsb (fun d0 => conn_eqb n d0) acc) eqn:E.
  - subst acc'. split; [auto|split; [auto|]]. intros m Hm. rewrite (U m Hm). apply existsb_wire in E as (c & Hc & W).
    exists c. split; auto. apply same_wire_sym; auto.
  - subst acc'. split; [intros; apply in_or_app; auto|]. split.
    + intros c Hc. apply in_app_or in Hc as [Hc|[<-|[]]]; auto.
    + intros m Hm. rewrite (U m Hm). exists n. split; [apply in_or_app; simpl; auto|apply same_wire_refl].
Qed.
Lemma parse_color_adds w b i sk acc kv acc' : parse_color w b i sk acc kv = (acc', Ok tt) ->
  adds (fun n => exists col l v, kv = (KS col, VList l) /\ In v l /\ entry_denotes w b i sk col v n) acc acc'.
Proof.
  unfold parse_color. destruct kv as [ck lv]. simpl. intros H. destruct (iter_val lv) as [l|] eqn:I; [|discriminate].
  assert (K : forall v a a', In v l -> parse_one w b i sk ck a v = (a', Ok tt) ->
              adds (fun n => exists col, ck = KS col /\ entry_denotes w b i sk col v n) a a').
  { intros v a a' _ P. destruct (parse_one_adds _ _ _ _ _ _ _ _ P) as (col & -> & A & _). eapply adds_ext; [|exact A].
    intros n. split; [eauto|]. intros (c & [= <-] & E). auto. }
  pose proof (foldE_adds _ _ l K _ _ H) as A.
  destruct lv; try discriminate; simpl in I; injection I as <-.
  - eapply adds_ext; [|exact A]. intros n. split.
    + intros (v & Hv & col & -> & E). exists col, l0, v. auto.
    + intros (col & l' & v & [= -> <-] & Hv & E). exists v. split; auto. exists col. auto.
  - (* a dictionary yields its keys, which are no entries *)
    eapply adds_ext; [|exact A]. intros n. split.
    + intros (v & Hv & col & _ & (d' & _ & _ & _ & -> & _)). apply in_map_iff in Hv as ([[]] & E & _); discriminate.
    + intros (col & l' & v & [= ] & _).
Qed.
Lemma parse_side_adds w b i acc kv acc' : parse_side w b i acc kv = (acc', Ok tt) ->
  adds (fun n => exists cols col l v, snd kv = VDict cols /\ In (KS col, VList l) cols /\ In v l /\
                   entry_denotes w b i (fst kv) col v n) acc acc'.
Proof.
  unfold parse_side. destruct kv as [sk cv]. simpl. intros H. destruct cv; try discriminate. simpl in H.
  assert (K : forall kv a a', In kv d -> parse_color w b i sk a kv = (a', Ok tt) -> _)
    by (intros kv a a' _ P; exact (parse_color_adds _ _ _ _ _ _ _ P)).
  pose proof (foldE_adds _ _ d K _ _ H) as A. eapply adds_ext; [|exact A]. intros n. split.
  - intros (kv & Hkv & col & l & v & -> & Hv & E). exists d, col, l, v. auto.
  - intros (cols & col & l & v & [= <-] & Hc & Hv & E). exists (KS col, VList l). split; auto. exists col, l, v. auto.
Qed.
Lemma parse_entity_adds w b acc i acc' : parse_entity w b acc i = (acc', Ok tt) ->
  adds (fun n => exists e sk col v, ent w i = Some e /\ raw_entry e sk (KS col) v /\ entry_denotes w b i sk col v n) acc acc'.
Proof.
  unfold parse_entity. intros H. destruct (ent w i) as [e|] eqn:He; [|discriminate].
  destruct (e_raw e) eqn:Hr; try discriminate; simpl in H.
  - injection H as <-. eapply adds_ext; [|apply adds_none]. intros n. split; [tauto|].
    intros (e' & sk & col & v & He' & (raw & cols & l & R & _) & _). congruence.
  - assert (K : forall kv a a', In kv d -> parse_side w b i a kv = (a', Ok tt) -> _)
      by (intros kv a a' _ P; exact (parse_side_adds _ _ _ _ _ _ P)).
    pose proof (foldE_adds _ _ d K _ _ H) as A. eapply adds_ext; [|exact A]. intros n. split.
    + intros ([sk cv] & Hkv & cols & col & l & v & Hc & Hl & Hv & E). simpl in *. subst cv.
      exists e, sk, col, v. split; auto. split; auto. exists d, cols, l. auto.
    + intros (e' & sk & col & v & He' & (raw & cols & l & R & Hs & Hc & Hv) & E).
      injection He' as <-. rewrite Hr in R. injection R as <-.
      exists (sk, VDict cols). split; auto. exists cols, col, l, v. auto.
Qed.
Lemma parse_all w b x cs : blu w b = Some x -> foldE (parse_entity w b) (b_objs x) [] = (cs, Ok tt) ->
  (forall c, In c cs -> mentions w b c) /\ (forall n, mentions w b n -> exists c, In c cs /\ same_wire c n).
Proof.
  intros Hx H.
  assert (K : forall i a a', In i (b_objs x) -> parse_entity w b a i = (a', Ok tt) -> _)
    by (intros i a a' _ P; exact (parse_entity_adds _ _ _ _ _ P)).
  destruct (foldE_adds _ _ _ K _ _ H) as (_ & A & B). split.
  - intros c Hc. destruct (A c Hc) as [[]|(i & Hi & e & sk & col & v & He & R & E)]. exists x, i, e, sk, col, v. auto 10.
  - intros n (y & i & e & sk & col & v & Hy & Hi & He & R & E). rewrite Hx in Hy. injection Hy as <-.
    apply B. exists i. split; auto. exists e, sk, col, v. auto.
Qed.

(** ** the second half of parse_connections: every wire gets its ends looked at *)
Lemma forM_ok {X} (f : X -> M unit) l : forall w w', forM f l w = (w', Ok tt) -> forall x, In x l ->
  exists w1 w2, f x w1 = (w2, Ok tt) /\ exists l1, forM f l1 w = (w1, Ok tt) /\ (exists l2, l = l1 ++ x :: l2).
Proof.
  unfold forM. induction l as [|y r IH]; simpl; intros w w' H x Hx; [destruct Hx|].
  destruct (f y w) as [wy [[]|e]] eqn:E; [|discriminate]. destruct Hx as [->|Hx].
  - exists w, wy. split; auto. exists []. simpl. split; auto. exists r; auto.
  - destruct (IH _ _ H x Hx) as (w1 & w2 & F & l1 & G & l2 & ->). exists w1, w2. split; auto.
    exists (y :: l1). simpl. rewrite E. split; auto. exists l2. auto.
Qed.
Lemma sims_forM_conn l : sims (forM (fun i => do _ <- get_connections i; ret tt) l).
Proof.
  induction l as [|i r IH]; intros w; unfold forM in *; simpl; [apply sim_refl|].
  pose proof (sim_get_connections i w) as S. unfold mbind. destruct (get_connections i w) as [w1 [a|e]]; simpl in *; auto.
  eapply sim_trans; [exact S|]. apply (IH w1).
Qed.
Lemma turn_same c d : turn_eq c d -> same_wire c d.
Proof. intros [->| ->]; [apply same_wire_refl|apply same_wire_sym, same_wire_flip]. Qed.
Lemma mentions_ents w w' b n : w_ents w' = w_ents w -> objs_of w' b = objs_of w b -> mentions w b n -> mentions w' b n.
Proof.
  intros E O (x & i & e & sk & col & v & Hx & Hi & He & R & D). unfold objs_of in O. rewrite Hx in O.
  destruct (blu w' b) as [x'|] eqn:Hx'; [|discriminate]. injection O as O.
  exists x', i, e, sk, col, v. split; auto. split; [rewrite O; auto|]. split; [unfold ent in *; congruence|]. split; auto.
  destruct D as (d & id & s & t & -> & A & B & C & ->). exists d, id, s, t. split; auto. repeat (split; [auto|]). f_equal.
  unfold get_entity_by_id. rewrite Hx, Hx', O. clear -E. induction (b_objs x) as [|j r IH]; simpl; auto.
  assert (Ej : ent w' j = ent w j) by (unfold ent; congruence). rewrite Ej, IH. auto.
Qed.
Lemma parse_connections_ok w b x w' : inv w -> blu w b = Some x -> parse_connections b w = (w', Ok tt) ->
  exists x', blu w' b = Some x' /\ b_objs x' = b_objs x /\ w_ents w' = w_ents w /\
  (forall n, mentions w b n -> exists c, In c (b_conns x') /\ same_wire c n) /\
  (forall c, In c (b_conns x') -> exists n, mentions w b n /\ same_wire c n) /\
  (forall n, mentions w b n -> c_to n <> None).
Proof.
  intros I Hx H. unfold parse_connections in H. apply mbind_ok in H as (y & w0 & H0 & H).
  unfold get_bp, gets in H0. rewrite Hx in H0. injection H0 as <- <-.
  apply mbind_ok in H as ([] & w1 & H1 & H).
  destruct (foldE (parse_entity w b) (b_objs x) []) as [cs r] eqn:P. injection H1 as <- ->.
  destruct (parse_all _ _ _ _ Hx P) as [PA PB]. set (w1 := upd_bp b (b_set_conns cs) w) in *.
  assert (Hx1 : blu w1 b = Some (b_set_conns cs x)) by (unfold w1; rewrite blu_upd, Nat.eqb_refl, Hx; auto).
  assert (S : sim w1 w').
  { pose proof (sims_forM_conn (b_objs x) w1) as S. rewrite H in S. exact S. }
  destruct (simr_blu _ _ _ _ _ S Hx1) as [x' Hx']. destruct (simr_conns _ _ _ _ _ _ S Hx1 Hx') as [O F]. simpl in O, F.
  exists x'. split; auto. split; auto. split; [destruct S as (_ & E & _); exact E|].
  split; [|split].
  - intros n Hn. destruct (PB n Hn) as (c & Hc & W). destruct (Forall2_In_l _ _ _ _ F Hc) as (d & Hd & T). exists d. split; auto.
    eapply same_wire_trans; [apply same_wire_sym, turn_same, T|exact W].
  - intros d Hd. destruct (Forall2_In_r _ _ _ _ F Hd) as (c & Hc & T). exists c. split; auto. apply same_wire_sym, turn_same, T.
  - intros n Hn Nn. destruct (PB n Hn) as (c & Hc & W).
    pose proof Hn as (x0 & i & e & sk & col & v & Hx0 & Hi & He & _ & (d & id & s & t & _ & _ & _ & _ & En)).
    rewrite Hx in Hx0. injection Hx0 as <-.
    destruct (forM_ok _ _ _ _ H i Hi) as (wa & wb & G & l1 & Gl & _).
    assert (Sa : sim w1 wa). { pose proof (sims_forM_conn l1 w1) as Sa. rewrite Gl in Sa. exact Sa. }
    destruct (simr_blu _ _ _ _ _ Sa Hx1) as [xa Hxa]. destruct (simr_conns _ _ _ _ _ _ Sa Hx1 Hxa) as [_ Fa]. simpl in Fa.
    destruct (Forall2_In_l _ _ _ _ Fa Hc) as (ca & Hca & Ta).
    destruct (inv_owner _ I _ _ _ Hx Hi) as (e' & He' & Hl). rewrite He in He'. injection He' as <-.
    assert (Hea : ent wa i = Some e) by (rewrite (simr_ent _ _ _ _ Sa); auto).
    unfold mbind in G. rewrite (get_connections_eq _ _ _ _ _ Hea Hl Hxa) in G.
    destruct (my_wires wa i (b_conns xa)) as [mw|] eqn:Mw; [|discriminate].
    assert (Wa : same_wire ca n) by (eapply same_wire_trans; [apply same_wire_sym, turn_same, Ta|exact W]).
    assert (At : attached_to ca i = true).
    { subst n. simpl in Nn. unfold same_wire, ends in Wa. simpl in Wa. unfold attached_to.
      destruct Wa as [_ [Wa|Wa]]; injection Wa as W1 W2 W3 W4; rewrite ?W1, ?W3; simpl; rewrite ?Nat.eqb_refl, ?orb_true_r; auto. }
    assert (In (turn_towards i ca) (mine i (b_conns xa))) as Hm.
    { unfold mine. apply in_map, filter_In. auto. }
    apply (Permutation_in _ (my_wires_perm _ _ _ _ Mw)) in Hm.
    destruct (my_wires_ends _ _ _ _ Mw _ Hca At) as (p & q & _ & _ & Ef & Et & _).
    unfold same_wire, ends in Wa. rewrite Ef, Et, Nn in Wa. simpl in Wa. destruct Wa as [_ [Wa|Wa]]; congruence.
Qed.
Lemma parse_connections_distinct w b x w' x' : inv w -> blu w b = Some x -> parse_connections b w = (w', Ok tt) ->
  blu w' b = Some x' -> distinct_wires (b_conns x').
Proof.
  intros I Hx H Hx'. unfold parse_connections in H. apply mbind_ok in H as (y & w0 & H0 & H).
  unfold get_bp, gets in H0. rewrite Hx in H0. injection H0 as <- <-.
  apply mbind_ok in H as ([] & w1 & H1 & H).
  pose proof (parse_conns_fine w b (b_objs x) I) as PF.
  destruct (foldE (parse_entity w b) (b_objs x) []) as [cs r] eqn:P. injection H1 as <- ->. simpl in PF.
  assert (PL : forall i, In i (b_objs x) -> exists e, ent w i = Some e)
    by (intros i Hi; destruct (inv_owner _ I _ _ _ Hx Hi) as (e & He & _); eauto).
  destruct (PF PL) as [D _].
  set (w1 := upd_bp b (b_set_conns cs) w) in *.
  assert (Hx1 : blu w1 b = Some (b_set_conns cs x)) by (unfold w1; rewrite blu_upd, Nat.eqb_refl, Hx; auto).
  assert (S : sim w1 w'). { pose proof (sims_forM_conn (b_objs x) w1) as S. rewrite H in S. exact S. }
  destruct (simr_conns _ _ _ _ _ _ S Hx1 Hx') as [_ F]. simpl in F.
  intros i j a c Ha Hc N W.
  assert (G : forall i a, nth_error (b_conns x') i = Some a -> exists a0, nth_error cs i = Some a0 /\ same_wire a a0).
  { clear -F. induction F as [|p q ps qs T F IH]; intros i a Ha; [destruct i; discriminate|]. destruct i; simpl in *.
    - injection Ha as <-. exists p. split; auto. apply same_wire_sym, turn_same, T.
    - auto. }
  destruct (G _ _ Ha) as (a0 & Ha0 & Wa). destruct (G _ _ Hc) as (c0 & Hc0 & Wc).
  apply (D i j a0 c0 Ha0 Hc0 N). eapply same_wire_trans; [apply same_wire_sym, Wa|]. exact (same_wire_trans _ _ _ W Wc).
Qed.
(** what comes after parse_connections leaves entities, layer and wires alone *)
Definition rest_same (b : nat) (w w' : world) : Prop :=
  w_protos w' = w_protos w /\ w_ents w' = w_ents w /\
  forall x, blu w b = Some x -> exists x', blu w' b = Some x' /\ b_objs x' = b_objs x /\ b_conns x' = b_conns x /\
    b_icons x' = b_icons x /\ b_label x' = b_label x /\ b_item x' = b_item x /\ b_version x' = b_version x /\
    b_label_color x' = b_label_color x.
Lemma rest_refl b w : rest_same b w w.
Proof. split; [auto|split; auto]. intros x Hx. exists x. auto 10. Qed.
Lemma rest_trans b w1 w2 w3 : rest_same b w1 w2 -> rest_same b w2 w3 -> rest_same b w1 w3.
Proof.
  intros (A & B & C) (A' & B' & C'). split; [congruence|split; [congruence|]]. intros x Hx.
  destruct (C x Hx) as (y & Hy & Y1 & Y2 & Y3 & Y4 & Y5 & Y6 & Y7).
  destruct (C' y Hy) as (z & Hz & Z1 & Z2 & Z3 & Z4 & Z5 & Z6 & Z7). exists z. split; auto.
  repeat split; congruence.
Qed.
Lemma rest_upd b f w : (forall x, b_objs (f x) = b_objs x /\ b_conns (f x) = b_conns x /\
    b_icons (f x) = b_icons x /\ b_label (f x) = b_label x /\ b_item (f x) = b_item x /\ b_version (f x) = b_version x /\
    b_label_color (f x) = b_label_color x) -> rest_same b w (upd_bp b f w).
Proof.
  intros H. split; [auto|split; auto]. intros x Hx. rewrite blu_upd, Nat.eqb_refl, Hx. exists (f x). auto.
Qed.
Lemma load_phases b doc w w' d' x : inv w -> blu w b = Some x -> load b doc w = (w', d', Ok tt) ->
  exists w1 w2 l' w3 w4 x3,
    load_head b (inner_doc doc) w = (w1, Ok tt) /\
    load_entities b (b_custom x) (doc_list (inner_doc doc) "entities") w1 = (w2, l', Ok tt) /\
    sort_layer b w2 = (w3, Ok tt) /\ inv w3 /\ blu w3 b = Some x3 /\ numbered w3 (b_objs x3) /\
    parse_connections b w3 = (w4, Ok tt) /\ rest_same b w4 w' /\
    exists w5, load_scheds b (inner_doc doc) w5 = (w', Ok tt) /\ rest_same b w4 w5.
Proof.
  intros I Hx H. pose proof (load_sorted _ _ _ _ _ _ I Hx H) as SL.
  destruct (load_cases _ _ _ _ _ _ H Hx) as (i' & L). clear H.
  apply load_inner_ok with (x := x) in L as (w1 & w2 & l' & w3 & w4 & E1 & E2 & E3 & E4 & E5); auto.
  pose proof (keeps_load_head False b (inner_doc doc) w (good_False _ I)) as [I1 _]. rewrite E1 in I1. simpl in I1.
  assert (exists x1, blu w1 b = Some x1) as (x1 & Hx1).
  { destruct (load_head_bp b (inner_doc doc) w b) as [f Hf]. rewrite E1, Hx in Hf. simpl in Hf. eauto. }
  destruct (keeps_load_entities False b (b_custom x) (doc_list (inner_doc doc) "entities") w1 (good_False _ I1)) as [[I2 _] (x2 & Hx2)]; [eauto|].
  rewrite E2 in I2, Hx2. simpl in I2, Hx2.
  pose proof (keeps_sort False b w2 (good_False _ I2)) as [I3 _]. rewrite E3 in I3. simpl in I3.
  apply (sort_layer_sorted _ _ _ _ x2) in E3 as S3; auto. destruct S3 as (x3 & Hx3 & _ & N3).
  unfold load_tail2 in E4. apply mbind_ok in E4 as ([] & w6 & E4 & E6). apply mbind_ok in E6 as (tl & w7 & E6 & E7).
  unfold gets in E6. injection E6 as <- E6. apply mbind_ok in E7 as (y & w7 & E7 & E8).
  unfold get_bp, gets in E7. destruct (blu w6 b) as [y'|] eqn:Hy; [|discriminate]. injection E7 as <- ->.
  apply mbind_ok in E8 as ([] & w7 & E8 & E9).
  assert (R1 : rest_same b w6 w7). { destruct (foldE _ tl _) as [ts r]. injection E8 as <- _. apply rest_upd. intros z. simpl. auto 10. }
  assert (R2 : rest_same b w7 w4). { injection E9 as <-. apply rest_upd. intros z. simpl. auto 10. }
  assert (R3 : rest_same b w4 w').
  { unfold load_scheds in E5. apply mbind_ok in E5 as (ss & w8 & E5 & E10). unfold gets in E5. injection E5 as <- _.
    injection E10 as <-. apply rest_upd. intros z. simpl. auto 10. }
  exists w1, w2, l', w3, w6, x3. split; [auto|]. split; [auto|]. split; [auto|]. split; [auto|]. split; [auto|]. split; [auto|].
  split; [auto|]. split; [eapply rest_trans; [exact R1|]; eapply rest_trans; eauto|]. exists w4. split; auto.
  eapply rest_trans; eauto.
Qed.
Lemma p_C48_loaded w b doc w' d' x' : reachable w -> load b doc w = (w', d', Ok tt) -> blu w' b = Some x' ->
  distinct_wires (b_conns x') /\
  (forall n, mentions w' b n -> c_to n <> None /\ exists c, In c (b_conns x') /\ same_wire c n) /\
  (forall c, In c (b_conns x') -> exists n, mentions w' b n /\ same_wire c n).
Proof.
  intros R H Hx'. apply reach_inv in R.
  assert (exists x, blu w b = Some x) as (x & Hx). { unfold load in H. destruct (blu w b); [eauto|discriminate]. }
  destruct (load_phases _ _ _ _ _ _ R Hx H) as (w1 & w2 & l' & w3 & w4 & x3 & _ & _ & _ & I3 & Hx3 & _ & P & (_ & Re & Rb) & _).
  destruct (parse_connections_ok _ _ _ _ I3 Hx3 P) as (x4 & Hx4 & O4 & E4 & A & B & C).
  destruct (Rb _ Hx4) as (y & Hy & Oy & Cy & _). rewrite Hx' in Hy. injection Hy as <-.
  assert (M1 : forall n, mentions w3 b n -> mentions w' b n).
  { intros n. apply mentions_ents; [congruence|]. unfold objs_of. rewrite Hx', Hx3. simpl. congruence. }
  assert (M2 : forall n, mentions w' b n -> mentions w3 b n).
  { intros n. apply mentions_ents; [congruence|]. unfold objs_of. rewrite Hx', Hx3. simpl. congruence. }
  rewrite Cy. split; [eapply parse_connections_distinct; eauto|]. split.
  - intros n Hn. apply M2 in Hn. split; auto.
  - intros c Hc. destruct (B c Hc) as (n & Hn & W). eauto.
Qed.

(** ** a reference to a number that nobody has *)
Lemma foldE_ok {A X} (f : A -> X -> A * res unit) l : (forall x a, In x l -> exists a', f a x = (a', Ok tt)) ->
  forall a, exists a', foldE f l a = (a', Ok tt).
Proof.
  induction l as [|x r IH]; simpl; intros H a; [eauto|]. destruct (H x a (or_introl eq_refl)) as (a' & E). rewrite E. apply IH.
  intros; apply H; auto.
Qed.
Lemma parse_readable w b x : inv w -> blu w b = Some x -> wires_readable w b ->
  exists cs, foldE (parse_entity w b) (b_objs x) [] = (cs, Ok tt).
Proof.
  intros I Hx R. apply foldE_ok. intros i acc Hi. destruct (inv_owner _ I _ _ _ Hx Hi) as (e & He & _).
  unfold parse_entity. rewrite He. destruct (R _ _ _ Hx Hi He) as [-> | (raw & -> & Hs)]; [eauto|]. simpl.
  apply foldE_ok. intros [sk cv] a1 H1. destruct (Hs _ _ H1) as (cols & -> & Hc). unfold parse_side. simpl.
  apply foldE_ok. intros [ck lv] a2 H2. destruct (Hc _ _ H2) as (col & l & -> & -> & Hv). unfold parse_color. simpl.
  apply foldE_ok. intros v a3 H3. destruct (Hv _ H3) as (n & d & id & s & t & -> & A & B & C & ->).
  unfold parse_one, getitem, getdef, conn_new. rewrite A. simpl. rewrite B. simpl. rewrite C. simpl. eauto.
Qed.
(** when both ends are missing or numbered, get_connections can only complain about a missing end *)
Definition ends_numbered (w : world) (cs : list conn) : Prop :=
  forall c o, In c cs -> o = c_from c \/ o = c_to c -> o = None \/ exists i e n, o = Some i /\ ent w i = Some e /\ e_auto e = VInt n.
Lemma my_wires_attr w e cs : ends_numbered w cs ->
  (exists l, my_wires w e cs = Ok l) \/ my_wires w e cs = Err EAttribute.
Proof.
  intros H. unfold my_wires.
  assert (K : forall c, In c (mine e cs) -> (exists n m, conn_key w c = Ok (VInt n, VInt m)) \/ conn_key w c = Err EAttribute).
  { intros c Hc. unfold mine in Hc. apply in_map_iff in Hc as (d & <- & Hd). apply filter_In in Hd as [Hd _].
    assert (Hn : forall o, o = c_from d \/ o = c_to d -> (exists n, end_auto w o = Ok (VInt n)) \/ end_auto w o = Err EAttribute).
    { intros o Ho. destruct (H d o Hd Ho) as [->|(i & en & n & -> & He & A)]; simpl; auto. left. exists n. rewrite He. congruence. }
    assert (G : forall o p, (o = c_from d \/ o = c_to d) -> (p = c_from d \/ p = c_to d) ->
              let r := (let! a := end_auto w o in let! b := end_auto w p in Ok (a, b)) in
              (exists n m, r = Ok (VInt n, VInt m)) \/ r = Err EAttribute).
    { intros o p Ho Hp. destruct (Hn o Ho) as [(n & ->)| ->]; simpl; auto. destruct (Hn p Hp) as [(m & ->)| ->]; simpl; eauto. }
    unfold turn_towards, orientate, conn_key. destruct (attached_to d e); [destruct (end_eqb _ _)|]; apply G; simpl; auto. }
  destruct (mapM _ (mine e cs)) as [ks|err] eqn:E; simpl.
  - left. apply sorted_conns_ints. intros k c Hk. apply mapM_ok in E.
    destruct (Forall2_In_r _ _ _ _ E Hk) as (c' & Hc' & Ek). destruct (K c' Hc') as [(n & m & Kc)|Kc]; rewrite Kc in Ek; simpl in Ek; [|discriminate].
    injection Ek as <- <-. eauto.
  - right. apply mapM_err in E as (c & Hc & Ec). destruct (K c Hc) as [(n & m & Kc)|Kc]; rewrite Kc in Ec; simpl in Ec; congruence.
Qed.
Lemma forM_attr b l : forall w x, inv w -> blu w b = Some x -> (forall i, In i l -> In i (b_objs x)) -> ends_numbered w (b_conns x) ->
  let r := snd (forM (fun i => do _ <- get_connections i; ret tt) l w) in r = Ok tt \/ r = Err EAttribute.
Proof.
  unfold forM. induction l as [|i r IH]; simpl; intros w x I Hx Hl N; auto.
  destruct (inv_owner _ I _ _ _ Hx (Hl i (or_introl eq_refl))) as (e & He & Le).
  unfold mbind. rewrite (get_connections_eq _ _ _ _ _ He Le Hx).
  destruct (my_wires_attr w i _ N) as [(l' & ->)| ->]; simpl; auto.
  set (w1 := turned i b x w). apply (IH w1 (b_set_conns (map (turn_towards i) (b_conns x)) x)).
  - assert (G : good False w) by (apply good_False; auto). pose proof (keeps_get_connections False i w G) as [I' _].
    rewrite (get_connections_eq _ _ _ _ _ He Le Hx) in I'. exact I'.
  - unfold w1, turned. rewrite blu_upd, Nat.eqb_refl, Hx. auto.
  - simpl. intros j Hj. apply Hl. auto.
  - simpl. intros c o Hc Ho. apply in_map_iff in Hc as (d & <- & Hd).
    apply (N d o Hd). destruct (turn_turn_eq i d) as [T|T]; rewrite T in Ho; auto. destruct Ho; auto.
Qed.
Lemma p_C48_dangling w b x n : inv w -> blu w b = Some x -> numbered w (b_objs x) -> wires_readable w b ->
  mentions w b n -> c_to n = None -> snd (parse_connections b w) = Err EAttribute.
Proof.
  intros I Hx N R Hn Dn. destruct (parse_connections b w) as [w' r] eqn:P.
  assert (r <> Ok tt).
  { intros ->. destruct (parse_connections_ok _ _ _ _ I Hx P) as (_ & _ & _ & _ & _ & _ & C). eapply C; eauto. }
  simpl. destruct (parse_readable _ _ _ I Hx R) as (cs & Pc).
  pose proof (parse_conns_fine w b (b_objs x) I) as PF. rewrite Pc in PF.
  assert (PL : forall i, In i (b_objs x) -> exists e, ent w i = Some e)
    by (intros i Hi; destruct (inv_owner _ I _ _ _ Hx Hi) as (e & He & _); eauto).
  destruct (PF PL) as [_ Lv].
  unfold parse_connections, mbind, get_bp, gets in P. rewrite Hx, Pc in P.
  set (w1 := upd_bp b (b_set_conns cs) w) in *.
  assert (G1 : inv w1).
  { apply inv_upd_bp; auto. intros y Hy. rewrite Hx in Hy. injection Hy as <-.
    destruct (inv_bp _ _ _ I Hx) as (B1 & B2 & B3 & B4 & B5). unfold bp_fine; simpl. auto 10. }
  destruct (forM_attr b (b_objs x) w1 (b_set_conns cs x) G1) as [K|K]; auto.
  - unfold w1. rewrite blu_upd, Nat.eqb_refl, Hx. auto.
  - simpl. intros c o Hc Ho. destruct (parse_all _ _ _ _ Hx Pc) as [PA _].
    destruct (PA c Hc) as (y & i & e & sk & col & v & Hy & Hi & He & _ & (d & id & s & t & _ & _ & _ & _ & ->)).
    rewrite Hx in Hy. injection Hy as <-. simpl in Ho.
    assert (NN : forall j, In j (b_objs x) -> exists e n, ent w j = Some e /\ e_auto e = VInt n).
    { intros j Hj. apply In_nth_error in Hj as [k Hk]. destruct (N _ _ Hk) as (ej & ? & ?). eauto. }
    destruct Ho as [->| ->].
    + right. destruct (NN i Hi) as (ei & m & ? & ?). exists i, ei, m. auto.
    + unfold get_entity_by_id. rewrite Hx. destruct (find_number w id (b_objs x)) as [j|] eqn:F; auto. right.
      apply find_number_live in F. destruct (NN j F) as (ej & m & ? & ?). exists j, ej, m. auto.
  - destruct (forM _ (b_objs x) w1) as [w2 r2]. injection P as <- <-. simpl in K. congruence.
  - destruct (forM _ (b_objs x) w1) as [w2 r2]. injection P as <- <-. simpl in K. congruence.
Qed.
Lemma p_C48_load_dangling w b d w1 w2 l l' w3 x x3 n : reachable w -> blu w b = Some x ->
  dget "blueprint" d = None -> dget "entities" d = Some (VList l) ->
  load_head b d w = (w1, Ok tt) -> load_entities b (b_custom x) l w1 = (w2, l', Ok tt) -> sort_layer b w2 = (w3, Ok tt) ->
  blu w3 b = Some x3 -> wires_readable w3 b -> mentions w3 b n -> c_to n = None ->
  snd (load b (VDict d) w) = Err EAttribute.
Proof.
  intros R Hx Db De E1 E2 E3 Hx3 Rd Hn Dn. apply reach_inv in R.
  unfold load. rewrite Hx, Db. unfold load_inner. rewrite E1. unfold dataget. rewrite De. simpl. rewrite E2.
  change (load_tail b d) with (mbind (sort_layer b) (fun _ => load_tail2 b d)). unfold mbind at 1. rewrite E3.
  pose proof (keeps_load_head False b d w (good_False _ R)) as [I1 _]. rewrite E1 in I1. simpl in I1.
  assert (exists x1, blu w1 b = Some x1) as (x1 & Hx1).
  { destruct (load_head_bp b d w b) as [f Hf]. rewrite E1, Hx in Hf. simpl in Hf. eauto. }
  destruct (keeps_load_entities False b (b_custom x) l w1 (good_False _ I1)) as [[I2 _] (x2 & Hx2)]; [eauto|].
  rewrite E2 in I2, Hx2. simpl in I2, Hx2.
  pose proof (keeps_sort False b w2 (good_False _ I2)) as [I3 _]. rewrite E3 in I3. simpl in I3.
  apply (sort_layer_sorted _ _ _ _ x2) in E3 as S3; auto. destruct S3 as (x3' & Hx3' & _ & N3).
  rewrite Hx3 in Hx3'. injection Hx3' as <-.
  pose proof (p_C48_dangling _ _ _ _ I3 Hx3 N3 Rd Hn Dn) as P.
  unfold load_tail2, mbind. destruct (parse_connections b w3) as [w4 r]. simpl in P. subst r. reflexivity.
Qed.

(** ** what an exported entry becomes when it is read again *)
Lemma p_C17_entry w f fe s v w2 b2 e2 f2 sk col :
  ent w f = Some fe -> entry_for w f s v -> get_entity_by_id w2 b2 (e_auto fe) = Some f2 -> py_int (val_of_key sk) = Ok s ->
  exists t, (two_sided fe /\ t = s \/ ~ two_sided fe /\ t = 1) /\
    forall n, entry_denotes w2 b2 e2 sk col v n <-> n = mkConn (Some e2) (Some f2) s t col.
Proof.
  intros Hf (fe' & Hf' & V) G P. rewrite Hf in Hf'. injection Hf' as <-.
  destruct V as [[T ->]|[T ->]]; [exists s|exists 1]; (split; [tauto|]); intros n; unfold entry_denotes; split.
  - intros (d & id & s' & t & [= <-] & A & B & C & ->). simpl in A, C. injection A as <-. injection C as <-.
    rewrite P in B. injection B as <-. rewrite G. auto.
  - intros ->. eexists _, (e_auto fe), s, s. split; [reflexivity|]. simpl. rewrite G. auto.
  - intros (d & id & s' & t & [= <-] & A & B & C & ->). simpl in A. injection A as <-.
    rewrite P in B. injection B as <-. rewrite G. vm_compute in C. injection C as <-. auto.
  - intros ->. eexists _, (e_auto fe), s, 1. split; [reflexivity|]. simpl. rewrite G. auto.
Qed.
Lemma p_C17_wire (e f : nat) s t s' t' col : e <> f ->
  (same_wire (mkConn (Some e) (Some f) s t' col) (mkConn (Some e) (Some f) s t col) <-> t' = t) /\
  (same_wire (mkConn (Some f) (Some e) t s' col) (mkConn (Some e) (Some f) s t col) <-> s' = s).
Proof.
  intros N. unfold same_wire, ends. simpl. split; split.
  - intros [_ [E|E]]; congruence.
  - intros ->. auto.
  - intros [_ [E|E]]; congruence.
  - intros ->. auto.
Qed.
Lemma p_C17_from w f fe s v w2 b2 e2 f2 sk col t :
  ent w f = Some fe -> entry_for w f s v -> get_entity_by_id w2 b2 (e_auto fe) = Some f2 -> py_int (val_of_key sk) = Ok s ->
  e2 <> f2 ->
  exists n, entry_denotes w2 b2 e2 sk col v n /\ (forall m, entry_denotes w2 b2 e2 sk col v m -> m = n) /\
    (same_wire n (mkConn (Some e2) (Some f2) s t col) <-> (two_sided fe /\ t = s \/ ~ two_sided fe /\ t = 1)).
Proof.
  intros Hf V G P N. destruct (p_C17_entry w f fe s v w2 b2 e2 f2 sk col Hf V G P) as (t' & T & E).
  exists (mkConn (Some e2) (Some f2) s t' col). split; [apply E; auto|]. split; [intros m Hm; apply E; auto|].
  rewrite (proj1 (p_C17_wire e2 f2 s t 0 t' col N)). split; [intros <-; tauto|]. intros H; destruct T as [[A ->]|[A ->]], H as [[B ->]|[B ->]]; tauto.
Qed.
Lemma p_C16_entity w e w' v : reachable w -> ent_json e w = (w', Ok v) ->
  exists en b x d, ent w e = Some en /\ e_layer en = Some b /\ blu w b = Some x /\ v = VDict d /\
    forall s col, exists l, Permutation (port (conns_of_doc d) s col) l /\
      Forall2 (entry_of w) (filter (seen_at s col) (flat_map (views e) (b_conns x))) l.
Proof.
  intros R H. apply reach_inv in R. destruct (ent_json_ok _ _ _ _ H) as (en & q & cs & d & He & _ & -> & Hc & _ & _ & _ & D).
  destruct (e_layer en) as [b|] eqn:Hl.
  2: { unfold connections_to_json, get_connections, mbind, get_ent, gets in Hc. rewrite He, Hl in Hc. discriminate. }
  destruct (inv_layer _ R _ _ _ He Hl) as [x Hx]. exists en, b, x, d. repeat (split; [auto|]).
  intros s col. destruct (p_C16_exact _ _ _ _ _ _ _ He Hl Hx Hc s col) as (l & P & F). exists l. split; auto.
  replace (conns_of_doc d) with cs; auto. unfold conns_of_doc. rewrite D. destruct cs; auto.
Qed.
(** both ends of a wire list it *)
Lemma port_lists w x i v c s col f t : exports_entity w x i v -> In c (b_conns x) -> In (s, col, f, t) (views i c) ->
  exists d u, v = VDict d /\ In u (port (conns_of_doc d) s col) /\ entry_for w f t u.
Proof.
  intros (e & q & d & _ & _ & -> & _ & _ & _ & P) Hc Hv. exists d. destruct (P s col) as (l & Pl & F).
  assert (I' : In (s, col, f, t) (filter (seen_at s col) (flat_map (views i) (b_conns x)))).
  { apply filter_In. split; [apply in_flat_map; eauto|]. simpl. rewrite Z.eqb_refl, String.eqb_refl. auto. }
  destruct (Forall2_In_l _ _ _ _ F I') as (u & Hu & E). exists u. split; auto. split; auto.
  eapply Permutation_in; [apply Permutation_sym; eauto|auto].
Qed.
Lemma p_C16_both w b x w' doc c e f ke kf : reachable w -> blu w b = Some x -> bp_json b w = (w', Ok doc) ->
  (forall c, In c (b_conns x) -> ~ skew_loop c) ->
  In c (b_conns x) -> c_from c = Some e -> c_to c = Some f -> e <> f ->
  nth_error (b_objs x) ke = Some e -> nth_error (b_objs x) kf = Some f ->
  exists de df u v, nth_error (doc_list (inner_doc doc) "entities") ke = Some (VDict de) /\
    nth_error (doc_list (inner_doc doc) "entities") kf = Some (VDict df) /\
    In u (port (conns_of_doc de) (c_fs c) (c_color c)) /\ entry_for w f (c_fs c) u /\
    In v (port (conns_of_doc df) (c_ts c) (c_color c)) /\ entry_for w e (c_ts c) v.
Proof.
  intros R Hx H NS Hc Hf Ht N He Hk. destruct (p_C16_document _ _ _ _ R H) as (x' & Hx' & _ & G).
  rewrite Hx in Hx'. injection Hx' as <-. specialize (G NS).
  destruct (G _ _ He) as (ve & Ne & Ee). destruct (G _ _ Hk) as (vf & Nf & Ef).
  destruct (port_lists _ _ _ _ c (c_fs c) (c_color c) f (c_fs c) Ee Hc) as (de & u & -> & Hu & Eu).
  { unfold views. rewrite Hf, Ht, Nat.eqb_refl. destruct (Nat.eqb_spec f e); [congruence|]. left; auto. }
  destruct (port_lists _ _ _ _ c (c_ts c) (c_color c) e (c_ts c) Ef Hc) as (df & v & -> & Hv & Ev).
  { unfold views. rewrite Hf, Ht, Nat.eqb_refl. destruct (Nat.eqb_spec e f); [congruence|]. left; auto. }
  exists de, df, u, v. auto 10.
Qed.
Lemma p_C48_raw w b doc w' d' x k kw : blu w b = Some x -> load b doc w = (w', d', Ok tt) ->
  nth_error (doc_list (inner_doc doc) "entities") k = Some (VDict kw) ->
  exists e, ent w' (length (w_ents w) + k) = Some e /\ e_raw e = odflt VNone (dget "connections" kw).
Proof.
  intros Hx H Hk. destruct (load_ent_nth _ _ _ _ _ _ _ _ Hx H Hk) as (e0 & e & Hc & He & EQ).
  apply construct_fixed in Hc as [_ Hr]. exists e. split; auto. rewrite <- Hr. unfold with_auto in EQ. congruence.
Qed.
