(** * Proofs for C78. *)
From Coq Require Import Lia Permutation.
From Verif Require Import Py Num NumFacts Util SpecUtil Classes Mixins Entity Setters World SpecWorld SpecDoc SpecLoad SpecEntity SpecAttr SpecValues SpecSetting SpecBehaviour SpecMake SpecWrite SpecExport SpecShow SpecParts SpecBuild SpecOrder SpecSame SpecShuffle.
From Verif Require Import DictFacts WorldFacts SortFacts Inv LayerProofs WireProofs ExportProofs PartsProofs BuildProofs OrderProofs SameProofs.
From Verif Require LoadProofs.
Open Scope string_scope. Open Scope Z_scope. Open Scope list_scope.

(** ** Entry by entry *)
Section Final.
Variables (b n0 : nat) (pt : protos) (x : bp) (l : list (vec * res val)) (w : world) (o : list nat).
Hypothesis (C : b_conns x = []) (T : built b n0 pt x l w o).
(** what the list says is what the entities say *)
Lemma built_each : exists p, arranged l p /\ length p = length o /\
  forall k i a, nth_error o k = Some i -> nth_error p k = Some a -> entity_alone w i = renum (VInt (Z.of_nat k + 1)) (snd a).
Proof.
  pose proof (p_arranged _ _ _ _ _ _ _ C T) as AR. cbv zeta in AR. set (p := map _ o) in *. exists p. split; [exact AR|]. split; [apply map_length|].
  intros k i a Hi Ha. unfold p in Ha. rewrite nth_error_map, Hi in Ha. injection Ha as <-.
  destruct (of_o _ _ _ _ _ _ _ C T i (nth_error_In _ _ Hi)) as (e & He & _ & _ & Al & _). destruct (bt_nums _ _ _ _ _ _ _ T k i Hi) as (e' & He' & A).
  rewrite He in He'. injection He' as <-. rewrite <- A. exact Al.
Qed.
End Final.

Section Made.
Variables (w : world) (b : nat) (x : bp) (kws kws' : list dict) (l l' : list (vec * res val)) (w1 w2 : world).
Hypothesis (R : reachable w) (Hx : blu w b = Some x) (E : b_objs x = []) (C : b_conns x = []) (H1 : builds b w kws l w1) (H2 : builds b w kws' l' w2) (P : Permutation kws kws') (A : apart l).
Lemma made_alike : entities_alike w1 w2 b.
Proof using R Hx E C H1 H2 P A.
  assert (CL : clear_objs w (b_objs x)) by (rewrite E; intros i []).
  destruct (builds_says b _ _ _ _ _ _ H1 x R Hx C eq_refl eq_refl CL) as [M1 _]. destruct (builds_says b _ _ _ _ _ _ H2 x R Hx C eq_refl eq_refl CL) as [M2 _].
  destruct (built_all _ _ _ _ C _ _ _ _ H1 _ _ (start_built _ _ _ R Hx E)) as [o1 T1]. destruct (built_all _ _ _ _ C _ _ _ _ H2 _ _ (start_built _ _ _ R Hx E)) as [o2 T2]. cbn [app] in T1, T2.
  destruct (built_each _ _ _ _ _ _ _ C T1) as (p1 & A1 & L1 & D1). destruct (built_each _ _ _ _ _ _ _ C T2) as (p2 & A2 & L2 & D2).
  assert (Q : map norm p1 = map norm p2).
  { apply sorted_same.
    - transitivity (map norm l); [apply Permutation_map, Permutation_sym, (ar_all _ _ A1)|]. rewrite M1. transitivity (map norm l'); [|apply Permutation_map, (ar_all _ _ A2)]. rewrite M2. now apply Permutation_map.
    - apply apart_norm. apply (apart_perm l); [apply (ar_all _ _ A1)|exact A].
    - apply order_norm, (ar_order _ _ A1).
    - apply order_norm, (ar_order _ _ A2). }
  do 2 eexists. split; [exact (bt_bp _ _ _ _ _ _ _ T1)|]. split; [exact (bt_bp _ _ _ _ _ _ _ T2)|]. cbn [b_objs b_set_objs].
  split; [apply (f_equal (@length _)) in Q; rewrite !map_length in Q; congruence|].
  intros k i j Hi Hj.
  destruct (nth_error p1 k) as [a1|] eqn:N1; [|apply nth_error_None in N1; rewrite L1 in N1; apply nth_error_None in N1; congruence].
  destruct (nth_error p2 k) as [a2|] eqn:N2; [|apply nth_error_None in N2; rewrite L2 in N2; apply nth_error_None in N2; congruence].
  rewrite (D1 _ _ _ Hi N1), (D2 _ _ _ Hj N2).
  assert (N : norm a1 = norm a2). { apply (map_nth_error norm) in N1, N2. rewrite Q, N2 in N1. congruence. }
  apply (f_equal snd) in N. unfold norm in N. cbn [snd] in N. rewrite <- (renum_renum _ (VInt 0) (snd a1)), N. apply renum_renum.
Qed.
End Made.

Lemma alike_trans w1 w2 w3 b : entities_alike w1 w2 b -> entities_alike w2 w3 b -> entities_alike w1 w3 b.
Proof.
  intros (x1 & x2 & H1 & H2 & L & D) (y2 & x3 & G2 & H3 & L' & D'). rewrite H2 in G2. injection G2 as <-. exists x1, x3. do 2 (split; [assumption|]). split; [congruence|].
  intros k i j Hi Hj. destruct (nth_error (b_objs x2) k) as [m|] eqn:N.
  - rewrite (D _ _ _ Hi N). eauto.
  - exfalso. apply nth_error_None in N. rewrite <- L in N. apply nth_error_None in N. congruence.
Qed.
Lemma alike_sym w1 w2 b : entities_alike w1 w2 b -> entities_alike w2 w1 b.
Proof. intros (x1 & x2 & H1 & H2 & L & D). exists x2, x1. do 2 (split; [assumption|]). split; [congruence|]. intros k i j Hi Hj. symmetry. eauto. Qed.
Lemma content_alike w1 w2 b : same_content w1 w2 b -> entities_alike w1 w2 b.
Proof.
  intros (x1 & x2 & H1 & H2 & EO & _ & _ & K). exists x1, x2. do 2 (split; [assumption|]). split; [congruence|]. intros k i j Hi Hj. rewrite <- EO, Hi in Hj. injection Hj as <-.
  destruct (K i (nth_error_In _ _ Hi)) as (e & _ & _ & D). exact D.
Qed.
Lemma alike_lists w1 w2 (o1 : list nat) : forall o2, length o1 = length o2 -> (forall k i j, nth_error o1 k = Some i -> nth_error o2 k = Some j -> entity_alone w1 i = entity_alone w2 j) ->
  forall l1 l2, Forall2 (fun i v => entity_alone w1 i = Ok v) o1 l1 -> Forall2 (fun i v => entity_alone w2 i = Ok v) o2 l2 -> l1 = l2.
Proof.
  induction o1 as [|i o1 IH]; intros [|j o2] L K l1 l2 F G; try discriminate L; inversion F as [|? v1 ? l1' A1 F']; inversion G as [|? v2 ? l2' A2 G']; subst; [reflexivity|].
  rewrite (K 0%nat i j eq_refl eq_refl), A2 in A1. injection A1 as ->. f_equal. apply (IH o2); auto. intros k a c. apply (K (Datatypes.S k)).
Qed.
Lemma alike_export w1 w2 b : reachable w1 -> reachable w2 -> entities_alike w1 w2 b -> same_entities_exported w1 w2 b.
Proof.
  intros R1 R2 (x1 & x2 & H1 & H2 & L & D) d1 d2 D1 D2.
  destruct (p_C73_document _ _ _ _ R1 H1 D1) as (e1 & [= <-] & W1). destruct (p_C73_document _ _ _ _ R2 H2 D2) as (e2 & [= <-] & W2).
  destruct (wd_entities _ _ _ W1) as (l1 & F1 & S1). destruct (wd_entities _ _ _ W2) as (l2 & F2 & S2). unfold says in *. rewrite S1, S2. f_equal.
  exact (alike_lists w1 w2 _ _ L D _ _ F1 F2).
Qed.

Section Docs.
Variables (w : world) (b : nat) (x : bp) (doc1 doc2 : val) (d1 d2 : dict) (w1 w2 : world) (r1 r2 : val) (kws1 kws2 : list dict).
Hypothesis (R : reachable w) (Hx : blu w b = Some x) (E : b_objs x = []) (C : b_conns x = []) (Hd1 : holds doc1 d1) (Hd2 : holds doc2 d2)
  (H1 : load b doc1 w = (w1, r1, Ok tt)) (H2 : load b doc2 w = (w2, r2, Ok tt)) (U1 : lists_unwired d1 kws1) (U2 : lists_unwired d2 kws2) (P : Permutation kws1 kws2) (S : spread w1 b).
Lemma p_C78_alike : entities_alike w1 w2 b.
Proof using R Hx E C Hd1 Hd2 H1 H2 U1 U2 P S.
  destruct U1 as [D1 N1]. destruct U2 as [D2 N2].
  destruct (p_C77_possible _ _ _ _ _ _ _ _ R Hx E Hd1 H1 D1) as (l1 & v1 & B1). destruct (p_C77_possible _ _ _ _ _ _ _ _ R Hx E Hd2 H2 D2) as (l2 & v2 & B2).
  pose proof (p_C77_same _ _ _ _ _ _ _ _ _ _ R Hx E C Hd1 H1 D1 N1 B1) as S1. pose proof (p_C77_same _ _ _ _ _ _ _ _ _ _ R Hx E C Hd2 H2 D2 N2 B2) as S2.
  assert (A : apart l1).
  { destruct S1 as (x1 & y1 & Hx1 & Hy1 & EO & _ & _ & K). destruct (built_all _ _ _ _ C _ _ _ _ B1 _ _ (start_built _ _ _ R Hx E)) as [o T]. cbn [app] in T.
    pose proof (bt_bp _ _ _ _ _ _ _ T) as BB. rewrite Hy1 in BB. injection BB as ->. cbn [b_objs b_set_objs] in EO. destruct (bt_order _ _ _ _ _ _ _ T) as (PM & _).
    assert (POS : forall k a, nth_error l1 k = Some a -> In (length (w_ents w) + k)%nat (b_objs x1) /\ has_pos w1 (length (w_ents w) + k) (fst a)).
    { intros k [v r] Hk. assert (I1 : In (length (w_ents w) + k)%nat (b_objs x1)).
      { rewrite EO. apply (Permutation_in _ PM), in_seq. assert (Q : nth_error l1 k <> None) by congruence. apply nth_error_Some in Q. lia. }
      split; [exact I1|]. destruct (bt_docs _ _ _ _ _ _ _ T k v r Hk) as (e & He & _ & Po & _). destruct (K _ I1) as (e' & He' & He2 & _). exists e'. split; [exact He'|]. cbn [fst]. congruence. }
    intros k m a c KM Ha Hc. destruct (POS k a Ha) as [I1 Q1]. destruct (POS m c Hc) as [I2 Q2]. apply (S x1 _ _ _ _ Hx1 I1 I2); [lia|exact Q1|exact Q2]. }
  apply (alike_trans _ v1); [now apply content_alike|]. apply (alike_trans _ v2); [|now apply alike_sym, content_alike].
  exact (made_alike w b x kws1 kws2 l1 l2 v1 v2 R Hx E C B1 B2 P A).
Qed.
Lemma p_C78_export : same_entities_exported w1 w2 b.
Proof using R Hx E C Hd1 Hd2 H1 H2 U1 U2 P S. apply alike_export; [eapply LoadProofs.load_reach; eauto|eapply LoadProofs.load_reach; eauto|exact p_C78_alike]. Qed.
End Docs.
