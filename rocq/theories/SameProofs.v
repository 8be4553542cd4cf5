(** * Proofs for C77. *)
From Coq Require Import Lia Permutation.
From Verif Require Import Py Num NumFacts Util SpecUtil Classes Mixins Entity Setters World SpecWorld SpecDoc SpecLoad SpecEntity SpecAttr SpecValues SpecSetting SpecBehaviour SpecMake SpecWrite SpecExport SpecShow SpecParts SpecBuild SpecOrder SpecSame.
From Verif Require Import DictFacts WorldFacts SortFacts Inv LayerProofs WireProofs ExportProofs PartsProofs BuildProofs OrderProofs.
From Verif Require RenameProofs LoadProofs ParseProofs PersistProofs TakeProofs.
Open Scope string_scope. Open Scope Z_scope. Open Scope list_scope.

Lemma with_auto_twice n m e : with_auto n (with_auto m e) = with_auto n e.
Proof. reflexivity. Qed.
Lemma builds_ents b w kws l w1 : builds b w kws l w1 -> forall x, reachable w -> blu w b = Some x ->
  length l = length kws /\ length (w_ents w1) = (length (w_ents w) + length kws)%nat /\
  (forall i e, ent w i = Some e -> exists n, ent w1 i = Some (with_auto n e)) /\
  forall k kw, nth_error kws k = Some kw -> exists e n, snd (construct (w_protos w) (b_custom x) (Some b) kw) = Ok e /\ ent w1 (length (w_ents w) + k) = Some (with_auto n e).
Proof.
  intros H. induction H as [w|w kw v kws l w1 OK HP _ IH]; intros x R Hx.
  - do 2 (split; [cbn; auto; lia|]). split; [|intros k kw H; destruct k; discriminate H]. intros i e He. exists (e_auto e). rewrite He. now destruct e.
  - destruct (make_step w b x kw R Hx OK) as (P & L & OLD & _ & o & B & _). destruct (make_what w b x kw R Hx OK) as (e & n & CO & He & _).
    destruct (IH _ (reach_step w (OMake b kw) R I) B) as (A1 & A2 & A3 & A4). cbn [length]. split; [now rewrite A1|]. split; [rewrite A2, L; lia|]. split.
    + intros i e0 H0. destruct (OLD i e0 H0) as [m Hm]. destruct (A3 _ _ Hm) as [m' Hm']. exists m'. exact Hm'.
    + intros [|k] kw' Hk; cbn [nth_error] in Hk.
      * injection Hk as <-. destruct (A3 _ _ He) as [m' Hm']. exists e, m'. split; [exact CO|]. rewrite Nat.add_0_r. exact Hm'.
      * destruct (A4 k kw' Hk) as (e' & m & C' & E'). exists e', m. rewrite P in C'. split; [exact C'|]. rewrite L in E'. now replace (length (w_ents w) + Datatypes.S k)%nat with (Datatypes.S (length (w_ents w)) + k)%nat by lia.
Qed.

Lemma ent_lt w i e : ent w i = Some e -> (i < length (w_ents w))%nat.
Proof. intros H. apply nth_error_Some. unfold ent in H. congruence. Qed.
Lemma F2_len {A B} (R : A -> B -> Prop) l m : Forall2 R l m -> length l = length m.
Proof. intros H; induction H; cbn; auto. Qed.

Section Load.
Variables (w : world) (b : nat) (x : bp) (doc : val) (d : dict) (w' : world) (doc' : val) (kws : list dict).
Hypothesis (R : reachable w) (Hx : blu w b = Some x) (E : b_objs x = []) (Hd : holds doc d) (H : load b doc w = (w', doc', Ok tt)) (D : doc_list d "entities" = map VDict kws).

Lemma made_kws es : Forall2 (made_of w x b) (doc_list d "entities") es ->
  length es = length kws /\ forall k kw, nth_error kws k = Some kw -> exists e, nth_error es k = Some e /\ snd (construct (w_protos w) (b_custom x) (Some b) kw) = Ok e.
Proof.
  intros F. rewrite D in F. split; [rewrite <- (F2_len _ _ _ F); apply map_length|]. intros k kw Hk.
  destruct (LoadProofs.F2_nth_l _ _ _ _ _ F (map_nth_error VDict _ _ Hk)) as (e & He & kw' & [= <-] & C). eauto.
Qed.
Lemma load_ents : exists x', blu w' b = Some x' /\ w_protos w' = w_protos w /\ length (w_ents w') = (length (w_ents w) + length kws)%nat /\
  (forall i e, ent w i = Some e -> exists n, ent w' i = Some (with_auto n e)) /\
  (forall k kw, nth_error kws k = Some kw -> exists e n, snd (construct (w_protos w) (b_custom x) (Some b) kw) = Ok e /\ ent w' (length (w_ents w) + k) = Some (with_auto n e)) /\
  reordered w' (seq (length (w_ents w)) (length kws)) (b_objs x') /\ numbered w' (b_objs x').
Proof.
  destruct (LoadProofs.p_C60_merge _ _ _ _ _ _ _ R Hx Hd H) as ((P & _) & x' & Hx' & _ & es & M & AR & _ & (y & Hy & RO & NU)).
  rewrite Hx' in Hy. injection Hy as <-. destruct (made_kws es M) as [L K]. exists x'. split; [exact Hx'|]. split; [exact P|].
  split; [rewrite <- (F2_len _ _ _ AR), app_length; lia|]. split; [|split; [|split; [|exact NU]]].
  - intros i e He. destruct (LoadProofs.renumbered_ent _ _ _ _ _ AR He) as (e' & He' & RN). exists (e_auto e'). rewrite He'. now f_equal.
  - intros k kw Hk. destruct (K k kw Hk) as (e & He & C). exists e.
    destruct (LoadProofs.F2_nth_l _ _ _ (length (w_ents w) + k) e AR) as (e' & He' & RN).
    { rewrite nth_error_app2 by lia. now replace (length (w_ents w) + k - length (w_ents w))%nat with k by lia. }
    exists (e_auto e'). split; [exact C|]. unfold ent. rewrite He'. now f_equal.
  - unfold appended in RO. rewrite E, L in RO. exact RO.
Qed.
End Load.

Section Both.
Variables (w : world) (b : nat) (x : bp) (doc : val) (d : dict) (w' : world) (doc' : val) (kws : list dict) (l : list (vec * res val)) (w1 : world).
Hypothesis (R : reachable w) (Hx : blu w b = Some x) (E : b_objs x = []) (C0 : b_conns x = []) (Hd : holds doc d) (H : load b doc w = (w', doc', Ok tt))
  (D : doc_list d "entities" = map VDict kws) (NC : forall kw, In kw kws -> dget "connections" kw = None) (BU : builds b w kws l w1).

Lemma both_same : exists x' x1, blu w' b = Some x' /\ blu w1 b = Some x1 /\ b_objs x' = b_objs x1 /\ b_conns x' = [] /\ b_conns x1 = [] /\ w_protos w' = w_protos w1 /\
  (forall i, In i (b_objs x') -> exists e, ent w' i = Some e /\ ent w1 i = Some e).
Proof.
  destruct (load_ents w b x doc d w' doc' kws R Hx E Hd H D) as (x' & Hx' & P & L & OLD & NEW & RO & NU).
  destruct (builds_ents _ _ _ _ _ BU x R Hx) as (LL & L1 & OLD1 & NEW1).
  destruct (built_all _ _ _ _ C0 _ _ _ _ BU _ _ (start_built _ _ _ R Hx E)) as [o [R1 P1 B1 _ RO1 NU1 _]]. cbn [app] in RO1.
  rewrite LL in RO1.
  assert (ALL : forall i, (exists e n m, ent w' i = Some (with_auto n e) /\ ent w1 i = Some (with_auto m e)) \/ (ent w' i = None /\ ent w1 i = None)).
  { intros i. destruct (Nat.lt_ge_cases i (length (w_ents w))) as [Lt|Ge].
    - left. destruct (ent w i) as [e|] eqn:He; [|unfold ent in He; apply nth_error_None in He; lia]. destruct (OLD i e He) as [n Hn]. destruct (OLD1 i e He) as [m Hm]. eauto 6.
    - destruct (nth_error kws (i - length (w_ents w))) as [kw|] eqn:Hk.
      + left. destruct (NEW _ _ Hk) as (e & n & CO & He). destruct (NEW1 _ _ Hk) as (e1 & m & CO1 & He1). rewrite CO in CO1. injection CO1 as <-.
        replace (length (w_ents w) + (i - length (w_ents w)))%nat with i in He, He1 by lia. eauto 6.
      + right. apply nth_error_None in Hk. split; apply nth_error_None; lia. }
  assert (SP : same_pos w' w1).
  { intros i. destruct (ALL i) as [(e & n & m & -> & ->)|[-> ->]]; reflexivity. }
  assert (EO : b_objs x' = o).
  { apply (reordered_pos _ _ _ _ SP) in RO. destruct RO as (PM & IO & ST). destruct RO1 as (PM1 & IO1 & ST1).
    apply (TakeProofs.order_unique w1); auto; [now rewrite <- PM1|]. intros v. now rewrite ST, ST1. }
  exists x', (b_set_objs o x). split; [exact Hx'|]. split; [exact B1|]. split; [exact EO|]. split; [|split; [exact C0|split; [congruence|]]].
  - destruct (ParseProofs.p_C48_loaded _ _ _ _ _ _ R H Hx') as (_ & _ & WM). destruct (b_conns x') as [|c cs]; [reflexivity|exfalso].
    destruct (WM c (or_introl eq_refl)) as (n & (y & i & e & sk & col & v & Hy & Hi & He & (raw & cols & l0 & RW & _) & _) & _). rewrite Hx' in Hy. injection Hy as <-.
    destruct RO as (PM & _). apply (Permutation_in i (Permutation_sym PM)) in Hi. apply in_seq in Hi.
    destruct (nth_error kws (i - length (w_ents w))) as [kw|] eqn:Hk; [|apply nth_error_None in Hk; lia].
    destruct (NEW _ _ Hk) as (e0 & m & CO & He0). replace (length (w_ents w) + (i - length (w_ents w)))%nat with i in He0 by lia. rewrite He in He0. injection He0 as ->.
    apply PersistProofs.construct_fixed in CO as [_ CO]. rewrite (NC kw (nth_error_In _ _ Hk)) in CO. change (e_raw (with_auto m e0)) with (e_raw e0) in RW. rewrite CO in RW. discriminate RW.
  - intros i Hi. apply In_nth_error in Hi as [k Hk]. destruct (NU k i Hk) as (e & He & A). rewrite EO in Hk. destruct (NU1 k i Hk) as (e1 & He1 & A1).
    exists e. split; [exact He|]. destruct (ALL i) as [(e0 & n & m & X & Y)|[X _]]; [|congruence]. rewrite He in X. rewrite He1 in Y. injection X as ->. injection Y as ->.
    rewrite He1. f_equal. cbn in A, A1. congruence.
Qed.
Lemma p_C77_same : same_content w' w1 b.
Proof.
  destruct both_same as (x' & x1 & Hx' & Hx1 & EO & C' & C1 & P & EN). exists x', x1. do 5 (split; [assumption|]).
  assert (R' : reachable w') by (eapply LoadProofs.load_reach; eauto). pose proof (reach_inv _ R') as I'.
  intros i Hi. destruct (EN i Hi) as (e & He & He1). exists e. split; [exact He|]. split; [exact He1|].
  destruct (inv_owner _ I' _ _ _ Hx' Hi) as (e' & He' & Hl). rewrite He in He'. injection He' as <-.
  rewrite (alone_bare _ _ _ _ _ He Hl Hx' C'), (alone_bare _ _ _ _ _ He1 Hl Hx1 C1). now rewrite P.
Qed.
Lemma alones_one w2 (o : list nat) : (forall i, In i o -> entity_alone w' i = entity_alone w2 i) -> forall l1 l2,
  Forall2 (fun i v => entity_alone w' i = Ok v) o l1 -> Forall2 (fun i v => entity_alone w2 i = Ok v) o l2 -> l1 = l2.
Proof.
  intros K l1 l2 F. revert l2. induction F as [|i v o l1 A F IH]; intros l2 G; inversion G as [|? v2 ? l2' A2 G']; subst; [reflexivity|].
  rewrite (K i (or_introl eq_refl)), A2 in A. injection A as ->. f_equal. apply IH; [|exact G']. intros j Hj. apply K. now right.
Qed.
Lemma p_C77_export : same_entities_exported w' w1 b.
Proof.
  intros d1 d2 D1 D2. destruct p_C77_same as (x' & x1 & Hx' & Hx1 & EO & _ & _ & EN).
  assert (R' : reachable w') by (eapply LoadProofs.load_reach; eauto).
  destruct (built_all _ _ _ _ C0 _ _ _ _ BU _ _ (start_built _ _ _ R Hx E)) as [o T]. pose proof (bt_reach _ _ _ _ _ _ _ T) as R1.
  destruct (p_C73_document _ _ _ _ R' Hx' D1) as (e1 & [= <-] & W1). destruct (p_C73_document _ _ _ _ R1 Hx1 D2) as (e2 & [= <-] & W2).
  destruct (wd_entities _ _ _ W1) as (l1 & F1 & S1). destruct (wd_entities _ _ _ W2) as (l2 & F2 & S2). unfold says in *. rewrite S1, S2. f_equal.
  rewrite <- EO in F2. apply (alones_one w1 (b_objs x')); auto. intros i Hi. destruct (EN i Hi) as (e & _ & _ & A). exact A.
Qed.
End Both.

(** ** A document that loads can be made entity by entity *)
Lemma load_clear w b x doc w' doc' x' : reachable w -> blu w b = Some x -> load b doc w = (w', doc', Ok tt) -> blu w' b = Some x' -> clear_objs w' (b_objs x').
Proof.
  intros R Hx H Hx'. pose proof (reach_inv _ R) as I.
  destruct (ParseProofs.load_phases _ _ _ _ _ _ I Hx H) as (w1 & w2 & l' & w3 & w4 & x3 & _ & _ & S3 & I3 & Hx3 & _ & PC & (_ & Re & Rb) & _).
  destruct (ParseProofs.parse_connections_ok _ _ _ _ I3 Hx3 PC) as (x4 & Hx4 & O4 & E4 & _). destruct (Rb _ Hx4) as (y & Hy & Oy & _). rewrite Hx' in Hy. injection Hy as <-.
  assert (EE : forall i, ent w' i = ent w3 i) by (intros i; unfold ent; now rewrite Re, E4).
  destruct (sort_layer_ok _ _ _ _ S3) as (x2 & lo & Hx2 & SO & ->).
  rewrite blu_reindex, blu_upd, Nat.eqb_refl, Hx2 in Hx3. cbn [option_map] in Hx3. injection Hx3 as <-. cbn [b_objs b_set_objs] in O4.
  rewrite Oy, O4. intros i Hi. assert (Hi2 : In i (b_objs x2)).
  { destruct (sorted_objs_spec _ _ _ SO) as (PM & _). exact (Permutation_in i (Permutation_sym PM) Hi). }
  assert (SP : same_pos w2 w'). { intros j. rewrite EE, reindex_pos. reflexivity. }
  destruct (clear_same w2 w' (b_objs x2) SP) with (i := i) as (e & v & He & Pv & N); [|exact Hi2|eauto 6].
  intros j Hj. exact (key_need _ _ _ j SO Hj).
Qed.
Lemma p_C77_possible w b x doc d w' doc' (kws : list dict) : reachable w -> blu w b = Some x -> b_objs x = [] -> holds doc d -> load b doc w = (w', doc', Ok tt) ->
  doc_list d "entities" = map VDict kws -> exists l w1, builds b w kws l w1.
Proof.
  intros R Hx E Hd H D. destruct (load_ents w b x doc d w' doc' kws R Hx E Hd H D) as (x' & Hx' & P & L & _ & NEW & (PM & _) & _).
  pose proof (load_clear _ _ _ _ _ _ _ R Hx H Hx') as CL.
  apply (builds_can b (w_protos w) (b_custom x) kws w x R Hx eq_refl eq_refl); [rewrite E; intros i []|].
  apply Forall_forall. intros kw Hk. apply In_nth_error in Hk as [k Hk]. destruct (NEW k kw Hk) as (e & n & CO & He).
  destruct (CL (length (w_ents w) + k)%nat) as (e' & v & He' & Pv & N).
  { apply (Permutation_in _ PM), in_seq. assert (Q : nth_error kws k <> None) by (intros Z0; discriminate (eq_trans (eq_sym Hk) Z0)). apply nth_error_Some in Q. lia. }
  rewrite He in He'. injection He' as <-. exists e, v. auto.
Qed.

(** for the examples *)
Lemma load_done b doc w : snd (load b doc w) = Ok tt -> load b doc w = (fst (fst (load b doc w)), snd (fst (load b doc w)), Ok tt).
Proof. destruct (load b doc w) as [[w' d'] r]. cbn. now intros ->. Qed.
Lemma exported_differ w1 w2 b d1 d2 : blueprint_doc w1 b = Ok (VDict [(KS "blueprint", VDict d1)]) -> blueprint_doc w2 b = Ok (VDict [(KS "blueprint", VDict d2)]) ->
  dget "entities" d1 <> dget "entities" d2 -> ~ same_entities_exported w1 w2 b.
Proof. intros D1 D2 N S. exact (N (S d1 d2 D1 D2)). Qed.
