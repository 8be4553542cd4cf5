(** * Proofs about blueprints made from the exchange string of another (C55). *)
From Coq Require Import Lia Permutation Sorting.Sorted.
From Verif Require Import Py Num NumFacts SpecCodec JsonFacts Codec CodecProofs BpString Util SpecUtil UtilFacts Classes Mixins Entity World
  SpecWorld SpecDoc SpecEntity SpecTrip SpecBlueprint SpecReload DictFacts LayerProofs WireProofs ExportProofs ParseProofs BlueTrip ShapeProofs JeqProofs ReloadProofs KeyedProofs KeyedLoad.
Open Scope Z_scope.

Lemma jeq_trans a : forall b c, jeq a b -> jeq b c -> jeq a c.
Proof.
  induction a as [|a0|a0|a0|a0|l F|d F] using val_ind'; intros b c J1 J2; try (apply jeq_atom in J1; [|exact I]; subst; auto; fail).
  - destruct (jeq_list_inv _ _ J1) as (m & -> & F1). destruct (jeq_list_inv _ _ J2) as (m' & -> & F2). constructor. clear J1 J2. revert m' F2.
    induction F1 as [|x y l m J F1 IH]; intros m' F2; inversion F2 as [|? y' ? m2 J' F2']; subst; constructor; inversion F; subst; eauto.
  - destruct (jeq_dict_inv _ _ J1) as (e & -> & S1). destruct (jeq_dict_inv _ _ J2) as (e' & -> & S2). constructor.
    + intros k v E. destruct (proj1 S1 k v E) as (u & E1 & Ju). destruct (proj1 S2 k u E1) as (u' & E2 & Ju'). exists u'. split; auto.
      rewrite Forall_forall in F. exact (F _ (dget_in _ _ _ E) u u' Ju Ju').
    + intros k E. apply (proj2 S2). now apply (proj2 S1).
Qed.
Lemma same_at_trans k a b c : same_at k a b -> same_at k b c -> same_at k a c.
Proof. unfold same_at. destruct (dget k a), (dget k b), (dget k c); try tauto. intros; eapply jeq_trans; eauto. Qed.
Lemma lists_short_fun (o : dict) (k : string) l l' : lists_short o k l -> lists_short o k l' -> l = l'.
Proof. unfold lists_short. intros A B. rewrite A in B. destruct l, l'; congruence. Qed.
Lemma map_VDict_inj a b : map VDict a = map VDict b -> a = b.
Proof. revert b. induction a as [|x a IH]; destruct b as [|y b]; cbn; try discriminate; auto. intros [= -> E]. f_equal. auto. Qed.

Section Gen.
Context (p : protos) (d o o2 : dict) (kws es es2 : list dict) (order : list nat).
Context (WH : whole p d kws) (SK : str_keys (VDict d)) (ST : string_types p) (PS : proper_sides kws)
  (SB : same_blueprint p d kws o) (JL : json_like (VDict o)).
Context (BY : by_place kws order) (LS : lists_short o "entities" (map VDict es)) (LE : length es = length order)
  (EA : forall k i e, nth_error order k = Some i -> nth_error es k = Some e -> entity_again p kws order k i e).
Let es' := map as_document es.
Lemma g_JE e : In e es -> json_like (VDict e).
Proof.
  intros I. unfold lists_short in LS. destruct (map VDict es) as [|v0 vs] eqn:M; [destruct es; [destruct I|discriminate]|]. rewrite <- M in LS.
  eapply like_list; [eapply like_get; [exact JL|exact LS]|]. now apply in_map.
Qed.
Lemma g_place : by_place es' (seq 0 (length es')).
Proof. exact (in_place p d kws es order WH SK PS BY LE EA g_JE). Qed.
Lemma g_says k s m t col : says_wire es' k s m t col <->
  (s = 1 \/ s = 2) /\ exists i j t' kw, nth_error order k = Some i /\ nth_error order m = Some j /\ nth_error kws j = Some kw /\ wired kws i s j t' col /\ read_side p kw s t.
Proof. exact (read_says p d kws es order WH SK PS BY LE EA k s m t col). Qed.
Lemma read_fun kw s t t' : read_side p kw s t -> read_side p kw s t' -> t = t'.
Proof. unfold read_side. intros [[A ->]|[A ->]] [[B ->]|[B ->]]; tauto. Qed.
Lemma wired_sym i s j t col : wired kws i s j t col -> wired kws j t i s col.
Proof. unfold wired. tauto. Qed.
Lemma g_wired (FA : faithful p kws) k s m t col i j : nth_error order k = Some i -> nth_error order m = Some j -> wired es' k s m t col <-> wired kws i s j t col.
Proof.
  intros Oi Oj. split.
  - intros [H|H]; apply g_says in H as (_ & i' & j' & t' & kw & Oi' & Oj' & Hj & W & R).
    + assert (i' = i) by congruence. assert (j' = j) by congruence. subst i' j'. now rewrite (read_fun kw s t t' R (FA _ _ _ _ _ _ W Hj)).
    + assert (i' = j) by congruence. assert (j' = i) by congruence. subst i' j'. apply wired_sym. now rewrite (read_fun kw t s t' R (FA _ _ _ _ _ _ W Hj)).
  - intros W. left. apply g_says. split; [apply (PS j t i s col); now apply wired_sym|].
    destruct (nth_error kws j) as [kw|] eqn:Hj; [|apply nth_error_None in Hj; pose proof (order_in kws es order BY LE _ _ Oj); lia].
    exists i, j, t, kw. split; [auto|]. split; [auto|]. split; [auto|]. split; [auto|]. exact (FA _ _ _ _ _ _ W Hj).
Qed.
Lemma seq_nth_id n k i : nth_error (seq 0 n) k = Some i <-> i = k /\ (k < n)%nat.
Proof.
  split.
  - intros H. assert (L : (k < length (seq 0 n))%nat) by (apply nth_error_Some; congruence). rewrite seq_length in L. split; auto.
    apply (nth_error_nth _ _ 0%nat) in H. rewrite seq_nth in H by auto. lia.
  - intros (-> & L). rewrite (nth_error_nth' _ 0%nat) by (rewrite seq_length; auto). f_equal. rewrite seq_nth by auto. lia.
Qed.

Context (SB2 : same_blueprint p (as_document o) es' o2) (LS2 : lists_short o2 "entities" (map VDict es2)).
Lemma g_second : length es2 = length es /\
  (forall k (e : dict), nth_error es2 k = Some e -> entity_again p es' (seq 0 (length es')) k k e) /\
  exists l m, lists (as_document o) "schedules" l /\ lists_short o2 "schedules" m /\ Forall2 (schedule_again es' (seq 0 (length es'))) l m.
Proof.
  destruct (sb_entities _ _ _ _ SB2) as (order2 & es3 & BY2 & LS3 & LE2 & EA2 & SC2).
  apply (lists_short_fun _ _ _ _ LS2) in LS3. apply map_VDict_inj in LS3. subst es3.
  assert (order2 = seq 0 (length es')) by (eapply by_place_fun; [exact BY2|exact g_place]). subst order2.
  rewrite seq_length in LE2. assert (L : length es' = length es) by apply map_length. split; [etransitivity; [exact LE2|exact L]|]. split; auto.
  intros k e E. apply EA2; auto. apply seq_nth_id. split; auto. rewrite <- LE2. apply nth_error_Some. intros C. pose proof (eq_trans (eq_sym E) C) as X. discriminate X.
Qed.
Lemma g_nth k e : nth_error es k = Some e -> nth_error es' k = Some (as_document e).
Proof. intros. unfold es'. now apply map_nth_error. Qed.
Lemma g_in_place : length es2 = length es /\ forall k (e e2 : dict), nth_error es k = Some e -> nth_error es2 k = Some e2 ->
  says_again e e2 /\ dget "entity_number" e2 = dget "entity_number" e.
Proof.
  destruct g_second as (L & H & _). split; auto. intros k e e2 E E2. destruct (H k e2 E2) as ((kw & Hk & SA) & N & _).
  rewrite (g_nth k e E) in Hk. injection Hk as <-. split.
  - intros q N1 N2. specialize (SA q N1 N2). destruct q as [x|z].
    + unfold same_at in *. rewrite (es_get p d kws es order WH SK PS BY LE EA g_JE k e x E) in SA by congruence. exact SA.
    + unfold same_at in *. rewrite doc_int in SA. destruct (dget (KI z) e) as [v|] eqn:D; auto.
      destruct (es_only p d kws es order WH SK PS BY LE EA k e E (KI z) v (dget_in _ _ _ D)) as (? & [=]).
  - destruct (es_from p kws es order LE EA k e E) as (i & kw & _ & _ & _ & (_ & N' & _)). congruence.
Qed.
Lemma g_same (FA : faithful p kws) : same_blueprint p d kws o2.
Proof.
  destruct g_second as (L2 & E2 & SC2). pose proof (o_get p d o kws SB) as OG.
  assert (L' : length es' = length es) by apply map_length.
  constructor.
  - exact (sb_keys _ _ _ _ SB2).
  - rewrite (sb_item _ _ _ _ SB2), OG, (sb_item _ _ _ _ SB). cbn. f_equal. apply as_json_id. destruct (dget "item" d) as [v|] eqn:E; [|exact I]. eapply str_get; eauto.
  - rewrite (sb_version _ _ _ _ SB2), OG, (sb_version _ _ _ _ SB). cbn. f_equal. apply as_json_id. destruct (dget "version" d) as [v|] eqn:E; [|exact I]. eapply str_get; eauto.
  - rewrite (sb_label _ _ _ _ SB2), OG, (sb_label _ _ _ _ SB). destruct (dget "label" d) as [v|] eqn:E; [|reflexivity]. cbn. f_equal. apply as_json_id. eapply str_get; eauto.
  - eapply same_at_trans; [exact (sb_colour _ _ _ _ SB)|]. pose proof (sb_colour _ _ _ _ SB2) as C. unfold same_at in *. rewrite OG in C.
    destruct (dget "label_color" o) as [u|] eqn:EO; auto. cbn in C. pose proof (sb_colour _ _ _ _ SB) as C1. unfold same_at in C1. rewrite EO in C1.
    destruct (dget "label_color" d) as [v|] eqn:ED; [|tauto]. rewrite as_json_id in C; auto. eapply jeq_str; [exact C1|eapply str_get; eauto|eapply like_get; eauto].
  - destruct (sb_icons _ _ _ _ SB) as (l & m & LI & EM & IA). destruct (sb_icons _ _ _ _ SB2) as (m' & m2 & LI2 & EM2 & IA2). exists l, m2. split; auto. split; auto.
    assert (m' = m).
    { eapply lists_fun; [exact LI2|]. left. rewrite OG, EM. cbn [option_map]. rewrite as_json_list, list_id; [reflexivity|]. intros u I. exact (icons_str d o SK JL l m u LI EM IA I). }
    subst m'. destruct IA as (A & B & _). destruct IA2 as (A2 & B2 & S2). split; [|split; auto].
    + intros v I. destruct (A v I) as (u & Iu & J). destruct (A2 u Iu) as (u2 & Iu2 & J2). exists u2. split; auto. eapply jeq_trans; eauto.
    + intros u2 I. destruct (B2 u2 I) as (u & Iu & J). destruct (B u Iu) as (v & Iv & J2). exists v. split; auto. eapply jeq_trans; eauto.
  - exists order, es2. split; auto. split; auto. split; [exact (eq_trans L2 LE)|]. split.
    + intros k i e2 Oi Ek2. assert (LK : (k < length es)%nat) by (rewrite <- L2; apply nth_error_Some; congruence).
      destruct (nth_error es k) as [e|] eqn:Ek; [|apply nth_error_None in Ek; lia]. destruct (EA k i e Oi Ek) as ((kw & Hk & SA) & N & _).
      destruct (proj2 g_in_place k e e2 Ek Ek2) as (SA2 & N2). destruct (E2 k e2 Ek2) as (_ & _ & PO & TW & NW).
      assert (OIN : forall m, (m < length es)%nat -> exists j, nth_error order m = Some j).
      { intros m LM. rewrite LE in LM. destruct (nth_error order m) as [j|] eqn:O; [eauto|apply nth_error_None in O; lia]. }
      assert (WIX : forall s m t col, wired es' k s m t col -> (m < length es)%nat).
      { intros s m t col [(a & b & _ & _ & _ & _ & _ & _ & _ & H & _)|(a & b & _ & _ & _ & _ & _ & _ & H & _)]; rewrite <- L'; apply nth_error_Some; congruence. }
      split; [exists kw; split; auto; intros q N3 N4; eapply same_at_trans; eauto|]. split; [congruence|]. split.
      * intros s col. destruct (PO s col) as (ends & vs & ND & IN & PV & FV).
        assert (EN : forall m t, In (m, t) ends -> exists j, nth_error order m = Some j /\ wired kws i s j t col).
        { intros m t I. apply IN in I. destruct (OIN m (WIX _ _ _ _ I)) as (j & Oj). exists j. split; auto. now apply (g_wired FA k s m t col i j Oi Oj). }
        exists (map (fun mt => (nth (fst mt) order 0%nat, snd mt)) ends), vs. split; [|split; [|split; auto]].
        -- clear - ND EN BY. induction ends as [|[m t] ends IH]; [constructor|]. inversion ND; subst. cbn [map]. constructor; [|apply IH; auto; intros; apply EN; now right].
           intros I. apply in_map_iff in I as ([m' t'] & [= Q1 Q2] & I). cbn in Q1, Q2. subst t'. destruct (EN m t (or_introl eq_refl)) as (j & Oj & _). destruct (EN m' t (or_intror I)) as (j' & Oj' & _).
           rewrite (nth_error_nth _ _ 0%nat Oj), (nth_error_nth _ _ 0%nat Oj') in Q1. subst j'. rewrite (order_inj kws order BY m m' j Oj Oj') in *. contradiction.
        -- intros j t. split.
           ++ intros I. apply in_map_iff in I as ([m t'] & [= <- <-] & I). destruct (EN m t' I) as (j & Oj & W). cbn. now rewrite (nth_error_nth _ _ 0%nat Oj).
           ++ intros W. assert (LJ : (j < length kws)%nat).
              { destruct W as [(a & b & _ & _ & _ & _ & _ & _ & _ & H & _)|(a & b & _ & _ & _ & _ & _ & _ & H & _)]; apply nth_error_Some; congruence. }
              assert (IJ : In j order) by (apply (Permutation_in _ (proj1 BY)), in_seq; lia). apply In_nth_error in IJ as (m & Oj).
              apply in_map_iff. exists (m, t). cbn. split; [now rewrite (nth_error_nth _ _ 0%nat Oj)|]. apply IN. now apply (g_wired FA k s m t col i j Oi Oj).
        -- clear PV IN ND PO NW. induction FV as [|[m t] v ends vs W FV IH]; [constructor|]. cbn [map fst snd] in *. constructor; [|apply IH; intros; apply EN; now right].
           cbn [fst]. destruct (EN m t (or_introl eq_refl)) as (j & Oj & _). rewrite (nth_error_nth _ _ 0%nat Oj). destruct W as (m' & kw' & Hm & Hk' & W). apply seq_nth_id in Hm as (<- & LM).
           rewrite L' in LM. destruct (nth_error es m) as [em|] eqn:Em; [|apply nth_error_None in Em; lia]. rewrite (g_nth m em Em) in Hk'. injection Hk' as <-.
           destruct (nth_error kws j) as [kwj|] eqn:Hj; [|apply nth_error_None in Hj; pose proof (order_in kws es order BY LE _ _ Oj); lia].
           pose proof (two_port_again p d kws es order WH SK PS BY LE EA g_JE m em j kwj Em Oj Hj) as TP. exists m, kwj. split; auto. split; auto. rewrite <- TP. exact W.
      * split; auto. intros H. apply NW. intros s m t col W. destruct (OIN m (WIX _ _ _ _ W)) as (j & Oj). apply (g_wired FA k s m t col i j Oi Oj) in W. exact (H _ _ _ _ W).
    + destruct (sb_entities _ _ _ _ SB) as (order1 & es1 & BY1 & LS1 & _ & _ & (l & m & LL & LM & F)).
      assert (order1 = order) by (eapply by_place_fun; eauto). subst order1.
      destruct SC2 as (m' & m2 & LM' & LM2 & F2). exists l, m2. split; auto. split; auto.
      assert (SM : forall u, In u m -> str_keys u).
      { intros u I. destruct (Forall2_In_r _ _ _ _ F I) as (v & Iv & (dv & nums & plan & nums' & -> & E1 & E3 & -> & FN)).
        assert (SP : str_keys plan) by (eapply str_get; [eapply lists_str; eauto|exact E3]).
        cbn [str_keys]. split; [eauto|]. split; [apply (str_all nums'); intros v Hv; destruct (Forall2_In_r _ _ _ _ FN Hv) as (? & _ & (? & ? & ? & _ & _ & _ & ->)); exact Logic.I|]. split; [eauto|]. auto. }
      assert (m' = m).
      { eapply lists_fun; [exact LM'|]. unfold lists_short in LM. unfold lists. rewrite OG, LM. destruct m as [|u0 m0]; [right; auto|]. left. cbn [option_map]. rewrite as_json_list, list_id; auto. }
      subst m'. clear - F F2 LE L' WH SK PS BY EA. revert m2 F2. induction F as [|v u l m SA F IH]; intros m2 F2; inversion F2 as [|? u2 ? m3 SA2 F3]; subst; constructor; auto.
      destruct SA as (dv & nums & plan & nums' & -> & E1 & E2 & -> & FN). destruct SA2 as (du & nums1 & plan1 & nums2 & [= <-] & E3 & E4 & -> & FN2).
      cbn in E3, E4. injection E3 as <-. injection E4 as <-. exists dv, nums, plan, nums2. split; auto. split; auto. split; auto. split; auto.
      clear - FN FN2 LE L' WH SK PS BY EA. revert nums2 FN2. induction FN as [|n n' nums nums' (k & i & kw & O & Hk & N & ->) FN IH]; intros nums2 FN2; inversion FN2 as [|? n2 ? nums3 Q FN3]; subst; constructor; auto.
      destruct Q as (k' & i' & e' & O' & He & N' & ->). exists k, i, kw. split; auto. split; auto. split; auto. apply seq_nth_id in O' as (<- & LK). rewrite L' in LK.
      destruct (nth_error es i') as [e|] eqn:Ee; [|apply nth_error_None in Ee; lia]. rewrite (g_nth i' e Ee) in He. injection He as <-.
      apply (es_number p d kws es order WH SK PS BY LE EA i' e (Z.of_nat k + 1) Ee) in N'. f_equal. lia.
Qed.
End Gen.

(** ** the string in between *)
Lemma first_stage w b doc d kws : reachable w -> ready_for w b d -> holds doc d -> whole (w_protos w) d kws ->
  exists w1 doc1 w2 o, load b doc w = (w1, doc1, Ok tt) /\ bp_json b w1 = (w2, Ok (wrap o)) /\ same_blueprint (w_protos w) d kws o /\
    reachable w2 /\ w_protos w2 = w_protos w.
Proof.
  intros R (x & Hx & O & CU & LC) HD WH. destruct (p_C35 w b x doc d kws R Hx O CU LC HD WH) as (w1 & doc1 & w2 & o & L & J & SB).
  exists w1, doc1, w2, o. split; auto. split; auto. split; auto.
  destruct (load_whole w b x doc d kws R Hx O CU HD WH) as (w1' & doc1' & x1 & L' & PW & _). rewrite L in L'. injection L' as <- <-.
  assert (R1 : reachable w1) by (pose proof (reach_step w (OLoad b doc) R I) as R1; cbn [step] in R1; rewrite L in R1; exact R1).
  assert (R2 : reachable w2) by (pose proof (reach_step w1 (OExport b) R1 I) as R2; cbn [step] in R2; unfold drop_res in R2; rewrite J in R2; exact R2).
  split; auto. destruct (bp_json_ok _ _ _ _ J) as (x2 & vs & ic & sc & o' & _ & MM & _). destruct (mapMM_sims _ _ _ _ _ sims_ent_json MM) as (P & _). congruence.
Qed.
Lemma second_stage z w2 o es kws p d strict s : lossless z -> reachable w2 -> w_protos w2 = p -> json_like (wrap o) -> encode z (wrap o) = Ok s ->
  fine_document p d kws -> same_blueprint p d kws o -> lists_short o "entities" (map VDict es) ->
  exists w3 w4 o2, bp_construct z strict [] (Some s) None w2 = (w3, Ok (length (w_bps w2))) /\ bp_json (length (w_bps w2)) w3 = (w4, Ok (wrap o2)) /\
    same_blueprint p (as_document o) (map as_document es) o2.
Proof.
  intros LZ R PW JW ES (WH & SK & ST & PS & _) SB LS.
  assert (JL : json_like (VDict o)) by (apply (like_in (KS "blueprint") (VDict o) _ JW); now left).
  destruct (sb_entities _ _ _ _ SB) as (order & es1 & BY & LS1 & LE & EA & SC). pose proof (lists_short_fun _ _ _ _ LS LS1) as Q. apply map_VDict_inj in Q. subst es1. clear LS1.
  pose proof (whole_again p d o kws WH SK ST PS SB JL order es BY LS LE EA SC) as W2.
  destruct (p_C01_roundtrip z (wrap o) LZ JW) as (s' & E1 & E2). rewrite ES in E1. injection E1 as <-.
  set (b2 := length (w_bps w2)). set (wn := new_bp (empty_bp strict []) w2).
  assert (Rn : reachable wn) by exact (reach_step w2 (ONewBlueprint strict []) R I).
  assert (Hb : blu wn b2 = Some (empty_bp strict [])) by (unfold blu, wn, new_bp, b2; cbn; rewrite nth_error_app2, Nat.sub_diag by auto; reflexivity).
  assert (HD : holds (as_json (wrap o)) (as_document o)) by (right; eexists; split; reflexivity).
  destruct (p_C35 wn b2 _ (as_json (wrap o)) (as_document o) (map as_document es) Rn Hb eq_refl eq_refl (or_introl eq_refl) HD) as (w3 & doc3 & w4 & o2 & L & J & SB2).
  { unfold wn, new_bp; cbn. rewrite PW. exact W2. }
  exists w3, w4, o2. split; [|split; auto].
  - unfold bp_construct, new_blueprint, mbind, gets. fold b2. fold wn. rewrite E2. cbn [bind]. unfold wrap, as_json. cbn [map fst snd]. fold (as_json (VDict o)).
    change (VDict [(KS (json_key (KS "blueprint")), as_json (VDict o))]) with (as_json (wrap o)). rewrite L. reflexivity.
  - unfold wn, new_bp in SB2; cbn in SB2. now rewrite PW in SB2.
Qed.
Lemma first_like w b doc d kws w1 doc1 w2 o : reachable w -> ready_for w b d -> holds doc d -> fine_document (w_protos w) d kws ->
  load b doc w = (w1, doc1, Ok tt) -> bp_json b w1 = (w2, Ok (wrap o)) -> json_like (wrap o).
Proof.
  intros R RD HD F L J. destruct (first_stage w b doc d kws R RD HD (proj1 F)) as (w1' & doc1' & w2' & o' & L' & J' & SB & R2 & P2).
  rewrite L in L'. injection L' as <- <-. rewrite J in J'. injection J' as <- <-. destruct RD as (x & Hx & O & CU & _). destruct F as (WH & SK & ST & PS & JD).
  exact (export_like w b x doc d kws w1 doc1 w2 o R Hx O CU HD WH SK JD ST PS L J SB).
Qed.
Lemma p_C55_reload z w b doc d kws : lossless z -> reachable w -> ready_for w b d -> holds doc d -> fine_document (w_protos w) d kws ->
  exists o, json_like (wrap o) /\ forall strict, exists o2, generations z w b doc strict o o2.
Proof.
  intros LZ R RD HD F. destruct (first_stage w b doc d kws R RD HD (proj1 F)) as (w1 & doc1 & w2 & o & L & J & SB & R2 & P2).
  pose proof (first_like _ _ _ _ _ _ _ _ _ R RD HD F L J) as JW. exists o. split; auto. intros strict. destruct (p_C01_roundtrip z (wrap o) LZ JW) as (s & ES & _).
  destruct (sb_entities _ _ _ _ SB) as (order & es & _ & LS & _).
  destruct (second_stage z w2 o es kws _ d strict s LZ R2 P2 JW ES F SB LS) as (w3 & w4 & o2 & C & J2 & _).
  exists o2, w1, doc1, w2, s, w3, w4. split; auto. split; auto. split; [|auto]. unfold bp_to_string, mbind, gets. rewrite J. cbn. now rewrite ES.
Qed.
Lemma gen_like z w b doc d kws strict o o2 : reachable w -> ready_for w b d -> holds doc d -> fine_document (w_protos w) d kws ->
  generations z w b doc strict o o2 -> json_like (wrap o).
Proof. intros R RD HD F (w1 & doc1 & w2 & s & w3 & w4 & L & J & _). eapply first_like; eauto. Qed.
Lemma gen_facts z w b doc d kws strict o o2 es : lossless z -> reachable w -> ready_for w b d -> holds doc d -> fine_document (w_protos w) d kws ->
  json_like (wrap o) -> generations z w b doc strict o o2 -> lists_short o "entities" (map VDict es) ->
  same_blueprint (w_protos w) d kws o /\ same_blueprint (w_protos w) (as_document o) (map as_document es) o2.
Proof.
  intros LZ R RD HD F JW (w1 & doc1 & w2 & s & w3 & w4 & L & J & TS & C & J2) LS.
  destruct (first_stage w b doc d kws R RD HD (proj1 F)) as (w1' & doc1' & w2' & o' & L' & J' & SB & R2 & P2).
  rewrite L in L'. injection L' as <- <-. rewrite J in J'. injection J' as <- <-. split; auto.
  unfold bp_to_string, mbind, gets in TS. rewrite J in TS. injection TS as ES.
  destruct (second_stage z w2 o es kws _ d strict s LZ R2 P2 JW ES F SB LS) as (w3' & w4' & o2' & C' & J2' & SB2).
  rewrite C in C'. injection C' as <-. rewrite J2 in J2'. injection J2' as <- <-. exact SB2.
Qed.
Lemma p_C55_same z w b doc d kws strict o o2 : lossless z -> reachable w -> ready_for w b d -> holds doc d -> fine_document (w_protos w) d kws ->
  generations z w b doc strict o o2 -> faithful (w_protos w) kws -> same_blueprint (w_protos w) d kws o2.
Proof.
  intros LZ R RD HD F G FA. pose proof (gen_like _ _ _ _ _ _ _ _ _ R RD HD F G) as JW. pose proof G as (w1 & doc1 & w2 & s & w3 & w4 & L & J & _).
  destruct (first_stage w b doc d kws R RD HD (proj1 F)) as (w1' & doc1' & w2' & o' & L' & J' & SB & R2 & P2).
  rewrite L in L'. injection L' as <- <-. rewrite J in J'. injection J' as <- <-.
  destruct (sb_entities _ _ _ _ SB) as (order & es & BY & LS & LE & EA & _). destruct (gen_facts _ _ _ _ _ _ _ _ _ es LZ R RD HD F JW G LS) as (_ & SB2).
  assert (JL : json_like (VDict o)) by (apply (like_in (KS "blueprint") (VDict o) _ JW); now left). destruct F as (WH & SK & ST & PS & _).
  destruct (sb_entities _ _ _ _ SB2) as (_ & es2 & _ & LS2 & _). eapply g_same; eauto.
Qed.
Lemma p_C55_in_place z w b doc d kws strict o o2 es es2 : lossless z -> reachable w -> ready_for w b d -> holds doc d -> fine_document (w_protos w) d kws ->
  generations z w b doc strict o o2 -> lists_short o "entities" (map VDict es) -> lists_short o2 "entities" (map VDict es2) ->
  length es2 = length es /\ forall k (e e2 : dict), nth_error es k = Some e -> nth_error es2 k = Some e2 ->
    says_again e e2 /\ dget "entity_number" e2 = dget "entity_number" e.
Proof.
  intros LZ R RD HD F G LS LS2. pose proof (gen_like _ _ _ _ _ _ _ _ _ R RD HD F G) as JW. destruct (gen_facts _ _ _ _ _ _ _ _ _ es LZ R RD HD F JW G LS) as (SB & SB2).
  assert (JL : json_like (VDict o)) by (apply (like_in (KS "blueprint") (VDict o) _ JW); now left). destruct F as (WH & SK & ST & PS & _).
  destruct (sb_entities _ _ _ _ SB) as (order & es1 & BY & LS1 & LE & EA & _). pose proof (lists_short_fun _ _ _ _ LS LS1) as Q. apply map_VDict_inj in Q. subst es1.
  eapply g_in_place; eauto.
Qed.
Lemma p_C55_wires z w b doc d kws strict o o2 es : lossless z -> reachable w -> ready_for w b d -> holds doc d -> fine_document (w_protos w) d kws ->
  generations z w b doc strict o o2 -> lists_short o "entities" (map VDict es) ->
  same_blueprint (w_protos w) (as_document o) (map as_document es) o2 /\
  exists order, by_place kws order /\ forall k s m t col, says_wire (map as_document es) k s m t col <->
    exists i j t' kw, nth_error order k = Some i /\ nth_error order m = Some j /\ nth_error kws j = Some kw /\
      wired kws i s j t' col /\ read_side (w_protos w) kw s t.
Proof.
  intros LZ R RD HD F G LS. pose proof (gen_like _ _ _ _ _ _ _ _ _ R RD HD F G) as JW. destruct (gen_facts _ _ _ _ _ _ _ _ _ es LZ R RD HD F JW G LS) as (SB & SB2). split; auto.
  destruct F as (WH & SK & ST & PS & _).
  destruct (sb_entities _ _ _ _ SB) as (order & es1 & BY & LS1 & LE & EA & _). pose proof (lists_short_fun _ _ _ _ LS LS1) as Q. apply map_VDict_inj in Q. subst es1.
  exists order. split; auto. intros k s m t col. rewrite (g_says (w_protos w) d kws es order WH SK PS BY LE EA). split; [intros (_ & H); exact H|].
  intros (i & j & t' & kw & A & B & C & W & D). split; [apply (PS j t' i s col); unfold wired in *; tauto|]. eauto 10.
Qed.
