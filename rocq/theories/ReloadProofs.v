(** * The export of a well-formed document is a well-formed document. *)
From Coq Require Import Lia Permutation Sorting.Sorted.
From Verif Require Import Py Num NumFacts SpecCodec JsonFacts CodecProofs Util SpecUtil UtilFacts Classes Mixins Entity World
  SpecWorld SpecDoc SpecEntity SpecTrip SpecBlueprint SpecReload DictFacts LayerProofs WireProofs ExportProofs ParseProofs BlueTrip ShapeProofs JeqProofs.
Open Scope Z_scope.

(** ** documents with string keys *)
Lemma str_list l v : str_keys (VList l) -> In v l -> str_keys v.
Proof. induction l as [|x l IH]; cbn [str_keys]; intros H []; destruct H as [H1 H2]; [subst; auto|apply IH; auto]. Qed.
Lemma str_in (k : key) v d : str_keys (VDict d) -> In (k, v) d -> (exists s, k = KS s) /\ str_keys v.
Proof.
  induction d as [|[k' x] d IH]; cbn [str_keys]; intros H [].
  - injection H0 as -> ->. destruct H as (A & B & _). auto.
  - apply IH; auto. destruct H as (_ & _ & H). exact H.
Qed.
Lemma str_get (k : key) v d : str_keys (VDict d) -> dget k d = Some v -> (exists s, k = KS s) /\ str_keys v.
Proof. intros H E. apply (str_in k v d); auto. now apply dget_in. Qed.
Lemma like_list l v : json_like (VList l) -> In v l -> json_like v.
Proof. induction l as [|x l IH]; cbn [json_like]; intros H []; destruct H as [H1 H2]; [subst; auto|apply IH; auto]. Qed.
Lemma like_in (k : key) v d : json_like (VDict d) -> In (k, v) d -> json_like v.
Proof.
  intros (_ & H) I. revert H I. induction d as [|[k' x] d IH]; intros H []; destruct H as (_ & H1 & H2).
  - injection H0 as -> ->. auto.
  - apply IH; auto.
Qed.
Lemma like_nodup d : json_like (VDict d) -> NoDup (map fst d).
Proof. intros (H & _). rewrite <- map_map in H. now apply NoDup_map_inv in H. Qed.
Lemma like_get (k : key) v d : json_like (VDict d) -> dget k d = Some v -> json_like v.
Proof. intros H E. apply (like_in k v d); auto. now apply dget_in. Qed.
Lemma str_dict (d : dict) : (forall k v, In (k, v) d -> (exists s, k = KS s) /\ str_keys v) -> str_keys (VDict d).
Proof.
  induction d as [|[k x] d IH]; cbn [str_keys]; intros H; [exact I|]. destruct (H k x (or_introl eq_refl)) as (A & B).
  split; auto. split; auto. apply IH. intros; apply H. now right.
Qed.
Lemma str_all l : (forall v, In v l -> str_keys v) -> str_keys (VList l).
Proof. induction l as [|x l IH]; cbn [str_keys]; intros H; [exact I|]. split; [apply H; now left|]. apply IH. intros; apply H; now right. Qed.
Lemma jeq_str u : forall v, jeq v u -> str_keys v -> json_like u -> str_keys u.
Proof.
  induction u as [|b|z|f|s|l F|e F] using val_ind'; intros v J K L; try exact I.
  - apply str_all. intros y Hy. rewrite Forall_forall in F. inversion J as [|l0 m FJ|]; subst; [exact (str_list _ _ K Hy)|].
    destruct (Forall2_In_r _ _ _ _ FJ Hy) as (x & Hx & JX). eapply F; eauto; [eapply str_list; eauto|eapply like_list; eauto].
  - apply str_dict. intros k y Hy. rewrite Forall_forall in F. inversion J as [| |d0 e0 A B]; subst; [exact (str_in _ _ _ K Hy)|].
    assert (E : dget k e = Some y) by (apply in_dget_nd; auto; now apply like_nodup).
    assert (S : dsim d0 e) by (split; auto). destruct (ds_back _ _ S _ _ E) as (x & D & JX). destruct (str_get _ _ _ K D) as (KK & KX). split; auto.
    apply (F _ Hy x); auto. eapply like_in; eauto.
Qed.

(** ** reading dictionaries of the document *)
Definition KSonly (d : dict) : Prop := forall k v, In (k, v) d -> exists s, k = KS s.
Lemma doc_get d s : KSonly d -> dget (KS s) (as_document d) = option_map as_json (dget (KS s) d).
Proof.
  induction d as [|[k v] d IH]; intros K; [reflexivity|]. cbn [as_document map dget fst snd]. destruct (K k v (or_introl eq_refl)) as (x & ->). cbn [json_key].
  destruct (key_eqb (KS s) (KS x)); [reflexivity|]. apply IH. intros k0 v0 I. apply (K k0 v0). now right.
Qed.
Lemma doc_int d z : dget (KI z) (as_document d) = None.
Proof. induction d as [|[k v] d IH]; [reflexivity|]. cbn [as_document map dget fst snd key_eqb]. exact IH. Qed.
Lemma doc_all d : all_KS (as_document d) = true.
Proof. induction d as [|[k v] d IH]; [reflexivity|]. exact IH. Qed.
Lemma in_dget_some {V} (k : key) (v : V) d : In (k, v) d -> dget k d <> None.
Proof.
  induction d as [|[k' v'] d IH]; [intros []|]. cbn [dget]. destruct (key_eqb k k') eqn:E; [discriminate|].
  intros [[= -> ->]|I]; [now rewrite key_eqb_refl in E|auto].
Qed.
Lemma within_only d ks : keys_within d ks -> KSonly d.
Proof. intros K k v I. destruct (K k (in_dget_some _ _ _ I)) as (s & -> & _). eauto. Qed.
Lemma as_json_dict d : as_json (VDict d) = VDict (as_document d).
Proof. reflexivity. Qed.

(** ** the entities of an export *)
Section Again.
Context (p : protos) (d o : dict) (kws es : list dict) (order : list nat).
Context (WH : whole p d kws) (SK : str_keys (VDict d)) (ST : string_types p) (PS : proper_sides kws).
Context (BY : by_place kws order) (LE : length es = length order)
  (EA : forall k i e, nth_error order k = Some i -> nth_error es k = Some e -> entity_again p kws order k i e)
  (JE : forall e, In e es -> json_like (VDict e)).

Lemma kw_str kw : In kw kws -> str_keys (VDict kw).
Proof.
  intros I. destruct (wh_entities _ _ _ WH) as [E|[_ E]]; [|destruct kws; [destruct I|discriminate]].
  destruct (str_get _ _ _ SK E) as (_ & S). eapply str_list; [exact S|]. now apply in_map.
Qed.
Lemma es_from k e : nth_error es k = Some e -> exists i kw, nth_error order k = Some i /\ nth_error kws i = Some kw /\ says_again kw e /\ entity_again p kws order k i e.
Proof.
  intros E. assert (L : (k < length order)%nat) by (rewrite <- LE; apply nth_error_Some; congruence).
  destruct (nth_error order k) as [i|] eqn:O; [|apply nth_error_None in O; lia]. pose proof (EA k i e O E) as A. pose proof A as ((kw & Hk & S) & _). eauto 10.
Qed.
Lemma order_in k i : nth_error order k = Some i -> (i < length kws)%nat.
Proof. intros E. destruct BY as (P & _). apply nth_error_In in E. apply (Permutation_in _ (Permutation_sym P)) in E. apply in_seq in E. lia. Qed.
Lemma order_inj k m i : nth_error order k = Some i -> nth_error order m = Some i -> k = m.
Proof.
  intros A B. destruct BY as (P & _). assert (ND : NoDup order) by (eapply Permutation_NoDup; [exact P|apply seq_NoDup]).
  rewrite NoDup_nth_error in ND. apply ND; [apply nth_error_Some; congruence|congruence].
Qed.
Lemma same_get kw e k u : says_again kw e -> k <> KS "entity_number" -> k <> KS "connections" -> dget k e = Some u -> exists v, dget k kw = Some v /\ jeq v u.
Proof. intros S N1 N2 E. specialize (S k N1 N2). unfold same_at in S. rewrite E in S. destruct (dget k kw) as [v|]; [eauto|tauto]. Qed.
Lemma same_get' kw e k v : says_again kw e -> k <> KS "entity_number" -> k <> KS "connections" -> dget k kw = Some v -> exists u, dget k e = Some u /\ jeq v u.
Proof. intros S N1 N2 E. specialize (S k N1 N2). unfold same_at in S. rewrite E in S. destruct (dget k e) as [u|]; [eauto|tauto]. Qed.
Lemma same_none kw e k : says_again kw e -> k <> KS "entity_number" -> k <> KS "connections" -> dget k kw = None -> dget k e = None.
Proof. intros S N1 N2 E. specialize (S k N1 N2). unfold same_at in S. rewrite E in S. destruct (dget k e) as [u|]; [tauto|auto]. Qed.
Lemma es_only k e : nth_error es k = Some e -> KSonly e.
Proof.
  intros E q v I. destruct (es_from k e E) as (i & kw & _ & Hk & S & _). apply in_dget_some in I.
  destruct (key_dec q (KS "entity_number")) as [->|N1]; [eauto|]. destruct (key_dec q (KS "connections")) as [->|N2]; [eauto|].
  destruct (dget q e) as [u|] eqn:D; [|congruence]. destruct (same_get kw e q u S N1 N2 D) as (v' & D' & _).
  exact (proj1 (str_get _ _ _ (kw_str kw (nth_error_In _ _ Hk)) D')).
Qed.
Lemma es_get k e (x : string) : nth_error es k = Some e -> x <> "entity_number" -> x <> "connections" -> dget (KS x) (as_document e) = dget (KS x) e.
Proof.
  intros E N1 N2. rewrite (doc_get e x (es_only k e E)). destruct (dget (KS x) e) as [u|] eqn:D; [|reflexivity]. cbn. f_equal. apply as_json_id.
  destruct (es_from k e E) as (i & kw & _ & Hk & S & _). destruct (same_get kw e (KS x) u S) as (v & Dv & J); [congruence|congruence|auto|].
  eapply jeq_str; [exact J|exact (proj2 (str_get _ _ _ (kw_str kw (nth_error_In _ _ Hk)) Dv))|]. eapply like_get; [|exact D]. apply JE. eapply nth_error_In; eauto.
Qed.
Lemma es_number k e n : nth_error es k = Some e -> has_number (as_document e) n <-> n = Z.of_nat k + 1.
Proof.
  intros E. destruct (es_from k e E) as (i & kw & _ & _ & _ & (_ & N & _)). unfold has_number. rewrite (doc_get e _ (es_only k e E)), N. cbn.
  split; [intros [= <-]; auto|intros ->; auto].
Qed.

(** the wires *)
Definition es' : list dict := map as_document es.
Lemma es'_nth k e' : nth_error es' k = Some e' -> exists e, nth_error es k = Some e /\ e' = as_document e.
Proof. unfold es'. rewrite nth_error_map. destruct (nth_error es k) as [e|]; [|discriminate]. intros [= <-]. eauto. Qed.
Lemma written_read s j m t v : (exists ed, v = VDict ed) -> written_end p kws order s j v -> end_doc v (Z.of_nat m + 1) t <->
  exists kw, nth_error order m = Some j /\ nth_error kws j = Some kw /\ read_side p kw s t.
Proof.
  intros _ (m' & kw & O & Hk & W). split.
  - intros (ed & -> & ID & CI). exists kw. destruct W as [[T W]|[T W]]; injection W as ->; cbn in ID, CI; injection ID as ID; injection CI as CI;
      assert (m' = m) by lia; subst; (split; [auto|split; [auto|]]); unfold read_side; auto.
  - intros (kw' & O' & Hk' & R). rewrite Hk in Hk'. injection Hk' as <-. assert (m' = m) by (eapply order_inj; eauto). subst m'.
    destruct W as [[T ->]|[T ->]], R as [[T' ->]|[T' ->]]; try tauto; eexists; (split; [reflexivity|]); split; reflexivity.
Qed.
Lemma written_dict s j v : written_end p kws order s j v -> exists ed, v = VDict ed /\ as_json v = v.
Proof. intros (m & kw & _ & _ & [[_ ->]|[_ ->]]); eexists; split; reflexivity. Qed.
(** lists of the document and ports of the export *)
Lemma port_in e s col l : tidy_wires e -> port (conns_of_doc e) s col = l -> l <> [] ->
  exists raw cols, dget "connections" e = Some (VDict raw) /\ In (KI s, VDict cols) raw /\ In (KS col, VList l) cols.
Proof.
  intros T E NE. unfold conns_of_doc in E. destruct (dget "connections" e) as [v|] eqn:C; [|cbn in E; congruence].
  destruct (T v C) as (raw & -> & _ & _). exists raw. unfold port in E. destruct (dget (KI s) raw) as [cv|] eqn:D; [|congruence].
  destruct cv as [| | | | | |cols]; try congruence. exists cols. destruct (dget (KS col) cols) as [lv|] eqn:D2; [|congruence].
  destruct lv as [| | | | |l'|]; try congruence. subst l'. split; auto. split; now apply dget_in.
Qed.
Lemma in_port e raw s cols col l : tidy_wires e -> dget "connections" e = Some (VDict raw) -> In (KI s, VDict cols) raw -> In (KS col, VList l) cols ->
  port (conns_of_doc e) s col = l /\ l <> [].
Proof.
  intros T C I1 I2. destruct (T _ C) as (raw' & [= <-] & _ & (ND & H)). destruct (H _ _ I1) as (s' & cols' & [= <-] & [= <-] & _ & NC & HC).
  destruct (HC _ _ I2) as (col' & l' & [= <-] & [= <-] & NE). split; auto. unfold conns_of_doc, port. rewrite C, (in_dget_nd _ _ _ ND I1), (in_dget_nd _ _ _ NC I2). auto.
Qed.
Lemma read_says k s m t col : says_wire es' k s m t col <->
  (s = 1 \/ s = 2) /\ exists i j t' kw, nth_error order k = Some i /\ nth_error order m = Some j /\ nth_error kws j = Some kw /\ wired kws i s j t' col /\ read_side p kw s t.
Proof.
  split.
  - intros (e1 & e2 & n & raw & sk & cols & l & v & E1 & E2 & N & C & I1 & SY & I2 & I3 & ED). split; [destruct SY as [[_ ->]|[_ ->]]; auto|].
    destruct (es'_nth _ _ E1) as (e & Ek & ->). destruct (es'_nth _ _ E2) as (e3 & Em & ->). apply (es_number m e3 n Em) in N. subst n.
    rewrite (doc_get e _ (es_only k e Ek)) in C. destruct (dget "connections" e) as [cv|] eqn:CE; [|discriminate]. cbn in C.
    destruct (es_from k e Ek) as (i & kw & Oi & Hk & SA & (_ & _ & PO & TW & _)). destruct (TW _ CE) as (raw0 & -> & _ & (ND & TI)).
    injection C as <-. apply in_map_iff in I1 as ([k0 cv0] & [= Q1 Q2] & I1). destruct (TI _ _ I1) as (s0 & cols0 & -> & -> & _ & _ & TC). cbn in Q1, Q2. injection Q2 as <-.
    apply in_map_iff in I2 as ([k1 lv0] & [= Q3 Q4] & I2). destruct (TC _ _ I2) as (col0 & l0 & -> & -> & _). cbn in Q3, Q4. subst col0. injection Q4 as <-.
    apply in_map_iff in I3 as (v0 & <- & I3).
    destruct (in_port e raw0 s0 cols0 col l0 TW CE I1 I2) as (PE & _). destruct (PO s0 col) as (ends & vs & _ & IN & PV & FV). rewrite PE in PV.
    destruct (Forall2_In_r _ _ _ _ FV (Permutation_in _ PV I3)) as ([j t'] & Ij & W). apply IN in Ij. cbn in W.
    assert (S0 : s0 = s).
    { assert (s0 = 1 \/ s0 = 2) by (apply (PS j t' i s0 col); unfold wired in *; tauto). subst sk. destruct SY as [[Q ->]|[Q ->]]; destruct H as [-> | ->]; auto; discriminate Q. }
    subst s0. destruct (written_dict _ _ _ W) as (ed & -> & JI). rewrite JI in ED.
    apply (written_read s j m t (VDict ed)) in ED as (kw' & Om & Hj & R); eauto. exists i, j, t', kw'. auto.
  - intros (S12 & i & j & t' & kw & Oi & Oj & Hj & W & R).
    assert (LK : (k < length es)%nat) by (rewrite LE; apply nth_error_Some; congruence). assert (LM : (m < length es)%nat) by (rewrite LE; apply nth_error_Some; congruence).
    destruct (nth_error es k) as [e|] eqn:Ek; [|apply nth_error_None in Ek; lia]. destruct (nth_error es m) as [e2|] eqn:Em; [|apply nth_error_None in Em; lia].
    destruct (EA k i e Oi Ek) as (_ & _ & PO & TW & _). destruct (PO s col) as (ends & vs & _ & IN & PV & FV). apply IN in W.
    destruct (Forall2_In_l _ _ _ _ FV W) as (v & Iv & WV). cbn in WV. apply (Permutation_in _ (Permutation_sym PV)) in Iv.
    destruct (port_in e s col _ TW eq_refl) as (raw & cols & CE & I1 & I2); [intros Q; rewrite Q in Iv; destruct Iv|].
    destruct (written_dict _ _ _ WV) as (ed & EV & JI).
    exists (as_document e), (as_document e2), (Z.of_nat m + 1), (as_document raw), (KS (decimal s)), (as_document cols), (map as_json (port (conns_of_doc e) s col)), v.
    split; [unfold es'; now apply map_nth_error|]. split; [unfold es'; now apply map_nth_error|]. split; [now apply (es_number m e2 _ Em)|].
    split; [rewrite (doc_get e _ (es_only k e Ek)), CE; reflexivity|]. split; [apply in_map_iff; exists (KI s, VDict cols); auto|].
    split; [destruct S12 as [-> | ->]; [left|right]; split; reflexivity|]. split; [apply in_map_iff; exists (KS col, VList (port (conns_of_doc e) s col)); auto|].
    split; [rewrite <- JI; now apply in_map|]. apply (written_read s j m t v); eauto.
Qed.
Lemma wires_again k e : nth_error es k = Some e -> wires_doc es' (as_document e).
Proof.
  intros Ek. unfold wires_doc. rewrite (doc_get e _ (es_only k e Ek)). destruct (dget "connections" e) as [cv|] eqn:CE; [|left; reflexivity]. right.
  destruct (es_from k e Ek) as (i & kw & Oi & Hk & SA & (_ & _ & PO & TW & _)). destruct (TW _ CE) as (raw & -> & _ & (ND & TI)).
  exists (as_document raw). split; [reflexivity|]. intros sk cv I1. apply in_map_iff in I1 as ([k0 cv0] & [= <- <-] & I1).
  destruct (TI _ _ I1) as (s & cols & -> & -> & NC & NDC & TC). cbn [fst snd json_key].
  assert (EN : forall c u, In (c, u) cols -> exists col l, c = KS col /\ u = VList l /\ l <> [] /\ forall v, In v l -> exists j t, wired kws i s j t col /\ written_end p kws order s j v).
  { intros c u I2. destruct (TC _ _ I2) as (col & l & -> & -> & NL). exists col, l. split; auto. split; auto. split; auto. intros v I3.
    destruct (in_port e raw s cols col l TW CE I1 I2) as (PE & _). destruct (PO s col) as (ends & vs & _ & IN & PV & FV). rewrite PE in PV.
    destruct (Forall2_In_r _ _ _ _ FV (Permutation_in _ PV I3)) as ([j t] & Ij & W). apply IN in Ij. eauto. }
  assert (S12 : s = 1 \/ s = 2).
  { destruct cols as [|[c u] cols]; [congruence|]. destruct (EN c u (or_introl eq_refl)) as (col & l & _ & _ & NL & H). destruct l as [|v l]; [congruence|].
    destruct (H v (or_introl eq_refl)) as (j & t & W & _). apply (PS j t i s col). unfold wired in *. tauto. }
  exists s, (as_document cols). split; [destruct S12 as [-> | ->]; [left|right]; split; reflexivity|]. split; [reflexivity|].
  intros ck lv I2. apply in_map_iff in I2 as ([c u] & [= <- <-] & I2). destruct (EN _ _ I2) as (col & l & -> & -> & _ & H).
  exists col, (map as_json l). split; [reflexivity|]. split; [reflexivity|]. intros v I3. apply in_map_iff in I3 as (v0 & <- & I3).
  destruct (H v0 I3) as (j & t & W & WE). destruct (written_dict _ _ _ WE) as (ed & EV & JI). rewrite JI.
  assert (IJ : i <> j) by (destruct W as [W|W]; apply (says_other _ _ _ WH) in W; congruence).
  destruct WE as (m & kw' & Om & Hj & WE). exists (Z.of_nat m + 1). exists (match dget "circuit_id" ed with Some (VInt t) => t | _ => 1 end).
  split.
  { exists ed. split; auto. destruct WE as [[_ ->]|[_ ->]]; injection EV as <-; split; reflexivity. }
  split.
  { intros N. apply (es_number k e _ Ek) in N. assert (m = k) by lia. subst m. congruence. }
  assert (LM : (m < length es)%nat) by (rewrite LE; apply nth_error_Some; congruence). destruct (nth_error es m) as [e2|] eqn:Em; [|apply nth_error_None in Em; lia].
  exists (as_document e2). split; [apply in_map; eapply nth_error_In; eauto|]. now apply (es_number m e2 _ Em).
Qed.
Lemma entity_doc_again k e : nth_error es k = Some e -> entity_doc p es' (as_document e).
Proof.
  intros Ek. destruct (es_from k e Ek) as (i & kw & Oi & Hk & SA & _).
  destruct (wh_entity _ _ _ WH kw (nth_error_In _ _ Hk)) as (s & ty & own & cbk & n & IF & (TY & STR & FD & RQ) & _ & NN & _).
  destruct TY as ((AK & S1 & S2 & NM & POS) & _ & (data & D1 & D2)).
  assert (GN : forall x : string, x <> "entity_number" -> x <> "connections" -> dget (KS x) kw = None -> dget (KS x) (as_document e) = None).
  { intros x N1 N2 E. rewrite (es_get k e x Ek N1 N2). apply (same_none kw e (KS x) SA); congruence. }
  assert (GS : forall (x : string) v, x <> "entity_number" -> x <> "connections" -> dget (KS x) kw = Some v -> exists u, dget (KS x) (as_document e) = Some u /\ jeq v u).
  { intros x v N1 N2 E. rewrite (es_get k e x Ek N1 N2). apply (same_get' kw e (KS x) v SA); congruence. }
  assert (GB : forall (x : string) u, x <> "entity_number" -> x <> "connections" -> dget (KS x) (as_document e) = Some u -> exists v, dget (KS x) kw = Some v /\ jeq v u).
  { intros x u N1 N2 E. rewrite (es_get k e x Ek N1 N2) in E. apply (same_get kw e (KS x) u SA); congruence. }
  exists s, ty, own, cbk, (Z.of_nat k + 1). split; auto. split; [|split; [now apply (es_number k e _ Ek)|split]].
  - split; [|split; [|split]].
    + split; [|split; [|eauto]].
      * split; [apply doc_all|]. split; [apply GN; auto; discriminate|]. split; [apply GN; auto; discriminate|]. split.
        -- destruct (GS "name" (VStr s)) as (u & E & J); [discriminate|discriminate|auto|]. now rewrite (jeq_atom _ _ J I) in E.
        -- destruct (dget "position" kw) as [v|] eqn:E; [|congruence]. destruct (GS "position" v) as (u & E' & _); [discriminate|discriminate|auto|]. congruence.
      * intros v E. rewrite (GN "strict") in E; [discriminate|discriminate|discriminate|auto].
    + apply GN; auto; discriminate.
    + intros q v E. destruct q as [x|z]; [|rewrite doc_int in E; discriminate]. exists x. split; auto.
      destruct (string_dec x "entity_number") as [->|N1]; [split; [exists "entity_number", own, cbk; split; auto; split; auto; left; cbn; tauto|left; cbn; auto]|].
      destruct (string_dec x "connections") as [->|N2]; [split; [exists "connections", own, cbk; split; auto; split; auto; left; cbn; tauto|left; cbn; auto]|].
      destruct (GB x v N1 N2 E) as (v0 & E0 & J). destruct (FD _ _ E0) as (x0 & [= <-] & U & F). split; auto. destruct F as [F|F]; [now left|right].
      eapply c_field; eauto.
    + intros x I. assert (N1 : x <> "entity_number" /\ x <> "connections").
      { unfold required in I. destruct (existsb _ _); [destruct I as [<-|[]]; split; discriminate|]. destruct (String.eqb _ _); [destruct I as [<-|[]]; split; discriminate|destruct I]. }
      specialize (RQ x I). destruct (dget (KS x) kw) as [v|] eqn:E; [|congruence]. destruct (GS x v (proj1 N1) (proj2 N1) E) as (u & E' & _). congruence.
  - intros u E. destruct (GB "position" u) as (v & E0 & J); [discriminate|discriminate|auto|]. specialize (NN v E0). intros d0 q -> H.
    inversion J as [|?|d1 ? A B]; subst; [exact (NN d0 q eq_refl H)|]. assert (S : dsim d1 d0) by (split; auto).
    destruct (ds_back _ _ S _ _ H) as (y & Hy & JY). inversion JY; subst. exact (NN d1 q eq_refl Hy).
  - exact (wires_again k e Ek).
Qed.
Lemma doc_at_again k e i kw q : nth_error es k = Some e -> nth_error order k = Some i -> nth_error kws i = Some kw -> doc_at kw q -> doc_at (as_document e) q.
Proof.
  intros Ek Oi Hk (pd & x & y & P & X & Y & NX & NY). destruct (es_from k e Ek) as (i' & kw' & Oi' & Hk' & SA & _).
  assert (i' = i) by congruence. subst i'. assert (kw' = kw) by congruence. subst kw'.
  destruct (same_get' kw e (KS "position") (VDict pd) SA) as (u & E & J); [discriminate|discriminate|auto|]. destruct (jeq_dict_inv _ _ J) as (pe & -> & S).
  assert (A : forall v n, number_of v n -> atom v) by (intros v n [(z & -> & _)|(f & -> & _)]; exact I).
  exists pe, x, y. split; [rewrite (es_get k e "position" Ek); [auto|discriminate|discriminate]|]. split; [apply (ds_atom _ _ S); eauto|]. split; [apply (ds_atom _ _ S); eauto|auto].
Qed.
Lemma in_place : by_place es' (seq 0 (length es')).
Proof.
  split; [apply Permutation_refl|]. intros k m i j KM Hk Hm.
  assert (L : forall a b, nth_error (seq 0 (length es')) a = Some b -> b = a /\ (a < length es)%nat).
  { intros a b H. assert (LA : (a < length (seq 0 (length es')))%nat) by (apply nth_error_Some; congruence). rewrite seq_length in LA. unfold es' in LA. rewrite map_length in LA.
    split; auto. apply (nth_error_nth _ _ 0%nat) in H. rewrite seq_nth in H by (unfold es'; rewrite map_length; auto). lia. }
  destruct (L _ _ Hk) as (-> & LK). destruct (L _ _ Hm) as (-> & LM). clear Hk Hm.
  destruct (nth_error es k) as [e|] eqn:Ek; [|apply nth_error_None in Ek; lia]. destruct (nth_error es m) as [e2|] eqn:Em; [|apply nth_error_None in Em; lia].
  destruct (es_from k e Ek) as (i & kw0 & Oi & Hi & _). destruct (es_from m e2 Em) as (j & kw1 & Oj & Hj & _).
  destruct BY as (_ & H). destruct (H k m i j KM Oi Oj) as (kw & kw' & q & q' & A1 & A2 & A3 & A4 & A5 & _).
  exists (as_document e), (as_document e2), q, q'. split; [unfold es'; now apply map_nth_error|]. split; [unfold es'; now apply map_nth_error|].
  split; [eapply doc_at_again; eauto|]. split; [eapply doc_at_again; eauto|]. auto.
Qed.
Lemma two_port_again k e i kw : nth_error es k = Some e -> nth_error order k = Some i -> nth_error kws i = Some kw -> two_port p (as_document e) <-> two_port p kw.
Proof.
  intros Ek Oi Hk. destruct (es_from k e Ek) as (i' & kw' & Oi' & Hk' & SA & _).
  assert (i' = i) by congruence. subst i'. assert (kw' = kw) by congruence. subst kw'.
  assert (G : forall s : string, dget "name" (as_document e) = Some (VStr s) <-> dget "name" kw = Some (VStr s)).
  { intros s. rewrite (es_get k e "name" Ek) by discriminate. split; intros E.
    - destruct (same_get kw e (KS "name") (VStr s) SA) as (v & E' & J); [discriminate|discriminate|auto|]. inversion J; subst. auto.
    - destruct (same_get' kw e (KS "name") (VStr s) SA) as (v & E' & J); [discriminate|discriminate|auto|]. inversion J; subst. auto. }
  split; intros (s & data & ty & N & R); exists s, data, ty; (split; [now apply G|auto]).
Qed.
End Again.

(** ** the order is determined *)
Definition before (l : list nat) (i j : nat) : Prop := exists k m, (k < m)%nat /\ nth_error l k = Some i /\ nth_error l m = Some j.
Lemma same_order l : forall m, Permutation l m -> NoDup l -> (forall i j, before l i j -> before m j i -> False) -> l = m.
Proof.
  induction l as [|a l IH]; intros m P ND H; [apply Permutation_nil in P; auto|]. destruct m as [|b m]; [apply Permutation_sym, Permutation_nil in P; discriminate|].
  assert (a = b).
  { destruct (Nat.eq_dec a b) as [|N]; auto. exfalso. assert (IB : In b (a :: l)) by (eapply Permutation_in; [apply Permutation_sym; eauto|now left]).
    assert (IA : In a (b :: m)) by (eapply Permutation_in; [eauto|now left]). destruct IB as [|IB]; [congruence|]. destruct IA as [|IA]; [congruence|].
    apply In_nth_error in IB as (n & Hn). apply In_nth_error in IA as (n' & Hn'). apply (H a b).
    - exists 0%nat, (S n). split; [lia|]. split; auto.
    - exists 0%nat, (S n'). split; [lia|]. split; auto. }
  subst b. f_equal. apply Permutation_cons_inv in P. inversion ND; subst. apply IH; auto. intros i j (k & q & A & B & C) (k' & q' & A' & B' & C').
  apply (H i j); [exists (S k), (S q)|exists (S k'), (S q')]; (split; [lia|split; auto]).
Qed.
Lemma number_of_fun v n n' : number_of v n -> number_of v n' -> n = n'.
Proof. intros [(z & -> & ->)|(f & -> & ->)] [(z' & E & ->)|(f' & E & ->)]; congruence. Qed.
Lemma doc_at_fun kw q q' : doc_at kw q -> doc_at kw q' -> q = q'.
Proof.
  intros (d & x & y & P & X & Y & NX & NY) (d' & x' & y' & P' & X' & Y' & NX' & NY'). rewrite P in P'. injection P' as <-.
  rewrite X in X'. injection X' as <-. rewrite Y in Y'. injection Y' as <-. destruct q, q'. cbn in *. f_equal; eapply number_of_fun; eauto.
Qed.
Lemma by_place_fun kws o1 o2 : by_place kws o1 -> by_place kws o2 -> o1 = o2.
Proof.
  intros (P1 & H1) (P2 & H2). apply same_order.
  - eapply Permutation_trans; [apply Permutation_sym; exact P1|exact P2].
  - eapply Permutation_NoDup; [exact P1|apply seq_NoDup].
  - intros i j (k & m & A & B & C) (k' & m' & A' & B' & C').
    destruct (H1 k m i j A B C) as (kw & kw' & q & q' & K1 & K2 & D1 & D2 & LE & F). destruct (H2 k' m' j i A' B' C') as (kw2 & kw2' & q2 & q2' & K3 & K4 & D3 & D4 & LE2 & F2).
    rewrite K1 in K4. injection K4 as <-. rewrite K2 in K3. injection K3 as <-. rewrite (doc_at_fun _ _ _ D4 D1) in *. rewrite (doc_at_fun _ _ _ D3 D2) in *.
    specialize (F LE2). specialize (F2 LE). lia.
Qed.

(** ** the whole document *)
Lemma as_json_list l : as_json (VList l) = VList (map as_json l). Proof. reflexivity. Qed.
Lemma list_id l : (forall v, In v l -> str_keys v) -> map as_json l = l.
Proof. induction l as [|x l IH]; intros H; [reflexivity|]. cbn [map]. rewrite as_json_id by (apply H; now left). f_equal. apply IH. intros; apply H; now right. Qed.
Lemma lists_str d k l v : str_keys (VDict d) -> lists d k l -> In v l -> str_keys v.
Proof. intros S [E|[_ ->]] I; [|destruct I]. destruct (str_get _ _ _ S E) as (_ & SL). eapply str_list; eauto. Qed.

Section Whole.
Context (p : protos) (d o : dict) (kws : list dict).
Context (WH : whole p d kws) (SK : str_keys (VDict d)) (ST : string_types p) (PS : proper_sides kws)
  (SB : same_blueprint p d kws o) (JL : json_like (VDict o)).
Lemma o_get x : dget (KS x) (as_document o) = option_map as_json (dget (KS x) o).
Proof. apply doc_get. eapply within_only. apply (sb_keys _ _ _ _ SB). Qed.
Lemma icons_str l m u : lists d "icons" l -> dget "icons" o = Some (VList m) -> icons_again l m -> In u m -> str_keys u.
Proof.
  intros LI E (_ & B & _) I. destruct (B u I) as (v & Iv & J). eapply jeq_str; [exact J|eapply lists_str; eauto|].
  eapply like_list; [|exact I]. eapply like_get; [exact JL|exact E].
Qed.
Lemma icon_item_again v u z : icon_item p v z -> jeq v u -> icon_item p u z.
Proof.
  intros (di & sg & -> & K & IX & R & S & SD) J. destruct (jeq_dict_inv _ _ J) as (e & -> & DS). destruct (ds_get _ _ DS _ _ _ (c_signal p ST) S SD) as (sg' & S' & SD').
  exists e, sg'. split; auto. split; [now apply (ds_keys _ _ DS)|]. split; [apply (ds_atom _ _ DS); auto; exact I|auto].
Qed.
Lemma sorted_items l zs m : Forall2 (icon_item p) l zs -> (forall u, In u m -> exists v, In v l /\ jeq v u) ->
  StronglySorted (fun u u' => exists z z', index_of u z /\ index_of u' z' /\ z < z') m -> exists ms, Forall2 (icon_item p) m ms /\ NoDup ms /\ forall z, In z ms -> exists u, In u m /\ index_of u z.
Proof.
  intros F B S. induction S as [|u m S IH FA]; [exists []; split; [constructor|split; [constructor|intros ? []]]|].
  destruct IH as (ms & FM & ND & IX); [intros; apply B; now right|]. destruct (B u (or_introl eq_refl)) as (v & Iv & J). destruct (Forall2_In_l _ _ _ _ F Iv) as (z & _ & II).
  pose proof (icon_item_again v u z II J) as IU. exists (z :: ms). split; [constructor; auto|]. pose proof IU as (du & _ & -> & _ & IDX & _). split.
  - constructor; auto. intros Iz. destruct (IX z Iz) as (u' & Iu' & X'). rewrite Forall_forall in FA. destruct (FA u' Iu') as (z1 & z2 & X1 & X2 & LT).
    destruct X1 as (d1 & [= <-] & X1). destruct X' as (d2 & -> & X'). destruct X2 as (d3 & [= <-] & X2). rewrite X' in X2. rewrite IDX in X1. injection X1 as <-. injection X2 as <-. lia.
  - intros z' [<-|I']; [exists (VDict du); split; [now left|exists du; auto]|]. destruct (IX z' I') as (u' & Iu' & X'). exists u'. split; auto. now right.
Qed.
Lemma whole_again order (es : list dict) : by_place kws order -> lists_short o "entities" (map VDict es) -> length es = length order ->
  (forall k i e, nth_error order k = Some i -> nth_error es k = Some e -> entity_again p kws order k i e) ->
  (exists l m, lists d "schedules" l /\ lists_short o "schedules" m /\ Forall2 (schedule_again kws order) l m) ->
  whole p (as_document o) (map as_document es).
Proof.
  intros BY LS LE EA SC.
  assert (JE : forall e, In e es -> json_like (VDict e)).
  { intros e I. unfold lists_short in LS. destruct (map VDict es) as [|v0 vs] eqn:M; [destruct es; [destruct I|discriminate]|]. rewrite <- M in LS.
    eapply like_list; [eapply like_get; [exact JL|exact LS]|]. now apply in_map. }
  assert (NTH : forall k e', nth_error (map as_document es) k = Some e' -> exists e, nth_error es k = Some e /\ e' = as_document e).
  { intros k e1 H. rewrite nth_error_map in H. destruct (nth_error es k) as [e|]; [|discriminate H]. injection H as <-. eauto. }
  assert (NUM : forall k e n, nth_error es k = Some e -> has_number (as_document e) n <-> n = Z.of_nat k + 1) by (intros; eapply es_number; eauto).
  constructor.
  - unfold lists. rewrite o_get. unfold lists_short in LS. rewrite LS. destruct es as [|e0 es0]; [right; auto|]. left. cbn [map option_map]. rewrite as_json_list. do 2 f_equal. cbn [map]. f_equal.
    rewrite !map_map. apply map_ext. intros; apply as_json_dict.
  - intros kw I. apply in_map_iff in I as (e & <- & I). apply In_nth_error in I as (k & Ek). eapply entity_doc_again; eauto.
  - intros i j kw kw' n Hi Hj N1 N2. destruct (NTH _ _ Hi) as (e & Ei & ->). destruct (NTH _ _ Hj) as (e' & Ej & ->).
    apply (NUM _ _ _ Ei) in N1. apply (NUM _ _ _ Ej) in N2. lia.
  - right. split; auto. rewrite o_get. destruct (dget "tiles" o) eqn:E; auto. exfalso. destruct (sb_keys _ _ _ _ SB "tiles") as (x & [= <-] & I); [congruence|].
    cbn in I. intuition discriminate.
  - rewrite o_get, (sb_label _ _ _ _ SB). pose proof (wh_label _ _ _ WH) as NL. destruct (dget "label" d) as [v|] eqn:E; cbn; [|congruence].
    rewrite as_json_id by (eapply str_get; eauto). congruence.
  - intros v E. rewrite o_get in E. destruct (dget "label_color" o) as [u|] eqn:EO; [|discriminate]. cbn in E. injection E as <-.
    pose proof (sb_colour _ _ _ _ SB) as C. unfold same_at in C. rewrite EO in C. destruct (dget "label_color" d) as [v|] eqn:ED; [|tauto].
    rewrite as_json_id; [eapply c_colour; [exact C|]; eapply (wh_colour _ _ _ WH); exact ED|]. eapply jeq_str; [exact C|eapply str_get; eauto|eapply like_get; eauto].
  - destruct (sb_icons _ _ _ _ SB) as (l & m & LI & EM & IA). destruct (wh_icons _ _ _ WH) as (l' & zs & LI' & F & ND). rewrite <- (lists_fun _ _ _ _ LI LI') in F.
    destruct IA as (A & B & S). destruct (sorted_items l zs m F B S) as (ms & FM & NM & _). exists m, ms. split; [|auto]. left. rewrite o_get, EM. cbn [option_map].
    rewrite as_json_list, list_id; [reflexivity|]. intros u I. exact (icons_str l m u LI EM (conj A (conj B S)) I).
  - destruct SC as (l & m & LL & LM & F). exists m. assert (SM : forall u, In u m -> str_keys u /\ schedule_doc (map as_document es) u).
    { intros u I. destruct (Forall2_In_r _ _ _ _ F I) as (v & Iv & (dv & nums & plan & nums' & -> & E1 & E2 & -> & FN)).
      assert (SP : str_keys plan) by (eapply str_get; [eapply lists_str; eauto|exact E2]).
      assert (NS : exists zs, nums' = map VInt zs /\ forall z, In z zs -> exists k i, nth_error order k = Some i /\ z = Z.of_nat k + 1).
      { clear - FN. induction FN as [|n n' nums nums' (k & i & kw & O & _ & _ & ->) FN IH]; [exists []; split; [auto|intros ? []]|].
        destruct IH as (zs & -> & H). exists ((Z.of_nat k + 1) :: zs). split; [auto|]. intros z [<-|I]; eauto. }
      destruct NS as (zs & -> & HZ). split.
      - cbn [str_keys]. split; [eauto|]. split; [apply (str_all (map VInt zs)); intros v Hv; apply in_map_iff in Hv as (z & <- & _); exact Logic.I|]. split; [eauto|]. auto.
      - eexists _, zs, plan. split; [reflexivity|]. split; [|split; [reflexivity|split; [reflexivity|]]].
        + intros k N. cbn [dget] in N. destruct (key_eqb k "locomotives") eqn:Q; [apply key_eqb_eq in Q as ->; eexists; split; [reflexivity|cbn; auto]|].
          destruct (key_eqb k "schedule") eqn:Q2; [apply key_eqb_eq in Q2 as ->; eexists; split; [reflexivity|cbn; auto]|congruence].
        + intros n In_. destruct (HZ n In_) as (k & i & O & ->). assert (LK : (k < length es)%nat) by (rewrite LE; apply nth_error_Some; congruence).
          destruct (nth_error es k) as [e|] eqn:Ek; [|apply nth_error_None in Ek; lia]. exists (as_document e). split; [apply in_map; eapply nth_error_In; eauto|]. now apply (NUM k e _ Ek). }
    split; [|apply Forall_forall; intros u I; now apply SM]. unfold lists_short in LM. unfold lists. rewrite o_get, LM. destruct m as [|u0 m0]; [right; auto|]. left. cbn [option_map].
    rewrite as_json_list, list_id; auto. intros u I. now apply SM.
Qed.
End Whole.
