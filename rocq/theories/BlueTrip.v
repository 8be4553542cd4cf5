(** * Loading a well-formed blueprint document and exporting it again. *)
From Coq Require Import Lia Permutation Sorting.Sorted.
From Verif Require Import Py Num NumFacts Util SpecUtil UtilFacts Classes Mixins Entity World DictFacts DocProofs SpecWorld SpecDoc SpecEntity SpecTrip SpecBlueprint
  WorldFacts Inv LayerProofs WireProofs ExportProofs ParseProofs PersistProofs ChainFacts EntProofs CbProofs TripProofs EntTrip ShapeProofs.
Open Scope Z_scope.

(** ** the phases of load, when nothing goes wrong *)
Lemma lists_get d k l : lists d k l -> iter_val (dataget d k (VList [])) = Ok l.
Proof. unfold lists, dataget. intros [-> | (-> & ->)]; reflexivity. Qed.
Definition headed (x : bp) (d : dict) (lc : option color) (ic : list (option val)) : bp :=
  mkBp (b_strict x) (b_custom x) (b_objs x) (b_tiles x) (dataget d "item" (VStr "blueprint")) (dataget d "label" VNone) lc ic
       (dataget d "version" (VInt 0)) (b_conns x) (b_scheds x).
Lemma head_whole b d w x ics acc : blu w b = Some x -> (forall v, dget "label_color" d = Some v -> colour_doc v) ->
  lists d "icons" ics -> foldE (load_icon (w_protos w)) ics [None; None; None; None] = (acc, Ok tt) ->
  exists w1 lc, load_head b d w = (w1, Ok tt) /\ w_protos w1 = w_protos w /\ w_ents w1 = w_ents w /\
    blu w1 b = Some (headed x d lc acc) /\
    match dget "label_color" d with None => lc = b_label_color x | Some v => exists c, lc = Some c /\ jeq v (color_to_json c) end.
Proof.
  intros Hx C I F.
  assert (K : exists lc, match dget "label_color" d with None => lc = b_label_color x | Some v => exists c, lc = Some c /\ jeq v (color_to_json c) end /\
    forall w0 x0, blu w0 b = Some x0 -> b_label_color x0 = b_label_color x ->
    exists w1, match dataget d "label_color" VNone with VNone => ret tt
               | v => do c <- gets (fun _ => color_of_val v); modify (upd_bp b (b_set_label_color (Some c))) end w0 = (w1, Ok tt) /\
      w_protos w1 = w_protos w0 /\ w_ents w1 = w_ents w0 /\ blu w1 b = Some (b_set_label_color lc x0)).
  { unfold dataget. destruct (dget "label_color" d) as [v|] eqn:E; cbn [odflt].
    - destruct (C v eq_refl) as (dd & Ev & _). destruct (colour_trip v (C v eq_refl)) as (c & EC & J). exists (Some c). split; [eauto|].
      intros w0 x0 H0 _. subst v. unfold mbind, gets, modify. rewrite EC. eexists. split; [reflexivity|]. split; [reflexivity|]. split; [reflexivity|].
      rewrite blu_upd, Nat.eqb_refl, H0. reflexivity.
    - exists (b_label_color x). split; [reflexivity|]. intros w0 x0 H0 L0. exists w0. split; [reflexivity|]. split; [reflexivity|]. split; [reflexivity|].
      rewrite H0, <- L0. destruct x0; reflexivity. }
  destruct K as (lc & KC & K). unfold load_head. unfold mbind at 1, modify at 1.
  destruct (K (upd_bp b (fun x => b_set_label (dataget d "label" VNone) (b_set_item (dataget d "item" (VStr "blueprint")) x)) w)
              (b_set_label (dataget d "label" VNone) (b_set_item (dataget d "item" (VStr "blueprint")) x))) as (w1 & E1 & P1 & N1 & B1).
  { rewrite blu_upd, Nat.eqb_refl, Hx. reflexivity. }
  { destruct x; reflexivity. }
  unfold mbind at 1. rewrite E1. unfold mbind, modify, gets. rewrite (lists_get _ _ _ I). cbn [w_protos upd_bp]. rewrite P1. cbn [w_protos upd_bp].
  rewrite F. eexists. exists lc. split; [reflexivity|]. split; [exact P1|]. split; [exact N1|]. split; [|exact KC].
  rewrite !blu_upd, !Nat.eqb_refl, B1. destruct x; reflexivity.
Qed.
Lemma entities_whole b cust kws : forall w x, blu w b = Some x ->
  (forall kw, In kw kws -> exists e, snd (construct (w_protos w) cust (Some b) kw) = Ok e) ->
  exists w2 l', load_entities b cust (map VDict kws) w = (w2, l', Ok tt) /\ w_protos w2 = w_protos w /\
    blu w2 b = Some (b_set_objs (b_objs x ++ seq (length (w_ents w)) (length kws)) x) /\
    exists es, w_ents w2 = w_ents w ++ es /\ Forall2 (fun kw e => snd (construct (w_protos w) cust (Some b) kw) = Ok e) kws es.
Proof.
  induction kws as [|kw kws IH]; intros w x Hx H; cbn [map load_entities length seq].
  - exists w, []. split; [reflexivity|]. split; [reflexivity|]. split; [rewrite Hx, app_nil_r; destruct x; reflexivity|]. exists []. rewrite app_nil_r. auto.
  - destruct (H kw ltac:(now left)) as (e & E). destruct (construct (w_protos w) cust (Some b) kw) as [kw' o] eqn:EC. cbn [snd] in E. subst o.
    set (w1 := upd_bp b (fun x => b_set_objs (b_objs x ++ [length (w_ents w)]) x) (new_ent e w)).
    assert (B1 : blu w1 b = Some (b_set_objs (b_objs x ++ [length (w_ents w)]) x)).
    { unfold w1. rewrite blu_upd, Nat.eqb_refl. change (blu (new_ent e w) b) with (blu w b). rewrite Hx. reflexivity. }
    destruct (IH w1 _ B1) as (w2 & l' & E2 & P2 & B2 & es & N2 & F2). { intros k I. apply H. now right. }
    fold w1. rewrite E2. exists w2, (VDict kw' :: l'). split; [reflexivity|]. split; [exact P2|]. split.
    + rewrite B2. unfold w1. cbn [w_ents upd_bp new_ent]. rewrite app_length. cbn [length]. rewrite Nat.add_1_r.
      destruct x; cbn; rewrite <- app_assoc; reflexivity.
    + exists (e :: es). split; [rewrite N2; unfold w1; cbn [w_ents upd_bp new_ent]; now rewrite <- app_assoc|].
      constructor; [now rewrite EC|exact F2].
Qed.
(** sorting *)
Lemma sort_whole b w x : blu w b = Some x -> NoDup (b_objs x) -> (forall i, In i (b_objs x) -> placed w i) ->
  exists w' l, sort_layer b w = (w', Ok tt) /\ w_protos w' = w_protos w /\ length (w_ents w') = length (w_ents w) /\
    blu w' b = Some (b_set_objs l x) /\ Permutation (b_objs x) l /\
    forall i e, ent w i = Some e -> exists e', ent w' i = Some e' /\ with_auto VNone e' = with_auto VNone e.
Proof.
  intros Hx ND PL.
  assert (NB : forall n, nval n <> XNaN -> nanb n = false) by (intros n; unfold nanb; destruct (nval n); congruence).
  assert (exists l, sorted_objs w (b_objs x) = Ok l) as (l & Es).
  { unfold sorted_objs. match goal with |- context [mapM ?f _] => destruct (mapM_all f (b_objs x)) as (ks & ->) end; [|cbn [bind]; eauto].
    intros i I. destruct (PL _ I) as (v & (e & He & Hp) & N1 & N2). rewrite He. unfold pos_key. rewrite Hp, !NB by auto. cbn. eauto. }
  rewrite (sort_layer_eq _ _ _ Hx), Es. eexists _, l. split; [reflexivity|]. split; [rewrite reindex_protos; reflexivity|].
  split; [rewrite reindex_length; reflexivity|]. split; [rewrite blu_reindex, blu_upd, Nat.eqb_refl, Hx; reflexivity|].
  apply sorted_objs_perm in Es. split; [exact Es|]. intros i e He.
  destruct (in_dec Nat.eq_dec i l) as [I|N].
  - apply In_nth_error in I as (k & Hk). exists (with_auto (VInt (1 + Z.of_nat k)) e). split; [|reflexivity].
    apply reindex_nth; auto. eapply Permutation_NoDup; eauto.
  - exists e. split; auto. rewrite reindex_not_in by auto. exact He.
Qed.
(** reading the wires *)
Definition both_numbered (w : world) (cs : list conn) : Prop :=
  forall c, In c cs -> exists i j ei ej n m, c_from c = Some i /\ c_to c = Some j /\ ent w i = Some ei /\ ent w j = Some ej /\
    e_auto ei = VInt n /\ e_auto ej = VInt m.
Lemma both_turned w cs ds : Forall2 turn_eq cs ds -> both_numbered w cs -> both_numbered w ds.
Proof.
  intros F B d Hd. destruct (Forall2_In_r _ _ _ _ F Hd) as (c & Hc & T). destruct (B _ Hc) as (i & j & ei & ej & n & m & A1 & A2 & A3 & A4 & A5 & A6).
  destruct T as [-> | ->]; [exists i, j, ei, ej, n, m; auto 10|]. exists j, i, ej, ei, m, n. destruct c; cbn in *; auto 10.
Qed.
Lemma both_ends w e cs : both_numbered w cs -> numbered_ends w e cs.
Proof. intros B c Hc _. exact (B c Hc). Qed.
Lemma forM_numbered b l : forall w x, inv w -> blu w b = Some x -> (forall i, In i l -> In i (b_objs x)) -> both_numbered w (b_conns x) ->
  snd (forM (fun i => do _ <- get_connections i; ret tt) l w) = Ok tt.
Proof.
  unfold forM. induction l as [|i r IH]; intros w x I Hx Hl N; [reflexivity|]. cbn [foldE].
  destruct (inv_owner _ I _ _ _ Hx (Hl i (or_introl eq_refl))) as (e & He & Le).
  unfold mbind at 1. rewrite (get_connections_eq _ _ _ _ _ He Le Hx). destruct (my_wires_ok w i _ (both_ends w i _ N)) as (l' & ->).
  cbn [bind]. unfold ret at 1. apply (IH (turned i b x w) (b_set_conns (map (turn_towards i) (b_conns x)) x)).
  - pose proof (keeps_get_connections False i w (good_False _ I)) as [I' _].
    rewrite (get_connections_eq _ _ _ _ _ He Le Hx) in I'. exact I'.
  - unfold turned. rewrite blu_upd, Nat.eqb_refl, Hx. auto.
  - intros j Hj. cbn. apply Hl. now right.
  - intros d Hd. cbn [b_conns b_set_conns] in Hd. apply (both_turned w (b_conns x) (map (turn_towards i) (b_conns x))); auto.
    clear. induction (b_conns x) as [|c r IH]; cbn; constructor; auto using turn_turn_eq.
Qed.
Lemma same_rest x x2 cs : b_set_conns [] x2 = b_set_conns [] (b_set_conns cs x) -> x2 = b_set_conns (b_conns x2) x.
Proof. destruct x, x2. unfold b_set_conns. cbn. intros [= -> -> -> -> -> -> -> -> -> ->]. reflexivity. Qed.
Lemma parse_whole b w x : inv w -> blu w b = Some x -> numbered w (b_objs x) -> wires_readable w b ->
  (forall n, mentions w b n -> c_to n <> None) ->
  exists w' cs, parse_connections b w = (w', Ok tt) /\ w_protos w' = w_protos w /\ w_ents w' = w_ents w /\ blu w' b = Some (b_set_conns cs x).
Proof.
  intros I Hx N R M. destruct (parse_readable _ _ _ I Hx R) as (cs & Pc). pose proof (parse_conns_fine w b (b_objs x) I) as PF. rewrite Pc in PF.
  assert (PL : forall i, In i (b_objs x) -> exists e, ent w i = Some e)
    by (intros i Hi; destruct (inv_owner _ I _ _ _ Hx Hi) as (e & He & _); eauto).
  destruct (PF PL) as [_ Lv]. unfold parse_connections, mbind, get_bp, gets. rewrite Hx, Pc.
  set (w1 := upd_bp b (b_set_conns cs) w) in *. fold (@mbind). assert (Hx1 : blu w1 b = Some (b_set_conns cs x)) by (unfold w1; rewrite blu_upd, Nat.eqb_refl, Hx; auto).
  assert (G1 : inv w1).
  { apply inv_upd_bp; auto. intros y Hy. rewrite Hx in Hy. injection Hy as <-.
    destruct (inv_bp _ _ _ I Hx) as (B1 & B2 & B3 & B4 & B5). unfold bp_fine; cbn. auto 10. }
  assert (BN : both_numbered w1 cs).
  { intros c Hc. destruct (parse_all _ _ _ _ Hx Pc) as [PA _]. pose proof (PA c Hc) as MC. specialize (M _ MC).
    destruct MC as (y & i & e & sk & col & v & Hy & Hi & He & _ & (d & id & s & t & _ & _ & _ & _ & ->)).
    rewrite Hx in Hy. injection Hy as <-. cbn in M.
    assert (NN : forall j, In j (b_objs x) -> exists e n, ent w j = Some e /\ e_auto e = VInt n).
    { intros j Hj. apply In_nth_error in Hj as [k Hk]. destruct (N _ _ Hk) as (ej & ? & ?). eauto. }
    destruct (NN i Hi) as (ei & n & Hei & Hn).
    unfold get_entity_by_id in *. rewrite Hx in *. destruct (find_number w id (b_objs x)) as [j|] eqn:F; [|congruence].
    apply find_number_live in F. destruct (NN j F) as (ej & m & Hej & Hm). exists i, j, ei, ej, n, m. auto 10. }
  pose proof (forM_numbered b (b_objs x) w1 _ G1 Hx1) as FN. specialize (FN ltac:(auto) BN).
  pose proof (sims_forM_conn (b_objs x) w1) as S.
  unfold mbind in FN, S. destruct (forM _ (b_objs x) w1) as [w2 r]. cbn [fst snd] in FN, S. subst r.
  destruct S as (P & E & B). specialize (B b). rewrite Hx1 in B. destruct (blu w2 b) as [x2|] eqn:Hx2; [|tauto]. destruct B as [B _].
  exists w2, (b_conns x2). split; [reflexivity|]. split; [exact P|]. split; [exact E|]. rewrite Hx2. f_equal.
  apply (same_rest x x2 cs). exact B.
Qed.

(** ** what the entities of the layer know of their documents *)
Definition carries (w : world) (b base : nat) (kws : list dict) : Prop :=
  exists x, blu w b = Some x /\ Permutation (seq base (length kws)) (b_objs x) /\
  forall i kw, nth_error kws i = Some kw -> exists e, ent w (base + i) = Some e /\
    e_number e = odflt VNone (dget "entity_number" kw) /\ e_raw e = odflt VNone (dget "connections" kw).
Section Carried.
Context (p : protos) (d : dict) (kws : list dict) (WH : whole p d kws) (w : world) (b base : nat) (CA : carries w b base kws).
Lemma carried_listed x i : blu w b = Some x -> In i (b_objs x) -> exists k kw, i = (base + k)%nat /\ nth_error kws k = Some kw.
Proof.
  destruct CA as (x0 & Hx0 & P & _). intros Hx I. rewrite Hx0 in Hx. injection Hx as ->. apply (Permutation_in _ (Permutation_sym P)), in_seq in I.
  destruct (nth_error kws (i - base)) as [kw|] eqn:E; [|apply nth_error_None in E; lia]. exists (i - base)%nat, kw. split; [lia|auto].
Qed.
Lemma carried_in x k kw : blu w b = Some x -> nth_error kws k = Some kw -> In (base + k)%nat (b_objs x).
Proof.
  destruct CA as (x0 & Hx0 & P & _). intros Hx E. rewrite Hx0 in Hx. injection Hx as ->. apply (Permutation_in _ P), in_seq.
  assert (k < length kws)%nat; [|lia]. apply nth_error_Some. congruence.
Qed.
Lemma by_number j kw n : nth_error kws j = Some kw -> has_number kw n -> get_entity_by_id w b (VInt n) = Some (base + j)%nat.
Proof.
  intros E N. pose proof CA as (x & Hx & P & F). destruct (p_C49_lookup w b x n Hx) as (L1 & L2).
  destruct (get_entity_by_id w b (VInt n)) as [i|].
  - destruct (L1 i eq_refl) as (pre & post & e & O & He & D & _). f_equal.
    destruct (carried_listed x i Hx) as (k & kw' & -> & Ek). { rewrite O. apply in_or_app. cbn. auto. }
    destruct (F _ _ Ek) as (e' & He' & Ne & _). rewrite He in He'. injection He' as <-.
    destruct (wh_entity _ _ _ WH kw' (nth_error_In _ _ Ek)) as (s & ty & own & cbk & n' & _ & _ & N' & _). rewrite N' in Ne. cbn in Ne.
    rewrite Ne in D. cbn in D. subst n'. rewrite (wh_numbers _ _ _ WH _ _ _ _ _ Ek E N' N). reflexivity.
  - exfalso. destruct (F _ _ E) as (e & He & Ne & _). eapply (L2 eq_refl); [eapply carried_in; eauto|exact He|]. rewrite Ne, N. reflexivity.
Qed.
Lemma side_int sk s : side_key sk s -> py_int (val_of_key sk) = Ok s.
Proof. intros [(-> & ->)|(-> & ->)]; reflexivity. Qed.
Lemma end_int e t : odflt (VInt 1) (dget "circuit_id" e) = VInt t -> py_int (odflt (VStr "1") (dget "circuit_id" e)) = Ok t.
Proof. destruct (dget "circuit_id" e) as [v|]; cbn; [intros ->; reflexivity|]. intros [= <-]. reflexivity. Qed.
Lemma wires_of kw : In kw kws -> wires_doc kws kw.
Proof. intros I. destruct (wh_entity _ _ _ WH kw I) as (s & ty & own & cbk & n & _ & _ & _ & _ & W). exact W. Qed.
Lemma carried_readable : wires_readable w b.
Proof.
  intros x i e Hx I He. destruct (carried_listed x i Hx I) as (k & kw & -> & Ek). pose proof CA as (_ & _ & _ & F).
  destruct (F _ _ Ek) as (e' & He' & _ & R). rewrite He in He'. injection He' as <-. rewrite R.
  destruct (wires_of kw (nth_error_In _ _ Ek)) as [-> | (raw & -> & G)]; [now left|right]. exists raw. split; [reflexivity|].
  intros sk cv I1. destruct (G _ _ I1) as (s & cols & SK & -> & G1). exists cols. split; auto. intros ck lv I2. destruct (G1 _ _ I2) as (col & l & -> & -> & G2).
  exists col, l. split; auto. split; auto. intros v I3. destruct (G2 _ I3) as (n & t & (ed & -> & E1 & E2) & _).
  eexists _, ed, (VInt n), s, t. split; [reflexivity|]. split; [exact E1|]. split; [now apply side_int|]. split; [now apply end_int|reflexivity].
Qed.
Lemma mention_says n : mentions w b n <->
  exists i s j t col, says_wire kws i s j t col /\ n = mkConn (Some (base + i)%nat) (Some (base + j)%nat) s t col.
Proof.
  pose proof CA as (x & Hx & P & F). split.
  - intros (x' & a & e & sk & col & v & Hx' & I & He & (raw & cols & l & R & I1 & I2 & I3) & (ed & id & s & t & -> & EI & ES & ET & ->)).
    rewrite Hx in Hx'. injection Hx' as <-. destruct (carried_listed x a Hx I) as (i & kw & -> & Ei).
    destruct (F _ _ Ei) as (e' & He' & _ & RR). rewrite He in He'. injection He' as <-. rewrite R in RR.
    assert (C : dget "connections" kw = Some (VDict raw)) by (destruct (dget "connections" kw); cbn in RR; congruence). clear RR.
    destruct (wires_of kw (nth_error_In _ _ Ei)) as [C'|(raw' & C' & G)]; [congruence|]. rewrite C in C'. injection C' as <-.
    destruct (G _ _ I1) as (s' & cols' & SK & [= <-] & G1). destruct (G1 _ _ I2) as (col' & l' & [= <-] & [= <-] & G2).
    destruct (G2 _ I3) as (m & t' & (ed' & [= <-] & E1 & E2) & _ & kw' & I' & N').
    rewrite E1 in EI. injection EI as <-. rewrite (side_int _ _ SK) in ES. injection ES as <-. rewrite (end_int _ _ E2) in ET. injection ET as <-.
    apply In_nth_error in I' as (j & Ej). exists i, s', j, t', col. split; [|now rewrite (by_number j kw' m Ej N')].
    exists kw, kw', m, raw, sk, cols, l, (VDict ed). unfold end_doc. eauto 20.
  - intros (i & s & j & t & col & (kw & kw' & m & raw & sk & cols & l & v & Ei & Ej & N' & C & I1 & SK & I2 & I3 & (ed & -> & E1 & E2)) & ->).
    destruct (F _ _ Ei) as (e & He & _ & RR). rewrite C in RR. cbn in RR.
    exists x, (base + i)%nat, e, sk, col, (VDict ed). split; auto. split; [eapply carried_in; eauto|]. split; auto. split; [exists raw, cols, l; auto|].
    exists ed, (VInt m), s, t. split; auto. split; auto. split; [now apply side_int|]. split; [now apply end_int|]. now rewrite (by_number j kw' m Ej N').
Qed.
Lemma says_other i s j t col : says_wire kws i s j t col -> i <> j.
Proof.
  intros (kw & kw' & m & raw & sk & cols & l & v & Ei & Ej & N' & C & I1 & SK & I2 & I3 & ED) ->. rewrite Ei in Ej. injection Ej as <-.
  destruct (wires_of kw (nth_error_In _ _ Ei)) as [C'|(raw' & C' & G)]; [congruence|]. rewrite C in C'. injection C' as <-.
  destruct (G _ _ I1) as (s' & cols' & _ & [= <-] & G1). destruct (G1 _ _ I2) as (col' & l' & [= <-] & [= <-] & G2).
  destruct (G2 _ I3) as (m' & t' & (ed' & E0 & E1 & _) & NN & _). destruct ED as (ed & -> & E2 & _). injection E0 as <-. rewrite E1 in E2. injection E2 as <-. contradiction.
Qed.
End Carried.

(** ** the whole load *)
Lemma in_dget (k : key) (v : val) d : In (k, v) d -> dget k d <> None.
Proof.
  induction d as [|[k' v'] r IH]; intros I; [destruct I|]. cbn. destruct (key_eqb k k') eqn:E; [discriminate|]. apply IH.
  destruct I as [[= -> ->]|I]; auto. rewrite key_eqb_refl in E. discriminate.
Qed.
Lemma within_all d ks : keys_within d ks -> all_KS d = true.
Proof.
  intros K. assert (G : forall k v, In (k, v) d -> exists s, k = KS s).
  { intros k v I. destruct (K _ (in_dget _ _ _ I)) as (s & -> & _). eauto. }
  clear K. induction d as [|[k v] r IH]; [reflexivity|]. destruct (G k v ltac:(now left)) as (s & ->). cbn. apply IH. intros k' v' I. eapply G. right. exact I.
Qed.
Lemma within_two d k k' : keys_within d [k; k'] -> ddel (KS k) (ddel (KS k') d) = [].
Proof.
  intros K. destruct (ddel (KS k) (ddel (KS k') d)) as [|[k0 v0] r] eqn:E; auto. exfalso.
  assert (N : dget k0 (ddel (KS k) (ddel (KS k') d)) <> None) by (rewrite E; cbn; rewrite key_eqb_refl; discriminate).
  rewrite !dget_ddel in N. destruct (key_eqb k0 (KS k)) eqn:E1; [congruence|]. destruct (key_eqb k0 (KS k')) eqn:E2; [congruence|].
  destruct (K _ N) as (s & -> & [<-|[<-|[]]]); rewrite key_eqb_refl in *; discriminate.
Qed.
Lemma within_not d ks (k : string) : keys_within d ks -> ~ In k ks -> dget (KS k) d = None.
Proof. intros K N. destruct (dget (KS k) d) eqn:E; auto. destruct (K (KS k)) as (s & [= <-] & I); [congruence|contradiction]. Qed.
Lemma sched_whole kws w b v : schedule_doc kws v -> exists s, sched_new w b v = Ok s.
Proof.
  intros (d & nums & plan & -> & K & L & S & _). unfold sched_new, as_kwargs. rewrite (within_all _ _ K). cbn [bind]. unfold dmem.
  rewrite (within_not _ _ "self" K) by (cbn; intuition discriminate). rewrite (within_not _ _ "blueprint" K) by (cbn; intuition discriminate).
  cbn [orb]. rewrite S, L, (within_two _ _ _ K). cbn [iter_val bind]. eauto.
Qed.
Lemma icon_item_for p v z : icon_item p v z -> exists s, icon_for p v s z.
Proof.
  intros (d & sg & -> & _ & I & B & S & (sd & s & data & t & -> & _ & N & _ & NE & ED & _)). exists s, d, (VDict sd). split; auto. split; auto. split; auto.
  split; auto. split; [right; eauto|]. congruence.
Qed.
Lemma icons_whole p l zs : Forall2 (icon_item p) l zs -> forall v, In v l -> exists s z, icon_for p v s z /\ -3 <= z <= 4.
Proof.
  intros F v I. destruct (Forall2_In_l _ _ _ _ F I) as (z & _ & H). destruct (icon_item_for _ _ _ H) as (s & G). exists s, z. split; auto.
  destruct H as (d & sg & _ & _ & _ & B & _). lia.
Qed.
Lemma placed_point kw p (ty s : string) q v : well_formed p kw s ty -> dget "position" kw = Some v -> vec_of_val v = Ok (Some q) -> no_nan v ->
  nval (vx q) <> XNaN /\ nval (vy q) <> XNaN /\ doc_at kw q.
Proof.
  intros (_ & _ & F & _) EV VQ NN. destruct (F _ _ EV) as (y & [= <-] & _ & [H|PD]); [cbn in H; intuition discriminate|].
  change (point_doc v) in PD. destruct PD as (dd & vx' & vy' & -> & _ & X & Y & NX & NY). cbn [vec_of_val] in VQ. rewrite X, Y in VQ.
  assert (Q : forall u k n, dget k dd = Some u -> is_number u -> num_of_val u = Ok n -> nval n <> XNaN /\ number_of u n).
  { intros u k n EU NU NV. specialize (NN dd k eq_refl). rewrite EU in NN. destruct NU as [(z & ->)|(f & ->)]; cbn in NV; injection NV as <-.
    - split; [cbn; discriminate|left; eauto].
    - split; [|right; eauto]. destruct f as [[]|[]| |[] ? ?]; cbn; congruence. }
  destruct (num_of_val vx') as [a|] eqn:EA; [|discriminate]. destruct (num_of_val vy') as [c|] eqn:EB; [|discriminate]. cbn [bind] in VQ. injection VQ as <-.
  destruct (Q _ _ _ X NX EA) as (A1 & A2). destruct (Q _ _ _ Y NY EB) as (B1 & B2). cbn [vx vy]. split; auto. split; auto. exists dd, vx', vy'. auto.
Qed.
Lemma with_auto_fields e e' : with_auto VNone e' = with_auto VNone e ->
  same_body e' e /\ e_number e' = e_number e /\ e_raw e' = e_raw e /\ e_layer e' = e_layer e.
Proof. destruct e, e'. unfold with_auto, same_body. cbn. intros [= -> -> -> -> -> -> -> -> -> ->]. repeat split. Qed.
Lemma load_whole w b x doc d kws : reachable w -> blu w b = Some x -> b_objs x = [] -> b_custom x = [] -> holds doc d -> whole (w_protos w) d kws ->
  exists w' doc' x', load b doc w = (w', doc', Ok tt) /\ w_protos w' = w_protos w /\ blu w' b = Some x' /\
    b_item x' = dataget d "item" (VStr "blueprint") /\ b_label x' = dataget d "label" VNone /\ b_version x' = dataget d "version" (VInt 0) /\ b_tiles x' = [] /\
    match dget "label_color" d with None => b_label_color x' = b_label_color x | Some v => exists c, b_label_color x' = Some c /\ jeq v (color_to_json c) end /\
    exists ics zs, lists d "icons" ics /\ Forall2 (icon_item (w_protos w)) ics zs /\ NoDup zs /\
      foldE (load_icon (w_protos w)) ics [None; None; None; None] = (b_icons x', Ok tt).
Proof.
  intros R Hx O CU Hd WH. apply reach_inv in R as IV. pose proof (wh_icons _ _ _ WH) as (ics & zs & LI & FI & NZ).
  destruct (fold_icons _ _ (icons_whole _ _ _ FI)) as (acc & FA & _).
  destruct (head_whole b d w x ics acc Hx (wh_colour _ _ _ WH) LI FA) as (w1 & lc & E1 & P1 & N1 & B1 & LC).
  assert (TRIP : forall kw, In kw kws -> exists s ty own e, In kw kws /\ well_formed (w_protos w) kw s ty /\
            snd (construct (w_protos w) (b_custom x) (Some b) kw) = Ok e /\ comes_back (w_protos w) (Some b) kw s ty own e).
  { intros kw I. destruct (wh_entity _ _ _ WH kw I) as (s & ty & own & cbk & n & IF & WF & _). destruct (ent_trip _ (b_custom x) (Some b) _ _ _ _ _ IF WF) as (e & EC & CB); [now rewrite CU|].
    exists s, ty, own, e. auto. }
  destruct (entities_whole b (b_custom x) kws w1 _ B1) as (w2 & l' & E2 & P2 & B2 & es & N2 & F2).
  { intros kw I. rewrite P1. destruct (TRIP kw I) as (s & ty & own & e & _ & _ & EC & _). eauto. }
  rewrite P1 in F2. cbn [headed b_objs] in B2. rewrite O, N1 in B2. cbn [app] in B2. rewrite N1 in N2. set (base := length (w_ents w)) in *.
  assert (EN2 : forall i kw, nth_error kws i = Some kw -> exists e, ent w2 (base + i) = Some e /\ snd (construct (w_protos w) (b_custom x) (Some b) kw) = Ok e).
  { intros i kw Ei. destruct (F2_nth _ _ _ _ _ F2 Ei) as (e & Ee & C). exists e. split; auto. unfold ent. rewrite N2, nth_error_app2 by lia. unfold base. now rewrite Nat.add_comm, Nat.add_sub. }
  assert (PL : forall i, In i (seq base (length kws)) -> placed w2 i).
  { intros i I. apply in_seq in I. destruct (nth_error kws (i - base)) as [kw|] eqn:Ek; [|apply nth_error_None in Ek; lia].
    destruct (EN2 _ _ Ek) as (e & He & C). replace (base + (i - base))%nat with i in He by lia.
    destruct (TRIP kw (nth_error_In _ _ Ek)) as (s & ty & own & e' & IK & WF & C' & CB). rewrite C in C'. injection C' as <-.
    destruct (wh_entity _ _ _ WH kw IK) as (_ & _ & _ & _ & _ & _ & _ & _ & NN & _).
    destruct (cb_pos _ _ _ _ _ _ _ CB) as (v & q & EV & VQ & EQ & _). destruct (placed_point _ _ _ _ _ _ WF EV VQ (NN v EV)) as (A1 & A2 & _).
    exists q. split; [exists e; auto|auto]. }
  destruct (sort_whole b w2 _ B2) as (w3 & l & E3 & P3 & N3 & B3 & PM & EN3).
  { cbn. apply seq_NoDup. } { cbn. exact PL. }
  cbn [b_objs b_set_objs] in PM.
  assert (I1 : inv w1). { pose proof (keeps_load_head False b d w (good_False _ IV)) as [I1 _]. now rewrite E1 in I1. }
  assert (I2 : inv w2).
  { destruct (keeps_load_entities False b (b_custom x) (map VDict kws) w1 (good_False _ I1)) as [[I2 _] _]; [eauto|]. now rewrite E2 in I2. }
  assert (I3 : inv w3). { pose proof (keeps_sort False b w2 (good_False _ I2)) as [I3 _]. now rewrite E3 in I3. }
  assert (NU : numbered w3 l).
  { destruct (sort_layer_sorted _ _ _ _ _ I2 B2 E3) as (x3 & Hx3 & _ & NU). rewrite B3 in Hx3. injection Hx3 as <-. exact NU. }
  assert (CA : carries w3 b base kws).
  { eexists. split; [exact B3|]. split; [exact PM|]. intros i kw Ei. destruct (EN2 _ _ Ei) as (e & He & C). destruct (EN3 _ _ He) as (e' & He' & WA).
    destruct (with_auto_fields _ _ WA) as (_ & A1 & A2 & _). destruct (construct_fixed _ _ _ _ _ C) as (C1 & C2). exists e'. split; auto. split; congruence. }
  destruct (parse_whole b w3 _ I3 B3 NU) as (w4 & cs & E4 & P4 & N4 & B4).
  { eapply carried_readable; eauto. }
  { intros n Hn. apply (mention_says _ _ _ WH _ _ _ CA) in Hn as (i & s & j & t & col & _ & ->). discriminate. }
  (* tiles and schedules *)
  pose proof (wh_scheds _ _ _ WH) as (scs & LS & FS).
  assert (T0 : b_tiles x = []) by (eapply p_C38_empty; eauto).
  set (x4 := b_set_conns cs (b_set_objs l (b_set_objs (seq base (length kws)) (headed x d lc acc)))) in *.
  set (w5 := upd_bp b (fun x => b_set_tiles (sort_tiles (b_tiles x)) x) (upd_bp b (b_set_tiles []) w4)).
  assert (E5 : load_tail b d w2 = (w5, Ok tt)).
  { unfold load_tail. unfold mbind at 1. rewrite E3. unfold mbind at 1. rewrite E4. unfold mbind at 1, gets at 1. rewrite (lists_get _ _ _ (wh_tiles _ _ _ WH)).
    unfold mbind, get_bp, gets, modify. rewrite B4. cbn [foldE]. change (b_tiles x4) with (b_tiles x). rewrite T0. reflexivity. }
  assert (B5 : blu w5 b = Some (b_set_tiles [] x4)).
  { unfold w5. rewrite !blu_upd, !Nat.eqb_refl, B4. reflexivity. }
  destruct (mapM_all (sched_new w5 b) scs) as (ss & MS). { intros v I. rewrite Forall_forall in FS. eapply sched_whole, FS, I. }
  assert (E6 : load_scheds b d w5 = (upd_bp b (b_set_scheds ss) w5, Ok tt)).
  { unfold load_scheds, mbind, gets, modify. rewrite (lists_get _ _ _ LS). cbn [bind]. now rewrite MS. }
  assert (LE : exists d', load_inner b (b_custom x) d w = (upd_bp b (b_set_scheds ss) w5, d', Ok tt)).
  { unfold load_inner. rewrite E1, (lists_get _ _ _ (wh_entities _ _ _ WH)), E2, E5, E6. eauto. }
  destruct LE as (d' & LE). eexists _, _, (b_set_scheds ss (b_set_tiles [] x4)). rewrite (load_holds _ _ _ _ _ Hx Hd), LE. split; [reflexivity|].
  split; [|split]. 2: { rewrite blu_upd, Nat.eqb_refl, B5. reflexivity. }
  { unfold w5. cbn [w_protos upd_bp]. congruence. }
  split; [reflexivity|]. split; [reflexivity|]. split; [reflexivity|]. split; [reflexivity|]. split; [exact LC|]. exists ics, zs. auto.
Qed.

(** ** wires as ends *)
Definition ends_at (a : nat) (s : Z) (col : string) (c : conn) : list (nat * Z) :=
  match c_from c, c_to c with
  | Some f, Some t =>
      if Nat.eqb f a then if (c_fs c =? s) && String.eqb (c_color c) col then [(t, c_ts c)] else []
      else if Nat.eqb t a then if (c_ts c =? s) && String.eqb (c_color c) col then [(f, c_fs c)] else []
      else []
  | _, _ => []
  end.
Definition no_loop (c : conn) : Prop := c_from c <> c_to c.
Lemma views_ends a s col cs : (forall c, In c cs -> no_loop c) ->
  filter (seen_at s col) (flat_map (views a) cs) = map (fun ft => (s, col, fst ft, s)) (flat_map (ends_at a s col) cs).
Proof.
  induction cs as [|c cs IH]; intros H; [reflexivity|]. cbn [flat_map]. rewrite filter_app, map_app, IH by (intros; apply H; now right). f_equal.
  specialize (H c ltac:(now left)). unfold no_loop, views, ends_at in *. destruct (c_from c) as [f|], (c_to c) as [t|]; try reflexivity.
  assert (G : forall x o y, filter (seen_at s col) [(x, c_color c, o, x)] =
      map (fun ft : nat * Z => (s, col, fst ft, s)) (if (x =? s) && String.eqb (c_color c) col then [(o, y)] else [])).
  { clear. intros x o y. cbn. destruct (Z.eqb_spec x s) as [->|], (String.eqb_spec (c_color c) col) as [->|]; reflexivity. }
  destruct (Nat.eqb_spec f a) as [->|]; destruct (Nat.eqb_spec t a) as [->|]; [congruence|apply G|apply G|reflexivity].
Qed.
Lemma ends_same a s col c f t : no_loop c -> In (f, t) (ends_at a s col c) <-> same_wire c (mkConn (Some a) (Some f) s t col).
Proof.
  intros N. unfold ends_at, same_wire, ends, no_loop in *. cbn. destruct c as [[cf|] [ct|] fs ts cc]; cbn in *.
  2-4: split; [intros []|intros (_ & [H|H]); discriminate].
  destruct (Nat.eqb_spec cf a) as [->|NF].
  - destruct (Z.eqb_spec fs s) as [->|NS], (String.eqb_spec cc col) as [->|NC]; cbn; split; try tauto.
    + intros [[= -> ->]|[]]. auto.
    + intros (_ & [[= -> ->]|[= -> E]]); [auto|congruence].
    + intros (_ & [[= ? ?]|[= ? ?]]); congruence.
  - destruct (Nat.eqb_spec ct a) as [->|NT].
    + destruct (Z.eqb_spec ts s) as [->|NS], (String.eqb_spec cc col) as [->|NC]; cbn; split; try tauto.
      * intros [[= -> ->]|[]]. auto.
      * intros (_ & [[= E ->]|[= -> ->]]); [congruence|auto].
      * intros (_ & [[= ? ?]|[= ? ?]]); congruence.
    + split; [intros []|]. intros (_ & [[= E]|[= E]]); congruence.
Qed.
Lemma ends_once a s col c : NoDup (ends_at a s col c).
Proof.
  unfold ends_at. destruct (c_from c), (c_to c); try constructor. destruct (Nat.eqb _ _); [|destruct (Nat.eqb _ _)]; try constructor;
  destruct (_ && _); repeat constructor; intros [].
Qed.
Lemma ends_nodup a s col cs : (forall c, In c cs -> no_loop c) -> distinct_wires cs -> NoDup (flat_map (ends_at a s col) cs).
Proof.
  induction cs as [|c cs IH]; intros N D; [constructor|]. cbn [flat_map].
  assert (NA : forall A (l m : list A), NoDup l -> NoDup m -> (forall x, In x l -> In x m -> False) -> NoDup (l ++ m)).
  { clear. induction l as [|x l IH]; intros m H K X; cbn; auto. inversion H; subst. constructor; [|apply IH; auto; intros y Y1 Y2; eapply X; eauto; now right].
    intros I. apply in_app_iff in I as [I|I]; [contradiction|]. eapply X; eauto. now left. }
  apply NA; [apply ends_once| |].
  - apply IH; [intros; apply N; now right|]. intros i j a' b' Hi Hj NE. apply (D (S i) (S j) a' b'); cbn; auto.
  - intros [f t] I1 I2. apply in_flat_map in I2 as (c' & Ic & I2). apply In_nth_error in Ic as (k & Hk).
    apply ends_same in I1; [|apply N; now left]. apply ends_same in I2; [|apply N; right; eapply nth_error_In; eauto].
    apply (D 0%nat (S k) c c'); cbn; auto. eapply same_wire_trans; [exact I1|apply same_wire_sym; exact I2].
Qed.

(** ** order *)
Lemma filter_order (f : nat -> bool) l base n k m i j : filter f l = filter f (seq base n) -> (k < m)%nat -> nth_error l k = Some i -> nth_error l m = Some j ->
  f i = true -> f j = true -> (i < j)%nat.
Proof.
  intros E KM Hi Hj Fi Fj. apply nth_error_split in Hi as (l1 & l2 & -> & <-). rewrite nth_error_app2 in Hj by lia.
  destruct (m - length l1)%nat as [|m'] eqn:EM; [lia|]. cbn in Hj. apply nth_error_In in Hj.
  rewrite filter_app in E. cbn [filter] in E. rewrite Fi in E.
  assert (SS : StronglySorted lt (filter f (seq base n))).
  { clear. revert base. induction n as [|n IH]; intros base; cbn; [constructor|]. destruct (f base); [|apply IH]. constructor; [apply IH|].
    apply Forall_forall. intros x I. apply filter_In in I as (I & _). apply in_seq in I. lia. }
  rewrite <- E in SS. clear E. induction (filter f l1) as [|y r IH]; cbn in SS.
  - inversion SS as [|? ? _ F]; subst. rewrite Forall_forall in F. apply F. apply filter_In. auto.
  - inversion SS; subst; auto.
Qed.
Lemma pos_both q q' : pos_le q q' -> pos_le q' q -> xeq (nval (vx q)) (nval (vx q')) /\ xeq (nval (vy q)) (nval (vy q')).
Proof.
  intros H K.
  assert (A : forall a b, xlt a b -> xlt b a -> False) by (intros a b X Y; apply (xlt_irrefl a); eapply xlt_trans; eauto).
  assert (B : forall a b, xlt a b -> xeq a b -> False) by (intros a b X Y; apply (xlt_irrefl a); eapply xlt_eq_r; [exact X|apply xeq_sym; exact Y]).
  destruct H as [H|(H1 & H2)], K as [K|(K1 & K2)]; try (exfalso; eauto using xeq_sym; fail).
  destruct H2 as [H2|H2]; [|auto]. destruct K2 as [K2|K2]; exfalso; eauto using xeq_sym.
Qed.

(** ** after a load *)
Lemma holds_inner doc d : holds doc d -> inner_doc doc = d.
Proof. intros [(-> & E) | (o & -> & E)]; cbn; now rewrite E. Qed.
Lemma lists_doc d k l : lists d k l -> doc_list d k = l.
Proof. unfold lists, doc_list. intros [-> | (-> & ->)]; reflexivity. Qed.
Lemma comb_table : forallb (fun f => Bool.eqb (existsb (fun c => match c with CCombinator => true | _ => false end) (statics (cls_of (fst f))))
                              (existsb (String.eqb (fst f)) ["arithmetic-combinator"; "decider-combinator"])) formats = true.
Proof. vm_compute. reflexivity. Qed.
Lemma comb_statics ty own cbk : In (ty, (own, cbk)) formats -> In CCombinator (statics (cls_of ty)) <-> In ty ["arithmetic-combinator"; "decider-combinator"].
Proof.
  intros I. pose proof comb_table as T. rewrite forallb_forall in T. specialize (T _ I). cbn [fst] in T. apply Bool.eqb_prop in T. split; intros H.
  - assert (E : existsb (fun c => match c with CCombinator => true | _ => false end) (statics (cls_of ty)) = true) by (apply existsb_exists; exists CCombinator; auto).
    rewrite T in E. apply existsb_exists in E as (y & Iy & Ey). apply String.eqb_eq in Ey. now subst.
  - assert (E : existsb (String.eqb ty) ["arithmetic-combinator"; "decider-combinator"] = true) by (apply existsb_exists; exists ty; split; auto; apply String.eqb_refl).
    rewrite <- T in E. apply existsb_exists in E as (y & Iy & Ey). destruct y; try discriminate. auto.
Qed.
Lemma typed_two p kw s ty own cbk : In (ty, (own, cbk)) formats -> typed p kw s ty -> two_port p kw <-> In CCombinator (statics (cls_of ty)).
Proof.
  intros I ((_ & _ & _ & N & _) & _ & data & ED & TY). rewrite (comb_statics _ _ _ I). split.
  - intros (s' & data' & ty' & N' & ED' & TY' & IN). rewrite N in N'. injection N' as <-. rewrite ED in ED'. injection ED' as <-. rewrite TY in TY'. injection TY' as <-. exact IN.
  - intros IN. exists s, data, ty. auto.
Qed.
Section Loaded.
Context (w : world) (b : nat) (x : bp) (doc : val) (d : dict) (kws : list dict) (w' : world) (doc' : val) (x' : bp).
Context (R : reachable w) (Hx : blu w b = Some x) (O : b_objs x = []) (CU : b_custom x = []) (Hd : holds doc d) (WH : whole (w_protos w) d kws).
Context (L : load b doc w = (w', doc', Ok tt)) (PW : w_protos w' = w_protos w) (Hx' : blu w' b = Some x').
Let base := length (w_ents w).
Lemma ld_reach : reachable w'.
Proof. pose proof (reach_step w (OLoad b doc) R I) as H. cbn [step] in H. rewrite L in H. exact H. Qed.
Lemma ld_docs : doc_list (inner_doc doc) "entities" = map VDict kws.
Proof. rewrite (holds_inner _ _ Hd). apply lists_doc, (wh_entities _ _ _ WH). Qed.
Lemma ld_sorted : reordered w' (seq base (length kws)) (b_objs x') /\ numbered w' (b_objs x').
Proof.
  pose proof (load_sorted b doc w w' doc' x (reach_inv _ R) Hx L) as (x1 & Hx1 & A & B). rewrite Hx' in Hx1. injection Hx1 as <-.
  rewrite O, ld_docs, map_length in A. cbn [app] in A. auto.
Qed.
Lemma ld_ent k kw : nth_error kws k = Some kw -> exists s ty own cbk e e0, In (ty, (own, cbk)) formats /\ well_formed (w_protos w) kw s ty /\
  ent w' (base + k) = Some e /\ with_auto VNone e = with_auto VNone e0 /\ comes_back (w_protos w) (Some b) kw s ty own e0.
Proof.
  intros Ek. destruct (load_ent_nth b doc w w' doc' x k kw Hx L) as (e0 & e & C & He & WA). { rewrite ld_docs. now apply map_nth_error. }
  destruct (wh_entity _ _ _ WH kw (nth_error_In _ _ Ek)) as (s & ty & own & cbk & n & IF & WF & _).
  destruct (ent_trip _ (b_custom x) (Some b) _ _ _ _ _ IF WF) as (e1 & EC & CB); [now rewrite CU|]. rewrite C in EC. injection EC as <-.
  exists s, ty, own, cbk, e, e0. auto.
Qed.
Lemma ld_carries : carries w' b base kws.
Proof.
  exists x'. split; auto. destruct ld_sorted as ((P & _) & _). split; auto. intros i kw Ei. destruct (ld_ent i kw Ei) as (s & ty & own & cbk & e & e0 & _ & _ & He & WA & CB).
  destruct (with_auto_fields _ _ WA) as (_ & A1 & A2 & _). exists e. split; auto. rewrite A1, A2, (cb_number _ _ _ _ _ _ _ CB), (cb_raw _ _ _ _ _ _ _ CB). auto.
Qed.
Lemma ld_conns : distinct_wires (b_conns x') /\
  (forall c, In c (b_conns x') -> exists i s j t col, says_wire kws i s j t col /\ same_wire c (mkConn (Some (base + i)%nat) (Some (base + j)%nat) s t col)) /\
  (forall i s j t col, says_wire kws i s j t col -> exists c, In c (b_conns x') /\ same_wire c (mkConn (Some (base + i)%nat) (Some (base + j)%nat) s t col)).
Proof.
  destruct (p_C48_loaded w b doc w' doc' x' R L Hx') as (D & A & B). split; auto. split.
  - intros c Hc. destruct (B c Hc) as (n & M & SW). apply (mention_says _ _ _ WH _ _ _ ld_carries) in M as (i & s & j & t & col & SY & ->). exists i, s, j, t, col. auto.
  - intros i s j t col SY. apply A. apply (mention_says _ _ _ WH _ _ _ ld_carries). exists i, s, j, t, col. auto.
Qed.
Lemma ld_noloop c : In c (b_conns x') -> no_loop c.
Proof.
  intros Hc. destruct ld_conns as (_ & A & _). destruct (A c Hc) as (i & s & j & t & col & SY & (_ & [E|E])); pose proof (says_other _ _ _ WH _ _ _ _ _ SY);
  unfold ends in E; cbn in E; injection E as E1 _ E2 _; unfold no_loop; rewrite E1, E2; intros [= X]; lia.
Qed.
Lemma says_index i s j t col : says_wire kws i s j t col -> (i < length kws /\ j < length kws)%nat.
Proof. intros (kw & kw' & _ & _ & _ & _ & _ & _ & A & B & _). split; apply nth_error_Some; congruence. Qed.
Lemma ld_numbered : both_numbered w' (b_conns x').
Proof.
  destruct ld_sorted as ((P & _) & NU). intros c Hc. destruct ld_conns as (_ & A & _). destruct (A c Hc) as (i & s & j & t & col & SY & SW). destruct (says_index _ _ _ _ _ SY) as (LI & LJ).
  assert (G : forall k, (k < length kws)%nat -> exists e n, ent w' (base + k) = Some e /\ e_auto e = VInt n).
  { intros k LK. assert (IN : In (base + k)%nat (b_objs x')) by (apply (Permutation_in _ P), in_seq; lia). apply In_nth_error in IN as (m & Hm). destruct (NU _ _ Hm) as (e & He & EA). eauto. }
  destruct (G i LI) as (ei & n & Hei & Hn). destruct (G j LJ) as (ej & m & Hej & Hm).
  destruct SW as (_ & [E|E]); unfold ends in E; cbn in E; injection E as E1 _ E2 _.
  - exists (base + i)%nat, (base + j)%nat, ei, ej, n, m. auto 10.
  - exists (base + j)%nat, (base + i)%nat, ej, ei, m, n. auto 10.
Qed.
(** the wires of the [i]-th entity *)
Lemma ld_ends i s col (LI : (i < length kws)%nat) : exists ends, NoDup ends /\ (forall j t, In (j, t) ends <-> wired kws i s j t col) /\
  filter (seen_at s col) (flat_map (views (base + i)) (b_conns x')) = map (fun jt => (s, col, (base + fst jt)%nat, s)) ends.
Proof.
  destruct ld_conns as (D & A & B). set (es := flat_map (ends_at (base + i) s col) (b_conns x')).
  assert (ES : forall f t, In (f, t) es <-> exists c, In c (b_conns x') /\ same_wire c (mkConn (Some (base + i)%nat) (Some f) s t col)).
  { intros f t. unfold es. rewrite in_flat_map. split; intros (c & Hc & H); exists c; (split; [auto|]); apply (ends_same _ _ _ _ _ _ (ld_noloop c Hc)); auto. }
  assert (GE : forall f t, In (f, t) es -> (base <= f)%nat).
  { intros f t I. apply ES in I as (c & Hc & SW). destruct (A c Hc) as (i' & s' & j' & t' & col' & SY & SW'). apply same_wire_sym in SW.
    pose proof (same_wire_trans _ _ _ SW SW') as (_ & [E|E]); unfold ends in E; cbn in E; injection E as E1 _ E2 _; lia. }
  exists (map (fun ft => (fst ft - base, snd ft)%nat) es). split; [|split].
  - assert (ND : NoDup es) by (apply ends_nodup; [exact ld_noloop|exact D]). clear ES. induction es as [|[f t] r IH]; [constructor|]. inversion ND; subst. cbn [map].
    constructor; [|apply IH; auto; intros; eapply GE; right; eauto]. intros I. apply in_map_iff in I as ([f' t'] & E & I). cbn in E. injection E as E1 ->.
    assert (f' = f); [|subst; contradiction]. pose proof (GE f t ltac:(now left)). pose proof (GE f' t ltac:(now right)). lia.
  - intros j t. rewrite in_map_iff. split.
    + intros ([f t'] & E & I). cbn in E. injection E as <- ->. pose proof (GE _ _ I) as GF. apply ES in I as (c & Hc & SW).
      destruct (A c Hc) as (i' & s' & j' & t' & col' & SY & SW'). apply same_wire_sym in SW. pose proof (same_wire_trans _ _ _ SW SW') as (EC & [E|E]); unfold ends in E; cbn in E, EC; injection E as E1 E2 E3 E4; subst.
      * left. replace (base + j' - base)%nat with j' by lia. replace i with i' by lia. exact SY.
      * right. replace (base + i' - base)%nat with i' by lia. replace i with j' by lia. exact SY.
    + intros [SY|SY]; destruct (B _ _ _ _ _ SY) as (c & Hc & SW); exists ((base + j)%nat, t); (split; [cbn; f_equal; lia|]); apply ES; exists c; split; auto.
      eapply same_wire_trans; [exact SW|]. split; [reflexivity|]. right. reflexivity.
  - rewrite views_ends by exact ld_noloop. fold es. rewrite map_map. clear ES. induction es as [|[f t] r IH]; [reflexivity|]. cbn [map fst]. f_equal; [|apply IH; intros; eapply GE; right; eauto].
    f_equal. f_equal. pose proof (GE f t ltac:(now left)). lia.
Qed.
(** exporting one entity, at any moment of the export *)
Lemma ld_export wk k kw : sim w' wk -> nth_error kws k = Some kw -> exists e cs dd w1, ent w' (base + k) = Some e /\
  ent_json (base + k) wk = (w1, Ok (VDict dd)) /\ sim w' w1 /\ says_again kw dd /\ dget "entity_number" dd = Some (e_auto e) /\
  dget "connections" dd = match cs with [] => None | _ => Some (VDict cs) end /\ tidy cs /\
  ((forall s j t col, ~ wired kws k s j t col) -> cs = []).
Proof.
  intros S Ek. destruct (ld_ent k kw Ek) as (s & ty & own & cbk & e & e0 & IF & WF & He & WA & CB). destruct (with_auto_fields _ _ WA) as (SB & _ & _ & EL).
  pose proof S as (P & E & B). specialize (B b). rewrite Hx' in B. destruct (blu wk b) as [xk|] eqn:Hxk; [|tauto]. destruct B as (_ & F).
  assert (Hek : ent wk (base + k) = Some e) by (unfold ent in *; congruence).
  assert (LY : e_layer e = Some b) by (rewrite EL; apply (cb_layer _ _ _ _ _ _ _ CB)).
  assert (BN : numbered_ends wk (base + k) (b_conns xk)).
  { apply both_ends. intros c Hc. destruct (both_turned w' _ _ F ld_numbered c Hc) as (i & j & ei & ej & n & m & A1 & A2 & A3 & A4 & A5 & A6).
    exists i, j, ei, ej, n, m. unfold ent in *. rewrite !E. auto 10. }
  destruct (p_C16_succeeds _ _ _ _ _ Hek LY Hxk BN) as (cs & EC). pose proof (connections_to_json_eq _ _ _ _ _ Hek LY Hxk) as CE.
  assert (CJ : connections_to_json (base + k) wk = (turned (base + k) b xk wk, Ok cs)) by (rewrite CE in EC |- *; cbn [snd] in EC; now rewrite EC).
  assert (PK : w_protos wk = w_protos w) by congruence.
  destruct (export_ent wk (turned (base + k) b xk wk) (base + k) e e0 (Some b) kw s ty own cbk cs IF) as (dd & EJ & SA & EN & EO); auto; try (rewrite PK; auto).
  exists e, cs, dd, (turned (base + k) b xk wk). split; auto. split; auto. split; [|split; [auto|split; [auto|split; [auto|split; [exact (connections_tidy _ _ _ _ CJ)|]]]]].
  { eapply sim_trans; [exact S|]. pose proof (sims_ent_json (base + k) wk) as S1. rewrite EJ in S1. exact S1. }
  intros NW. destruct (no_wires wk (base + k) e b xk Hek LY Hxk) as (w2 & CJ2 & _); [|congruence].
  intros c Hc. destruct (attached_to c (base + k)) eqn:AT; auto. exfalso. destruct (Forall2_In_r _ _ _ _ F Hc) as (c0 & Hc0 & T). apply turn_same in T.
  destruct ld_conns as (_ & A & _). destruct (A c0 Hc0) as (i & s1 & j & t1 & col & SY & SW).
  pose proof (same_wire_trans _ _ _ (same_wire_sym _ _ T) SW) as (_ & [Q|Q]); unfold ends in Q; cbn in Q; injection Q as Q1 Q2 Q3 Q4;
  unfold attached_to in AT; rewrite Q1, Q3 in AT; cbn in AT; apply orb_prop in AT as [AT|AT]; apply Nat.eqb_eq in AT.
  - apply (NW s1 j t1 col). left. replace k with i by lia. exact SY.
  - apply (NW t1 i s1 col). right. replace k with j by lia. exact SY.
  - apply (NW t1 i s1 col). right. replace k with j by lia. exact SY.
  - apply (NW s1 j t1 col). left. replace k with i by lia. exact SY.
Qed.
Lemma ld_all l : forall wk, sim w' wk -> (forall i, In i l -> In i (b_objs x')) -> exists w1 vs, mapMM ent_json l wk = (w1, Ok vs) /\ sim w' w1.
Proof.
  induction l as [|i l IH]; intros wk S H; cbn [mapMM]; [exists wk, []; split; [reflexivity|auto]|].
  destruct (carried_listed kws w' b base ld_carries x' i Hx' (H i (or_introl eq_refl))) as (k & kw & -> & Ek).
  destruct (ld_export wk k kw S Ek) as (e & cs & dd & w1 & _ & EJ & S1 & _). destruct (IH w1 S1) as (w2 & vs & EM & S2); [intros; apply H; now right|].
  unfold mbind. rewrite EJ, EM. eexists _, _. split; [reflexivity|exact S2].
Qed.
Lemma ld_scheds : exists l, lists d "schedules" l /\ Forall (schedule_doc kws) l /\ Forall2 (sched_of w' b) l (b_scheds x').
Proof.
  destruct (wh_scheds _ _ _ WH) as (l & LS & FS). exists l. split; auto. split; auto.
  destruct (p_C41_load w b x doc d w' doc' Hx Hd) as (x1 & Hx1 & F); auto.
  - destruct LS as [E|(E & _)]; [right; eauto|auto].
  - intros v dv I ->. rewrite (lists_doc _ _ _ LS) in I. rewrite Forall_forall in FS. destruct (FS _ I) as (d0 & nums & plan & [= <-] & _ & E & _). eauto.
  - rewrite Hx' in Hx1. injection Hx1 as <-. now rewrite (lists_doc _ _ _ LS) in F.
Qed.
Let order := map (fun i => (i - base)%nat) (b_objs x').
Lemma ord_nth k i : nth_error order k = Some i <-> nth_error (b_objs x') k = Some (base + i)%nat.
Proof.
  unfold order. split; intros H.
  - destruct (nth_error (b_objs x') k) as [a|] eqn:E.
    + rewrite (map_nth_error _ _ _ E) in H. injection H as <-. destruct (carried_listed kws w' b base ld_carries x' a Hx' (nth_error_In _ _ E)) as (j & kw & -> & _). f_equal. lia.
    + exfalso. apply nth_error_None in E. assert (nth_error (map (fun i => (i - base)%nat) (b_objs x')) k <> None) as NN by congruence. apply nth_error_Some in NN. rewrite map_length in NN. lia.
  - rewrite (map_nth_error _ _ _ H). f_equal. lia.
Qed.
Lemma seq_down n : forall k, map (fun i => (i - base)%nat) (seq (base + k) n) = seq k n.
Proof. induction n as [|n IH]; intros k; cbn [seq map]; [reflexivity|]. f_equal; [lia|]. rewrite <- (IH (S k)). f_equal. f_equal. lia. Qed.
Lemma ord_place : by_place kws order.
Proof.
  destruct ld_sorted as ((P & IO & ST) & NU). split.
  - rewrite <- (seq_down (length kws) 0), Nat.add_0_r. now apply Permutation_map.
  - intros k m i j KM Hi Hj. apply ord_nth in Hi. apply ord_nth in Hj. destruct (IO _ _ _ _ KM Hi Hj) as (q & q' & (e & He & Hq) & (e' & He' & Hq') & LE).
    destruct (carried_listed kws w' b base ld_carries x' _ Hx' (nth_error_In _ _ Hi)) as (i0 & kw & Ei & Ek). assert (i0 = i) by lia. subst i0. clear Ei.
    destruct (carried_listed kws w' b base ld_carries x' _ Hx' (nth_error_In _ _ Hj)) as (j0 & kw' & Ej & Ek'). assert (j0 = j) by lia. subst j0. clear Ej.
    assert (G : forall k kw e q, nth_error kws k = Some kw -> ent w' (base + k) = Some e -> e_pos e = Some q -> doc_at kw q).
    { clear - R Hx O CU Hd WH L PW Hx'. intros k kw e q Ek He Hq. destruct (ld_ent k kw Ek) as (s & ty & own & cbk & e1 & e0 & IF & WF & He1 & WA & CB).
      rewrite He in He1. injection He1 as <-. destruct (with_auto_fields _ _ WA) as ((_ & _ & B3 & _) & _). destruct (cb_pos _ _ _ _ _ _ _ CB) as (v & q0 & EV & VQ & EQ & _).
      assert (q0 = q) by congruence. subst q0. destruct (wh_entity _ _ _ WH kw (nth_error_In _ _ Ek)) as (_ & _ & _ & _ & _ & _ & _ & _ & NN & _).
      apply (placed_point _ _ _ _ _ _ WF EV VQ (NN v EV)). }
    exists kw, kw', q, q'. split; auto. split; auto. split; [eapply G; eauto|]. split; [eapply G; eauto|]. split; auto.
    intros LE'. destruct (pos_both _ _ LE LE') as (X1 & X2).
    assert (H : (base + i < base + j)%nat); [|lia].
    eapply (filter_order (at_pos w' q) _ _ _ _ _ _ _ (ST q) KM Hi Hj); unfold at_pos.
    + rewrite He, Hq. apply andb_true_intro. split; apply neqb_spec; eapply xeq_trans; eauto using xeq_sym.
    + rewrite He', Hq'. apply andb_true_intro. split; apply neqb_spec; apply xeq_sym; auto.
Qed.
Lemma ord_in j kw : nth_error kws j = Some kw -> exists m, nth_error order m = Some j /\ exists e, ent w' (base + j) = Some e /\ e_auto e = VInt (Z.of_nat m + 1).
Proof.
  intros Ej. pose proof (carried_in kws w' b base ld_carries x' j kw Hx' Ej) as I. apply In_nth_error in I as (m & Hm). exists m. split; [now apply ord_nth|].
  destruct ld_sorted as (_ & NU). exact (NU _ _ Hm).
Qed.
Lemma ld_written s j v : (j < length kws)%nat -> entry_for w' (base + j) s v -> written_end (w_protos w) kws order s j v.
Proof.
  intros LJ (fe & Hf & V). destruct (nth_error kws j) as [kw|] eqn:Ej; [|apply nth_error_None in Ej; lia]. destruct (ord_in j kw Ej) as (m & Hm & e & He & EA).
  rewrite Hf in He. injection He as <-. exists m, kw. split; auto. split; auto.
  destruct (ld_ent j kw Ej) as (s0 & ty & own & cbk & e1 & e0 & IF & (T & _) & He1 & WA & CB). rewrite Hf in He1. injection He1 as <-.
  destruct (with_auto_fields _ _ WA) as ((_ & B2 & _) & _). unfold two_sided in V. rewrite B2, (cb_clsof _ _ _ _ _ _ _ CB), <- (typed_two _ _ _ _ _ _ IF T), EA in V. exact V.
Qed.
(** exporting *)
Lemma ld_json ic : icons_json (w_protos w) 1 (b_icons x') = Ok ic -> exists w2 doc2, bp_json b w' = (w2, Ok doc2).
Proof.
  intros IC. unfold bp_json. unfold mbind at 1, get_bp at 1, gets at 1. rewrite Hx'. unfold layer_json, mbind at 1, mbind at 1, get_bp at 1, gets at 1. rewrite Hx'.
  destruct (ld_all (b_objs x') w' (sim_refl w')) as (w2 & vs & EM & (P & E & _)); [auto|]. unfold mbind at 1. rewrite EM. unfold ret at 1. unfold mbind at 1, gets at 1. rewrite P, PW, IC.
  unfold mbind, gets. destruct (mapM_all (sched_json w2) (b_scheds x')) as (sc & MS).
  - intros [is_ plan] I. destruct ld_scheds as (l & _ & _ & F). destruct (Forall2_In_r _ _ _ _ F I) as (v & _ & (dv & nums & _ & _ & _ & FO)). cbn [fst] in FO.
    unfold sched_json. cbn [fst snd]. destruct (mapM_all (fun i => match ent w2 i with Some e => Ok (e_auto e) | None => Err EUnmodelled end) is_) as (ns & ->); [|cbn [bind]; eauto].
    intros i J. assert (exists e, ent w' i = Some e) as (e & He).
    { clear - base FO J R Hx O CU Hd WH L PW Hx'. induction FO as [|n i0 ns is_ G FO IH|n ns is_ G FO IH]; [destruct J| |auto]. destruct J as [->|J]; auto.
      unfold get_entity_by_id in G. rewrite Hx' in G. apply find_number_live in G. destruct (carried_listed kws w' b base ld_carries x' i Hx' G) as (k & kw & -> & Ek).
      destruct (ld_ent k kw Ek) as (_ & _ & _ & _ & e & _ & _ & _ & He & _). eauto. }
    unfold ent in *. rewrite E, He. eauto.
  - rewrite MS. unfold ret. eauto.
Qed.
Lemma ld_nums sc nums is_ ns : schedule_doc kws sc -> (exists d0 plan, sc = VDict d0 /\ dget "locomotives" d0 = Some (VList nums) /\ dget "schedule" d0 = Some plan) -> found w' b nums is_ ->
  Forall2 (fun i n => exists e : entity, ent w' i = Some e /\ e_auto e = n) is_ ns ->
  Forall2 (fun n n' => exists k i kw, nth_error order k = Some i /\ nth_error kws i = Some kw /\ dget "entity_number" kw = Some n /\ n' = VInt (Z.of_nat k + 1)) nums ns.
Proof.
  intros (d0 & zs & plan & -> & _ & LO & _ & G) (d1 & plan' & [= <-] & LO' & _). rewrite LO in LO'. injection LO' as <-. clear LO.
  revert is_ ns. induction zs as [|z zs IH]; intros is_ ns FO F; cbn [map] in *.
  - inversion FO; subst. inversion F; subst. constructor.
  - destruct (G z ltac:(now left)) as (kw & IK & NK). apply In_nth_error in IK as (j & Ej). pose proof (by_number _ _ _ WH _ _ _ ld_carries j kw z Ej NK) as BN.
    inversion FO as [|? i ? is' Q FO'|? ? is' Q FO']; subst; [|congruence]. rewrite BN in Q. injection Q as <-. inversion F as [|? n' ? ns' (e & He & EA) F']; subst.
    constructor; [|eapply IH; eauto; intros; apply G; now right]. destruct (ord_in j kw Ej) as (m & Hm & e' & He' & EA'). exists m, j, kw. split; auto. split; auto. split; auto. congruence.
Qed.
End Loaded.

(** ** icons *)
Lemma jeq_trip v s j p : (exists sd, v = VDict sd /\ dget "name" sd = Some (VStr s)) -> signal_doc p v -> signal_json p (VStr s) = Ok j -> jeq v j.
Proof.
  intros (sd & -> & N) (d & s' & data & t & [= <-] & K & N' & T & NE & ED & ET) J. rewrite N in N'. injection N' as <-.
  unfold signal_json in J. rewrite ED in J. cbn [getitem] in J. rewrite ET in J. cbn [bind] in J. injection J as <-.
  apply jeq_dict.
  - intros k u E. destruct (K k) as (y & -> & [<-|[<-|[]]]); [congruence| |].
    + rewrite N in E. injection E as <-. exists (VStr s). split; [reflexivity|constructor].
    + rewrite T in E. injection E as <-. exists t. split; [reflexivity|constructor].
  - intros k E. cbn. destruct (key_eqb k "name") eqn:Q; [apply key_eqb_eq in Q; congruence|]. destruct (key_eqb k "type") eqn:Q2; [apply key_eqb_eq in Q2; congruence|reflexivity].
Qed.
Lemma icon_jeq p v z s j : icon_item p v z -> icon_for p v s z -> signal_json p (VStr s) = Ok j -> jeq v (VDict [(KS "index", VInt z); (KS "signal", j)]).
Proof.
  intros (d & sg & -> & K & I & B & S & SD) (d' & sg' & [= <-] & S' & I' & NE & NM & KN) J. rewrite S in S'. injection S' as <-.
  assert (JS : jeq sg j).
  { apply (jeq_trip sg s j p); auto. destruct NM as [->|NM]; auto. destruct SD as (x & _ & _ & _ & E & _). discriminate. }
  apply jeq_dict.
  - intros k u E. destruct (K k) as (y & -> & [<-|[<-|[]]]); [congruence| |].
    + rewrite I in E. injection E as <-. exists (VInt z). split; [reflexivity|constructor].
    + rewrite S in E. injection E as <-. exists j. split; [reflexivity|exact JS].
  - intros k E. cbn. destruct (key_eqb k "index") eqn:Q; [apply key_eqb_eq in Q; congruence|]. destruct (key_eqb k "signal") eqn:Q2; [apply key_eqb_eq in Q2; congruence|reflexivity].
Qed.
Lemma icon_item_json p v z s : icon_item p v z -> icon_for p v s z -> exists t data, dget s (p_signal p) = Some (VDict data) /\ dget "type" data = Some t /\ signal_json p (VStr s) = Ok (VDict [(KS "name", VStr s); (KS "type", t)]).
Proof.
  intros (d & sg & -> & K & I & B & S & (sd & s' & data & t & -> & _ & N & _ & _ & ED & ET)) (d' & sg' & [= <-] & S' & I' & NE & NM & KN).
  rewrite S in S'. injection S' as <-. destruct NM as [E|(x & [= <-] & N')]; [discriminate|]. rewrite N in N'. injection N' as <-.
  exists t, data. split; auto. split; auto. unfold signal_json. rewrite ED. cbn [getitem]. rewrite ET. reflexivity.
Qed.
Lemma Forall2_snoc {A B} (P : A -> B -> Prop) l v zs : Forall2 P (l ++ [v]) zs -> exists zs' z, zs = zs' ++ [z] /\ Forall2 P l zs' /\ P v z.
Proof.
  intros F. apply Forall2_app_inv_l in F as (z1 & z2 & F1 & F2 & ->). inversion F2 as [|? z ? ? H F3]; subst. inversion F3; subst. eauto.
Qed.
Lemma shows_items p k l o : shows p k l o -> forall zs, Forall2 (icon_item p) l zs -> NoDup zs ->
  match o with
  | None => ~ In (Z.of_nat k + 1) zs
  | Some v => exists u s, In u l /\ v = VStr s /\ icon_item p u (Z.of_nat k + 1) /\ icon_for p u s (Z.of_nat k + 1)
  end.
Proof.
  induction 1 as [|l v s z o H IH IF SL|l v s z o H IH IF SL]; intros zs F ND.
  - inversion F; subst. intros [].
  - apply Forall2_snoc in F as (zs' & z' & -> & F & IT).
    assert (z' = z). { destruct IT as (d & sg & -> & _ & I & _). destruct IF as (d' & sg' & [= <-] & _ & I' & _). congruence. }
    subst z'. assert (z = Z.of_nat k + 1). { destruct IT as (d & sg & _ & _ & _ & B & _). destruct SL as [(_ & E)|(B' & E)]; lia. }
    subst z. exists v, s. split; [apply in_or_app; cbn; auto|auto].
  - apply Forall2_snoc in F as (zs' & z' & -> & F & IT).
    assert (z' = z). { destruct IT as (d & sg & -> & _ & I & _). destruct IF as (d' & sg' & [= <-] & _ & I' & _). congruence. }
    subst z'. assert (NZ : z <> Z.of_nat k + 1). { intros ->. apply SL. left. destruct IT as (d & sg & _ & _ & _ & B & _). lia. }
    assert (ND' : NoDup zs') by (apply NoDup_remove_1 in ND; now rewrite app_nil_r in ND). specialize (IH zs' F ND'). destruct o as [u|].
    + destruct IH as (u' & s' & I & A). exists u', s'. split; [apply in_or_app; auto|auto].
    + intros I. apply in_app_iff in I as [I|[I|[]]]; [contradiction|congruence].
Qed.
Lemma icons_json_all p slots : (forall k v, nth_error slots k = Some (Some v) -> exists j, signal_json p v = Ok j) -> forall i, exists m, icons_json p i slots = Ok m.
Proof.
  induction slots as [|o slots IH]; intros H i; cbn [icons_json]; [eauto|]. destruct IH with (i := i + 1) as (m & E); [intros k v Hk; apply (H (S k) v Hk)|].
  destruct o as [v|]; [|eauto]. destruct (H 0%nat v eq_refl) as (j & ->). cbn [bind]. rewrite E. cbn [bind]. eauto.
Qed.
Lemma items_unique p l zs v v' z : Forall2 (icon_item p) l zs -> NoDup zs -> In v l -> In v' l -> icon_item p v z -> icon_item p v' z -> v = v'.
Proof.
  intros F ND I I' IT IT'. apply In_nth_error in I as (i & Hi). apply In_nth_error in I' as (i' & Hi').
  destruct (F2_nth _ _ _ _ _ F Hi) as (y & Hy & Y). destruct (F2_nth _ _ _ _ _ F Hi') as (y' & Hy' & Y').
  assert (G : forall v z z', icon_item p v z -> icon_item p v z' -> z = z').
  { intros u a c (d & sg & -> & _ & A & _) (d' & sg' & [= <-] & _ & A' & _). congruence. }
  rewrite (G _ _ _ Y IT) in Hy. rewrite (G _ _ _ Y' IT') in Hy'.
  assert (i = i'). { rewrite NoDup_nth_error in ND. apply ND; [apply nth_error_Some; congruence|congruence]. } subst i'. congruence.
Qed.
Lemma icons_trip p l zs acc : Forall2 (icon_item p) l zs -> NoDup zs -> foldE (load_icon p) l [None; None; None; None] = (acc, Ok tt) ->
  exists m, icons_json p 1 acc = Ok m /\ icons_again l m.
Proof.
  intros F ND FE. destruct (fold_icons p l (icons_whole _ _ _ F)) as (acc' & FE' & LA & SH). rewrite FE in FE'. injection FE' as <-.
  assert (SL : forall k v, nth_error acc k = Some (Some v) -> exists u s, In u l /\ v = VStr s /\ icon_item p u (Z.of_nat k + 1) /\ icon_for p u s (Z.of_nat k + 1)).
  { intros k v Hk. exact (shows_items _ _ _ _ (SH _ _ Hk) zs F ND). }
  destruct (icons_json_all p acc) with (i := 1) as (m & EM).
  { intros k v Hk. destruct (SL _ _ Hk) as (u & s & _ & -> & IT & IF). destruct (icon_item_json _ _ _ _ IT IF) as (t & _ & _ & _ & E). eauto. }
  exists m. split; auto. destruct (icons_json_ok p acc 0 m EM) as (ks & SS & _ & IN & FK).
  assert (FK' : Forall2 (fun k v => exists u s j, In u l /\ nth_error acc k = Some (Some (VStr s)) /\ icon_item p u (Z.of_nat k + 1) /\ jeq u v /\ v = VDict [(KS "index", VInt (Z.of_nat k + 1)); (KS "signal", j)]) ks m).
  { eapply Forall2_impl'; [|exact FK]. intros k v (s & data & t & _ & N & ED & ET & ->). rewrite Nat.sub_0_r in N. destruct (SL _ _ N) as (u & s' & I & [= <-] & IT & IF).
    exists u, s, (VDict [(KS "name", VStr s); (KS "type", t)]). split; auto. split; auto. split; auto. split; auto.
    eapply icon_jeq; eauto. unfold signal_json. rewrite ED. cbn [getitem]. rewrite ET. reflexivity. }
  clear FK. split; [|split].
  - intros v I. destruct (Forall2_In_l _ _ _ _ F I) as (z & Iz & IT). pose proof IT as (d & sg & -> & _ & _ & B & _).
    assert (EK : exists k, z = Z.of_nat k + 1 /\ (k < 4)%nat) by (exists (Z.to_nat (z - 1)); lia). destruct EK as (k & -> & K4).
    destruct (nth_error acc k) as [o|] eqn:Hk; [|apply nth_error_None in Hk; lia]. pose proof (shows_items _ _ _ _ (SH _ _ Hk) zs F ND) as Q.
    destruct o as [v'|]; [|contradiction]. specialize (IN _ _ Hk). rewrite Nat.add_0_l in IN. destruct (Forall2_In_l _ _ _ _ FK' IN) as (u & Iu & u' & s & j & I' & _ & IT' & J & _).
    exists u. split; auto. now rewrite (items_unique _ _ _ _ _ _ F ND I I' IT IT').
  - intros u I. destruct (Forall2_In_r _ _ _ _ FK' I) as (k & _ & u' & s & j & I' & _ & _ & J & _). eauto.
  - clear - SS FK'. induction FK' as [|k v ks m (u & s & j & _ & _ & _ & _ & E) F IH]; [constructor|]. inversion SS as [|? ? SS' FA]; subst. constructor; [auto|].
    apply Forall_forall. intros v' I. destruct (Forall2_In_r _ _ _ _ F I) as (k' & Ik & u' & s' & j' & _ & _ & _ & _ & ->). rewrite Forall_forall in FA. specialize (FA _ Ik).
    exists (Z.of_nat k + 1), (Z.of_nat k' + 1). split; [eexists; split; [reflexivity|reflexivity]|]. split; [eexists; split; [reflexivity|reflexivity]|]. lia.
Qed.

(** ** the exported dictionary *)
Lemma out_get item label lc (es ic : list val) ver (sc : list val) k :
  dget k (let o := obj_set [(KS "item", item)] "label" label in
          let o := match lc with Some c => dset "label_color" (color_to_json c) o | None => o end in
          let o := obj_set o "entities" (none_if_empty es) in
          let o := obj_set o "tiles" (none_if_empty []) in
          let o := dset "icons" (VList ic) o in
          let o := dset "version" ver o in
          match sc with [] => o | _ => dset "schedules" (VList sc) o end) =
  if key_eqb k "item" then Some item
  else if key_eqb k "label" then match label with VNone => None | v => Some v end
  else if key_eqb k "label_color" then option_map color_to_json lc
  else if key_eqb k "entities" then match es with [] => None | _ => Some (VList es) end
  else if key_eqb k "icons" then Some (VList ic)
  else if key_eqb k "version" then Some ver
  else if key_eqb k "schedules" then match sc with [] => None | _ => Some (VList sc) end
  else None.
Proof.
  cbv zeta.
  assert (G : forall (q : string) (r : Prop), (key_eqb k q = true -> k = KS q -> r) -> (key_eqb k q = false -> r) -> r).
  { intros q r H K. destruct (key_eqb k q) eqn:E; auto. apply H; auto. now apply key_eqb_eq. }
  apply (G "item"); [intros E ->|intros E1]. { destruct sc, es, lc, label; unfold obj_set, none_if_empty; rewrite ?dget_dset'; reflexivity. }
  apply (G "label"); [intros E ->|intros E2]. { destruct sc, es, lc, label; unfold obj_set, none_if_empty; rewrite ?dget_dset'; reflexivity. }
  apply (G "label_color"); [intros E ->|intros E3]. { destruct sc, es, lc, label; unfold obj_set, none_if_empty; rewrite ?dget_dset'; reflexivity. }
  apply (G "entities"); [intros E ->|intros E4]. { destruct sc, es, lc, label; unfold obj_set, none_if_empty; rewrite ?dget_dset'; reflexivity. }
  apply (G "icons"); [intros E ->|intros E5]. { destruct sc, es, lc, label; unfold obj_set, none_if_empty; rewrite ?dget_dset'; reflexivity. }
  apply (G "version"); [intros E ->|intros E6]. { destruct sc, es, lc, label; unfold obj_set, none_if_empty; rewrite ?dget_dset'; reflexivity. }
  apply (G "schedules"); [intros E ->|intros E7]. { destruct sc, es, lc, label; unfold obj_set, none_if_empty; rewrite ?dget_dset'; reflexivity. }
  rewrite E1, E2, E3, E4, E5, E6, E7.
  destruct sc, es, lc, label; unfold obj_set, none_if_empty; rewrite ?dget_dset', ?E1, ?E2, ?E3, ?E4, ?E5, ?E6, ?E7; cbn [dget]; now rewrite E1.
Qed.

(** ** C35 *)
Lemma lists_fun d k l l' : lists d k l -> lists d k l' -> l = l'.
Proof. intros H K. now rewrite <- (lists_doc _ _ _ H), <- (lists_doc _ _ _ K). Qed.
Lemma all_dicts (vs : list val) : (forall k v, nth_error vs k = Some v -> exists d, v = VDict d) -> exists es, vs = map VDict es.
Proof.
  induction vs as [|v vs IH]; intros H; [exists []; reflexivity|]. destruct (H 0%nat v eq_refl) as (d & ->). destruct IH as (es & ->); [intros k v E; apply (H (S k) v E)|].
  exists (d :: es). reflexivity.
Qed.
Lemma p_C35 w b x doc d kws : reachable w -> blu w b = Some x -> b_objs x = [] -> b_custom x = [] ->
  b_label_color x = None \/ dget "label_color" d <> None -> holds doc d -> whole (w_protos w) d kws ->
  exists w' doc' w2 o, load b doc w = (w', doc', Ok tt) /\ bp_json b w' = (w2, Ok (VDict [(KS "blueprint", VDict o)])) /\
    same_blueprint (w_protos w) d kws o.
Proof.
  intros R Hx O CU LX Hd WH. destruct (load_whole w b x doc d kws R Hx O CU Hd WH) as (w' & doc' & x' & L & PW & Hx' & F1 & F2 & F3 & F4 & F5 & ics & zs & LI & FI & NZ & FE).
  destruct (icons_trip _ _ _ _ FI NZ FE) as (ic & EI & IA).
  destruct (ld_json w b x doc d kws w' doc' x' R Hx O CU Hd WH L PW Hx' ic EI) as (w2 & doc2 & J).
  pose proof (ld_reach w b doc w' doc' R L) as R'.
  destruct (bp_json_ok _ _ _ _ J) as (x1 & vs & ic' & sc & o & Hx1 & MM & EI' & MS & -> & EO). rewrite Hx' in Hx1. injection Hx1 as <-.
  assert (PW2 : w_protos w2 = w_protos w).
  { destruct (mapMM_sims _ _ _ _ _ sims_ent_json MM) as (P & _). congruence. }
  rewrite PW2, EI in EI'. injection EI' as <-. rewrite F4 in EO. cbn [map] in EO.
  pose proof (out_get (b_item x') (b_label x') (b_label_color x') vs ic (b_version x') sc) as OG. cbv zeta in EO. cbv zeta in OG. rewrite <- EO in OG. clear EO.
  exists w', doc', w2, o. split; auto. split; auto.
  set (base := length (w_ents w)) in *. set (order := map (fun i => (i - base)%nat) (b_objs x')).
  destruct (bp_json_nth _ _ _ _ J) as (x1 & Hx1 & LEN & NTH). rewrite Hx' in Hx1. injection Hx1 as <-.
  assert (VS : doc_list (inner_doc (VDict [(KS "blueprint", VDict o)])) "entities" = vs).
  { cbn [inner_doc dget key_eqb String.eqb Ascii.eqb Bool.eqb]. unfold doc_list. rewrite OG. cbn. destruct vs; reflexivity. }
  rewrite VS in LEN, NTH.
  (* the k-th exported entity *)
  assert (KTH : forall k i, nth_error order k = Some i -> exists e, nth_error vs k = Some (VDict e) /\ entity_again (w_protos w) kws order k i e).
  { intros k i Hk. pose proof Hk as Hk0. apply (ord_nth w b x doc d kws w' doc' x' R Hx O CU Hd WH L Hx') in Hk. fold base in Hk. destruct (NTH _ _ Hk) as (v & wa & wb & Hv & S & EJ).
    destruct (carried_listed kws w' b base (ld_carries w b x doc d kws w' doc' x' R Hx O CU Hd WH L Hx') x' _ Hx' (nth_error_In _ _ Hk)) as (i0 & kw & Ei & Ek).
    fold base in Ei. assert (i0 = i) by lia. subst i0. clear Ei.
    destruct (ld_export w b x doc d kws w' doc' x' R Hx O CU Hd WH L PW Hx' wa i kw S Ek) as (e & cs & dd & wc & He & EJ' & _ & SA & EN & EC & TC & NW).
    fold base in He, EJ'. rewrite EJ in EJ'. injection EJ' as _ ->. exists dd. split; auto. split; [eauto|]. split.
    - destruct (ld_sorted w b x doc d kws w' doc' x' R Hx O Hd WH L Hx') as (_ & NU). destruct (NU _ _ Hk) as (e' & He' & EA). rewrite He in He'. injection He' as <-. now rewrite EN, EA.
    - split.
      + intros s col. assert (LI2 : (i < length kws)%nat) by (apply nth_error_Some; congruence).
        destruct (ld_ends w b x doc d kws w' doc' x' R Hx O CU Hd WH L Hx' i s col LI2) as (ends & ND & IN & FV). fold base in FV.
        destruct (p_C16_document w' b w2 _ R' J) as (x1 & Hx1 & _ & G). rewrite Hx' in Hx1. injection Hx1 as <-. rewrite VS in G.
        destruct (G) with (k := k) (i := (base + i)%nat) as (v & Hv' & (e' & q & dd' & _ & _ & -> & _ & _ & _ & PO)); [|exact Hk|].
        { intros c Hc SK. destruct SK as (SK & _). exact (ld_noloop w b x doc d kws w' doc' x' R Hx O CU Hd WH L Hx' c Hc SK). }
        rewrite Hv in Hv'. injection Hv' as <-. destruct (PO s col) as (l & PL & FL). exists ends, l. split; auto. split; auto. split; auto. rewrite FV in FL.
        assert (FE2 : Forall2 (fun jt v => entry_of w' (s, col, (base + fst jt)%nat, s) v) ends l).
        { clear - FL. revert l FL. induction ends as [|a r IH]; intros l FL; inversion FL; subst; constructor; auto. }
        assert (BD : forall jt, In jt ends -> (fst jt < length kws)%nat).
        { intros [j t] I. apply IN in I. cbn. destruct I as [I|I]; apply (says_index kws) in I; tauto. }
        clear - FE2 BD R Hx O CU Hd WH L PW Hx' base order. revert BD. induction FE2 as [|jt v ends l E F IH]; intros BD; constructor.
        * eapply ld_written; eauto. apply BD. now left.
        * apply IH. intros; apply BD. now right.
      + split; [|intros H; rewrite EC, (NW H); reflexivity]. intros u EU. rewrite EC in EU. destruct cs as [|c0 cs]; [discriminate|]. injection EU as <-. eexists. split; [reflexivity|]. split; [discriminate|exact TC]. }
  assert (LO : length vs = length order) by (unfold order; now rewrite map_length).
  destruct (all_dicts vs) as (es & EV).
  { intros k v Hk. destruct (nth_error order k) as [i|] eqn:Hi; [|apply nth_error_None in Hi; assert (NN : nth_error vs k <> None) by (rewrite Hk; discriminate); apply nth_error_Some in NN; lia].
    destruct (KTH _ _ Hi) as (e & He & _). rewrite Hk in He. injection He as ->. eauto. }
  constructor.
  - intros k N. rewrite OG in N. repeat match type of N with context [key_eqb k ?q] => let Q := fresh in destruct (key_eqb k q) eqn:Q; [apply key_eqb_eq in Q; eexists; split; [exact Q|cbn; tauto]|clear Q] end. congruence.
  - rewrite OG, F1. reflexivity.
  - rewrite OG, F3. reflexivity.
  - rewrite OG, F2. cbn. unfold dataget. pose proof (wh_label _ _ _ WH) as NL. destruct (dget "label" d) as [[]|]; cbn; congruence.
  - unfold same_at. rewrite OG. cbn. destruct (dget "label_color" d) as [v|] eqn:EL.
    + destruct F5 as (c & -> & JC). exact JC.
    + rewrite F5. destruct LX as [->|N]; [exact I|congruence].
  - exists ics, ic. split; auto. split; [rewrite OG; reflexivity|auto].
  - exists order, es. split; [exact (ord_place w b x doc d kws w' doc' x' R Hx O CU Hd WH L Hx')|].
    split; [unfold lists_short; rewrite OG; cbn; rewrite EV; reflexivity|]. rewrite EV, map_length in LO. split; auto. split.
    + intros k i e Hk He. destruct (KTH _ _ Hk) as (e' & He' & A). rewrite EV in He'. rewrite (map_nth_error _ _ _ He) in He'. injection He' as <-. exact A.
    + destruct (ld_scheds w b x doc d kws w' doc' x' Hx Hd WH L Hx') as (l & LS & FS & F). exists l, sc. split; auto. split; [unfold lists_short; rewrite OG; reflexivity|].
      destruct (p_C41_export _ _ _ _ J) as (x1 & Hx1 & FD & _). rewrite Hx' in Hx1. injection Hx1 as <-.
      cbn [inner_doc dget key_eqb String.eqb Ascii.eqb Bool.eqb] in FD. unfold doc_list in FD. rewrite OG in FD. cbn in FD.
      assert (FD' : Forall2 (sched_doc w') (b_scheds x') sc) by (destruct sc; exact FD). clear FD MS.
      assert (SA : forall v s u, In v l -> sched_of w' b v s -> sched_doc w' s u -> schedule_again kws order v u).
      { intros v s u I (d0 & nums & -> & E1 & E2 & FO) (ns & -> & F2n). rewrite Forall_forall in FS. pose proof (FS _ I) as SD. exists d0, nums, (snd s), ns.
        split; auto. split; auto. split; auto. split; auto.
        exact (ld_nums w b x doc d kws w' doc' x' R Hx O CU Hd WH L Hx' _ nums (fst s) ns SD ltac:(eauto) FO F2n). }
      clear - F FD' SA. revert sc FD'. induction F as [|v s l ss SO F IH]; intros sc FD'; inversion FD' as [|? u ? sc' SD FD2]; subst; constructor.
      * apply (SA v s u); auto. now left.
      * apply IH; auto. intros; eapply SA; eauto. now right.
Qed.
