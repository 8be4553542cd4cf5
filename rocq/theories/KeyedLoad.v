(** * The export of a loaded JSON document is a JSON document. *)
From Coq Require Import Lia Permutation Sorting.Sorted.
From Verif Require Import Py Num NumFacts Text SpecCodec JsonFacts Util Classes Mixins Entity World
  SpecWorld SpecDoc SpecEntity SpecTrip SpecBlueprint SpecReload DictFacts WorldFacts EntProofs PersistProofs WireProofs ExportProofs LayerProofs EntTrip BlueTrip ShapeProofs JeqProofs ReloadProofs KeyedProofs.
Open Scope Z_scope.

(** ** texts *)
Lemma text_ascii l : Forall (fun c => 0 <= c < 128) l -> text (utf8s l).
Proof.
  intros F. exists l. split; [|split; auto].
  - eapply Forall_impl; [|exact F]. intros c H. unfold code_point. cbn in H. lia.
  - induction F as [|c l H F IH]; [exact I|]. destruct l as [|c' l]; [exact I|]. split; [lia|exact IH].
Qed.
Fixpoint codes (s : string) : list Z := match s with EmptyString => [] | String c r => Z.of_N (N_of_ascii c) :: codes r end.
Lemma text_lit s : forallb (fun c => (0 <=? c) && (c <? 128)) (codes s) = true -> utf8s (codes s) = s -> text s.
Proof.
  intros F E. rewrite <- E. apply text_ascii. rewrite forallb_forall in F. apply Forall_forall. intros c H. specialize (F c H). lia.
Qed.
Ltac lit := apply text_lit; reflexivity.

(** ** dictionaries *)
Lemma like_dict (d : dict) : NoDup (map fst d) -> KSonly d -> (forall k v, In (k, v) d -> text (json_key k) /\ json_like v) -> json_like (VDict d).
Proof.
  intros N K H. apply dict_like. split.
  - clear H. induction d as [|[k v] d IH]; cbn; [constructor|]. cbn in N. inversion N; subst. constructor.
    + destruct (K k v (or_introl eq_refl)) as (s & ->). intros I. apply in_map_iff in I as ([k' v'] & E & I). destruct (K k' v' (or_intror I)) as (s' & ->). cbn in E. subst s'.
      apply H1. apply in_map_iff. exists (KS s, v'). auto.
    + apply IH; auto. intros k' v' I. apply (K k' v'). now right.
  - clear N K. induction d as [|[k v] d IH]; cbn [members_like]; [exact I|]. destruct (H k v (or_introl eq_refl)). split; auto. split; auto. apply IH. intros; apply H. now right.
Qed.
Lemma like_list_all l : (forall v, In v l -> json_like v) -> json_like (VList l).
Proof. induction l as [|x l IH]; intros H; [exact I|]. split; [apply H; now left|]. apply IH. intros; apply H. now right. Qed.
Lemma like_text (k : key) v d : json_like (VDict d) -> In (k, v) d -> text (json_key k).
Proof.
  intros (_ & H) I. revert H I. induction d as [|[k' x] d IH]; intros H []; destruct H as (H0' & H1 & H2).
  - injection H0 as -> ->. auto.
  - apply IH; auto.
Qed.
Lemma wk_in (k : key) v d : wkd d -> In (k, v) d -> wk v.
Proof. intros [_ H] I. rewrite Forall_forall in H. exact (H _ I). Qed.
Lemma like_wk v : json_like v -> wk v.
Proof.
  induction v as [|b|z|f|s|l F|d F] using val_ind'; intros J; try exact I.
  - apply wk_list. rewrite Forall_forall in *. intros x H. apply F; auto. eapply like_list; eauto.
  - apply wk_dict. split; [now apply like_nodup|]. rewrite Forall_forall in *. intros [k x] H. apply (F _ H). eapply like_in; eauto.
Qed.
Lemma jeq_like u : forall v, jeq v u -> json_like v -> str_keys v -> wk u -> json_like u.
Proof.
  induction u as [|b|z|f|s|l F|e F] using val_ind'; intros v J L K W;
    try (inversion J; subst; exact L).
  - inversion J as [|l0 m FJ|]; subst; [exact L|]. apply like_list_all. intros y Hy. rewrite Forall_forall in F.
    destruct (Forall2_In_r _ _ _ _ FJ Hy) as (x & Hx & JX). apply (F _ Hy x); auto; [eapply like_list; eauto|eapply str_list; eauto|].
    apply wk_list in W. rewrite Forall_forall in W. auto.
  - inversion J as [| |d0 e0 A B]; subst; [exact L|]. apply wk_dict in W. assert (S : dsim d0 e) by (split; auto). rewrite Forall_forall in F.
    assert (G : forall k y, In (k, y) e -> exists x, dget k d0 = Some x /\ jeq x y).
    { intros k y Hy. apply (ds_back _ _ S). apply in_dget_nd; auto. apply W. }
    apply like_dict; [apply W| |].
    + intros k y Hy. destruct (G k y Hy) as (x & D & _). destruct (str_get _ _ _ K D) as (KK & _). exact KK.
    + intros k y Hy. destruct (G k y Hy) as (x & D & JX). destruct (str_get _ _ _ K D) as (_ & KX). split; [eapply like_text; [exact L|]; eapply dget_in; eauto|].
      apply (F _ Hy x); auto; [eapply like_get; eauto|]. eapply wk_in; eauto.
Qed.

(** ** exports without repeated keys *)
Lemma wkd_slot o s : wkd o -> wkd (slot o s).
Proof. intros O. unfold slot. destruct (dget (KI s) o) as [[]|] eqn:E; auto using wkd_nil. apply wk_dict. eapply wk_get; eauto. Qed.
Lemma wk_slot_list d c : wkd d -> Forall wk (slot_list d c).
Proof. intros D. unfold slot_list. destruct (dget (KS c) d) as [[]|] eqn:E; try constructor. apply wk_list. eapply wk_get; eauto. Qed.
Lemma wkd_ensure s c o : wkd o -> wkd (ensure_slot s c o).
Proof.
  intros O. unfold ensure_slot. set (o1 := if dmem (KI s) o then o else dset (KI s) (VDict []) o).
  assert (O1 : wkd o1) by (unfold o1; destruct (dmem _ _); auto; apply wkd_dset; auto; apply wk_dict, wkd_nil).
  destruct (dmem c (slot o1 s)); auto. apply wkd_dset; auto. apply wk_dict. apply wkd_dset; [now apply wkd_slot|]. apply wk_list. constructor.
Qed.
Lemma wkd_append s c v o : wkd o -> wk v -> wkd (append_slot s c v o).
Proof.
  intros O V. unfold append_slot. apply wkd_dset; auto. apply wk_dict. apply wkd_dset; [now apply wkd_slot|]. apply wk_list. apply Forall_app. split; [now apply wk_slot_list, wkd_slot|auto].
Qed.
Lemma wk_entry te s : wk (e_auto te) -> wk (conn_entry te s).
Proof. intros H. unfold conn_entry. apply wk_dict. destruct (_ =? 2); (split; [nodup_lit|]); vals; auto. Qed.
Lemma wkd_conns w e l : (forall c t te, In c l -> c_to c = Some t -> ent w t = Some te -> wk (e_auto te)) -> forall o o', wkd o -> conns_json w e l o = Ok o' -> wkd o'.
Proof.
  induction l as [|c l IH]; intros H o o' O; cbn [conns_json]; [intros [= <-]; auto|]. intros E. peel. apply (IH (fun c t te I => H c t te (or_intror I))) in E; auto.
  unfold conn_json1 in E0. destruct (c_to c) as [t|] eqn:T; [|discriminate]. destruct (ent w t) as [te|] eqn:ET; [|discriminate]. injection E0 as <-.
  assert (V : wk (conn_entry te (c_fs c))) by (apply wk_entry; exact (H c t te (or_introl eq_refl) T ET)).
  apply wkd_append; auto. destruct (Nat.eqb t e); auto using wkd_append, wkd_ensure.
Qed.
Lemma wk_ent_json w i e w' v b x n : ent_json i w = (w', Ok v) -> ent w i = Some e -> wke e -> e_auto e = VInt n -> e_layer e = Some b -> blu w b = Some x ->
  numbered_ends w i (b_conns x) -> string_types (w_protos w) -> wk v.
Proof.
  intros J He (WA & WN & WC) AU LY Hx NE ST. unfold ent_json in J. apply mbind_ok in J as (e' & w1 & G & J). unfold get_ent, gets in G. rewrite He in G. injection G as <- <-.
  destruct (e_pos e) as [q|]; [|discriminate]. apply mbind_ok in J as (cs & w2 & C & J). unfold gets in J. injection J as -> J. peel. injection J as <-.
  rewrite (connections_to_json_eq _ _ _ _ _ He LY Hx) in C. injection C as <- C. peel.
  assert (CW : wkd cs).
  { eapply wkd_conns; [|apply wkd_nil|exact C]. intros c t te I T ET. apply (Permutation_in _ (Permutation_sym (my_wires_perm _ _ _ _ E0))) in I.
    unfold mine in I. apply in_map_iff in I as (c0 & <- & Hd). apply filter_In in Hd as [Hd A].
    assert (AT : c_from c0 = Some i \/ c_to c0 = Some i).
    { unfold attached_to, end_eqb in A. apply orb_prop in A as [A|A]; [left; destruct (c_from c0)|right; destruct (c_to c0)]; try discriminate; apply Nat.eqb_eq in A; congruence. }
    destruct (NE c0 Hd AT) as (j & k & ej & ek & m & m' & F1 & F2 & F3 & F4 & F5 & F6).
    unfold turn_towards in T. destruct (attached_to c0 i); [|rewrite F2 in T; injection T as <-; rewrite F4 in ET; injection ET as <-; now rewrite F6].
    assert (TE : t = k \/ t = j) by (unfold orientate in T; destruct (end_eqb _ _); cbn in T; rewrite ?F1, ?F2 in T; injection T; auto).
    destruct TE as [-> | ->]; [rewrite F4 in ET|rewrite F3 in ET]; injection ET as <-; [now rewrite F6|now rewrite F5]. }
  apply wk_dict. refine (wkd_chain _ ST _ _ _ _ _ WC _ _ WA _ E). clear E.
  set (o := [(KS "entity_number", e_auto e); (KS "name", e_name e); (KS "position", vec_to_json q)]).
  assert (O : wkd o) by (split; [nodup_lit|]; repeat (apply Forall_cons || apply Forall_nil); cbn [snd]; auto using wk_vec; rewrite AU; exact I).
  destruct cs as [|c0 cs0]; [exact O|]. change (wkd (dset "connections" (VDict (c0 :: cs0)) o)). apply wkd_dset; [exact O|]. now apply wk_dict.
Qed.

Section Loaded.
Context (w : world) (b : nat) (x : bp) (doc : val) (d : dict) (kws : list dict) (w' : world) (doc' : val) (x' : bp).
Context (R : reachable w) (Hx : blu w b = Some x) (O : b_objs x = []) (CU : b_custom x = []) (Hd : holds doc d) (WH : whole (w_protos w) d kws).
Context (L : load b doc w = (w', doc', Ok tt)) (PW : w_protos w' = w_protos w) (Hx' : blu w' b = Some x').
Context (ST : string_types (w_protos w)) (JD : json_like (VDict d)).
Let base := length (w_ents w).
Lemma kw_like kw : In kw kws -> json_like (VDict kw).
Proof.
  intros H. destruct (wh_entities _ _ _ WH) as [E|(_ & E)]; [|apply map_eq_nil in E; subst; destruct H].
  eapply like_list; [exact (like_get _ _ _ JD E)|]. now apply in_map.
Qed.
Lemma ld_wk w0 k kw w1 v : sim w' w0 -> nth_error kws k = Some kw -> ent_json (base + k) w0 = (w1, Ok v) -> wk v.
Proof.
  intros S Ek J. destruct (load_ent_nth b doc w w' doc' x k kw Hx L) as (e0 & e & C & He & WA). { rewrite (ld_docs w doc d kws Hd WH). now apply map_nth_error. }
  destruct (construct (w_protos w) (b_custom x) (Some b) kw) as [kw' r] eqn:CC. cbn [snd] in C. subst r.
  assert (KW : wkd kw) by (apply wk_dict, like_wk, kw_like; eapply nth_error_In; eauto).
  pose proof (wk_construct _ _ _ _ _ _ KW CC) as (W1 & W2 & W3). destruct (with_auto_fields _ _ WA) as ((A1 & _ & _ & _ & A5 & A6) & _ & _ & EL).
  destruct (ord_in w b x doc d kws w' doc' x' R Hx O CU Hd WH L Hx' k kw Ek) as (m & _ & e1 & He1 & AU). fold base in He1, He. rewrite He in He1. injection He1 as <-.
  destruct (ld_ent w b x doc d kws w' doc' Hx CU Hd WH L k kw Ek) as (s & ty & own & cbk & e1 & e2 & _ & _ & He1 & WA1 & CB). fold base in He1. rewrite He in He1. injection He1 as <-.
  destruct (with_auto_fields _ _ WA1) as (_ & _ & _ & EL1).
  pose proof S as (P & E & B). specialize (B b). rewrite Hx' in B. destruct (blu w0 b) as [x0|] eqn:Hx0; [|tauto]. destruct B as (_ & F).
  eapply wk_ent_json; [exact J| | |exact AU| |exact Hx0| |].
  - unfold ent in *. congruence.
  - split; [now rewrite A6|]. split; [now rewrite A1|]. now rewrite A5.
  - rewrite EL1. apply (cb_layer _ _ _ _ _ _ _ CB).
  - apply both_ends. intros c Hc. destruct (both_turned w' _ _ F (ld_numbered w b x doc d kws w' doc' x' R Hx O CU Hd WH L Hx') c Hc) as (i & j & ei & ej & n & m' & B1 & B2 & B3 & B4 & B5 & B6).
    exists i, j, ei, ej, n, m'. unfold ent in *. rewrite !E. auto 10.
  - assert (Q : w_protos w0 = w_protos w) by congruence. rewrite Q. exact ST.
Qed.
Lemma ld_all_wk l : forall w0 w1 vs, sim w' w0 -> (forall i, In i l -> In i (b_objs x')) -> mapMM ent_json l w0 = (w1, Ok vs) -> Forall wk vs.
Proof.
  induction l as [|i l IH]; intros w0 w1 vs S H J; cbn [mapMM] in J; [injection J as _ <-; constructor|].
  apply mbind_ok in J as (v & w2 & J1 & J). apply mbind_ok in J as (vs' & w3 & J2 & J). unfold ret in J. injection J as _ <-.
  destruct (carried_listed kws w' b base (ld_carries w b x doc d kws w' doc' x' R Hx O CU Hd WH L Hx') x' i Hx' (H i (or_introl eq_refl))) as (k & kw & -> & Ek).
  constructor; [eapply ld_wk; eauto|]. eapply IH; [|intros; apply H; now right|exact J2].
  eapply sim_trans; [exact S|]. pose proof (sims_ent_json (base + k) w0) as S1. rewrite J1 in S1. exact S1.
Qed.
Lemma icons_wk l : forall i m, icons_json (w_protos w) i l = Ok m -> Forall wk m.
Proof.
  induction l as [|[v|] l IH]; intros i m; cbn [icons_json]; [intros [= <-]; constructor| |apply IH]. intros H. repeat peel. constructor; [|eapply IH; eauto].
  apply wk_dict. split; [nodup_lit|]. vals. eapply wk_signal_json; eauto.
Qed.
Lemma none_if_wk l : Forall wk l -> wk (none_if_empty l).
Proof. intros F. unfold none_if_empty. destruct l; [exact I|]. now apply wk_list. Qed.
Lemma ld_export_wk w2 o : bp_json b w' = (w2, Ok (wrap o)) -> same_blueprint (w_protos w) d kws o -> wkd o.
Proof.
  intros J SB. destruct (bp_json_ok _ _ _ _ J) as (x1 & vs & ic & sc & o' & Hx1 & MM & IC & SC & EO & DEF). rewrite Hx' in Hx1. injection Hx1 as <-.
  injection EO as <-. cbv zeta in DEF.
  destruct (load_whole w b x doc d kws R Hx O CU Hd WH) as (w1 & doc1 & x1 & L' & _ & Hx1 & F1 & F2 & F3 & F4 & F5 & _). rewrite L in L'. injection L' as <- <-. rewrite Hx' in Hx1. injection Hx1 as <-.
  assert (DG : forall k v, wk v -> wk (dataget d k v)) by (intros; unfold dataget; apply wk_odflt; auto; apply wk_dict, like_wk, JD).
  assert (VS : Forall wk vs) by (eapply ld_all_wk; [apply sim_refl|eauto|exact MM]).
  assert (P2 : w_protos w2 = w_protos w) by (destruct (mapMM_sims _ _ _ _ _ sims_ent_json MM) as (P & _); congruence).
  rewrite P2 in IC. pose proof (icons_wk _ _ _ IC) as WI.
  assert (WS : wk (VList sc)).
  { destruct (sb_entities _ _ _ _ SB) as (order & es & _ & _ & _ & _ & l & m & LD & LM & FS).
    assert (SE : dget "schedules" o = match sc with [] => None | _ => Some (VList sc) end).
    { rewrite DEF. destruct sc; [|apply dget_dset_same]. rewrite !dget_dset_other by discriminate. unfold obj_set, none_if_empty.
      destruct (b_label x'), (b_label_color x'), vs, (map tile_to_json (b_tiles x')); reflexivity. }
    unfold lists_short in LM. rewrite SE in LM. assert (m = sc) as -> by (destruct sc, m; congruence).
    apply wk_list. apply Forall_forall. intros u Hu. destruct (Forall2_In_r _ _ _ _ FS Hu) as (v & Hv & (d0 & nums & plan & nums' & -> & E1 & E2 & -> & FN)).
    apply wk_dict. split; [nodup_lit|]. vals.
    - apply wk_list. clear - FN. induction FN as [|n n' nums nums' (k & i & kw & _ & _ & _ & ->) F IH]; constructor; auto. exact I.
    - apply like_wk. assert (JV : json_like (VDict d0)); [|exact (like_get _ _ _ JV E2)].
      destruct LD as [E|(_ & ->)]; [|destruct Hv]. exact (like_list _ _ (like_get _ _ _ JD E) Hv). }
  rewrite DEF. set (o1 := obj_set [(KS "item", b_item x')] "label" (b_label x')).
  assert (O1 : wkd o1) by (apply wkd_obj_set; [split; [nodup_lit|]; vals; rewrite F1; apply DG; exact I|rewrite F2; apply DG; exact I]).
  set (o2 := match b_label_color x' with Some c => dset "label_color" (color_to_json c) o1 | None => o1 end).
  assert (O2 : wkd o2) by (unfold o2; destruct (b_label_color x'); auto; apply wkd_dset; auto using wk_color).
  set (o3 := obj_set o2 "entities" (none_if_empty vs)). assert (O3 : wkd o3) by (apply wkd_obj_set; auto using none_if_wk).
  set (o4 := obj_set o3 "tiles" _). assert (O4 : wkd o4) by (apply wkd_obj_set; auto; rewrite F4; exact I).
  assert (O5 : wkd (dset "version" (b_version x') (dset "icons" (VList ic) o4))).
  { apply wkd_dset; [apply wkd_dset; auto; now apply wk_list|]. rewrite F3. apply DG. exact I. }
  destruct sc; auto. apply wkd_dset; auto.
Qed.
End Loaded.

Lemma lists_like d k l v : json_like (VDict d) -> lists d k l -> In v l -> json_like v.
Proof. intros J [E|(_ & ->)] H; [|destruct H]. exact (like_list _ _ (like_get _ _ _ J E) H). Qed.
Lemma lists_keys d k l v : str_keys (VDict d) -> lists d k l -> In v l -> str_keys v.
Proof. intros J [E|(_ & ->)] H; [|destruct H]. eapply str_list; [|exact H]. exact (proj2 (str_get _ _ _ J E)). Qed.
Lemma wired_text kws i s j t col : (forall kw, In kw kws -> json_like (VDict kw)) -> wired kws i s j t col -> text col.
Proof.
  intros J [W|W]; destruct W as (kw & kw' & n & raw & sk & cols & l & v & Hk & _ & _ & EC & I1 & _ & I2 & _);
    (eapply (like_text (KS col)); [|exact I2]; eapply (like_in sk); [|exact I1]; eapply like_get; [|exact EC]; apply J; eapply nth_error_In; exact Hk).
Qed.
Lemma same_like p d kws o : whole p d kws -> str_keys (VDict d) -> json_like (VDict d) -> proper_sides kws -> same_blueprint p d kws o -> wkd o -> json_like (VDict o).
Proof.
  intros WH SK JD PS SB W. pose proof (sb_keys _ _ _ _ SB) as KW. assert (KL : forall kw, In kw kws -> json_like (VDict kw)) by (intros; eapply lists_like; [exact JD|exact (wh_entities _ _ _ WH)|now apply in_map]).
  assert (KS' : forall kw, In kw kws -> str_keys (VDict kw)) by (intros; eapply lists_keys; [exact SK|exact (wh_entities _ _ _ WH)|now apply in_map]).
  apply like_dict; [apply W|eapply within_only; eauto|]. intros k v Ikv. assert (E : dget k o = Some v) by (apply in_dget_nd; auto; apply W). pose proof (wk_in _ _ _ W Ikv) as WV. clear Ikv.
  assert (N : dget k o <> None) by congruence. destruct (KW k N) as (s & -> & IN). cbn [json_key].
  split; [repeat (destruct IN as [<-|IN]; [lit|]); destruct IN|].
  repeat (destruct IN as [<-|IN]; [|]); [..|destruct IN].
  - rewrite (sb_item _ _ _ _ SB) in E. injection E as <-. destruct (dget "item" d) eqn:D; cbn [odflt]; [exact (like_get _ _ _ JD D)|cbn; lit].
  - rewrite (sb_label _ _ _ _ SB) in E. exact (like_get _ _ _ JD E).
  - pose proof (sb_colour _ _ _ _ SB) as S. unfold same_at in S. rewrite E in S. destruct (dget "label_color" d) eqn:D; [|tauto].
    eapply jeq_like; [exact S|exact (like_get _ _ _ JD D)|exact (proj2 (str_get _ _ _ SK D))|exact WV].
  - destruct (sb_entities _ _ _ _ SB) as (order & es & BY & LS & LE & EA & _). unfold lists_short in LS. rewrite E in LS. assert (v = VList (map VDict es)) as -> by (destruct es; cbn [map] in *; congruence).
    apply like_list_all. intros u Hu. apply in_map_iff in Hu as (e & <- & He). pose proof He as Hn. apply In_nth_error in Hn as (n & Hn).
    assert (Ho : exists i, nth_error order n = Some i) by (destruct (nth_error order n) eqn:Q; [eauto|]; apply nth_error_None in Q; assert (NN : (n < length es)%nat) by (apply nth_error_Some; intros QQ; pose proof (eq_trans (eq_sym QQ) Hn) as X; discriminate X); lia).
    destruct Ho as (i & Ho). destruct (EA n i e Ho Hn) as ((kw & Ekw & SA) & EN & EP & TW & _).
    assert (WE : wkd e) by (apply wk_dict; apply wk_list in WV; rewrite Forall_forall in WV; apply WV; now apply in_map).
    pose proof (KL kw (nth_error_In _ _ Ekw)) as JK. pose proof (KS' kw (nth_error_In _ _ Ekw)) as SKW.
    assert (G : forall q u, In (q, u) e -> q = KS "entity_number" \/ (exists cs, q = KS "connections" /\ u = VDict cs) \/ exists y, dget q kw = Some y /\ jeq y u).
    { intros q u Hq. assert (Eq : dget q e = Some u) by (apply in_dget_nd; auto; apply WE).
      destruct (key_eqb q "entity_number") eqn:Q1; [apply key_eqb_eq in Q1; auto|]. destruct (key_eqb q "connections") eqn:Q2.
      - apply key_eqb_eq in Q2 as ->. right. left. destruct (TW _ Eq) as (raw & -> & _). eauto.
      - right. right. assert (N1 : q <> KS "entity_number") by (intros ->; rewrite key_eqb_refl in Q1; discriminate). assert (N2 : q <> KS "connections") by (intros ->; rewrite key_eqb_refl in Q2; discriminate).
        specialize (SA q N1 N2). unfold same_at in SA. rewrite Eq in SA. destruct (dget q kw) as [y|]; [|tauto]. eauto. }
    apply like_dict; [apply WE| |].
    + intros q u Hq. destruct (G q u Hq) as [->|[(cs & -> & _)|(y & Ey & _)]]; eauto. exact (proj1 (str_get _ _ _ SKW Ey)).
    + intros q u Hq. pose proof (wk_in _ _ _ WE Hq) as WU. destruct (G q u Hq) as [->|[(cs & -> & ->)|(y & Ey & Jy)]].
      * split; [cbn; lit|]. rewrite (in_dget_nd _ _ _ (proj1 WE) Hq) in EN. injection EN as ->. exact I.
      * split; [cbn; lit|]. pose proof (in_dget_nd _ _ _ (proj1 WE) Hq) as EC. destruct (TW _ EC) as (raw & [= <-] & _ & (NR & HR)).
        assert (LIST : forall s cols col l, In (KI s, VDict cols) cs -> In (KS col, VList l) cols -> (s = 1 \/ s = 2) /\ text col /\ json_like (VList l)).
        { intros s cols col l I1 I2. destruct (in_port e cs s cols col l TW EC I1 I2) as (EPo & NE).
          destruct (EP s col) as (ends & vs & _ & IW & PM & FW). rewrite EPo in PM.
          destruct ends as [|[j t] ends]; [inversion FW; subst; apply Permutation_sym, Permutation_nil in PM; congruence|].
          pose proof (proj1 (IW j t) (or_introl eq_refl)) as WI. split; [|split; [eapply wired_text; eauto|]].
          - apply (PS j t i s col). destruct WI; [right|left]; auto.
          - apply like_list_all. intros z Hz. apply (Permutation_in _ PM) in Hz. destruct (Forall2_In_r _ _ _ _ FW Hz) as (jt & _ & (m & kw2 & _ & _ & [[_ ->]|[_ ->]]));
              (apply like_dict; [nodup_lit|intros q y HH; cbn in HH; repeat (destruct HH as [[= <- <-]|HH]; [eauto|]); tauto|
                intros q y HH; cbn in HH; repeat (destruct HH as [[= <- <-]|HH]; [split; [cbn; lit|exact I]|]); tauto]). }
        assert (SIDE : forall k u, In (k, u) cs -> exists s cols, k = KI s /\ u = VDict cols /\ (s = 1 \/ s = 2) /\ json_like (VDict cols)).
        { intros k u Hc. destruct (HR k u Hc) as (s & cols & -> & -> & NE & NC & HC). exists s, cols. split; auto. split; auto. destruct cols as [|[c1 l1] cols']; [congruence|].
          destruct (HC c1 l1 (or_introl eq_refl)) as (col & l & -> & -> & _). destruct (LIST s _ col l Hc (or_introl eq_refl)) as (S12 & _). split; auto.
          apply like_dict; auto.
          - intros q y Hy. destruct (HC q y Hy) as (col' & _ & -> & _). eauto.
          - intros q y Hy. destruct (HC q y Hy) as (col' & l' & -> & -> & _). destruct (LIST s _ col' l' Hc Hy) as (_ & T & J). auto. }
        apply dict_like. split.
        { clear - NR SIDE. induction cs as [|[k u] cs IH]; cbn; [constructor|]. cbn in NR. inversion NR; subst. constructor; [|apply IH; auto; intros; apply SIDE; now right].
          destruct (SIDE k u (or_introl eq_refl)) as (s & cols & -> & _ & S12 & _). intros HI. apply in_map_iff in HI as ([k' u'] & Q & HI). destruct (SIDE k' u' (or_intror HI)) as (s' & cols' & -> & _ & S12' & _).
          cbn in Q. apply H1. apply in_map_iff. exists (KI s', u'). split; auto. cbn. destruct S12 as [-> | ->], S12' as [-> | ->]; auto; cbv in Q; discriminate. }
        { clear - SIDE. induction cs as [|[k u] cs IH]; cbn [members_like]; [exact I|]. destruct (SIDE k u (or_introl eq_refl)) as (s & cols & -> & -> & S12 & J).
          split; [destruct S12 as [-> | ->]; cbn [json_key]; [change (decimal 1) with "1"|change (decimal 2) with "2"]; lit|]. split; auto. apply IH. intros; apply SIDE. now right. }
      * split; [eapply like_text; [exact JK|]; eapply dget_in; eauto|]. eapply jeq_like; [exact Jy|exact (like_get _ _ _ JK Ey)|exact (proj2 (str_get _ _ _ SKW Ey))|exact WU].
  - destruct (sb_icons _ _ _ _ SB) as (l & m & LD & LM & (_ & B & _)). rewrite E in LM. injection LM as ->. apply like_list_all. intros u Hu. destruct (B u Hu) as (y & Hy & Jy).
    eapply jeq_like; [exact Jy|exact (lists_like _ _ _ _ JD LD Hy)|exact (lists_keys _ _ _ _ SK LD Hy)|]. apply wk_list in WV. rewrite Forall_forall in WV. auto.
  - rewrite (sb_version _ _ _ _ SB) in E. injection E as <-. destruct (dget "version" d) eqn:D; cbn [odflt]; [exact (like_get _ _ _ JD D)|exact I].
  - destruct (sb_entities _ _ _ _ SB) as (order & es & _ & _ & _ & _ & l & m & LD & LM & FS). unfold lists_short in LM. rewrite E in LM. assert (v = VList m) as -> by (destruct m; congruence). apply like_list_all.
    intros u Hu. destruct (Forall2_In_r _ _ _ _ FS Hu) as (v & Hv & (d0 & nums & plan & nums' & -> & E1 & E2 & -> & FN)).
    pose proof (lists_like _ _ _ _ JD LD Hv) as JV. pose proof (like_get _ _ _ JV E2) as JP.
    apply like_dict; [nodup_lit|intros ? ? [[= <- <-]|[[= <- <-]|[]]]; eauto|]. intros q y [[= <- <-]|[[= <- <-]|[]]]; (split; [cbn; lit|]); auto.
    apply like_list_all. intros z Hz. destruct (Forall2_In_r _ _ _ _ FN Hz) as (? & _ & (? & ? & ? & _ & _ & _ & ->)). exact I.
Qed.
(** the export of a loaded JSON document is one again *)
Lemma export_like w b x doc d kws w1 doc1 w2 o : reachable w -> blu w b = Some x -> b_objs x = [] -> b_custom x = [] -> holds doc d -> whole (w_protos w) d kws ->
  str_keys (VDict d) -> json_like (VDict d) -> string_types (w_protos w) -> proper_sides kws ->
  load b doc w = (w1, doc1, Ok tt) -> bp_json b w1 = (w2, Ok (wrap o)) -> same_blueprint (w_protos w) d kws o -> json_like (wrap o).
Proof.
  intros R Hx O CU Hd WH SK JD ST PS L J SB. destruct (load_whole w b x doc d kws R Hx O CU Hd WH) as (w1' & doc1' & x1 & L' & PW & Hx1 & _). rewrite L in L'. injection L' as <- <-.
  assert (JO : json_like (VDict o)) by (eapply same_like; eauto; eapply ld_export_wk; eauto).
  apply dict_like. split; [repeat constructor; cbn; tauto|]. split; [cbn; lit|]. split; [exact JO|exact I].
Qed.

(** a check for documents of ASCII text *)
Definition ascii_lit (s : string) : bool := forallb (fun c => (0 <=? c) && (c <? 128)) (codes s) && String.eqb (utf8s (codes s)) s.
Fixpoint likeb (v : val) : bool :=
  match v with
  | VFlt f => fvalid f
  | VStr s => ascii_lit s
  | VList l => forallb likeb l
  | VDict d => (fix nd (l : list string) := match l with [] => true | x :: r => negb (existsb (String.eqb x) r) && nd r end) (map (fun kv => json_key (fst kv)) d) &&
               forallb (fun kv => ascii_lit (json_key (fst kv)) && likeb (snd kv)) d
  | _ => true
  end.
Lemma likeb_like v : likeb v = true -> json_like v.
Proof.
  induction v as [|b|z|f|s|l F|d F] using val_ind'; intros H; try exact I.
  - exact H.
  - cbn in H |- *. assert (A : ascii_lit s = true) by exact H. unfold ascii_lit in A. apply andb_prop in A as [A B]; apply String.eqb_eq in B; now apply text_lit.
  - apply like_list_all. intros x Hx. cbn [likeb] in H. rewrite forallb_forall in H. rewrite Forall_forall in F. auto.
  - cbn [likeb] in H. apply andb_prop in H as [N H]. apply dict_like. split.
    + clear - N. induction (map (fun kv => json_key (fst kv)) d) as [|x r IH]; constructor; apply andb_prop in N as [N1 N2]; auto.
      intros HI. apply negb_true_iff in N1. assert (existsb (String.eqb x) r = true); [|congruence]. apply existsb_exists. exists x. split; auto. apply String.eqb_refl.
    + clear N. rewrite forallb_forall in H. rewrite Forall_forall in F. induction d as [|[k x] d IH]; cbn [members_like]; [exact I|].
      pose proof (H (k, x) (or_introl eq_refl)) as A. cbn [fst snd] in A. apply andb_prop in A as [A1 A2]. split; [|split].
      * unfold ascii_lit in A1. apply andb_prop in A1 as [A B]; apply String.eqb_eq in B; now apply text_lit.
      * apply (F (k, x)); auto. now left.
      * apply IH; intros y Hy; [apply F|apply H]; now right.
Qed.
