(** * Proofs for C74. *)
From Coq Require Import Lia Permutation.
From Verif Require Import Py Num Util SpecUtil Classes Mixins Entity Setters World SpecWorld SpecDoc SpecEntity SpecAttr SpecValues SpecSetting SpecBehaviour SpecMake SpecWrite SpecExport SpecShow SpecParts SpecBuild.
From Verif Require Import DictFacts WorldFacts SortFacts Inv LayerProofs WireProofs ExportProofs PartsProofs.
From Verif Require DocProofs RenameProofs.
Open Scope string_scope. Open Scope Z_scope. Open Scope list_scope.
Import RenameProofs.

(** ** Exports and numbers *)
Definition nu (n : val) (o : dict) : dict := dset "entity_number" n o.
Lemma nu_dset n k v o : k <> KS "entity_number" -> dmem "entity_number" o = true -> nu n (dset k v o) = dset k v (nu n o).
Proof. intros N H. unfold nu. apply dset_swap; auto. Qed.
Lemma nu_obj_set n (k : string) v o : k <> "entity_number" -> dmem "entity_number" o = true -> nu n (obj_set o k v) = obj_set (nu n o) k v.
Proof. intros N H. unfold obj_set. destruct v; auto; apply nu_dset; auto; congruence. Qed.
Ltac numbered_obj := repeat first [rewrite nu_obj_set by (first [discriminate|hasname])|rewrite nu_dset by (first [discriminate|hasname])]; try reflexivity.
Lemma json_mixin_number p dir c a o n : dmem "entity_number" o = true ->
  json_mixin p dir c a (nu n o) = rmap (nu n) (json_mixin p dir c a o) /\
  (forall o', json_mixin p dir c a o = Ok o' -> dmem "entity_number" o' = true).
Proof.
  intros H.
  destruct c; cbn [json_mixin rmap];
    repeat (match goal with
    | |- context [let! _ := ?r in _] => destruct r as [?|?]; cbn [bind rmap]
    | |- context [if ?b then _ else _] => destruct b; cbn [bind rmap]
    | |- context [match ?v with VDict _ => _ | _ => _ end] => destruct v; cbn [bind rmap]
    | |- context [match ?d with [] => _ | _ :: _ => _ end] => destruct d; cbn [bind rmap]
    end); (split; [numbered_obj|intros o' [= <-]; repeat first [assumption|apply dmem_obj_set|apply dmem_dset]]);
    try (intros o' [=]).
Qed.
Lemma json_chain_number p dir cls cb a n l : forall o, dmem "entity_number" o = true ->
  json_chain p dir cls cb l a (nu n o) = rmap (nu n) (json_chain p dir cls cb l a o).
Proof.
  assert (ST : forall c l o, c <> CBaseMixin -> json_chain p dir cls cb (c :: l) a o = let! o := json_mixin p dir c a o in json_chain p dir cls cb l a o).
  { intros c l' o N. destruct c; try reflexivity. congruence. }
  induction l as [|c l IH]; intros o H; [reflexivity|]. destruct (scls_eq_dec c CBaseMixin) as [->|N].
  - cbn [json_chain]. destruct cb as [cb|]; [|reflexivity]. destruct (cb_json p cls cb); [|reflexivity]. cbn [bind rmap]. now rewrite nu_obj_set.
  - rewrite !ST by auto. destruct (json_mixin_number p dir c a o n H) as (E & K). rewrite E.
    destruct (json_mixin p dir c a o) as [o'|x]; [|reflexivity]. cbn [rmap bind]. apply IH. auto.
Qed.
(** the export of an entity of a blueprint without wires *)
Definition bare (p : protos) (e : entity) : res val :=
  match e_pos e with
  | None => Err EAttribute
  | Some v => let! d := json_chain p (e_dir e) (statics (e_cls e)) (e_cb e) (chain (e_cls e)) (e_at e) (stem e v []) in Ok (VDict d)
  end.
Lemma alone_bare w i e b x : ent w i = Some e -> e_layer e = Some b -> blu w b = Some x -> b_conns x = [] -> entity_alone w i = bare (w_protos w) e.
Proof.
  intros He Hl Hx C. unfold entity_alone, bare. rewrite ent_json_eq, He. destruct (e_pos e) as [v|]; [|reflexivity].
  rewrite (connections_to_json_eq _ _ _ _ _ He Hl Hx), C. reflexivity.
Qed.
Definition renum (n : val) (r : res val) : res val := match r with Ok (VDict d) => Ok (VDict (dset "entity_number" n d)) | _ => r end.
Lemma bare_number p e n : bare p (with_auto n e) = renum n (bare p e).
Proof.
  unfold bare. change (e_pos (with_auto n e)) with (e_pos e). destruct (e_pos e) as [v|]; [|reflexivity].
  change (stem (with_auto n e) v []) with (nu n (stem e v [])).
  cbn [with_auto e_dir e_cls e_cb e_at].
  rewrite json_chain_number by reflexivity. destruct (json_chain _ _ _ _ _ _ _); reflexivity.
Qed.
Lemma renum_renum n m r : renum n (renum m r) = renum n r.
Proof. destruct r as [[| | | | | |l]|]; try reflexivity. cbn. do 2 f_equal. induction l as [|[k u] l IH]; cbn [dset]; [now rewrite key_eqb_refl|]. destruct (key_eqb "entity_number" k) eqn:E; cbn [dset]; rewrite E; [reflexivity|]. now rewrite IH. Qed.

(** ** One more entity *)
Lemma make_step w b x kw : reachable w -> blu w b = Some x -> snd (step (OMake b kw) w) = Ok tt ->
  let w1 := fst (step (OMake b kw) w) in
  w_protos w1 = w_protos w /\ length (w_ents w1) = S (length (w_ents w)) /\
  (forall i e, ent w i = Some e -> exists n, ent w1 i = Some (with_auto n e)) /\
  (exists e, ent w1 (length (w_ents w)) = Some e /\ e_layer e = Some b) /\
  exists o, blu w1 b = Some (b_set_objs o x) /\
    reordered w1 (b_objs x ++ [length (w_ents w)]) o /\ numbered w1 o.
Proof.
  intros R Hx OK. cbv zeta. cbn [step] in *.
  destruct (layer_make b kw w) as [w1 [i|err]] eqn:M; [|discriminate OK]. cbn [drop_res fst snd]. clear OK.
  destruct (p_C21_make _ _ _ _ _ _ R Hx M) as [(x2 & Hx2 & RO & NU) _].
  apply reach_inv in R as I. unfold layer_make in M.
  apply mbind_ok in M as (j & w0 & H1 & H2). apply mbind_ok in H2 as ([] & w2 & H2 & H3). injection H3 as <- <-.
  apply new_entity_ok in H1 as (-> & e & -> & HL & _).
  assert (He : ent (new_ent e w) (length (w_ents w)) = Some e) by (rewrite ent_new, Nat.eqb_refl; reflexivity).
  assert (Hb : blu (new_ent e w) b = Some x) by exact Hx.
  assert (FR : ~ In (length (w_ents w)) (b_objs x)) by (apply fresh_not_listed with (b := b); auto).
  pose proof (add_ok _ _ _ _ _ _ He Hb FR H2) as HS.
  apply sort_layer_ok in HS as (x3 & l & Hx3 & SO & ->).
  set (wl := upd_ent _ _ _) in *.
  split; [now rewrite reindex_protos|]. split; [rewrite reindex_length; unfold wl, upd_ent, upd_bp, new_ent; cbn [w_ents]; now rewrite lupd_length, app_length, Nat.add_1_r|].
  assert (RE : forall j u, ent wl j = Some u -> exists n, ent (reindex 1 l (upd_bp b (b_set_objs l) wl)) j = Some (with_auto n u)).
  { intros j u Hu. pose proof (reindex_ent 1 l (upd_bp b (b_set_objs l) wl) j) as RI. rewrite ent_upd_bp, Hu in RI.
    destruct (ent (reindex 1 l _) j) as [u'|]; [|discriminate RI]. injection RI as R'. exists (e_auto u'). f_equal. destruct u, u'. unfold with_auto in *. cbn in *. congruence. }
  split; [|split].
  - intros j u Hu. apply RE. unfold wl. rewrite ent_upd, ent_upd_bp, ent_new.
    assert (NJ : (j < length (w_ents w))%nat) by (apply nth_error_Some; unfold ent in Hu; congruence).
    destruct (Nat.eqb_spec (length (w_ents w)) j); [lia|]. destruct (Nat.eqb_spec j (length (w_ents w))); [lia|exact Hu].
  - destruct (RE (length (w_ents w)) (with_layer (Some b) e)) as [n Hn].
    { unfold wl. now rewrite ent_upd, Nat.eqb_refl, ent_upd_bp, He. }
    eexists. split; [exact Hn|reflexivity].
  - exists (b_objs x2). split; [|split; assumption]. rewrite Hx2. f_equal. unfold wl in Hx2. rewrite blu_reindex, blu_upd, Nat.eqb_refl, blu_upd_ent, blu_upd, Nat.eqb_refl, Hb in Hx2. cbn [option_map] in Hx2. injection Hx2 as <-. reflexivity.
Qed.

(** ** All of them *)
Lemma bare_dict p e v : bare p e = Ok v -> exists d, v = VDict d.
Proof. unfold bare. destruct (e_pos e); [|discriminate]. destruct (json_chain _ _ _ _ _ _ _); [|discriminate]. cbn [bind]. intros [= <-]. eauto. Qed.
Lemma bare_self p e : renum (e_auto e) (bare p e) = bare p e.
Proof. rewrite <- bare_number. f_equal. now destruct e. Qed.

Record built (b n0 : nat) (pt : protos) (x : bp) (l : list (vec * res val)) (w : world) (o : list nat) : Prop := mkBuilt {
  bt_reach : reachable w;
  bt_protos : w_protos w = pt;
  bt_bp : blu w b = Some (b_set_objs o x);
  bt_len : length (w_ents w) = (n0 + length l)%nat;
  bt_order : reordered w (seq n0 (length l)) o;
  bt_nums : numbered w o;
  bt_docs : forall k v r, nth_error l k = Some (v, r) -> exists e, ent w (n0 + k) = Some e /\ e_layer e = Some b /\ e_pos e = Some v /\
    bare pt e = renum (e_auto e) r /\ forall u, r = Ok u -> exists d, u = VDict d }.

Lemma built_step b n0 pt x l w o kw v : b_conns x = [] -> built b n0 pt x l w o -> snd (step (OMake b kw) w) = Ok tt ->
  has_pos (fst (step (OMake b kw) w)) (length (w_ents w)) v ->
  exists o', built b n0 pt x (l ++ [(v, export_of (OMake b) w kw)]) (fst (step (OMake b kw) w)) o'.
Proof.
  intros C [R P B L (PM & OR & ST) NU D] OK HP.
  pose proof (make_step w b _ kw R B OK) as M. cbv zeta in M. cbn [b_objs b_set_objs] in M.
  unfold export_of. set (w1 := fst (step (OMake b kw) w)) in *.
  destruct M as (P1 & L1 & OLD & (e1 & He1 & La1) & o' & B1 & (PM1 & OR1 & ST1) & NU1).
  assert (B1' : blu w1 b = Some (b_set_objs o' x)) by (rewrite B1; reflexivity). clear B1.
  exists o'. split.
  - unfold w1. apply reach_step; [exact R|exact I].
  - congruence.
  - exact B1'.
  - rewrite L1, app_length. cbn. lia.
  - rewrite app_length, Nat.add_1_r, seq_S, <- L. split; [|split].
    + rewrite <- PM1. apply Permutation_app_tail. exact PM.
    + exact OR1.
    + intros u. rewrite ST1, !filter_app. f_equal.
      assert (SAME : forall i, In i (seq n0 (length l)) -> at_pos w1 u i = at_pos w u i).
      { intros i Hi. apply in_seq in Hi. destruct (ent w i) as [e|] eqn:He.
        - destruct (OLD i e He) as [n Hn]. unfold at_pos. rewrite Hn, He. reflexivity.
        - exfalso. apply nth_error_None in He. lia. }
      rewrite (filter_ext_in (at_pos w1 u) (at_pos w u) (seq n0 (length l))) by exact SAME.
      rewrite <- ST. apply filter_ext_in. intros i Hi. apply SAME. now apply (Permutation_in i (Permutation_sym PM)).
  - exact NU1.
  - intros k v0 r Hk. destruct (Nat.lt_ge_cases k (length l)) as [K|K].
    + rewrite nth_error_app1 in Hk by exact K. destruct (D k v0 r Hk) as (e & He & La & Po & Ba & Di). destruct (OLD _ _ He) as [n Hn].
      exists (with_auto n e). split; [exact Hn|]. split; [exact La|]. split; [exact Po|]. split; [|exact Di].
      rewrite bare_number, Ba, renum_renum. reflexivity.
    + rewrite nth_error_app2 in Hk by exact K. destruct (k - length l)%nat as [|m] eqn:KM; [|destruct m; discriminate Hk].
      injection Hk as <- <-. replace (n0 + k)%nat with (length (w_ents w)) by lia. destruct HP as (e & He & Po). rewrite He1 in He. injection He as <-.
      exists e1. split; [exact He1|]. split; [exact La1|]. split; [exact Po|].
      assert (EB : snd (ent_json (length (w_ents w)) w1) = bare pt e1).
      { change (entity_alone w1 (length (w_ents w)) = bare pt e1). rewrite (alone_bare _ _ _ _ _ He1 La1 B1' C). congruence. }
      rewrite EB. split; [now rewrite bare_self|]. intros u. apply bare_dict.
Qed.
Lemma built_all b n0 pt x : b_conns x = [] -> forall w kws l w', builds b w kws l w' -> forall l0 o, built b n0 pt x l0 w o -> exists o', built b n0 pt x (l0 ++ l) w' o'.
Proof.
  intros C w kws l w' H. induction H as [w|w kw v kws l w' OK HP _ IH]; intros l0 o B.
  - exists o. now rewrite app_nil_r.
  - destruct (built_step _ _ _ _ _ _ _ _ _ C B OK HP) as [o1 B1]. destruct (IH _ _ B1) as [o2 B2]. exists o2. now rewrite <- app_assoc in B2.
Qed.

(** ** The document *)
Section Final.
Variables (b n0 : nat) (pt : protos) (x : bp) (l : list (vec * res val)) (w : world) (o : list nat).
Hypothesis (C : b_conns x = []).
Hypothesis (T : built b n0 pt x l w o).
Let dflt : vec * res val := (mkVec (NI 0) (NI 0), Err EUnmodelled).
Let f (i : nat) : vec * res val := nth (i - n0) l dflt.
Let p := map f o.
Lemma l_map : l = map f (seq n0 (length l)).
Proof using.
  apply nth_ext with (d := dflt) (d' := dflt); [now rewrite map_length, seq_length|]. intros k K.
  rewrite (nth_indep (map f (seq n0 (length l))) dflt (f 0)) by (rewrite map_length, seq_length; exact K).
  rewrite map_nth, seq_nth by exact K. unfold f. f_equal. lia.
Qed.
Lemma of_o i : In i o -> exists e, ent w i = Some e /\ e_layer e = Some b /\ e_pos e = Some (fst (f i)) /\
  entity_alone w i = renum (e_auto e) (snd (f i)) /\ forall u, snd (f i) = Ok u -> exists d, u = VDict d.
Proof using C T.
  intros Hi. destruct T as [R P B L (PM & OR & ST) NU D]. apply (Permutation_in i (Permutation_sym PM)) in Hi. apply in_seq in Hi.
  assert (K : (i - n0 < length l)%nat) by lia. destruct (nth_error l (i - n0)) as [[v r]|] eqn:E; [|apply nth_error_None in E; lia].
  destruct (D _ _ _ E) as (e & He & La & Po & Ba & Di). replace (n0 + (i - n0))%nat with i in He by lia.
  unfold f. rewrite (nth_error_nth l (i - n0) dflt E). exists e. split; [exact He|]. split; [exact La|]. split; [exact Po|]. split; [|exact Di].
  rewrite (alone_bare _ _ _ _ _ He La B C), P. exact Ba.
Qed.
Lemma p_arranged : arranged l p.
Proof using C T.
  destruct T as [R P B L (PM & OR & ST) NU D]. split.
  - rewrite l_map at 1. now apply Permutation_map.
  - intros k m a c KM Ha Hc. unfold p in Ha, Hc. rewrite nth_error_map in Ha, Hc.
    destruct (nth_error o k) as [i|] eqn:Hi; [|discriminate Ha]. destruct (nth_error o m) as [j|] eqn:Hj; [|discriminate Hc].
    injection Ha as <-. injection Hc as <-. destruct (OR k m i j KM Hi Hj) as (v & u & (e & He & Po) & (e' & He' & Po') & LE).
    destruct (of_o i (nth_error_In _ _ Hi)) as (e1 & He1 & _ & Po1 & _). destruct (of_o j (nth_error_In _ _ Hj)) as (e2 & He2 & _ & Po2 & _).
    congruence.
  - intros v. rewrite l_map at 1. unfold p.
    assert (FM : forall q, (forall i, In i q -> In i o) -> filter (here v) (map f q) = map f (filter (at_pos w v) q)).
    { induction q as [|i q IH]; intros Q; [reflexivity|]. cbn [map filter]. rewrite IH by (intros; apply Q; cbn; auto).
      destruct (of_o i (Q i (or_introl eq_refl))) as (e & He & _ & Po & _). replace (at_pos w v i) with (here v (f i)) by (unfold at_pos, here; rewrite He, Po; reflexivity).
      destruct (here v (f i)); reflexivity. }
    rewrite !FM; [now rewrite ST|intros i Hi; now apply (Permutation_in i PM)|auto].
Qed.
Lemma p_docs : forall q m, (forall k i, nth_error q k = Some i -> In i o /\ exists e, ent w i = Some e /\ e_auto e = VInt (Z.of_nat k + m)) ->
  (exists out, numbered_docs m (map f q) out /\ mapM (entity_alone w) q = Ok out) \/
  (exists e, first_bad (map f q) e /\ mapM (entity_alone w) q = Err e).
Proof using C T.
  induction q as [|i q IH]; intros m H.
  - left. exists []. split; [constructor|reflexivity].
  - destruct (H 0%nat i eq_refl) as (Hi & e & He & Au). destruct (of_o i Hi) as (e' & He' & _ & _ & Al & Di). rewrite He in He'. injection He' as <-.
    cbn [map mapM]. rewrite Al. destruct (f i) as [v r] eqn:F. cbn [snd] in *. destruct r as [u|x0].
    + destruct (Di u eq_refl) as [d ->]. cbn [renum bind]. destruct (IH (m + 1)) as [(out & N & E)|(x0 & (pre & v' & post & E1 & E2) & E)].
      { intros k j Hj. destruct (H (S k) j Hj) as (Ho & ej & Hej & Aj). split; [exact Ho|]. exists ej. split; [exact Hej|]. rewrite Aj. f_equal. lia. }
      * left. rewrite E. cbn [bind]. eexists. split; [|reflexivity]. rewrite Au. replace (Z.of_nat 0 + m) with m by lia. now constructor.
      * right. exists x0. rewrite E. split; [|reflexivity]. exists ((v, Ok (VDict d)) :: pre), v', post. split; [rewrite E1; reflexivity|].
        intros a [<-|Ha]; [cbn; eauto|auto].
    + right. exists x0. split; [|reflexivity]. exists [], v, (map f q). split; [reflexivity|]. intros a [].
Qed.
End Final.

Lemma numbered_docs_fun : forall p m o1, numbered_docs m p o1 -> forall o2, numbered_docs m p o2 -> o1 = o2.
Proof. intros p m o1 H. induction H; intros o2 H2; inversion H2; subst; [reflexivity|]. f_equal. auto. Qed.
Lemma numbered_not_bad p m out e : numbered_docs m p out -> ~ first_bad p e.
Proof.
  intros H (pre & v & post & E & _). revert pre E. induction H as [|n v' d p out H IH]; intros pre E; destruct pre as [|a pre]; try discriminate E.
  injection E as _ E. eauto.
Qed.
Lemma first_bad_fun p e e' : first_bad p e -> first_bad p e' -> e = e'.
Proof.
  intros (pre & v & post & E & H) (pre' & v' & post' & E' & H'). subst p. revert pre' E' H'. induction pre as [|a pre IH]; intros pre' E' H'.
  - destruct pre' as [|a' pre']; [cbn in E'; congruence|]. injection E' as <- _. destruct (H' _ (or_introl eq_refl)) as [d Hd]. discriminate Hd.
  - destruct pre' as [|a' pre'].
    + injection E' as -> _. destruct (H _ (or_introl eq_refl)) as [d Hd]. discriminate Hd.
    + injection E' as <- E'. apply (IH (fun u Hu => H u (or_intror Hu)) pre' E'). intros u Hu. apply H'. now right.
Qed.

Lemma start_built w b x : reachable w -> blu w b = Some x -> b_objs x = [] -> built b (length (w_ents w)) (w_protos w) x [] w [].
Proof.
  intros R Hx E. split; auto.
  - rewrite Hx. f_equal. destruct x. cbn in *. now subst.
  - split; [constructor|]. split; [|reflexivity]. intros k m i j _ H. destruct k; discriminate H.
  - intros k i H. destruct k; discriminate H.
  - intros k v r H. destruct k; discriminate H.
Qed.
Lemma p_C74 w b x kws l w' : reachable w -> blu w b = Some x -> b_objs x = [] -> b_conns x = [] -> builds b w kws l w' ->
  exists p x', arranged l p /\ blu w' b = Some x' /\
    b_item x' = b_item x /\ b_label x' = b_label x /\ b_label_color x' = b_label_color x /\ b_icons x' = b_icons x /\ b_version x' = b_version x /\ b_scheds x' = b_scheds x /\
    ((exists out, numbered_docs 1 p out) \/ exists e, first_bad p e) /\
    (forall e, first_bad p e -> blueprint_doc w' b = Err e) /\
    (forall out, numbered_docs 1 p out -> (forall u, In (Some u) (b_icons x) -> exists d, icon_doc (p_signal (w_protos w)) u (Ok d)) ->
      exists d, blueprint_doc w' b = Ok (VDict [(KS "blueprint", VDict d)]) /\ whole_doc w' x' d /\ says d "entities" (SpecParts.listed out)).
Proof.
  intros R Hx E C H. destruct (built_all _ _ _ _ C _ _ _ _ H _ _ (start_built _ _ _ R Hx E)) as [o T]. cbn [app] in T.
  pose proof (p_arranged _ _ _ _ _ _ _ C T) as AR.
  pose proof (p_docs _ _ _ _ _ _ _ C T o 1) as DO. cbv zeta in AR, DO. set (p := map _ o) in *.
  assert (R' := bt_reach _ _ _ _ _ _ _ T). assert (B' := bt_bp _ _ _ _ _ _ _ T).
  destruct DO as [DO|DO].
  { intros k i Hk. split; [now apply nth_error_In in Hk|]. exact (bt_nums _ _ _ _ _ _ _ T k i Hk). }
  - destruct DO as (out & N & MO). exists p, (b_set_objs o x). split; [exact AR|]. split; [exact B'|]. do 6 (split; [reflexivity|]).
    split; [left; eauto|]. split; [intros e FB; exfalso; exact (numbered_not_bad _ _ _ _ N FB)|].
    intros out' N' IC. rewrite (numbered_docs_fun _ _ _ N' _ N). clear out' N'.
    destruct (blueprint_doc w' b) as [v|e] eqn:BD.
    + destruct (p_C73_document _ _ _ _ R' B' BD) as (d & -> & WD). exists d. split; [reflexivity|]. split; [exact WD|].
      destruct (wd_entities _ _ _ WD) as (l' & F2 & SA). cbn [b_objs b_set_objs] in F2. assert (l' = out) as <-; [|exact SA].
      assert (ME : mapM (entity_alone w') o = Ok l'); [|congruence]. clear -F2. induction F2 as [|i v q r Ei _ IH]; cbn [mapM]; [reflexivity|]. now rewrite Ei, IH.
    + exfalso. apply (p_C73_failure _ _ _ _ R' B') in BD. cbn in BD. destruct BD as [pre i post e Eo _ Ei|pre v post e _ Ei _ Ev].
      * assert (X : mapM (entity_alone w') o = Err e \/ exists e', mapM (entity_alone w') o = Err e').
        { right. cbn in Eo. subst o. clear - Ei. induction pre as [|j pre [e' IH]]; cbn [app mapM]; [rewrite Ei; cbn [bind]; eauto|].
          destruct (entity_alone w' j); cbn [bind]; [rewrite IH; cbn [bind]|]; eauto. }
        destruct X as [X|[e' X]]; congruence.
      * cbn in Ei. destruct (IC v) as [d Hd]; [rewrite Ei; apply in_or_app; right; now left|].
        rewrite (bt_protos _ _ _ _ _ _ _ T) in Ev. apply icon_iff in Hd. apply icon_iff in Ev. congruence.
  - destruct DO as (e & FB & MO). exists p, (b_set_objs o x). split; [exact AR|]. split; [exact B'|]. do 6 (split; [reflexivity|]).
    split; [right; eauto|]. split.
    + intros e' FB'. rewrite <- (first_bad_fun _ _ _ FB FB'). rewrite (doc_eq _ _ _ (reach_inv _ R') B'). cbn [b_objs b_set_objs]. rewrite MO. reflexivity.
    + intros out N. exfalso. exact (numbered_not_bad _ _ _ _ N FB).
Qed.
(** an entity that was made has a position *)
Lemma p_C74_position w b kw : reachable w -> (exists x, blu w b = Some x) -> snd (step (OMake b kw) w) = Ok tt -> exists v, has_pos (fst (step (OMake b kw) w)) (length (w_ents w)) v.
Proof.
  intros R [x Hx] OK. cbn [step] in *. destruct (layer_make b kw w) as [w1 [i|err]] eqn:M; [|discriminate OK]. cbn [drop_res fst snd]. clear OK.
  apply reach_inv in R as I. unfold layer_make in M.
  apply mbind_ok in M as (j & w0 & H1 & H2). apply mbind_ok in H2 as ([] & w2 & H2 & H3). injection H3 as <- <-.
  apply new_entity_ok in H1 as (-> & e & -> & HL & _).
  assert (He : ent (new_ent e w) (length (w_ents w)) = Some e) by (rewrite ent_new, Nat.eqb_refl; reflexivity).
  assert (Hb : blu (new_ent e w) b = Some x) by exact Hx.
  assert (FR : ~ In (length (w_ents w)) (b_objs x)) by (apply fresh_not_listed with (b := b); auto).
  pose proof (add_ok _ _ _ _ _ _ He Hb FR H2) as HS.
  apply sort_layer_ok in HS as (x3 & l & Hx3 & SO & ->). set (wl := upd_ent _ _ _) in *.
  unfold wl in Hx3. rewrite blu_upd_ent, blu_upd, Nat.eqb_refl, Hb in Hx3. cbn [option_map] in Hx3. injection Hx3 as <-. cbn [b_objs b_set_objs] in SO.
  assert (Hl : ent wl (length (w_ents w)) = Some (with_layer (Some b) e)) by (unfold wl; now rewrite ent_upd, Nat.eqb_refl, ent_upd_bp, He).
  unfold sorted_objs in SO. destruct (mapM _ (b_objs x ++ _)) as [ks|] eqn:MM; [|discriminate SO]. clear SO.
  assert (HM : exists k, (fun i => match ent wl i with None => Err EUnmodelled | Some e0 => let! k := pos_key e0 in Ok (k, i) end) (length (w_ents w)) = Ok k).
  { pose proof (proj1 (mapM_all _ _) (ex_intro _ _ MM)) as K. apply (K (length (w_ents w))). apply in_or_app. right. now left. }
  cbn beta in HM. rewrite Hl in HM. destruct HM as [k HM]. unfold pos_key in HM. change (e_pos (with_layer (Some b) e)) with (e_pos e) in HM.
  destruct (e_pos e) as [v|] eqn:Po; [|discriminate HM]. exists v.
  pose proof (reindex_ent 1 l (upd_bp b (b_set_objs l) wl) (length (w_ents w))) as RI. rewrite ent_upd_bp, Hl in RI.
  destruct (ent (reindex 1 l _) (length (w_ents w))) as [u|] eqn:U; [|discriminate RI]. exists u. split; [exact U|]. injection RI as RI. destruct u, e. unfold with_auto, with_layer in RI. cbn in *. congruence.
Qed.
