(** * Round trips of whole entities: constructing from a well-formed description and
      exporting. *)
From Coq Require Import Lia Permutation.
From Verif Require Import Py Num NumFacts Util Classes Mixins Entity World DictFacts DocProofs SpecWorld SpecDoc SpecEntity SpecTrip WorldFacts Inv LayerProofs WireProofs
  ChainFacts EntProofs CbProofs TripProofs DefaultEntities.
Open Scope Z_scope.

(** ** the export chain *)
Definition jkeys (c : scls) : list string := match c with CRotatable => ["direction"] | _ => mkeys c end.
Lemma ejson_chain p dir cls cb kw at_ : forall l rest obj, ~ In CBaseMixin l -> NoDup (flat_map jkeys l) ->
  (forall c, In c l -> forall obj, exists obj', json_mixin p dir c at_ obj = Ok obj' /\ wrote kw (jkeys c) obj obj') ->
  exists obj', json_chain p dir cls cb (l ++ rest) at_ obj = json_chain p dir cls cb rest at_ obj' /\ wrote kw (flat_map jkeys l) obj obj'.
Proof.
  induction l as [|c l IH]; intros rest obj NB ND H; cbn [app flat_map]; [exists obj; split; [reflexivity|apply wrote_nil]|].
  destruct (H c ltac:(cbn; auto) obj) as (o1 & E1 & W1). cbn [flat_map] in ND. apply NoDup_app_l in ND as (_ & ND & DJ).
  destruct (IH rest o1) as (o2 & E2 & W2); [cbn in NB; tauto|auto|intros; apply H; cbn; auto|].
  exists o2. split; [|eapply wrote_app; eauto].
  rewrite <- E2. cbn [json_chain]. destruct c; try (now rewrite E1). exfalso. apply NB. cbn. auto.
Qed.

(** ** facts about every prototype type, by computation over the table *)
Definition etab (f : string * (list string * list string)) : bool :=
  let ty := fst f in let own := fst (snd f) in
  negb (has_cls CContainer (mids ty)) && negb (has_cls CVariation (mids ty)) &&
  (negb (has_cls CFilterInserter (mids ty)) || match filter_cls (statics (cls_of ty)) with Some FName => true | _ => false end) &&
  (negb (has_cls CUnderground (mids ty)) || existsb (String.eqb "type") (required ty)) &&
  (negb (has_cls CInfinityContainer (mids ty)) || existsb (String.eqb "infinity_settings") (required ty)) &&
  Bool.eqb (has_cls CRotatable (mids ty)) (existsb (String.eqb ty) turnable) &&
  snodup (flat_map jkeys (mids ty)) && forallb (fun s => negb (existsb (String.eqb s) own)) ("blueprint_layer" :: general_keys) &&
  subsetb (required ty) own.
Lemma etab_ok : forallb etab formats = true.
Proof. vm_compute. reflexivity. Qed.
Record efacts (ty : string) (own : list string) : Prop := mkEfacts {
  ef_cont : ~ In CContainer (mids ty); ef_var : ~ In CVariation (mids ty);
  ef_filter : In CFilterInserter (mids ty) -> filter_cls (statics (cls_of ty)) = Some FName;
  ef_under : In CUnderground (mids ty) -> In "type" (required ty);
  ef_inf : In CInfinityContainer (mids ty) -> In "infinity_settings" (required ty);
  ef_rot : In CRotatable (mids ty) <-> In ty turnable;
  ef_nodup : NoDup (flat_map jkeys (mids ty));
  ef_own : forall s, In s own -> ~ In s ("blueprint_layer" :: general_keys) }.
Lemma format_efacts ty own cbk : In (ty, (own, cbk)) formats -> efacts ty own.
Proof.
  intros I. pose proof etab_ok as T. rewrite forallb_forall in T. specialize (T _ I). unfold etab in T. cbn [fst snd] in T.
  apply andb_prop in T as (T & _). apply andb_prop in T as (T & T8). apply andb_prop in T as (T & T7). apply andb_prop in T as (T & T6). apply andb_prop in T as (T & T5).
  apply andb_prop in T as (T & T4). apply andb_prop in T as (T & T3). apply andb_prop in T as (T1 & T2).
  constructor.
  - intros J. apply has_cls_in in J. rewrite J in T1. discriminate.
  - intros J. apply has_cls_in in J. rewrite J in T2. discriminate.
  - intros J. apply has_cls_in in J. rewrite J in T3. cbn in T3. destruct (filter_cls _) as [[]|]; congruence.
  - intros J. apply has_cls_in in J. rewrite J in T4. cbn [negb orb] in T4. now apply existsb_string.
  - intros J. apply has_cls_in in J. rewrite J in T5. cbn [negb orb] in T5. now apply existsb_string.
  - apply Bool.eqb_prop in T6. rewrite <- has_cls_in, T6. apply existsb_string.
  - now apply snodup_ok.
  - intros s IS J. rewrite forallb_forall in T8. specialize (T8 s J). apply existsb_string in IS. now rewrite IS in T8.
Qed.
Lemma flat_jkeys l : ~ In CRotatable l -> flat_map jkeys l = flat_map mkeys l.
Proof. induction l as [|c l IH]; intros N; cbn; auto. rewrite IH by (cbn in N; tauto). f_equal. destruct c; auto. exfalso. apply N. cbn. auto. Qed.
Lemma in_flat_jkeys l s : s <> "direction" -> In s (flat_map jkeys l) <-> In s (flat_map mkeys l).
Proof.
  intros N. rewrite !in_flat_map. split; intros (c & I & J); exists c; (split; [auto|]); destruct c; cbn in J |- *; auto; intuition congruence.
Qed.
Lemma direction_jkeys l : In "direction" (flat_map jkeys l) <-> In CRotatable l.
Proof.
  rewrite in_flat_map. split; [intros (c & I & J)|intros I; exists CRotatable; cbn; auto]. destruct c; cbn in J; intuition discriminate.
Qed.

(** ** whole entities *)
(** what is exported besides entity_number, name, position and connections *)
Definition own_doc (kw : dict) (own : list string) (o d : dict) : Prop := wrote kw ("direction" :: "control_behavior" :: own) o d.
Record comes_back (p : protos) (l : option nat) (kw : dict) (s ty : string) (own : list string) (e : entity) : Prop := mkBack {
  cb_name : e_name e = VStr s; cb_number : e_number e = dsc kw "entity_number"; cb_auto : e_auto e = dsc kw "entity_number";
  cb_layer : e_layer e = l; cb_raw : e_raw e = dsc kw "connections"; cb_clsof : e_cls e = cls_of ty;
  cb_pos : exists v q, dget "position" kw = Some v /\ vec_of_val v = Ok (Some q) /\ e_pos e = Some q /\ jeq v (vec_to_json q);
  cb_export : forall o, exists d, json_chain p (e_dir e) (statics (e_cls e)) (e_cb e) (chain (e_cls e)) (e_at e) o = Ok d /\ own_doc kw own o d }.

Lemma ent_trip p cust l kw s ty own cbk : In (ty, (own, cbk)) formats -> well_formed p kw s ty -> dget ty cust = None ->
  exists e, snd (construct p cust l kw) = Ok e /\ comes_back p l kw s ty own e.
Proof.
  intros I (T & NST & F & R) CU. destruct (format_efacts _ _ _ I) as [NC NV FF FU FI FR ND DJ]. destruct (format_shape _ _ _ I) as [_ CH NM NB IL OWN].
  assert (FD : forall (x : string) v, dget (KS x) kw = Some v -> ~ In x ["name"; "entity_number"; "connections"] -> field_doc p ty x v).
  { intros x v E NI. destruct (F _ _ E) as (x' & [= <-] & _ & [H|H]); [contradiction|exact H]. }
  rewrite (construct_typed _ _ _ _ _ _ _ _ T CU I). destruct T as ((A & S & B & N & P) & CK & data & ED & TY).
  (* position *)
  destruct (dget "position" kw) as [pv|] eqn:EP; [|congruence].
  destruct (point_trip pv) as (q & VQ & JQ); [apply (FD "position"); [exact EP|cbn; intuition discriminate]|].
  assert (DP : dsc kw "position" = pv) by (unfold dsc; now rewrite EP). rewrite DP, VQ. cbn [bind].
  (* direction *)
  assert (DI : exists z, dir_of_val (odflt (VInt 0) (dget "direction" kw)) = Ok z /\
     (dget "direction" kw = None /\ z = 0 \/ In ty turnable /\ dget "direction" kw = Some (VInt z) /\ z <> 0)).
  { destruct (dget "direction" kw) as [dv|] eqn:E; cbn [odflt]; [|exists 0; split; [reflexivity|auto]].
    pose proof (FD "direction" dv E ltac:(cbn; intuition discriminate)) as (IT & z & -> & L). exists z. split; [|right; repeat split; auto; lia].
    change (Ok (z mod 8) = Ok z). f_equal. apply Z.mod_small. lia. }
  destruct DI as (z & -> & DZ). cbn [bind].
  (* control behaviour *)
  assert (CB : exists cbo, cb_part p (VStr s) (cls_of ty) kw = Ok cbo /\
     forall o, exists d, match cbo with None => Ok o | Some cb => let! v := cb_json p (statics (cls_of ty)) cb in Ok (obj_set o "control_behavior" v) end = Ok d /\
       wrote kw ["control_behavior"] o d).
  { unfold cb_part. destruct (dget "control_behavior" kw) as [cv|] eqn:E.
    - destruct (cb_trip p s ty own cbk cv I) as (a & u & -> & EU & NU & JU); [apply (FD "control_behavior"); [exact E|cbn; intuition discriminate]|].
      cbn [bind]. eexists. split; [reflexivity|]. intros o. cbv iota beta. rewrite EU. cbn [bind]. eexists. split; [reflexivity|].
      unfold obj_set. destruct u; try congruence; eapply wrote_put; eauto.
    - eexists. split; [reflexivity|]. intros o. exists o. split; auto. now apply wrote_skip. }
  destruct CB as (cbo & -> & CB). cbn [bind].
  (* own keys *)
  set (kw' := drop_keys entity_keys kw).
  assert (GEN : forall s, In s entity_keys <-> In s ("blueprint_layer" :: general_keys)) by (intros x; cbn; intuition).
  assert (KK : forall s, In s own -> dget (KS s) kw' = dget (KS s) kw).
  { intros x J. unfold kw'. rewrite dget_drop_keys. destruct (named entity_keys (KS x)) eqn:NN; auto. apply named_In in NN. exfalso. apply (DJ x J). now apply GEN. }
  assert (KN : forall s v, dget (KS s) kw' = Some v -> field_doc p ty s v).
  { intros x v E. unfold kw' in E. rewrite dget_drop_keys in E. destruct (named entity_keys (KS x)) eqn:NN; [discriminate|]. apply (FD x v E).
    intros J. assert (Q : In x entity_keys) by (cbn in J |- *; intuition). apply named_In in Q. congruence. }
  assert (TR : forall c, In c (mids ty) -> c <> CRotatable -> trip p (statics (cls_of ty)) c kw').
  { intros c IC NR. apply (trip_mixin p ty).
    - intros x v _ E. now apply KN.
    - exact NR.
    - intros ->. contradiction.
    - intros ->. contradiction.
    - intros ->. auto.
    - intros ->. rewrite KK; [apply R; auto|]. apply OWN. apply in_flat_map. exists CUnderground. cbn. auto.
    - intros ->. rewrite KK; [apply R; auto|]. apply OWN. apply in_flat_map. exists CInfinityContainer. cbn. auto. }
  destruct (mapM_all (fun c => mats p true (statics (cls_of ty)) c kw') (mids ty)) as (ats & EA).
  { intros c IC. destruct (scls_eq_dec c CRotatable) as [->|NR]; [exists []; reflexivity|]. destruct (TR c IC NR) as (a & Ea & _). eauto. }
  rewrite EA. cbn [bind].
  rewrite drop_all.
  2:{ intros k NK. unfold kw' in NK. rewrite dget_drop_keys in NK. destruct (named entity_keys k) eqn:NN; [congruence|].
      destruct (dget k kw) as [v|] eqn:E; [|congruence]. destruct (F _ _ E) as (x & -> & (x' & own' & cbk' & I' & [= <-] & U) & _).
      destruct (formats_fun _ _ _ _ _ I I') as (<- & _). destruct U as [U|U].
      - exfalso. assert (Q : In x entity_keys) by (apply GEN; cbn [In]; auto). apply named_In in Q. congruence.
      - apply named_In. now apply OWN. }
  eexists. split; [reflexivity|].
  constructor; cbn [e_name e_number e_auto e_layer e_raw e_cls e_pos e_cb e_dir e_at]; auto.
  - exists pv, q. auto.
  - intros o. rewrite CH. set (at_ := putall (concat ats) []).
    destruct (ejson_chain p z (statics (cls_of ty)) cbo kw at_ (mids ty) (CBaseMixin :: [CBase; CObject]) o NB ND) as (o1 & E1 & W1).
    { intros c IC obj. destruct (scls_eq_dec c CRotatable) as [->|NR].
      - cbn [json_mixin jkeys]. destruct DZ as [(ED' & ->)|(_ & ED' & NZ)].
        + eexists. split; [reflexivity|]. cbn. now apply wrote_skip.
        + eexists. split; [reflexivity|]. destruct (z =? 0) eqn:Q; [lia|]. eapply wrote_put; eauto. constructor.
      - destruct (TR c IC NR) as (a & Ea & X). destruct (X at_ z obj) as (o' & Eo & W).
        { intros x IX. eapply chain_attr; eauto. }
        exists o'. split; auto. replace (jkeys c) with (mkeys c) by (destruct c; try reflexivity; congruence). eapply wrote_ext; [|exact W].
        intros x IX. apply KK, OWN, in_flat_map. eauto. }
    rewrite E1. cbn [json_chain]. destruct (CB o1) as (d & E2 & W2). exists d. split; [exact E2|].
    assert (W3 : wrote kw (flat_map jkeys (mids ty) ++ ["control_behavior"]) o d).
    { eapply wrote_app; eauto. intros x IX [<-|[]]. apply in_flat_jkeys in IX; [|discriminate]. apply OWN in IX. apply (DJ _ IX). cbn. auto 10. }
    unfold own_doc. destruct (in_dec string_dec ty turnable) as [TU|TU].
    + eapply wrote_perm; [|exact W3]. intros x. rewrite in_app_iff. cbn [In]. apply FR in TU.
      destruct (string_dec x "direction") as [->|NX]; [rewrite direction_jkeys; tauto|]. rewrite in_flat_jkeys, <- OWN by auto. intuition.
    + assert (NDI : dget "direction" kw = None) by (destruct DZ as [(-> & _)|(X & _)]; [auto|contradiction]).
      eapply wrote_perm; [|eapply (wrote_app kw ["direction"]); [apply wrote_skip; exact NDI|exact W3|]].
      * intros x. rewrite !in_app_iff. cbn [In]. destruct (string_dec x "direction") as [->|NX]; [tauto|]. rewrite in_flat_jkeys, <- OWN by auto. intuition.
      * intros x [<-|[]] J. apply in_app_iff in J as [J|[J|[]]]; [|discriminate]. apply direction_jkeys in J. apply FR in J. contradiction.
Qed.

(** ** exporting *)
(** the parts of an entity that placing and numbering leave alone *)
Definition same_body (e e0 : entity) : Prop :=
  e_name e = e_name e0 /\ e_cls e = e_cls e0 /\ e_pos e = e_pos e0 /\ e_dir e = e_dir e0 /\ e_cb e = e_cb e0 /\ e_at e = e_at e0.
Lemma export_ent w w1 i e e0 l kw s ty own cbk cs : In (ty, (own, cbk)) formats -> well_formed (w_protos w) kw s ty ->
  ent w i = Some e -> same_body e e0 -> comes_back (w_protos w) l kw s ty own e0 ->
  connections_to_json i w = (w1, Ok cs) -> w_protos w1 = w_protos w ->
  exists d, ent_json i w = (w1, Ok (VDict d)) /\ says_again kw d /\ dget "entity_number" d = Some (e_auto e) /\
    dget "connections" d = match cs with [] => None | _ => Some (VDict cs) end.
Proof.
  intros I (T & NST & F & R) He (B1 & B2 & B3 & B4 & B5 & B6) [N1 N2 N3 N4 N5 N6 (v & q & EV & _ & EQ & JQ) EX] C PW.
  unfold ent_json, mbind, get_ent, gets. rewrite He, B3, EQ. cbv iota beta. rewrite C. rewrite PW, B1, B2, B4, B5, B6.
  destruct (format_efacts _ _ _ I) as [_ _ _ _ _ _ _ DJ].
  set (o := [(KS "entity_number", e_auto e); (KS "name", e_name e0); (KS "position", vec_to_json q)]).
  set (o' := match cs with [] => o | _ => dset "connections" (VDict cs) o end).
  destruct (EX o') as (d & ED & W). rewrite ED. cbn [bind]. exists d. split; [reflexivity|].
  assert (EO : forall k, k <> KS "connections" -> dget k o' = dget k o).
  { intros k NK. unfold o'. destruct cs; auto. rewrite dget_dset'. destruct (key_eqb k "connections") eqn:Q; auto. apply key_eqb_eq in Q. contradiction. }
  assert (GB : forall x, In x general_keys -> x <> "direction" -> x <> "control_behavior" -> dget (KS x) d = dget (KS x) o').
  { intros x IX ND NC. apply W. intros x' [= <-] [J|[J|J]]; try congruence. apply (DJ _ J). cbn [In]. auto. }
  repeat split.
  - intros k NE NC.
    destruct (dget k kw) as [u|] eqn:EU.
    + destruct (F _ _ EU) as (x & -> & (x' & own' & cbk' & I' & [= <-] & U) & FDD). destruct (formats_fun _ _ _ _ _ I I') as (<- & _).
      assert (WR : In x ("direction" :: "control_behavior" :: own) -> same_at (KS x) kw d).
      { intros J. destruct W as (_ & W). specialize (W x J). unfold same_at. rewrite EU in W |- *. destruct W as (y & -> & JY). exact JY. }
      destruct U as [U|U]; [|apply WR; cbn; auto]. cbn in U. destruct T as ((A & S & B & N & P) & CK & data & EDD & TY).
      destruct U as [<-|[<-|[<-|[<-|[<-|[<-|[<-|[]]]]]]]]; try congruence; try (apply WR; cbn; solve [auto]).
      * eapply same_some; [exact N|rewrite GB, EO by (cbn; auto; discriminate); cbn; reflexivity|rewrite N1; constructor].
      * eapply same_some; [exact EV|rewrite GB, EO by (cbn; auto; discriminate); cbn; reflexivity|exact JQ].
    + apply same_none; auto.
      assert (WR : (exists x, k = KS x /\ In x ("direction" :: "control_behavior" :: own)) -> dget k d = dget k o').
      { intros (x & -> & J). destruct W as (_ & W). specialize (W x J). now rewrite EU in W. }
      assert (ED2 : dget k d = dget k o').
      { destruct k as [x|z]; [|apply W; intros; discriminate].
        destruct (in_dec string_dec x ("direction" :: "control_behavior" :: own)); [apply WR; eauto|apply W; intros x' [= <-]; auto]. }
      rewrite ED2, EO by auto. unfold o. destruct T as ((A & S & B & N & P) & _).
      cbn [dget]. destruct (key_eqb k "entity_number") eqn:Q1; [apply key_eqb_eq in Q1; contradiction|].
      destruct (key_eqb k "name") eqn:Q2; [apply key_eqb_eq in Q2; congruence|]. destruct (key_eqb k "position") eqn:Q3; [apply key_eqb_eq in Q3; congruence|]. reflexivity.
  - rewrite GB, EO by (cbn; auto 10; discriminate). reflexivity.
  - rewrite GB by (cbn; auto 10; discriminate). unfold o'. destruct cs; [reflexivity|]. now rewrite dget_dset', key_eqb_refl.
Qed.

(** an entity without wires *)
Lemma no_wires w i e b x : ent w i = Some e -> e_layer e = Some b -> blu w b = Some x -> (forall c, In c (b_conns x) -> attached_to c i = false) ->
  exists w1, connections_to_json i w = (w1, Ok []) /\ w_protos w1 = w_protos w.
Proof.
  intros He Hl Hx NA. exists (turned i b x w). split; [|reflexivity]. unfold connections_to_json, mbind. rewrite (get_connections_eq _ _ _ _ _ He Hl Hx).
  unfold my_wires, mine. replace (filter _ (b_conns x)) with (@nil conn); [reflexivity|].
  symmetry. destruct (filter _ _) as [|c r] eqn:Q; auto. assert (In c (filter (fun c => attached_to c i) (b_conns x))) as J by (rewrite Q; cbn; auto).
  apply filter_In in J as (J1 & J2). rewrite NA in J2; auto; discriminate.
Qed.
Lemma fresh_wires w b x c : inv w -> blu w b = Some x -> In c (b_conns x) -> attached_to c (length (w_ents w)) = false.
Proof.
  intros I Hx Hc. destruct (attached_to c (length (w_ents w))) eqn:Q; auto. exfalso. unfold attached_to in Q.
  assert (X : c_from c = Some (length (w_ents w)) \/ c_to c = Some (length (w_ents w))).
  { apply orb_prop in Q as [Q|Q]; [left|right]; unfold end_eqb in Q; [destruct (c_from c)|destruct (c_to c)]; try discriminate; apply Nat.eqb_eq in Q; now subst. }
  destruct (inv_conns _ I _ _ _ _ Hx Hc X) as (e & He). unfold ent in He. assert (Some e = None) as K; [|discriminate K]. rewrite <- He. apply nth_error_None. lia.
Qed.

Lemma layer_same (x : bp) l : b_conns (b_set_objs l x) = b_conns x. Proof. reflexivity. Qed.
Lemma p_C34_new w b x kw s (ty : string) own cbk : reachable w -> blu w b = Some x -> dget ty (b_custom x) = None -> In (ty, (own, cbk)) formats ->
  well_formed (w_protos w) kw s ty ->
  exists w1 i w2 d, new_entity (Some b) kw w = (w1, Ok i) /\ ent_json i w1 = (w2, Ok (VDict d)) /\ says_again kw d /\
    dget "entity_number" d = Some (odflt VNone (dget "entity_number" kw)) /\ dget "connections" d = None.
Proof.
  intros R Hx CU I WF. apply reach_inv in R as IV. destruct (ent_trip _ _ (Some b) _ _ _ _ _ I WF CU) as (e & EC & CB).
  exists (new_ent e w), (length (w_ents w)).
  assert (N : new_entity (Some b) kw w = (new_ent e w, Ok (length (w_ents w)))).
  { unfold new_entity, mbind, get_bp, gets, ret. rewrite Hx, EC. reflexivity. }
  assert (He : ent (new_ent e w) (length (w_ents w)) = Some e) by (rewrite ent_new, Nat.eqb_refl; auto).
  destruct (no_wires (new_ent e w) (length (w_ents w)) e b x He (cb_layer _ _ _ _ _ _ _ CB) Hx) as (w1 & C & PW).
  { intros c Hc. eapply fresh_wires; eauto. }
  destruct (export_ent (new_ent e w) w1 (length (w_ents w)) e e (Some b) kw s ty own cbk [] I WF He) as (d & J & S & NU & NC); auto.
  { repeat split. }
  exists w1, d. repeat split; auto. rewrite NU, (cb_auto _ _ _ _ _ _ _ CB). reflexivity.
Qed.
Lemma p_C34_make w b x kw s (ty : string) own cbk w1 i : reachable w -> blu w b = Some x -> dget ty (b_custom x) = None -> In (ty, (own, cbk)) formats ->
  well_formed (w_protos w) kw s ty -> layer_make b kw w = (w1, Ok i) ->
  exists w2 d n, ent_json i w1 = (w2, Ok (VDict d)) /\ says_again kw d /\ dget "entity_number" d = Some (VInt n) /\ dget "connections" d = None.
Proof.
  intros R Hx CU I WF M. apply reach_inv in R as IV. destruct (ent_trip _ _ (Some b) _ _ _ _ _ I WF CU) as (e & EC & CB).
  rewrite (layer_make_eq b kw w x e IV Hx EC), (sort_layer_eq _ _ _ (listed_new_blu _ _ _ _ Hx)) in M. cbn [b_set_objs b_objs] in M.
  destruct (sorted_objs _ _) as [l|y] eqn:Es; [|discriminate]. cbn [bind] in M. injection M as <- <-. set (i := length (w_ents w)) in *.
  set (wl := upd_bp b (b_set_objs l) (listed_new b x e w)).
  assert (He : ent wl i = Some (with_layer (Some b) e)).
  { unfold wl. rewrite ent_upd_bp. unfold listed_new. fold i. rewrite ent_upd, Nat.eqb_refl, ent_upd_bp, ent_new. fold i. now rewrite Nat.eqb_refl. }
  assert (NL : NoDup (b_objs x ++ [i])).
  { apply (Permutation_NoDup (l := i :: b_objs x)); [apply Permutation_cons_append|]. constructor; [eapply fresh_not_listed; eauto|eapply inv_nodup; eauto]. }
  apply sorted_objs_perm in Es. assert (IL : In i l) by (eapply Permutation_in; [exact Es|apply in_app_iff; cbn; auto]).
  apply In_nth_error in IL as (k & Hk).
  assert (He' : ent (reindex 1 l wl) i = Some (with_auto (VInt (1 + Z.of_nat k)) (with_layer (Some b) e))).
  { apply reindex_nth; auto. eapply Permutation_NoDup; eauto. }
  assert (Hx' : blu (reindex 1 l wl) b = Some (b_set_objs l (b_set_objs (b_objs x ++ [i]) x))).
  { rewrite blu_reindex. unfold wl. rewrite blu_upd, Nat.eqb_refl, (listed_new_blu _ _ _ _ Hx). reflexivity. }
  assert (PP : w_protos (reindex 1 l wl) = w_protos w) by (rewrite reindex_protos; reflexivity).
  destruct (no_wires (reindex 1 l wl) i _ b _ He' eq_refl Hx') as (w2 & C & PW).
  { intros c Hc. cbn [b_set_objs b_conns] in Hc. eapply fresh_wires; eauto. }
  rewrite <- PP in WF, CB.
  destruct (export_ent (reindex 1 l wl) w2 i _ e (Some b) kw s ty own cbk [] I WF He') as (d & J & S & NU & NC); auto.
  { repeat split. }
  exists w2, d, (1 + Z.of_nat k). repeat split; auto.
Qed.
Lemma p_C34_made w b x kw s (ty : string) own cbk : reachable w -> blu w b = Some x -> dget ty (b_custom x) = None -> In (ty, (own, cbk)) formats ->
  well_formed (w_protos w) kw s ty -> (forall i, In i (b_objs x) -> placed w i) -> (forall v, dget "position" kw = Some v -> no_nan v) ->
  exists w1 i, layer_make b kw w = (w1, Ok i).
Proof.
  intros R Hx CU I WF PL NN. apply reach_inv in R as IV. destruct (ent_trip _ _ (Some b) _ _ _ _ _ I WF CU) as (e & EC & CB).
  rewrite (layer_make_eq b kw w x e IV Hx EC), (sort_layer_eq _ _ _ (listed_new_blu _ _ _ _ Hx)). cbn [b_set_objs b_objs].
  set (i := length (w_ents w)) in *. unfold sorted_objs.
  assert (NB : forall n, nval n <> XNaN -> nanb n = false) by (intros n; unfold nanb; destruct (nval n); congruence).
  destruct (mapM_all (fun i0 => match ent (listed_new b x e w) i0 with None => Err EUnmodelled | Some e0 => let! k := pos_key e0 in Ok (k, i0) end) (b_objs x ++ [i])) as (ks & ->); [|cbn [bind]; eauto].
  intros j J. unfold listed_new. rewrite ent_upd, ent_upd_bp, ent_new. fold i. apply in_app_iff in J as [J|[<-|[]]].
  - assert (NJ : i <> j) by (intros <-; eapply fresh_not_listed; eauto). destruct (Nat.eqb_spec i j); [contradiction|]. destruct (Nat.eqb_spec j i); [congruence|].
    destruct (PL _ J) as (v & (e' & He & Hp) & N1 & N2). rewrite He. unfold pos_key. rewrite Hp, !NB by auto. cbn. eauto.
  - rewrite Nat.eqb_refl. cbn [option_map]. unfold pos_key. cbn [e_pos with_layer]. destruct (cb_pos _ _ _ _ _ _ _ CB) as (v & q & EV & VQ & -> & _).
    specialize (NN v EV). destruct WF as (_ & _ & F & _). destruct (F _ _ EV) as (y & [= <-] & _ & [H|PD]); [cbn in H; intuition discriminate|].
    change (point_doc v) in PD. destruct PD as (dd & vx' & vy' & -> & _ & X & Y & NX & NY). cbn [vec_of_val] in VQ. rewrite X, Y in VQ.
    assert (Q : forall u k n, dget k dd = Some u -> is_number u -> num_of_val u = Ok n -> nanb n = false).
    { intros u k n EU NU NV. apply NB. specialize (NN dd k eq_refl). rewrite EU in NN. destruct NU as [(z & ->)|(f & ->)]; cbn in NV; injection NV as <-; cbn; [discriminate|].
      destruct f as [[]|[]| |[] ? ?]; cbn; congruence. }
    destruct (num_of_val vx') as [a|] eqn:EA; [|discriminate]. destruct (num_of_val vy') as [c|] eqn:EB; [|discriminate]. cbn [bind] in VQ. injection VQ as <-.
    cbn [vx vy]. rewrite (Q _ _ _ X NX EA), (Q _ _ _ Y NY EB). cbn. eauto.
Qed.

(** ** C36 *)
Lemma well_formed_dset p kw s ty own cbk v : In (ty, (own, cbk)) formats -> well_formed p kw s ty -> cb_doc p ty v -> well_formed p (dset "control_behavior" v kw) s ty.
Proof.
  intros I (T & NST & F & R) D. split; [|split; [|split]].
  - destruct T as ((A & S & B & N & P) & CK & X). repeat split; rewrite ?dget_dset'; cbn [key_eqb String.eqb Ascii.eqb Bool.eqb]; auto.
    + now rewrite all_KS_dset.
    + intros u U. rewrite dget_dset' in U. cbn [key_eqb String.eqb Ascii.eqb Bool.eqb] in U. now apply CK.
  - rewrite dget_dset'. exact NST.
  - intros k u E. rewrite dget_dset' in E. destruct (key_eqb k "control_behavior") eqn:Q; [|now apply F].
    apply key_eqb_eq in Q. subst k. injection E as <-. exists "control_behavior". split; auto. split; [|right; exact D].
    exists "control_behavior", own, cbk. split; auto. split; auto. left. cbn. auto 10.
  - intros x IX. rewrite dget_dset'. destruct (key_eqb _ _); [discriminate|auto].
Qed.
Lemma cb_doc_one p ty own f v : In (ty, (own, [f])) formats -> cb_field p f v -> cb_required ty = [f] -> cb_doc p ty (VDict [(KS f, v)]).
Proof.
  intros I D RQ. exists [(KS f, v)]. split; [reflexivity|]. split; [discriminate|]. split.
  - intros k u E. cbn in E. destruct (key_eqb k f) eqn:Q; [|discriminate]. injection E as <-. apply key_eqb_eq in Q. subst k.
    exists f. split; auto. split; auto. exists f, own, [f]. cbn. auto.
  - intros x IX. rewrite RQ in IX. destruct IX as [<-|[]]. cbn. rewrite String.eqb_refl. discriminate.
Qed.
Lemma p_C36_round w b x kw s (f : string) d (ty : string) : reachable w -> blu w b = Some x -> dget ty (b_custom x) = None -> well_formed (w_protos w) kw s ty ->
  (ty = "arithmetic-combinator" /\ f = "arithmetic_conditions" /\ arithmetic_doc (w_protos w) (VDict d) \/
   ty = "decider-combinator" /\ f = "decider_conditions" /\ decider_doc (w_protos w) (VDict d)) ->
  exists w1 i w2 o cb u, new_entity (Some b) (with_conditions f d [] kw) w = (w1, Ok i) /\ ent_json i w1 = (w2, Ok (VDict o)) /\
    dget "control_behavior" o = Some (VDict cb) /\ dget (KS f) cb = Some u /\ jeq (VDict d) u /\ forall k, k <> KS f -> dget k cb = None.
Proof.
  intros R Hx CU WF H.
  assert (X : exists own, In (ty, (own, [f])) formats /\ cb_required ty = [f] /\ cb_field (w_protos w) f (VDict d)).
  { destruct H as [(-> & -> & D)|(-> & -> & D)]; exists []; split; [apply arith_in|split; [reflexivity|exact D]|apply decid_in|split; [reflexivity|exact D]]. }
  destruct X as (own & I & RQ & D). pose proof (cb_doc_one _ _ _ _ _ I D RQ) as CD.
  pose proof (well_formed_dset _ _ _ _ _ _ _ I WF CD) as WF'.
  change (with_conditions f d [] kw) with (dset "control_behavior" (VDict [(KS f, VDict d)]) kw).
  destruct (p_C34_new _ _ _ _ _ _ _ _ R Hx CU I WF') as (w1 & i & w2 & o & N & J & S & _ & _).
  specialize (S "control_behavior" ltac:(discriminate) ltac:(discriminate)). unfold same_at in S. rewrite dget_dset', key_eqb_refl in S.
  destruct (dget "control_behavior" o) as [cv|] eqn:EC; [|contradiction].
  assert (EF : dget (KS f) [(KS f, VDict d)] = Some (VDict d)) by (cbn; now rewrite String.eqb_refl).
  assert (EN : forall k, k <> KS f -> dget k [(KS f, VDict d)] = None).
  { intros k NK. cbn. destruct (key_eqb k f) eqn:Q; auto. apply key_eqb_eq in Q. contradiction. }
  inversion S as [v E1 E2|l m _ E1 E2|d' e' P Q E1 E2]; subst.
  - exists w1, i, w2, o, [(KS f, VDict d)], (VDict d). repeat split; auto. constructor.
  - destruct (P _ _ EF) as (u & EU & JU). exists w1, i, w2, o, e', u. repeat split; auto.
Qed.
Lemma p_C36_normal w b x kw s d c : blu w b = Some x -> dget "decider-combinator" (b_custom x) = None ->
  well_formed (w_protos w) kw s "decider-combinator" -> decider_doc (w_protos w) (VDict (ddel "first_signal" d)) ->
  dget "first_signal" d <> None -> dget "constant" d = Some (VInt c) ->
  step (OMake b (with_conditions "decider_conditions" d [] kw)) w = (w, Err EType).
Proof.
  intros Hx CU WF D F C. apply (p_C24_construct _ _ _ _ _ Hx).
  assert (X : exists e, snd (construct (w_protos w) (b_custom x) (Some b) (with_conditions "decider_conditions" (ddel "first_signal" d) [] kw)) = Ok e).
  { pose proof (cb_doc_one _ "decider-combinator" [] "decider_conditions" _ decid_in D eq_refl) as CD.
    pose proof (well_formed_dset _ _ _ _ _ _ _ decid_in WF CD) as WF'. destruct (ent_trip _ _ (Some b) _ _ _ _ _ decid_in WF' CU) as (e & E & _). eauto. }
  destruct X as (e & E). eapply p_C36_only; [apply WF|exact CU|exact F|exact C|discriminate|exact E].
Qed.
