(** * Proofs about the tables names are looked up in. *)
From Coq Require Import Lia.
From Verif Require Import Py Num Util Classes Mixins Entity World DictFacts DocProofs SpecWorld SpecDoc SpecEntity SpecTrip SpecName ChainFacts EntProofs CbProofs TripProofs EntTrip DefaultEntities.
Open Scope Z_scope.

(** ** replacing the value of one key *)
Lemma mapM_err_at {A B} (f g : A -> res B) c x l : (forall d, In d l -> d <> c -> f d = g d) -> (exists ys, mapM g l = Ok ys) -> In c l -> f c = Err x ->
  (forall a b : A, {a = b} + {a <> b}) -> mapM f l = Err x.
Proof.
  intros H (ys & G) I E DEC. revert ys G I. induction l as [|d l IH]; intros ys G I; [destruct I|]. rewrite mapM_cons in *.
  destruct (g d) as [y|] eqn:GD; [|discriminate]. cbn [bind] in G. destruct (mapM g l) as [r|] eqn:GL; [|discriminate].
  destruct (DEC d c) as [->|N]; [now rewrite E|]. rewrite H, GD by (cbn; auto). cbn [bind]. rewrite (IH (fun d' J => H d' (or_intror J)) r); auto.
  destruct I; [contradiction|auto].
Qed.
Lemma key_replaced p cust l kw s ty own cbk e c (k : string) v : typed p kw s ty -> dget ty cust = None -> In (ty, (own, cbk)) formats ->
  snd (construct p cust l kw) = Ok e -> In c (mids ty) -> In k (mkeys c) ->
  (forall x, mats p true (statics (cls_of ty)) c (dset (KS k) v (drop_keys entity_keys kw)) = Err x -> snd (construct p cust l (dset (KS k) v kw)) = Err x) /\
  (forall a, mats p true (statics (cls_of ty)) c (dset (KS k) v (drop_keys entity_keys kw)) = Ok a -> exists e', snd (construct p cust l (dset (KS k) v kw)) = Ok e').
Proof.
  intros T CU I H IC IK. destruct (format_shape _ _ _ I) as [_ CH NM NB IL OWN]. destruct (format_efacts _ _ _ I) as [_ _ _ _ _ _ _ DJ].
  assert (KO : In k own) by (apply OWN; apply in_flat_map; eauto).
  assert (NG : forall g, In g ("blueprint_layer" :: general_keys) -> dget (KS g) (dset (KS k) v kw) = dget (KS g) kw).
  { intros g G. rewrite dget_dset'. destruct (key_eqb g k) eqn:Q; auto. apply key_eqb_eq in Q. injection Q as ->. exfalso. eapply DJ; eauto. }
  assert (NS : k <> "self").
  { intros ->. clear - IK. destruct c; cbn in IK; intuition discriminate. }
  assert (T' : typed p (dset (KS k) v kw) s ty).
  { destruct T as ((A & S & B & N & P) & CK & X). repeat split; auto.
    - now rewrite all_KS_dset.
    - rewrite dget_dset'. destruct (key_eqb "self" k) eqn:Q; auto. apply key_eqb_eq in Q. injection Q as <-. contradiction.
    - rewrite NG; cbn; auto.
    - rewrite NG; cbn; auto.
    - rewrite NG; cbn; auto.
    - intros u U. rewrite NG in U by (cbn; auto 10). now apply CK. }
  rewrite (construct_typed _ _ _ _ _ _ _ _ T CU I) in H. rewrite (construct_typed _ _ _ _ _ _ _ _ T' CU I).
  unfold dsc. rewrite !NG by (cbn; auto 10). unfold dsc in H.
  rewrite (cb_part_ext _ _ _ _ kw) by (apply NG; cbn; auto 10).
  apply bind_ok in H as (pos & -> & H). cbn [bind]. apply bind_ok in H as (dir & -> & H). cbn [bind]. apply bind_ok in H as (cb & -> & H). cbn [bind].
  apply bind_ok in H as (ats & EA & H).
  assert (NE : named entity_keys (KS k) = false).
  { destruct (named entity_keys (KS k)) eqn:Q; auto. apply named_In in Q. exfalso. apply (DJ _ KO). cbn in Q |- *. intuition. }
  assert (D1 : forall g, dget g (drop_keys entity_keys (dset (KS k) v kw)) = dget g (dset (KS k) v (drop_keys entity_keys kw))).
  { intros g. rewrite dget_drop_keys, !dget_dset', dget_drop_keys. destruct (key_eqb g k) eqn:Q; auto. apply key_eqb_eq in Q. subst g. now rewrite NE. }
  assert (ME : forall d, mats p true (statics (cls_of ty)) d (drop_keys entity_keys (dset (KS k) v kw)) = mats p true (statics (cls_of ty)) d (dset (KS k) v (drop_keys entity_keys kw))).
  { intros d. apply mats_ext. intros g _. apply D1. }
  assert (MO : forall d, In d (mids ty) -> d <> c -> mats p true (statics (cls_of ty)) d (dset (KS k) v (drop_keys entity_keys kw)) = mats p true (statics (cls_of ty)) d (drop_keys entity_keys kw)).
  { intros d ID ND. apply mats_ext. intros g G. rewrite dget_dset'. destruct (key_eqb g k) eqn:Q; auto. apply key_eqb_eq in Q. injection Q as ->. exfalso. apply ND. eapply mkeys_disjoint; eauto. }
  rewrite (mapM_ext _ (fun d => mats p true (statics (cls_of ty)) d (dset (KS k) v (drop_keys entity_keys kw)))) by (intros; apply ME).
  split.
  - intros x X. rewrite (mapM_err_at _ (fun d => mats p true (statics (cls_of ty)) d (drop_keys entity_keys kw)) c x); eauto using scls_eq_dec.
  - intros a X. destruct (mapM_all (fun d => mats p true (statics (cls_of ty)) d (dset (KS k) v (drop_keys entity_keys kw))) (mids ty)) as (ats' & ->).
    { intros d ID. destruct (scls_eq_dec d c) as [->|N]; [eauto|]. rewrite MO by auto.
      destruct (mats p true (statics (cls_of ty)) d (drop_keys entity_keys kw)) as [y|x] eqn:Q; [eauto|]. exfalso. clear - EA ID Q. revert ats EA.
      induction (mids ty) as [|c' m IH]; intros ats EA; [destruct ID|]. rewrite mapM_cons in EA. destruct ID as [->|ID]; [now rewrite Q in EA|].
      destruct (mats p true (statics (cls_of ty)) c' _); [|discriminate]. cbn [bind] in EA. destruct (mapM _ m); [|discriminate]. eapply IH; eauto. }
    cbn [bind]. rewrite drop_all; [eauto|]. intros g N.
    destruct (named (flat_map mkeys (mids ty)) g) eqn:Q; auto. rewrite D1, dget_dset' in N. destruct (key_eqb g k) eqn:Q2.
    + apply key_eqb_eq in Q2. subst g. rewrite <- Q. apply named_In. now apply OWN.
    + rewrite <- Q. destruct (drop_keys (flat_map mkeys (mids ty)) (drop_keys entity_keys kw)) eqn:D; [|discriminate]. eapply drop_nil; eauto.
Qed.
(** the other keys of the same mixin were fine *)
Lemma mats_of p cust l kw s ty own cbk e c : typed p kw s ty -> dget ty cust = None -> In (ty, (own, cbk)) formats ->
  snd (construct p cust l kw) = Ok e -> In c (mids ty) -> exists a, mats p true (statics (cls_of ty)) c (drop_keys entity_keys kw) = Ok a.
Proof.
  intros T CU I H IC. rewrite (construct_typed _ _ _ _ _ _ _ _ T CU I) in H. apply bind_ok in H as (pos & _ & H). apply bind_ok in H as (dir & _ & H).
  apply bind_ok in H as (cb & _ & H). apply bind_ok in H as (ats & EA & _). destruct (mats p true (statics (cls_of ty)) c (drop_keys entity_keys kw)) as [y|x] eqn:Q; [eauto|].
  exfalso. revert ats EA. induction (mids ty) as [|c' m IH]; intros ats EA; [destruct IC|]. rewrite mapM_cons in EA. destruct IC as [->|ID]; [now rewrite Q in EA|].
  destruct (mats p true (statics (cls_of ty)) c' _); [|discriminate]. cbn [bind] in EA. destruct (mapM _ m); [|discriminate]. eapply IH; eauto.
Qed.

(** ** the lists of filters *)
Definition known (n : string) : Prop := dget n defaultentities <> None.
Lemma name_val_known n : known n -> name_val (VStr n) = Ok (VStr n).
Proof. intros K. unfold name_val. cbn. unfold dmem. destruct (dget n defaultentities) eqn:E; [reflexivity|]. unfold known in K. congruence. Qed.
Lemma name_val_unknown n : ~ known n -> name_val (VStr n) = Err EUnknownEntity.
Proof. intros K. unfold name_val. cbn. unfold dmem. destruct (dget n defaultentities) eqn:E; [|reflexivity]. exfalso. apply K. unfold known. congruence. Qed.
Lemma known_dec n : {known n} + {~ known n}.
Proof. unfold known. destruct (dget n defaultentities); [left; discriminate|right; auto]. Qed.
(** accepted: all names known, otherwise the error of the unknown one *)
Definition verdict {A} (ns : list string) (r : res A) : Prop := (Forall known ns -> exists a, r = Ok a) /\ (~ Forall known ns -> r = Err EUnknownEntity).
Lemma verdict_nil {A} (a : A) : verdict [] (Ok a).
Proof. split; [eauto|]. intros N. exfalso. apply N. constructor. Qed.
Lemma verdict_cons {A B} n ns (f : val -> res A) (g : A -> res B) : (known n -> exists a, f (VStr n) = Ok a /\ verdict ns (g a)) ->
  verdict (n :: ns) (let! x := name_val (VStr n) in let! a := f x in g a).
Proof.
  intros H. destruct (known_dec n) as [K|K].
  - rewrite (name_val_known _ K). cbn [bind]. destruct (H K) as (a & -> & V1 & V2). cbn [bind]. split.
    + intros F. inversion F; auto.
    + intros F. apply V2. intros F'. apply F. now constructor.
  - rewrite (name_val_unknown _ K). split; [|reflexivity]. intros F. inversion F. contradiction.
Qed.
Lemma cargo_verdict (l : list (Z * string)) : forall acc, verdict (map snd l)
  (cargo_filters (map (fun f => VDict [(KS "index", VInt (fst f)); (KS "name", VStr (snd f))]) l) acc).
Proof.
  induction l as [|[z n] l IH]; intros acc; cbn [map fst snd]; [apply verdict_nil|]. cbn -[name_val cargo_filters].
  unfold cargo_filters at 1; fold cargo_filters. cbn -[name_val cargo_filters].
  apply (verdict_cons n (map snd l) (fun x => Ok x) (fun x => cargo_filters _ (dset (KI z) x acc))). intros _. eexists. split; [reflexivity|]. apply IH.
Qed.
Lemma request_verdict (l : list (Z * Z * string)) : forall acc, verdict (map snd l)
  (request_set (map (fun f => VDict [(KS "index", VInt (fst (fst f))); (KS "count", VInt (snd (fst f))); (KS "name", VStr (snd f))]) l) acc).
Proof.
  induction l as [|[[z c] n] l IH]; intros acc; cbn [map fst snd]; [apply verdict_nil|].
  unfold request_set at 1; fold request_set. cbn -[name_val request_set].
  apply (verdict_cons n (map snd l) (fun x => Ok x) (fun x => request_set _ (dset (KI z) (VDict [(KS "name", x); (KS "count", VInt c)]) acc))). intros _. eexists. split; [reflexivity|]. apply IH.
Qed.
Lemma infinity_verdict (l : list (Z * val * string)) : forall acc, verdict (map snd l)
  (infinity_filters (map (fun f => VDict [(KS "index", VInt (fst (fst f))); (KS "mode", VStr "exactly"); (KS "count", snd (fst f)); (KS "name", VStr (snd f))]) l) acc).
Proof.
  induction l as [|[[z c] n] l IH]; intros acc; cbn [map fst snd]; [apply verdict_nil|].
  unfold infinity_filters at 1; fold infinity_filters. cbn -[name_val infinity_filters].
  apply (verdict_cons n (map snd l) (fun x => Ok x) (fun x => infinity_filters _ (dset (KI z) (VDict [(KS "count", c); (KS "mode", VStr "exactly"); (KS "name", x)]) acc))). intros _. eexists. split; [reflexivity|]. apply IH.
Qed.
Lemma verdict_bind {A B} ns (r : res A) (f : A -> res B) : verdict ns r -> (forall a, exists b, f a = Ok b) -> verdict ns (let! a := r in f a).
Proof.
  intros (V1 & V2) F. split.
  - intros H. destruct (V1 H) as (a & ->). cbn. apply F.
  - intros H. rewrite (V2 H). reflexivity.
Qed.
Lemma verdict_mats {ns p cls c kw} : verdict ns (init_mixin p true cls c (mkIst 0 kw [])) -> verdict ns (mats p true cls c kw).
Proof.
  intros (V1 & V2). unfold mats. split; intros H; [destruct (V1 H) as (a & ->); eauto|now rewrite (V2 H)].
Qed.
Lemma naming_verdict ty k ns v : naming ty k ns v -> exists c, In c (mids ty) /\ In k (mkeys c) /\
  forall p kw, (exists a, mats p true (statics (cls_of ty)) c kw = Ok a) -> verdict ns (mats p true (statics (cls_of ty)) c (dset (KS k) v kw)).
Proof.
  intros N. destruct N.
  - exists CSplitter. split; [vm_compute; tauto|]. split; [cbn; auto|]. intros p kw (a & E). apply verdict_mats. unfold mats in E. cbn [init_mixin] in E |- *. unfold kwv in *. cbn [i_kw] in *.
    rewrite !dget_dset'. cbn [key_eqb String.eqb Ascii.eqb Bool.eqb odflt].
    destruct (negb (side_ok (odflt VNone (dget "input_priority" kw)))); [discriminate|]. destruct (negb (side_ok (odflt VNone (dget "output_priority" kw)))); [discriminate|].
    apply (verdict_cons n [] (fun x => Ok x)). intros _. eexists. split; [reflexivity|apply verdict_nil].
  - exists CCargo. split; [vm_compute; tauto|]. split; [cbn; auto|]. intros p kw _. apply verdict_mats. cbn [init_mixin]. unfold kwv. cbn [i_kw].
    rewrite dget_dset', key_eqb_refl. cbn [odflt inventory_set getdef dget key_eqb String.eqb Ascii.eqb Bool.eqb iter_val bind].
    apply (verdict_bind (map snd l)); [|intros [bar fs]; eauto]. apply (verdict_bind (map snd l)); [apply cargo_verdict|intros d; eauto].
  - exists CRequester. split; [vm_compute; tauto|]. split; [cbn; auto|]. intros p kw _. apply verdict_mats. cbn [init_mixin]. unfold kwv. cbn [i_kw].
    rewrite !dget_dset', key_eqb_refl. cbn [odflt iter_val bind]. apply verdict_bind; [apply request_verdict|eauto].
  - exists CInfinityContainer. split; [vm_compute; tauto|]. split; [cbn; auto|]. intros p kw _. apply verdict_mats. cbn [init_mixin]. unfold kwv. cbn [i_kw].
    rewrite !dget_dset', key_eqb_refl. cbn [odflt getitem dget key_eqb String.eqb Ascii.eqb Bool.eqb iter_val bind]. apply verdict_bind; [apply infinity_verdict|eauto].
  - exists CSpeaker. split; [vm_compute; tauto|]. split; [cbn; auto|]. intros p kw (at_ & E). apply verdict_mats. unfold mats in E. cbn [init_mixin] in E |- *. unfold kwv in *. cbn [i_kw] in *.
    rewrite !dget_dset'. cbn [key_eqb String.eqb Ascii.eqb Bool.eqb odflt].
    destruct (speaker_parameters (odflt VNone (dget "parameters" kw))) as [q|]; [|discriminate]. cbn [bind].
    apply verdict_bind; [|eauto]. cbn -[name_val]. apply (verdict_cons n [] (fun x => Ok x)). intros _. eexists. split; [reflexivity|apply verdict_nil].
Qed.
Lemma p_C50_builtin p cust l kw s ty own cbk e (k : string) ns v : typed p kw s ty -> dget ty cust = None -> In (ty, (own, cbk)) formats ->
  snd (construct p cust l kw) = Ok e -> naming ty k ns v ->
  (Forall (fun n : string => dget n defaultentities <> None) ns -> exists e', snd (construct p cust l (dset (KS k) v kw)) = Ok e') /\
  (~ Forall (fun n : string => dget n defaultentities <> None) ns -> snd (construct p cust l (dset (KS k) v kw)) = Err EUnknownEntity).
Proof.
  intros T CU I H N. destruct (naming_verdict _ _ _ _ N) as (c & IC & IK & V). destruct (key_replaced _ _ _ _ _ _ _ _ _ c k v T CU I H IC IK) as (R1 & R2).
  destruct (V p (drop_keys entity_keys kw)) as (V1 & V2); [eapply mats_of; eauto|]. split.
  - intros F. destruct (V1 F) as (a & Ea). eauto.
  - intros F. apply R1. now apply V2.
Qed.

(** ** names in the imported tables *)
Lemma signal_set_ok p (n : string) : n <> "" -> dget n (p_signal p) <> None -> signal_set p (VStr n) = Ok (VStr n).
Proof.
  intros N D. cbn. unfold signal_check. cbn [truthy]. destruct (String.eqb_spec n ""); [contradiction|]. cbn. unfold dmem. destruct (dget n (p_signal p)); [reflexivity|congruence].
Qed.
Lemma signal_set_err p (n : string) : n <> "" -> dget n (p_signal p) = None -> signal_set p (VStr n) = Err EUnknownSignal.
Proof.
  intros N D. cbn. unfold signal_check. cbn [truthy]. destruct (String.eqb_spec n ""); [contradiction|]. cbn. unfold dmem. now rewrite D.
Qed.
Definition judged {A} (t : dict) (x : exn) (ns : list string) (r : res A) : Prop :=
  (Forall (fun n : string => dget n t <> None) ns -> exists a, r = Ok a) /\ (~ Forall (fun n : string => dget n t <> None) ns -> r = Err x).
Lemma judged_nil {A} t x (a : A) : judged t x [] (Ok a).
Proof. split; [eauto|]. intros N. exfalso. apply N. constructor. Qed.
Lemma judged_cons {A B} t x (n : string) ns (r : res A) (g : A -> res B) : (dget n t <> None -> exists a, r = Ok a) -> (dget n t = None -> r = Err x) ->
  (forall a, r = Ok a -> judged t x ns (g a)) -> judged t x (n :: ns) (let! a := r in g a).
Proof.
  intros H1 H2 H3. destruct (dget n t) eqn:E.
  - destruct H1 as (a & ->); [discriminate|]. cbn. destruct (H3 a eq_refl) as (V1 & V2). split.
    + intros F. inversion F; auto.
    + intros F. apply V2. intros F'. apply F. constructor; auto. congruence.
  - rewrite (H2 eq_refl). split; [|reflexivity]. intros F. inversion F. contradiction.
Qed.
Lemma judged_bind {A B} t x ns (r : res A) (f : A -> res B) : judged t x ns r -> (forall a, exists b, f a = Ok b) -> judged t x ns (let! a := r in f a).
Proof.
  intros (V1 & V2) F. split.
  - intros H. destruct (V1 H) as (a & ->). cbn. apply F.
  - intros H. rewrite (V2 H). reflexivity.
Qed.
Lemma judged_mats {t x ns p cls c kw} : judged t x ns (init_mixin p true cls c (mkIst 0 kw [])) -> judged t x ns (mats p true cls c kw).
Proof.
  intros (V1 & V2). unfold mats. split; intros H; [destruct (V1 H) as (a & ->); eauto|now rewrite (V2 H)].
Qed.
Definition import_error (k : string) : exn := if String.eqb k "recipe" then EUnknownRecipe else EUnknownSignal.
Lemma inserter_judged p (l : list (Z * string)) : ~ In "" (map snd l) -> judged (p_signal p) EUnknownSignal (map snd l)
  (mapM (filter_new p (Some FName)) (map (fun f => VDict [(KS "index", VInt (fst f)); (KS "name", VStr (snd f))]) l)).
Proof.
  induction l as [|[z n] l IH]; intros NE; cbn [map fst snd]; [apply judged_nil|]. cbn in NE. rewrite mapM_cons.
  apply judged_cons.
  - intros D. cbn -[signal_set]. rewrite signal_set_ok by tauto. cbn. eauto.
  - intros D. cbn -[signal_set]. rewrite signal_set_err by tauto. reflexivity.
  - intros a _. apply judged_bind; [apply IH; tauto|eauto].
Qed.
Lemma items_judged p (l : list (string * val)) : ~ In "" (map fst l) -> judged (p_signal p) EUnknownSignal (map fst l) (items_check p (map (fun f => (KS (fst f), snd f)) l)).
Proof.
  induction l as [|[n v] l IH]; intros NE; cbn [map fst snd]; [apply judged_nil|]. cbn in NE. cbn [items_check].
  apply judged_cons.
  - intros D. cbn -[signal_set]. rewrite signal_set_ok by tauto. eauto.
  - intros D. cbn -[signal_set]. rewrite signal_set_err by tauto. reflexivity.
  - intros a _. apply IH. tauto.
Qed.
Lemma importing_judged p ty k t ns v : importing p ty k t ns v -> ~ In "" ns -> exists c, In c (mids ty) /\ In k (mkeys c) /\
  forall kw, (exists a, mats p true (statics (cls_of ty)) c kw = Ok a) -> judged t (import_error k) ns (mats p true (statics (cls_of ty)) c (dset (KS k) v kw)).
Proof.
  intros N NE. destruct N as [n|l|ty l TY].
  - exists CRecipe. split; [vm_compute; tauto|]. split; [cbn; auto|]. intros kw _. apply judged_mats. cbn [init_mixin]. unfold kwv. cbn [i_kw].
    rewrite dget_dset', key_eqb_refl. cbn [odflt]. apply (judged_cons _ _ n []).
    + intros D. cbn. unfold dmem. destruct (dget n (p_recipe p)); [eauto|congruence].
    + intros D. cbn. unfold dmem. now rewrite D.
    + intros a _. apply judged_nil.
  - exists CFilterInserter. split; [vm_compute; tauto|]. split; [cbn; auto|]. intros kw (a & E). apply judged_mats. unfold mats in E. cbn [init_mixin] in E |- *. unfold kwv in *. cbn [i_kw] in *.
    rewrite !dget_dset'. cbn [key_eqb String.eqb Ascii.eqb Bool.eqb odflt]. cbn [iter_val bind].
    change (filter_cls (statics (cls_of "inserter"))) with (Some FName) in *.
    apply judged_bind; [now apply inserter_judged|]. intros fs.
    destruct (match odflt VNone (dget "filters" kw) with VNone => Ok [] | v => iter_val v end) as [l'|]; [|discriminate]. cbn [bind] in E.
    destruct (mapM _ l'); [|discriminate]. cbn [bind] in E. destruct (negb _); [discriminate|]. eauto.
  - exists CItems. assert (IM : In CItems (mids ty)) by (destruct TY as [<-|[<-|[]]]; vm_compute; tauto). split; [exact IM|]. split; [cbn; auto|].
    intros kw _. apply judged_mats. cbn [init_mixin]. cbn [i_kw]. rewrite dget_dset', key_eqb_refl. cbn [odflt].
    apply judged_bind; [now apply items_judged|eauto].
Qed.
Lemma p_C50_imported p cust l kw s ty own cbk e (k : string) t ns v : typed p kw s ty -> dget ty cust = None -> In (ty, (own, cbk)) formats ->
  snd (construct p cust l kw) = Ok e -> importing p ty k t ns v -> ~ In "" ns ->
  (Forall (fun n : string => dget n t <> None) ns -> exists e', snd (construct p cust l (dset (KS k) v kw)) = Ok e') /\
  (~ Forall (fun n : string => dget n t <> None) ns -> snd (construct p cust l (dset (KS k) v kw)) = Err (if String.eqb k "recipe" then EUnknownRecipe else EUnknownSignal)).
Proof.
  intros T CU I H N NE. destruct (importing_judged _ _ _ _ _ _ N NE) as (c & IC & IK & V). destruct (key_replaced _ _ _ _ _ _ _ _ _ c k v T CU I H IC IK) as (R1 & R2).
  destruct (V (drop_keys entity_keys kw)) as (V1 & V2); [eapply mats_of; eauto|]. split.
  - intros F. destruct (V1 F) as (a & Ea). eauto.
  - intros F. apply R1. now apply V2.
Qed.

(** ** signals of a control behaviour *)
Lemma signal_name_ok p (n t : string) : n <> "" -> dget n (p_signal p) <> None -> exists a, signal_set p (a_name n t) = Ok a.
Proof. intros N D. exists (VStr n). exact (signal_set_ok p n N D). Qed.
Lemma signal_name_err p (n t : string) : n <> "" -> dget n (p_signal p) = None -> signal_set p (a_name n t) = Err EUnknownSignal.
Proof. intros N D. exact (signal_set_err p n N D). Qed.
Lemma judged_cats {t x ns p cls c kw} : judged t x ns (cb_simple p cls c (mkCst 0 kw [] None)) -> judged t x ns (cats p cls c kw).
Proof.
  intros (V1 & V2). unfold cats. split; intros H; [destruct (V1 H) as (a & ->); eauto|now rewrite (V2 H)].
Qed.
Lemma judged_seq {A B} t x ns (r : res A) (g : A -> res B) : (exists a, r = Ok a) -> (forall a, judged t x ns (g a)) -> judged t x ns (let! a := r in g a).
Proof. intros (a & ->) H. cbn. apply H. Qed.
Lemma comparator_set o : In o comparators -> exists a, operator_set decider_ops o = Ok a.
Proof. intros I. cbn in I. repeat (destruct I as [<-|I]; [eexists; reflexivity|]). destruct I. Qed.
Lemma const_judged p (l : list (Z * Z * string * string)) : ~ In "" (map snd l) -> judged (p_signal p) EUnknownSignal (map snd l)
  (mapM (filter_new p (Some FSignal)) (map (fun f => VDict [(KS "signal", a_name (snd f) (snd (fst f))); (KS "count", VInt (snd (fst (fst f)))); (KS "index", VInt (fst (fst (fst f))))]) l)).
Proof.
  induction l as [|[[[z c] t] n] l IH]; intros NE; cbn [map fst snd]; [apply judged_nil|]. cbn in NE. rewrite mapM_cons.
  apply judged_cons.
  - intros D. destruct (signal_name_ok p n t) as (a & E); auto. cbn -[signal_set a_name]. rewrite E. cbn. eauto.
  - intros D. cbn -[signal_set a_name]. now rewrite signal_name_err by tauto.
  - intros a _. apply judged_bind; [apply IH; tauto|eauto].
Qed.
Lemma signalling_judged p cls c k ns v kw : signalling k ns v -> ~ In "" ns -> In k (ckeys c) -> (c = CFilters -> filter_cls cls = Some FSignal) ->
  (exists a, cats p cls c kw = Ok a) -> judged (p_signal p) EUnknownSignal ns (cats p cls c (dset (KS k) v kw)).
Proof.
  intros N NE IK FI (a & E). destruct N as [k n t K|n t m u o O|l].
  - assert (J : forall B (g : val -> res B), (forall a0, exists b, g a0 = Ok b) -> judged (p_signal p) EUnknownSignal [n] (let! a0 := signal_set p (a_name n t) in g a0)).
    { intros B g G. cbn in NE. apply judged_cons; [intros; apply signal_name_ok; auto|intros; apply signal_name_err; auto|].
      intros a0 _. destruct (G a0) as (b & ->). apply judged_nil. }
    apply judged_cats. unfold cats in E. destruct c; cbn in IK; try (exfalso; clear - IK K; intuition subst; cbn in K; intuition discriminate);
      cbn [cb_simple] in E |- *; unfold ckw in *; cbn [k_kw] in *;
      repeat match type of E with context [signal_set p ?x] => let s := fresh "s" in let Q := fresh "Q" in
               destruct (signal_set p x) as [s|] eqn:Q; cbn [bind] in E; [|discriminate] end; clear E FI;
      repeat (destruct IK as [<-|IK]; [try (exfalso; clear - K; cbn in K; intuition discriminate);
        rewrite !dget_dset'; cbn [key_eqb String.eqb Ascii.eqb Bool.eqb odflt];
        repeat match goal with H : signal_set p _ = _ |- _ => first [rewrite H; clear H|clear H] end; cbn [bind];
        repeat match goal with H : signal_set p _ = _ |- _ => clear H end;
        apply J; intros; cbn [bind]; eauto|]); try (destruct IK).
  - assert (c = CCircuitCondition) as -> by (clear - IK; destruct c; cbn in IK; intuition discriminate). apply judged_cats.
    cbn [cb_simple]. unfold ckw. cbn [k_kw]. rewrite dget_dset', key_eqb_refl. cbn [odflt getdef dget key_eqb String.eqb Ascii.eqb Bool.eqb bind]. cbn in NE.
    apply judged_cons; [intros; apply signal_name_ok; auto|intros; apply signal_name_err; auto|]. intros f _.
    apply judged_cons; [intros; apply signal_name_ok; auto|intros; apply signal_name_err; auto|]. intros s _.
    destruct (comparator_set o O) as (x & ->). apply judged_nil.
  - assert (c = CFilters) as -> by (clear - IK; destruct c; cbn in IK; intuition discriminate). apply judged_cats.
    cbn [cb_simple k_kw]. rewrite dget_dset', key_eqb_refl. cbn [odflt iter_val bind]. rewrite FI by auto. apply judged_bind; [now apply const_judged|eauto].
Qed.
Lemma mapM_replaced {A B} (f g : A -> res B) c l t x ns : (forall d, In d l -> d <> c -> f d = g d) -> (exists ys, mapM g l = Ok ys) -> In c l ->
  (forall a b : A, {a = b} + {a <> b}) -> ((exists a, g c = Ok a) -> judged t x ns (f c)) -> judged t x ns (mapM f l).
Proof.
  intros H (ys & G) I DEC J.
  assert (GA : forall d, In d l -> exists a, g d = Ok a).
  { clear - G. revert ys G. induction l as [|d l IH]; intros ys G d' I; [destruct I|]. rewrite mapM_cons in G. destruct (g d) as [y|] eqn:Q; [|discriminate]. cbn [bind] in G.
    destruct (mapM g l) as [r|]; [|discriminate]. destruct I as [<-|I]; eauto. }
  destruct (J (GA c I)) as (J1 & J2). split.
  - intros F. destruct (J1 F) as (a & Ea). apply mapM_all. intros d ID. destruct (DEC d c) as [->|N]; [eauto|]. rewrite H by auto. auto.
  - intros F. eapply mapM_err_at; eauto.
Qed.
Lemma owner_unique {A} (g : A -> list string) (l : list A) c d s : NoDup (flat_map g l) -> In c l -> In d l -> In s (g c) -> In s (g d) -> c = d.
Proof.
  induction l as [|a l IH]; intros ND IC ID S T; [destruct IC|]. cbn [flat_map] in ND. apply NoDup_app_l in ND as (_ & ND & DJ).
  destruct IC as [<-|IC], ID as [<-|ID]; auto.
  - exfalso. apply (DJ s S). apply in_flat_map. eauto.
  - exfalso. apply (DJ s T). apply in_flat_map. eauto.
Qed.
Lemma cats_judged p (ty : string) cb (k : string) ns v ms : NoDup (flat_map ckeys ms) -> In k (flat_map ckeys ms) -> (In CFilters ms -> filter_cls (statics (cls_of ty)) = Some FSignal) ->
  signalling k ns v -> ~ In "" ns -> (exists ats, mapM (fun c => cats p (statics (cls_of ty)) c cb) ms = Ok ats) ->
  judged (p_signal p) EUnknownSignal ns (mapM (fun c => cats p (statics (cls_of ty)) c (dset (KS k) v cb)) ms).
Proof.
  intros ND IK FI N NE EA. apply in_flat_map in IK as (c & IC & IK).
  apply mapM_replaced with (g := fun c => cats p (statics (cls_of ty)) c cb) (c := c); eauto using scls_eq_dec.
  - intros d ID NC. apply cats_ext. intros g G. rewrite dget_dset'. destruct (key_eqb g k) eqn:Q; auto. apply key_eqb_eq in Q. injection Q as ->. exfalso.
    apply NC. eapply owner_unique; eauto.
  - intros B. apply signalling_judged; auto. intros ->. auto.
Qed.
Lemma inserter_keys own cbk k : In ("inserter", (own, cbk)) formats -> In k cbk -> In k (flat_map ckeys [CCircuitCondition; CInserter]).
Proof.
  intros I IK. assert (T : forallb (fun f : string * (list string * list string) => negb (String.eqb (fst f) "inserter") || subsetb (snd (snd f)) (flat_map ckeys [CCircuitCondition; CInserter])) formats = true) by (vm_compute; reflexivity).
  rewrite forallb_forall in T. specialize (T _ I). cbn [fst snd] in T. rewrite String.eqb_refl in T. cbn [negb orb] in T. eapply subsetb_ok; eauto.
Qed.
Lemma cb_signals p s ty own cbk cb (k : string) ns v a : In (ty, (own, cbk)) formats -> In k cbk -> signalling k ns v -> ~ In "" ns ->
  cb_make p (VStr s) (cls_of ty) (VDict cb) = Ok a ->
  judged (p_signal p) EUnknownSignal ns (cb_make p (VStr s) (cls_of ty) (VDict (dset (KS k) v cb))).
Proof.
  intros I IK N NE H. destruct (cb_make_ok _ _ _ _ _ H) as (cb' & [= <-] & A & S & E).
  assert (NK : k <> "self" /\ k <> "_entity" /\ k <> "arithmetic_conditions" /\ k <> "decider_conditions").
  { clear - N. destruct N as [k n t K| |]; [|now repeat split|now repeat split]. cbn in K. intuition subst; intuition discriminate. }
  assert (A' : all_KS (dset (KS k) v cb) = true) by now rewrite all_KS_dset.
  assert (S' : dget "self" (dset (KS k) v cb) = None) by (rewrite dget_dset'; destruct (key_eqb "self" k) eqn:Q; auto; apply key_eqb_eq in Q; injection Q as Q; symmetry in Q; tauto).
  assert (E' : dget "_entity" (dset (KS k) v cb) = None) by (rewrite dget_dset'; destruct (key_eqb "_entity" k) eqn:Q; auto; apply key_eqb_eq in Q; injection Q as Q; symmetry in Q; tauto).
  assert (EXT : forall c d, In d (ckeys c) -> d <> k -> dget (KS d) (dset (KS k) v cb) = dget (KS d) cb).
  { intros c d _ ND. rewrite dget_dset'. destruct (key_eqb d k) eqn:Q; auto. apply key_eqb_eq in Q. injection Q as Q. contradiction. }
  destruct (special ty) eqn:SP.
  - destruct (special_cases _ SP) as [->|[->| ->]].
    + rewrite cb_make_inserter in H |- * by auto. apply bind_ok in H as (ats & EA & _).
      apply judged_bind; [|eauto]. apply cats_judged; eauto.
      * apply snodup_ok. vm_compute. reflexivity.
      * eapply inserter_keys; eauto.
      * intros [X|[X|[]]]; discriminate X.
    + destruct (formats_fun _ _ _ _ _ I arith_in) as (_ & ->). destruct IK as [<-|[]]; tauto.
    + destruct (formats_fun _ _ _ _ _ I decid_in) as (_ & ->). destruct IK as [<-|[]]; tauto.
  - destruct (format_cshape _ _ _ I SP) as [CH PL ND _ OWN]. rewrite (cb_make_plain _ _ _ _ _ _ I SP A S E) in H. rewrite (cb_make_plain _ _ _ _ _ _ I SP A' S' E').
    apply bind_ok in H as (ats & EA & H). destruct (drop_keys _ cb) eqn:D; [|discriminate].
    rewrite (drop_all _ (dset (KS k) v cb)).
    2:{ intros g G. rewrite dget_dset' in G. destruct (key_eqb g k) eqn:Q; [apply key_eqb_eq in Q; subst g; apply named_In; now apply OWN|]. eapply drop_nil; eauto. }
    apply judged_bind; [|eauto]. apply cats_judged; eauto; [now apply OWN|]. intros IF. eapply cf_filters; eauto. eapply format_cfacts; eauto.
Qed.
Lemma p_C50_signals p cust l kw s ty own cbk e cb (k : string) ns v : typed p kw s ty -> dget ty cust = None -> In (ty, (own, cbk)) formats ->
  snd (construct p cust l (dset "control_behavior" (VDict cb) kw)) = Ok e -> In k cbk -> signalling k ns v -> ~ In "" ns ->
  (Forall (fun n : string => dget n (p_signal p) <> None) ns -> exists e', snd (construct p cust l (dset "control_behavior" (VDict (dset (KS k) v cb)) kw)) = Ok e') /\
  (~ Forall (fun n : string => dget n (p_signal p) <> None) ns -> snd (construct p cust l (dset "control_behavior" (VDict (dset (KS k) v cb)) kw)) = Err EUnknownSignal).
Proof.
  intros T CU I H IK N NE. destruct (construct_cb_ok _ _ _ _ _ _ _ _ _ _ T CU I H) as (a & Ha).
  destruct (cb_signals _ _ _ _ _ _ _ _ _ _ I IK N NE Ha) as (J1 & J2). split.
  - intros F. destruct (J1 F) as (a' & Ea). rewrite (construct_cb _ _ _ _ _ _ _ _ (VDict cb) T CU I) in H. rewrite (construct_cb _ _ _ _ _ _ _ _ _ T CU I).
    apply bind_ok in H as (pos & -> & H). apply bind_ok in H as (dir & -> & H). apply bind_ok in H as (c & _ & H). apply bind_ok in H as (ats & -> & H).
    cbn [bind]. rewrite Ea. cbn [bind]. destruct (drop_keys _ _); [eauto|discriminate].
  - intros F. eapply construct_cb_err; eauto.
Qed.

(** ** names of entities *)
Lemma cb_init_chain_name p n1 n2 cls all : forall l st st' a, cb_init_chain p n1 cls all l st = (st', Ok a) -> cb_init_chain p n2 cls all l st = (st', Ok a).
Proof.
  induction l as [|c l IH]; intros st st' a H; [exact H|].
  assert (B : forall args kw, base_init p n1 args kw = Ok tt -> base_init p n2 args kw = Ok tt) by (intros [|n] [|k kw]; cbn; congruence).
  destruct (scls_eq_dec c CBaseMixin) as [->|N1].
  - cbn [cb_init_chain k_args k_kw k_at] in H |- *. destruct (base_init p n1 _ _) as [[]|] eqn:E; [|discriminate]. now rewrite (B _ _ E).
  - destruct (scls_eq_dec c CInserter) as [->|N2].
    + exact H.
    + assert (G : forall nm, cb_init_chain p nm cls all (c :: l) st = let '(st1, x) := cb_link p cls all c st in match x with Ok _ => cb_init_chain p nm cls all l st1 | Err e => (st1, Err e) end)
        by (intros nm; destruct c; try reflexivity; congruence).
      rewrite G in H |- *. destruct (cb_link p cls all c st) as [st1 [u|]]; [|discriminate]. now apply IH.
Qed.
Lemma cb_make_name p n1 n2 ic v a : cb_make p n1 ic v = Ok a -> cb_make p n2 ic v = Ok a.
Proof.
  unfold cb_make. intros H. apply bind_ok in H as (d & E & H). rewrite E. cbn [bind]. destruct (_ || _); [discriminate|].
  destruct (cb_init_chain p n1 (statics ic) (cb_chain ic) (cb_chain ic) (mkCst 0 d [] None)) as [st' [a'|]] eqn:Q; [|discriminate].
  now rewrite (cb_init_chain_name _ _ n2 _ _ _ _ _ _ Q).
Qed.
Lemma p_C50_entity p cust l kw s ty own cbk e (n : string) : typed p kw s ty -> dget ty cust = None -> In (ty, (own, cbk)) formats ->
  snd (construct p cust l kw) = Ok e ->
  (dget n (p_entity p) = None -> snd (construct p cust l (dset "name" (VStr n) kw)) = Err EUnknownEntity) /\
  (forall data, dget n (p_entity p) = Some (VDict data) -> dget "type" data = Some (VStr ty) -> exists e', snd (construct p cust l (dset "name" (VStr n) kw)) = Ok e').
Proof.
  intros T CU I H.
  assert (DE : describes (dset "name" (VStr n) kw) (VStr n)).
  { destruct T as ((A & S & B & N & P) & _). repeat split.
    - now rewrite all_KS_dset.
    - now rewrite dget_dset'.
    - now rewrite dget_dset'.
    - now rewrite dget_dset', key_eqb_refl.
    - now rewrite dget_dset'. }
  assert (CK : checked (dset "name" (VStr n) kw)) by (intros v E; rewrite dget_dset' in E; apply T; exact E).
  split.
  - intros D. rewrite construct_unknown; auto. exists n. auto.
  - intros data D TY. assert (T' : typed p (dset "name" (VStr n) kw) n ty) by (split; [auto|split; eauto]).
    rewrite (construct_typed _ _ _ _ _ _ _ _ T CU I) in H. rewrite (construct_typed _ _ _ _ _ _ _ _ T' CU I).
    unfold dsc in *. rewrite !dget_dset'. cbn [key_eqb String.eqb Ascii.eqb Bool.eqb]. rewrite drop_dset by reflexivity.
    apply bind_ok in H as (pos & -> & H). cbn [bind]. apply bind_ok in H as (dir & -> & H). cbn [bind]. apply bind_ok in H as (cb & C & H).
    assert (C' : cb_part p (VStr n) (cls_of ty) (dset "name" (VStr n) kw) = Ok cb).
    { unfold cb_part in *. rewrite dget_dset'. cbn [key_eqb String.eqb Ascii.eqb Bool.eqb]. destruct (dget "control_behavior" kw); [|exact C].
      apply bind_ok in C as (a & M & C). now rewrite (cb_make_name _ _ (VStr n) _ _ _ M). }
    rewrite C'. cbn [bind]. apply bind_ok in H as (ats & -> & H). cbn [bind]. destruct (drop_keys _ _); [eauto|discriminate].
Qed.
