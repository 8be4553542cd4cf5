(** * Proofs of C70. *)
From Coq Require Import Lia.
From Verif Require Import Py Num NumFacts Util UtilFacts SpecUtil SpecRound SpecArith Classes Mixins Entity Setters World SpecWorld WorldFacts SpecDoc SpecEntity SpecAttr SpecValues SpecSetting SpecBehaviour SpecMake SpecWrite SpecExport DictFacts ChainFacts EntProofs CbProofs LayerProofs.
From Verif Require SetFacts DocProofs AttrProofs RenameProofs RotateProofs SettingProofs BehaviourProofs MakeProofs EntTrip ValuesProofs.
Import RenameProofs(stem, ent_json_eq, chain_step, written) DocProofs(dget_dset') MakeProofs(doubles_dget).
Open Scope string_scope. Open Scope Z_scope. Open Scope list_scope.

(** ** The entity that is made *)
Definition same_all (e e1 : entity) : Prop := AttrProofs.same_inside e e1 /\ e_name e1 = e_name e /\ e_pos e1 = e_pos e /\ e_dir e1 = e_dir e.
Definition kept p n e (w : world) : Prop := w_protos w = p /\ exists e1, ent w n = Some e1 /\ same_all e e1.
Lemma kept_upd p n e i f w : (forall x, same_all x (f x)) -> kept p n e w -> kept p n e (upd_ent i f w).
Proof.
  intros F (P & e1 & H & S1). split; [exact P|]. rewrite ent_upd. destruct (Nat.eqb i n); [|eauto]. rewrite H. exists (f e1). split; [reflexivity|].
  destruct (F e1) as ((F1 & F2 & F3 & F4) & F5 & F6 & F7), S1 as ((A1 & A2 & A3 & A4) & A5 & A6 & A7). repeat split; congruence.
Qed.
Lemma kept_reindex p n e l : forall i w, kept p n e w -> kept p n e (reindex i l w).
Proof. induction l as [|o l IH]; intros i w H; [exact H|]. cbn [reindex]. apply IH. apply kept_upd; [|exact H]. intros x. repeat split. Qed.
Lemma kept_add p n e b i w : kept p n e w -> kept p n e (fst (layer_add b (OEnt i) w)).
Proof.
  intros H. unfold layer_add, mbind, get_ent, get_bp, gets, modify. destruct (ent w i); [|exact H]. destruct (blu w b); [|exact H].
  destruct (negb _ && negb _); [exact H|]. destruct (mem_nat _ _); [exact H|]. cbn. unfold sort_layer, mbind, get_bp, gets, modify. destruct (blu _ b); [|apply kept_upd; [repeat split|exact H]].
  destruct (sorted_objs _ _); [|apply kept_upd; [repeat split|exact H]]. cbn. apply kept_reindex. change (kept p n e (upd_ent i (with_layer (Some b)) w)). apply kept_upd; [repeat split|exact H].
Qed.
Lemma made_kept mk w kw : creating mk -> snd (step (mk kw) w) = Ok tt ->
  exists cust layer e, snd (construct (w_protos w) cust layer kw) = Ok e /\ kept (w_protos w) (length (w_ents w)) e (fst (step (mk kw) w)) /\
  (forall ty : string, uncustomised mk w ty -> dget (KS ty) cust = None).
Proof.
  intros C H. set (n := length (w_ents w)).
  assert (HN : forall e, kept (w_protos w) n e (new_ent e w)).
  { intros e. split; [reflexivity|]. exists e. split; [|repeat split]. unfold ent, new_ent. cbn. subst n. rewrite nth_error_app2 by auto. now rewrite Nat.sub_diag. }
  destruct C as [(b & ->)|([b|] & ->)].
  - cbn [step] in *. unfold layer_make, new_entity, mbind, get_bp, gets, ret in *. destruct (blu w b) as [x|] eqn:B; [|discriminate]. cbn [fst snd] in *.
    destruct (snd (construct (w_protos w) (b_custom x) (Some b) kw)) as [e|] eqn:CE; [|discriminate].
    exists (b_custom x), (Some b), e. split; [exact CE|].
    destruct (layer_add b (OEnt (length (w_ents w))) (new_ent e w)) as [w1 [[]|]] eqn:LA; [|discriminate].
    split; [pose proof (kept_add (w_protos w) n e b n (new_ent e w) (HN e)) as K; fold n in LA; rewrite LA in K; exact K|].
    intros ty U; exact (U b x [] (or_introl eq_refl) B).
  - cbn [step] in *. unfold new_entity, mbind, get_bp, gets, ret in *. destruct (blu w b) as [x|] eqn:B; [|discriminate]. cbn [fst snd] in *.
    destruct (snd (construct (w_protos w) (b_custom x) (Some b) kw)) as [e|] eqn:CE; [|discriminate].
    exists (b_custom x), (Some b), e. split; [exact CE|]. split; [apply HN|]. intros ty U; exact (U b x [] (or_intror eq_refl) B).
  - cbn [step] in *. unfold new_entity, mbind, ret in *. cbn [fst snd] in *.
    destruct (snd (construct (w_protos w) [] None kw)) as [e|] eqn:CE; [|discriminate].
    exists [], None, e. split; [exact CE|]. split; [apply HN|]. reflexivity.
Qed.

(** everything that is known about it *)
Definition base (num : val) (s : string) (pos : vec) (cs : dict) : dict :=
  let o := [(KS "entity_number", num); (KS "name", VStr s); (KS "position", vec_to_json pos)] in match cs with [] => o | _ => dset "connections" (VDict cs) o end.
Record shape (p : protos) (kw : dict) (s ty : string) (d : dict) (pos : vec) (dir : direction) (cb : option cbobj) (ats : list dict) (o : dict) : Prop := mkShape {
  sp_pos : vec_of_val (dsc kw "position") = Ok (Some pos);
  sp_dir : dir_of_val (odflt (VInt 0) (dget "direction" kw)) = Ok dir;
  sp_cb : cb_part p (VStr s) (cls_of ty) kw = Ok cb;
  sp_ats : mapM (fun c => mats p true (statics (cls_of ty)) c (drop_keys entity_keys kw)) (mids ty) = Ok ats;
  sp_chain : exists num cs, json_chain p dir (statics (cls_of ty)) None (mids ty ++ [CBaseMixin; CBase; CObject]) (putall (concat ats) [])
    (base num s pos cs) = Ok o;
  sp_doc : match cb with None => d = o | Some cb => exists v, cb_json p (statics (cls_of ty)) cb = Ok v /\ d = obj_set o "control_behavior" v end }.
Lemma base_other num s pos cs f : ~ In f ["entity_number"; "name"; "position"; "connections"] -> dget (KS f) (base num s pos cs) = None.
Proof.
  intros N. assert (E : forall k, In k ["entity_number"; "name"; "position"; "connections"] -> key_eqb (KS f) (KS k) = false) by (intros k I; apply key_eqb_neq; intros [= ->]; contradiction).
  assert (B : dget (KS f) [(KS "entity_number", num); (KS "name", VStr s); (KS "position", vec_to_json pos)] = None).
  { unfold dget. rewrite !E by (clear; cbn; tauto). reflexivity. }
  unfold base. cbn zeta. destruct cs; [exact B|]. rewrite dget_dset', B, E by (clear; cbn; tauto). reflexivity.
Qed.
Lemma shaped mk w kw s ty own cbk d : exported mk w kw s ty own cbk d -> exists pos dir cb ats o, shape (w_protos w) kw s ty d pos dir cb ats o.
Proof.
  intros [MK CU T F _ M J]. destruct (made_kept _ _ _ MK M) as (cust & layer & e & C & (P & e1 & E1 & (I1 & I2 & I3 & I4) & I5 & I6 & I7) & U). specialize (U ty CU).
  rewrite (construct_typed _ _ _ _ _ _ _ _ T U F) in C.
  destruct (vec_of_val (dsc kw "position")) as [pos|] eqn:VP; [|discriminate]. cbn [bind] in C. destruct (dir_of_val _) as [dir|] eqn:DI; [|discriminate]. cbn [bind] in C.
  destruct (cb_part _ _ _ _) as [cb|] eqn:CB; [|discriminate]. cbn [bind] in C. destruct (mapM _ (mids ty)) as [ats|] eqn:MA; [|discriminate]. cbn [bind] in C.
  destruct (drop_keys _ (drop_keys _ kw)); [|discriminate]. injection C as <-. cbn [e_strict e_cls e_at e_cb e_name e_pos e_dir] in *.
  destruct (format_shape _ _ _ F) as [_ CH _ NB _ _].
  rewrite ent_json_eq, E1, I6 in J. destruct pos as [pos|]; [|discriminate].
  pose proof (RenameProofs.protos_connections_json (length (w_ents w)) (fst (step (mk kw) w))) as P'.
  destruct (connections_to_json (length (w_ents w)) (fst (step (mk kw) w))) as [w1 [cs|z]]; cbn [fst snd] in *; [|discriminate].
  rewrite P', P, I2, I3, I4, I7, CH, (BehaviourProofs.json_chain_cb _ _ _ cb) in J by auto.
  destruct (json_chain _ _ _ None _ _ _) as [o|] eqn:JO; [|discriminate]. cbn [bind] in J. unfold stem in JO. rewrite I5 in JO.
  exists pos, dir, cb, ats, o. constructor; auto.
  - exists (e_auto e1), cs. exact JO.
  - destruct cb as [cb|]; [|now injection J as <-]. destruct (cb_json _ _ cb) as [v|]; [|discriminate]. injection J as <-. eauto.
Qed.

(** ** Keys *)
Lemma rot_only p dir c a u : written p dir c a = Ok u -> c <> CRotatable -> dget "direction" u = None.
Proof.
  intros W N. destruct (dget "direction" u) eqn:E; [exfalso|reflexivity].
  destruct (AttrProofs.written_keys p dir c a u "direction" W) as [_|(s & [= <-] & J)]; [congruence| |destruct c; cbn in J; intuition discriminate].
  unfold written in W. revert W E. clear -N.
  assert (B : forall (u : dict) s v, s <> "direction" -> dget "direction" u = None -> dget "direction" (dset (KS s) v u) = None).
  { intros u0 s x NS H. rewrite dget_dset'. destruct (key_eqb "direction" (KS s)) eqn:K; auto. apply key_eqb_eq in K. congruence. }
  assert (B' : forall (u : dict) s v, s <> "direction" -> dget "direction" u = None -> dget "direction" (obj_set u s v) = None).
  { intros u0 s x NS H. destruct x; cbn [obj_set]; auto. }
  intros W E. enough (X : dget "direction" u = None) by congruence. revert W. clear E.
  destruct c; try congruence; cbn [json_mixin]; intros W;
    repeat (match type of W with
    | context [let! _ := ?r in _] => destruct r as [?|?]; cbn [bind] in W; try discriminate
    | context [if ?b then _ else _] => destruct b; cbn [bind] in W
    | context [match ?v with VDict _ => _ | _ => _ end] => destruct v; cbn [bind] in W; try discriminate
    | context [match ?d with [] => _ | _ :: _ => _ end] => destruct d; cbn [bind] in W; try discriminate
    end); apply AttrProofs.ok_inj in W; subst u; repeat first [apply B'; [discriminate|] | apply B; [discriminate|]]; reflexivity.
Qed.
Lemma chain_keeps p dir cls a t (k : key) l : ~ In CBaseMixin l -> k <> "direction" -> (forall s, k = KS s -> ~ In s (flat_map mkeys l)) ->
  forall o o', json_chain p dir cls None (l ++ CBaseMixin :: t) a o = Ok o' -> dget k o' = dget k o.
Proof.
  induction l as [|c l IH]; intros NB ND NK o o' H; cbn [app] in H; [cbn in H; congruence|]. rewrite chain_step in H by (intros ->; apply NB; now left).
  pose proof (RenameProofs.link_written p dir c a o) as L. destruct (written p dir c a) as [u|] eqn:W; [|rewrite L in H; discriminate]. destruct L as (o1 & L & OV). rewrite L in H. cbn [bind] in H.
  rewrite (IH (fun J => NB (or_intror J)) ND (fun s E J => NK s E (in_or_app _ _ _ (or_intror J))) _ _ H). rewrite OV. destruct (dget k u) eqn:E; [exfalso|reflexivity].
  destruct (AttrProofs.written_keys p dir c a u k W) as [X|(f & X & J)]; [congruence|contradiction|]. apply (NK f X). cbn [flat_map]. apply in_or_app. now left.
Qed.
Lemma chain_direction p dir cls a t l : ~ In CBaseMixin l ->
  forall o o', json_chain p dir cls None (l ++ CBaseMixin :: t) a o = Ok o' -> dget "direction" o = None \/ dget "direction" o = Some (VInt dir) /\ dir <> 0 ->
  dget "direction" o' = (if in_dec scls_eq_dec CRotatable l then if dir =? 0 then dget "direction" o else Some (VInt dir) else dget "direction" o).
Proof.
  induction l as [|c l IH]; intros NB o o' H Z; cbn [app] in H; [cbn in H |- *; congruence|]. rewrite chain_step in H by (intros ->; apply NB; now left).
  pose proof (RenameProofs.link_written p dir c a o) as L. destruct (written p dir c a) as [u|] eqn:W; [|rewrite L in H; discriminate]. destruct L as (o1 & L & OV). rewrite L in H. cbn [bind] in H.
  pose proof (OV "direction") as OD.
  destruct (scls_eq_dec c CRotatable) as [->|NR].
  - unfold written in W. cbn [json_mixin] in W. apply AttrProofs.ok_inj in W.
    assert (OE : dget "direction" o1 = if dir =? 0 then dget "direction" o else Some (VInt dir)) by (rewrite OD; subst u; destruct (dir =? 0); reflexivity).
    rewrite (IH (fun J => NB (or_intror J)) _ _ H); rewrite OE.
    + destruct (in_dec scls_eq_dec CRotatable (CRotatable :: l)) as [_|X]; [|elim X; now left]. destruct (in_dec _ _ l); destruct (dir =? 0); reflexivity.
    + destruct (Z.eqb_spec dir 0); [exact Z|now right].
  - rewrite (rot_only _ _ _ _ _ W NR) in OD. rewrite (IH (fun J => NB (or_intror J)) _ _ H); rewrite OD; [|exact Z].
    destruct (in_dec scls_eq_dec CRotatable l) as [X|X], (in_dec scls_eq_dec CRotatable (c :: l)) as [Y|Y]; auto; [elim Y; now right|destruct Y; [congruence|contradiction]].
Qed.

(** ** The settings of its own *)
Lemma dset_same_get (kw : dict) (k s : key) v : dget k kw = Some v -> dget s (dset k v kw) = dget s kw.
Proof. intros H. rewrite dget_dset'. destruct (key_eqb s k) eqn:E; [|reflexivity]. apply key_eqb_eq in E. now subst. Qed.
Definition absent (k : mattr) : val := match k with AFromBuffers => VBool false | _ => VNone end.
Lemma mats_absent p s cls k c kw m : keyword_of k = Some c -> dget (KS (attr_name k)) kw = None -> mats p s cls c kw = Ok m ->
  mats p s cls c (dset (attr_name k) (absent k) kw) = Ok m.
Proof.
  intros K N H. rewrite <- H. unfold mats in *.
  destruct k; try discriminate K; injection K as <-; cbn [attr_name absent] in *; cbn [init_mixin] in *; unfold kwv, consume in *; cbn [i_kw i_args i_at] in *;
    try (rewrite N in H; discriminate); clear H; rewrite !dget_dset'; cbn [key_eqb String.eqb Ascii.eqb Bool.eqb]; rewrite ?N; cbn [odflt]; try reflexivity;
    repeat (match goal with
    | |- context [let! _ := ?r in _] => destruct r as [?|?]; cbn [bind i_at]; try reflexivity
    | |- context [let (_, _) := ?r in _] => destruct r; cbn [bind i_at]; try reflexivity
    | |- context [if ?b then _ else _] => destruct b; cbn [bind i_at]; try reflexivity
    end); try reflexivity.
Qed.
Section Own.
Variables (mk : dict -> op) (w : world) (kw : dict) (s ty : string) (own cbk : list string) (d : dict).
Hypothesis EX : exported mk w kw s ty own cbk d.
Lemma own_get (f : string) : In f own -> dget (KS f) (drop_keys entity_keys kw) = dget (KS f) kw.
Proof.
  intros I. rewrite dget_drop_keys. destruct (named entity_keys (KS f)) eqn:E; [exfalso|reflexivity].
  pose proof (EntTrip.ef_own _ _ (EntTrip.format_efacts _ _ _ (ex_format _ _ _ _ _ _ _ _ EX)) f I) as N. apply N.
  apply named_In in E. unfold entity_keys, general_keys in *. clear -E. cbn in *. tauto.
Qed.
(** the mixin of a key of its own *)
Lemma own_mixin (f : string) c : In f own -> In f (mkeys c) -> In c (mids ty).
Proof.
  intros I K. pose proof (format_shape _ _ _ (ex_format _ _ _ _ _ _ _ _ EX)) as SH. apply (sh_own _ _ SH) in I. apply in_flat_map in I as (c' & IC & IK).
  enough (c = c') by congruence. clear -K IK. destruct c; cbn in K; try contradiction; destruct c'; cbn in IK; try contradiction; try reflexivity; exfalso; intuition congruence.
Qed.
(** one key of its own, as the mixin writes it *)
Lemma own_written c : In c (mids ty) ->
  exists m, mats (w_protos w) true (statics (cls_of ty)) c (drop_keys entity_keys kw) = Ok m /\
  exists dir u, written (w_protos w) dir c (putall m []) = Ok u /\ forall f, In f (mkeys c) -> dget (KS f) d = dget (KS f) u.
Proof.
  intros IC. destruct (shaped _ _ _ _ _ _ _ _ EX) as (pos & dir & cb & ats & o & [_ _ _ MA (num & cs & JC) DOC]).
  pose proof (format_shape _ _ _ (ex_format _ _ _ _ _ _ _ _ EX)) as SH. destruct SH as [_ CH ND NB _ OWN].
  pose proof (EntTrip.format_efacts _ _ _ (ex_format _ _ _ _ _ _ _ _ EX)) as EF.
  destruct (mats (w_protos w) true (statics (cls_of ty)) c (drop_keys entity_keys kw)) as [m|] eqn:M.
  2:{ exfalso. clear -MA IC M. revert ats MA. induction (mids ty) as [|c0 l IH]; [contradiction|]. intros ats MA. cbn [mapM] in MA. destruct IC as [->|IC]; [now rewrite M in MA|]. destruct (mats _ _ _ c0 _); [|discriminate]. cbn [bind] in MA. destruct (mapM _ l); [|discriminate]. eapply IH; eauto. }
  exists m. split; [reflexivity|]. exists dir.
  assert (WE : written (w_protos w) dir c (putall (concat ats) []) = written (w_protos w) dir c (putall m [])).
  { apply AttrProofs.written_ext. intros f If. rewrite (chain_attr _ _ _ _ _ _ [] _ _ _ MA ND IC M If), putall_get by exact (mats_nodup _ _ _ _ _ _ M). now destruct (dget (KS f) m). }
  assert (X : exists u, written (w_protos w) dir c (putall (concat ats) []) = Ok u).
  { clear -JC IC NB. revert JC NB. generalize (putall (concat ats) []). intros a. generalize (base num s pos cs).
    induction (mids ty) as [|c0 l IH]; [contradiction|]. intros o0 JC NB. cbn [app] in JC. rewrite chain_step in JC by (intros ->; apply NB; now left).
    pose proof (RenameProofs.link_written (w_protos w) dir c0 a o0) as L. destruct (written (w_protos w) dir c0 a) as [u|] eqn:W; [|rewrite L in JC; discriminate]. destruct L as (o1 & L & _). rewrite L in JC. cbn [bind] in JC.
    destruct IC as [->|IC]; [eauto|]. eapply IH; eauto. intros J. apply NB. now right. }
  destruct X as (u & U). exists u. split; [now rewrite <- WE|]. intros f If.
  assert (IO : In f own) by (apply OWN, in_flat_map; eauto).
  pose proof (EntTrip.ef_own _ _ EF f IO) as NG.
  assert (NG' : ~ In f ["entity_number"; "name"; "position"; "connections"; "direction"; "control_behavior"]).
  { clear -NG. unfold general_keys in NG. intros H. apply NG. cbn in *. tauto. }
  destruct (AttrProofs.chain_value _ dir (statics (cls_of ty)) None c f _ _ _ NB ND If (fun E => NG' ltac:(rewrite E; cbn; tauto)) (fun E => NG' ltac:(rewrite E; cbn; tauto)) _ _ JC) as (u' & HU & V).
  specialize (HU IC). rewrite U in HU. injection HU as <-. destruct (in_dec scls_eq_dec c (mids ty)) as [_|]; [|contradiction].
  assert (ST : dget (KS f) (base num s pos cs) = None).
  { apply base_other. intros J. apply NG'. clear -J. cbn in *. tauto. }
  rewrite ST in V. assert (DO : dget (KS f) d = dget (KS f) o).
  { destruct cb as [cb|]; [|congruence]. destruct DOC as (v & _ & ->). destruct v; cbn [obj_set]; try reflexivity; rewrite dget_dset'; (destruct (key_eqb _ _) eqn:E; [|reflexivity]; apply key_eqb_eq in E; injection E as ->; exfalso; apply NG'; cbn; tauto). }
  rewrite DO, V. now destruct (dget (KS f) u).
Qed.
Lemma p_C70_setting k : In (attr_name k) own -> ~ is_part k ->
  setting (p_recipe (w_protos w)) true k (given (attr_name k) VNone kw) (Ok (dget (KS (attr_name k)) d)).
Proof.
  intros I NP. set (p := w_protos w) in *.
  assert (KK : keyword_of k = Some (home k) /\ In (attr_name k) (mkeys (home k)) /\ shown_at k = attr_name k).
  { clear -NP. unfold is_part in NP. destruct k; cbn in *; try tauto. }
  destruct KK as (KK & KM & SA).
  pose proof (own_mixin _ _ I KM) as IC. destruct (own_written _ IC) as (m & M & dir & u & U & V). fold p in M, U.
  set (v := given (attr_name k) (absent k) kw).
  assert (MV : mats p true (statics (cls_of ty)) (home k) (dset (attr_name k) v (drop_keys entity_keys kw)) = Ok m).
  { pose proof (own_get _ I) as G. subst v. unfold given. destruct (dget (KS (attr_name k)) kw) as [v|]; cbn [odflt].
    - rewrite <- M. apply mats_ext. intros f _. now apply dset_same_get.
    - apply mats_absent; auto. }
  assert (DV : doubles v).
  { subst v. unfold given. destruct (dget (KS (attr_name k)) kw) as [v|] eqn:E; cbn [odflt]; [|destruct k; cbn; constructor]. exact (doubles_dget _ _ _ (ex_doubles _ _ _ _ _ _ _ _ EX) E). }
  destruct (SettingProofs.all_settled p true v k DV NP) as (y & DE & AF).
  assert (TH : AttrProofs.there (SetFacts.kept_at k) (putall m [])).
  { intros f If. assert (In f (mattrs (home k))) as J by (clear -If; destruct k; cbn in *; tauto).
    destruct (proj2 (mats_attrs _ _ _ _ _ _ M (KS f)) (ex_intro _ f (conj eq_refl J))) as (x & Ix). unfold dmem. rewrite putall_get by exact (mats_nodup _ _ _ _ _ _ M).
    rewrite (in_dget _ _ _ (mats_nodup _ _ _ _ _ _ M) Ix). reflexivity. }
  destruct (AttrProofs.link_sets p true (statics (cls_of ty)) k (home k) v _ m KK M) as [(x & _ & X)|(ws & m' & (_ & W) & X & PU)]; rewrite MV in X; [discriminate|]. injection X as <-.
  specialize (W _ TH). rewrite <- PU in W. destruct y as [r|x].
  - destruct (AF (putall m [])) as (_ & A). rewrite W in A. cbn [fst] in A. rewrite SA in A. rewrite (V _ KM), (A _ _ _ U).
    destruct DE as (_ & DE). specialize (DE ltac:(discriminate)). subst v. unfold SettingProofs.spec in DE. unfold given in *. destruct (dget (KS (attr_name k)) kw); cbn [odflt] in *; [exact DE|].
    destruct k; try exact DE. cbn [absent setting] in DE |- *. destruct DE as [(_ & E)|(NF & _)]; [left; split; [left; cbn; tauto|exact E]|elim NF; left; cbn; tauto].
  - specialize (AF (putall m [])). rewrite W in AF. discriminate.
Qed.
End Own.

(** ** The frame: name, position, direction and no other keys *)
Section Frame.
Variables (mk : dict -> op) (w : world) (kw : dict) (s ty : string) (own cbk : list string) (d : dict).
Hypothesis EX : exported mk w kw s ty own cbk d.
Lemma cb_set_other (o d0 : dict) (k : key) (cb : option cbobj) : k <> "control_behavior" ->
  match cb with None => d0 = o | Some cb => exists v, cb_json (w_protos w) (statics (cls_of ty)) cb = Ok v /\ d0 = obj_set o "control_behavior" v end -> dget k d0 = dget k o.
Proof.
  intros N H. destruct cb as [cb|]; [|congruence]. destruct H as (v & _ & ->). destruct v; cbn [obj_set]; try reflexivity; rewrite dget_dset'; (destruct (key_eqb k "control_behavior") eqn:E; [|reflexivity]; apply key_eqb_eq in E; contradiction).
Qed.
Lemma own_mkeys f : In f own <-> In f (flat_map mkeys (mids ty)).
Proof. exact (sh_own _ _ (format_shape _ _ _ (ex_format _ _ _ _ _ _ _ _ EX)) f). Qed.
Lemma general_not_own f : In f general_keys -> ~ In f own.
Proof. intros G O. apply (EntTrip.ef_own _ _ (EntTrip.format_efacts _ _ _ (ex_format _ _ _ _ _ _ _ _ EX)) f O). now right. Qed.
Lemma general_value (f : string) : In f ["entity_number"; "name"; "position"; "connections"] -> exists pos num cs, vec_of_val (dsc kw "position") = Ok (Some pos) /\ dget (KS f) d = dget (KS f) (base num s pos cs).
Proof.
  intros I. destruct (shaped _ _ _ _ _ _ _ _ EX) as (pos & dir & cb & ats & o & [PO _ _ _ (num & cs & JC) DOC]).
  destruct (format_shape _ _ _ (ex_format _ _ _ _ _ _ _ _ EX)) as [_ _ _ NB _ _].
  exists pos, num, cs. split; [exact PO|]. rewrite (cb_set_other o d (KS f) cb) by (auto; intros [= ->]; revert I; clear; cbn; intuition discriminate).
  apply (chain_keeps _ dir (statics (cls_of ty)) (putall (concat ats) []) [CBase; CObject] (KS f) (mids ty) NB) with (3 := JC).
  - intros [= ->]. revert I. clear. cbn. intuition discriminate.
  - intros f' [= <-] J. apply own_mkeys in J. revert J. apply general_not_own. revert I. clear. cbn. tauto.
Qed.
Lemma base_get num pos cs : dget "name" (base num s pos cs) = Some (VStr s) /\ dget "position" (base num s pos cs) = Some (vec_to_json pos).
Proof. unfold base. cbn zeta. destruct cs; [split; reflexivity|]. rewrite !dget_dset'. split; reflexivity. Qed.
Lemma p_C70_name : dget "name" d = Some (VStr s).
Proof. destruct (general_value "name") as (pos & num & cs & _ & ->); [cbn; tauto|]. apply base_get. Qed.
Lemma p_C70_position : place (given "position" VNone kw) (Ok (dget "position" d)).
Proof.
  destruct (general_value "position") as (pos & num & cs & P & ->); [cbn; tauto|]. rewrite (proj2 (base_get _ _ _)). change (dsc kw "position") with (given "position" VNone kw) in P.
  destruct (given "position" VNone kw) as [| | | | | |dd]; try discriminate. cbn [vec_of_val] in P.
  destruct (dget "x" dd) as [x|] eqn:X; [|discriminate]. destruct (dget "y" dd) as [y|] eqn:Y; [|discriminate].
  destruct x as [| |zx|fx| | |]; try discriminate; destruct y as [| |zy|fy| | |]; try discriminate; cbn in P; injection P as <-.
  - now apply (pl_ok dd (NI zx) (NI zy)).
  - now apply (pl_ok dd (NI zx) (NF fy)).
  - now apply (pl_ok dd (NF fx) (NI zy)).
  - now apply (pl_ok dd (NF fx) (NF fy)).
Qed.
Lemma p_C70_direction : exists z, faces (given "direction" (VInt 0) kw) z /\ shown_direction ty z (dget "direction" d).
Proof.
  destruct (shaped _ _ _ _ _ _ _ _ EX) as (pos & dir & cb & ats & o & [_ DI _ _ (num & cs & JC) DOC]).
  destruct (format_shape _ _ _ (ex_format _ _ _ _ _ _ _ _ EX)) as [_ _ _ NB _ _]. pose proof (EntTrip.ef_rot _ _ (EntTrip.format_efacts _ _ _ (ex_format _ _ _ _ _ _ _ _ EX))) as RT.
  exists dir. split.
  - change (odflt (VInt 0) (dget "direction" kw)) with (given "direction" (VInt 0) kw) in DI.
    assert (DB : doubles (given "direction" (VInt 0) kw)).
    { unfold given. destruct (dget (KS "direction") kw) as [v|] eqn:E; cbn [odflt]; [|constructor]. exact (doubles_dget _ _ _ (ex_doubles _ _ _ _ _ _ _ _ EX) E). }
    destruct (given "direction" (VInt 0) kw) as [|b|z|f| | |]; try discriminate.
    + injection DI as <-. replace (dir_new (if b then 1 else 0)) with (if b then 1 else 0) by (destruct b; reflexivity). constructor.
    + injection DI as <-. constructor.
    + inversion DB; subst. assert (FD : finite f \/ ~ finite f) by (clear; destruct f; cbn; auto). destruct FD as [F|F].
      * destruct (ValuesProofs.p_C65_float f) as (m & N & E); auto. rewrite E in DI. injection DI as <-. now constructor.
      * rewrite (ValuesProofs.p_C65_float_bad f F) in DI. discriminate.
  - rewrite (cb_set_other o d "direction" cb) by (auto; discriminate).
    assert (B : dget "direction" (base num s pos cs) = None) by (apply base_other; clear; cbn; intuition discriminate).
    rewrite (chain_direction _ _ _ _ _ _ NB _ _ JC (or_introl B)), B. unfold shown_direction.
    destruct (in_dec scls_eq_dec CRotatable (mids ty)) as [J|J].
    + apply RT in J. destruct (Z.eqb_spec dir 0); [right; split; [clear -e; intros [_ N]; contradiction|reflexivity]|left; auto].
    + right. split; [|reflexivity]. intros [T _]. apply J, RT, T.
Qed.
Lemma p_C70_keys (k : key) : dget k d <> None -> exists f, k = KS f /\ (In f ["entity_number"; "name"; "position"; "direction"; "connections"; "control_behavior"] \/ In f own).
Proof.
  intros H. destruct (shaped _ _ _ _ _ _ _ _ EX) as (pos & dir & cb & ats & o & [_ _ _ _ (num & cs & JC) DOC]).
  destruct (format_shape _ _ _ (ex_format _ _ _ _ _ _ _ _ EX)) as [_ _ _ NB _ _].
  destruct (key_eqb k "control_behavior") eqn:E; [apply key_eqb_eq in E; exists "control_behavior"; split; [exact E|left; clear; cbn; tauto]|]. apply key_eqb_neq in E.
  destruct (key_eqb k "direction") eqn:E2; [apply key_eqb_eq in E2; exists "direction"; split; [exact E2|left; clear; cbn; tauto]|]. apply key_eqb_neq in E2.
  rewrite (cb_set_other o d k cb E DOC) in H.
  assert (Q : (exists f, k = KS f /\ In f own) \/ forall f, k = KS f -> ~ In f (flat_map mkeys (mids ty))).
  { destruct k as [f|]; [|right; discriminate]. destruct (in_dec string_dec f own) as [J|J]; [left; eauto|right]. intros f' [= <-] J'. now apply J, own_mkeys. }
  destruct Q as [(f & -> & J)|Q]; [eauto|]. rewrite (chain_keeps _ _ _ _ _ k _ NB E2 Q _ _ JC) in H. clear -H.
  assert (X : In k (map KS ["entity_number"; "name"; "position"; "connections"])).
  { destruct k as [f|z].
    - apply in_map. destruct (in_dec string_dec f ["entity_number"; "name"; "position"; "connections"]) as [J|J]; [exact J|]. elim H. now apply base_other.
    - elim H. unfold base. cbn zeta. destruct cs; [reflexivity|]. rewrite dget_dset'. reflexivity. }
  apply in_map_iff in X as (f & <- & X). exists f. split; [reflexivity|left; revert X; clear; cbn; tauto].
Qed.
Lemma p_C70_no_behaviour : dget "control_behavior" kw = None -> dget "control_behavior" d = None.
Proof.
  intros N. destruct (shaped _ _ _ _ _ _ _ _ EX) as (pos & dir & cb & ats & o & [_ _ CB _ (num & cs & JC) DOC]).
  destruct (format_shape _ _ _ (ex_format _ _ _ _ _ _ _ _ EX)) as [_ _ _ NB _ _]. unfold cb_part in CB. rewrite N in CB. injection CB as <-. rewrite DOC.
  rewrite (chain_keeps _ _ _ _ _ "control_behavior" _ NB ltac:(discriminate) ltac:(intros f [= <-] J; apply own_mkeys in J; revert J; apply general_not_own; clear; cbn; tauto) _ _ JC).
  apply base_other. clear. cbn. intuition discriminate.
Qed.
End Frame.

(** ** Items and filters *)
Lemma filter_made p fc v f : filter_new p (Some fc) v = Ok f -> exists fd x, keywords (MakeProofs.fallowed fc) v (Ok fd) /\ signal_taken (p_signal p) (given (MakeProofs.fsignal fc) VNone fd) (Ok x) /\
  f = match fc with FSignal => VDict [(KS "signal", x); (KS "count", given "count" VNone fd); (KS "index", given "index" VNone fd)] | FName => VDict [(KS "name", x); (KS "index", given "index" VNone fd)] end.
Proof.
  intros T. unfold filter_new in T. destruct v as [| | | | | |d]; try discriminate. cbn [as_kwargs] in T. destruct (all_KS d) eqn:A; [|discriminate]. cbn [bind] in T.
  destruct (dmem "self" d) eqn:S; [discriminate|]. exists d.
  pose proof (proj2 (MakeProofs.d_keywords (MakeProofs.fallowed fc) (VDict d))) as K. cbv beta iota in K. rewrite MakeProofs.forall_named in K.
  destruct fc; cbn [MakeProofs.fsignal MakeProofs.fallowed] in *; unfold drop_keys in K; cbn [fold_left] in K; (destruct (signal_set p _) as [x|] eqn:SS; [|discriminate]); cbn [bind] in T; exists x;
    (destruct (ddel "index" _); [|discriminate]); injection T as <-; (split; [apply K; discriminate|]); (split; [|reflexivity]);
    rewrite <- SS; apply (proj2 (BehaviourProofs.d_signal p _)); unfold given, dsc in *; rewrite SS; discriminate.
Qed.
Lemma mapM_Forall2 {A B} (f : A -> res B) l : forall r, mapM f l = Ok r -> Forall2 (fun a b => f a = Ok b) l r.
Proof. induction l as [|a l IH]; intros r H; cbn in H; [injection H as <-; constructor|]. destruct (f a) eqn:E; [|discriminate]. cbn [bind] in H. destruct (mapM f l) eqn:M; [|discriminate]. injection H as <-. constructor; auto. Qed.
Lemma Forall2_comp {A B C} (P : A -> B -> Prop) (Q : B -> C -> Prop) (R : A -> C -> Prop) l m : Forall2 P l m -> (forall a b c, P a b -> Q b c -> R a c) -> forall n, Forall2 Q m n -> Forall2 R l n.
Proof. intros H S. induction H; intros n K; inversion K; subst; constructor; eauto. Qed.
Lemma named_shown p v f j : filter_new p (Some FName) v = Ok f -> filter_json p f = Ok j -> named_filter (p_signal p) v j.
Proof. intros H J. destruct (filter_made _ _ _ _ H) as (fd & x & K & S & ->). exists fd, x. split; [exact K|]. split; [exact S|]. now injection J as <-. Qed.
Lemma signal_shown p v f j : filter_new p (Some FSignal) v = Ok f -> filter_json p f = Ok j -> signal_filter (p_signal p) v j.
Proof.
  intros H J. destruct (filter_made _ _ _ _ H) as (fd & x & K & S & ->). cbn in J. unfold dsc in J. cbn [dget key_eqb String.eqb Ascii.eqb Bool.eqb odflt] in J.
  destruct x as [| | | |x| |]; try discriminate. destruct (signal_json p (VStr x)) as [sj|] eqn:E; [|discriminate]. injection J as <-.
  exists fd, x, sj. split; [exact K|]. split; [exact S|]. split; [|reflexivity]. rewrite <- E. apply (proj2 (BehaviourProofs.d_doc p x)). rewrite E. discriminate.
Qed.
Section Things.
Variables (mk : dict -> op) (w : world) (kw : dict) (s ty : string) (own cbk : list string) (d : dict).
Hypothesis EX : exported mk w kw s ty own cbk d.
Lemma p_C70_items : In "items" own -> shown_items (given "items" (VDict []) kw) (dget "items" d).
Proof.
  intros I. pose proof (own_mixin _ _ _ _ _ _ _ _ EX _ CItems I (or_introl eq_refl)) as IC. destruct (own_written _ _ _ _ _ _ _ _ EX _ IC) as (m & M & dir & u & U & V).
  rewrite (V "items" (or_introl eq_refl)). clear V. unfold mats in M. cbn [init_mixin i_kw] in M. rewrite (own_get _ _ _ _ _ _ _ _ EX _ I) in M. unfold given. change (KS "items") with (KS "items") in *.
  destruct (odflt (VDict []) (dget "items" kw)) as [| | | | | |it]; try discriminate. destruct (items_check _ it); [|discriminate]. cbn in M. injection M as <-. cbn in U.
  exists it. split; [reflexivity|]. destruct it; injection U as <-; [left|right]; split; try reflexivity; discriminate.
Qed.
Lemma p_C70_filters : In "filters" own -> exists l js, elements_or_none (given "filters" VNone kw) (Ok l) /\ Forall2 (named_filter (p_signal (w_protos w))) l js /\ shown_list js (dget "filters" d).
Proof.
  intros I. pose proof (own_mixin _ _ _ _ _ _ _ _ EX _ CFilterInserter I (or_introl eq_refl)) as IC. destruct (own_written _ _ _ _ _ _ _ _ EX _ IC) as (m & M & dir & u & U & V).
  rewrite (V "filters" (or_introl eq_refl)). clear V. unfold mats in M. cbn [init_mixin] in M. unfold kwv in M. cbn [i_kw] in M. rewrite (own_get _ _ _ _ _ _ _ _ EX _ I) in M.
  rewrite (EntTrip.ef_filter _ _ (EntTrip.format_efacts _ _ _ (ex_format _ _ _ _ _ _ _ _ EX)) IC) in M. fold (given "filters" VNone kw) in M.
  replace (match given "filters" VNone kw with VNone => Ok [] | v => iter_val v end) with (AttrProofs.entries (given "filters" VNone kw)) in M by (destruct (given "filters" VNone kw); reflexivity).
  destruct (AttrProofs.entries _) as [l|] eqn:E; [|discriminate]. cbn [bind] in M. destruct (mapM _ l) as [fs|] eqn:F; [|discriminate]. cbn [bind] in M.
  destruct (negb _); [discriminate|]. injection M as <-. set (m := odflt VNone _) in U.
  assert (EL : elements_or_none (given "filters" VNone kw) (Ok l)) by (rewrite <- E; apply (proj2 (SettingProofs.d_elements_or _)); rewrite E; discriminate).
  apply mapM_Forall2 in F. exists l. unfold written in U. cbn -[mapM filter_json] in U. destruct fs as [|f fs].
  - exists []. split; [exact EL|]. inversion F; subst. split; [constructor|]. left. split; [reflexivity|]. injection U as <-. destruct m; reflexivity.
  - destruct (mapM (filter_json (w_protos w)) (f :: fs)) as [js|] eqn:J; [|discriminate]. pose proof (mapM_Forall2 _ _ _ J) as J2. exists js. split; [exact EL|]. split; [refine (Forall2_comp _ _ _ _ _ F _ _ J2); intros; eapply named_shown; eauto|].
    right. split; [inversion J2; discriminate|]. cbn [bind] in U. injection U as <-. rewrite dget_dset'. reflexivity.
Qed.
End Things.

(** ** Control behaviours, combinators apart *)
Definition control_ok (f : string * (list string * list string)) : bool :=
  let l := controls (fst f) in
  existsb (String.eqb (fst f)) combinators ||
  ((if list_eq_dec scls_eq_dec (cb_chain (cls_of (fst f))) (l ++ [CBaseMixin]) then true else false) && snodup (flat_map cattrs l) && snodup (flat_map ckeys l) &&
   negb (has_cls CBaseMixin l) && negb (has_cls CCombinator l) && negb (has_cls CDecider l) &&
   (if list_eq_dec scls_eq_dec (nodup scls_eq_dec l) l then true else false) && subsetb (flat_map ckeys l) (snd (snd f)) && subsetb (snd (snd f)) (flat_map ckeys l)).
Lemma controls_ok : forallb control_ok formats = true. Proof. vm_compute. reflexivity. Qed.

Record control (ty : string) (cbk : list string) : Prop := mkControl {
  ct_chain : cb_chain (cls_of ty) = controls ty ++ [CBaseMixin];
  ct_attrs : NoDup (flat_map cattrs (controls ty));
  ct_nobase : ~ In CBaseMixin (controls ty);
  ct_nocomb : ~ In CCombinator (controls ty) /\ ~ In CDecider (controls ty);
  ct_nodup : NoDup (controls ty);
  ct_ckeys : NoDup (flat_map ckeys (controls ty));
  ct_keys : forall s, In s cbk <-> In s (flat_map ckeys (controls ty)) }.
Lemma format_control ty own cbk : In (ty, (own, cbk)) formats -> ~ In ty combinators -> control ty cbk.
Proof.
  intros I N. pose proof controls_ok as T. rewrite forallb_forall in T. specialize (T _ I). unfold control_ok in T. cbn [fst snd] in T.
  destruct (existsb (String.eqb ty) combinators) eqn:E.
  { apply existsb_exists in E as (x & J & E). apply String.eqb_eq in E. subst x. contradiction. }
  cbn [orb] in T. repeat (apply andb_prop in T as (T & ?)).
  assert (NEG : forall c, negb (has_cls c (controls ty)) = true -> ~ In c (controls ty)).
  { intros c K J. apply has_cls_in in J. rewrite J in K. discriminate. }
  constructor; auto.
  - destruct (list_eq_dec _ _ _) in T; [assumption|discriminate].
  - now apply snodup_ok.
  - destruct (list_eq_dec _ _ _) as [L|] in H1; [|discriminate]. rewrite <- L. apply NoDup_nodup.
  - now apply snodup_ok.
  - split; intros J; eapply subsetb_ok; eauto.
Qed.
(** what the constructor stores *)
Lemma getdef_dict (d : dict) k v : getdef (VDict d) k v = Ok (given k v d). Proof. reflexivity. Qed.
Lemma cats_stored p cls c cb a k g : cats p cls c cb = Ok a -> In (k, g) (behaviour c) ->
  exists x, BehaviourProofs.stored p g (described c k cb) = Ok x /\ (dget (KS k) a = Some x \/ dget (KS k) a = None /\ x = VNone /\ c = CCircuitCondition).
Proof.
  intros H I. unfold cats in H. destruct (scls_eq_dec c CCircuitCondition) as [->|NC].
  - cbn [cb_simple] in H. unfold ckw in H. cbn [k_kw] in H. cbn [described]. fold (given "circuit_condition" VNone cb) in H.
    destruct (given "circuit_condition" VNone cb) as [| | | | | |cc]; try discriminate.
    + injection H as <-. destruct I as [[= <- <-]|[[= <- <-]|[[= <- <-]|[]]]]; exists VNone; (split; [reflexivity|right; auto]).
    + rewrite !getdef_dict in H. cbn [bind] in H. rewrite ?getdef_dict in H.
      destruct (signal_set p (given "first_signal" VNone cc)) as [f|] eqn:F; [|discriminate]. cbn [bind] in H. rewrite ?getdef_dict in H. cbn [bind] in H. rewrite ?getdef_dict in H. cbn [bind] in H.
      destruct (signal_set p (given "second_signal" (given "constant" VNone cc) cc)) as [s|] eqn:S; [|discriminate]. cbn [bind] in H. rewrite ?getdef_dict in H. cbn [bind] in H.
      destruct (operator_set decider_ops (given "comparator" VNone cc)) as [m|] eqn:M; [|discriminate]. cbn [bind] in H. injection H as <-.
      destruct I as [[= <- <-]|[[= <- <-]|[[= <- <-]|[]]]]; eexists; (split; [eassumption|left; reflexivity]).
  - destruct c; try congruence; cbn [behaviour] in I; try contradiction; cbn [cb_simple] in H; unfold ckw, cconsume in H; cbn [k_kw k_at k_args k_mut] in H;
      repeat (match type of H with context [let! _ := signal_set p ?v in _] => destruct (signal_set p v) eqn:?; cbn [bind] in H; [|discriminate] end);
      apply AttrProofs.ok_inj in H; subst a;
      repeat (destruct I as [[= <- <-]|I]; [eexists; (split; [first [eassumption|reflexivity]|left; reflexivity])|]); contradiction.
Qed.
Lemma concat_get p cls cb l ats c a k : mapM (fun c => cats p cls c cb) l = Ok ats -> NoDup (flat_map cattrs l) -> In c l -> cats p cls c cb = Ok a -> In k (cattrs c) ->
  dget (KS k) (putall (concat ats) []) = dget (KS k) a.
Proof.
  intros M ND I A K. rewrite (concat_attr (g := cattrs) l (fun c a => cats_attrs p cls c cb a) ats [] c a k M ND I A K). now destruct (dget (KS k) a).
Qed.
Lemma made_behaviour p s ty own cbk v a : In (ty, (own, cbk)) formats -> ~ In ty combinators -> cb_make p (VStr s) (cls_of ty) v = Ok a -> exists cb ats, v = VDict cb /\ mapM (fun c => cats p (statics (cls_of ty)) c cb) (controls ty) = Ok ats /\
  forall k : string, k <> "entity" -> dget (KS k) a = dget (KS k) (putall (concat ats) []).
Proof.
  intros F NC M. destruct (cb_make_ok _ _ _ _ _ M) as (cb & -> & A & S & E). exists cb.
  destruct (special ty) eqn:SP.
  - destruct (special_cases _ SP) as [T|[T|T]]; try (elim NC; rewrite T; clear; cbn; tauto).
    assert (M' : cb_make p (VStr s) (cls_of "inserter") (VDict cb) = Ok a) by now rewrite <- T. rewrite (cb_make_inserter _ _ _ A S E), <- T in M'.
    assert (CT : controls ty = [CCircuitCondition; CInserter]) by (rewrite T; reflexivity). rewrite CT.
    destruct (mapM _ _) as [ats|]; [|discriminate]. cbn [bind] in M'. injection M' as <-. exists ats. auto.
  - rewrite (cb_make_plain _ _ _ _ _ _ F SP A S E) in M.
    assert (CT : cmids ty = controls ty) by (unfold cmids; rewrite (ct_chain _ _ (format_control _ _ _ F NC)); apply removelast_last).
    rewrite CT in M. destruct (mapM _ (controls ty)) as [ats|]; [|discriminate]. cbn [bind] in M. destruct (drop_keys _ cb); [|discriminate]. injection M as <-.
    exists ats. split; [reflexivity|]. split; [reflexivity|]. intros k N. rewrite dget_dset'. destruct (key_eqb (KS k) "entity") eqn:K; [|reflexivity]. apply key_eqb_eq in K. congruence.
Qed.
Section Control.
Variables (mk : dict -> op) (w : world) (kw : dict) (s ty : string) (own cbk : list string) (d : dict).
Hypothesis EX : exported mk w kw s ty own cbk d.
Notation p := (w_protos w).
Notation cls := (statics (cls_of ty)).
(** the document of the behaviour *)
Lemma behaviour_doc v : dget "control_behavior" kw = Some v -> exists a u, cb_make p (VStr s) (cls_of ty) v = Ok a /\ cb_json p cls (mkCb (cb_chain (cls_of ty)) a) = Ok u /\ dget "control_behavior" d = shows u.
Proof.
  intros V. destruct (shaped _ _ _ _ _ _ _ _ EX) as (pos & dir & cb & ats & o & [_ _ CB _ (num & cs & JC) DOC]).
  destruct (format_shape _ _ _ (ex_format _ _ _ _ _ _ _ _ EX)) as [_ _ _ NB _ _]. unfold cb_part in CB. rewrite V in CB.
  destruct (cb_make _ _ _ v) as [a|] eqn:M; [|discriminate]. injection CB as <-. destruct DOC as (u & J & E). exists a, u. split; [reflexivity|]. split; [exact J|].
  assert (NC : dget "control_behavior" o = None).
  { rewrite (chain_keeps _ _ _ _ _ "control_behavior" _ NB ltac:(discriminate) ltac:(intros f [= <-] X; apply (own_mkeys _ _ _ _ _ _ _ _ EX) in X; revert X; apply (general_not_own _ _ _ _ _ _ _ _ EX); clear; cbn; tauto) _ _ JC).
    apply base_other. clear. cbn. intuition discriminate. }
  rewrite E. destruct u; cbn [obj_set shows]; try exact NC; rewrite dget_dset'; reflexivity.
Qed.
Lemma under_doc dd q : dget "control_behavior" d = shows (BehaviourProofs.body dd) -> q <> [] -> at_path ("control_behavior" :: q) (VDict d) = at_path q (VDict dd).
Proof.
  intros E NQ. cbn [at_path]. rewrite E. destruct dd; cbn [BehaviourProofs.body shows]; [|reflexivity]. destruct q; [contradiction|reflexivity].
Qed.
Hypothesis NC : ~ In ty combinators.
Lemma behaviour_made v a : cb_make p (VStr s) (cls_of ty) v = Ok a -> exists cb ats, v = VDict cb /\ mapM (fun c => cats p cls c cb) (controls ty) = Ok ats /\
  forall k : string, k <> "entity" -> dget (KS k) a = dget (KS k) (putall (concat ats) []).
Proof. exact (made_behaviour p s ty own cbk v a (ex_format _ _ _ _ _ _ _ _ EX) NC). Qed.
Lemma made_each cb (l : list scls) ats c : mapM (fun c => cats p cls c cb) l = Ok ats -> In c l -> exists m, cats p cls c cb = Ok m.
Proof.
  revert ats. induction l as [|c0 l IH]; intros ats M I; [contradiction|]. cbn [mapM] in M. destruct (cats p cls c0 cb) as [m|] eqn:E; [|discriminate]. cbn [bind] in M. destruct (mapM _ l); [|discriminate].
  destruct I as [->|I]; eauto.
Qed.
Lemma row_attr c k g : In (k, g) (behaviour c) -> In k (cattrs c) /\ k <> "entity".
Proof. intros I. destruct c; cbn [behaviour] in I; try contradiction; cbn [cattrs ckeys]; repeat (destruct I as [[= <- <-]|I]; [split; [clear; cbn; tauto|discriminate]|]); contradiction. Qed.
Lemma flat_once (l : list scls) c c' k : NoDup (flat_map cattrs l) -> In c l -> In c' l -> In k (cattrs c) -> In k (cattrs c') -> c = c'.
Proof.
  induction l as [|c0 l IH]; [contradiction|]. cbn [flat_map]. intros ND I I' K K'.
  destruct (NoDup_app_l _ _ ND) as (_ & ND' & DJ).
  destruct I as [->|I], I' as [<-|I']; auto.
  - elim (DJ k K). apply in_flat_map. eauto.
  - elim (DJ k K'). apply in_flat_map. eauto.
Qed.
Lemma same_doc c k g x a : In c (controls ty) -> In (k, g) (behaviour c) -> (dget (KS k) a = Some x \/ dget (KS k) a = None /\ x = VNone /\ c = CCircuitCondition) ->
  (forall c' g', In c' (controls ty) -> In (k, g') (behaviour c') -> c' = c) ->
  cb_json p cls (mkCb (controls ty ++ [CBaseMixin]) (dset (KS k) x a)) = cb_json p cls (mkCb (controls ty ++ [CBaseMixin]) a).
Proof.
  intros IC I [H|(H & -> & ->)] AL; [now rewrite (dset_same _ _ _ H)|].
  pose proof (format_control _ _ _ (ex_format _ _ _ _ _ _ _ _ EX) NC) as [_ _ NB (N1 & N2) ND _ _].
  unfold cb_json. cbn [cb_cls cb_at]. rewrite !BehaviourProofs.chain_writers by auto. f_equal.
  destruct (BehaviourProofs.chain_split p (controls ty) CCircuitCondition k g VNone a ND IC I AL) as (W1 & W2 & -> & O). apply BehaviourProofs.writes_same.
  intros t J. apply in_app_or in J as [J|[<-|J]]; [apply O, in_or_app; auto| |apply O, in_or_app; auto].
  unfold BehaviourProofs.writer_of. replace (BehaviourProofs.flat g) with false by (destruct I as [[= <- <-]|[[= <- <-]|[[= <- <-]|[]]]]; reflexivity). cbn [snd].
  unfold BehaviourProofs.cond_val. rewrite !BehaviourProofs.dsc_set.
  assert (DN : dsc a k = VNone) by (unfold dsc; now rewrite H).
  destruct I as [[= <- <-]|[[= <- <-]|[[= <- <-]|[]]]]; cbn [String.eqb Ascii.eqb Bool.eqb]; now rewrite DN.
Qed.
Lemma p_C70_behaviour cb c k g : dget "control_behavior" kw = Some (VDict cb) -> In c (controls ty) -> In (k, g) (behaviour c) ->
  exists x fx, taken (p_signal p) g (described c k cb) (Ok x) /\ shown_as (p_signal p) g k x (Ok fx) /\
  forall q o, In (q, o) fx -> at_path ("control_behavior" :: q) (VDict d) = o.
Proof.
  intros V IC I. destruct (behaviour_doc _ V) as (a & u & M & J & D). destruct (behaviour_made _ _ M) as (cb0 & ats & [= <-] & MA & AT).
  pose proof (format_control _ _ _ (ex_format _ _ _ _ _ _ _ _ EX) NC) as [CH NA NB (N1 & N2) ND _ _]. rewrite CH in J.
  destruct (made_each _ _ _ _ MA IC) as (m & MC). destruct (cats_stored _ _ _ _ _ _ _ MC I) as (x & ST & G).
  destruct (row_attr _ _ _ I) as (KA & KE). rewrite <- (concat_get _ _ _ _ _ _ _ _ MA NA IC MC KA), <- (AT k KE) in G.
  assert (AL : forall c' g', In c' (controls ty) -> In (k, g') (behaviour c') -> c' = c).
  { intros c' g' J' I'. eapply flat_once; eauto. now apply row_attr in I'. }
  assert (T : taken (p_signal p) g (described c k cb) (Ok x)). { rewrite <- ST. apply (proj2 (BehaviourProofs.d_taken p g _)). rewrite ST. discriminate. }
  destruct (BehaviourProofs.p_C68_decided (p_signal p) g k _ _ T) as (r & R).
  assert (NDB : NoDup (controls ty ++ [CBaseMixin])).
  { rewrite <- (rev_involutive (controls ty ++ _)), rev_app_distr. apply NoDup_rev. cbn [rev app]. constructor; [now rewrite <- in_rev|now apply NoDup_rev]. }
  assert (ALO : alone (controls ty ++ [CBaseMixin]) c k).
  { split; [|split].
    - intros Y. apply in_app_or in Y as [Y|[Y|[]]]; [contradiction|discriminate].
    - intros Y. apply in_app_or in Y as [Y|[Y|[]]]; [contradiction|discriminate].
    - intros c' g' Y I'. apply in_app_or in Y as [Y|[<-|[]]]; [eauto|destruct I']. }
  destruct (BehaviourProofs.cb_effect p cls (controls ty) c k g a u x r NDB IC I ALO J (ex_intro _ _ ST) R) as (dd & -> & X).
  rewrite (same_doc c k g x a IC I G AL), J in X. destruct r as [fx|y]; [|discriminate]. destruct X as (dd' & X & (HO & _) & _).
  exists x, fx. split; [exact T|]. split; [exact R|]. intros q o Q. rewrite (under_doc dd) by (first [exact D|exact (BehaviourProofs.shown_paths _ _ _ _ _ R q o Q)]).
  replace dd with dd' by (destruct dd, dd'; congruence). now apply HO.
Qed.
(** keys *)
Lemma writer_keys c t : In t (BehaviourProofs.writers p c) -> In (fst t) (ckeys c).
Proof. intros I. destruct c; cbn in I; try contradiction; repeat (destruct I as [<-|I]; [clear; cbn; tauto|]); contradiction. Qed.
Lemma writes_keys W a (key : key) : forall obj o, BehaviourProofs.writes W a obj = Ok o -> dget key o <> None -> dget key obj <> None \/ exists t, In t W /\ key = KS (fst t).
Proof.
  induction W as [|(k, f) W IH]; intros obj o H N; [injection H as <-; auto|]. cbn in H. destruct (f a) as [r|]; [|discriminate]. cbn [bind] in H.
  destruct (IH _ _ H N) as [K|(t & J & E)]; [|right; exists t; split; [now right|exact E]].
  destruct (key_eqb key (KS k)) eqn:E; [apply key_eqb_eq in E; right; exists (k, f); split; [now left|exact E]|]. apply key_eqb_neq in E. rewrite BehaviourProofs.wrote_other in K by exact E. auto.
Qed.
Lemma control_doc a u : cb_json p cls (mkCb (cb_chain (cls_of ty)) a) = Ok u -> exists dd, u = BehaviourProofs.body dd /\ BehaviourProofs.writes (flat_map (BehaviourProofs.writers p) (controls ty)) a [] = Ok dd.
Proof.
  pose proof (format_control _ _ _ (ex_format _ _ _ _ _ _ _ _ EX) NC) as [CH _ NB (N1 & N2) _ _ _]. rewrite CH. unfold cb_json. cbn [cb_cls cb_at]. rewrite BehaviourProofs.chain_writers by auto. intros H.
  destruct (BehaviourProofs.writes _ a []) as [dd|]; [|discriminate]. injection H as <-. exists dd. split; reflexivity.
Qed.
Lemma p_C70_behaviour_keys cb : dget "control_behavior" kw = Some (VDict cb) ->
  exists dd, dget "control_behavior" d = shows (match dd with [] => VNone | _ => VDict dd end) /\ forall k, dget k dd <> None -> exists f, k = KS f /\ In f cbk.
Proof.
  intros V. destruct (behaviour_doc _ V) as (a & u & M & J & D). destruct (control_doc _ _ J) as (dd & -> & W). exists dd. split; [exact D|]. intros k' N.
  destruct (writes_keys _ _ _ _ _ W N) as [X|(t & I & ->)]; [now elim X|]. exists (fst t). split; [reflexivity|].
  apply (ct_keys _ _ (format_control _ _ _ (ex_format _ _ _ _ _ _ _ _ EX) NC)). apply in_flat_map in I as (c & IC & I). apply in_flat_map. exists c. split; [exact IC|]. now apply writer_keys.
Qed.
Lemma one_written c k f a dd : In c (controls ty) -> BehaviourProofs.writers p c = [(k, f)] -> BehaviourProofs.writes (flat_map (BehaviourProofs.writers p) (controls ty)) a [] = Ok dd ->
  exists r, f a = Ok r /\ dget (KS k) dd = r.
Proof.
  pose proof (ct_ckeys _ _ (format_control _ _ _ (ex_format _ _ _ _ _ _ _ _ EX) NC)) as ND. intros IC E W.
  apply in_split in IC as (l1 & l2 & L). rewrite L in *. rewrite flat_map_app in W, ND. cbn [flat_map] in W, ND. rewrite E in W. cbn [app] in W.
  assert (KC : In k (ckeys c)) by (apply (writer_keys c (k, f)); rewrite E; now left).
  destruct (BehaviourProofs.writes_change (flat_map (BehaviourProofs.writers p) l1) (flat_map (BehaviourProofs.writers p) l2) k f a a [] dd) as (r & F & G & _); [|reflexivity|exact W|exists r; auto].
  intros t J. split; [|reflexivity]. intros T. assert (X : In k (flat_map ckeys l1) \/ In k (flat_map ckeys l2)).
  { apply in_app_or in J as [J|J]; [left|right]; apply in_flat_map in J as (c' & J & J'); apply in_flat_map; exists c'; (split; [exact J|]); rewrite <- T; now apply writer_keys. }
  destruct (NoDup_app_l _ _ ND) as (_ & ND2 & D1). destruct X as [X|X].
  - apply (D1 k X). apply in_or_app. now left.
  - destruct (NoDup_app_l _ _ ND2) as (_ & _ & D2). now apply (D2 k KC).
Qed.
Lemma p_C70_signals cb : dget "control_behavior" kw = Some (VDict cb) -> In CFilters (controls ty) ->
  exists l js, elements (given "filters" (VList []) cb) (Ok l) /\ Forall2 (signal_filter (p_signal p)) l js /\ shown_list js (at_path ["control_behavior"; "filters"] (VDict d)).
Proof.
  intros V IC. destruct (behaviour_doc _ V) as (a & u & M & J & D). destruct (control_doc _ _ J) as (dd & -> & W). rewrite (under_doc dd) by (auto; discriminate).
  destruct (behaviour_made _ _ M) as (cb0 & ats & [= <-] & MA & AT). pose proof (ct_attrs _ _ (format_control _ _ _ (ex_format _ _ _ _ _ _ _ _ EX) NC)) as NA.
  destruct (made_each _ _ _ _ MA IC) as (m & MC). pose proof (concat_get _ _ _ _ _ _ _ "filters" MA NA IC MC (or_introl eq_refl)) as G. rewrite <- (AT "filters") in G by discriminate.
  destruct (one_written CFilters "filters" _ a dd IC eq_refl W) as (r & F & R).
  unfold cats in MC. cbn [cb_simple k_kw] in MC. fold (given "filters" (VList []) cb) in MC. destruct (iter_val _) as [l|] eqn:E; [|discriminate]. cbn [bind] in MC.
  assert (FC : filter_cls cls = Some FSignal).
  { destruct (MakeProofs.filters_here _ _ _ (ex_format _ _ _ _ _ _ _ _ EX)) as (X & _). apply X. unfold cmids. rewrite (ct_chain _ _ (format_control _ _ _ (ex_format _ _ _ _ _ _ _ _ EX) NC)), removelast_last. exact IC. }
  rewrite FC in MC. destruct (mapM _ l) as [fs|] eqn:FS; [|discriminate]. injection MC as <-. cbn [dget k_at cconsume key_eqb String.eqb Ascii.eqb Bool.eqb] in G.
  assert (EL : elements (given "filters" (VList []) cb) (Ok l)) by (rewrite <- E; apply (proj2 (SettingProofs.d_elements _)); rewrite E; discriminate).
  apply mapM_Forall2 in FS. exists l. cbn [at_path]. rewrite R. unfold aget in F.
  replace (dget (KS "filters") a) with (Some (VList fs)) in F by (rewrite G; reflexivity). cbn [bind] in F. destruct fs as [|f fs].
  - injection F as <-. exists []. split; [exact EL|]. inversion FS; subst. split; [constructor|]. now left.
  - destruct (mapM (filter_json p) (f :: fs)) as [js|] eqn:JS; [|discriminate]. injection F as <-. apply mapM_Forall2 in JS. exists js. split; [exact EL|].
    split; [refine (Forall2_comp _ _ _ _ _ FS _ _ JS); intros; eapply signal_shown; eauto|]. right. split; [inversion JS; discriminate|reflexivity].
Qed.
Lemma p_C70_parameters cb : dget "control_behavior" kw = Some (VDict cb) -> In CSpeaker (controls ty) ->
  exists q, keywords ["instrument_id"; "note_id"; "signal_value_is_pitch"] (given "circuit_parameters" (VDict []) cb) (Ok q) /\
  at_path ["control_behavior"; "circuit_parameters"] (VDict d) = Some (VDict [(KS "instrument_id", given "instrument_id" VNone q); (KS "note_id", given "note_id" VNone q); (KS "signal_value_is_pitch", given "signal_value_is_pitch" VNone q)]).
Proof.
  intros V IC. destruct (behaviour_doc _ V) as (a & u & M & J & D). destruct (control_doc _ _ J) as (dd & -> & W). rewrite (under_doc dd) by (auto; discriminate).
  destruct (behaviour_made _ _ M) as (cb0 & ats & [= <-] & MA & AT). pose proof (ct_attrs _ _ (format_control _ _ _ (ex_format _ _ _ _ _ _ _ _ EX) NC)) as NA.
  destruct (made_each _ _ _ _ MA IC) as (m & MC). pose proof (concat_get _ _ _ _ _ _ _ "circuit_parameters" MA NA IC MC (or_introl eq_refl)) as G. rewrite <- (AT "circuit_parameters") in G by discriminate.
  destruct (one_written CSpeaker "circuit_parameters" _ a dd IC eq_refl W) as (r & F & R).
  unfold cats in MC. cbn [cb_simple k_kw] in MC. fold (given "circuit_parameters" (VDict []) cb) in MC. destruct (circuit_parameters _) as [q|] eqn:E; [|discriminate]. injection MC as <-. cbn [dget k_at cconsume key_eqb String.eqb Ascii.eqb Bool.eqb] in G.
  cbn [at_path]. rewrite R. unfold aget in F. replace (dget (KS "circuit_parameters") a) with (Some q) in F by (rewrite G; reflexivity). injection F as <-.
  pose proof (proj2 (MakeProofs.d_keywords ["instrument_id"; "note_id"; "signal_value_is_pitch"] (given "circuit_parameters" (VDict []) cb))) as K. cbv beta in K.
  unfold circuit_parameters in E. destruct (given "circuit_parameters" (VDict []) cb) as [| | | | | |kd]; try discriminate. cbn [as_kwargs] in E. destruct (all_KS kd) eqn:A; [|discriminate]. cbn [bind] in E.
  assert (O : ddel "note_id" (ddel "instrument_id" (ddel "signal_value_is_pitch" kd)) = drop_keys ["instrument_id"; "note_id"; "signal_value_is_pitch"] kd).
  { unfold drop_keys. cbn [fold_left]. rewrite (ddel_comm (KS "signal_value_is_pitch") (KS "note_id")). rewrite (ddel_comm (KS "signal_value_is_pitch") (KS "instrument_id")). reflexivity. }
  rewrite MakeProofs.forall_named in K. rewrite O in E. destruct (drop_keys _ kd); [|discriminate]. injection E as <-. exists kd. split; [apply K; discriminate|reflexivity].
Qed.
End Control.

(** ** Combinators *)
Lemma comb_values p c d a : BehaviourProofs.own c -> snd (comb_take p (MakeProofs.chain_of c) (MakeProofs.word c) (MakeProofs.op_of c) d) = Ok a ->
  exists o o' x1 x2 x3, dget (KS (MakeProofs.op_of c)) d = Some o /\ BehaviourProofs.stored_part p c POperator o = Ok o' /\
  bind (MakeProofs.side_val c "first" d) (signal_set p) = Ok x1 /\ bind (MakeProofs.side_val c "second" d) (signal_set p) = Ok x2 /\ bind (MakeProofs.side_val c "output" d) (signal_set p) = Ok x3 /\
  a = [(KS "operator", o'); (KS "first", x1); (KS "second", x2); (KS "output", x3)].
Proof.
  intros O. unfold comb_take. destruct (dget (KS (MakeProofs.op_of c)) d) as [o|] eqn:EO; [|discriminate]. set (d0 := ddel (KS (MakeProofs.op_of c)) d).
  assert (CO : comb_operator (MakeProofs.chain_of c) o = BehaviourProofs.stored_part p c POperator o) by (destruct O as [->| ->]; reflexivity). rewrite CO.
  destruct (BehaviourProofs.stored_part p c POperator o) as [o'|] eqn:OP; [|discriminate].
  assert (X0 : forall s, In s MakeProofs.sides -> dget (KS (constant_key c s)) d0 = dget (KS (constant_key c s)) d /\ dget (KS (MakeProofs.sgn s)) d0 = dget (KS (MakeProofs.sgn s)) d).
  { intros s I. unfold d0. rewrite !dget_ddel_other; [auto|..]; destruct O as [->| ->]; destruct I as [<-|[<-|[<-|[]]]]; cbn; discriminate. }
  pose proof (MakeProofs.take_keeps p c "first" d0) as K1. pose proof (MakeProofs.take_is p c "first" d0 O (or_introl eq_refl)) as T1.
  destruct (take_signal p (MakeProofs.word c) "first" d0) as [d1 r1]. cbn [fst] in K1. injection T1 as _ ->.
  assert (X1 : forall s, In s ["second"; "output"] -> dget (KS (constant_key c s)) d1 = dget (KS (constant_key c s)) d /\ dget (KS (MakeProofs.sgn s)) d1 = dget (KS (MakeProofs.sgn s)) d).
  { intros s I. destruct (X0 s) as [A B]; [cbn in *; intuition|]. rewrite !K1; auto; try (now left); destruct O as [->| ->]; destruct I as [<-|[<-|[]]]; cbn; discriminate. }
  destruct (MakeProofs.side_ext c "first" d d0) as [_ V1]; [apply X0; cbn; auto|apply X0; cbn; auto|]. rewrite V1.
  destruct (bind (MakeProofs.side_val c "first" d) (signal_set p)) as [v1|] eqn:R1; [|discriminate].
  pose proof (MakeProofs.take_keeps p c "second" d1) as K2. pose proof (MakeProofs.take_is p c "second" d1 O (or_intror (or_introl eq_refl))) as T2.
  destruct (take_signal p (MakeProofs.word c) "second" d1) as [d2 r2]. cbn [fst] in K2. injection T2 as _ ->.
  assert (X2 : dget (KS (constant_key c "output")) d2 = dget (KS (constant_key c "output")) d /\ dget (KS (MakeProofs.sgn "output")) d2 = dget (KS (MakeProofs.sgn "output")) d).
  { destruct (X1 "output") as [A B]; [cbn; auto|]. rewrite !K2; auto; try (cbn; now auto); destruct O as [->| ->]; cbn; discriminate. }
  destruct (MakeProofs.side_ext c "second" d d1) as [_ V2]; [apply X1; cbn; auto|apply X1; cbn; auto|]. rewrite V2.
  destruct (bind (MakeProofs.side_val c "second" d) (signal_set p)) as [v2|] eqn:R2; [|discriminate].
  pose proof (MakeProofs.take_is p c "output" d2 O (or_intror (or_intror (or_introl eq_refl)))) as T3.
  destruct (take_signal p (MakeProofs.word c) "output" d2) as [d3 r3]. injection T3 as _ ->.
  destruct (MakeProofs.side_ext c "output" d d2) as [_ V3]; [apply X2|apply X2|]. rewrite V3.
  destruct (bind (MakeProofs.side_val c "output" d) (signal_set p)) as [v3|] eqn:R3; [|discriminate]. cbn [snd]. intros [= <-].
  exists o, o', v1, v2, v3. repeat split; auto.
Qed.
Lemma side_is p c s d x : bind (MakeProofs.side_val c s d) (signal_set p) = Ok x -> side_stored (p_signal p) c s d x.
Proof.
  intros H. unfold MakeProofs.side_val, MakeProofs.lone, MakeProofs.sgn in H.
  assert (ST : forall v, signal_set p v = Ok x -> signal_taken (p_signal p) v (Ok x)).
  { intros v E. rewrite <- E. apply (proj2 (BehaviourProofs.d_signal p v)). rewrite E. discriminate. }
  destruct (dget (KS (constant_key c s)) d) as [v|] eqn:E; cbn [odflt] in H.
  - destruct (is_none v) eqn:N.
    + destruct v; try discriminate. assert (G : given (constant_key c s) VNone d = VNone) by (unfold given; now rewrite E).
      destruct (dget (KS (s ++ "_signal")%string) d) as [g|] eqn:E2; cbn [odflt] in H.
      * destruct (is_none g) eqn:N2; [destruct g; try discriminate; injection H as <-; apply ss_nothing; [exact G|unfold given; now rewrite E2]|].
        assert (H' : bind (getitem g "name") (signal_set p) = Ok x) by (destruct g; try discriminate; exact H). destruct (getitem g "name") as [n|] eqn:GI; [|discriminate].
        apply (ss_signal _ _ _ _ g n); auto; [intros ->; discriminate|]. rewrite <- GI. apply (proj2 (SettingProofs.d_field g "name")). rewrite GI. discriminate.
      * injection H as <-. apply ss_nothing; [exact G|unfold given; now rewrite E2].
    + apply (ss_constant _ _ _ _ v); auto. intros ->. discriminate.
  - cbn [is_none] in H. assert (G : given (constant_key c s) VNone d = VNone) by (unfold given; now rewrite E).
    destruct (dget (KS (s ++ "_signal")%string) d) as [g|] eqn:E2; cbn [odflt] in H.
    + destruct (is_none g) eqn:N2; [destruct g; try discriminate; injection H as <-; apply ss_nothing; [exact G|unfold given; now rewrite E2]|].
      assert (H' : bind (getitem g "name") (signal_set p) = Ok x) by (destruct g; try discriminate; exact H). destruct (getitem g "name") as [n|] eqn:GI; [|discriminate].
      apply (ss_signal _ _ _ _ g n); auto; [intros ->; discriminate|]. rewrite <- GI. apply (proj2 (SettingProofs.d_field g "name")). rewrite GI. discriminate.
    + injection H as <-. apply ss_nothing; [exact G|unfold given; now rewrite E2].
Qed.
Lemma put_is p v x g k : signal_set p v = Ok x -> BehaviourProofs.put_val p x = Ok (g, k) -> side_shown (p_signal p) x g k.
Proof.
  intros S H. pose proof (BehaviourProofs.kept_signal _ _ _ S) as K. destruct K as [->|[(z & ->)|(t & ->)]]; cbn [BehaviourProofs.put_val] in H.
  - injection H as <- <-. constructor.
  - injection H as <- <-. constructor.
  - destruct (signal_json p (VStr t)) as [j|] eqn:J; [|discriminate]. injection H as <- <-. constructor. rewrite <- J. apply (proj2 (BehaviourProofs.d_doc p t)). rewrite J. discriminate.
Qed.
Lemma side_stored_ext t c s d d' x : dget (KS (constant_key c s)) d' = dget (KS (constant_key c s)) d -> dget (KS (s ++ "_signal")%string) d' = dget (KS (s ++ "_signal")%string) d -> side_stored t c s d' x -> side_stored t c s d x.
Proof.
  intros E F H. destruct H as [v x A B C|g n x A B C D G|A B]; unfold given in *; rewrite ?E, ?F in *.
  - eapply ss_constant; eauto.
  - eapply ss_signal; eauto.
  - now apply ss_nothing.
Qed.
Section Combinators.
Variables (mk : dict -> op) (w : world) (kw : dict) (s : string) (own cbk : list string) (d : dict) (c : scls).
Hypothesis EX : exported mk w kw s (combinator_type c) own cbk d.
Hypothesis OC : c = CArithmetic \/ c = CDecider.
Notation p := (w_protos w).
Notation cls := (statics (cls_of (combinator_type c))).
Lemma comb_made v a : cb_make p (VStr s) (cls_of (combinator_type c)) v = Ok a -> exists cb d0 o x1 x2 x3, v = VDict cb /\ dget (KS (fst (fst (SpecBehaviour.conditions c)))) cb = Some (VDict d0) /\
  (exists o0, dget (KS (MakeProofs.op_of c)) d0 = Some o0 /\ BehaviourProofs.stored_part p c POperator o0 = Ok o) /\
  (forall f x, In (f, x) [("first", x1); ("second", x2); ("output", x3)] -> side_stored (p_signal p) c f d0 x /\ (exists v, signal_set p v = Ok x) /\ dget (KS f) a = Some x) /\
  dget "operator" a = Some o /\ dget "entity" a = Some VNone /\ dget "field" a = Some (VStr (fst (fst (SpecBehaviour.conditions c)))) /\
  (c = CDecider -> dget "copy_count_from_input" a = Some (given "copy_count_from_input" (VBool false) d0)).
Proof.
  clear EX. intros M. destruct (cb_make_ok _ _ _ _ _ M) as (cb & -> & A & S & E). exists cb.
  assert (SV : forall d0 f x, bind (MakeProofs.side_val c f d0) (signal_set p) = Ok x -> exists v, signal_set p v = Ok x).
  { intros d0 f x H. destruct (MakeProofs.side_val c f d0); [eauto|discriminate]. }
  destruct OC as [->| ->]; cbn [combinator_type SpecBehaviour.conditions fst] in *.
  - rewrite (cb_make_arith _ _ _ A S E) in M. destruct (dget "arithmetic_conditions" cb) as [cv|] eqn:CV; cbn [odflt] in M; [|discriminate].
    destruct cv as [| | | | | |d0]; try discriminate. pose proof (comb_values p CArithmetic d0) as CT. change (MakeProofs.chain_of CArithmetic) with arith_cbl in CT. change (MakeProofs.word CArithmetic) with "arithmetic" in CT. change (MakeProofs.op_of CArithmetic) with "operation" in *.
    destruct (comb_take p arith_cbl "arithmetic" "operation" d0) as [d' r]. destruct r as [ats|]; [|discriminate]. cbn [bind snd] in *.
    destruct (CT ats (or_introl eq_refl) eq_refl) as (o & o' & x1 & x2 & x3 & O & OP & X1 & X2 & X3 & ->). unfold left_over in M. destruct d'; [|discriminate]. destruct (ddel _ cb); [|discriminate]. injection M as <-.
    exists d0, o', x1, x2, x3. split; [reflexivity|]. split; [reflexivity|]. split; [eauto|]. split.
    { intros f x [[= <- <-]|[[= <- <-]|[[= <- <-]|[]]]]; (split; [now apply side_is|]); (split; [eauto|reflexivity]). }
    repeat split; discriminate.
  - rewrite (cb_make_decid _ _ _ A S E) in M. destruct (dget "decider_conditions" cb) as [cv|] eqn:CV; [|discriminate].
    destruct cv as [| | | | | |d0]; try discriminate. pose proof (comb_values p CDecider (ddel "copy_count_from_input" d0)) as CT. change (MakeProofs.chain_of CDecider) with decid_cbl in CT. change (MakeProofs.word CDecider) with "decider" in CT. change (MakeProofs.op_of CDecider) with "comparator" in *.
    destruct (comb_take p decid_cbl "decider" "comparator" _) as [d' r]. destruct r as [ats|]; [|discriminate]. cbn [bind snd] in *.
    destruct (CT ats (or_intror eq_refl) eq_refl) as (o & o' & x1 & x2 & x3 & O & OP & X1 & X2 & X3 & ->). unfold left_over in M. destruct d'; [|discriminate]. destruct (ddel "decider_conditions" cb); [|discriminate]. injection M as <-.
    rewrite dget_ddel_other in O by discriminate.
    exists d0, o', x1, x2, x3. split; [reflexivity|]. split; [reflexivity|]. split; [eauto|]. split.
    { assert (SX : forall f x, In f MakeProofs.sides -> bind (MakeProofs.side_val CDecider f (ddel "copy_count_from_input" d0)) (signal_set p) = Ok x -> side_stored (p_signal p) CDecider f d0 x).
      { intros f x If H. apply side_is in H. revert H. apply side_stored_ext; apply dget_ddel_other; destruct If as [<-|[<-|[<-|[]]]]; cbn; discriminate. }
      intros f x [[= <- <-]|[[= <- <-]|[[= <- <-]|[]]]]; (split; [apply SX; [clear; cbn; tauto|assumption]|]); (split; [eauto|reflexivity]). }
    repeat split.
Qed.
Lemma p_C70_combinator cb : dget "control_behavior" kw = Some (VDict cb) ->
  exists d0 dd o0 o x1 x2 x3 g1 c1 g2 c2 g3 c3, dget (KS (fst (fst (SpecBehaviour.conditions c)))) cb = Some (VDict d0) /\
  dget (KS (snd (fst (SpecBehaviour.conditions c)))) d0 = Some o0 /\ part_taken (p_signal p) c POperator o0 (Ok o) /\
  side_stored (p_signal p) c "first" d0 x1 /\ side_shown (p_signal p) x1 g1 c1 /\
  side_stored (p_signal p) c "second" d0 x2 /\ side_shown (p_signal p) x2 g2 c2 /\
  side_stored (p_signal p) c "output" d0 x3 /\ side_shown (p_signal p) x3 g3 c3 /\
  dget "control_behavior" d = Some (VDict [(KS (fst (fst (SpecBehaviour.conditions c))), VDict dd)]) /\
  forall k, dget (KS k) dd = conditions_doc c o (given "copy_count_from_input" (VBool false) d0) g1 c1 g2 c2 g3 c3 k.
Proof.
  intros V. destruct (behaviour_doc _ _ _ _ _ _ _ _ EX _ V) as (a & u & M & J & D).
  destruct (comb_made _ _ M) as (cb0 & d0 & o & x1 & x2 & x3 & [= <-] & CV & (o0 & O0 & OP) & SI & GO & GE & GF & GC).
  assert (CH : cb_chain (cls_of (combinator_type c)) = [c; CCombinator; CBaseMixin]) by (destruct OC as [->| ->]; vm_compute; reflexivity). rewrite CH in J.
  assert (CN : comb_names cls = Some (MakeProofs.word c, MakeProofs.op_of c)) by (destruct OC as [->| ->]; vm_compute; reflexivity).
  assert (X : exists ex, BehaviourProofs.extra c a = Ok ex /\ dget "copy_count_from_input" ex = match c with CDecider => Some (given "copy_count_from_input" (VBool false) d0) | _ => None end).
  { destruct OC as [->| ->]; cbn [BehaviourProofs.extra]; [eexists; split; reflexivity|]. unfold aget. rewrite (GC eq_refl). eexists. split; reflexivity. }
  destruct X as (ex & EXT & GX).
  rewrite (BehaviourProofs.comb_eq p cls c a _ _ VNone (fst (fst (SpecBehaviour.conditions c))) o ex OC CN) in J; [|unfold aget; now rewrite GE|unfold aget; now rewrite GF|unfold aget; now rewrite GO|exact EXT].
  destruct (SI "first" x1 (or_introl eq_refl)) as (S1 & (v1 & W1) & G1). destruct (SI "second" x2 (or_intror (or_introl eq_refl))) as (S2 & (v2 & W2) & G2). destruct (SI "output" x3 (or_intror (or_intror (or_introl eq_refl)))) as (S3 & (v3 & W3) & G3).
  unfold dsc in J. rewrite G1, G2, G3 in J. cbn [odflt] in J.
  destruct (BehaviourProofs.put_val p x1) as [[g1 c1]|] eqn:P1; [|discriminate]. cbn [bind] in J. destruct (BehaviourProofs.put_val p x2) as [[g2 c2]|] eqn:P2; [|discriminate]. cbn [bind] in J. destruct (BehaviourProofs.put_val p x3) as [[g3 c3]|] eqn:P3; [|discriminate]. cbn [bind BehaviourProofs.body] in J. injection J as <-.
  exists d0, (dmerge (BehaviourProofs.rows (fst (fst (SpecBehaviour.conditions c))) (MakeProofs.op_of c) o (g1, c1) (g2, c2) (g3, c3)) ex), o0, o, x1, x2, x3, g1, c1, g2, c2, g3, c3.
  split; [exact CV|]. split; [exact O0|]. split. { rewrite <- OP. apply (proj2 (BehaviourProofs.d_part p c POperator o0)). rewrite OP. discriminate. }
  split; [exact S1|]. split; [eapply put_is; eauto|]. split; [exact S2|]. split; [eapply put_is; eauto|]. split; [exact S3|]. split; [eapply put_is; eauto|]. split; [exact D|].
  intros k. rewrite (BehaviourProofs.merge_get c a ex _ k OC EXT). clear -OC GX.
  destruct OC as [->| ->]; unfold conditions_doc, MakeProofs.op_of; cbn [SpecBehaviour.conditions fst snd].
  - rewrite BehaviourProofs.rows_arithmetic. cbn [fst snd].
    repeat match goal with |- context [String.eqb k ?t] => destruct (String.eqb_spec k t) as [->|]; [first [cbn; destruct g1, c1, g2, c2, g3, c3; reflexivity | rewrite GX; reflexivity]|] end. reflexivity.
  - rewrite BehaviourProofs.rows_decider. cbn [fst snd].
    repeat match goal with |- context [String.eqb k ?t] => destruct (String.eqb_spec k t) as [->|]; [first [cbn; destruct g1, c1, g2, c2, g3, c3; reflexivity | rewrite GX; reflexivity]|] end. reflexivity.
Qed.
End Combinators.
