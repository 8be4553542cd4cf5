(** * Entity descriptions: which keys are accepted. *)
From Coq Require Import Lia.
From Verif Require Import Py Num Util Classes Mixins Entity World DictFacts DocProofs SpecDoc SpecEntity ChainFacts.
Open Scope Z_scope.

Definition cls_of (ty : string) : icls :=
  match dget ty type_mixins with
  | Some ms => match add_mixins entity_cls ms with Ok ic => ic | Err _ => entity_cls end
  | None => entity_cls
  end.
Definition mids (ty : string) : list scls := firstn (length (chain (cls_of ty)) - 3) (chain (cls_of ty)).

Definition subsetb (l m : list string) : bool := forallb (fun s => existsb (String.eqb s) m) l.
Lemma subsetb_ok l m : subsetb l m = true -> forall s, In s l -> In s m.
Proof.
  unfold subsetb. intros H s I. rewrite forallb_forall in H. specialize (H s I). apply existsb_exists in H.
  destruct H as (x & IX & E). apply String.eqb_eq in E. now subst.
Qed.
Fixpoint nodupb (l : list scls) : bool := match l with [] => true | c :: r => negb (has_cls c r) && nodupb r end.
Lemma has_cls_in c l : has_cls c l = true <-> In c l.
Proof.
  unfold has_cls. rewrite existsb_exists. split.
  - intros (x & I & E). unfold scls_eqb in E. destruct (scls_eq_dec c x); [now subst|discriminate].
  - intros I. exists c. split; auto. unfold scls_eqb. destruct (scls_eq_dec c c); auto.
Qed.
Lemma nodupb_ok l : nodupb l = true -> NoDup l.
Proof.
  induction l as [|c r IH]; cbn; [constructor|]. intros H. apply andb_prop in H as (A & B). constructor; auto.
  intros I. apply has_cls_in in I. now rewrite I in A.
Qed.
Fixpoint items_lastb (l : list scls) : bool :=
  match l with [] => true | [_] => true | CItems :: _ :: _ => false | _ :: r => items_lastb r end.
Lemma items_lastb_ok l : items_lastb l = true -> items_last l.
Proof.
  induction l as [|c r IH]; intros H.
  - exists []. cbn. auto.
  - destruct r as [|c' r].
    + destruct (scls_eq_dec c CItems) as [->|N]; [exists []; cbn; auto|]. exists [c]. split; auto. cbn. intuition congruence.
    + assert (N : c <> CItems /\ items_lastb (c' :: r) = true) by (destruct c; cbn in H; try discriminate; split; auto; discriminate).
      destruct N as (N & H'). destruct (IH H') as (l & [E|E] & NI).
      * exists (c :: l). split; [left; now rewrite E|]. cbn. intros [X|X]; [congruence|contradiction].
      * exists (c :: l). split; [right; cbn; now rewrite E|]. cbn. intuition congruence.
Qed.
(** everything checked about the types, in one table walk *)
Definition type_ok (f : string * (list string * list string)) : bool :=
  let ty := fst f in
  match dget ty type_mixins with
  | None => false
  | Some ms =>
      (match add_mixins entity_cls ms with Ok _ => true | Err _ => false end) &&
      (if list_eq_dec scls_eq_dec (chain (cls_of ty)) (mids ty ++ [CBaseMixin; CBase; CObject]) then true else false) &&
      nodupb (mids ty) && negb (has_cls CBaseMixin (mids ty)) && items_lastb (mids ty) &&
      subsetb (flat_map mkeys (mids ty)) (fst (snd f)) && subsetb (fst (snd f)) (flat_map mkeys (mids ty))
  end.
Lemma types_ok : forallb type_ok formats = true.
Proof. vm_compute. reflexivity. Qed.

Record shape (ty : string) (own : list string) : Prop := mkShape {
  sh_ms : exists ms, dget ty type_mixins = Some ms /\ add_mixins entity_cls ms = Ok (cls_of ty);
  sh_chain : chain (cls_of ty) = mids ty ++ CBaseMixin :: [CBase; CObject];
  sh_nodup : NoDup (mids ty);
  sh_nobase : ~ In CBaseMixin (mids ty);
  sh_items : items_last (mids ty);
  sh_own : forall s, In s own <-> In s (flat_map mkeys (mids ty)) }.
Lemma format_shape ty own cb : In (ty, (own, cb)) formats -> shape ty own.
Proof.
  intros I. pose proof types_ok as T. rewrite forallb_forall in T. specialize (T _ I). unfold type_ok in T. cbn [fst snd] in T.
  destruct (dget ty type_mixins) as [ms|] eqn:EM; [|discriminate].
  repeat (apply andb_prop in T as (T & ?)).
  constructor.
  - exists ms. split; auto. unfold cls_of. rewrite EM. destruct (add_mixins entity_cls ms); [reflexivity|discriminate].
  - destruct (list_eq_dec _ _ _); [assumption|discriminate].
  - now apply nodupb_ok.
  - intros J. apply has_cls_in in J. now rewrite J in *.
  - now apply items_lastb_ok.
  - intros s. split; now apply subsetb_ok.
Qed.

Definition cb_make (p : protos) (name : val) (ic : icls) (v : val) : res dict :=
  let! d := as_kwargs v in
  if dmem "self" d || dmem "_entity" d then Err EType
  else snd (cb_init_chain p name (statics ic) (cb_chain ic) (cb_chain ic) (mkCst 0 d [] None)).
Definition cb_part (p : protos) (name : val) (ic : icls) (kw : dict) : res (option cbobj) :=
  match dget "control_behavior" kw with
  | None => Ok None
  | Some v => let! a := cb_make p name ic v in Ok (Some (mkCb (cb_chain ic) a))
  end.
Lemma construct_typed p cust l kw s ty own cbk : typed p kw s ty -> dget ty cust = None -> In (ty, (own, cbk)) formats ->
  snd (construct p cust l kw) =
  let! pos := vec_of_val (dsc kw "position") in
  let! dir := dir_of_val (odflt (VInt 0) (dget "direction" kw)) in
  let! cb := cb_part p (VStr s) (cls_of ty) kw in
  let! ats := mapM (fun c => mats p true (statics (cls_of ty)) c (drop_keys entity_keys kw)) (mids ty) in
  match drop_keys (flat_map mkeys (mids ty)) (drop_keys entity_keys kw) with
  | [] => Ok (mkEnt true l (dsc kw "entity_number") (dsc kw "entity_number") (VStr s) (cls_of ty) pos dir
                (dsc kw "connections") cb (putall (concat ats) []))
  | _ :: _ => Err EType
  end.
Proof.
  intros ((A & S & B & N & P) & CK & data & ED & TY) CU I. destruct (format_shape _ _ _ I) as [(ms & EM & EI) CH ND NB IL _].
  unfold construct. rewrite A, (dmem_none _ _ S), (dmem_none _ _ B). cbn [negb orb]. rewrite N. unfold dsc at 1.
  destruct (dget "position" kw) as [pos|]; [|congruence]. cbn [odflt].
  assert (T : truthy (odflt (VBool true) (dget "strict" kw)) = true).
  { destruct (dget "strict" kw) as [v|] eqn:E; [|reflexivity]. cbn. now apply CK. }
  rewrite T. unfold set_name. cbn [e_strict negb in_table].
  assert (M : dmem s (p_entity p) = true) by (unfold dmem; now rewrite ED). rewrite M. rewrite ED. cbn [getitem]. rewrite TY. cbn [bind].
  rewrite EM, CU. cbn [odflt app e_cls with_name]. rewrite EI.
  destruct (vec_of_val pos) as [ov|]; [|reflexivity]. cbn [bind]. destruct (dir_of_val _) as [dir|]; [|reflexivity]. cbn [bind].
  assert (LE : leftover_error p (VStr s) = EType) by (cbn; rewrite ED; cbn [getitem]; now rewrite TY).
  assert (FIN : init_chain p true (VStr s) (statics (cls_of ty)) (chain (cls_of ty)) (mkIst 0 (drop_keys entity_keys kw) []) =
     let! ats := mapM (fun c => mats p true (statics (cls_of ty)) c (drop_keys entity_keys kw)) (mids ty) in
     match drop_keys (flat_map mkeys (mids ty)) (drop_keys entity_keys kw) with
     | [] => Ok (putall (concat ats) []) | _ :: _ => Err EType end).
  { rewrite CH, init_chain_char by auto. now rewrite LE. }
  unfold cb_part. cbn [e_strict e_name e_cls with_dir with_pos with_cls with_name with_cb].
  destruct (dget "control_behavior" kw) as [cbv|].
  - unfold cb_make. destruct (as_kwargs cbv) as [cbkw|]; [|reflexivity]. cbn [bind].
    destruct (dmem "self" cbkw || dmem "_entity" cbkw); [reflexivity|].
    destruct (cb_init_chain _ _ _ _ _ _) as [st [a|e]]; [|reflexivity]. cbn [snd bind].
    rewrite FIN. destruct (mapM _ (mids ty)) as [ats|]; [|reflexivity]. cbn [bind].
    destruct (drop_keys (flat_map mkeys (mids ty)) _); reflexivity.
  - cbn [bind snd]. rewrite FIN. destruct (mapM _ (mids ty)) as [ats|]; [|reflexivity]. cbn [bind].
    destruct (drop_keys (flat_map mkeys (mids ty)) _); reflexivity.
Qed.

(** ** C32 *)
Lemma formats_fun ty own cb own' cb' : In (ty, (own, cb)) formats -> In (ty, (own', cb')) formats -> own = own' /\ cb = cb'.
Proof.
  assert (ND : NoDup (map fst formats)).
  { assert (B : (fix nd (l : list string) := match l with [] => true | x :: r => negb (existsb (String.eqb x) r) && nd r end) (map fst formats) = true) by (vm_compute; reflexivity).
    revert B. generalize (map fst formats). induction l as [|x r IH]; intros B; constructor.
    - apply andb_prop in B as (B & _). intros I. assert (existsb (String.eqb x) r = true) as X; [|rewrite X in B; discriminate].
      apply existsb_exists. exists x. split; auto. apply String.eqb_refl.
    - apply IH. now apply andb_prop in B as (_ & B). }
  revert ND. generalize formats. induction l as [|[t f] l IH]; cbn; [contradiction|]. intros ND. inversion ND as [|? ? NI ND']; subst.
  intros [A|A] [B|B]; [injection A as -> ->; injection B as -> ->; auto| | |auto].
  - injection A as -> ->. exfalso. apply NI. now apply (in_map fst) in B.
  - injection B as -> ->. exfalso. apply NI. now apply (in_map fst) in A.
Qed.
Lemma bind_ok {X Y} (r : res X) (f : X -> res Y) y : bind r f = Ok y -> exists x, r = Ok x /\ f x = Ok y.
Proof. destruct r; cbn; [eauto|discriminate]. Qed.
Lemma drop_nil ks (kw : dict) k : drop_keys ks kw = [] -> dget k kw <> None -> named ks k = true.
Proof.
  intros H N. pose proof (dget_drop_keys ks kw k) as G. rewrite H in G. cbn in G. destruct (named ks k); auto; congruence.
Qed.
Lemma named_app a b k : named (a ++ b) k = named a k || named b k.
Proof. unfold named. apply existsb_app. Qed.
Lemma understood_keys ty own cb s : In (ty, (own, cb)) formats -> s <> "blueprint_layer" ->
  named (entity_keys ++ flat_map mkeys (mids ty)) (KS s) = true <-> understood ty (KS s).
Proof.
  intros I NB. rewrite named_In, in_app_iff. destruct (format_shape _ _ _ I) as [_ _ _ _ _ OWN].
  assert (E : In s entity_keys <-> In s general_keys). { cbn. intuition congruence. }
  split.
  - intros [H|H]; exists s, own, cb; repeat split; auto; [left; now apply E|right; now apply OWN].
  - intros (s' & own' & cb' & I' & [= <-] & H). destruct (formats_fun _ _ _ _ _ I I') as (<- & <-). destruct H; [left; now apply E|right; now apply OWN].
Qed.
Lemma p_C32_keys p cust l kw s ty own cb e k : typed p kw s ty -> dget ty cust = None -> In (ty, (own, cb)) formats ->
  snd (construct p cust l kw) = Ok e -> dget k kw <> None -> understood ty k.
Proof.
  intros T CU I H N. rewrite (construct_typed _ _ _ _ _ _ _ _ T CU I) in H. destruct T as ((A & _ & B & _ & _) & _).
  apply bind_ok in H as (pos & _ & H). apply bind_ok in H as (dir & _ & H). apply bind_ok in H as (c & _ & H). apply bind_ok in H as (ats & _ & H).
  rewrite <- drop_keys_app in H. destruct (drop_keys (entity_keys ++ _) kw) eqn:D; [|discriminate].
  pose proof (drop_nil _ _ _ D N) as NM. destruct k as [s'|z].
  - apply (understood_keys _ _ _ _ I); auto. intros ->. congruence.
  - rewrite (all_KS_dget _ _ A) in N. congruence.
Qed.
Lemma cb_part_ext p n ic (kw kw' : dict) : dget "control_behavior" kw = dget "control_behavior" kw' -> cb_part p n ic kw = cb_part p n ic kw'.
Proof. unfold cb_part. now intros ->. Qed.
Lemma general_neq (k : key) ty own cb s : In (ty, (own, cb)) formats -> ~ understood ty k -> In s general_keys -> KS s <> k.
Proof. intros I NU G E. subst k. apply NU. exists s, own, cb. auto. Qed.
Lemma all_KS_false (kw : dict) z : dget (KI z) kw <> None -> all_KS kw = false.
Proof. intros N. destruct (all_KS kw) eqn:A; auto. now rewrite (all_KS_dget _ _ A) in N. Qed.
Lemma all_KS_ddel_inv (kw : dict) s : all_KS (ddel (KS s) kw) = true -> all_KS kw = true.
Proof. induction kw as [|[[x|z] v] r IH]; cbn; auto. destruct (String.eqb s x); auto. Qed.
Lemma p_C32_rejected p cust l kw s ty own cb e k : typed p (ddel k kw) s ty -> dget ty cust = None -> In (ty, (own, cb)) formats ->
  snd (construct p cust l (ddel k kw)) = Ok e -> dget k kw <> None -> ~ understood ty k ->
  snd (construct p cust l kw) = Err EType.
Proof.
  intros T CU I H N NU.
  destruct k as [x|z]; [|unfold construct; rewrite (all_KS_false _ _ N); reflexivity].
  destruct (String.eqb_spec x "self") as [->|NS].
  { unfold construct. apply (fun q => proj2 (dmem_dget "self" kw) q) || idtac. destruct (dmem "self" kw) eqn:M.
    - now rewrite orb_true_r.
    - apply dmem_false in M. congruence. }
  destruct (String.eqb_spec x "blueprint_layer") as [->|NB].
  { unfold construct. destruct (dmem "blueprint_layer" kw) eqn:M.
    - now rewrite !orb_true_r.
    - apply dmem_false in M. congruence. }
  rewrite (construct_typed _ _ _ _ _ _ _ _ T CU I) in H.
  assert (GE : forall g, In g general_keys -> dget (KS g) (ddel (KS x) kw) = dget (KS g) kw).
  { intros g G. apply dget_ddel_other. eapply general_neq; eauto. }
  assert (T' : typed p kw s ty).
  { destruct T as ((A & B & C & D & E) & CK & data & ED & TY). split; [|split; [|eauto]].
    - split; [eapply all_KS_ddel_inv; eauto|]. rewrite dget_ddel_other in B, C by congruence.
      rewrite (GE "name") in D by (cbn; auto). rewrite (GE "position") in E by (cbn; auto). auto.
    - intros v V. apply CK. rewrite GE; cbn; auto 10. }
  rewrite (construct_typed _ _ _ _ _ _ _ _ T' CU I).
  unfold dsc in H. rewrite (GE "position"), (GE "direction") in H by (cbn; auto 10).
  rewrite (cb_part_ext _ _ _ _ kw) in H by (apply GE; cbn; auto 10).
  apply bind_ok in H as (pos & Hp & H). unfold dsc at 1. rewrite Hp. cbn [bind].
  apply bind_ok in H as (dir & Hd & H). rewrite Hd. cbn [bind].
  apply bind_ok in H as (c & Hc & H). rewrite Hc. cbn [bind].
  assert (NM : named (entity_keys ++ flat_map mkeys (mids ty)) (KS x) = false).
  { destruct (named _ (KS x)) eqn:Q; auto. apply (understood_keys _ _ _ _ I NB) in Q. contradiction. }
  assert (X : mapM (fun c => mats p true (statics (cls_of ty)) c (drop_keys entity_keys kw)) (mids ty) =
              mapM (fun c => mats p true (statics (cls_of ty)) c (drop_keys entity_keys (ddel (KS x) kw))) (mids ty)).
  { apply mapM_ext. intros c0 I0. apply mats_ext. intros g G. rewrite !dget_drop_keys, dget_ddel.
    destruct (named entity_keys (KS g)); auto. destruct (key_eqb (KS g) (KS x)) eqn:Q; auto. apply key_eqb_eq in Q. injection Q as ->.
    rewrite named_app in NM. apply orb_false_elim in NM as (_ & NM). exfalso.
    assert (In x (flat_map mkeys (mids ty))) as J by (apply in_flat_map; eauto). apply named_In in J. congruence. }
  rewrite X. apply bind_ok in H as (ats & Ha & _). rewrite Ha. cbn [bind].
  rewrite <- drop_keys_app. destruct (drop_keys (entity_keys ++ _) kw) eqn:D; auto.
  pose proof (drop_nil _ _ _ D N). congruence.
Qed.
Lemma p_C32_make w b x kw k s (ty : string) own cb : blu w b = Some x -> dget ty (b_custom x) = None -> In (ty, (own, cb)) formats ->
  typed (w_protos w) (ddel k kw) s ty -> snd (step (OMake b (ddel k kw)) w) = Ok tt ->
  dget k kw <> None -> ~ understood ty k -> step (OMake b kw) w = (w, Err EType).
Proof.
  intros Hx CU I T H N NU. cbn [step] in H |- *. unfold layer_make, new_entity, mbind, get_bp, gets in H |- *. rewrite Hx in H |- *. unfold ret in H |- *.
  destruct (snd (construct _ _ _ (ddel k kw))) as [e|] eqn:C; [|discriminate].
  now rewrite (p_C32_rejected _ _ _ _ _ _ _ _ _ _ T CU I C N NU).
Qed.
Lemma load_constructs w b x doc d w' doc' l v : blu w b = Some x -> holds doc d -> load b doc w = (w', doc', Ok tt) ->
  dget "entities" d = Some (VList l) -> In v l ->
  exists kw e, v = VDict kw /\ snd (construct (w_protos w) (b_custom x) (Some b) kw) = Ok e.
Proof.
  intros Hx Hd H EL Hk. rewrite (load_holds _ _ _ _ _ Hx Hd) in H.
  destruct (load_inner b (b_custom x) d w) as [[w1 d1] r1] eqn:L. injection H as <- <- ->.
  unfold load_inner in L. pose proof (proj1 (load_head_frame b d w)) as PP. destruct (load_head b d w) as [w2 [[]|e]]; [|discriminate]. cbn [fst] in PP.
  unfold dataget at 1 in L. rewrite EL in L. cbn [odflt iter_val] in L.
  destruct (load_entities b (b_custom x) l w2) as [[w3 l'] [[]|e]] eqn:LE; [|discriminate].
  rewrite <- PP. clear - LE Hk. revert w2 w3 l' LE Hk. induction l as [|u r IH]; cbn [load_entities]; intros w2 w3 l' H Hk; [contradiction|].
  destruct u as [| | | | | |kv]; try discriminate. destruct (construct (w_protos w2) (b_custom x) (Some b) kv) as [kv' [e|]] eqn:E; [|discriminate].
  destruct (load_entities b (b_custom x) r _) as [[w4 r'] o] eqn:L. injection H as <- <- ->. destruct Hk as [<-|Hk].
  - exists kv, e. split; auto. now rewrite E.
  - apply (IH _ _ _ L Hk).
Qed.
Lemma p_C32_load w b x doc d w' doc' l kw s (ty : string) own cb k : blu w b = Some x -> holds doc d -> load b doc w = (w', doc', Ok tt) ->
  dget "entities" d = Some (VList l) -> In (VDict kw) l -> typed (w_protos w) kw s ty -> dget ty (b_custom x) = None -> In (ty, (own, cb)) formats ->
  dget k kw <> None -> understood ty k.
Proof.
  intros Hx Hd H EL Hk T CU I N. destruct (load_constructs _ _ _ _ _ _ _ _ _ Hx Hd H EL Hk) as (kw' & e & [= <-] & C).
  eapply p_C32_keys; eauto.
Qed.
Lemma p_C32_formats ty : dget ty type_mixins <> None <-> exists s own cb, ty = KS s /\ In (s, (own, cb)) formats.
Proof.
  split.
  - intros H. assert (B : forallb (fun kv => match fst kv with KS s => existsb (fun f => String.eqb s (fst f)) formats | KI _ => false end) type_mixins = true) by (vm_compute; reflexivity).
    destruct (dget ty type_mixins) as [ms|] eqn:E; [|congruence]. rewrite forallb_forall in B.
    assert (I : In (ty, ms) type_mixins).
    { clear - E. revert E. induction type_mixins as [|[k v] r IH]; cbn; [discriminate|]. destruct (key_eqb ty k) eqn:K; auto. apply key_eqb_eq in K. intros [= ->]. subst. auto. }
    specialize (B _ I). cbn [fst] in B. destruct ty as [s|]; [|discriminate]. apply existsb_exists in B as ([s' [o c]] & J & Q). apply String.eqb_eq in Q. cbn in Q. subst. eauto 6.
  - intros (s & own & cb & -> & I). destruct (format_shape _ _ _ I) as [(ms & E & _)]. congruence.
Qed.
