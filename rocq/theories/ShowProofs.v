(** * Proofs about when an entity that was made can be exported (C72). *)
From Verif Require Import Py Num NumFacts Util Classes Mixins Entity World DictFacts DocProofs SpecWorld SpecTrip WorldFacts Inv LayerProofs WireProofs ChainFacts EntProofs CbProofs TripProofs DefaultEntities SpecDoc SpecEntity SpecAttr SpecValues SpecSetting SpecBehaviour SpecMake SpecWrite SpecExport SpecShow EntTrip.
From Verif Require RenameProofs AttrProofs SettingProofs BehaviourProofs MakeProofs ShownProofs DocProofs.
From Coq Require Import Lia Permutation.
Open Scope string_scope. Open Scope Z_scope. Open Scope list_scope.
Notation written := RenameProofs.written.

(** ** The wires of an entity that was just made *)
Definition nowhere (mk : dict -> op) (kw : dict) : bool := match mk kw with ONewEntity None _ => true | _ => false end.
Lemma made_wires mk w kw : reachable w -> creating mk -> snd (step (mk kw) w) = Ok tt -> nowhere mk kw = false ->
  exists w1, connections_to_json (length (w_ents w)) (fst (step (mk kw) w)) = (w1, Ok []) /\ w_protos w1 = w_protos (fst (step (mk kw) w)).
Proof.
  intros R C H NW. apply reach_inv in R as IV.
  assert (LE : forall cust b e, snd (construct (w_protos w) cust (Some b) kw) = Ok e -> e_layer e = Some b).
  { intros cust b e CE. exact (construct_layer _ _ _ _ _ CE). }
  destruct C as [(b & ->)|([b|] & ->)]; cbn [step] in *; [| |discriminate].
  - destruct (blu w b) as [x|] eqn:Hx; [|unfold layer_make, new_entity, mbind, get_bp, gets in H; rewrite Hx in H; discriminate].
    destruct (snd (construct (w_protos w) (b_custom x) (Some b) kw)) as [e|] eqn:EC; [|unfold layer_make, new_entity, mbind, get_bp, gets, ret in H; rewrite Hx in H; cbn [fst snd] in H; rewrite EC in H; discriminate].
    unfold mbind, ret in *. rewrite (layer_make_eq b kw w x e IV Hx EC), (sort_layer_eq _ _ _ (listed_new_blu _ _ _ _ Hx)) in *. cbn [b_set_objs b_objs] in *.
    destruct (sorted_objs _ _) as [l|y] eqn:Es; [|discriminate]. cbn [bind fst snd] in *. set (i := length (w_ents w)) in *.
    set (wl := upd_bp b (b_set_objs l) (listed_new b x e w)) in *.
    assert (He : ent wl i = Some (with_layer (Some b) e)).
    { unfold wl. rewrite ent_upd_bp. unfold listed_new. fold i. rewrite ent_upd, Nat.eqb_refl, ent_upd_bp, ent_new. fold i. now rewrite Nat.eqb_refl. }
    assert (NL : NoDup (b_objs x ++ [i])).
    { apply (Permutation_NoDup (l := i :: b_objs x)); [apply Permutation_cons_append|]. constructor; [eapply fresh_not_listed; eauto|eapply inv_nodup; eauto]. }
    apply sorted_objs_perm in Es. assert (IL : In i l) by (eapply Permutation_in; [exact Es|apply in_app_iff; cbn; auto]).
    apply In_nth_error in IL as (k & Hk).
    assert (He' : ent (reindex 1 l wl) i = Some (with_auto (VInt (1 + Z.of_nat k)) (with_layer (Some b) e))).
    { apply reindex_nth; auto. eapply Permutation_NoDup; eauto. }
    assert (Hx' : blu (reindex 1 l wl) b = Some (b_set_objs l (b_set_objs (b_objs x ++ [i]) x))).
    { rewrite blu_reindex. unfold wl. rewrite blu_upd, Nat.eqb_refl, (listed_new_blu _ _ _ _ Hx). reflexivity. }
    apply (no_wires (reindex 1 l wl) i _ b _ He' eq_refl Hx').
    intros c Hc. cbn [b_set_objs b_conns] in Hc. eapply fresh_wires; eauto.
  - unfold new_entity, mbind, get_bp, gets, ret in *. destruct (blu w b) as [x|] eqn:B; [|discriminate]. cbn [fst snd] in *.
    destruct (snd (construct (w_protos w) (b_custom x) (Some b) kw)) as [e|] eqn:CE; [|discriminate]. cbn [fst snd].
    apply (no_wires (new_ent e w) (length (w_ents w)) e b x); [rewrite ent_new, Nat.eqb_refl; auto|eapply LE; eauto|exact B|].
    intros c Hc. eapply fresh_wires; eauto.
Qed.
Lemma nowhere_fails mk w kw : creating mk -> snd (step (mk kw) w) = Ok tt -> nowhere mk kw = true ->
  snd (ent_json (length (w_ents w)) (fst (step (mk kw) w))) = Err EAttribute.
Proof.
  intros C H NW. destruct C as [(b & ->)|([b|] & ->)]; try discriminate NW. cbn [step] in *. unfold new_entity, mbind, ret in *. cbn [fst snd] in *.
  destruct (snd (construct (w_protos w) [] None kw)) as [e|] eqn:CE; [|discriminate]. cbn [fst snd].
  cbn [drop_res fst snd]. rewrite RenameProofs.ent_json_eq. assert (He : ent (new_ent e w) (length (w_ents w)) = Some e) by (rewrite ent_new, Nat.eqb_refl; auto). rewrite He.
  destruct (e_pos e); [|reflexivity]. unfold connections_to_json, get_connections, mbind, get_ent, gets. rewrite He, (construct_layer _ _ _ _ _ CE). reflexivity.
Qed.

Lemma Forall2_in_r {A B} (R : A -> B -> Prop) l m y : Forall2 R l m -> In y m -> exists x, In x l /\ R x y.
Proof. induction 1; intros []; [subst; eexists; split; [now left|eassumption]|]. destruct IHForall2 as (z & ? & ?); auto. exists z. split; [now right|auto]. Qed.
(** ** The mixins of the entity: what was just made can be written *)
Lemma mats_writes p dir cls c kw m : (c = CFilterInserter -> filter_cls cls = Some FName) -> mats p true cls c kw = Ok m -> exists u, written p dir c (putall m []) = Ok u.
Proof.
  intros FC H. unfold mats in H. unfold written.
  destruct c; cbn [json_mixin]; try (eexists; reflexivity); cbn [init_mixin] in H; unfold kwv, consume in H; cbn [i_kw i_args i_at] in H;
    repeat (match type of H with
    | context [let! _ := ?r in _] => destruct r as [?|?] eqn:?; cbn [bind i_at] in H; try discriminate
    | context [let (_, _) := ?r in _] => destruct r; cbn [bind i_at] in H; try discriminate
    | context [if ?b then _ else _] => destruct b; cbn [bind i_at] in H; try discriminate
    | context [match ?v with VDict _ => _ | _ => _ end] => destruct v; cbn [bind i_at] in H; try discriminate
    end); try (apply AttrProofs.ok_inj in H; subst m; unfold aget; cbn; eauto; fail).
  - apply AttrProofs.ok_inj in H. subst m. unfold aget. cbn. destruct d; eauto.
  - apply AttrProofs.ok_inj in H. subst m. rewrite (FC eq_refl) in Heqr0. unfold aget. cbn -[mapM filter_json]. destruct a0 as [|f a0]; [eauto|].
    destruct (mapM_all (filter_json p) (f :: a0)) as (js & ->); [|cbn [bind]; eauto].
    intros x I. apply ShownProofs.mapM_Forall2 in Heqr0. destruct (Forall2_in_r _ _ _ x Heqr0 I) as (v & _ & E). destruct (ShownProofs.filter_made _ _ _ _ E) as (fd & y & _ & _ & ->). cbn. eauto.
  - apply AttrProofs.ok_inj in H. subst m. unfold aget. cbn. destruct (truthy _), a0; eauto.
  - apply AttrProofs.ok_inj in H. subst m. unfold aget. cbn. destruct a0; eauto.
  - destruct (dget "type" kw) as [v|]; [|discriminate]. destruct (negb _); [discriminate|]. apply AttrProofs.ok_inj in H. subst m. unfold aget. cbn. eauto.
Qed.

(** ** Where an export fails *)
Section Made.
Variables (mk : dict -> op) (w : world) (kw : dict) (s ty : string) (own cbk : list string).
Hypothesis ME : made_entity mk w kw s ty own cbk.
Notation p := (w_protos w).
Notation t := (p_signal (w_protos w)).
Notation cls := (statics (cls_of ty)).
Lemma chain_writes dir a t0 l : ~ In CBaseMixin l -> (forall c, In c l -> exists u, written p dir c a = Ok u) -> forall o, exists o', json_chain p dir cls None (l ++ CBaseMixin :: t0) a o = Ok o'.
Proof.
  induction l as [|c l IH]; intros NB W o; cbn [app]; [eexists; reflexivity|]. rewrite RenameProofs.chain_step by (intros ->; apply NB; now left).
  destruct (W c (or_introl eq_refl)) as (u & U). pose proof (RenameProofs.link_written p dir c a o) as L. rewrite U in L. destruct L as (o1 & L & _). rewrite L. cbn [bind].
  apply IH; [intros J; apply NB; now right|intros c0 I; apply W; now right].
Qed.
Lemma where_fails e : export_of mk w kw = Err e ->
  (nowhere mk kw = true /\ e = EAttribute) \/ (given "position" VNone kw = VNone /\ e = EAttribute) \/
  exists v a, dget "control_behavior" kw = Some v /\ cb_make p (VStr s) (cls_of ty) v = Ok a /\ cb_json p cls (mkCb (cb_chain (cls_of ty)) a) = Err e.
Proof.
  destruct ME as [R MK CU T F _ M]. unfold export_of. intros J.
  destruct (nowhere mk kw) eqn:NW; [left; split; [reflexivity|rewrite (nowhere_fails _ _ _ MK M NW) in J; congruence]|right].
  destruct (made_wires _ _ _ R MK M NW) as (w1 & CW & P1).
  destruct (ShownProofs.made_kept _ _ _ MK M) as (cust & layer & e0 & C & (P & e1 & E1 & (I1 & I2 & I3 & I4) & I5 & I6 & I7) & U). specialize (U ty CU).
  rewrite (construct_typed _ _ _ _ _ _ _ _ T U F) in C.
  destruct (vec_of_val (dsc kw "position")) as [pos|] eqn:VP; [|discriminate]. cbn [bind] in C. destruct (dir_of_val _) as [dir|] eqn:DI; [|discriminate]. cbn [bind] in C.
  destruct (cb_part _ _ _ _) as [cb|] eqn:CB; [|discriminate]. cbn [bind] in C. destruct (mapM _ (mids ty)) as [ats|] eqn:MA; [|discriminate]. cbn [bind] in C.
  destruct (drop_keys _ (drop_keys _ kw)); [|discriminate]. injection C as <-. cbn [e_strict e_cls e_at e_cb e_name e_pos e_dir] in *.
  destruct (format_shape _ _ _ F) as [_ CH ND NB _ _].
  rewrite RenameProofs.ent_json_eq, E1, I6 in J. destruct pos as [pos|].
  2:{ left. split; [|cbn in J; congruence]. change (dsc kw "position") with (given "position" VNone kw) in VP. destruct (given "position" VNone kw) as [| | | | | |dd]; try discriminate; [reflexivity|].
      cbn [vec_of_val] in VP. destruct (dget "x" dd); [|discriminate]. destruct (dget "y" dd); [|discriminate]. destruct (num_of_val v); [|discriminate]. cbn [bind] in VP. destruct (num_of_val v0); discriminate. }
  right. rewrite CW in J. cbn [snd] in J. rewrite P1, P, I2, I3, I4, I7, CH, (BehaviourProofs.json_chain_cb _ _ _ cb) in J by auto.
  destruct (chain_writes dir (putall (concat ats) []) [CBase; CObject] (mids ty) NB) with (o := RenameProofs.stem e1 pos []) as (o' & O).
  { intros c IC. destruct (mats p true cls c (drop_keys entity_keys kw)) as [m|] eqn:MC.
    2:{ exfalso. clear -MA IC MC. revert ats MA. induction (mids ty) as [|c0 l IH]; [contradiction|]. intros ats MA. cbn [mapM] in MA. destruct IC as [->|IC]; [now rewrite MC in MA|]. destruct (mats _ _ _ c0 _); [|discriminate]. cbn [bind] in MA. destruct (mapM _ l); [|discriminate]. eapply IH; eauto. }
    rewrite (AttrProofs.written_ext _ _ _ (putall m []) (putall (concat ats) [])).
    - eapply mats_writes; [|exact MC]. intros ->. exact (EntTrip.ef_filter _ _ (EntTrip.format_efacts _ _ _ F) IC).
    - intros f If. rewrite (chain_attr _ _ _ _ _ _ [] _ _ _ MA ND IC MC If), putall_get by exact (mats_nodup _ _ _ _ _ _ MC). now destruct (dget (KS f) m). }
  rewrite O in J. cbn [bind] in J. destruct cb as [cb|]; [|discriminate]. unfold cb_part in CB. destruct (dget "control_behavior" kw) as [v|]; [|discriminate].
  destruct (cb_make p (VStr s) (cls_of ty) v) as [a|] eqn:MB; [|discriminate]. injection CB as <-. exists v, a. split; [reflexivity|]. split; [exact MB|].
  destruct (cb_json p cls _) as [u|]; [discriminate|]. cbn [bind] in J. congruence.
Qed.

Lemma mapM_err {A B} (f : A -> res B) l e : mapM f l = Err e -> exists x, In x l /\ f x = Err e.
Proof.
  induction l as [|a l IH]; [discriminate|]. cbn [mapM]. destruct (f a) as [b|y] eqn:E; cbn [bind]; [|intros [= <-]; exists a; split; [now left|exact E]].
  destruct (mapM f l) as [r|y]; [discriminate|]. cbn [bind]. intros [= <-]. destruct IH as (x & I & F); [reflexivity|]. exists x. split; [now right|exact F].
Qed.
Lemma writes_err W a : forall obj e, BehaviourProofs.writes W a obj = Err e -> exists z, In z W /\ snd z a = Err e.
Proof.
  induction W as [|[k f] W IH]; intros obj e H; [discriminate|]. cbn [BehaviourProofs.writes] in H. destruct (f a) as [o|y] eqn:E; cbn [bind] in H.
  - destruct (IH _ _ H) as (z & I & F). exists z. split; [now right|exact F].
  - injection H as <-. exists (k, f). split; [now left|exact E].
Qed.
Lemma flat_get p0 g k x a : BehaviourProofs.flat g = true -> dget (KS k) a = Some x -> BehaviourProofs.flat_val p0 g k a = BehaviourProofs.flat_val p0 g k (dset (KS k) x []).
Proof.
  intros G D. assert (A : aget a k = aget (dset (KS k) x []) k) by (unfold aget; now rewrite D, DocProofs.dget_dset', key_eqb_refl).
  assert (S : dsc a k = dsc (dset (KS k) x []) k) by (unfold dsc; now rewrite D, DocProofs.dget_dset', key_eqb_refl).
  destruct g; try discriminate; cbn [BehaviourProofs.flat_val]; rewrite ?A, ?S; reflexivity.
Qed.
(** a part of the behaviour that cannot be written *)
Lemma writer_err c cb m a z e : cats p cls c cb = Ok m -> (forall k, In k (cattrs c) -> dget (KS k) a = dget (KS k) m) -> In z (BehaviourProofs.writers p c) -> snd z a = Err e -> c <> CFilters ->
  exists k g x, In (k, g) (behaviour c) /\ taken t g (described c k cb) (Ok x) /\ shown_as t g k x (Err e).
Proof.
  intros M A I E NF.
  assert (TK : forall g v x, BehaviourProofs.stored p g v = Ok x -> taken t g v (Ok x)).
  { intros g v x ST. rewrite <- ST. apply (proj2 (BehaviourProofs.d_taken p g v)). rewrite ST. discriminate. }
  destruct (scls_eq_dec c CCircuitCondition) as [->|NC].
  - destruct I as [<-|[]]. cbn [snd] in E. rewrite BehaviourProofs.cond_parts in E.
    assert (SD : forall k g, In (k, g) (behaviour CCircuitCondition) -> exists x, BehaviourProofs.stored p g (described CCircuitCondition k cb) = Ok x /\ dsc a k = x).
    { intros k g I. destruct (ShownProofs.cats_stored _ _ _ _ _ _ _ M I) as (x & ST & G). exists x. split; [exact ST|]. rewrite <- A in G by (destruct (ShownProofs.row_attr _ _ _ I); auto).
      unfold dsc. destruct G as [->|(-> & -> & _)]; reflexivity. }
    destruct (SD "first" KFirst) as (x1 & S1 & D1); [now left|]. destruct (SD "second" KSecond) as (x2 & S2 & D2); [right; now left|]. rewrite D1, D2 in E.
    destruct (BehaviourProofs.p_C68_decided t KFirst "first" _ _ (TK _ _ _ S1)) as (r1 & R1). destruct (BehaviourProofs.p_C68_decided t KSecond "second" _ _ (TK _ _ _ S2)) as (r2 & R2).
    cbn [shown_as] in R1, R2.
    destruct R1 as [(e1 & R1 & ->)|(fx1 & R1 & ->)]; pose proof (BehaviourProofs.d_side p _ _ _ (BehaviourProofs.kept_signal _ _ _ S1) _ R1) as Q1; cbn iota in Q1.
    + rewrite Q1 in E. cbn in E. injection E as <-. exists "first", KFirst, x1. split; [now left|]. split; [exact (TK _ _ _ S1)|]. left. eauto.
    + destruct Q1 as (u1 & k1 & Q1 & _). rewrite Q1 in E. cbn [bind] in E.
      destruct R2 as [(e2 & R2 & ->)|(fx2 & R2 & ->)]; pose proof (BehaviourProofs.d_side p _ _ _ (BehaviourProofs.kept_signal _ _ _ S2) _ R2) as Q2; cbn iota in Q2.
      * rewrite Q2 in E. cbn in E. injection E as <-. exists "second", KSecond, x2. split; [right; now left|]. split; [exact (TK _ _ _ S2)|]. left. eauto.
      * destruct Q2 as (u2 & k2 & Q2 & _). rewrite Q2 in E. discriminate.
  - destruct (scls_eq_dec c CSpeaker) as [->|NS].
    { destruct I as [<-|[]]. cbn [snd] in E. unfold aget in E. rewrite A in E by (now left). exfalso.
      unfold cats in M. cbn [cb_simple k_kw] in M. destruct (circuit_parameters _); [|discriminate]. injection M as <-. discriminate E. }
    assert (W : exists k g, In (k, g) (behaviour c) /\ z = (k, BehaviourProofs.flat_val p g k)).
    { assert (I' : In z (map (fun kg => (fst kg, BehaviourProofs.flat_val p (snd kg) (fst kg))) (behaviour c))) by (destruct c; try congruence; exact I).
      apply in_map_iff in I' as ([k g] & <- & I'). eauto. }
    destruct W as (k & g & IB & ->). cbn [snd] in E. destruct (ShownProofs.cats_stored _ _ _ _ _ _ _ M IB) as (x & ST & [G|(_ & _ & C)]); [|contradiction].
    rewrite <- A in G by (destruct (ShownProofs.row_attr _ _ _ IB); auto). pose proof (BehaviourProofs.flat_rows _ _ _ NC IB) as FL.
    destruct (BehaviourProofs.p_C68_decided t g k _ _ (TK _ _ _ ST)) as (r & RS). exists k, g, x. split; [exact IB|]. split; [exact (TK _ _ _ ST)|].
    pose proof (BehaviourProofs.flat_shown p g k x r [] FL (ex_intro _ _ ST) RS) as Q. rewrite (flat_get _ _ _ _ _ FL G) in E.
    destruct r as [fx|e']; [destruct Q as (o & _ & Q)|]; rewrite Q in E; [discriminate|]. injection E as <-. exact RS.
Qed.
Lemma doc_err n e : signal_json p (VStr n) = Err e -> signal_doc t n (Err e).
Proof. intros H. destruct (BehaviourProofs.doc_exists t n) as (r & D). pose proof (proj1 (BehaviourProofs.d_doc p n) _ D) as E. congruence. Qed.
Lemma filters_err cb m a z e : filter_cls cls = Some FSignal -> cats p cls CFilters cb = Ok m -> (forall k, In k (cattrs CFilters) -> dget (KS k) a = dget (KS k) m) -> In z (BehaviourProofs.writers p CFilters) -> snd z a = Err e ->
  exists l f fd x, elements (given "filters" (VList []) cb) (Ok l) /\ In f l /\ keywords ["signal"; "count"; "index"] f (Ok fd) /\ signal_taken t (given "signal" VNone fd) (Ok x) /\ no_document t x e.
Proof.
  intros FC M A [<-|[]] E. cbn [snd] in E. unfold aget in E. rewrite A in E by (now left).
  unfold cats in M. cbn [cb_simple k_kw] in M. fold (given "filters" (VList []) cb) in M. destruct (iter_val _) as [l|] eqn:IT; [|discriminate]. cbn [bind] in M. rewrite FC in M.
  destruct (mapM _ l) as [fs|] eqn:FS; [|discriminate]. injection M as <-. cbn -[mapM filter_json] in E. destruct fs as [|f0 fs]; [discriminate|].
  destruct (mapM (filter_json p) (f0 :: fs)) as [js|y] eqn:JS; [discriminate|]. cbn [bind] in E. injection E as ->.
  apply mapM_err in JS as (f & If & JF). apply ShownProofs.mapM_Forall2 in FS. destruct (Forall2_in_r _ _ _ _ FS If) as (v & Iv & NV).
  destruct (ShownProofs.filter_made _ _ _ _ NV) as (fd & x & K & S & ->). exists l, v, fd, x. split; [rewrite <- IT; apply (proj2 (SettingProofs.d_elements _)); rewrite IT; discriminate|]. split; [exact Iv|]. split; [exact K|]. split; [exact S|].
  cbn [filter_json] in JF. cbn -[signal_json] in JF. unfold dsc in JF. cbn -[signal_json] in JF.
  destruct (BehaviourProofs.kept _ _ _ S) as [->|[(z & ->)|(n & ->)]].
  - left. cbn in JF. injection JF as <-. auto.
  - left. cbn in JF. injection JF as <-. eauto.
  - right. exists n. split; [reflexivity|]. apply doc_err. destruct (signal_json p (VStr n)); [discriminate|]. cbn [bind] in JF. congruence.
Qed.
Lemma behaviour_fails v a e : ~ In ty combinators -> dget "control_behavior" kw = Some v -> cb_make p (VStr s) (cls_of ty) v = Ok a -> cb_json p cls (mkCb (cb_chain (cls_of ty)) a) = Err e ->
  unshown mk t kw ty e.
Proof.
  intros NC V M J. pose proof (me_format _ _ _ _ _ _ _ ME) as F. destruct (ShownProofs.made_behaviour _ _ _ _ _ _ _ F NC M) as (cb & ats & -> & MA & AT).
  destruct (ShownProofs.format_control _ _ _ F NC) as [CH NA NB (N1 & N2) ND _ _]. unfold cb_json in J. cbn [cb_cls cb_at] in J. rewrite CH, BehaviourProofs.chain_writers in J by auto.
  destruct (BehaviourProofs.writes _ a []) as [o|y] eqn:W; [discriminate|]. cbn [bind] in J. injection J as ->.
  apply writes_err in W as (z & IZ & EZ). apply in_flat_map in IZ as (c & IC & IZ).
  destruct (ShownProofs.made_each _ _ _ _ _ _ MA IC) as (m & MC).
  assert (AM : forall k, In k (cattrs c) -> dget (KS k) a = dget (KS k) m).
  { intros k KA. rewrite AT; [exact (ShownProofs.concat_get _ _ _ _ _ _ _ _ MA NA IC MC KA)|]. intros ->. clear -KA. destruct c; cbn in KA; intuition discriminate. }
  destruct (scls_eq_dec c CFilters) as [->|NF].
  - assert (FC : filter_cls cls = Some FSignal).
    { destruct (MakeProofs.filters_here _ _ _ F) as (X & _). apply X. unfold cmids. rewrite CH, removelast_last. exact IC. }
    destruct (filters_err _ _ _ _ _ FC MC AM IZ EZ) as (l & f & fd & x & EL & If & K & S & N). eapply us_filter; eauto.
  - destruct (writer_err _ _ _ _ _ _ MC AM IZ EZ NF) as (k & g & x & IB & T & SH). eapply us_behaviour; eauto.
Qed.
End Made.
Lemma combinator_fails mk w kw s c own cbk v a e : made_entity mk w kw s (combinator_type c) own cbk -> c = CArithmetic \/ c = CDecider -> dget "control_behavior" kw = Some v ->
  cb_make (w_protos w) (VStr s) (cls_of (combinator_type c)) v = Ok a -> cb_json (w_protos w) (statics (cls_of (combinator_type c))) (mkCb (cb_chain (cls_of (combinator_type c))) a) = Err e ->
  unshown mk (p_signal (w_protos w)) kw (combinator_type c) e.
Proof.
  intros ME OC V M J. set (p := w_protos w) in *.
  destruct (ShownProofs.comb_made w s c OC _ _ M) as (cb0 & d0 & o & x1 & x2 & x3 & -> & CV & (o0 & O0 & OP) & SI & GO & GE & GF & GC).
  assert (CH : cb_chain (cls_of (combinator_type c)) = [c; CCombinator; CBaseMixin]) by (destruct OC as [->| ->]; vm_compute; reflexivity). rewrite CH in J.
  assert (CN : comb_names (statics (cls_of (combinator_type c))) = Some (MakeProofs.word c, MakeProofs.op_of c)) by (destruct OC as [->| ->]; vm_compute; reflexivity).
  assert (X : exists ex, BehaviourProofs.extra c a = Ok ex).
  { destruct OC as [->| ->]; cbn [BehaviourProofs.extra]; [eexists; reflexivity|]. unfold aget. rewrite (GC eq_refl). eexists. reflexivity. }
  destruct X as (ex & EXT).
  rewrite (BehaviourProofs.comb_eq p _ c a _ _ VNone (fst (fst (SpecBehaviour.conditions c))) o ex OC CN) in J; [|unfold aget; now rewrite GE|unfold aget; now rewrite GF|unfold aget; now rewrite GO|exact EXT].
  assert (SIDE : forall f x, In (f, x) [("first", x1); ("second", x2); ("output", x3)] -> BehaviourProofs.put_val p (dsc a f) = Err e -> unshown mk (p_signal p) kw (combinator_type c) e).
  { intros f x I PE. destruct (SI f x I) as (S1 & (v1 & W1) & G1). unfold dsc in PE. rewrite G1 in PE. cbn [odflt] in PE.
    destruct (BehaviourProofs.kept_signal _ _ _ W1) as [->|[(z & ->)|(n & ->)]]; try discriminate.
    apply (us_side mk (p_signal p) kw (combinator_type c) cb0 c d0 f n); auto.
    - destruct OC as [->| ->]; cbn; auto.
    - destruct I as [[= <- _]|[[= <- _]|[[= <- _]|[]]]]; cbn; auto.
    - apply doc_err. cbn [BehaviourProofs.put_val] in PE. fold p. destruct (signal_json p (VStr n)); [discriminate|]. cbn [bind] in PE. congruence. }
  destruct (BehaviourProofs.put_val p (dsc a "first")) eqn:P1; [|cbn in J; injection J as ->; eapply SIDE; [now left|exact P1]]. cbn [bind] in J.
  destruct (BehaviourProofs.put_val p (dsc a "second")) eqn:P2; [|cbn in J; injection J as ->; eapply SIDE; [right; now left|exact P2]]. cbn [bind] in J.
  destruct (BehaviourProofs.put_val p (dsc a "output")) eqn:P3; [|cbn in J; injection J as ->; eapply SIDE; [right; right; now left|exact P3]]. discriminate.
Qed.
Lemma p_C72_fails mk w kw s ty own cbk e : made_entity mk w kw s ty own cbk -> export_of mk w kw = Err e -> unshown mk (p_signal (w_protos w)) kw ty e.
Proof.
  intros ME J. destruct (where_fails _ _ _ _ _ _ _ ME _ J) as [(N & ->)|[(N & ->)|(v & a & V & M & C)]].
  - apply us_nowhere. unfold nowhere in N. destruct (me_making _ _ _ _ _ _ _ ME) as [(b & ->)|([b|] & ->)]; try discriminate. reflexivity.
  - now apply us_position.
  - destruct (in_dec string_dec ty combinators) as [I|I]; [|eapply behaviour_fails; eauto].
    destruct I as [<-|[<-|[]]]; [eapply (combinator_fails _ _ _ _ CArithmetic)|eapply (combinator_fails _ _ _ _ CDecider)]; eauto.
Qed.

(** ** An export that succeeds *)
Lemma signal_one t v r r' : signal_taken t v r -> signal_taken t v r' -> r = r'.
Proof. intros H H'. pose proof (BehaviourProofs.d_signal (mkProtos [] [] [] t []) v) as [A _]. rewrite <- (A _ H). now apply A. Qed.
Lemma doc_one t n r r' : signal_doc t n r -> signal_doc t n r' -> r = r'.
Proof. intros H H'. pose proof (BehaviourProofs.d_doc (mkProtos [] [] [] t []) n) as [A _]. rewrite <- (A _ H). now apply A. Qed.
Lemma field_one v k r r' : field v k r -> field v k r' -> r = r'.
Proof. intros H H'. destruct (SettingProofs.d_field v k) as [A _]. rewrite <- (A _ H). now apply A. Qed.
Lemma side_both t n c x fx e : side t n c x (Ok fx) -> side t n c x (Err e) -> False.
Proof. intros H K. inversion K as [| | |n0 e0 D E1 E2]; subst. inversion H as [| |n1 j D' E3 E4|]; subst. pose proof (doc_one _ _ _ _ D D'). discriminate. Qed.
Lemma shown_both t g k x fx e : shown_as t g k x (Ok fx) -> shown_as t g k x (Err e) -> False.
Proof.
  assert (D : forall n, (let? j := signal_doc t n in gives [([k], Some j)]) (Ok fx) -> (let? j := signal_doc t n in gives [([k], Some j)]) (Err e) -> False).
  { intros n [(y & _ & E)|(j & H & _)] [(y' & H' & E')|(j' & _ & E')]; try discriminate. pose proof (doc_one _ _ _ _ H H'). discriminate. }
  assert (S : forall n c, (let? f := side t n c x in gives (within "circuit_condition" f)) (Ok fx) -> (let? f := side t n c x in gives (within "circuit_condition" f)) (Err e) -> False).
  { intros n c [(y & _ & E)|(j & H & _)] [(y' & H' & E')|(j' & _ & E')]; try discriminate. eapply side_both; eauto. }
  destruct g; cbn [shown_as]; intros H H'; try discriminate H'.
  - destruct H' as (b & _ & E). discriminate.
  - destruct H' as [(_ & E)|[(z & _ & E)|(n & -> & H')]]; try discriminate. destruct H as [(E & _)|[(z & E & _)|(n' & E & H)]]; try discriminate. injection E as <-. eauto.
  - destruct H' as [(_ & E)|[(z & -> & N & _)|(n & -> & N & H')]]; try discriminate.
    + destruct H as [(FA & _)|[(z' & E & _ & E')|(n' & E & _)]]; try discriminate. apply BehaviourProofs.falsy_truthy in FA. cbn in FA. destruct (Z.eqb_spec z 0); [contradiction|discriminate].
    + destruct H as [(FA & _)|[(z' & E & _ & E')|(n' & E & _ & H)]]; try discriminate.
      * apply BehaviourProofs.falsy_truthy in FA. destruct n; [congruence|discriminate].
      * injection E as <-. eauto.
  - eapply S; eauto.
  - eapply S; eauto.
Qed.
Lemma stored_one t c sd d x x' : side_stored t c sd d x -> side_stored t c sd d x' -> x = x'.
Proof.
  intros H H'. destruct H as [v x A B C|g n x A B C D G|A B]; destruct H' as [v' x' A' B' C'|g' n' x' A' B' C' D' G'|A' B']; unfold given in *;
    repeat match goal with X : dget ?k d = Some _, Y : dget ?k d = Some _ |- _ => rewrite X in Y; injection Y as <- end;
    repeat match goal with X : dget ?k d = Some _, Y : context [dget ?k d] |- _ => rewrite X in Y; cbn [odflt] in Y end; try congruence; try contradiction.
  - pose proof (signal_one _ _ _ _ C C'). congruence.
  - pose proof (field_one _ _ _ _ D D') as E. injection E as <-. pose proof (signal_one _ _ _ _ G G'). congruence.
Qed.
Lemma in_Forall2 {A B} (R : A -> B -> Prop) l m x : Forall2 R l m -> In x l -> exists y, In y m /\ R x y.
Proof. induction 1; intros []; [subst; eexists; split; [now left|eassumption]|]. destruct IHForall2 as (z & ? & ?); auto. exists z. split; [now right|auto]. Qed.
Lemma p_C72_succeeds mk w kw s ty own cbk v e : made_entity mk w kw s ty own cbk -> export_of mk w kw = Ok v -> ~ unshown mk (p_signal (w_protos w)) kw ty e.
Proof.
  intros ME J US.
  assert (D : exists d, v = VDict d).
  { unfold export_of in J. rewrite RenameProofs.ent_json_eq in J. destruct (ent _ _); [|discriminate]. destruct (e_pos e0); [|discriminate]. destruct (connections_to_json _ _) as [w1 [cs|]]; [|discriminate]. cbn [snd] in J.
    destruct (json_chain _ _ _ _ _ _ _); [|discriminate]. injection J as <-. eauto. }
  destruct D as (d & ->). assert (EX : exported mk w kw s ty own cbk d) by (destruct ME; constructor; assumption).
  destruct US as [N|N|cb c k g x e V NC IC IB T S|cb l f fd x e V IC EL If K S N|cb c d0 sd n e V IC -> CV IS SS SD].
  - unfold export_of in J. rewrite (nowhere_fails mk w kw) in J; [discriminate|apply ME|apply ME|]. unfold nowhere. now rewrite N.
  - destruct (ShownProofs.shaped _ _ _ _ _ _ _ _ EX) as (pos & dir & cb & ats & o & [P _ _ _ _ _]). change (dsc kw "position") with (given "position" VNone kw) in P. rewrite N in P. discriminate.
  - destruct (ShownProofs.p_C70_behaviour _ _ _ _ _ _ _ _ EX NC cb c k g V IC IB) as (x' & fx & T' & S' & _). pose proof (BehaviourProofs.p_C68_one _ _ _ _ _ T T') as E. injection E as <-. eapply shown_both; eauto.
  - assert (NC : ~ In ty combinators). { intros I. destruct I as [<-|[<-|[]]]; cbn in IC; contradiction. }
    destruct (ShownProofs.p_C70_signals _ _ _ _ _ _ _ _ EX NC cb V IC) as (l' & js & EL' & FA & _).
    assert (l' = l) as ->. { destruct (SettingProofs.d_elements (given "filters" (VList []) cb)) as [A _]. pose proof (A _ EL). pose proof (A _ EL'). congruence. }
    destruct (in_Forall2 _ _ _ _ FA If) as (j & _ & (fd' & x' & sj & K' & S' & D' & _)).
    assert (fd' = fd) as ->. { destruct (MakeProofs.d_keywords ["signal"; "count"; "index"] f) as [A _]. pose proof (A _ K). pose proof (A _ K'). congruence. }
    pose proof (signal_one _ _ _ _ S S') as E. injection E as ->. destruct N as [([E|(z & E)] & _)|(n & E & N)]; try discriminate. injection E as <-. pose proof (doc_one _ _ _ _ N D'). discriminate.
  - assert (OC : c = CArithmetic \/ c = CDecider) by (destruct IC as [<-|[<-|[]]]; auto).
    destruct (ShownProofs.p_C70_combinator _ _ _ _ _ _ _ _ EX OC cb V) as (d0' & dd & o0 & o & x1 & x2 & x3 & g1 & c1 & g2 & c2 & g3 & c3 & CV' & _ & _ & S1 & H1 & S2 & H2 & S3 & H3 & _).
    rewrite CV in CV'. injection CV' as <-.
    assert (B : forall x g k, side_stored (p_signal (w_protos w)) c sd d0 x -> side_shown (p_signal (w_protos w)) x g k -> False).
    { intros x g k SX SH. pose proof (stored_one _ _ _ _ _ _ SX SS) as ->. inversion SH; subst. pose proof (doc_one _ _ _ _ H0 SD). discriminate. }
    destruct IS as [<-|[<-|[<-|[]]]]; eauto.
Qed.

(** ** Sound tables *)
Lemma doc_sound t n e v : sound_table t -> signal_taken t v (Ok (VStr n)) -> signal_doc t n (Err e) -> e = EKey /\ inside (VStr "") v.
Proof.
  intros ST S D.
  assert (L : forall u, looked_up t u (Ok (VStr n)) -> e = EKey /\ u = VStr "").
  { intros u L. assert (E : n <> "" -> dget n t = None -> False) by (intros N1 N2; inversion L; subst; congruence).
    inversion D as [|data y H F|H]; subst.
    - destruct (ST _ _ H) as (d & ty & -> & T). pose proof (field_one _ _ _ _ F (fd_found _ _ _ _ eq_refl T)). discriminate.
    - destruct (string_dec n "") as [->|NN]; [|elim E; auto]. split; [reflexivity|]. inversion L; subst; congruence. }
  inversion S; subst.
  - destruct (L _ H0) as (-> & ->). split; [reflexivity|]. eapply in_dict; [exact (RenameProofs.dget_in_gen _ _ _ H)|constructor].
  - destruct (L _ H1) as (-> & ->). split; [reflexivity|constructor].
Qed.
Notation blank := (inside (VStr "")).
Lemma inside_at k v d : dget k d = Some v -> blank v -> blank (VDict d).
Proof. intros H I. eapply in_dict; [exact (RenameProofs.dget_in_gen _ _ _ H)|exact I]. Qed.
Lemma inside_given k o d : blank (given k o d) -> blank o \/ blank (VDict d).
Proof. unfold given. destruct (dget (KS k) d) as [v|] eqn:E; cbn [odflt]; [|auto]. intros I. right. eapply inside_at; eauto. Qed.
Lemma not_blank v : match v with VNone | VBool _ | VInt _ | VFlt _ | VList [] | VDict [] => True | _ => False end -> ~ blank v.
Proof. intros H I. destruct v as [| | | | |[|]|[|]]; try contradiction; inversion I as [E|l u IU J E|d k u IU J E]; subst; contradiction. Qed.
Lemma inside_described c k cb : blank (described c k cb) -> blank (VDict cb).
Proof.
  assert (D : blank (given k (default c k) cb) -> blank (VDict cb)).
  { intros I. apply inside_given in I as [I|I]; [|exact I]. exfalso. revert I. apply not_blank. unfold default. destruct c; auto. destruct (String.eqb k _); exact Logic.I. }
  assert (N : blank VNone -> blank (VDict cb)) by (intros I; exfalso; revert I; now apply not_blank).
  destruct c; try exact D. cbn [described]. intros I.
  destruct (given "circuit_condition" VNone cb) as [| | | | | |cc] eqn:E; cbn [from_condition] in I; try exact (N I).
  assert (X : blank (VDict cc)).
  { destruct (String.eqb k "first"); [|destruct (String.eqb k "second")]; apply inside_given in I as [I|I]; try exact I; try (exfalso; revert I; now apply not_blank).
    apply inside_given in I as [I|I]; [exfalso; revert I; now apply not_blank|exact I]. }
  unfold given in E. destruct (dget (KS "circuit_condition") cb) as [v|] eqn:F; cbn [odflt] in E; [|discriminate]. subst v. eapply inside_at; eauto.
Qed.
Lemma p_C72_sound mk t kw ty e : sound_table t -> unshown mk t kw ty e -> e = EAttribute \/ (e = EKey /\ inside (VStr "") (VDict kw)).
Proof.
  intros ST US. destruct US as [N|N|cb c k g x e V NC IC IB T S|cb l f fd x e V IC EL If K S N|cb c d0 sd n e V IC -> CV IS SS SD]; auto.
  - assert (DS : forall n, signal_taken t (described c k cb) (Ok (VStr n)) -> signal_doc t n (Err e) -> e = EKey /\ blank (VDict kw)).
    { intros n A B. destruct (doc_sound _ _ _ _ ST A B) as (-> & I). split; [reflexivity|]. eapply inside_at; [exact V|]. eapply inside_described; eauto. }
    assert (SI : forall n m, signal_taken t (described c k cb) (Ok x) -> (let? fx := side t n m x in gives (within "circuit_condition" fx)) (Err e) -> e = EKey /\ blank (VDict kw)).
    { intros n m A [(y & H & [= <-])|(fx & _ & E)]; [|discriminate]. inversion H; subst. eauto. }
    destruct g; cbn [taken shown_as] in T, S; try discriminate S.
    + destruct S as (b & _ & E). discriminate.
    + destruct S as [(_ & E)|[(z & _ & E)|(n & -> & [(y & H & [= <-])|(j & _ & E)])]]; try discriminate. right. eauto.
    + destruct S as [(_ & E)|[(z & _ & _ & E)|(n & -> & _ & [(y & H & [= <-])|(j & _ & E)])]]; try discriminate; [left; congruence|right; eauto].
    + right. eauto.
    + right. eauto.
  - destruct N as [(_ & ->)|(n & -> & N)]; [auto|right]. destruct (doc_sound _ _ _ _ ST S N) as (-> & I). split; [reflexivity|].
    apply inside_given in I as [I|I]; [exfalso; revert I; now apply not_blank|].
    assert (f = VDict fd) by (inversion K; subst; reflexivity). subst f.
    eapply inside_at; [exact V|]. assert (X : blank (given "filters" (VList []) cb)).
    { inversion EL as [l0 E|d0 E| | | |]; subst; [eapply in_list; eauto|]. apply in_map_iff in If as ([[]] & E' & _); discriminate. }
    apply inside_given in X as [X|X]; [exfalso; revert X; now apply not_blank|exact X].
  - right. assert (X : e = EKey /\ blank (VDict d0)).
    { inversion SS as [v x A B C|g m x A B C D G|]; subst.
      - destruct (doc_sound _ _ _ _ ST C SD) as (-> & I). split; [reflexivity|]. eapply inside_at; eauto.
      - destruct (doc_sound _ _ _ _ ST G SD) as (-> & I). split; [reflexivity|]. eapply inside_at; [exact B|]. inversion D as [dd y E1 E2| |]; subst. eapply inside_at; eauto. }
    destruct X as (-> & X). split; [reflexivity|]. eapply inside_at; [exact V|]. eapply inside_at; eauto.
Qed.
Lemma p_C72_sound_tables mk w kw s ty own cbk e : made_entity mk w kw s ty own cbk -> sound_table (p_signal (w_protos w)) -> export_of mk w kw = Err e ->
  e = EAttribute \/ (e = EKey /\ inside (VStr "") (VDict kw)).
Proof. intros ME ST J. eapply p_C72_sound; [exact ST|]. eapply p_C72_fails; eauto. Qed.
(** a check for tables *)
Definition sound_b (t : dict) : bool := forallb (fun kv => match snd kv with VDict d => dmem "type" d | _ => false end) t.
Lemma sound_b_ok t : sound_b t = true -> sound_table t.
Proof.
  intros H n v D. apply RenameProofs.dget_in_gen in D. unfold sound_b in H. rewrite forallb_forall in H. specialize (H _ D). cbn [snd] in H. destruct v as [| | | | | |d]; try discriminate.
  unfold dmem in H. destruct (dget "type" d) as [x|] eqn:E; [|discriminate]. eauto.
Qed.
