(** * Entity classes: every entity of every history has a well formed class and direction. *)
From Coq Require Import Lia.
From Verif Require Import Py Num Util UtilFacts Classes SpecClass C3 C3Proofs Mixins Entity World WorldFacts
  Inv SpecWorld LayerProofs EntInv.
Open Scope Z_scope.

Lemma subseq_flat_map {A B} (f : A -> list B) l m : subseq l m -> subseq (flat_map f l) (flat_map f m).
Proof.
  induction 1 as [m|x l m H IH|x l m H IH]; simpl.
  - constructor.
  - induction (f x); simpl; auto. apply sub_skip; auto.
  - induction (f x); simpl; auto. apply sub_take; auto.
Qed.
Lemma in_statics ic c : In c (statics ic) <-> In (NS c) (ic_mro ic).
Proof.
  unfold statics. rewrite in_flat_map. split.
  - intros (x & I & S). destruct x; simpl in S; try tauto. destruct S as [->|[]]; auto.
  - intros I; exists (NS c); simpl; auto.
Qed.
Lemma in_cb_chain ic c : In c (cb_chain ic) <-> In (OwnCB c) (ic_cb ic).
Proof.
  unfold cb_chain. rewrite in_flat_map. split.
  - intros (x & I & S). destruct x; simpl in S; try tauto. destruct S as [->|[]]; auto.
  - intros I; exists (OwnCB c); simpl; auto.
Qed.
Lemma NoDup_flat_map1 {A B} (f : A -> list B) l : NoDup l -> (forall x, f x = [] \/ exists y, f x = [y]) ->
  (forall x y b, In b (f x) -> In b (f y) -> x = y) -> NoDup (flat_map f l).
Proof.
  intros N S I. induction N as [|x l Nx N IH]; simpl; [constructor|].
  destruct (S x) as [->|(y & E)]; auto. rewrite E. simpl. constructor; auto.
  rewrite in_flat_map. intros (z & Hz & Hy). assert (x = z) as ->; auto. apply (I x z y); auto. rewrite E; simpl; auto.
Qed.
Lemma statics_ordered ic : cls_inv ic -> well_ordered (statics ic).
Proof.
  intros C. split.
  - apply NoDup_flat_map1; [apply (ci_nodup _ C)|intros []; simpl; eauto|].
    intros [] [] b; simpl; intuition congruence.
  - intros c d I H N. apply in_statics in I.
    pose proof (ci_closed _ C (NS c) (NS d) I (conj H N)) as B. apply (subseq_flat_map static_of) in B. exact B.
Qed.
Lemma cb_chain_ordered ic : cls_inv ic -> cb_well_ordered (cb_chain ic).
Proof.
  intros C. split.
  - apply NoDup_flat_map1; [apply (ci_nodup_cb _ C)|intros []; simpl; eauto|].
    intros [] [] b; simpl; intuition congruence.
  - intros c d I O H N. apply in_cb_chain in I.
    pose proof (ci_closed_cb _ C (OwnCB c) (OwnCB d) I (conj O (conj H N))) as B.
    apply (subseq_flat_map own_of) in B. exact B.
Qed.
Lemma statics_shape ic : cls_inv ic -> statics ic = CEntity :: chain ic.
Proof.
  intros C. destruct (ci_shape _ C) as (d & r & E). unfold chain, statics. rewrite E, flat_map_app.
  replace (flat_map static_of (map ND d)) with (@nil scls) by (clear; induction d; simpl; auto).
  reflexivity.
Qed.
Lemma cb_chain_set ic c : cls_inv ic -> (In c (cb_chain ic) <-> In c (statics ic) /\ own_cb c = true).
Proof. intros C. rewrite in_cb_chain, in_statics. apply (ci_own _ C). Qed.
Lemma entity_cls_inv : cls_inv entity_cls. Proof. apply (base_inv 0). Qed.
Lemma set_mixins_inv ic ms ic' : set_mixins ic ms = Ok ic' -> cls_inv ic'.
Proof. unfold set_mixins. apply derive_inv, base_inv. Qed.

(** every chain ends with BaseMixin, Base, object *)
Lemma inherits_base c : c <> CBaseMixin -> c <> CBase -> c <> CObject -> inherits c CBaseMixin.
Proof.
  intros. apply inherits_smro, mem_node_In.
  assert (F : forall c, scls_eqb c CBaseMixin || scls_eqb c CBase || scls_eqb c CObject || mem_node (NS CBaseMixin) (smro c) = true)
    by (apply for_all_scls; vm_compute; reflexivity).
  specialize (F c). rewrite !orb_true_iff, !scls_eqb_eq in F. intuition congruence.
Qed.
Lemma before_last {A} (x y : A) l r : NoDup (l ++ x :: r) -> before y x (l ++ x :: r) -> In y l.
Proof.
  induction l as [|a l IH]; simpl; intros N B.
  - exfalso. inversion N as [|? ? Nx N']; subst. inversion B as [| ? ? ? B'|? ? ? B']; subst.
    + apply Nx. eapply subseq_in; eauto. simpl; auto.
    + apply Nx. eapply subseq_in; eauto. simpl; auto.
  - inversion N as [|? ? Na N']; subst. inversion B as [| ? ? ? B'|? ? ? B']; subst; auto.
Qed.
Lemma chain_tail ic : cls_inv ic -> exists l, chain ic = l ++ [CBaseMixin; CBase; CObject] /\
  ~ In CBaseMixin l /\ ~ In CBase l /\ ~ In CObject l.
Proof.
  intros C. pose proof (statics_ordered _ C) as (N & O). rewrite (statics_shape _ C) in N, O.
  assert (E : In CEntity (CEntity :: chain ic)) by (simpl; auto).
  assert (I : forall d, inherits CEntity d -> CEntity <> d -> In d (chain ic)).
  { intros d H Hd. pose proof (O CEntity d E H Hd) as B. assert (B' : In d (CEntity :: chain ic)) by (eapply subseq_in; [exact B|simpl; auto]).
    simpl in B'. tauto. }
  assert (I1 : In CBaseMixin (chain ic)). { apply I; [|discriminate]. apply inherits_smro, mem_node_In; reflexivity. }
  inversion N as [|? ? Ne N']; subst.
  assert (O' : forall c d, In c (chain ic) -> inherits c d -> c <> d -> before c d (chain ic)).
  { intros c d Hc H Hd. pose proof (O c d (or_intror Hc) H Hd) as B.
    inversion B as [| ? ? ? B'|? ? ? B']; subst; auto. destruct (Ne Hc). }
  apply in_split in I1 as (l & t & Et). exists l. rewrite Et in *.
  assert (T : forall c, In c t -> c = CBase \/ c = CObject).
  { intros c Hc. destruct (scls_eq_dec c CBase); auto. destruct (scls_eq_dec c CObject); auto. exfalso.
    assert (c <> CBaseMixin). { intros ->. apply NoDup_remove_2 in N'. apply N'. apply in_or_app; auto. }
    assert (B : before c CBaseMixin (l ++ CBaseMixin :: t)).
    { apply O'; auto; [apply in_or_app; simpl; auto|now apply inherits_base]. }
    apply before_last in B; auto. apply NoDup_remove_1 in N'. clear -N' B Hc.
    induction l as [|a l IH]; simpl in *; [tauto|]. inversion N'; subst. destruct B as [->|B]; auto.
    apply H1, in_or_app; auto. }
  assert (Hb : before CBaseMixin CBase (l ++ CBaseMixin :: t)).
  { apply O'; [apply in_or_app; simpl; auto|apply inherits_smro, mem_node_In; reflexivity|discriminate]. }
  assert (Ho : before CBase CObject (l ++ CBaseMixin :: t)).
  { apply O'; [eapply subseq_in; [exact Hb|simpl; auto]|apply inherits_smro, mem_node_In; reflexivity|discriminate]. }
  assert (Hm : before CBaseMixin CObject (l ++ CBaseMixin :: t)).
  { apply O'; [apply in_or_app; simpl; auto|apply inherits_smro, mem_node_In; reflexivity|discriminate]. }
  assert (NL : forall d, before CBaseMixin d (l ++ CBaseMixin :: t) -> In d t).
  { intros d B. clear -N' B. induction l as [|a l IH]; simpl in *.
    - inversion B as [| ? ? ? B'|? ? ? B']; subst.
      + inversion N'; subst. exfalso. apply H1. eapply subseq_in; eauto. simpl; auto.
      + eapply subseq_in; eauto; simpl; auto.
    - inversion N'; subst. inversion B as [| ? ? ? B'|? ? ? B']; subst; auto.
      destruct H1. apply in_or_app; simpl; auto. }
  pose proof (NL _ Hb) as Tb. pose proof (NL _ Hm) as To.
  assert (Nt : NoDup (l ++ t)) by (eapply NoDup_remove_1; eauto).
  assert (Nl : forall d, In d t -> ~ In d l).
  { intros d Hd Hl. clear -Nt Hd Hl. induction l as [|a l IH]; simpl in *; [tauto|]. inversion Nt; subst.
    destruct Hl as [->|Hl]; auto. apply H1, in_or_app; auto. }
  assert (t = [CBase; CObject]) as ->.
  { assert (NoDup t) as Ntt by (clear -Nt; induction l; simpl in *; auto; inversion Nt; auto).
    destruct t as [|a [|b [|c t]]].
    - destruct Tb.
    - destruct Tb as [->|[]], To as [?|[]]; discriminate.
    - destruct (T a) as [->| ->]; simpl; auto; destruct (T b) as [->| ->]; simpl; auto.
      + inversion Ntt; subst; simpl in *; tauto.
      + exfalso. assert (BB : before CBase CObject [CObject; CBase]).
        { assert (X : before CBase CObject ((l ++ [CBaseMixin]) ++ [CObject; CBase])) by now rewrite <- app_assoc.
          clear -X Nl. assert (Q : ~ In CBase (l ++ [CBaseMixin])).
          { intros I. apply in_app_or in I as [I|[I|[]]]; [|discriminate]. apply (Nl CBase); simpl; auto. }
          revert X Q. generalize (l ++ [CBaseMixin]). intros m. induction m as [|z m IH]; simpl; intros X Q; auto.
          inversion X as [| ? ? ? B'|? ? ? B']; subst; auto. tauto. }
        inversion BB as [| ? ? ? B'|? ? ? B']; subst. inversion B' as [| ? ? ? B''|? ? ? B'']; subst; inversion B''.
      + inversion Ntt; subst; simpl in *; tauto.
    - exfalso. destruct (T a) as [->| ->]; simpl; auto; destruct (T b) as [->| ->]; simpl; auto;
        destruct (T c) as [->| ->]; simpl; auto; inversion Ntt as [|? ? N1 N2]; subst; inversion N2 as [|? ? N3 N4]; subst; simpl in *; tauto. }
  split; auto. repeat split; intros X.
  - apply NoDup_remove_2 in N'. apply N'. apply in_or_app; auto.
  - apply (Nl CBase); simpl; auto.
  - apply (Nl CObject); simpl; auto.
Qed.

(** ** Every entity of every history *)
Definition fine (e : entity) : Prop := cls_inv (e_cls e).
Lemma set_name_fine p cust v e : fine e -> fine (fst (set_name p cust v e)).
Proof.
  unfold fine; intros C. unfold set_name. destruct (negb (e_strict e)); [destruct v; auto|].
  destruct (in_table v (p_entity p)) as [[]|]; auto. destruct v; auto.
  match goal with |- context [match ?t with Ok _ => _ | Err _ => _ end] => destruct t eqn:T end; auto.
  cbn. revert T. destruct (dget s (p_entity p)) as [data|]; [|discriminate].
  destruct (getitem data "type") as [t|]; [|discriminate]. cbn [bind]. destruct t; try discriminate.
  destruct (dget s0 type_mixins); try discriminate. apply derive_inv; auto.
Qed.
Lemma construct_name p cust l kw e : snd (construct p cust l kw) = Ok e ->
  exists name e0 e1, dget "name" kw = Some name /\ e_cls e0 = entity_cls /\
    set_name p cust name e0 = (e1, Ok tt) /\ e_cls e = e_cls e1 /\ e_name e = e_name e1.
Proof.
  intros H. unfold construct in H.
  destruct (negb (all_KS kw) || _ || _); [discriminate|].
  destruct (dget "name" kw) as [name|]; [|discriminate]. destruct (dget "position" kw) as [position|]; [|discriminate].
  match type of H with context [set_name p cust name ?x] => set (e0 := x) in * end.
  destruct (set_name p cust name e0) as [e1 [[]|err]] eqn:SN; [|discriminate].
  exists name, e0, e1. split; auto. split; auto. split; auto.
  destruct (vec_of_val position) as [pos|]; [|discriminate].
  destruct (dir_of_val _) as [d|]; [|discriminate]. cbn [bind] in H.
  destruct (dget "control_behavior" kw) as [cbv|].
  - destruct (as_kwargs cbv) as [cbkw|]; [|discriminate].
    destruct (dmem "self" cbkw || dmem "_entity" cbkw); [discriminate|].
    destruct (cb_init_chain _ _ _ _ _ _) as [st [a|]]; [|discriminate]. cbn [snd] in H.
    destruct (init_chain _ _ _ _ _ _); simpl in H; [|discriminate]. injection H as <-. auto.
  - cbn [snd] in H. destruct (init_chain _ _ _ _ _ _); simpl in H; [|discriminate]. injection H as <-. auto.
Qed.
Lemma stable_fine : stable fine.
Proof.
  split; try (intros; assumption).
  - intros p cust l kw e H. apply construct_name in H as (name & e0 & e1 & _ & E0 & SN & E & _).
    unfold fine. rewrite E. pose proof (set_name_fine p cust name e0) as F. rewrite SN in F. apply F.
    unfold fine. rewrite E0. apply entity_cls_inv.
  - intros n a cw e C. unfold entity_rotate. destruct (e_pos e); auto.
    match goal with |- context [match ?t with Ok _ => _ | Err _ => _ end] => destruct t as [q|] end; auto.
    destruct (rotate_chain _ _ _) as [[d' a'] r]. auto.
  - intros; now apply set_name_fine.
  - intros ms c e C H. now apply set_mixins_inv in H.
  - intros ms c e C H. eapply derive_inv; eauto.
Qed.
Lemma reach_cls w i e : reachable w -> ent w i = Some e -> cls_inv (e_cls e).
Proof. intros R. apply (reach_all fine stable_fine w R). Qed.

(** ** what composition gives *)
Lemma derive_composed ic ms ic' : cls_inv ic -> derive ic ms = Ok ic' -> composed (statics ic) ms ic'.
Proof.
  intros C D. pose proof (derive_inv _ _ _ C D) as C'. pose proof (derive_in _ _ _ C D) as I.
  pose proof (derive_ok _ _ _ D) as (r & k & E & (_ & _ & L) & _ & NE & _).
  assert (ST : statics ic' = flat_map static_of r) by (rewrite E; reflexivity).
  split.
  - now apply statics_ordered.
  - destruct (chain_tail _ C') as (l & T & _). exists l. rewrite (statics_shape _ C'), T. reflexivity.
  - intros c. rewrite !in_statics, I. split.
    + intros [X|[X|(m & Hm & X)]]; [discriminate|auto|]. right; exists m; split; auto. now apply inherits_smro.
    + intros [X|(m & Hm & X)]; auto. right; right; exists m; split; auto. now apply inherits_smro.
  - rewrite ST. assert (S1 : subseq (firstn 1 (ic_mro ic) ++ map NS ms) r).
    { apply L. unfold mro_lists. apply in_or_app. right; simpl; auto. }
    apply (subseq_flat_map static_of) in S1. rewrite flat_map_app in S1.
    assert (S2 : flat_map static_of (map NS ms) = ms) by (clear; induction ms; simpl; congruence).
    rewrite S2 in S1. clear -S1. induction (flat_map static_of (firstn 1 (ic_mro ic))) as [|x l IH]; auto.
    apply IH. simpl in S1. eapply subseq_trans; [|exact S1]. apply sub_skip, subseq_refl.
  - rewrite ST. apply (subseq_flat_map static_of). apply L. left; reflexivity.
  - now apply cb_chain_ordered.
  - intros c. now apply cb_chain_set.
Qed.
Lemma p_C46_add ic ms ic' w i e : reachable w -> ent w i = Some e -> e_cls e = ic ->
  add_mixins ic ms = Ok ic' -> composed (statics ic) ms ic'.
Proof. intros R He <-. apply derive_composed. eapply reach_cls; eauto. Qed.
Lemma p_C46_set ic ms ic' : set_mixins ic ms = Ok ic' -> composed (statics entity_cls) ms ic'.
Proof. unfold set_mixins. intros H. apply (derive_composed _ _ _ (base_inv _)) in H. exact H. Qed.
Lemma p_C46_reachable w i e : reachable w -> ent w i = Some e ->
  well_ordered (statics (e_cls e)) /\ cb_well_ordered (cb_chain (e_cls e)) /\
  (exists l, statics (e_cls e) = CEntity :: l ++ [CBaseMixin; CBase; CObject]) /\
  forall c, In c (cb_chain (e_cls e)) <-> In c (statics (e_cls e)) /\ own_cb c = true.
Proof.
  intros R He. pose proof (reach_cls _ _ _ R He) as C. split; [now apply statics_ordered|].
  split; [now apply cb_chain_ordered|]. split; [|intros c; now apply cb_chain_set].
  destruct (chain_tail _ C) as (l & T & _). exists l. rewrite (statics_shape _ C), T. reflexivity.
Qed.
Lemma derive_err ic ms : derive ic ms = Err EUnmodelled \/ derive ic ms = Err EType \/ exists ic', derive ic ms = Ok ic'.
Proof.
  unfold derive. destruct (existsb _ _); auto. destruct (c3_mro _ _ _ _); auto. destruct (c3_mro _ _ _ _); eauto.
Qed.
Lemma p_C46_total ty ms ic : In (ty, ms) type_mixins -> exists ic', set_mixins ic ms = Ok ic'.
Proof.
  intros H. unfold set_mixins.
  assert (F : forallb (fun p => match derive entity_cls (snd p) with Ok _ => true | _ => false end) type_mixins = true)
    by (vm_compute; reflexivity).
  rewrite forallb_forall in F. specialize (F _ H). cbn [snd] in F.
  destruct (derive entity_cls ms) as [i0|] eqn:D; [|discriminate].
  assert (NE : ~ In CEntity ms) by (apply derive_ok in D as (? & ? & _ & _ & _ & NE & _); exact NE).
  apply derive_iff; auto. apply (proj1 (derive_iff entity_cls ms NE)). eauto.
Qed.
Lemma p_C46_merge (ls : list (list node)) :
  match c3_merge node_eqb (c3_size ls) ls with
  | Some r => linearises ls r
  | None => ~ exists r, NoDup r /\ forall l, In l ls -> subseq l r
  end.
Proof.
  destruct (c3_merge node_eqb (c3_size ls) ls) as [r|] eqn:M.
  - eapply merge_sound; [apply node_eqb_eq|exact M].
  - intros (r & N & S). destruct (merge_complete _ node_eqb_eq _ _ r N S (le_n _)) as (r' & M'). congruence.
Qed.
Lemma p_C46_fails ic ms : ~ In CEntity ms ->
  (add_mixins ic ms = Err EType \/ exists ic', add_mixins ic ms = Ok ic') /\
  ((exists ic', add_mixins ic ms = Ok ic') <->
   (exists r, NoDup r /\ subseq (ic_mro ic) r /\ (forall m, In m ms -> subseq (smro m) r) /\
              subseq (firstn 1 (ic_mro ic) ++ map NS ms) r) /\
   (exists k, NoDup k /\ subseq (ic_cb ic) k /\ (forall m, In m ms -> has_cb m = true -> subseq (cbmro m) k) /\
              subseq (firstn 1 (ic_cb ic) ++ map CombCB (filter has_cb ms)) k)).
Proof.
  intros NE. unfold add_mixins. split.
  - unfold derive. rewrite (proj2 (no_entity_existsb ms) NE). destruct (c3_mro _ _ _ _); auto. destruct (c3_mro _ _ _ _); eauto.
  - rewrite (derive_iff ic ms NE). unfold mro_lists, cb_lists. split.
    + intros ((r & N & S) & (k & N' & S')). split; [exists r|exists k]; split; auto.
      * split; [apply S; left; reflexivity|]. split; [intros m Hm|]; apply S; apply in_or_app; [left; right; now apply in_map|right; left; reflexivity].
      * split; [apply S'; left; reflexivity|]. split; [intros m Hm Hb|]; apply S'; apply in_or_app;
          [left; right; apply in_map, filter_In; auto|right; left; reflexivity].
    + intros ((r & N & S1 & S2 & S3) & (k & N' & T1 & T2 & T3)). split; [exists r|exists k]; split; auto.
      * intros l Hl. apply in_app_or in Hl as [[<-|Hl]|[<-|[]]]; auto. apply in_map_iff in Hl as (m & <- & Hm); auto.
      * intros l Hl. apply in_app_or in Hl as [[<-|Hl]|[<-|[]]]; auto. apply in_map_iff in Hl as (m & <- & Hm).
        apply filter_In in Hm as [Hm Hb]. auto.
Qed.
