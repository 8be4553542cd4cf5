(** * Renaming an entity: what its class becomes and what is exported afterwards. *)
From Coq Require Import Lia.
From Verif Require Import EntTrip Py Num Util C3 Classes SpecClass C3Proofs Mixins Entity World DictFacts DocProofs SpecWorld SpecDoc SpecEntity
  WorldFacts Inv LayerProofs PersistProofs ClassProofs ChainFacts EntProofs SpecRename GrowProofs.
Open Scope Z_scope.

(** ** classes that already contain the mixins *)
Record settled (ms : list scls) (ic : icls) : Prop := mkSettled {
  se_heads : exists n r m k, ic_mro ic = ND n :: r /\ ic_cb ic = DynCB m :: k;
  se_mros : forall m, In m ms -> subseq (smro m) (ic_mro ic); se_order : subseq (map NS ms) (ic_mro ic);
  se_cbs : forall m, In m ms -> has_cb m = true -> subseq (cbmro m) (ic_cb ic);
  se_cb_order : subseq (map CombCB (filter has_cb ms)) (ic_cb ic) }.
Lemma subseq_drop_head {A} (x : A) l m : subseq ([x] ++ l) m -> subseq l m.
Proof. cbn. apply subseq_tail. Qed.
Lemma subseq_firstn {A} (a b : list A) m : subseq (firstn 1 a ++ b) m -> subseq b m.
Proof. destruct a; cbn; auto. apply subseq_tail. Qed.
Lemma derive_settled ic ms ic' : derive ic ms = Ok ic' -> settled ms ic'.
Proof.
  intros D. apply derive_ok in D as (r & k & -> & (_ & _ & S) & (_ & _ & K) & _). unfold mro_lists in S. unfold cb_lists in K.
  constructor; cbn [ic_mro ic_cb].
  - eauto 6.
  - intros m I. apply sub_skip, S. apply in_or_app. left. right. now apply in_map.
  - apply sub_skip. eapply subseq_firstn. apply S. apply in_or_app. right. left. reflexivity.
  - intros m I H. apply sub_skip, K. apply in_or_app. left. right. apply in_map, filter_In; auto.
  - apply sub_skip. eapply subseq_firstn. apply K. apply in_or_app. right. left. reflexivity.
Qed.
Lemma derive_subseq ic ms ic' : derive ic ms = Ok ic' -> subseq (ic_mro ic) (ic_mro ic') /\ subseq (ic_cb ic) (ic_cb ic').
Proof.
  intros D. apply derive_ok in D as (r & k & -> & (_ & _ & S) & (_ & _ & K) & _). split; cbn; apply sub_skip; [apply S|apply K]; left; reflexivity.
Qed.
Lemma settled_derive ms ic ms' ic' : settled ms ic -> derive ic ms' = Ok ic' -> settled ms ic'.
Proof.
  intros [H A B C E] D. destruct (derive_subseq _ _ _ D) as (SM & SK). constructor.
  - apply derive_ok in D as (r & k & -> & _). cbn. eauto 6.
  - intros m I. eapply subseq_trans; eauto.
  - eapply subseq_trans; eauto.
  - intros m I Hm. eapply subseq_trans; eauto.
  - eapply subseq_trans; eauto.
Qed.
Lemma settled_sub ms ms' ic : settled (ms ++ ms') ic -> settled ms' ic.
Proof.
  intros [H A B C E]. constructor; auto.
  - intros m I. apply A, in_or_app; auto.
  - rewrite map_app in B. clear -B. induction ms as [|c ms IH]; cbn in *; auto. apply IH. eapply subseq_tail; eauto.
  - intros m I. apply C, in_or_app; auto.
  - rewrite filter_app, map_app in E. clear -E. induction (map CombCB (filter has_cb ms)) as [|c l IH]; cbn in *; auto. apply IH. eapply subseq_tail; eauto.
Qed.
Definition again (ic : icls) : icls := mkCls (S (ic_depth ic)) (ND (S (ic_depth ic)) :: ic_mro ic) (DynCB (S (ic_depth ic)) :: ic_cb ic).
Lemma subseq_skip_head {A} (x : A) l m : ~ In x l -> subseq l (x :: m) -> subseq l m.
Proof. intros N H. inversion H; subst; auto; [constructor|]. exfalso. apply N. now left. Qed.
Lemma settled_again ms ic : cls_inv ic -> settled ms ic -> ~ In CEntity ms -> derive ic ms = Ok (again ic).
Proof.
  intros C [H A B K E] NE. unfold derive, c3_mro. rewrite (proj2 (no_entity_existsb ms) NE). fold (mro_lists ic ms). fold (cb_lists ic ms).
  destruct H as (n & r & m & k & EM & EC).
  rewrite (merge_dominant _ node_eqb_eq (mro_lists ic ms) (ic_mro ic)).
  - cbn [option_map]. rewrite (merge_dominant _ node_eqb_eq (cb_lists ic ms) (ic_cb ic)).
    + reflexivity.
    + apply (ci_nodup_cb _ C).
    + left. reflexivity.
    + intros l Hl. unfold cb_lists in Hl. apply in_app_or in Hl as [[<-|Hl]|[<-|[]]].
      * apply subseq_refl.
      * apply in_map_iff in Hl as (c & <- & Hc). apply filter_In in Hc as (Hc & Hb). auto.
      * rewrite EC in *. cbn. apply sub_take. eapply subseq_skip_head; [|exact E].
        intros I. apply in_map_iff in I as (c & X & _). discriminate.
  - apply (ci_nodup _ C).
  - left. reflexivity.
  - intros l Hl. unfold mro_lists in Hl. apply in_app_or in Hl as [[<-|Hl]|[<-|[]]].
    + apply subseq_refl.
    + apply in_map_iff in Hl as (c & <- & Hc). auto.
    + rewrite EM in *. cbn. apply sub_take. eapply subseq_skip_head; [|exact B].
      intros I. apply in_map_iff in I as (c & X & _). discriminate.
Qed.
Lemma again_statics ic : statics (again ic) = statics ic /\ chain (again ic) = chain ic /\ cb_chain (again ic) = cb_chain ic.
Proof. repeat split. Qed.
Lemma dget_in_gen {V} (k : key) (v : V) d : dget k d = Some v -> In (k, v) d.
Proof. induction d as [|[k' v'] d IH]; cbn; [discriminate|]. destruct (key_eqb k k') eqn:E; auto. apply key_eqb_eq in E. subst. intros [= ->]. auto. Qed.
Lemma type_no_entity ty ms : dget ty type_mixins = Some ms -> ~ In CEntity ms.
Proof.
  intros H I. apply dget_in_gen in H.
  assert (F : forallb (fun p => negb (existsb (scls_eqb CEntity) (snd p))) type_mixins = true) by (vm_compute; reflexivity).
  rewrite forallb_forall in F. specialize (F _ H). cbn [snd] in F. apply Bool.negb_true_iff in F. now apply no_entity_existsb in F.
Qed.

(** ** what grows *)
Record grows (e e' : entity) : Prop := mkGrows {
  gr_settled : forall ms, settled ms (e_cls e) -> settled ms (e_cls e');
  gr_mro : subseq (ic_mro (e_cls e)) (ic_mro (e_cls e'));
  gr_statics : subseq (statics (e_cls e)) (statics (e_cls e'));
  gr_attrs : forall k, dget k (e_at e') = None <-> dget k (e_at e) = None;
  gr_cb : e_cb e' = e_cb e; gr_strict : e_strict e' = e_strict e }.
Lemma grows_same e e' : e_cls e' = e_cls e -> e_at e' = e_at e -> e_cb e' = e_cb e -> e_strict e' = e_strict e -> grows e e'.
Proof. intros A B C D. constructor; rewrite ?A, ?B; auto; try tauto; apply subseq_refl. Qed.
Lemma grows_derive e e' ms : derive (e_cls e) ms = Ok (e_cls e') -> e_at e' = e_at e -> e_cb e' = e_cb e -> e_strict e' = e_strict e -> grows e e'.
Proof.
  intros A B C D. constructor; rewrite ?B; auto; try tauto.
  - intros ms' S. eapply settled_derive; eauto.
  - eapply derive_subseq; eauto.
  - apply (subseq_flat_map static_of). eapply derive_subseq; eauto.
Qed.
Lemma set_name_cases p cust v e : exists e', fst (set_name p cust v e) = e' /\ e_at e' = e_at e /\ e_cb e' = e_cb e /\ e_strict e' = e_strict e /\
  (e_cls e' = e_cls e \/ exists ms, derive (e_cls e) ms = Ok (e_cls e')).
Proof.
  eexists; split; [reflexivity|]. unfold set_name. destruct (negb (e_strict e)); [destruct v; cbn; auto 10|].
  destruct (in_table v (p_entity p)) as [[]|]; [|cbn; auto 10..]. destruct v; try (cbn; auto 10; fail).
  match goal with |- context [match ?t with Ok _ => _ | Err _ => _ end] => destruct t as [ic|x] eqn:T end; cbn [fst with_name with_cls e_cls e_at e_cb e_strict]; auto 10.
  repeat split; auto. right.
  revert T. destruct (dget s (p_entity p)) as [data|]; [|discriminate].
  destruct (getitem data "type") as [t|]; [|discriminate]. cbn [bind]. destruct t; try discriminate.
  destruct (dget s0 type_mixins) as [ms|]; [|discriminate]. intros T. exists (odflt [] (dget s0 cust) ++ ms). exact T.
Qed.
Lemma rotate_chain_attrs n l : forall st st' r, rotate_chain n l st = (st', r) -> forall k, dget k (snd st') = None <-> dget k (snd st) = None.
Proof.
  assert (L : forall c st st' r, rotate_link n c st = (st', r) -> forall k, dget k (snd st') = None <-> dget k (snd st) = None).
  { intros c [d a] st' r H k. destruct c; try (injection H as <- _; tauto). cbn [rotate_link] in H.
    destruct (orientation_of a) as [o|] eqn:O; [|injection H as <- _; tauto].
    match type of H with match ?t with Ok _ => _ | Err _ => _ end = _ => destruct t as [v|] end; injection H as <- _; [|tauto].
    cbn [snd]. rewrite dget_dset'. destruct (key_eqb k "orientation") eqn:E; [|tauto]. apply key_eqb_eq in E. subst k.
    unfold orientation_of, aget in O. destruct (dget "orientation" a); [|discriminate]. split; discriminate. }
  induction l as [|c l IH]; intros st st' r H k; cbn [rotate_chain] in H; [injection H as <- _; tauto|].
  destruct (rotate_link n c st) as [st1 x] eqn:E. destruct x; [|injection H as <- _; eauto].
  rewrite (IH _ _ _ H k). eauto.
Qed.
Lemma growing_grows : growing grows.
Proof.
  split; [split|..]; try (intros; now apply grows_same).
  - intros a b c [A1 A0 A2 A3 A4 A5] [B1 B0 B2 B3 B4 B5]. constructor; try congruence; auto.
    + eapply subseq_trans; eauto.
    + eapply subseq_trans; eauto.
    + intros k. rewrite B3. auto.
  - intros n a cw e. unfold entity_rotate. destruct (e_pos e) as [v|]; [|now apply grows_same].
    match goal with |- context [match ?t with Ok _ => _ | Err _ => _ end] => destruct t end; [|now apply grows_same].
    match goal with |- context [rotate_chain ?x ?y ?z] => destruct (rotate_chain x y z) as [[d at'] r] eqn:E end.
    pose proof (rotate_chain_attrs _ _ _ _ _ E) as K. cbn [snd fst] in *. cbn in K.
    constructor; cbn; auto; apply subseq_refl.
  - intros p cust v e. destruct (set_name_cases p cust v e) as (e' & E & A & B & C & [D|(ms & D)]); rewrite E; [now apply grows_same|eapply grows_derive; eauto].
  - intros ms c e H. eapply grows_derive; eauto.
Qed.

(** the part of it that assignments to attributes respect *)
Record kin (e e' : entity) : Prop := mkKin {
  ki_settled : forall ms, settled ms (e_cls e) -> settled ms (e_cls e');
  ki_mro : subseq (ic_mro (e_cls e)) (ic_mro (e_cls e')); ki_strict : e_strict e' = e_strict e }.
Lemma grows_kin e e' : grows e e' -> kin e e'. Proof. intros []. constructor; auto. Qed.
Lemma growing_kin : growing kin.
Proof.
  pose proof growing_grows as [[A B C D E F H] I J]. split; [split|..]; intros; try (apply grows_kin; eauto; fail).
  destruct H0, H1. constructor; auto; [eapply subseq_trans; eauto|congruence].
Qed.
Lemma tolerant_kin : tolerant kin.
Proof. split; intros; constructor; cbn; auto; apply subseq_refl. Qed.

(** the same, and the class and the name stay *)
Definition sticks (e e' : entity) : Prop := grows e e' /\ e_name e' = e_name e /\ e_cls e' = e_cls e.
Lemma tame_sticks : tame sticks.
Proof.
  pose proof growing_grows as [[A B C D E F H] _ _]. split; try (intros; split; [auto|split; reflexivity]).
  - intros a b c (X1 & X2 & X3) (Y1 & Y2 & Y3). split; [eauto|split; congruence].
  - intros n a cw e. split; [auto|]. unfold entity_rotate. destruct (e_pos e) as [v|]; [|auto].
    match goal with |- context [match ?t with Ok _ => _ | Err _ => _ end] => destruct t end; [|auto].
    match goal with |- context [rotate_chain ?x ?y ?z] => destruct (rotate_chain x y z) as [[d at'] r] end. auto.
Qed.

(** ** what an operation makes *)
Definition cust_of (w : world) (l : option nat) : customs :=
  match l with Some b => match blu w b with Some x => b_custom x | None => [] end | None => [] end.
Definition nb (n : nat) (w : world) : Prop := length (w_ents w) = n.
Lemma nb_upd n i f w : nb n w -> nb n (upd_ent i f w).
Proof. unfold nb, upd_ent. cbn. now rewrite lupd_length. Qed.
Lemma nb_bp n b f w : nb n w -> nb n (upd_bp b f w). Proof. auto. Qed.
Lemma nb_reindex n i l w : nb n w -> nb n (reindex i l w). Proof. unfold nb. now rewrite reindex_length. Qed.
Ltac nb :=
  repeat match goal with
    | |- keeps _ (ret _) => apply keeps_ret
    | |- keeps _ (raise _) => apply keeps_raise
    | |- keeps _ (gets _) => apply keeps_gets
    | |- keeps _ (mbind _ _) => apply keeps_bind; [|intros ?]
    | |- keeps _ (forM _ _) => apply keeps_forM; intros ? ?
    | |- keeps _ (mapMM _ _) => apply keeps_mapMM; intros ? ?
    | |- keeps _ (modify _) => apply keeps_modify; intros ? ?; first [now apply nb_upd|now apply nb_bp|now apply nb_reindex]
    | |- keeps _ (if ?c then _ else _) => destruct c
    | |- keeps _ (match ?c with _ => _ end) => destruct c
    end.
Lemma nb_sort n b : keeps (nb n) (sort_layer b).
Proof. unfold sort_layer, get_bp. nb. Qed.
Lemma nb_add n b o : keeps (nb n) (layer_add b o).
Proof. unfold layer_add, get_ent, get_bp. destruct o; nb. apply nb_sort. Qed.
Lemma nb_get_connections n e : keeps (nb n) (get_connections e).
Proof. unfold get_connections, get_ent, get_bp. nb. Qed.
Lemma nb_parse n b : keeps (nb n) (parse_connections b).
Proof.
  unfold parse_connections, get_bp. apply keeps_bind; [nb|]. intros x. apply keeps_bind.
  - intros w H. destruct (foldE _ _ _). now apply nb_bp.
  - intros _. nb. apply nb_get_connections.
Qed.
Lemma nb_tail n b d : keeps (nb n) (load_tail b d).
Proof.
  unfold load_tail, get_bp. apply keeps_bind; [apply nb_sort|]. intros _. apply keeps_bind; [apply nb_parse|]. intros _.
  apply keeps_bind; [nb|]. intros tiles. apply keeps_bind; [nb|]. intros x. apply keeps_bind; [|intros; nb].
  intros w1 H. destruct (foldE _ _ _). now apply nb_bp.
Qed.
Lemma nb_scheds n b d : keeps (nb n) (load_scheds b d).
Proof. unfold load_scheds. nb. Qed.
Lemma ent_none w i : ent w i = None <-> (length (w_ents w) <= i)%nat.
Proof. unfold ent. apply nth_error_None. Qed.
Lemma ent_some w i e : ent w i = Some e -> (i < length (w_ents w))%nat.
Proof. intros H. apply nth_error_Some. unfold ent in H. congruence. Qed.

(** an entity an operation makes is constructed from the tables of the moment *)
Definition fresh_from (w : world) (e : entity) : Prop :=
  exists l kw e1, snd (construct (w_protos w) (cust_of w l) l kw) = Ok e1 /\ sticks e1 e.
Lemma made_new l kw w i e : ent w i = None -> ent (fst (new_entity l kw w)) i = Some e -> 
  exists e1, snd (construct (w_protos w) (cust_of w l) l kw) = Ok e1 /\ e = e1 /\ snd (new_entity l kw w) = Ok i.
Proof.
  intros N H. unfold new_entity, mbind, get_bp, gets, ret in *.
  assert (K : forall cust, ent (fst (match snd (construct (w_protos w) cust l kw) with Err x => (w, Err x) | Ok e => (new_ent e w, Ok (length (w_ents w))) end)) i = Some e ->
    cust = cust_of w l -> exists e1, snd (construct (w_protos w) (cust_of w l) l kw) = Ok e1 /\ e = e1 /\
    snd (match snd (construct (w_protos w) cust l kw) with Err x => (w, Err x) | Ok e => (new_ent e w, Ok (length (w_ents w))) end) = Ok i).
  { intros cust G <-. destruct (snd (construct (w_protos w) cust l kw)) as [e1|x]; cbn [fst snd] in *; [|congruence].
    rewrite ent_new in G. destruct (Nat.eqb_spec i (length (w_ents w))) as [->|]; [|congruence]. injection G as <-. eauto. }
  destruct l as [b|].
  - unfold cust_of in *. destruct (blu w b) as [x|]; [|cbn in H; congruence]. apply K; auto.
  - apply K; auto.
Qed.
Lemma load_entities_old b cust l : forall w i e, ent w i = Some e -> ent (fst (fst (load_entities b cust l w))) i = Some e.
Proof.
  induction l as [|v r IH]; cbn [load_entities]; intros w i e H; [exact H|].
  destruct v; try exact H.
  destruct (construct (w_protos w) cust (Some b) d) as [kw' [e1|x]]; [|exact H].
  set (w1 := upd_bp b (fun x => b_set_objs (b_objs x ++ [length (w_ents w)]) x) (new_ent e1 w)).
  specialize (IH w1 i e). destruct (load_entities b cust r w1) as [[w2 r'] o]. cbn [fst] in *. apply IH.
  unfold w1. rewrite ent_upd_bp, ent_new. destruct (Nat.eqb_spec i (length (w_ents w))) as [E|]; auto.
  apply ent_some in H. lia.
Qed.
Lemma made_entities b cust l : forall w i e, ent w i = None -> ent (fst (fst (load_entities b cust l w))) i = Some e ->
  exists kw, snd (construct (w_protos w) cust (Some b) kw) = Ok e.
Proof.
  induction l as [|v r IH]; cbn [load_entities]; intros w i e N H; [cbn in H; congruence|].
  destruct v; try (cbn in H; congruence).
  destruct (construct (w_protos w) cust (Some b) d) as [kw' [e1|x]] eqn:C; [|cbn in H; congruence].
  set (w1 := upd_bp b (fun x => b_set_objs (b_objs x ++ [length (w_ents w)]) x) (new_ent e1 w)) in *.
  pose proof (load_entities_old b cust r w1 i e1) as P. specialize (IH w1 i e).
  destruct (load_entities b cust r w1) as [[w2 r'] o]. cbn [fst] in *.
  assert (E1 : ent w1 i = if Nat.eqb i (length (w_ents w)) then Some e1 else ent w i) by (unfold w1; rewrite ent_upd_bp; apply ent_new).
  destruct (Nat.eqb_spec i (length (w_ents w))) as [E|NE].
  - rewrite (P E1) in H. injection H as <-. exists d. now rewrite C.
  - rewrite N in E1. destruct (IH E1 H) as (kw & K). eauto.
Qed.
Lemma made_fresh w o i e : makes o -> ent w i = None -> ent (fst (step o w)) i = Some e -> fresh_from w e.
Proof.
  intros MK N H. destruct o; try destruct MK; cbn [step] in H; rewrite ?drop_res_fst in H.
  - unfold load in H. destruct (blu w b) as [x|] eqn:Hx; [|cbn in H; congruence].
    assert (L : forall d, ent (fst (fst (load_inner b (b_custom x) d w))) i = Some e -> fresh_from w e).
    { clear H. intros d H. unfold load_inner in H. pose proof (load_head_frame b d w) as (FP & FE).
      destruct (load_head b d w) as [w1 [u|y]]; cbn [fst] in *; [|unfold ent in *; congruence].
      assert (N1 : ent w1 i = None) by (unfold ent in *; congruence).
      destruct (iter_val _) as [ents|]; [|cbn in H; congruence].
      pose proof (made_entities b (b_custom x) ents w1 i) as ME.
      destruct (load_entities b (b_custom x) ents w1) as [[w2 l'] [u2|y]]; cbn [fst] in *.
      2: { destruct (ME _ N1 H) as (kw & K). exists (Some b), kw, e. unfold cust_of. rewrite Hx, <- FP. split; auto. apply (g_refl _ tame_sticks). }
      assert (F : forall w3, nb (length (w_ents w2)) w3 -> persists i sticks w2 w3 -> ent w3 i = Some e -> fresh_from w e).
      { intros w3 B P Q. destruct (ent w2 i) as [e2|] eqn:E2.
        - destruct (ME _ N1 eq_refl) as (kw & K). destruct (P _ E2) as (e3 & E3 & G). rewrite Q in E3. injection E3 as <-.
          exists (Some b), kw, e2. unfold cust_of. now rewrite Hx, <- FP.
        - apply ent_none in E2. apply ent_some in Q. unfold nb in B. lia. }
      pose proof (nb_tail (length (w_ents w2)) b d w2 eq_refl) as B2.
      assert (P2 : persists i sticks w2 (fst (load_tail b d w2))).
      { apply (per_tail i sticks tame_sticks). }
      destruct (load_tail b d w2) as [w3 [u3|y]]; cbn [fst] in *; [|apply (F w3); auto].
      pose proof (nb_scheds _ b d w3 B2) as B3.
      assert (P3 : persists i sticks w3 (fst (load_scheds b d w3))) by apply (per_scheds i sticks tame_sticks).
      destruct (load_scheds b d w3) as [w4 r4]. cbn [fst] in *. apply (F w4); auto.
      eapply (persists_trans i sticks tame_sticks); eauto. }
    destruct doc; try (cbn in H; congruence). destruct (dget "blueprint" d) as [v|].
    + destruct v; try (cbn in H; congruence). specialize (L d0). destruct (load_inner b (b_custom x) d0 w) as [[w' i'] r]. auto.
    + specialize (L d). destruct (load_inner b (b_custom x) d w) as [[w' i'] r]. auto.
  - destruct (made_new _ _ _ _ _ N H) as (e1 & C & -> & _). exists layer, kw, e1. split; auto. apply (g_refl _ tame_sticks).
  - unfold layer_make in H. rewrite mbind_fst in H. destruct (snd (new_entity (Some b) kw w)) as [j|y] eqn:E.
    2: { destruct (made_new _ _ _ _ _ N H) as (e1 & C & -> & X). congruence. }
    rewrite mbind_fst in H. set (w1 := fst (new_entity (Some b) kw w)) in *.
    assert (Q : ent (fst (layer_add b (OEnt j) w1)) i = Some e) by (destruct (snd (layer_add b (OEnt j) w1)); exact H).
    pose proof (nb_add (length (w_ents w1)) b (OEnt j) w1 eq_refl) as B.
    destruct (ent w1 i) as [e1|] eqn:E1.
    + destruct (made_new _ _ _ _ _ N E1) as (e2 & C & -> & _).
      destruct (per_add i sticks tame_sticks b (OEnt j) w1 _ E1) as (e3 & E3 & G). rewrite Q in E3. injection E3 as <-.
      exists (Some b), kw, e2. auto.
    + apply ent_none in E1. apply ent_some in Q. unfold nb in B. lia.
Qed.

(** ** names with a known type *)
Lemma set_name_typed p cust s (ty : string) e ms : type_of p s ty -> e_strict e = true -> dget ty type_mixins = Some ms ->
  set_name p cust (VStr s) e = match derive (e_cls e) (odflt [] (dget ty cust) ++ ms) with
    | Ok ic => (with_cls ic (with_name (VStr s) e), Ok tt) | Err x => (with_name (VStr s) e, Err x) end.
Proof.
  intros (data & ED & TY) ST EM. unfold set_name. rewrite ST. cbn [negb in_table].
  assert (M : dmem s (p_entity p) = true) by (unfold dmem; now rewrite ED). rewrite M, ED. cbn [getitem]. rewrite TY. cbn [bind].
  rewrite EM. cbn [with_name e_cls]. unfold add_mixins. destruct (derive _ _); reflexivity.
Qed.
Lemma set_name_typed_ok p cust s (ty : string) e e' : type_of p s ty -> e_strict e = true -> set_name p cust (VStr s) e = (e', Ok tt) ->
  exists ms, dget ty type_mixins = Some ms /\ derive (e_cls e) (odflt [] (dget ty cust) ++ ms) = Ok (e_cls e').
Proof.
  intros T ST H. destruct (dget ty type_mixins) as [ms|] eqn:EM.
  - exists ms. split; auto. rewrite (set_name_typed _ _ _ _ _ _ T ST EM) in H. destruct (derive _ _); [|discriminate]. now injection H as <-.
  - exfalso. destruct T as (data & ED & TY). unfold set_name in H. rewrite ST in H. cbn [negb in_table] in H.
    destruct (dmem s (p_entity p)); [|discriminate]. rewrite ED in H. cbn [getitem] in H. rewrite TY in H. cbn [bind] in H. rewrite EM in H. discriminate.
Qed.
Lemma set_name_strict_name p cust v e e' : e_strict e = true -> set_name p cust v e = (e', Ok tt) -> exists s, v = VStr s /\ e_name e' = VStr s.
Proof.
  intros ST H. unfold set_name in H. rewrite ST in H. cbn [negb] in H. destruct (in_table v (p_entity p)) as [[]|]; try discriminate.
  destruct v; try discriminate. exists s. split; auto.
  match type of H with context [match ?t with Ok _ => _ | Err _ => _ end] => destruct t end; [|discriminate]. now injection H as <-.
Qed.
Lemma construct_naming p cust l kw e : snd (construct p cust l kw) = Ok e ->
  exists name e0 e1, e_cls e0 = entity_cls /\ e_strict e0 = e_strict e /\ set_name p cust name e0 = (e1, Ok tt) /\ e_cls e = e_cls e1 /\ e_name e = e_name e1.
Proof.
  intros H. unfold construct in H.
  destruct (negb (all_KS kw) || _ || _); [discriminate|].
  destruct (dget "name" kw) as [name|]; [|discriminate]. destruct (dget "position" kw) as [position|]; [|discriminate].
  match type of H with context [set_name p cust name ?x] => set (e0 := x) in * end.
  destruct (set_name_cases p cust name e0) as (e1' & E1 & _ & _ & S1 & _).
  destruct (set_name p cust name e0) as [e1 [[]|err]] eqn:SN; [|discriminate]. cbn [fst] in E1. subst e1'. symmetry in S1.
  exists name, e0, e1. split; auto.
  destruct (vec_of_val position) as [pos|]; [|discriminate].
  destruct (dir_of_val _) as [d|]; [|discriminate]. cbn [bind] in H.
  destruct (dget "control_behavior" kw) as [cbv|].
  - destruct (as_kwargs cbv) as [cbkw|]; [|discriminate].
    destruct (dmem "self" cbkw || dmem "_entity" cbkw); [discriminate|].
    destruct (cb_init_chain _ _ _ _ _ _) as [st [a|]]; [|discriminate]. cbn [snd] in H.
    destruct (init_chain _ _ _ _ _ _); simpl in H; [|discriminate]. injection H as <-. auto.
  - cbn [snd] in H. destruct (init_chain _ _ _ _ _ _); simpl in H; [|discriminate]. injection H as <-. auto.
Qed.
Lemma fresh_cls w e s (ty : string) : fresh_from w e -> e_strict e = true -> e_name e = VStr s -> type_of (w_protos w) s ty ->
  exists l ms, dget ty type_mixins = Some ms /\ derive entity_cls (odflt [] (dget ty (cust_of w l)) ++ ms) = Ok (e_cls e).
Proof.
  intros (l & kw & e1 & C & G & NM & CL) ST N T. apply construct_naming in C as (name & e0 & e2 & C0 & S0 & SN & CE & NE).
  rewrite <- (gr_strict _ _ G) in S0. rewrite ST in S0. destruct (set_name_strict_name _ _ _ _ _ S0 SN) as (s' & -> & N2).
  assert (s' = s) by congruence. subst s'. destruct (set_name_typed_ok _ _ _ _ _ _ T S0 SN) as (ms & EM & D).
  exists l, ms. split; auto. rewrite <- C0. congruence.
Qed.
Lemma became_settled wa o i (ty : string) : became wa o i ty -> 
  exists e ms, ent (fst (step o wa)) i = Some e /\ e_strict e = true /\ dget ty type_mixins = Some ms /\ settled ms (e_cls e).
Proof.
  intros [(e & s & He & ST & N & T) HOW]. exists e. destruct HOW as [(MK & NO)|(v & -> & OK)].
  - destruct (fresh_cls wa e s ty (made_fresh _ _ _ _ MK NO He) ST N T) as (l & ms & EM & D).
    exists ms. split; [auto|]. split; [auto|]. split; [auto|]. apply derive_settled in D. eapply settled_sub; eauto.
  - cbn [step] in *. unfold rename in *. destruct (ent wa i) as [e0|] eqn:E0; [|discriminate].
    set (cust := match e_layer e0 with Some _ => _ | None => _ end) in *.
    destruct (set_name_cases (w_protos wa) cust v e0) as (e' & E' & _ & _ & S' & _).
    destruct (set_name (w_protos wa) cust v e0) as [e1 r] eqn:SN. cbn [fst snd] in *. subst e' r.
    rewrite ent_upd, Nat.eqb_refl, E0 in He. injection He as ->. rewrite S' in ST.
    destruct (set_name_strict_name _ _ _ _ _ ST SN) as (s' & -> & N2). assert (s' = s) by congruence. subst s'.
    destruct (set_name_typed_ok _ _ _ _ _ _ T ST SN) as (ms & EM & D). exists ms. split; [rewrite ent_upd, Nat.eqb_refl, E0; reflexivity|]. split; [congruence|]. split; [auto|].
    apply derive_settled in D. eapply settled_sub; eauto.
Qed.

(** ** exports of a world in which one entity has another name *)
Lemma dset_swap {V} k k' (v v' : V) d : k <> k' -> dmem k d = true -> dset k v (dset k' v' d) = dset k' v' (dset k v d).
Proof.
  intros N. induction d as [|[x u] d IH]; [discriminate|]. unfold dmem in *. cbn [dget dset]. intros H.
  destruct (key_eqb k' x) eqn:E'; destruct (key_eqb k x) eqn:E; cbn [dset]; rewrite ?E, ?E'; auto.
  - apply key_eqb_eq in E, E'. congruence.
  - now rewrite IH.
Qed.
Lemma dmem_dset {V} k k' (v : V) d : dmem k d = true -> dmem k (dset k' v d) = true.
Proof. unfold dmem. rewrite dget_dset'. destruct (key_eqb k k'); auto. Qed.
Definition nm (s : string) (o : dict) : dict := dset "name" (VStr s) o.
Definition rmap {A B} (f : A -> B) (r : res A) : res B := match r with Ok a => Ok (f a) | Err e => Err e end.
Lemma nm_dset s k v o : k <> KS "name" -> dmem "name" o = true -> nm s (dset k v o) = dset k v (nm s o).
Proof. intros N H. unfold nm. apply dset_swap; auto. Qed.
Lemma nm_obj_set s (k : string) v o : k <> "name" -> dmem "name" o = true -> nm s (obj_set o k v) = obj_set (nm s o) k v.
Proof. intros N H. unfold obj_set. destruct v; auto; apply nm_dset; auto; congruence. Qed.
Lemma dmem_obj_set (k : key) (k' : string) v o : dmem k o = true -> dmem k (obj_set o k' v) = true.
Proof. intros H. unfold obj_set. destruct v; auto; now apply dmem_dset. Qed.
Ltac hasname := repeat first [assumption|apply dmem_obj_set|apply dmem_dset].
Ltac named_obj := repeat first [rewrite nm_obj_set by (first [discriminate|hasname])|rewrite nm_dset by (first [discriminate|hasname])]; try reflexivity.
Lemma json_mixin_name p dir c a o s : dmem "name" o = true ->
  json_mixin p dir c a (nm s o) = rmap (nm s) (json_mixin p dir c a o) /\
  (forall o', json_mixin p dir c a o = Ok o' -> dmem "name" o' = true).
Proof.
  intros H.
  destruct c; cbn [json_mixin rmap];
    repeat (match goal with
    | |- context [let! _ := ?r in _] => destruct r as [?|?]; cbn [bind rmap]
    | |- context [if ?b then _ else _] => destruct b; cbn [bind rmap]
    | |- context [match ?v with VDict _ => _ | _ => _ end] => destruct v; cbn [bind rmap]
    | |- context [match ?d with [] => _ | _ :: _ => _ end] => destruct d; cbn [bind rmap]
    end); (split; [named_obj|intros o' [= <-]; repeat first [assumption|apply dmem_obj_set|apply dmem_dset]]);
    try (intros o' [=]).
Qed.

Lemma json_chain_name p dir cls cb a s l : forall o, dmem "name" o = true ->
  json_chain p dir cls cb l a (nm s o) = rmap (nm s) (json_chain p dir cls cb l a o).
Proof.
  assert (ST : forall c l o, c <> CBaseMixin -> json_chain p dir cls cb (c :: l) a o = let! o := json_mixin p dir c a o in json_chain p dir cls cb l a o).
  { intros c l' o N. destruct c; try reflexivity. congruence. }
  induction l as [|c l IH]; intros o H; [reflexivity|]. destruct (scls_eq_dec c CBaseMixin) as [->|N].
  - cbn [json_chain]. destruct cb as [cb|]; [|reflexivity]. destruct (cb_json p cls cb); [|reflexivity]. cbn [bind rmap]. now rewrite nm_obj_set.
  - rewrite !ST by auto. destruct (json_mixin_name p dir c a o s H) as (E & K). rewrite E.
    destruct (json_mixin p dir c a o) as [o'|x]; [|reflexivity]. cbn [rmap bind]. apply IH. auto.
Qed.

(** [e'] is [e] under another name and possibly another class *)
Record twins (e e' : entity) : Prop := mkTwins {
  tw_layer : e_layer e' = e_layer e; tw_auto : e_auto e' = e_auto e; tw_pos : e_pos e' = e_pos e; tw_dir : e_dir e' = e_dir e;
  tw_cb : e_cb e' = e_cb e; tw_at : e_at e' = e_at e }.
Record alike (e e' : entity) : Prop := mkAlike { al_layer : e_layer e' = e_layer e; al_auto : e_auto e' = e_auto e }.
Lemma twins_alike e e' : twins e e' -> alike e e'. Proof. intros T. constructor; apply T. Qed.
Section Twin.
Context (i : nat) (e e' : entity) (T : alike e e').
Definition U (w : world) : world := upd_ent i (fun _ => e') w.
Definition holds_e (w : world) : Prop := ent w i = Some e.
Lemma U_ent w j : holds_e w -> ent (U w) j = if Nat.eqb i j then Some e' else ent w j.
Proof. intros H. unfold U. rewrite ent_upd. destruct (Nat.eqb_spec i j) as [<-|]; auto. now rewrite H. Qed.
Lemma U_blu w b : blu (U w) b = blu w b. Proof. reflexivity. Qed.
Lemma U_protos w : w_protos (U w) = w_protos w. Proof. reflexivity. Qed.
Lemma U_bp w b f : U (upd_bp b f w) = upd_bp b f (U w). Proof. reflexivity. Qed.
Lemma U_end w o : holds_e w -> end_auto (U w) o = end_auto w o.
Proof.
  intros H. destruct o as [j|]; auto. cbn. rewrite U_ent by auto. destruct (Nat.eqb_spec i j) as [<-|]; auto. rewrite H. now rewrite (al_auto _ _ T).
Qed.
Lemma U_get_connections w j : holds_e w -> get_connections j (U w) = (U (fst (get_connections j w)), snd (get_connections j w)) /\ holds_e (fst (get_connections j w)).
Proof.
  intros H. unfold get_connections, mbind, get_ent, get_bp, gets, modify. rewrite U_ent by auto.
  assert (L : exists a a', ent w j = Some a /\ (if Nat.eqb i j then Some e' else ent w j) = Some a' /\ e_layer a' = e_layer a \/ (if Nat.eqb i j then Some e' else ent w j) = None /\ ent w j = None).
  { destruct (Nat.eqb_spec i j) as [<-|].
    - exists e, e'. left. repeat split; auto. apply (al_layer _ _ T).
    - destruct (ent w j) as [a|] eqn:E; [exists a, a; auto|exists e, e; auto]. }
  destruct L as (a & a' & [(E1 & E2 & E3)|(E1 & E2)]).
  - rewrite E2, E1, E3. destruct (e_layer a) as [b|]; [|cbn; auto]. rewrite U_blu. destruct (blu w b) as [x|]; [|cbn; auto]. cbn [fst snd].
    rewrite <- U_bp. set (w1 := upd_bp b _ w). assert (H1 : holds_e w1) by exact H. split; [|exact H1]. f_equal.
    erewrite WorldFacts.mapM_ext; [reflexivity|]. intros c _. cbn beta. unfold conn_key. rewrite !U_end by auto. reflexivity.
  - rewrite E1, E2. cbn. auto.
Qed.
Context (NR : nr_connections e' = nr_connections e).
Lemma U_conns w j cs : holds_e w -> forall o, conns_json (U w) j cs o = conns_json w j cs o.
Proof.
  intros H. induction cs as [|c cs IH]; intros o; [reflexivity|]. cbn [conns_json].
  assert (K : conn_json1 (U w) j o c = conn_json1 w j o c).
  { unfold conn_json1. destruct (c_to c) as [t|]; auto. rewrite U_ent by auto. destruct (Nat.eqb_spec i t) as [<-|]; auto. rewrite H.
    assert (CE : forall fs, conn_entry e' fs = conn_entry e fs) by (intros fs; unfold conn_entry; now rewrite NR, (al_auto _ _ T)).
    now rewrite !CE. }
  rewrite K. destruct (conn_json1 w j o c); [|reflexivity]. cbn [bind]. auto.
Qed.
Lemma U_connections_json w j : holds_e w -> connections_to_json j (U w) = (U (fst (connections_to_json j w)), snd (connections_to_json j w)) /\ holds_e (fst (connections_to_json j w)).
Proof.
  intros H. unfold connections_to_json, mbind, gets. destruct (U_get_connections w j H) as (E & K). rewrite E.
  destruct (get_connections j w) as [w1 [cs|x]]; cbn [fst snd] in *; auto. split; auto. now rewrite U_conns.
Qed.
(** the part of the export before the mixins *)
Definition stem (x : entity) (v : vec) (cs : dict) : dict :=
  let o := [(KS "entity_number", e_auto x); (KS "name", e_name x); (KS "position", vec_to_json v)] in
  match cs with [] => o | _ => dset "connections" (VDict cs) o end.
Lemma ent_json_eq j w : ent_json j w = match ent w j with None => (w, Err EUnmodelled) | Some a =>
  match e_pos a with None => (w, Err EAttribute) | Some v =>
    match connections_to_json j w with
    | (w1, Ok cs) => (w1, let! d := json_chain (w_protos w1) (e_dir a) (statics (e_cls a)) (e_cb a) (chain (e_cls a)) (e_at a) (stem a v cs) in Ok (VDict d))
    | (w1, Err x) => (w1, Err x) end end end.
Proof.
  unfold ent_json, mbind, get_ent, gets. destruct (ent w j) as [a|]; [|reflexivity]. destruct (e_pos a) as [v|]; [|reflexivity].
  destruct (connections_to_json j w) as [w1 [cs|x]]; reflexivity.
Qed.
Lemma U_ent_json_other w j : holds_e w -> j <> i -> ent_json j (U w) = (U (fst (ent_json j w)), snd (ent_json j w)) /\ holds_e (fst (ent_json j w)).
Proof.
  intros H N. rewrite !ent_json_eq, U_ent by auto. apply Nat.eqb_neq in N. rewrite Nat.eqb_sym in N. rewrite N.
  destruct (ent w j) as [a|]; [|cbn; auto]. destruct (e_pos a) as [v|]; [|cbn; auto]. destruct (U_connections_json w j H) as (E & K). rewrite E.
  destruct (connections_to_json j w) as [w1 [cs|x]]; cbn [fst snd] in *; auto.
Qed.
Lemma U_ent_json_self (T' : twins e e') w s : holds_e w -> e_name e' = VStr s -> exists w1, fst (ent_json i w) = w1 /\ holds_e w1 /\ fst (ent_json i (U w)) = U w1 /\
  match e_pos e, snd (connections_to_json i w) with
  | Some v, Ok cs =>
      snd (ent_json i w) = (let! d := json_chain (w_protos w) (e_dir e) (statics (e_cls e)) (e_cb e) (chain (e_cls e)) (e_at e) (stem e v cs) in Ok (VDict d)) /\
      snd (ent_json i (U w)) = (let! d := json_chain (w_protos w) (e_dir e) (statics (e_cls e')) (e_cb e) (chain (e_cls e')) (e_at e) (nm s (stem e v cs)) in Ok (VDict d))
  | _, _ => exists x, snd (ent_json i w) = Err x /\ snd (ent_json i (U w)) = Err x
  end.
Proof.
  intros H NM. rewrite !ent_json_eq, U_ent by auto. rewrite Nat.eqb_refl, H.
  rewrite (tw_pos _ _ T'). destruct (e_pos e) as [v|]; [|cbn; eauto 8].
  pose proof (U_connections_json w i H) as (E & K).
  assert (PR : w_protos (fst (connections_to_json i w)) = w_protos w).
  { unfold connections_to_json, get_connections, mbind, get_ent, get_bp, gets, modify. rewrite H. destruct (e_layer e); [|reflexivity].
    destruct (blu w n); [|reflexivity]. cbn [fst]. match goal with |- context [match ?r with Ok _ => _ | Err _ => _ end] => destruct r end; reflexivity. }
  rewrite E. destruct (connections_to_json i w) as [w1 [cs|x]]; cbn [fst snd] in *; [|eauto 8].
  exists w1. split; auto. split; auto. split; auto. rewrite U_protos, PR, (tw_dir _ _ T'), (tw_cb _ _ T'), (tw_at _ _ T').
  split; [reflexivity|]. replace (stem e' v cs) with (nm s (stem e v cs)); [reflexivity|]. unfold stem. rewrite (tw_auto _ _ T'), NM. destruct cs; reflexivity.
Qed.
End Twin.

(** ** a name of the type the entity already has *)
Lemma plain_cust w i (ty : string) e : plain_layer w i ty -> ent w i = Some e -> dget ty (cust_of w (e_layer e)) = None.
Proof. intros P H. unfold cust_of. destruct (e_layer e) as [b|] eqn:E; [|reflexivity]. destruct (blu w b) eqn:Eb; [|reflexivity]. eapply P; eauto. Qed.
Lemma lupd_same {A} (x : A) l : forall i, nth_error l i = Some x -> lupd i (fun _ => x) l = l.
Proof. induction l as [|y l IH]; intros [|i] H; cbn in *; try discriminate; auto; [now injection H as ->|now rewrite IH]. Qed.
Lemma became_persists wa o i (ty : string) ops e : became wa o i ty -> Forall (leaves_mixins i) ops -> ent (run ops (fst (step o wa))) i = Some e ->
  exists ms, dget ty type_mixins = Some ms /\ settled ms (e_cls e) /\ e_strict e = true.
Proof.
  intros B L He. destruct (became_settled _ _ _ _ B) as (e0 & ms & E0 & S0 & EM & SE).
  destruct (run_grows i kin growing_kin growing_kin ops (or_intror (conj L tolerant_kin)) _ _ E0) as (e1 & E1 & G). assert (e1 = e) by congruence. subst e1.
  exists ms. split; [auto|]. split; [now apply (ki_settled _ _ G)|]. now rewrite (ki_strict _ _ G).
Qed.
Lemma rename_eq i v w e : ent w i = Some e -> rename i v w = let '(e', r) := set_name (w_protos w) (cust_of w (e_layer e)) v e in (U i e' w, r).
Proof. intros H. unfold rename. now rewrite H. Qed.
Lemma U_only_renamed w i e ic s : ent w i = Some e -> only_renamed w (U i (with_cls ic (with_name (VStr s) e)) w) i s.
Proof.
  intros H. split; [reflexivity|]. split; [reflexivity|]. split; [now apply (nb_upd (length (w_ents w)))|]. split.
  - intros j N. rewrite (U_ent i e) by auto. apply Nat.eqb_neq in N. rewrite Nat.eqb_sym in N. now rewrite N.
  - exists e, (with_cls ic (with_name (VStr s) e)). split; [auto|]. split; [|reflexivity]. rewrite (U_ent i e) by auto. now rewrite Nat.eqb_refl.
Qed.
Lemma p_C47_same wa o i (ty : string) ops w s : became wa o i ty -> Forall (leaves_mixins i) ops -> w = run ops (fst (step o wa)) -> reachable w ->
  plain_layer w i ty -> type_of (w_protos w) s ty ->
  exists w', rename i (VStr s) w = (w', Ok tt) /\ only_renamed w w' i s /\
    snd (ent_json i w') = with_new_name s (snd (ent_json i w)) /\ forall j, j <> i -> snd (ent_json j w') = snd (ent_json j w).
Proof.
  intros B L EW R CU T.
  assert (X : exists e, ent w i = Some e).
  { destruct (became_settled _ _ _ _ B) as (e0 & ms & E0 & _). destruct (run_grows i kin growing_kin growing_kin ops (or_intror (conj L tolerant_kin)) _ _ E0) as (e1 & E1 & _). exists e1. now subst w. }
  destruct X as (e & He). destruct (became_persists wa o i ty ops e B L) as (ms & EM & SE & ST); [now subst w|].
  pose proof (settled_again _ _ (reach_cls _ _ _ R He) SE (type_no_entity _ _ EM)) as D.
  set (e' := with_cls (again (e_cls e)) (with_name (VStr s) e)).
  assert (TW : twins e e') by (constructor; reflexivity).
  destruct (again_statics (e_cls e)) as (A1 & A2 & A3).
  assert (NR : nr_connections e' = nr_connections e) by (unfold nr_connections, e'; cbn [with_cls e_cls]; now rewrite A1).
  exists (U i e' w). split.
  { rewrite (rename_eq i _ w e He), (set_name_typed _ _ _ _ _ _ T ST EM), (plain_cust _ _ _ _ CU He). cbn [odflt app]. now rewrite D. }
  split; [apply U_only_renamed; auto|]. split.
  - destruct (U_ent_json_self i e e' (twins_alike _ _ TW) NR TW w s He eq_refl) as (w1 & _ & _ & _ & Q). destruct (e_pos e) as [v|], (snd (connections_to_json i w)) as [cs|x];
      try (destruct Q as (x' & -> & ->); reflexivity). destruct Q as (-> & ->). unfold e'. cbn [with_cls e_cls]. rewrite A1, A2, json_chain_name.
    + destruct (json_chain _ _ _ _ _ _ _) as [d|]; reflexivity.
    + unfold stem. destruct cs; reflexivity.
  - intros j N. destruct (U_ent_json_other i e e' (twins_alike _ _ TW) NR w j He N) as (E & _). now rewrite E.
Qed.

(** ** mixins in another order *)
Fixpoint subb (l m : list node) : bool :=
  match m with [] => match l with [] => true | _ => false end
  | y :: m' => match l with [] => true | x :: l' => if node_eqb x y then subb l' m' else subb l m' end end.
Lemma subb_ok m : forall l, subb l m = true -> subseq l m.
Proof.
  induction m as [|y m IH]; intros [|x l] H; try discriminate; try apply sub_nil. cbn [subb] in H. destruct (node_eqb x y) eqn:E.
  - apply node_eqb_eq in E. subst. apply sub_take; auto.
  - apply sub_skip; auto.
Qed.
Lemma swap_absurd {A} (x y : A) l : NoDup l -> x <> y -> subseq [x; y] l -> subseq [y; x] l -> False.
Proof.
  intros N D. induction l as [|z l IH]; intros P Q; [inversion P|]. inversion N; subst. inversion P; subst; inversion Q; subst; try congruence; auto.
  - match goal with H : subseq [x; z] l |- _ => apply (subseq_in _ _ z) in H; [auto|cbn; auto] end.
  - match goal with H : subseq [y; z] l |- _ => apply (subseq_in _ _ z) in H; [auto|cbn; auto] end.
Qed.
Lemma chain_order {A} (x y z : A) l : NoDup l -> subseq [x; y] l -> subseq [y; z] l -> subseq [x; z] l.
Proof.
  intros N. induction l as [|u l IH]; intros P Q; [inversion P|]. inversion N; subst. inversion Q; subst.
  - inversion P; subst.
    + apply sub_skip. auto.
    + apply sub_take. eapply subseq_tail; eauto.
  - exfalso. inversion P; subst.
    + match goal with H : subseq [x; u] l |- _ => apply (subseq_in _ _ u) in H; [auto|cbn; auto] end.
    + match goal with H : subseq [u] l |- _ => apply (subseq_in _ _ u) in H; [auto|cbn; auto] end.
Qed.
(** an order of two classes that every class derived with the mixins [ms] has *)
Definition wants1 (ms : list scls) (x y : node) : bool := subb [x; y] (map NS ms) || existsb (fun m => subb [x; y] (smro m)) ms.
Definition wants (ms : list scls) (x y : node) : bool := wants1 ms x y || existsb (fun m => wants1 ms x (NS m) && wants1 ms (NS m) y) ms.
Lemma wants1_settled ms ic x y : settled ms ic -> wants1 ms x y = true -> subseq [x; y] (ic_mro ic).
Proof.
  intros S W. unfold wants1 in W. apply Bool.orb_true_iff in W as [W|W].
  - eapply subseq_trans; [apply subb_ok, W|apply (se_order _ _ S)].
  - apply existsb_exists in W as (m & I & W). eapply subseq_trans; [apply subb_ok, W|now apply (se_mros _ _ S)].
Qed.
Lemma wants_settled ms ic x y : NoDup (ic_mro ic) -> settled ms ic -> wants ms x y = true -> subseq [x; y] (ic_mro ic).
Proof.
  intros N S W. unfold wants in W. apply Bool.orb_true_iff in W as [W|W]; [eapply wants1_settled; eauto|].
  apply existsb_exists in W as (m & _ & W). apply andb_prop in W as (W1 & W2). eapply (chain_order x (NS m) y); eauto; eapply wants1_settled; eauto.
Qed.
Definition pair_wants (ms : list scls) (ic : icls) : bool :=
  existsb (fun x => existsb (fun y => negb (node_eqb x y) && subb [x; y] (ic_mro ic) && wants ms y x) (ic_mro ic)) (ic_mro ic).
Definition mixins_of (ty : string) : list scls := odflt [] (dget ty type_mixins).
Lemma clash_table : forallb (fun p => pair_wants (mixins_of (snd p)) (cls_of (fst p)) && match derive entity_cls (mixins_of (fst p)) with Ok _ => true | _ => false end
   && negb (existsb (scls_eqb CEntity) (mixins_of (snd p)))) clashes = true.
Proof. vm_compute. reflexivity. Qed.
Definition str2_eqb (p q : string * string) : bool := String.eqb (fst p) (fst q) && String.eqb (snd p) (snd q).
Lemma others_table : forallb (fun f => forallb (fun g => existsb (str2_eqb (fst f, fst g)) clashes ||
  match derive (cls_of (fst f)) (mixins_of (fst g)) with Ok _ => true | _ => false end) formats) formats = true.
Proof. vm_compute. reflexivity. Qed.

Lemma made_cls wa o i (ty : string) : made_as wa o i ty -> 
  exists e ms, ent (fst (step o wa)) i = Some e /\ e_strict e = true /\ dget ty type_mixins = Some ms /\ e_cls e = cls_of ty /\ fresh_from wa e /\ derive entity_cls ms = Ok (cls_of ty).
Proof.
  intros [(e & s & He & ST & N & T) (MK & NO) PL]. pose proof (made_fresh _ _ _ _ MK NO He) as F.
  destruct (fresh_cls wa e s ty F ST N T) as (l & ms & EM & D). exists e, ms. split; [auto|]. split; [auto|]. split; [auto|].
  assert (CU : dget ty (cust_of wa l) = None).
  { destruct l as [b|]; [|reflexivity]. cbn. destruct (blu wa b) eqn:Eb; [|reflexivity]. eapply PL; eauto. }
  rewrite CU in D. cbn [odflt app] in D. assert (E : e_cls e = cls_of ty) by (unfold cls_of, add_mixins; now rewrite EM, D).
  split; [auto|]. split; [auto|]. now rewrite <- E.
Qed.
Lemma p_C47_clash wa o i (ty0 ty : string) ops w s : made_as wa o i ty0 -> Forall (leaves_mixins i) ops -> w = run ops (fst (step o wa)) -> reachable w ->
  In (ty0, ty) clashes -> plain_layer w i ty -> type_of (w_protos w) s ty ->
  exists e, ent w i = Some e /\ rename i (VStr s) w = (upd_ent i (fun _ => with_name (VStr s) e) w, Err EType).
Proof.
  intros B L EW R C CU T. destruct (made_cls _ _ _ _ B) as (e0 & ms0 & E0 & S0 & EM0 & CL & F & D0).
  destruct (run_grows i kin growing_kin growing_kin ops (or_intror (conj L tolerant_kin)) _ _ E0) as (e & He & G). rewrite <- EW in He. exists e. split; [auto|].
  pose proof clash_table as K. rewrite forallb_forall in K. specialize (K _ C). cbn [fst snd] in K.
  apply andb_prop in K as (K & NE). apply andb_prop in K as (K & _). unfold pair_wants in K. apply existsb_exists in K as (x & _ & K). apply existsb_exists in K as (y & _ & K).
  apply andb_prop in K as (K & W). apply andb_prop in K as (NXY & O).
  assert (EM : dget ty type_mixins = Some (mixins_of ty)).
  { unfold mixins_of in *. destruct (dget ty type_mixins) as [ms|]; [reflexivity|]. cbn in W. discriminate. }
  rewrite (rename_eq i _ w e He), (set_name_typed _ _ _ _ _ (mixins_of ty) T); [|rewrite (ki_strict _ _ G); auto|exact EM]. rewrite (plain_cust _ _ _ _ CU He). cbn [odflt app].
  destruct (derive_err (e_cls e) (mixins_of ty)) as [X|[X|(ic' & X)]].
  - exfalso. unfold derive in X. apply Bool.negb_true_iff in NE. rewrite NE in X. destruct (c3_mro _ _ _ _); [|discriminate]. destruct (c3_mro _ _ _ _); discriminate.
  - rewrite X. reflexivity.
  - exfalso. assert (CI' : cls_inv ic') by (eapply derive_inv; [eapply (reach_cls w); eauto|eauto]).
    apply (swap_absurd x y (ic_mro ic')).
    + apply (ci_nodup _ CI').
    + intros ->. assert (Q : node_eqb y y = true) by now apply node_eqb_eq. rewrite Q in NXY. discriminate.
    + eapply subseq_trans; [apply subb_ok, O|]. rewrite <- CL. eapply subseq_trans; [apply (ki_mro _ _ G)|]. eapply derive_subseq; eauto.
    + eapply wants_settled; eauto; [apply (ci_nodup _ CI')|]. eapply derive_settled; eauto.
Qed.
Lemma p_C47_known wa o i (ty0 ty : string) own0 cb0 own cb s : made_as wa o i ty0 -> In (ty0, (own0, cb0)) formats -> In (ty, (own, cb)) formats ->
  ~ In (ty0, ty) clashes -> let w := fst (step o wa) in plain_layer w i ty -> type_of (w_protos w) s ty ->
  exists w', rename i (VStr s) w = (w', Ok tt) /\ only_renamed w w' i s.
Proof.
  intros B F0 F1 NC w CU T. destruct (made_cls _ _ _ _ B) as (e & ms0 & He & S0 & EM0 & CL & F & D0). fold w in He.
  pose proof others_table as K. rewrite forallb_forall in K. specialize (K _ F0). cbv beta in K. rewrite forallb_forall in K. specialize (K _ F1). cbn [fst] in K.
  apply Bool.orb_true_iff in K as [K|K].
  - exfalso. apply existsb_exists in K as (p & I & E). unfold str2_eqb in E. apply andb_prop in E as (E1 & E2). cbn [fst snd] in *.
    apply String.eqb_eq in E1, E2. subst. apply NC. now destruct p.
  - assert (EM : dget ty type_mixins = Some (mixins_of ty)).
    { unfold mixins_of. destruct (dget ty type_mixins) as [ms|] eqn:Q; [reflexivity|]. exfalso. apply (p_C32_formats (KS ty)); eauto. }
    rewrite (rename_eq i _ w e He), (set_name_typed _ _ _ _ _ _ T S0 EM), (plain_cust _ _ _ _ CU He), CL. cbn [odflt app]. destruct (derive (cls_of ty0) (mixins_of ty)) as [ic|]; [|discriminate].
    eexists. split; [reflexivity|]. now apply U_only_renamed.
Qed.
Lemma p_C47_unknown i s w e : ent w i = Some e -> e_strict e = true -> dget (KS s) (p_entity (w_protos w)) = None -> rename i (VStr s) w = (w, Err EUnknownEntity).
Proof.
  intros He ST N. rewrite (rename_eq i _ w e He). unfold set_name. rewrite ST. cbn [negb in_table]. unfold dmem. rewrite N.
  unfold U, upd_ent. rewrite lupd_same by exact He. now destruct w.
Qed.

(** ** settings the entity was never given *)
(** what one link writes *)
Definition written (p : protos) (dir : direction) (c : scls) (a : dict) : res dict := json_mixin p dir c a [].
Definition overlay (u o o' : dict) : Prop := forall k, dget k o' = match dget k u with Some v => Some v | None => dget k o end.
Lemma overlay_nil o : overlay [] o o. Proof. intros k. reflexivity. Qed.
Lemma overlay_dset u o o' k v : overlay u o o' -> overlay (dset k v u) o (dset k v o').
Proof. intros H k'. rewrite !dget_dset'. destruct (key_eqb k' k); auto. Qed.
Lemma overlay_obj_set u o o' k v : overlay u o o' -> overlay (obj_set u k v) o (obj_set o' k v).
Proof. intros H. destruct v; cbn [obj_set]; auto; now apply overlay_dset. Qed.
Lemma link_written p dir c a o : match written p dir c a with
  | Err x => json_mixin p dir c a o = Err x
  | Ok u => exists o', json_mixin p dir c a o = Ok o' /\ overlay u o o' end.
Proof.
  unfold written.
  destruct c; cbn [json_mixin];
    repeat (match goal with
    | |- context [let! _ := ?r in _] => destruct r as [?|?]; cbn [bind]
    | |- context [if ?b then _ else _] => destruct b; cbn [bind]
    | |- context [match ?v with VDict _ => _ | _ => _ end] => destruct v; cbn [bind]
    | |- context [match ?d with [] => _ | _ :: _ => _ end] => destruct d; cbn [bind]
    end); try reflexivity;
    (eexists; split; [reflexivity|]; repeat first [apply overlay_nil|apply overlay_dset|apply overlay_obj_set]).
Qed.
Lemma absent_link p dir c a : (forall k : string, In k (mattrs c) -> dget (KS k) a = None) ->
  (exists u, written p dir c a = Ok u /\ (forall k, k <> KS "direction" -> dget k u = None)) \/ written p dir c a = Err EAttribute.
Proof.
  intros H. unfold written. destruct c; cbn [json_mixin mattrs mkeys] in *; unfold aget, dsc;
    repeat match goal with |- context [dget (KS ?s) a] => rewrite (H s) by (cbn; tauto); cbn [bind odflt obj_set] end; auto;
    left; eexists; (split; [reflexivity|]); intros k N; try reflexivity.
  destruct (dir =? 0); [reflexivity|]. cbn. destruct (key_eqb k "direction") eqn:E; [|reflexivity]. apply key_eqb_eq in E. congruence.
Qed.
Lemma absent_fails p dir c a k : (forall k : string, In k (mattrs c) -> dget (KS k) a = None) -> In k (mkeys c) -> ~ In k optional_settings ->
  written p dir c a = Err EAttribute.
Proof.
  intros H I N. unfold written. destruct c; cbn [json_mixin mattrs mkeys] in *; try contradiction; unfold aget;
    try (exfalso; apply N; destruct I as [<-|[]]; cbn; tauto);
    match goal with |- context [dget (KS ?s) a] => rewrite (H s) by (cbn; tauto) end; reflexivity.
Qed.

Lemma attrs_from p strict name cls l : forall st a, init_chain p strict name cls l st = Ok a -> forall k, dget k a <> None ->
  dget k (i_at st) <> None \/ exists c f, In c l /\ c <> CBaseMixin /\ k = KS f /\ In f (mattrs c).
Proof.
  assert (ST : forall c r st, c <> CBaseMixin -> init_chain p strict name cls (c :: r) st = let! st' := init_mixin p strict cls c st in init_chain p strict name cls r st').
  { intros c r st N. destruct c; try reflexivity. congruence. }
  induction l as [|c l IH]; intros st a H k K; [injection H as <-; auto|]. destruct (scls_eq_dec c CBaseMixin) as [->|NB].
  { cbn [init_chain] in H. apply bind_ok in H as (? & _ & H). injection H as <-. auto. }
  rewrite ST in H by auto. apply bind_ok in H as (st' & M & H). destruct (IH _ _ H k K) as [X|(c' & f & I & N & E & F)]; [|right; exists c', f; cbn; auto].
  assert (D : dget k (i_at st') <> None -> dget k (i_at st) <> None \/ exists f, k = KS f /\ In f (mattrs c)); [|destruct (D X) as [Y|(f & -> & F)]; [auto|right; exists c, f; cbn; auto]].
  clear -M NB. destruct st as [n kw at_]. destruct (scls_eq_dec c CItems) as [->|NI].
  - cbn [init_mixin i_kw i_args i_at] in M. destruct (odflt _ _) as [| | | | | |d]; try discriminate. apply bind_ok in M as (? & _ & M).
    destruct (ddel "items" kw) as [|kv r]; injection M as <-; unfold consume; cbn [i_at fold_left fst snd]; intros X; rewrite dget_dset' in X;
      (destruct (key_eqb k "items") eqn:E; [apply key_eqb_eq in E; right; exists "items"; cbn; auto|left; exact X]).
  - rewrite init_mixin_char in M by auto. apply bind_ok in M as (u & MU & M). injection M as <-. cbn [i_at]. intros X. rewrite dget_putall in X.
    destruct (dget k (rev u)) as [v|] eqn:E; [|auto]. right. apply dget_in in E. apply in_rev in E. now apply (proj1 (mats_attrs _ _ _ _ _ _ MU k)); eauto.
Qed.
Lemma construct_attrs p cust l kw e : snd (construct p cust l kw) = Ok e -> exists name st, i_at st = [] /\
  init_chain p (e_strict e) name (statics (e_cls e)) (chain (e_cls e)) st = Ok (e_at e).
Proof.
  intros H. unfold construct in H.
  destruct (negb (all_KS kw) || _ || _); [discriminate|].
  destruct (dget "name" kw) as [name|]; [|discriminate]. destruct (dget "position" kw) as [position|]; [|discriminate].
  match type of H with context [set_name p cust name ?x] => set (e0 := x) in * end.
  destruct (set_name_cases p cust name e0) as (e1' & E1 & _ & _ & S1 & _).
  destruct (set_name p cust name e0) as [e1 [[]|err]] eqn:SN; [|discriminate]. cbn [fst] in E1. subst e1'.
  destruct (vec_of_val position) as [pos|]; [|discriminate].
  destruct (dir_of_val _) as [d|]; [|discriminate]. cbn [bind] in H.
  destruct (dget "control_behavior" kw) as [cbv|].
  - destruct (as_kwargs cbv) as [cbkw|]; [|discriminate].
    destruct (dmem "self" cbkw || dmem "_entity" cbkw); [discriminate|].
    destruct (cb_init_chain _ _ _ _ _ _) as [st [a|]]; [|discriminate]. cbn [snd] in H.
    destruct (init_chain _ _ _ _ _ _) eqn:IC; simpl in H; [|discriminate]. injection H as <-. eexists _, _. split; [|exact IC]. reflexivity.
  - cbn [snd] in H. destruct (init_chain _ _ _ _ _ _) eqn:IC; simpl in H; [|discriminate]. injection H as <-. eexists _, _. split; [|exact IC]. reflexivity.
Qed.

Lemma conns_any i e' w j cs : ent w i <> None -> forall o u o', conns_json w j cs o = Ok u -> exists u', conns_json (U i e' w) j cs o' = Ok u'.
Proof.
  intros H. induction cs as [|c cs IH]; intros o u o' E; [cbn; eauto|]. cbn [conns_json] in *. apply bind_ok in E as (o1 & E1 & E2).
  unfold conn_json1 in *. destruct (c_to c) as [t|]; [|discriminate]. unfold U at 1. rewrite ent_upd. destruct (ent w t) as [te|] eqn:Et; [|discriminate].
  destruct (Nat.eqb i t); cbn [bind]; (eapply IH; exact E2).
Qed.
Lemma protos_connections_json i w : w_protos (fst (connections_to_json i w)) = w_protos w.
Proof.
  unfold connections_to_json, get_connections, mbind, get_ent, get_bp, gets, modify. destruct (ent w i) as [e|]; [|reflexivity]. destruct (e_layer e) as [b|]; [|reflexivity].
  destruct (blu w b); [|reflexivity]. cbn [fst]. match goal with |- context [match ?r with Ok _ => _ | Err _ => _ end] => destruct r end; reflexivity.
Qed.
Lemma rename_connections i e e' w cs : twins e e' -> ent w i = Some e -> snd (connections_to_json i w) = Ok cs -> exists cs', snd (connections_to_json i (U i e' w)) = Ok cs'.
Proof.
  intros T H C. unfold connections_to_json, mbind, gets in *. destruct (U_get_connections i e e' (twins_alike _ _ T) w i H) as (E & K). rewrite E.
  destruct (get_connections i w) as [w1 [l|x]]; cbn [fst snd] in *; [|discriminate]. eapply conns_any; [unfold holds_e in K; congruence|eauto].
Qed.
Lemma chain_step p dir cls cb a c l o : c <> CBaseMixin -> json_chain p dir cls cb (c :: l) a o = let! o := json_mixin p dir c a o in json_chain p dir cls cb l a o.
Proof. intros N. destruct c; try reflexivity. congruence. Qed.
Lemma chain_links p dir cls cb a l t : ~ In CBaseMixin l -> forall o d, json_chain p dir cls cb (l ++ CBaseMixin :: t) a o = Ok d -> forall c, In c l -> exists u, written p dir c a = Ok u.
Proof.
  induction l as [|x l IH]; intros N o d H c I; [destruct I|]. cbn [app] in H. rewrite chain_step in H by (intros ->; apply N; now left). apply bind_ok in H as (o1 & H1 & H2).
  destruct I as [<-|I]; [|eapply IH; eauto; intros J; apply N; now right]. pose proof (link_written p dir x a o) as L. destruct (written p dir x a); eauto. congruence.
Qed.
Lemma chain_fails p dir cls cb a l t : ~ In CBaseMixin l -> (forall c, In c l -> (exists u, written p dir c a = Ok u) \/ written p dir c a = Err EAttribute) ->
  (exists c, In c l /\ written p dir c a = Err EAttribute) -> forall o, json_chain p dir cls cb (l ++ CBaseMixin :: t) a o = Err EAttribute.
Proof.
  induction l as [|x l IH]; intros N A (c & I & F) o; [destruct I|]. cbn [app]. rewrite chain_step by (intros ->; apply N; now left).
  pose proof (link_written p dir x a o) as L. destruct (A x (or_introl eq_refl)) as [(u & W)|W]; rewrite W in L; [|now rewrite L].
  destruct L as (o' & L & _). rewrite L. cbn [bind]. apply IH; [intros J; apply N; now right|intros c0 I0; apply A; now right|].
  exists c. split; [|auto]. destruct I as [->|I]; [congruence|auto].
Qed.
(** the attributes an entity has are those of the mixins it was made with *)
Lemma made_attrs wa o i (ty0 : string) own0 cb0 ops e : made_as wa o i ty0 -> In (ty0, (own0, cb0)) formats -> Forall (leaves_settings i) ops -> ent (run ops (fst (step o wa))) i = Some e ->
  e_strict e = true /\ (forall c, In c (mids ty0) -> In c (statics (e_cls e))) /\
  (forall c (k : string), ~ In c (mids ty0) -> In k (mattrs c) -> dget (KS k) (e_at e) = None).
Proof.
  intros B F0 L He. destruct (made_cls _ _ _ _ B) as (e0 & ms0 & E0 & S0 & EM0 & CL & F & D0).
  destruct (run_grows i grows growing_grows growing_grows ops (or_introl L) _ _ E0) as (e1 & E1 & G). assert (e1 = e) by congruence. subst e1.
  pose proof (format_shape _ _ _ F0) as SH.
  split; [rewrite (gr_strict _ _ G); auto|]. split.
  - intros c I. eapply subseq_in; [apply (gr_statics _ _ G)|]. rewrite CL. rewrite statics_shape.
    + right. rewrite (sh_chain _ _ SH). apply in_or_app. now left.
    + eapply derive_inv; [apply entity_cls_inv|eauto].
  - intros c k N I. apply (gr_attrs _ _ G). destruct F as (l & kw & e2 & C & (G2 & NM & CE)). apply (gr_attrs _ _ G2).
    destruct (dget k (e_at e2)) as [v|] eqn:Q; [|reflexivity]. exfalso. apply construct_attrs in C as (name & st & EA & IC).
    destruct (attrs_from _ _ _ _ _ _ _ IC (KS k)) as [X|(c' & f & I' & NB & E & F)]; [congruence|rewrite EA in X; now apply X|].
    injection E as <-. rewrite (mattrs_disjoint _ _ _ I F) in N. rewrite <- CE, CL, (sh_chain _ _ SH) in I'. apply in_app_or in I' as [I'|[<-|[<-|[<-|[]]]]]; try contradiction; try destruct F.
Qed.
Lemma p_C47_missing wa o i (ty0 ty : string) own0 cb0 own cb ops w s (k : string) w1 d w' : made_as wa o i ty0 -> In (ty0, (own0, cb0)) formats -> In (ty, (own, cb)) formats ->
  Forall (leaves_settings i) ops -> w = run ops (fst (step o wa)) -> reachable w -> ent_json i w = (w1, Ok d) ->
  In k own -> ~ In k own0 -> ~ In k optional_settings ->
  type_of (w_protos w) s ty -> rename i (VStr s) w = (w', Ok tt) -> snd (ent_json i w') = Err EAttribute.
Proof.
  intros B F0 F1 L EW R EX K1 K0 KO T RN.
  destruct (ent w i) as [e|] eqn:He; [|rewrite ent_json_eq, He in EX; discriminate].
  destruct (made_attrs wa o i ty0 own0 cb0 ops e B F0 L) as (ST & IN & AT); [now subst w|].
  pose proof (format_shape _ _ _ F0) as SH0. pose proof (format_shape _ _ _ F1) as SH.
  destruct (sh_ms _ _ SH) as (ms & EM & DM).
  rewrite (rename_eq i _ w e He), (set_name_typed _ _ _ _ _ _ T ST EM) in RN.
  destruct (derive (e_cls e) (odflt [] (dget ty (cust_of w (e_layer e))) ++ ms)) as [ic|] eqn:D; [|discriminate]. injection RN as <-.
  set (e' := with_cls ic (with_name (VStr s) e)).
  assert (TW : twins e e') by (constructor; reflexivity).
  pose proof (reach_cls _ _ _ R He) as CI. pose proof (derive_inv _ _ _ CI D) as CI'. pose proof (derive_composed _ _ _ CI D) as CO.
  rewrite ent_json_eq in EX. rewrite He in EX. rewrite ent_json_eq, (U_ent i e) by auto. rewrite Nat.eqb_refl. change (e_pos e') with (e_pos e).
  destruct (e_pos e) as [v|]; [|discriminate]. destruct (connections_to_json i w) as [w2 [cs|x]] eqn:EC; [|discriminate].
  destruct (rename_connections i e e' w cs TW He) as (cs' & EC'); [now rewrite EC|].
  assert (P2 : w_protos w2 = w_protos w) by (pose proof (protos_connections_json i w) as Q; now rewrite EC in Q).
  assert (P2' : w_protos (fst (connections_to_json i (U i e' w))) = w_protos w) by (rewrite protos_connections_json; reflexivity).
  destruct (connections_to_json i (U i e' w)) as [w3 r3]. cbn [fst snd] in *. subst r3. cbn [snd].
  injection EX as _ EX. apply bind_ok in EX as (d0 & JC & _). rewrite P2 in JC. rewrite P2'.
  destruct (chain_tail _ CI) as (l & EL & NB & _). destruct (chain_tail _ CI') as (l' & EL' & NB' & NB2 & NB3).
  rewrite EL in JC. change (e_cls e') with ic. rewrite EL'. change (e_dir e') with (e_dir e). change (e_cb e') with (e_cb e). change (e_at e') with (e_at e).
  rewrite chain_fails; auto.
  - intros c I. destruct (in_dec scls_eq_dec c l) as [J|J]; [left; eapply (chain_links _ _ _ _ _ l); [exact NB|exact JC|exact J]|].
    assert (AB : forall f : string, In f (mattrs c) -> dget (KS f) (e_at e) = None);
      [|destruct (absent_link (w_protos w) (e_dir e) c (e_at e) AB) as [(u & W & _)|W]; [left; eauto|right; auto]].
    intros f If. apply (AT c); auto. intros M. apply J. apply IN in M. rewrite (statics_shape _ CI), EL in M. destruct M as [<-|M]; [destruct If|].
    apply in_app_or in M as [M|[<-|[<-|[<-|[]]]]]; auto; contradiction.
  - apply (sh_own _ _ SH) in K1. apply in_flat_map in K1 as (c & Ic & Kc). exists c.
    assert (NC : ~ In c (mids ty0)). { intros J. apply K0. apply (sh_own _ _ SH0). apply in_flat_map. eauto. }
    split; [|eapply absent_fails; eauto; intros f If; now apply (AT c)].
    assert (X : In c (statics ic)).
    { apply (cp_elements _ _ _ CO). right. pose proof (derive_composed _ _ _ entity_cls_inv DM) as CE.
      assert (Y : In c (statics (cls_of ty))). { rewrite statics_shape by apply (derive_inv _ _ _ entity_cls_inv DM). right. rewrite (sh_chain _ _ SH). apply in_or_app. now left. }
      apply (cp_elements _ _ _ CE) in Y as [Y|(m & Im & Hm)].
      - exfalso. clear -Y Kc. cbn in Y. repeat destruct Y as [<-|Y]; try contradiction; destruct Kc.
      - exists m. split; [apply in_or_app; now right|auto]. }
    rewrite (statics_shape _ CI'), EL' in X. destruct X as [<-|X]; [destruct Kc|]. apply in_app_or in X as [X|[<-|[<-|[<-|[]]]]]; auto; destruct Kc.
Qed.

(** no new settings *)
Section Outs.
Context (p : protos) (dir : direction) (a : dict).
Fixpoint outs (l : list scls) (k : key) : option val :=
  match l with [] => None | c :: r => match outs r k with Some v => Some v | None => match written p dir c a with Ok u => dget k u | Err _ => None end end end.
Lemma outs_app l m k : outs (l ++ m) k = match outs m k with Some v => Some v | None => outs l k end.
Proof. induction l as [|c l IH]; cbn [outs app]; [now destruct (outs m k)|]. rewrite IH. destruct (outs m k); reflexivity. Qed.
Lemma outs_none l k : (forall c u, In c l -> written p dir c a = Ok u -> dget k u = None) -> outs l k = None.
Proof.
  induction l as [|c l IH]; intros H; [reflexivity|]. cbn [outs]. rewrite IH by (intros c0 u I; apply H; now right).
  destruct (written p dir c a) as [u|] eqn:W; [|reflexivity]. eapply H; eauto. now left.
Qed.
Lemma outs_subseq l l' k : subseq l l' -> NoDup l' -> (forall c u, In c l' -> ~ In c l -> written p dir c a = Ok u -> dget k u = None) -> outs l' k = outs l k.
Proof.
  induction 1 as [m|x l m S IH|x l m S IH]; intros N H; cbn [outs].
  - apply outs_none. intros c u I. now apply H.
  - inversion N; subst. rewrite IH; auto. 2:{ intros c u I. apply H. now right. }
    destruct (outs l k); [reflexivity|]. destruct (written p dir x a) as [u|] eqn:W; [|reflexivity]. eapply H; eauto; [now left|]. intros J. eapply subseq_in in J; eauto.
  - inversion N; subst. rewrite IH; auto. intros c u I J. apply H; [now right|]. intros [->|K]; auto.
Qed.
Lemma chain_outs cls l t : ~ In CBaseMixin l -> (forall c, In c l -> exists u, written p dir c a = Ok u) -> forall o,
  exists d, json_chain p dir cls None (l ++ CBaseMixin :: t) a o = Ok d /\ forall k, dget k d = match outs l k with Some v => Some v | None => dget k o end.
Proof.
  induction l as [|c l IH]; intros N A o; [cbn; eauto|]. cbn [app]. rewrite chain_step by (intros ->; apply N; now left).
  pose proof (link_written p dir c a o) as L. destruct (A c (or_introl eq_refl)) as (u & W). rewrite W in L. destruct L as (o' & L & OV). rewrite L. cbn [bind].
  destruct (IH (fun J => N (or_intror J)) (fun c0 I0 => A c0 (or_intror I0)) o') as (d & E & D). exists d. split; [auto|]. intros k. rewrite D. cbn [outs]. rewrite W.
  destruct (outs l k); [reflexivity|]. apply OV.
Qed.
End Outs.
Lemma optional_link p dir c a : (forall k : string, In k (mattrs c) -> dget (KS k) a = None) -> (forall k, In k (mkeys c) -> In k optional_settings) ->
  exists u, written p dir c a = Ok u.
Proof.
  intros A O. destruct (absent_link p dir c a A) as [(u & W & _)|W]; [eauto|]. exfalso. unfold written in W.
  destruct c; cbn [json_mixin mkeys] in *; try discriminate;
  match type of O with forall k, In k (?f :: _) -> _ => specialize (O f (or_introl eq_refl)); cbn in O; repeat (destruct O as [O|O]; [discriminate|]); destruct O end.
Qed.
(** no link writes the name *)
Lemma no_name p dir c a u : written p dir c a = Ok u -> dget "name" u = None.
Proof.
  intros W. destruct (json_mixin_name p dir c a [(KS "name", VNone)] "x" eq_refl) as (E & _).
  pose proof (link_written p dir c a [(KS "name", VNone)]) as L1. pose proof (link_written p dir c a (nm "x" [(KS "name", VNone)])) as L2. rewrite W in L1, L2.
  destruct L1 as (o1 & E1 & O1), L2 as (o2 & E2 & O2). rewrite E1, E2 in E. cbn [rmap] in E. injection E as ->.
  specialize (O1 "name"). specialize (O2 "name"). destruct (dget "name" u) as [v|] eqn:D; [|reflexivity]. exfalso.
  unfold nm in O2. rewrite dget_dset', key_eqb_refl in O2. injection O2 as <-.
  pose proof (json_mixin_name p dir c a [(KS "name", VNone)] "y" eq_refl) as (E3 & _).
  pose proof (link_written p dir c a (nm "y" [(KS "name", VNone)])) as L3. rewrite W in L3. destruct L3 as (o3 & E4 & O3). rewrite E1, E4 in E3. cbn [rmap] in E3. injection E3 as ->.
  specialize (O3 "name"). rewrite D in O3. unfold nm in O3. rewrite dget_dset', key_eqb_refl in O3. discriminate.
Qed.
Lemma p_C47_plain wa o i (ty0 ty : string) own0 cb0 own cb ops w s w1 d w' : made_as wa o i ty0 -> In (ty0, (own0, cb0)) formats -> In (ty, (own, cb)) formats ->
  Forall (leaves_settings i) ops -> w = run ops (fst (step o wa)) -> reachable w -> ent_json i w = (w1, Ok (VDict d)) ->
  (forall e, ent w i = Some e -> e_cb e = None) -> plain_layer w i ty ->
  (forall k, In k own -> In k own0 \/ In k optional_settings) ->
  type_of (w_protos w) s ty -> rename i (VStr s) w = (w', Ok tt) ->
  exists d', snd (ent_json i w') = Ok (VDict d') /\ dget "name" d' = Some (VStr s) /\
    forall k, k <> KS "name" -> k <> KS "direction" -> k <> KS "connections" -> dget k d' = dget k d.
Proof.
  intros B F0 F1 L EW R EX CB CU K T RN.
  destruct (ent w i) as [e|] eqn:He; [|rewrite ent_json_eq, He in EX; discriminate].
  specialize (CB e eq_refl). pose proof (plain_cust _ _ _ _ CU He) as CU'.
  destruct (made_attrs wa o i ty0 own0 cb0 ops e B F0 L) as (ST & IN & AT); [now subst w|].
  pose proof (format_shape _ _ _ F0) as SH0. pose proof (format_shape _ _ _ F1) as SH.
  destruct (sh_ms _ _ SH) as (ms & EM & DM).
  rewrite (rename_eq i _ w e He), (set_name_typed _ _ _ _ _ _ T ST EM), CU' in RN. cbn [odflt app] in RN.
  destruct (derive (e_cls e) ms) as [ic|] eqn:D; [|discriminate]. injection RN as <-.
  set (e' := with_cls ic (with_name (VStr s) e)).
  assert (TW : twins e e') by (constructor; reflexivity).
  pose proof (reach_cls _ _ _ R He) as CI. pose proof (derive_inv _ _ _ CI D) as CI'. pose proof (derive_composed _ _ _ CI D) as CO.
  rewrite ent_json_eq in EX. rewrite He in EX. rewrite ent_json_eq, (U_ent i e) by auto. rewrite Nat.eqb_refl. change (e_pos e') with (e_pos e).
  destruct (e_pos e) as [v|]; [|discriminate]. destruct (connections_to_json i w) as [w2 [cs|x]] eqn:EC; [|discriminate].
  destruct (rename_connections i e e' w cs TW He) as (cs' & EC'); [now rewrite EC|].
  assert (P2 : w_protos w2 = w_protos w) by (pose proof (protos_connections_json i w) as Q; now rewrite EC in Q).
  assert (P2' : w_protos (fst (connections_to_json i (U i e' w))) = w_protos w) by (rewrite protos_connections_json; reflexivity).
  destruct (connections_to_json i (U i e' w)) as [w3 r3]. cbn [fst snd] in *. subst r3. cbn [snd].
  injection EX as _ EX. apply bind_ok in EX as (d0 & JC & EX). injection EX as ->. rewrite P2 in JC. rewrite P2'.
  destruct (chain_tail _ CI) as (l & EL & NB & _). destruct (chain_tail _ CI') as (l' & EL' & NB' & NB2 & NB3).
  change (e_cls e') with ic. rewrite EL'. change (e_dir e') with (e_dir e). change (e_cb e') with (e_cb e). change (e_at e') with (e_at e).
  rewrite EL in JC. rewrite CB in JC |- *. pose proof (chain_links _ _ _ _ _ l _ NB _ _ JC) as OLD.
  (* links that are new *)
  assert (NEW : forall c, In c (statics ic) -> ~ In c (statics (e_cls e)) -> (exists u, written (w_protos w) (e_dir e) c (e_at e) = Ok u) /\ forall k : string, In k (mattrs c) -> dget (KS k) (e_at e) = None).
  { intros c I J. assert (AB : forall k : string, In k (mattrs c) -> dget (KS k) (e_at e) = None) by (intros k If; apply (AT c); auto).
    split; [|auto]. apply optional_link; auto. intros k Kc. destruct (K k) as [K0|]; auto.
    - apply (cp_elements _ _ _ CO) in I as [I|(m & Im & Hm)]; [contradiction|]. pose proof (derive_composed _ _ _ entity_cls_inv DM) as CE.
      assert (Y : In c (statics (cls_of ty))) by (apply (cp_elements _ _ _ CE); eauto).
      rewrite statics_shape in Y by apply (derive_inv _ _ _ entity_cls_inv DM). destruct Y as [<-|Y]; [destruct Kc|]. rewrite (sh_chain _ _ SH) in Y.
      apply in_app_or in Y as [Y|[<-|[<-|[<-|[]]]]]; try (destruct Kc; fail). apply (sh_own _ _ SH). apply in_flat_map. eauto.
    - exfalso. apply (sh_own _ _ SH0) in K0. apply in_flat_map in K0 as (c' & I' & K'). rewrite (mkeys_disjoint _ _ _ Kc K') in J. auto. }
  assert (ST1 : statics ic = CEntity :: l' ++ [CBaseMixin; CBase; CObject]) by (rewrite (statics_shape _ CI'); now rewrite EL').
  assert (ST0 : statics (e_cls e) = CEntity :: l ++ [CBaseMixin; CBase; CObject]) by (rewrite (statics_shape _ CI); now rewrite EL).
  assert (OUT : forall m k, outs (w_protos w) (e_dir e) (e_at e) (CEntity :: m ++ [CBaseMixin; CBase; CObject]) k = outs (w_protos w) (e_dir e) (e_at e) m k).
  { intros m k. cbn [outs]. rewrite outs_app. cbn [outs written json_mixin dget]. now destruct (outs _ _ _ m k). }
  assert (ALL : forall c, In c l' -> exists u, written (w_protos w) (e_dir e) c (e_at e) = Ok u).
  { intros c I. destruct (in_dec scls_eq_dec c l) as [J|J]; [auto|]. apply NEW.
    - rewrite ST1. right. apply in_or_app. now left.
    - rewrite ST0. intros [<-|M].
      + pose proof (statics_ordered _ CI') as (N & _). rewrite ST1 in N. inversion N; subst. apply H1. apply in_or_app. now left.
      + apply in_app_or in M as [M|[<-|[<-|[<-|[]]]]]; auto. }
  assert (SB : subseq (statics (e_cls e)) (statics ic)) by (apply (cp_base _ _ _ CO)).
  destruct (chain_outs (w_protos w) (e_dir e) (e_at e) (statics ic) l' [CBase; CObject] NB' ALL (stem e' v cs')) as (d' & E' & D').
  destruct (chain_outs (w_protos w) (e_dir e) (e_at e) (statics (e_cls e)) l [CBase; CObject] NB OLD (stem e v cs)) as (d1 & E1 & D1).
  rewrite E1 in JC. injection JC as ->. exists d'. rewrite E'. split; [reflexivity|].
  assert (EQ : forall k, k <> KS "direction" -> outs (w_protos w) (e_dir e) (e_at e) l' k = outs (w_protos w) (e_dir e) (e_at e) l k).
  { intros k N. rewrite <- (OUT l'), <- (OUT l), <- ST1, <- ST0. apply outs_subseq; auto; [apply (statics_ordered _ CI')|].
    intros c u I J W. destruct (NEW c I J) as (_ & AB). destruct (absent_link (w_protos w) (e_dir e) c (e_at e) AB) as [(u' & W' & Q)|W']; [|congruence].
    assert (u' = u) by congruence. subst. auto. }
  split.
  - rewrite D'.
    assert (NN : outs (w_protos w) (e_dir e) (e_at e) l' "name" = None).
    { apply outs_none. intros c u _ W. eapply no_name; eauto. }
    rewrite NN. unfold stem. destruct cs'; reflexivity.
  - intros k N1 N2 N3. rewrite D', D1, EQ by auto. destruct (outs _ _ _ l k); [reflexivity|].
    unfold stem. assert (S : forall x, dget k (match x with [] => [(KS "entity_number", e_auto e); (KS "name", e_name e); (KS "position", vec_to_json v)]
      | _ => dset "connections" (VDict x) [(KS "entity_number", e_auto e); (KS "name", e_name e); (KS "position", vec_to_json v)] end) = dget k [(KS "entity_number", e_auto e); (KS "position", vec_to_json v)]).
    { intros x. assert (G : dget k [(KS "entity_number", e_auto e); (KS "name", e_name e); (KS "position", vec_to_json v)] = dget k [(KS "entity_number", e_auto e); (KS "position", vec_to_json v)]).
      { cbn [dget]. destruct (key_eqb k "name") eqn:E; [apply key_eqb_eq in E; congruence|]. reflexivity. }
      destruct x; [exact G|]. rewrite dget_dset'. destruct (key_eqb k "connections") eqn:E; [apply key_eqb_eq in E; congruence|]. exact G. }
    rewrite S. assert (S' : dget k (match cs' with [] => [(KS "entity_number", e_auto e'); (KS "name", e_name e'); (KS "position", vec_to_json v)]
      | _ => dset "connections" (VDict cs') [(KS "entity_number", e_auto e'); (KS "name", e_name e'); (KS "position", vec_to_json v)] end) = dget k [(KS "entity_number", e_auto e); (KS "position", vec_to_json v)]); [|exact S'].
    assert (G : dget k [(KS "entity_number", e_auto e'); (KS "name", e_name e'); (KS "position", vec_to_json v)] = dget k [(KS "entity_number", e_auto e); (KS "position", vec_to_json v)]).
    { cbn [dget]. destruct (key_eqb k "name") eqn:E; [apply key_eqb_eq in E; congruence|]. reflexivity. }
    destruct cs'; [exact G|]. rewrite dget_dset'. destruct (key_eqb k "connections") eqn:E; [apply key_eqb_eq in E; congruence|]. exact G.
Qed.
