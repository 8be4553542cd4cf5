(** * The C3 merge: sound and complete, and what it gives for entity classes. *)
From Coq Require Import Lia.
From Verif Require Import Py C3 Classes SpecClass.

Section Generic.
  Context {A : Type} (eqb : A -> A -> bool) (eqb_eq : forall x y, eqb x y = true <-> x = y).

  Lemma subseq_nil_l (m : list A) : subseq [] m. Proof. constructor. Qed.
  Lemma subseq_refl (m : list A) : subseq m m.
  Proof. induction m; [constructor|now apply sub_take]. Qed.
  Lemma subseq_trans (l m n : list A) : subseq l m -> subseq m n -> subseq l n.
  Proof.
    intros H1 H2; revert l H1; induction H2 as [n|x m n H2 IH|x m n H2 IH]; intros l H1.
    - inversion H1; constructor.
    - apply sub_skip; auto.
    - inversion H1; subst; [constructor|apply sub_skip; auto|apply sub_take; auto].
  Qed.
  Lemma subseq_in (l m : list A) x : subseq l m -> In x l -> In x m.
  Proof. induction 1; simpl; intuition. Qed.
  Lemma subseq_tail x (l m : list A) : subseq (x :: l) m -> subseq l m.
  Proof. intros H; apply (subseq_trans _ (x :: l)); auto. apply sub_skip, subseq_refl. Qed.
  Lemma subseq_NoDup (l m : list A) : subseq l m -> NoDup m -> NoDup l.
  Proof.
    induction 1 as [m|x l m H IH|x l m H IH]; intros N; inversion N; subst; try constructor; auto.
    intros I; apply (subseq_in _ _ _ H) in I; auto.
  Qed.
  Lemma subseq_length (l m : list A) : subseq l m -> (length l <= length m)%nat.
  Proof. induction 1; simpl; lia. Qed.
  Lemma subseq_eq (l m : list A) : subseq l m -> length m = length l -> l = m.
  Proof.
    induction 1 as [m|x l m H IH|x l m H IH]; simpl; intros E.
    - destruct m; simpl in *; auto; lia.
    - apply subseq_length in H; lia.
    - f_equal; apply IH; lia.
  Qed.

  Lemma good_spec h ls : c3_good eqb h ls = true <-> forall l, In l ls -> ~ In h (tl l).
  Proof.
    unfold c3_good. rewrite forallb_forall. split; intros H l Hl.
    - specialize (H l Hl). apply negb_true_iff in H. intros I.
      assert (existsb (eqb h) (tl l) = true) as E; [|congruence].
      apply existsb_exists; exists h; split; auto. now apply eqb_eq.
    - apply negb_true_iff. destruct (existsb (eqb h) (tl l)) eqn:E; auto.
      apply existsb_exists in E as (y & I & Y). apply eqb_eq in Y as <-. destruct (H l Hl I).
  Qed.
  Lemma pick_some cands ls h : c3_pick eqb cands ls = Some h ->
    (exists l, In (h :: l) cands) /\ c3_good eqb h ls = true.
  Proof.
    induction cands as [|[|y l] r IH]; simpl; intros H; try discriminate.
    - destruct (IH H) as ((l & I) & G); split; auto. exists l; auto.
    - destruct (c3_good eqb y ls) eqn:G.
      + injection H as <-. split; auto. exists l; auto.
      + destruct (IH H) as ((l' & I) & G'); split; auto. exists l'; auto.
  Qed.
  Lemma pick_none cands ls h l : c3_pick eqb cands ls = None -> In (h :: l) cands -> c3_good eqb h ls = false.
  Proof.
    induction cands as [|[|y m] r IH]; simpl; intros H I; try tauto.
    - destruct I as [I|I]; [discriminate|auto].
    - destruct (c3_good eqb y ls) eqn:G; [discriminate|].
      destruct I as [[= <- <-]|I]; auto.
  Qed.
  Definition drop1 (h : A) (l : list A) : list A :=
    match l with x :: r => if eqb h x then r else l | [] => [] end.
  Lemma drop_map h ls : c3_drop eqb h ls = map (drop1 h) ls. Proof. reflexivity. Qed.
  Lemma drop1_cases h l : (exists r, l = h :: r /\ drop1 h l = r) \/ (hd_error l <> Some h /\ drop1 h l = l).
  Proof.
    destruct l as [|x r]; simpl; [right; split; congruence|].
    destruct (eqb h x) eqn:E.
    - apply eqb_eq in E as <-. left; eauto.
    - right; split; auto. intros [= ->]. assert (eqb h h = true) by now apply eqb_eq. congruence.
  Qed.
  Lemma empty_spec ls : @c3_empty A ls = true <-> forall l, In l ls -> l = [].
  Proof.
    unfold c3_empty; rewrite forallb_forall; split; intros H l Hl; specialize (H l Hl); destruct l; congruence.
  Qed.

  Lemma merge_sound f : forall ls r, c3_merge eqb f ls = Some r -> linearises ls r.
  Proof.
    induction f as [|f IH]; intros ls r; cbn [c3_merge]; destruct (c3_empty ls) eqn:E.
    1,3: intros [= <-]; rewrite empty_spec in E; split; [constructor|split];
      [intros x; split; [intros []|intros (l & Hl & Hx)]; rewrite (E l Hl) in Hx; auto
      |intros l Hl; rewrite (E l Hl); constructor].
    1: discriminate.
    destruct (c3_pick eqb ls ls) as [h|] eqn:P; [|discriminate].
    destruct (c3_merge eqb f (c3_drop eqb h ls)) as [r'|] eqn:M; [|discriminate]. intros [= <-].
    destruct (pick_some _ _ _ P) as ((t & T) & G). rewrite good_spec in G.
    destruct (IH _ _ M) as (N & I & S). rewrite drop_map in *.
    assert (I' : forall x, In x r' <-> exists l, In l ls /\ In x (drop1 h l)).
    { intros x; rewrite I; split.
      - intros (l & Hl & Hx). apply in_map_iff in Hl as (l0 & <- & H0). eauto.
      - intros (l & Hl & Hx). exists (drop1 h l); split; auto. now apply in_map. }
    split; [|split].
    - constructor; auto. intros X. apply I' in X as (l & Hl & Hx). specialize (G l Hl).
      destruct (drop1_cases h l) as [(r & -> & D)|(Q & D)]; rewrite D in Hx; [auto|].
      destruct l as [|y r]; simpl in *; auto. destruct Hx as [->|Hx]; auto.
    - intros x; cbn [In]; rewrite I'; split.
      + intros [<-|(l & Hl & Hx)]; [exists (h :: t); simpl; auto|].
        exists l; split; auto. destruct (drop1_cases h l) as [(r & -> & D)|(Q & D)]; rewrite D in Hx; simpl; auto.
      + intros (l & Hl & Hx). destruct (drop1_cases h l) as [(r & -> & D)|(Q & D)].
        * destruct Hx as [<-|Hx]; auto. right; exists (h :: r); rewrite D; auto.
        * right; exists l; rewrite D; auto.
    - intros l Hl. specialize (S (drop1 h l) (in_map _ _ _ Hl)).
      destruct (drop1_cases h l) as [(r & -> & D)|(Q & D)]; rewrite D in S; [now apply sub_take|now apply sub_skip].
  Qed.

  Lemma c3_drop_size h ls t : In (h :: t) ls -> (c3_size (c3_drop eqb h ls) < c3_size ls)%nat.
  Proof.
    unfold c3_size. rewrite drop_map. induction ls as [|l ls IH]; simpl; [tauto|].
    assert (forall m, length (drop1 h m) <= length m)%nat as D.
    { intros m; destruct m as [|x r]; simpl; auto. destruct (eqb h x); simpl; auto. }
    assert (list_sum (map (@length A) (map (drop1 h) ls)) <= list_sum (map (@length A) ls))%nat as L.
    { clear -D. induction ls as [|m ls IH]; simpl; auto. specialize (D m); lia. }
    intros [->|I].
    - simpl. assert (eqb h h = true) as -> by now apply eqb_eq. lia.
    - specialize (IH I). specialize (D l). lia.
  Qed.

  (** the element of [r0] that comes first among the heads *)
  Lemma first_head (r0 : list A) : forall ls, NoDup r0 -> (forall l, In l ls -> subseq l r0) -> c3_empty ls = false ->
    exists h t, In (h :: t) ls /\ forall l, In l ls -> ~ In h (tl l).
  Proof.
    induction r0 as [|x r0 IH]; intros ls N S E.
    - exfalso. assert (c3_empty ls = true); [|congruence]. apply empty_spec.
      intros l Hl. specialize (S l Hl). now inversion S.
    - inversion N as [|? ? Nx N']; subst.
      assert (D : (exists t, In (x :: t) ls) \/ forall l, In l ls -> hd_error l <> Some x).
      { clear -eqb_eq. induction ls as [|l ls [(t & T)|H]].
        - right; intros l [].
        - left; exists t; simpl; auto.
        - destruct (drop1_cases x l) as [(r & -> & _)|(Q & _)].
          + left; exists r; simpl; auto.
          + right; intros m [<-|Hm]; auto. }
      destruct D as [(t & T)|D].
      + exists x, t; split; auto. intros l Hl I. specialize (S l Hl).
        inversion S; subst; simpl in I; auto.
        * destruct l as [|y l]; simpl in I; auto. apply Nx. apply (subseq_in (y :: l) r0); simpl; auto.
        * apply Nx. eapply subseq_in; eauto.
      + apply IH; auto. intros l Hl. specialize (S l Hl). specialize (D l Hl).
        inversion S; subst; auto. constructor. simpl in D; congruence.
  Qed.
  Lemma merge_complete f : forall ls r0, NoDup r0 -> (forall l, In l ls -> subseq l r0) -> (c3_size ls <= f)%nat ->
    exists r, c3_merge eqb f ls = Some r.
  Proof.
    induction f as [|f IH]; intros ls r0 N S L; cbn [c3_merge]; destruct (c3_empty ls) eqn:E; eauto.
    - exfalso. assert (c3_empty ls = true); [|congruence]. apply empty_spec. clear -L.
      unfold c3_size in L. induction ls as [|l ls IH]; simpl in *; [tauto|].
      intros m [<-|Hm]; [destruct l; simpl in *; auto; lia|apply IH; auto; lia].
    - destruct (c3_pick eqb ls ls) as [h|] eqn:P.
      + destruct (pick_some _ _ _ P) as ((t & T) & G).
        destruct (IH (c3_drop eqb h ls) r0 N) as (r & ->); [|pose proof (c3_drop_size _ _ _ T); lia|simpl; eauto].
        intros l Hl. rewrite drop_map in Hl. apply in_map_iff in Hl as (m & <- & Hm). specialize (S m Hm).
        destruct (drop1_cases h m) as [(r & -> & ->)|(_ & ->)]; auto. eapply subseq_tail; eauto.
      + destruct (first_head r0 ls N S E) as (h & t & T & G).
        pose proof (pick_none _ _ _ _ P T) as F. rewrite <- good_spec in G. congruence.
  Qed.
  (** when one of the lists is itself a linearisation of all of them, it is the result *)
  Lemma merge_dominant ls r0 : NoDup r0 -> In r0 ls -> (forall l, In l ls -> subseq l r0) ->
    c3_merge eqb (c3_size ls) ls = Some r0.
  Proof.
    intros N I S. destruct (merge_complete (c3_size ls) ls r0 N S (le_n _)) as (r & M). rewrite M; f_equal.
    apply merge_sound in M as (N' & I' & S').
    symmetry. apply subseq_eq; [apply S'; auto|].
    apply Nat.le_antisymm.
    - apply NoDup_incl_length; auto. intros x X. apply I' in X as (l & Hl & Hx). eapply subseq_in; eauto.
    - apply subseq_length, S'; auto.
  Qed.
  (** elements that only the first list mentions come out first *)
  Lemma merge_prefix p : forall f rest ls r, NoDup (p ++ rest) -> (forall x l, In x p -> In l ls -> ~ In x l) ->
    c3_merge eqb f ((p ++ rest) :: ls) = Some r ->
    exists f' r', r = p ++ r' /\ c3_merge eqb f' (rest :: ls) = Some r'.
  Proof.
    induction p as [|x p IH]; intros f rest ls r N O M; [exists f, r; auto|].
    destruct f as [|f]; [discriminate|]. cbn [app] in *. inversion N as [|? ? Nx N']; subst.
    assert (G : c3_good eqb x ((x :: p ++ rest) :: ls) = true).
    { apply good_spec. intros l [<-|Hl] I; [auto|]. apply (O x l); simpl; auto. destruct l; simpl in *; auto. }
    cbn [c3_merge c3_empty forallb andb c3_pick] in M. rewrite G in M.
    assert (D : c3_drop eqb x ((x :: p ++ rest) :: ls) = (p ++ rest) :: ls).
    { unfold c3_drop. cbn [map]. assert (eqb x x = true) as -> by now apply eqb_eq. f_equal.
      transitivity (map (fun l : list A => l) ls); [|apply map_id]. apply map_ext_in. intros l Hl.
      destruct (drop1_cases x l) as [(r' & -> & _)|(_ & E)]; [|exact E].
      destruct (O x (x :: r')); simpl; auto. }
    rewrite D in M. destruct (c3_merge eqb f ((p ++ rest) :: ls)) as [r1|] eqn:M1; [|discriminate].
    injection M as <-. destruct (IH f rest ls r1 N') as (f' & r' & -> & M'); auto.
    { intros y l Hy Hl. apply O; simpl; auto. }
    exists f', r'; auto.
  Qed.
  (** the first step when the first list's head is acceptable *)
  Lemma merge_step f h t ls r : (forall l, In l ls -> ~ In h (tl l)) -> ~ In h t ->
    c3_merge eqb f ((h :: t) :: ls) = Some r ->
    exists f' r', r = h :: r' /\ c3_merge eqb f' (t :: map (drop1 h) ls) = Some r'.
  Proof.
    intros G Nh M. destruct f as [|f]; [discriminate|].
    assert (G' : c3_good eqb h ((h :: t) :: ls) = true).
    { apply good_spec. intros l [<-|Hl]; auto. }
    cbn [c3_merge c3_empty forallb andb c3_pick] in M. rewrite G' in M.
    unfold c3_drop in M. cbn [map] in M. assert (eqb h h = true) as E by now apply eqb_eq. rewrite E in M.
    fold (drop1 h) in M. match type of M with option_map _ ?m = _ => destruct m as [r1|] eqn:M1; [|discriminate] end.
    injection M as <-. exists f, r1; auto.
  Qed.
End Generic.

(** ** Classes *)
Lemma node_eqb_eq x y : node_eqb x y = true <-> x = y.
Proof. unfold node_eqb. destruct (node_eq_dec x y); split; congruence. Qed.
Lemma scls_eqb_eq x y : scls_eqb x y = true <-> x = y.
Proof. unfold scls_eqb. destruct (scls_eq_dec x y); split; congruence. Qed.
Definition mem_node (x : node) (l : list node) : bool := existsb (node_eqb x) l.
Lemma mem_node_In x l : mem_node x l = true <-> In x l.
Proof.
  unfold mem_node; rewrite existsb_exists; split.
  - intros (y & I & E). apply node_eqb_eq in E as ->; auto.
  - intros I; exists x; split; auto. now apply node_eqb_eq.
Qed.
Definition all_scls : list scls :=
  [CObject; CBase; CBaseMixin; CAccumulator; CItems; CFilters; CConstantCombinator; CCombinator; CArithmetic;
   CDecider; CTransportBelt; CTrainSignal; CChainSignal; CRailSignal; COrientation; CTrain; CCargo; CColor;
   CContainer; CCircuitCondition; CLamp; CMiningDrill; CInserter; CFilterInserter; CInfinityContainer; CRecipe;
   CRequester; CRoboport; CRotatable; CSilo; CSpeaker; CSplitter; CStation; CUnderground; CLoader; CVariation;
   CEntity].
Lemma all_scls_in c : In c all_scls.
Proof. destruct c; cbn; repeat (first [left; reflexivity|right]). Qed.
Lemma for_all_scls (f : scls -> bool) : forallb f all_scls = true -> forall c, f c = true.
Proof. intros H c. rewrite forallb_forall in H. apply H, all_scls_in. Qed.
Lemma for_all_scls2 (f : scls -> scls -> bool) :
  forallb (fun c => forallb (f c) all_scls) all_scls = true -> forall c d, f c d = true.
Proof. intros H c d. pose proof (for_all_scls _ H c) as H1. apply (for_all_scls _ H1). Qed.

Definition inheritsb (c d : scls) : bool := mem_node (NS d) (smro c).
Lemma smro_head c : exists t, smro c = NS c :: t.
Proof. destruct c; vm_compute; eauto. Qed.
Lemma inherits_smro c d : inherits c d <-> In (NS d) (smro c).
Proof.
  split.
  - induction 1 as [c|c d e I H IH].
    + destruct (smro_head c) as (t & ->); simpl; auto.
    + assert (F : forallb (fun x => mem_node x (smro c)) (flat_map smro (sbases c)) = true).
      { revert c I IH. clear. intros c _ _. revert c. apply for_all_scls. vm_compute. reflexivity. }
      rewrite forallb_forall in F. apply mem_node_In, F, in_flat_map. eauto.
  - assert (F : forall c, forallb (fun x => match x with
                  | NS d => scls_eqb c d || existsb (fun b => mem_node x (smro b)) (sbases c)
                  | _ => false end) (smro c) = true).
    { apply for_all_scls. vm_compute. reflexivity. }
    intros I.
    (* the depth of the hierarchy bounds the length of a path *)
    assert (G : forall n c d, (length (smro c) <= n)%nat -> In (NS d) (smro c) -> inherits c d).
    { clear c d I. induction n as [|n IH]; intros c d L I.
      - destruct (smro_head c) as (t & E). rewrite E in L. simpl in L. lia.
      - pose proof (F c) as Fc. rewrite forallb_forall in Fc. specialize (Fc _ I). cbn in Fc.
        apply orb_true_iff in Fc as [E|E].
        + apply scls_eqb_eq in E as ->. constructor.
        + apply existsb_exists in E as (b & B & M). apply mem_node_In in M.
          apply inh_step with b; auto. apply IH; auto.
          assert (K : forall c, forallb (fun b => Nat.ltb (length (smro b)) (length (smro c))) (sbases c) = true).
          { apply for_all_scls. vm_compute. reflexivity. }
          pose proof (K c) as Kc. rewrite forallb_forall in Kc. specialize (Kc b B). apply Nat.ltb_lt in Kc. lia. }
    eauto.
Qed.
Lemma smro_static c x : In x (smro c) -> exists d, x = NS d.
Proof.
  intros I. assert (F : forall c, forallb (fun x => match x with NS _ => true | _ => false end) (smro c) = true).
  { apply for_all_scls. vm_compute. reflexivity. }
  pose proof (F c) as Fc. rewrite forallb_forall in Fc. specialize (Fc _ I). destruct x; try discriminate. eauto.
Qed.

Section Closed.
  Context {A : Type} (R : A -> A -> Prop).
  Definition closed (l : list A) : Prop := forall x y, In x l -> R x y -> before x y l.
  Lemma closed_linear ls r : linearises ls r -> (forall x, In x r -> exists l, In l ls /\ In x l /\ closed l) -> closed r.
  Proof.
    intros (N & I & S) H x y X Rxy. destruct (H x X) as (l & Hl & Hx & C).
    unfold before. apply (subseq_trans _ l); auto. apply C; auto.
  Qed.
End Closed.
Fixpoint beforeb {A} (eqb : A -> A -> bool) (x y : A) (l : list A) : bool :=
  match l with [] => false | z :: r => (eqb x z && existsb (eqb y) r) || beforeb eqb x y r end.
Lemma beforeb_before x y l : beforeb node_eqb x y l = true -> before x y l.
Proof.
  induction l as [|z r IH]; simpl; [discriminate|]. intros H. apply orb_true_iff in H as [H|H].
  - apply andb_true_iff in H as (E & M). apply node_eqb_eq in E as <-. apply sub_take.
    apply mem_node_In in M. clear IH. induction r as [|a r IH]; [destruct M|].
    destruct M as [->|M]; [apply sub_take; constructor|apply sub_skip; auto].
  - apply sub_skip. apply IH, H.
Qed.
Definition above (x y : node) : Prop :=
  match x, y with
  | NS c, NS d => inherits c d /\ c <> d
  | OwnCB c, OwnCB d => own_cb d = true /\ inherits c d /\ c <> d
  | _, _ => False
  end.
Definition closedb (l : list node) : bool :=
  forallb (fun x => match x with
    | NS c => forallb (fun d => negb (inheritsb c d && negb (scls_eqb c d)) || beforeb node_eqb (NS c) (NS d) l) all_scls
    | OwnCB c => forallb (fun d => negb (own_cb d && inheritsb c d && negb (scls_eqb c d))
                                   || beforeb node_eqb (OwnCB c) (OwnCB d) l) all_scls
    | _ => true end) l.
Lemma closedb_closed l : closedb l = true -> closed above l.
Proof.
  unfold closedb; rewrite forallb_forall; intros H x y X A. specialize (H x X).
  assert (E : forall c d, inherits c d -> inheritsb c d = true) by (intros; now apply mem_node_In, inherits_smro).
  assert (F : forall c d, c <> d -> scls_eqb c d = false)
    by (intros c d N; destruct (scls_eqb c d) eqn:Q; auto; apply scls_eqb_eq in Q; congruence).
  destruct x as [c| |c| |], y as [d| |d| |]; try destruct A.
  - pose proof (for_all_scls _ H d) as K. cbn beta in K. rewrite E, F in K by auto. simpl in K. now apply beforeb_before.
  - destruct H1. pose proof (for_all_scls _ H d) as K. cbn beta in K. rewrite H0, E, F in K by auto. simpl in K. now apply beforeb_before.
Qed.
Lemma smro_closed c : closed above (smro c).
Proof. apply closedb_closed. revert c. apply for_all_scls. vm_compute. reflexivity. Qed.
Lemma cbmro_closed c : closed above (cbmro c).
Proof. apply closedb_closed. revert c. apply for_all_scls. vm_compute. reflexivity. Qed.
Lemma cbmro_head c : has_cb c = true -> exists t, cbmro c = CombCB c :: t.
Proof. destruct c; vm_compute; eauto; discriminate. Qed.
Lemma cbmro_own c d : has_cb c = true -> (In (OwnCB d) (cbmro c) <-> inherits c d /\ own_cb d = true).
Proof.
  intros H. rewrite inherits_smro, <- !mem_node_In.
  assert (F : forall c d, negb (has_cb c) || Bool.eqb (mem_node (OwnCB d) (cbmro c)) (mem_node (NS d) (smro c) && own_cb d) = true).
  { apply for_all_scls2. vm_compute. reflexivity. }
  specialize (F c d). rewrite H in F. apply Bool.eqb_prop in F. rewrite F, andb_true_iff. tauto.
Qed.
Lemma cbmro_nodes c x : In x (cbmro c) -> match x with ND _ | DynCB _ => False | _ => True end.
Proof.
  intros I. assert (F : forall c, forallb (fun x => match x with ND _ | DynCB _ => false | _ => true end) (cbmro c) = true).
  { apply for_all_scls. vm_compute. reflexivity. }
  pose proof (F c) as Fc. rewrite forallb_forall in Fc. specialize (Fc _ I). destruct x; auto; discriminate.
Qed.

Lemma no_entity_existsb ms : existsb (scls_eqb CEntity) ms = false <-> ~ In CEntity ms.
Proof.
  split.
  - intros X I. assert (existsb (scls_eqb CEntity) ms = true); [|congruence].
    apply existsb_exists; exists CEntity; split; auto.
  - intros N. destruct (existsb (scls_eqb CEntity) ms) eqn:X; auto.
    apply existsb_exists in X as (c & I & E). apply scls_eqb_eq in E as <-. tauto.
Qed.
Definition mro_lists (ic : icls) (ms : list scls) : list (list node) :=
  (ic_mro ic :: map smro ms) ++ [firstn 1 (ic_mro ic) ++ map NS ms].
Definition cb_lists (ic : icls) (ms : list scls) : list (list node) :=
  (ic_cb ic :: map cbmro (filter has_cb ms)) ++ [firstn 1 (ic_cb ic) ++ map CombCB (filter has_cb ms)].
Lemma derive_ok ic ms ic' : derive ic ms = Ok ic' ->
  exists r k, ic' = mkCls (S (ic_depth ic)) (ND (S (ic_depth ic)) :: r) (DynCB (S (ic_depth ic)) :: k) /\
    linearises (mro_lists ic ms) r /\ linearises (cb_lists ic ms) k /\ ~ In CEntity ms /\
    c3_merge node_eqb (c3_size (mro_lists ic ms)) (mro_lists ic ms) = Some r /\
    c3_merge node_eqb (c3_size (cb_lists ic ms)) (cb_lists ic ms) = Some k.
Proof.
  unfold derive, c3_mro. fold (mro_lists ic ms). fold (cb_lists ic ms).
  destruct (existsb (scls_eqb CEntity) ms) eqn:X; [discriminate|].
  destruct (c3_merge node_eqb (c3_size (mro_lists ic ms)) (mro_lists ic ms)) as [r|] eqn:M; [|discriminate].
  cbn [option_map].
  destruct (c3_merge node_eqb (c3_size (cb_lists ic ms)) (cb_lists ic ms)) as [k|] eqn:K; [|discriminate].
  cbn [option_map]. intros [= <-]. exists r, k. split; auto.
  split; [|split]; [eapply merge_sound; eauto; apply node_eqb_eq..|]. split; auto.
  now apply no_entity_existsb.
Qed.
Lemma derive_iff ic ms : ~ In CEntity ms -> (exists ic', derive ic ms = Ok ic') <->
  (exists r, NoDup r /\ forall l, In l (mro_lists ic ms) -> subseq l r) /\
  (exists k, NoDup k /\ forall l, In l (cb_lists ic ms) -> subseq l k).
Proof.
  intros NE. split.
  - intros (ic' & D). apply derive_ok in D as (r & k & _ & (N & _ & S) & (N' & _ & S') & _). eauto 6.
  - intros ((r & N & S) & (k & N' & S')). unfold derive, c3_mro.
    apply no_entity_existsb in NE. rewrite NE.
    fold (mro_lists ic ms). fold (cb_lists ic ms).
    destruct (merge_complete _ node_eqb_eq _ _ r N S (le_n _)) as (r' & ->).
    destruct (merge_complete _ node_eqb_eq _ _ k N' S' (le_n _)) as (k' & ->).
    cbn [option_map]. eauto.
Qed.

Record cls_inv (ic : icls) : Prop := {
  ci_nodup : NoDup (ic_mro ic); ci_closed : closed above (ic_mro ic);
  ci_head : exists h t, ic_mro ic = h :: t; ci_entity : In (NS CEntity) (ic_mro ic);
  ci_shape : exists d r, ic_mro ic = map ND d ++ NS CEntity :: r;
  ci_fresh : forall n, In (ND n) (ic_mro ic) -> (n <= ic_depth ic)%nat;
  ci_nodup_cb : NoDup (ic_cb ic); ci_closed_cb : closed above (ic_cb ic);
  ci_head_cb : exists h t, ic_cb ic = h :: t;
  ci_fresh_cb : forall n, In (DynCB n) (ic_cb ic) -> (n <= ic_depth ic)%nat;
  ci_own : forall c, In (OwnCB c) (ic_cb ic) <-> In (NS c) (ic_mro ic) /\ own_cb c = true }.
Lemma inherits_cb c d : inherits c d -> own_cb d = true -> has_cb c = true.
Proof.
  rewrite inherits_smro, <- mem_node_In. intros H O.
  assert (F : forall c d, negb (mem_node (NS d) (smro c) && own_cb d) || has_cb c = true).
  { apply for_all_scls2. vm_compute. reflexivity. }
  specialize (F c d). rewrite H, O in F. auto.
Qed.
Lemma base_inv n : cls_inv (mkCls n (ic_mro entity_cls) (ic_cb entity_cls)).
Proof.
  split; cbn [ic_depth ic_mro ic_cb entity_cls].
  - vm_compute. repeat constructor; simpl; intuition discriminate.
  - apply smro_closed.
  - destruct (smro_head CEntity) as (t & ->); eauto.
  - apply inherits_smro; constructor.
  - exists [], (tl (smro CEntity)). reflexivity.
  - intros m I. apply smro_static in I as (d & E). discriminate.
  - vm_compute. repeat constructor; simpl; intuition discriminate.
  - apply cbmro_closed.
  - destruct (cbmro_head CEntity eq_refl) as (t & ->); eauto.
  - intros m I. apply cbmro_nodes in I. destruct I.
  - intros c. rewrite (cbmro_own CEntity c eq_refl), inherits_smro. tauto.
Qed.
Lemma derive_in ic ms ic' : cls_inv ic -> derive ic ms = Ok ic' ->
  forall x, In x (ic_mro ic') <-> x = ND (S (ic_depth ic)) \/ In x (ic_mro ic) \/ exists m, In m ms /\ In x (smro m).
Proof.
  intros C D x. apply derive_ok in D as (r & k & -> & (N & I & S) & _ & NE & _). cbn [ic_mro].
  cbn [In]. rewrite I. unfold mro_lists. split.
  - intros [<-|(l & Hl & Hx)]; auto. right. apply in_app_or in Hl as [[<-|Hl]|[<-|[]]]; auto.
    + apply in_map_iff in Hl as (m & <- & Hm); eauto.
    + apply in_app_or in Hx as [Hx|Hx].
      * left. destruct (ic_mro ic); simpl in *; tauto.
      * apply in_map_iff in Hx as (m & <- & Hm). right; exists m; split; auto. apply inherits_smro; constructor.
  - intros [->|[Hx|(m & Hm & Hx)]]; auto; right.
    + exists (ic_mro ic); simpl; auto.
    + exists (smro m); split; auto. apply in_or_app; left; right. now apply in_map.
Qed.
Lemma derive_in_cb ic ms ic' : cls_inv ic -> derive ic ms = Ok ic' ->
  forall x, In x (ic_cb ic') <-> x = DynCB (S (ic_depth ic)) \/ In x (ic_cb ic) \/
    exists m, In m ms /\ has_cb m = true /\ In x (cbmro m).
Proof.
  intros C D x. apply derive_ok in D as (r & k & -> & _ & (N & I & S) & NE & _). cbn [ic_cb].
  cbn [In]. rewrite I. unfold cb_lists. split.
  - intros [<-|(l & Hl & Hx)]; auto. right. apply in_app_or in Hl as [[<-|Hl]|[<-|[]]]; auto.
    + apply in_map_iff in Hl as (m & <- & Hm). apply filter_In in Hm as (Hm & B); eauto.
    + apply in_app_or in Hx as [Hx|Hx].
      * left. destruct (ic_cb ic); simpl in *; tauto.
      * apply in_map_iff in Hx as (m & <- & Hm). apply filter_In in Hm as (Hm & B).
        right; exists m; repeat split; auto. destruct (cbmro_head m B) as (t & ->). simpl; auto.
  - intros [->|[Hx|(m & Hm & B & Hx)]]; auto; right.
    + exists (ic_cb ic); simpl; auto.
    + exists (cbmro m); split; auto. apply in_or_app; left; right. apply in_map, filter_In; auto.
Qed.
Lemma closed_cons x l : (forall y, ~ above x y) -> closed above l -> closed above (x :: l).
Proof. intros H C y z [->|I] A; [destruct (H _ A)|apply sub_skip, C; auto]. Qed.
Lemma derive_inv ic ms ic' : cls_inv ic -> derive ic ms = Ok ic' -> cls_inv ic'.
Proof.
  intros C D. pose proof (derive_in _ _ _ C D) as I. pose proof (derive_in_cb _ _ _ C D) as J.
  apply derive_ok in D as (r & k & E & LR & LK & NE & MR & _). subst ic'. cbn [ic_mro ic_cb] in *.
  assert (Fr : ~ In (ND (S (ic_depth ic))) r).
  { destruct LR as (N & Ir & SS). intros X. apply Ir in X as (l & Hl & Hx). unfold mro_lists in Hl.
    assert (G : In (ND (S (ic_depth ic))) (ic_mro ic) \/ exists m, In m ms /\ In (ND (S (ic_depth ic))) (smro m)).
    { apply in_app_or in Hl as [[<-|Hl]|[<-|[]]]; auto.
      - apply in_map_iff in Hl as (m & <- & Hm); eauto.
      - apply in_app_or in Hx as [Hx|Hx].
        + left. destruct (ic_mro ic); simpl in *; tauto.
        + apply in_map_iff in Hx as (m & H & Hm). discriminate. }
    destruct G as [G|(m & _ & G)]; [apply (ci_fresh _ C) in G; lia|apply smro_static in G as (d & G); discriminate]. }
  assert (Fk : ~ In (DynCB (S (ic_depth ic))) k).
  { destruct LK as (N & Ir & SS). intros X. apply Ir in X as (l & Hl & Hx). unfold cb_lists in Hl.
    assert (G : In (DynCB (S (ic_depth ic))) (ic_cb ic) \/ exists m, In (DynCB (S (ic_depth ic))) (cbmro m)).
    { apply in_app_or in Hl as [[<-|Hl]|[<-|[]]]; auto.
      - apply in_map_iff in Hl as (m & <- & Hm); eauto.
      - apply in_app_or in Hx as [Hx|Hx].
        + left. destruct (ic_cb ic); simpl in *; tauto.
        + apply in_map_iff in Hx as (m & H & Hm). discriminate. }
    destruct G as [G|(m & G)]; [apply (ci_fresh_cb _ C) in G; lia|apply cbmro_nodes in G; destruct G]. }
  split; cbn [ic_depth ic_mro ic_cb].
  - constructor; auto. apply LR.
  - apply closed_cons; [intros [| | | |]; simpl; auto|]. apply (closed_linear _ _ _ LR).
    intros x X. assert (X' : In x (ND (S (ic_depth ic)) :: r)) by (simpl; auto).
    apply I in X' as [->|[X'|(m & Hm & X')]]; [destruct (Fr X)| |].
    + exists (ic_mro ic); split; [simpl; auto|split; auto]. apply (ci_closed _ C).
    + exists (smro m); split; [apply in_or_app; left; right; now apply in_map|split; auto]. apply smro_closed.
  - eauto.
  - apply I. right; left; apply (ci_entity _ C).
  - destruct (ci_shape _ C) as (d & t & Sh).
    assert (NE' : forall m, In m ms -> ~ In (NS CEntity) (smro m)).
    { intros m Hm X. apply inherits_smro in X. apply NE.
      assert (F : forall m, negb (inheritsb m CEntity) || scls_eqb m CEntity = true)
        by (apply for_all_scls; vm_compute; reflexivity).
      specialize (F m). unfold inheritsb in F. apply inherits_smro, mem_node_In in X. rewrite X in F.
      apply scls_eqb_eq in F as <-. auto. }
    pose proof (ci_nodup _ C) as ND0. unfold mro_lists in MR. rewrite Sh in ND0, MR.
    assert (K : exists r', r = map ND d ++ NS CEntity :: r').
    { destruct d as [|n d]; cbn [map app firstn] in MR, ND0.
      - inversion ND0; subst. apply (merge_step _ node_eqb_eq) in MR as (f' & r' & -> & _); auto.
        { exists r'; auto. }
        intros l Hl. apply in_app_or in Hl as [Hl|[<-|[]]].
        + apply in_map_iff in Hl as (m & <- & Hm). intros X. apply (NE' m Hm). destruct (smro m); simpl in *; auto.
        + cbn [tl]. intros X. apply in_map_iff in X as (m & E & Hm). injection E as ->. auto.
      - inversion ND0 as [|? ? Nn ND1]; subst. apply (merge_step _ node_eqb_eq) in MR as (f' & r1 & -> & MR); auto.
        2: { intros l Hl. apply in_app_or in Hl as [Hl|[<-|[]]].
             + apply in_map_iff in Hl as (m & <- & Hm). intros X.
               assert (In (ND n) (smro m)) as Y by (destruct (smro m); simpl in *; auto).
               apply smro_static in Y as (? & Y); discriminate.
             + cbn [tl]. intros X. apply in_map_iff in X as (m & E & Hm). discriminate. }
        replace (map ND d ++ NS CEntity :: t) with ((map ND d ++ [NS CEntity]) ++ t) in ND1, MR by now rewrite <- app_assoc.
        apply (merge_prefix _ node_eqb_eq) in MR as (f2 & r2 & -> & _); auto.
        { exists r2. cbn [map app]. now rewrite <- app_assoc. }
        intros x l Hx Hl Xl. rewrite map_app in Hl.
        assert (Y : exists c, x = NS c /\ In c ms \/ exists m, In m ms /\ In x (smro m)).
        { apply in_app_or in Hl as [Hl|[<-|[]]].
          - rewrite map_map in Hl. apply in_map_iff in Hl as (m & <- & Hm). exists CBase. right. exists m; split; auto.
            destruct (drop1_cases _ node_eqb_eq (ND n) (smro m)) as [(r' & E & D)|(_ & D)]; rewrite D in Xl; auto.
            rewrite E; simpl; auto.
          - unfold drop1 in Xl. assert (node_eqb (ND n) (ND n) = true) as E by now apply node_eqb_eq. rewrite E in Xl.
            apply in_map_iff in Xl as (m & <- & Hm). exists m; auto. }
        apply in_app_or in Hx as [Hx|[<-|[]]].
        + apply in_map_iff in Hx as (k' & <- & _). destruct Y as (c & [(Y & _)|(m & _ & Y)]); [discriminate|].
          apply smro_static in Y as (? & Y); discriminate.
        + destruct Y as (c & [(Y & Hc)|(m & Hm & Y)]); [injection Y as <-; auto|apply (NE' m Hm Y)]. }
    destruct K as (r' & ->). exists (S (ic_depth ic) :: d), r'. reflexivity.
  - intros n X. apply I in X as [X|[X|(m & _ & X)]]; [injection X as ->; auto|apply (ci_fresh _ C) in X; lia|].
    apply smro_static in X as (d & X); discriminate.
  - constructor; auto. apply LK.
  - apply closed_cons; [intros [| | | |]; simpl; auto|]. apply (closed_linear _ _ _ LK).
    intros x X. assert (X' : In x (DynCB (S (ic_depth ic)) :: k)) by (simpl; auto).
    apply J in X' as [->|[X'|(m & Hm & B & X')]]; [destruct (Fk X)| |].
    + exists (ic_cb ic); split; [simpl; auto|split; auto]. apply (ci_closed_cb _ C).
    + exists (cbmro m); split; [apply in_or_app; left; right; apply in_map, filter_In; auto|split; auto]. apply cbmro_closed.
  - eauto.
  - intros n X. apply J in X as [X|[X|(m & _ & _ & X)]]; [injection X as ->; auto|apply (ci_fresh_cb _ C) in X; lia|].
    apply cbmro_nodes in X; destruct X.
  - intros c. rewrite I, J. split.
    + intros [X|[X|(m & Hm & B & X)]]; [discriminate| |].
      * apply (ci_own _ C) in X as (X & O); auto.
      * apply (cbmro_own _ _ B) in X as (X & O). split; auto. right; right; exists m; split; auto. now apply inherits_smro.
    + intros ([X|[X|(m & Hm & X)]] & O); [discriminate| |].
      * right; left; apply (ci_own _ C); auto.
      * right; right; exists m. apply inherits_smro in X. pose proof (inherits_cb _ _ X O) as B.
        repeat split; auto. apply cbmro_own; auto.
Qed.
