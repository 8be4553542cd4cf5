(** * Proofs of C68. *)
From Coq Require Import Lia.
From Verif Require Import Py Num Util UtilFacts SpecUtil SpecWorld Classes SpecClass C3Proofs ClassProofs EntInv Mixins Entity Setters World WorldFacts SetFacts DictFacts LayerProofs SpecAttr SpecValues SpecSetting SettingProofs SpecBehaviour.
From Verif Require DocProofs EntProofs AttrProofs RenameProofs RotateProofs.
Import RenameProofs(stem, ent_json_eq, chain_step) AttrProofs(own_chain, assign_cb_eq).
Open Scope Z_scope. Open Scope list_scope.

(** ** The classes of a behaviour *)
Definition shaped (e : entity) : Prop := forall cb, e_cb e = Some cb -> NoDup (cb_cls cb) /\ exists l, cb_cls cb = l ++ [CBaseMixin].
Lemma set_name_cb p cust v e : e_cb (fst (set_name p cust v e)) = e_cb e.
Proof.
  unfold set_name. destruct (negb (e_strict e)); [destruct v; auto|].
  destruct (in_table v (p_entity p)) as [[]|]; auto. destruct v; auto.
  match goal with |- context [match ?t with Ok _ => _ | Err _ => _ end] => destruct t end; auto.
Qed.
Lemma cb_chain_last ic : cls_inv ic -> NoDup (cb_chain ic) /\ exists l, cb_chain ic = l ++ [CBaseMixin].
Proof.
  intros C. destruct (cb_chain_ordered _ C) as (ND & O). split; [auto|].
  assert (I : In CBaseMixin (cb_chain ic)).
  { apply cb_chain_set; auto. split; [|reflexivity]. rewrite (statics_shape _ C). destruct (chain_tail _ C) as (l & -> & _). right. apply in_or_app. right. now left. }
  apply in_split in I as (l & t & E). exists l. rewrite E in *. f_equal. f_equal. destruct t as [|c t]; [reflexivity|exfalso].
  assert (X : own_cb c = true). { apply (cb_chain_set ic c C). rewrite E. apply in_or_app. right. right. now left. }
  assert (c <> CBaseMixin). { intros ->. apply NoDup_remove_2 in ND. apply ND, in_or_app. right. now left. }
  assert (B : before c CBaseMixin (l ++ CBaseMixin :: c :: t)).
  { apply O; auto; [apply in_or_app; right; right; now left|]. apply inherits_base; auto; intros ->; discriminate. }
  apply before_last in B; auto. apply NoDup_remove_1 in ND. clear -ND B. induction l as [|a l IH]; [destruct B|]. cbn in ND. inversion ND; subst. destruct B as [->|B]; auto. apply H1, in_or_app. right. now left.
Qed.
Lemma stable_shaped : stable shaped.
Proof.
  split; try (intros; assumption).
  - intros p cust l kw e H. pose proof (st_construct _ stable_fine _ _ _ _ _ H) as C. unfold fine in C. unfold construct in H.
    destruct (negb (all_KS kw) || _ || _); [discriminate|]. destruct (dget "name" kw) as [name|]; [|discriminate]. destruct (dget "position" kw) as [position|]; [|discriminate].
    match type of H with context [set_name p cust name ?x] => pose proof (set_name_cb p cust name x) as N; destruct (set_name p cust name x) as [e1 [[]|err]] end; [|discriminate]. cbn [fst e_cb] in N.
    destruct (vec_of_val position) as [pos|]; [|discriminate].
    destruct (dir_of_val _) as [d|]; [|discriminate]. cbn [bind] in H.
    destruct (dget "control_behavior" kw) as [cbv|].
    + destruct (as_kwargs cbv) as [cbkw|]; [|discriminate].
      destruct (dmem "self" cbkw || dmem "_entity" cbkw); [discriminate|].
      destruct (cb_init_chain _ _ _ _ _ _) as [st [a|]]; [|discriminate]. cbn [snd] in H.
      destruct (init_chain _ _ _ _ _ _); simpl in H; [|discriminate]. injection H as <-. intros cb E. cbn in E. injection E as <-. cbn. now apply cb_chain_last.
    + cbn [snd] in H. destruct (init_chain _ _ _ _ _ _); simpl in H; [|discriminate]. injection H as <-. intros cb E. cbn in E. congruence.
  - intros n a cw e C. unfold entity_rotate. destruct (e_pos e); auto.
    match goal with |- context [match ?t with Ok _ => _ | Err _ => _ end] => destruct t as [q|] end; auto.
    destruct (rotate_chain _ _ _) as [[d' a'] r]. auto.
  - intros p cust v e H cb E. rewrite set_name_cb in E. now apply H.
  - intros k cb a e H E _ cb' E'. cbn in E'. injection E' as <-. cbn. now apply H.
Qed.
Lemma reach_shaped w i e cb : reachable w -> ent w i = Some e -> e_cb e = Some cb -> NoDup (cb_cls cb) /\ exists l, cb_cls cb = l ++ [CBaseMixin].
Proof. intros R H. exact (reach_all shaped stable_shaped w R i e H cb). Qed.

(** ** An export as a row of independent writers *)
Notation writer := (string * (dict -> res (option val)))%type.
Definition wrote (k : string) (o : option val) (obj : dict) : dict := match o with Some v => dset k v obj | None => obj end.
Fixpoint writes (W : list writer) (a obj : dict) : res dict :=
  match W with [] => Ok obj | (k, f) :: W => let! o := f a in writes W a (wrote k o obj) end.
Lemma writes_app W T a obj : writes (W ++ T) a obj = let! obj := writes W a obj in writes T a obj.
Proof. revert obj. induction W as [|(k, f) W IH]; intros obj; cbn; [reflexivity|]. destruct (f a); cbn; auto. Qed.
Lemma wrote_other k o obj key : key <> KS k -> dget key (wrote k o obj) = dget key obj.
Proof. intros N. destruct o; [|reflexivity]. cbn. rewrite DocProofs.dget_dset'. now apply key_eqb_neq in N as ->. Qed.
Lemma wrote_same k o obj : dget (KS k) (wrote k o obj) = match o with Some v => Some v | None => dget (KS k) obj end.
Proof. destruct o; [|reflexivity]. cbn. now rewrite DocProofs.dget_dset', key_eqb_refl. Qed.
Lemma writes_not W a k : (forall s, In s W -> fst s <> k) -> forall obj o, writes W a obj = Ok o -> dget (KS k) o = dget (KS k) obj.
Proof.
  induction W as [|(k', f) W IH]; intros N obj o H; cbn in H; [congruence|]. destruct (f a) as [x|]; [|discriminate]. cbn in H.
  rewrite (IH (fun s I => N s (or_intror I)) _ _ H). apply wrote_other. intros [= E]. apply (N (k', f) (or_introl eq_refl)). symmetry. exact E.
Qed.
Lemma writes_agree W a a' k : (forall s, In s W -> fst s <> k /\ snd s a' = snd s a) -> forall obj obj' o, writes W a obj = Ok o ->
  (forall key, key <> KS k -> dget key obj' = dget key obj) -> exists o', writes W a' obj' = Ok o' /\ forall key, key <> KS k -> dget key o' = dget key o.
Proof.
  induction W as [|(k', f) W IH]; intros N obj obj' o H A; cbn in *; [exists obj'; split; [reflexivity|]; injection H as <-; auto|].
  destruct (N (k', f) (or_introl eq_refl)) as [NK E]. cbn in NK, E. rewrite E. destruct (f a) as [x|]; [|discriminate]. cbn in *.
  apply (IH (fun s I => N s (or_intror I)) _ _ _ H). intros key NE. destruct x as [v|]; cbn; auto. rewrite !DocProofs.dget_dset', A by auto. reflexivity.
Qed.
Lemma writes_same W a a' obj : (forall s, In s W -> snd s a' = snd s a) -> writes W a' obj = writes W a obj.
Proof.
  revert obj. induction W as [|(k, f) W IH]; intros obj H; [reflexivity|]. cbn. pose proof (H (k, f) (or_introl eq_refl)) as E. cbn in E. rewrite E.
  destruct (f a); cbn; auto. apply IH. intros s I. apply H. now right.
Qed.
(** one writer sees something else *)
Lemma writes_change W1 W2 k f a a' obj o : (forall s, In s (W1 ++ W2) -> fst s <> k /\ snd s a' = snd s a) -> dget (KS k) obj = None ->
  writes (W1 ++ (k, f) :: W2) a obj = Ok o ->
  exists r, f a = Ok r /\ dget (KS k) o = r /\
  match f a' with
  | Err x => writes (W1 ++ (k, f) :: W2) a' obj = Err x
  | Ok r' => exists o', writes (W1 ++ (k, f) :: W2) a' obj = Ok o' /\ dget (KS k) o' = r' /\ forall key, key <> KS k -> dget key o' = dget key o
  end.
Proof.
  intros N Z H. rewrite writes_app in *. assert (E1 : writes W1 a' obj = writes W1 a obj). { apply writes_same. intros s I. apply N, in_or_app. now left. }
  rewrite E1. destruct (writes W1 a obj) as [o1|] eqn:V1; [|discriminate]. cbn [bind writes] in *. destruct (f a) as [r|]; [|discriminate]. cbn [bind] in H.
  assert (N1 : forall s, In s W1 -> fst s <> k) by (intros s I; apply N, in_or_app; now left).
  assert (N2 : forall s, In s W2 -> fst s <> k /\ snd s a' = snd s a) by (intros s I; apply N, in_or_app; now right).
  assert (Z1 : dget (KS k) o1 = None) by (rewrite (writes_not W1 a k N1 _ _ V1); exact Z).
  exists r. split; [reflexivity|]. split.
  { rewrite (writes_not W2 a k (fun s I => proj1 (N2 s I)) _ _ H), wrote_same, Z1. now destruct r. }
  destruct (f a') as [r'|]; [|reflexivity]. cbn [bind].
  destruct (writes_agree W2 a a' k N2 _ (wrote k r' o1) o H) as (o' & V & A). { intros key NE. now rewrite !wrote_other. }
  exists o'. split; [exact V|]. split; [|exact A].
  rewrite (writes_not W2 a' k (fun s I => proj1 (N2 s I)) _ _ V), wrote_same, Z1. now destruct r'.
Qed.

(** ** The writers of the classes *)
Definition sig_val (p : protos) (v : val) : res (option val) :=
  match v with VNone => Ok None | VStr _ => let! j := signal_json p v in Ok (Some j) | _ => Ok (Some v) end.
Definition opt_val (p : protos) (v : val) : res (option val) :=
  if truthy v then let! j := signal_json p v in Ok (Some j) else Ok None.
Definition flat_val (p : protos) (g : kind) (k : string) (a : dict) : res (option val) :=
  match g with
  | KGiven => let! v := aget a k in Ok (shows v)
  | KAlways => let! v := aget a k in Ok (Some v)
  | KSwitch => let! v := aget a k in Ok (if truthy v then None else Some (VBool false))
  | KSignal => sig_val p (dsc a k)
  | KOptSignal => opt_val p (dsc a k)
  | _ => Ok None
  end.
Definition side_val (p : protos) (name constant : string) (v : val) (cc : dict) : res dict :=
  match v with
  | VNone => Ok cc
  | VInt z => Ok (dset constant (VInt z) cc)
  | v => let! j := signal_json p v in Ok (dset name j cc)
  end.
Definition cond_val (p : protos) (a : dict) : res dict :=
  let! cc := side_val p "first_signal" "first_constant" (dsc a "first") (obj_set [] "comparator" (dsc a "comparator")) in
  side_val p "second_signal" "constant" (dsc a "second") cc.
Definition full (d : dict) : option val := match d with [] => None | _ => Some (VDict d) end.
Definition writers (p : protos) (c : scls) : list writer :=
  match c with
  | CCircuitCondition => [("circuit_condition"%string, fun a => let! cc := cond_val p a in Ok (full cc))]
  | CFilters => [("filters"%string, fun a => let! fs := aget a "filters" in
      match fs with VList (x :: r) => let! js := mapM (filter_json p) (x :: r) in Ok (Some (VList js)) | _ => Ok None end)]
  | CSpeaker => [("circuit_parameters"%string, fun a => let! q := aget a "circuit_parameters" in Ok (Some q))]
  | _ => map (fun kg => (fst kg, flat_val p (snd kg) (fst kg))) (behaviour c)
  end.
Lemma wrote_shows k v obj : obj_set obj k v = wrote k (shows v) obj. Proof. now destruct v. Qed.
Lemma signal_wrote p obj k v : signal_obj_set p obj k v = let! o := sig_val p v in Ok (wrote k o obj).
Proof. destruct v; try reflexivity. cbn [signal_obj_set sig_val]. destruct (signal_json p (VStr s)); reflexivity. Qed.
Lemma opt_wrote p obj k v : opt_signal_json p obj k v = let! o := opt_val p v in Ok (wrote k o obj).
Proof. unfold opt_signal_json, opt_val. destruct (truthy v); [|reflexivity]. destruct (signal_json p v); reflexivity. Qed.
Lemma link_writes p cls c a obj : c <> CCombinator -> c <> CDecider -> cb_json_link p cls c a obj = writes (writers p c) a obj.
Proof.
  intros N1 N2. destruct (scls_eq_dec c CCircuitCondition) as [->|N3].
  { cbn [cb_json_link writers writes]. unfold cond_val, side_val. generalize (obj_set [] "comparator" (dsc a "comparator")). intros cc.
    destruct (dsc a "first"), (dsc a "second"); cbn [bind];
      repeat match goal with |- context [signal_json p ?v] => destruct (signal_json p v); cbn [bind] end; try reflexivity;
      try (destruct cc; reflexivity); match goal with |- Ok match ?d with [] => _ | _ => _ end = _ => destruct d; reflexivity end. }
  destruct c; try congruence; try reflexivity; cbn [cb_json_link writers behaviour map fst snd writes flat_val];
    rewrite ?signal_wrote, ?wrote_shows; unfold aget;
    repeat (match goal with
    | |- context [match dget ?k ?d with _ => _ end] => destruct (dget k d)
    | |- context [sig_val p ?v] => destruct (sig_val p v) eqn:?
    | |- context [opt_val p ?v] => destruct (opt_val p v) eqn:?
    | _ => progress (rewrite ?signal_wrote, ?opt_wrote, ?wrote_shows)
    end; cbn [bind]); try reflexivity; try congruence.
  - destruct v; try reflexivity. destruct l; try reflexivity. destruct (mapM _ _); reflexivity.
  - cbn. destruct (truthy v); reflexivity.
Qed.

(** ** What is stored and shown *)
Lemma falsy_truthy v : falsy v <-> truthy v = false.
Proof. rewrite <- truth_is. unfold truth. split; [auto|]. intros [[_ H]|[H _]]; [auto|discriminate]. Qed.
Lemma truly v : ~ falsy v <-> truthy v = true.
Proof. rewrite falsy_truthy. destruct (truthy v); split; congruence. Qed.
Lemma d_looked p v : describes (looked_up (p_signal p) v) (signal_check p v).
Proof.
  unfold signal_check. split.
  - intros r H. destruct H as [| | |s N K|v N H U|v N H]; try reflexivity.
    + replace (truthy (VStr s)) with true by (destruct s; [congruence|reflexivity]). cbn [in_table bind]. unfold dmem. destruct (dget s (p_signal p)); [reflexivity|congruence].
    + apply truly in N. rewrite N. destruct v; try contradiction; try reflexivity. cbn [in_table bind]. unfold dmem. now rewrite (U s eq_refl).
    + apply truly in N. rewrite N. destruct v; try (elim H; exact I); reflexivity.
  - destruct (truthy v) eqn:T.
    + apply truly in T. intros _. destruct v as [|b|z|f|s|l|d]; cbn [in_table bind]; try (apply lu_unknown; [exact T|exact I|discriminate]); try (apply lu_unhashable; [exact T|exact (fun x => x)]).
      unfold dmem. destruct (dget s (p_signal p)) eqn:E; [|apply lu_unknown; [exact T|exact I|intros ? [= <-]; exact E]].
      apply lu_known; [|congruence]. intros ->. apply T. left. cbn. auto.
    + destruct v; intros U; try congruence; clear U; cbn in T; [apply lu_none|apply negb_false_iff, Z.eqb_eq in T as ->; apply lu_zero|].
      destruct s; [apply lu_empty|discriminate].
Qed.
Lemma d_signal p v : describes (signal_taken (p_signal p) v) (signal_set p v).
Proof.
  split.
  - intros r H. destruct H as [z|d n r K L|d K|v r N1 N2 L].
    + reflexivity.
    + cbn [signal_set]. rewrite K. now apply d_looked.
    + cbn [signal_set]. rewrite K. reflexivity.
    + apply d_looked in L. destruct v; try exact L; [elim (N1 z)|elim (N2 d)]; reflexivity.
  - intros U. destruct v as [|b|z|f|s|l|d]; try (apply sk_other; [discriminate|discriminate|]; now apply d_looked); [constructor|].
    cbn [signal_set] in *. destruct (dget "name" d) as [n|] eqn:K; cbn [odflt] in *; [|now constructor]. apply (sk_named _ d n); auto. now apply d_looked.
Qed.
Lemma d_doc p (s : string) : describes (signal_doc (p_signal p) s) (signal_json p (VStr s)).
Proof.
  cbn [signal_json]. split.
  - intros r H. destruct H as [data ty E F|data e E F|E]; rewrite E; auto; apply d_field in F; now rewrite F.
  - intros U. destruct (dget s (p_signal p)) as [data|] eqn:E; [|now constructor]. pose proof (proj2 (d_field data "type")) as F.
    destruct (getitem data "type") as [ty|e]; cbn [bind] in *; [apply (sd_ok _ _ data); [exact E|]; apply F; discriminate|].
    apply (sd_typeless _ _ data); [exact E|]. apply F. intros [= ->]. now apply U.
Qed.
(** signals that can be stored *)
Lemma kept_signal p v x : signal_set p v = Ok x -> x = VNone \/ (exists z, x = VInt z) \/ exists s, x = VStr s.
Proof.
  assert (C : forall v x, signal_check p v = Ok x -> x = VNone \/ (exists z, x = VInt z) \/ exists s, x = VStr s).
  { intros u y. unfold signal_check. destruct (truthy u) eqn:T.
    - destruct u; cbn [in_table bind]; try discriminate. destruct (dmem _ _); [|discriminate]. intros [= <-]. eauto.
    - destruct u; try discriminate; intros [= <-]; eauto. }
  destruct v; cbn [signal_set]; try apply C. intros [= <-]. eauto.
Qed.
Definition stored (p : protos) (g : kind) (v : val) : res val :=
  match g with KGiven | KAlways | KSwitch => Ok v | KComparator => operator_set decider_ops v | _ => signal_set p v end.
Lemma str_in_is v l : str_in v l = true <-> one_of l v.
Proof.
  unfold one_of. destruct v; cbn; try (split; [discriminate|intros (s0 & H & _); discriminate]).
  rewrite existsb_exists. split.
  - intros (x & I & E). apply String.eqb_eq in E as <-. eauto.
  - intros (x & [= <-] & I). exists s. split; [auto|apply String.eqb_refl].
Qed.
Lemma d_taken p g v : describes (taken (p_signal p) g v) (stored p g v).
Proof.
  destruct g; cbn [taken stored]; try apply d_gives; try apply d_signal. unfold operator_set.
  destruct (is_none v) eqn:N.
  - destruct v; try discriminate. cbn. split; [intros r [[_ ->]|[K _]]; congruence|auto].
  - rewrite orb_false_r. assert (v <> VNone) by (intros ->; discriminate).
    destruct (d_must (one_of decider_ops v) (str_in v decider_ops) v (str_in_is v _)) as [A B].
    split; [intros r [[K _]|[_ K]]; [contradiction|now apply A]|intros U; right; split; [auto|now apply B]].
Qed.

(** ** Effects *)
Definition flat (g : kind) : bool := match g with KFirst | KSecond | KComparator => false | _ => true end.
Definition hold (fx : list effect) (d d' : dict) : Prop :=
  (forall q o, In (q, o) fx -> at_path q (VDict d') = o) /\ forall q, (forall q' o, In (q', o) fx -> unrelated q q') -> at_path q (VDict d') = at_path q (VDict d).
(** flat attributes *)
Lemma flat_shown p g k x r a : flat g = true -> (exists v, stored p g v = Ok x) -> shown_as (p_signal p) g k x r ->
  match r with
  | Err e => flat_val p g k (dset (KS k) x a) = Err e
  | Ok fx => exists o, fx = [([k], o)] /\ flat_val p g k (dset (KS k) x a) = Ok o
  end.
Proof.
  intros F (v & V) H. assert (G : aget (dset (KS k) x a) k = Ok x) by (unfold aget; now rewrite DocProofs.dget_dset', key_eqb_refl).
  assert (D : dsc (dset (KS k) x a) k = x) by (unfold dsc; now rewrite DocProofs.dget_dset', key_eqb_refl).
  destruct g; try discriminate; cbn [shown_as flat_val stored] in *; rewrite ?G, ?D.
  - subst r. eauto.
  - subst r. eauto.
  - destruct H as (b & T & ->). apply truth_is in T. cbn [bind]. rewrite T. eauto.
  - destruct H as [[-> ->]|[(z & -> & ->)|(s & -> & H)]]; cbn [sig_val]; eauto.
    destruct H as [(e & H & ->)|(j & H & ->)]; apply d_doc in H; rewrite H; cbn; eauto.
  - unfold opt_val. destruct H as [[T ->]|[(z & -> & N & ->)|(s & -> & N & H)]].
    + apply falsy_truthy in T. rewrite T. eauto.
    + cbn. destruct (Z.eqb_spec z 0); [contradiction|reflexivity].
    + replace (truthy (VStr s)) with true by (destruct s; [congruence|reflexivity]).
      destruct H as [(e & H & ->)|(j & H & ->)]; apply d_doc in H; rewrite H; cbn; eauto.
Qed.
(** the circuit condition *)
Definition parts (p : protos) (v : val) : res (option val * option val) :=
  match v with
  | VNone => Ok (None, None)
  | VInt z => Ok (None, Some v)
  | _ => let! j := signal_json p v in Ok (Some j, None)
  end.
Definition five (cmp s1 c1 s2 c2 : option val) : dict :=
  wrote "constant" c2 (wrote "second_signal" s2 (wrote "first_constant" c1 (wrote "first_signal" s1 (wrote "comparator" cmp [])))).
Lemma cond_parts p a : cond_val p a = let! f := parts p (dsc a "first") in let! g := parts p (dsc a "second") in
  Ok (five (shows (dsc a "comparator")) (fst f) (snd f) (fst g) (snd g)).
Proof.
  unfold cond_val, five. rewrite wrote_shows. unfold side_val, parts.
  destruct (dsc a "first"), (dsc a "second"); cbn [bind fst snd wrote];
      repeat match goal with |- context [signal_json p ?v] => destruct (signal_json p v); cbn [bind fst snd wrote] end; reflexivity.
Qed.
Lemma five_get cmp s1 c1 s2 c2 (k : string) : dget (KS k) (five cmp s1 c1 s2 c2) =
  if String.eqb k "constant" then c2 else if String.eqb k "second_signal" then s2 else if String.eqb k "first_constant" then c1 else
  if String.eqb k "first_signal" then s1 else if String.eqb k "comparator" then cmp else None.
Proof.
  unfold five. repeat match goal with |- context [String.eqb k ?s] =>
    destruct (String.eqb_spec k s) as [->|]; [destruct cmp, s1, c1, s2, c2; reflexivity|] end;
  repeat (rewrite wrote_other by congruence); reflexivity.
Qed.
Lemma d_side p n c x : (x = VNone \/ (exists z, x = VInt z) \/ exists s, x = VStr s) -> forall r, side (p_signal p) n c x r ->
  match r with Err e => parts p x = Err e | Ok fx => exists s k, parts p x = Ok (s, k) /\ fx = [([n], s); ([c], k)] end.
Proof.
  intros _ r H. destruct H as [|z|s j H|s e H]; cbn [parts]; eauto; apply d_doc in H; rewrite H; cbn; eauto.
Qed.
Lemma dsc_set (k k' : string) x a : dsc (dset (KS k) x a) k' = if String.eqb k' k then x else dsc a k'.
Proof. unfold dsc. rewrite DocProofs.dget_dset'. cbn [key_eqb]. now destruct (String.eqb k' k). Qed.
Lemma cond_shown p g k x r a cc : In (k, g) (behaviour CCircuitCondition) -> (exists v, stored p g v = Ok x) -> shown_as (p_signal p) g k x r -> cond_val p a = Ok cc ->
  match r with
  | Err e => cond_val p (dset (KS k) x a) = Err e
  | Ok fx => exists fx1 cc', fx1 <> [] /\ fx = within "circuit_condition" fx1 /\ cond_val p (dset (KS k) x a) = Ok cc' /\
      (forall q o, In (q, o) fx1 -> exists k', q = [k'] /\ dget (KS k') cc' = o) /\
      (forall k', (forall o, ~ In ([k'], o) fx1) -> dget (KS k') cc' = dget (KS k') cc)
  end.
Proof.
  intros I (v & V) H C. rewrite cond_parts in *. rewrite !dsc_set.
  destruct (parts p (dsc a "first")) as [[s1 c1]|] eqn:P1; [|discriminate]. cbn [bind] in C. destruct (parts p (dsc a "second")) as [[s2 c2]|] eqn:P2; [|discriminate]. cbn [bind fst snd] in C. injection C as <-.
  destruct I as [[= <- <-]|[[= <- <-]|[[= <- <-]|[]]]]; cbn [stored shown_as String.eqb Ascii.eqb Bool.eqb] in *.
  - destruct H as [(e & H & ->)|(fx & H & ->)]; apply (d_side _ _ _ _ (kept_signal _ _ _ V)) in H; [now rewrite H|]. destruct H as (s & c & H & ->). rewrite H, P2. cbn [bind fst snd].
    exists [(["first_signal"%string], s); (["first_constant"%string], c)], (five (shows (dsc a "comparator")) s c s2 c2). split; [discriminate|]. split; [reflexivity|]. split; [reflexivity|]. split.
    + intros q o [[= <- <-]|[[= <- <-]|[]]]; eexists; (split; [reflexivity|]); now rewrite five_get.
    + intros k' N. rewrite !five_get. destruct (String.eqb_spec k' "first_signal") as [->|]; [elim (N s); now left|]. destruct (String.eqb_spec k' "first_constant") as [->|]; [elim (N c); right; now left|]. reflexivity.
  - destruct H as [(e & H & ->)|(fx & H & ->)]; apply (d_side _ _ _ _ (kept_signal _ _ _ V)) in H; rewrite P1; cbn [bind]; [now rewrite H|]. destruct H as (s & c & H & ->). rewrite H. cbn [bind fst snd].
    exists [(["second_signal"%string], s); (["constant"%string], c)], (five (shows (dsc a "comparator")) s1 c1 s c). split; [discriminate|]. split; [reflexivity|]. split; [reflexivity|]. split.
    + intros q o [[= <- <-]|[[= <- <-]|[]]]; eexists; (split; [reflexivity|]); now rewrite five_get.
    + intros k' N. rewrite !five_get. destruct (String.eqb_spec k' "second_signal") as [->|]; [elim (N s); now left|]. destruct (String.eqb_spec k' "constant") as [->|]; [elim (N c); right; now left|]. reflexivity.
  - subst r. rewrite P1, P2. cbn [bind fst snd]. exists [(["comparator"%string], shows x)], (five (shows x) s1 c1 s2 c2). split; [discriminate|]. split; [reflexivity|]. split; [reflexivity|]. split.
    + intros q o [[= <- <-]|[]]; eexists; (split; [reflexivity|]); now rewrite five_get.
    + intros k' N. rewrite !five_get. destruct (String.eqb_spec k' "comparator") as [->|]; [elim (N (shows x)); now left|]. reflexivity.
Qed.

(** ** One attribute among the writers *)
Definition out_key (g : kind) (k : string) : string := if flat g then k else "circuit_condition"%string.
Lemma flat_reads p g k k' x a : k <> k' -> flat_val p g k (dset (KS k') x a) = flat_val p g k a.
Proof.
  intros N. assert (G : aget (dset (KS k') x a) k = aget a k) by (unfold aget; rewrite DocProofs.dget_dset'; cbn [key_eqb]; now apply String.eqb_neq in N as ->).
  assert (D : dsc (dset (KS k') x a) k = dsc a k) by (rewrite dsc_set; now apply String.eqb_neq in N as ->).
  destruct g; cbn [flat_val]; now rewrite ?G, ?D.
Qed.
Lemma flat_rows c k g : c <> CCircuitCondition -> In (k, g) (behaviour c) -> flat g = true.
Proof. intros N I. destruct c; try congruence; cbn in I; repeat (destruct I as [[= <- <-]|I]; [reflexivity|]); destruct I. Qed.
Lemma names_known c k g : In (k, g) (behaviour c) -> k <> "filters"%string /\ k <> "circuit_parameters"%string /\ k <> "circuit_condition"%string.
Proof. intros I. destruct c; cbn in I; repeat (destruct I as [[= <- <-]|I]; [repeat split; discriminate|]); destruct I. Qed.
Lemma rows_once c : NoDup (map fst (behaviour c)).
Proof. destruct c; cbn; repeat constructor; cbn; intuition discriminate. Qed.
Lemma writer_other p c c' k g x a s : In (k, g) (behaviour c) -> c' <> c -> (forall g', ~ In (k, g') (behaviour c')) -> In s (writers p c') ->
  fst s <> out_key g k /\ snd s (dset (KS k) x a) = snd s a.
Proof.
  intros I NC NI J. destruct (names_known _ _ _ I) as (N1 & N2 & N3).
  assert (NK : out_key g k <> "filters"%string /\ out_key g k <> "circuit_parameters"%string) by (unfold out_key; destruct (flat g); split; auto; discriminate).
  assert (A : forall f : string, f <> k -> aget (dset (KS k) x a) f = aget a f) by (intros f N; unfold aget; rewrite DocProofs.dget_dset'; cbn [key_eqb]; now apply String.eqb_neq in N as ->).
  assert (X : c' = CCircuitCondition \/ c' = CFilters \/ c' = CSpeaker \/ exists k' g', In (k', g') (behaviour c') /\ s = (k', flat_val p g' k')).
  { destruct c'; auto; cbn [writers] in J; apply in_map_iff in J as ((k' & g') & <- & J); right; right; right; exists k', g'; cbn [fst snd]; auto. }
  destruct X as [->|[->|[->|(k' & g' & J' & ->)]]].
  - destruct J as [<-|[]]. cbn [fst snd]. split.
    + unfold out_key. destruct (flat g) eqn:F; [congruence|]. exfalso. destruct (scls_eq_dec c CCircuitCondition); [congruence|]. rewrite (flat_rows _ _ _ n I) in F. discriminate.
    + unfold cond_val. rewrite !dsc_set.
      assert (K : forall f, In f ["first"; "second"; "comparator"]%string -> String.eqb f k = false).
      { intros f F. apply String.eqb_neq. intros ->. destruct F as [<-|[<-|[<-|[]]]]; eapply NI; cbn; eauto. }
      rewrite !K by (cbn; auto). reflexivity.
  - destruct J as [<-|[]]. cbn [fst snd]. split; [destruct NK; congruence|]. now rewrite A by congruence.
  - destruct J as [<-|[]]. cbn [fst snd]. split; [destruct NK; congruence|]. now rewrite A by congruence.
  - cbn [fst snd]. assert (k' <> k) by (intros ->; eapply NI; eauto). split; [|now apply flat_reads].
    unfold out_key. destruct (flat g); [auto|]. apply (names_known _ _ _ J').
Qed.
Definition writer_of (p : protos) (g : kind) (k : string) : writer :=
  if flat g then (k, flat_val p g k) else ("circuit_condition"%string, fun a => let! cc := cond_val p a in Ok (full cc)).
Lemma writer_own p c k g x a : In (k, g) (behaviour c) -> exists W1 W2, writers p c = W1 ++ writer_of p g k :: W2 /\
  forall s, In s (W1 ++ W2) -> fst s <> out_key g k /\ snd s (dset (KS k) x a) = snd s a.
Proof.
  intros I. destruct (scls_eq_dec c CCircuitCondition) as [->|N].
  - exists [], []. split; [|intros s []]. destruct I as [[= <- <-]|[[= <- <-]|[[= <- <-]|[]]]]; reflexivity.
  - pose proof (flat_rows _ _ _ N I) as F. unfold out_key, writer_of. rewrite F. pose proof (rows_once c) as ND.
    apply in_split in I as (l1 & l2 & E). rewrite E, map_app in ND. cbn [map fst] in ND. apply NoDup_remove_2 in ND. rewrite <- map_app in ND.
    exists (map (fun kg => (fst kg, flat_val p (snd kg) (fst kg))) l1), (map (fun kg => (fst kg, flat_val p (snd kg) (fst kg))) l2). split.
    + replace (writers p c) with (map (fun kg => (fst kg, flat_val p (snd kg) (fst kg))) (behaviour c)); [rewrite E, map_app; reflexivity|].
      destruct c; try reflexivity; try congruence; cbn in E; now destruct l1.
    + intros s J. rewrite <- map_app in J. apply in_map_iff in J as ((k' & g') & <- & J). cbn [fst snd].
      assert (k' <> k). { intros ->. apply ND. apply in_map_iff. now exists (k, g'). } split; [auto|]. now apply flat_reads.
Qed.
Lemma chain_writers p l a : ~ In CBaseMixin l -> ~ In CCombinator l -> ~ In CDecider l -> forall cls obj,
  cb_json_chain p cls (l ++ [CBaseMixin]) a obj = let! o := writes (flat_map (writers p) l) a obj in Ok (match o with [] => VNone | _ => VDict o end).
Proof.
  intros N1 N2 N3 cls. induction l as [|c l IH]; intros obj; [reflexivity|]. cbn [app flat_map]. rewrite writes_app.
  rewrite <- (link_writes p cls) by (intros ->; (apply N2 + apply N3); now left).
  assert (X : cb_json_chain p cls (c :: l ++ [CBaseMixin]) a obj = let! obj := cb_json_link p cls c a obj in cb_json_chain p cls (l ++ [CBaseMixin]) a obj).
  { destruct c; try reflexivity. elim N1. now left. }
  rewrite X. destruct (cb_json_link p cls c a obj) as [o|]; [|reflexivity]. cbn [bind]. apply IH; intros J; (apply N1 + apply N2 + apply N3); now right.
Qed.
Lemma chain_split p l c k g x a : NoDup l -> In c l -> In (k, g) (behaviour c) -> (forall c' g', In c' l -> In (k, g') (behaviour c') -> c' = c) ->
  exists W1 W2, flat_map (writers p) l = W1 ++ writer_of p g k :: W2 /\ forall s, In s (W1 ++ W2) -> fst s <> out_key g k /\ snd s (dset (KS k) x a) = snd s a.
Proof.
  intros ND IC I A. apply in_split in IC as (l1 & l2 & ->). destruct (writer_own p c k g x a I) as (V1 & V2 & E & B).
  assert (NI : ~ In c (l1 ++ l2)) by now apply NoDup_remove_2.
  exists (flat_map (writers p) l1 ++ V1), (V2 ++ flat_map (writers p) l2). split.
  - rewrite flat_map_app. cbn [flat_map]. rewrite E, <- !app_assoc. reflexivity.
  - assert (O : forall l s, (forall c', In c' l -> In c' (l1 ++ l2)) -> In s (flat_map (writers p) l) -> fst s <> out_key g k /\ snd s (dset (KS k) x a) = snd s a).
    { intros l s L J. apply in_flat_map in J as (c' & J & S). apply L in J. assert (c' <> c) by (intros ->; contradiction).
      apply (writer_other p c c'); auto. intros g' K. apply H. apply (A c' g'); auto. apply in_app_or in J as [J|J]; apply in_or_app; [now left|right; now right]. }
    intros s J. rewrite <- app_assoc in J. apply in_app_or in J as [J|J]; [apply (O l1 s); auto; intros; apply in_or_app; auto|]. rewrite app_assoc in J. apply in_app_or in J as [J|J]; [auto|].
    apply (O l2 s); auto; intros; apply in_or_app; auto.
Qed.

(** ** Paths *)
Lemma at_path_cong q d d' k : dget (KS k) d' = dget (KS k) d -> at_path (k :: q) (VDict d') = at_path (k :: q) (VDict d).
Proof. intros H. cbn [at_path]. now rewrite H. Qed.
Lemma unrelated_nil q : ~ unrelated [] q. Proof. intros [H _]. apply H. now exists q. Qed.
Lemma unrelated_cons k q q' : unrelated (k :: q) (k :: q') <-> unrelated q q'.
Proof.
  unfold unrelated, prefix. split; intros [A B]; (split; intros (r & E); [apply A|apply B]); exists r; cbn in *; congruence.
Qed.
Lemma unrelated_head k q k' q' : k <> k' -> unrelated (k :: q) (k' :: q').
Proof. intros N. split; intros (r & E); cbn in E; congruence. Qed.
(** one key of the dictionary *)
Lemma hold_flat k o d d' : dget (KS k) d' = o -> (forall key, key <> KS k -> dget key d' = dget key d) -> hold [([k], o)] d d'.
Proof.
  intros E A. split.
  - intros q o' [[= <- <-]|[]]. cbn. rewrite E. now destruct o.
  - intros q U. specialize (U [k] o (or_introl eq_refl)). destruct q as [|k' q]; [elim (unrelated_nil _ U)|]. apply at_path_cong, A. intros [= ->].
    apply unrelated_cons in U. destruct U as [_ U]. apply U. now exists q.
Qed.
Definition at_opt (q : list string) (o : option val) : option val := match o with Some x => at_path q x | None => None end.
Lemma at_full q d : q <> [] -> at_opt q (full d) = at_path q (VDict d).
Proof. destruct d; [destruct q; [congruence|reflexivity]|reflexivity]. Qed.
Lemma hold_within k fx cc cc' d d' : fx <> [] -> dget (KS k) d = full cc -> dget (KS k) d' = full cc' -> (forall key, key <> KS k -> dget key d' = dget key d) ->
  (forall q o, In (q, o) fx -> q <> []) -> hold fx cc cc' -> hold (within k fx) d d'.
Proof.
  intros NE E E' A NN [H1 H2]. split.
  - intros q o I. apply in_map_iff in I as ((q' & o') & [= <- <-] & I). cbn [fst at_path]. rewrite E'. change (at_opt q' (full cc') = o'). rewrite at_full by eauto. auto.
  - intros q U. destruct q as [|k' q]. { destruct fx as [|(q0, o0) fx]; [congruence|]. elim (unrelated_nil (k :: q0)). apply (U _ o0). now left. }
    destruct (String.eqb_spec k' k) as [->|N]; [|apply at_path_cong, A; congruence].
    cbn [at_path]. rewrite E, E'. change (at_opt q (full cc') = at_opt q (full cc)).
    assert (U' : forall q' o, In (q', o) fx -> unrelated q q'). { intros q' o I. apply (unrelated_cons k), (U _ o). apply in_map_iff. now exists (q', o). }
    assert (q <> []). { intros ->. destruct fx as [|(q0, o0) fx]; [congruence|]. apply (unrelated_nil q0), (U' _ o0). now left. }
    rewrite !at_full by auto. now apply H2.
Qed.
Lemma hold_keys fx d d' : fx <> [] -> (forall q o, In (q, o) fx -> exists k', q = [k'] /\ dget (KS k') d' = o) -> (forall k', (forall o, ~ In ([k'], o) fx) -> dget (KS k') d' = dget (KS k') d) -> hold fx d d'.
Proof.
  intros NE A B. split.
  - intros q o I. destruct (A q o I) as (k & -> & E). cbn. rewrite E. now destruct o.
  - intros q U. destruct q as [|k q]. { destruct fx as [|(q0, o0) fx]; [congruence|]. elim (unrelated_nil q0). apply (U _ o0). now left. }
    apply at_path_cong, B. intros o I. apply U in I. apply unrelated_cons in I. destruct I as [_ I]. apply I. now exists q.
Qed.

(** ** The exported behaviour *)
Lemma cb_effect p cls l c k g a o x r : NoDup (l ++ [CBaseMixin]) -> In c l -> In (k, g) (behaviour c) -> alone (l ++ [CBaseMixin]) c k ->
  cb_json p cls (mkCb (l ++ [CBaseMixin]) a) = Ok o -> (exists v, stored p g v = Ok x) -> shown_as (p_signal p) g k x r ->
  exists d, o = match d with [] => VNone | _ => VDict d end /\
  match r with
  | Err e => cb_json p cls (mkCb (l ++ [CBaseMixin]) (dset (KS k) x a)) = Err e
  | Ok fx => exists d', cb_json p cls (mkCb (l ++ [CBaseMixin]) (dset (KS k) x a)) = Ok (match d' with [] => VNone | _ => VDict d' end) /\ hold fx d d' /\ fx <> []
  end.
Proof.
  intros ND IC I (N1 & N2 & AL) J V H. unfold cb_json in *. cbn [cb_cls cb_at] in *.
  assert (NB : ~ In CBaseMixin l) by (apply NoDup_remove_2 in ND; now rewrite app_nil_r in ND).
  assert (NL : NoDup l) by (apply NoDup_remove_1 in ND; now rewrite app_nil_r in ND).
  rewrite chain_writers in J by (auto; intros K; (apply N1 + apply N2); apply in_or_app; now left).
  rewrite chain_writers by (auto; intros K; (apply N1 + apply N2); apply in_or_app; now left).
  destruct (chain_split p l c k g x a NL IC I) as (W1 & W2 & E & B). { intros c' g' K. apply AL. apply in_or_app. now left. }
  rewrite E in *. destruct (writes (W1 ++ writer_of p g k :: W2) a []) as [d|] eqn:Wd; [|discriminate]. cbn [bind] in J. injection J as <-. exists d. split; [reflexivity|].
  unfold writer_of, out_key in *. destruct (flat g) eqn:F.
  - destruct (writes_change _ _ _ _ a (dset (KS k) x a) [] d B eq_refl Wd) as (u & _ & _ & X). pose proof (flat_shown p g k x r a F V H) as Y.
    destruct r as [fx|e]; [|rewrite Y in X; now rewrite X]. destruct Y as (o & -> & Y). rewrite Y in X. destruct X as (d' & X & G & A). rewrite X. exists d'. split; [reflexivity|]. split; [now apply hold_flat|discriminate].
  - destruct (writes_change _ _ _ _ a (dset (KS k) x a) [] d B eq_refl Wd) as (u & Eu & G & X). cbn beta in *.
    destruct (cond_val p a) as [cc|] eqn:CC; [|discriminate]. cbn [bind] in Eu. injection Eu as <-.
    assert (C : In (k, g) (behaviour CCircuitCondition)). { destruct (scls_eq_dec c CCircuitCondition) as [<-|N]; [exact I|]. rewrite (flat_rows _ _ _ N I) in F. discriminate. }
    pose proof (cond_shown p g k x r a cc C V H CC) as Y. destruct r as [fx|e]; [|rewrite Y in X; cbn [bind] in X; now rewrite X].
    destruct Y as (fx1 & cc' & NE & -> & Y & Y1 & Y2). rewrite Y in X. cbn [bind] in X. destruct X as (d' & X & G' & A). rewrite X. exists d'. split; [reflexivity|].
    split; [|destruct fx1; [congruence|discriminate]]. apply (hold_within _ _ cc cc'); auto; [|now apply hold_keys]. intros q o K. destruct (Y1 q o K) as (k' & -> & _). discriminate.
Qed.

(** ** Assignment *)
Lemma set_cb_is p l c k g v a : In c l -> In (k, g) (behaviour c) -> set_cb_at p l k v a = put k (stored p g v) a.
Proof.
  intros IC I. assert (C : has_cls c l = true) by now apply RotateProofs.has_cls_In.
  assert (S : forall s, In s (cb_signals c) -> str_mem s (flat_map cb_signals l) = true).
  { intros s J. apply existsb_exists. exists s. split; [apply in_flat_map; eauto|apply String.eqb_refl]. }
  destruct c; cbn in I; repeat (destruct I as [[= <- <-]|I]; [unfold set_cb_at; try reflexivity; cbn - [flat_map has_cls];
    first [rewrite C; reflexivity | rewrite S by (cbn; auto 6); reflexivity]|]); destruct I.
Qed.
Lemma p_C68_taken i k v w e cb c g : ent w i = Some e -> e_cb e = Some cb -> In c (cb_cls cb) -> In (k, g) (behaviour c) ->
  (forall r, taken (p_signal (w_protos w)) g v r -> snd (step (OSetCb i k v) w) = match r with Ok _ => Ok tt | Err x => Err x end) /\
  (snd (step (OSetCb i k v) w) <> Err EUnmodelled -> exists r, taken (p_signal (w_protos w)) g v r).
Proof.
  intros He Hc IC I. cbn [step]. rewrite (assign_cb_eq _ _ _ _ _ He). cbn [snd]. unfold set_cb_attr. rewrite Hc, (set_cb_is _ _ _ _ _ _ _ IC I).
  destruct (d_taken (w_protos w) g v) as [A B]. split.
  - intros r H. apply A in H. rewrite H. destruct r; reflexivity.
  - intros U. exists (stored (w_protos w) g v). apply B. intros E. rewrite E in U. now apply U.
Qed.
Lemma doc_exists t s : exists r, signal_doc t s r.
Proof.
  destruct (dget s t) as [data|] eqn:E; [|exists (Err EKey); now apply sd_unknown].
  destruct (getitem data "type") as [ty|e] eqn:F.
  - eexists. apply (sd_ok _ _ data ty E). rewrite <- F. apply d_field. congruence.
  - eexists. apply (sd_typeless _ _ data e E). rewrite <- F. apply d_field. rewrite F. destruct data; cbn in F; try (injection F as <-; discriminate). destruct (dget "type" d); congruence.
Qed.
Lemma kept t v x : signal_taken t v (Ok x) -> x = VNone \/ (exists z, x = VInt z) \/ exists s, x = VStr s.
Proof. intros H. apply (kept_signal (mkProtos [] [] [] t []) v). now apply d_signal. Qed.
Lemma side_exists t n c x : x = VNone \/ (exists z, x = VInt z) \/ (exists s, x = VStr s) -> exists r, side t n c x r.
Proof.
  intros [->|[(z & ->)|(s & ->)]]; [eexists; constructor|eexists; constructor|].
  destruct (doc_exists t s) as ([j|e] & D); eexists; [apply si_signal; exact D|apply si_bad; exact D].
Qed.
Lemma then_exists {A B} (P : res A -> Prop) (f : A -> B) : (exists r, P r) -> exists r, (let? a := P in gives (f a)) r.
Proof. intros ([a|e] & H); eexists; [right; exists a; split; [exact H|reflexivity]|left; exists e; split; [exact H|reflexivity]]. Qed.
Lemma p_C68_decided t g k v x : taken t g v (Ok x) -> exists r, shown_as t g k x r.
Proof.
  intros H. destruct g; cbn [taken shown_as] in *; try (eexists; reflexivity).
  - exists (Ok [([k], if truthy x then None else Some (VBool false))]), (truthy x). split; [now apply truth_is|reflexivity].
  - destruct (kept _ _ _ H) as [->|[(z & ->)|(s & ->)]]; [eexists; left; auto|eexists; right; left; eauto|].
    destruct (then_exists (signal_doc t s) (fun j => [([k], Some j)]) (doc_exists t s)) as (r & R). exists r. right. right. eauto.
  - destruct (truthy x) eqn:T; [|exists (Ok [([k], None)]); left; split; [now apply falsy_truthy|reflexivity]]. apply truly in T.
    destruct (kept _ _ _ H) as [->|[(z & ->)|(s & ->)]]; [elim T; left; now left|exists (Err EAttribute); right; left; exists z; repeat split; intros ->; apply T; left; cbn; auto|].
    destruct (then_exists (signal_doc t s) (fun j => [([k], Some j)]) (doc_exists t s)) as (r & R). exists r. right. right. exists s. repeat split; auto. intros ->. apply T. left. cbn. auto.
  - apply then_exists, side_exists, (kept _ _ _ H).
  - apply then_exists, side_exists, (kept _ _ _ H).
Qed.
Lemma p_C68_one t g v r r' : taken t g v r -> taken t g v r' -> r = r'.
Proof. intros H H'. destruct (d_taken (mkProtos [] [] [] t []) g v) as [A _]. rewrite <- (A _ H). now apply A. Qed.

(** ** The export of the entity *)
Lemma json_chain_cb p dir cls cb a t l : ~ In CBaseMixin l -> forall o,
  json_chain p dir cls cb (l ++ CBaseMixin :: t) a o = let! o := json_chain p dir cls None (l ++ CBaseMixin :: t) a o in
    match cb with None => Ok o | Some cb => let! v := cb_json p cls cb in Ok (obj_set o "control_behavior" v) end.
Proof.
  induction l as [|c l IH]; intros NB o; cbn [app]; [reflexivity|]. rewrite !chain_step by (intros ->; apply NB; now left).
  destruct (json_mixin p dir c a o); [|reflexivity]. cbn [bind]. apply IH. intros J. apply NB. now right.
Qed.
Lemma no_cb_key p dir cls a t l : ~ In CBaseMixin l -> forall o o', json_chain p dir cls None (l ++ CBaseMixin :: t) a o = Ok o' ->
  dget "control_behavior" o = None -> dget "control_behavior" o' = None.
Proof.
  induction l as [|c l IH]; intros NB o o' H N; cbn [app] in H; [cbn in H; congruence|]. rewrite !chain_step in H by (intros ->; apply NB; now left).
  pose proof (RenameProofs.link_written p dir c a o) as L. destruct (RenameProofs.written p dir c a) as [u|] eqn:W; [|rewrite L in H; discriminate]. destruct L as (o1 & L & OV). rewrite L in H. cbn [bind] in H.
  apply (IH (fun J => NB (or_intror J)) _ _ H). rewrite OV. destruct (dget "control_behavior" u) eqn:E; [exfalso|exact N].
  destruct (AttrProofs.written_keys p dir c a u "control_behavior" W) as [X|(f & X & J)]; [congruence|discriminate|]. injection X as <-. destruct c; cbn in J; intuition discriminate.
Qed.
Definition body (d : dict) : val := match d with [] => VNone | _ => VDict d end.
Lemma entity_hold i w e cb cb' d dd fx : reachable w -> ent w i = Some e -> e_cb e = Some cb -> snd (ent_json i w) = Ok (VDict d) ->
  cb_json (w_protos w) (statics (e_cls e)) cb = Ok (body dd) ->
  let p := w_protos w in let cls := statics (e_cls e) in let w' := RenameProofs.U i (with_cb (Some cb') e) w in
  (forall y, cb_json p cls cb' = Err y -> snd (ent_json i w') = Err y) /\
  (forall dd', cb_json p cls cb' = Ok (body dd') -> hold fx dd dd' -> fx <> [] -> (forall q o, In (q, o) fx -> q <> []) ->
    exists d', snd (ent_json i w') = Ok (VDict d') /\
      (forall q o, In (q, o) fx -> at_path ("control_behavior"%string :: q) (VDict d') = o) /\
      (forall q, (forall q' o, In (q', o) fx -> unrelated q ("control_behavior"%string :: q')) -> at_path q (VDict d') = at_path q (VDict d))).
Proof.
  intros R He Hc J CJ p cls w'. unfold p, cls, w'. clear p cls w'.
  destruct (own_chain _ _ _ R He) as (l & EL & NB & _).
  rewrite ent_json_eq, (RenameProofs.U_ent i e) by exact He. rewrite Nat.eqb_refl. rewrite ent_json_eq, He in J. cbn [e_pos with_cb]. destruct (e_pos e) as [pos|]; [|discriminate].
  destruct (RenameProofs.U_connections_json i e (with_cb (Some cb') e) (RenameProofs.mkAlike e (with_cb (Some cb') e) eq_refl eq_refl) eq_refl w i He) as (E & _). rewrite E. clear E.
  pose proof (RenameProofs.protos_connections_json i w) as P. destruct (connections_to_json i w) as [w1 [cs|z]]; cbn [fst snd] in *; [|discriminate].
  cbn [e_dir e_cls e_cb e_at with_cb]. rewrite RenameProofs.U_protos, P. rewrite P in J. change (stem (with_cb (Some cb') e) pos cs) with (stem e pos cs).
  rewrite EL in *. rewrite (json_chain_cb _ _ _ (e_cb e)) in J by auto. rewrite (json_chain_cb _ _ _ (Some cb')) by auto.
  destruct (json_chain (w_protos w) (e_dir e) (statics (e_cls e)) None (l ++ [CBaseMixin; CBase; CObject]) (e_at e) (stem e pos cs)) as [o|] eqn:JO; [|discriminate]. cbn [bind] in *.
  assert (NC : dget "control_behavior" o = None). { apply (no_cb_key _ _ _ _ _ _ NB _ _ JO). unfold stem. destruct cs; reflexivity. }
  rewrite Hc, CJ in J. cbn [bind] in J. injection J as <-.
  split; [intros y X; rewrite X; reflexivity|]. intros dd' X HH NE NN. rewrite X. cbn [bind]. eexists. split; [reflexivity|].
  assert (G : forall dd, dget (KS "control_behavior") (obj_set o "control_behavior" (body dd)) = full dd).
  { intros [|y0 d0]; cbn [obj_set full body]; [exact NC|]. now rewrite DocProofs.dget_dset', key_eqb_refl. }
  assert (A : forall key, key <> KS "control_behavior" -> dget key (obj_set o "control_behavior" (body dd')) = dget key (obj_set o "control_behavior" (body dd))).
  { intros key N. apply key_eqb_neq in N. destruct dd, dd'; cbn [obj_set body]; rewrite ?DocProofs.dget_dset', ?N; reflexivity. }
  pose proof (hold_within "control_behavior" fx dd dd' _ _ NE (G dd) (G dd') A NN HH) as [H1 H2]. split.
  - intros q o0 K. apply H1. apply in_map_iff. now exists (q, o0).
  - intros q U. apply H2. intros q' o0 K. apply in_map_iff in K as ((q1 & o1) & [= <- <-] & K). now apply (U q1 o1).
Qed.
Lemma side_paths t n c x fx : side t n c x (Ok fx) -> forall q o, In (q, o) fx -> q <> [].
Proof. intros H. inversion H; subst; intros q o [[= <- <-]|[[= <- <-]|[]]]; discriminate. Qed.
Lemma shown_paths t g k x fx : shown_as t g k x (Ok fx) -> forall q o, In (q, o) fx -> q <> [].
Proof.
  intros H q o0 K ->. destruct g; cbn [shown_as] in H.
  all: try (destruct H as (b & _ & [= ->]); destruct K as [K|[]]; discriminate).
  all: try (injection H as ->; destruct K as [K|[]]; discriminate).
  - destruct H as [[_ [= ->]]|[(z & _ & [= ->])|(s & _ & [(z & _ & H)|(j & _ & [= ->])])]]; try discriminate; destruct K as [K|[]]; discriminate.
  - destruct H as [[_ [= ->]]|[(z & _ & _ & H)|(s & _ & _ & [(z & _ & H)|(j & _ & [= ->])])]]; try discriminate; destruct K as [K|[]]; discriminate.
  - destruct H as [(z & _ & H)|(j & _ & [= ->])]; [discriminate|]. apply in_map_iff in K as (? & K & _). discriminate.
  - destruct H as [(z & _ & H)|(j & _ & [= ->])]; [discriminate|]. apply in_map_iff in K as (? & K & _). discriminate.
Qed.
Lemma cb_exported i w e cb d : reachable w -> ent w i = Some e -> e_cb e = Some cb -> snd (ent_json i w) = Ok (VDict d) ->
  exists u, cb_json (w_protos w) (statics (e_cls e)) cb = Ok u.
Proof.
  intros R He Hc J. destruct (own_chain _ _ _ R He) as (l & EL & NB & _). rewrite ent_json_eq, He in J. destruct (e_pos e) as [pos|]; [|discriminate].
  pose proof (RenameProofs.protos_connections_json i w) as P. destruct (connections_to_json i w) as [w1 [cs|z]]; cbn [fst snd] in *; [|discriminate].
  rewrite P, EL, (json_chain_cb _ _ _ (e_cb e)), Hc in J by auto. destruct (json_chain _ _ _ None _ _ _); [|discriminate]. cbn [bind] in J.
  destruct (cb_json (w_protos w) (statics (e_cls e)) cb) as [u|]; [eauto|discriminate].
Qed.
Lemma p_C68_exported i k v w e cb c g d x r : reachable w -> ent w i = Some e -> e_cb e = Some cb -> In c (cb_cls cb) -> In (k, g) (behaviour c) -> alone (cb_cls cb) c k ->
  snd (ent_json i w) = Ok (VDict d) -> taken (p_signal (w_protos w)) g v (Ok x) -> shown_as (p_signal (w_protos w)) g k x r ->
  match r with
  | Err y => snd (ent_json i (fst (step (OSetCb i k v) w))) = Err y
  | Ok fx => exists d', snd (ent_json i (fst (step (OSetCb i k v) w))) = Ok (VDict d') /\
      (forall q o, In (q, o) fx -> at_path ("control_behavior"%string :: q) (VDict d') = o) /\
      (forall q, (forall q' o, In (q', o) fx -> unrelated q ("control_behavior"%string :: q')) -> at_path q (VDict d') = at_path q (VDict d))
  end.
Proof.
  intros R He Hc IC I AL J T H. apply d_taken in T.
  destruct (reach_shaped _ _ _ _ R He Hc) as (ND & cl & EC).
  cbn [step]. rewrite (assign_cb_eq _ _ _ _ _ He). cbn [fst].
  replace (fst (set_cb_attr (w_protos w) k v e)) with (with_cb (Some (mkCb (cb_cls cb) (dset (KS k) x (cb_at cb)))) e).
  2:{ unfold set_cb_attr. rewrite Hc, (set_cb_is _ _ _ _ _ _ _ IC I), T. reflexivity. }
  assert (CJ : exists u, cb_json (w_protos w) (statics (e_cls e)) cb = Ok u) by now apply (cb_exported i w e cb d).
  destruct CJ as (u & CJ).
  assert (ICl : In c cl). { rewrite EC in IC. apply in_app_or in IC as [K|[<-|[]]]; auto. destruct I. }
  assert (CE : cb = mkCb (cl ++ [CBaseMixin]) (cb_at cb)) by (destruct cb; cbn in *; now subst). rewrite EC in *. rewrite CE in CJ.
  destruct (cb_effect _ _ _ _ _ _ _ _ _ _ ND ICl I AL CJ (ex_intro _ v T) H) as (dd & -> & X). change (match dd with [] => VNone | _ => VDict dd end) with (body dd) in CJ. rewrite <- CE in CJ.
  destruct r as [fx|y].
  - destruct X as (dd' & X & HH & NE). destruct (entity_hold i w e cb (mkCb (cl ++ [CBaseMixin]) (dset (KS k) x (cb_at cb))) d dd fx R He Hc J CJ) as [_ S]. apply (S _ X HH NE). exact (shown_paths _ _ _ _ _ H).
  - destruct (entity_hold i w e cb (mkCb (cl ++ [CBaseMixin]) (dset (KS k) x (cb_at cb))) d dd [] R He Hc J CJ) as [S _]. exact (S _ X).
Qed.

(** ** Combinators *)
Definition put_val (p : protos) (v : val) : res (option val * option val) :=
  match v with
  | VInt _ => Ok (None, Some v)
  | VNone => Ok (None, None)
  | VStr _ => let! j := signal_json p v in Ok (Some j, None)
  | _ => Ok (Some v, None)
  end.
Definition const_key (f k : string) : string := if String.eqb f "decider_conditions" then "constant"%string else (k ++ "_constant")%string.
Lemma comb_wrote p f k v s : comb_put p f k v s = let! r := put_val p v in Ok (wrote (const_key f k) (snd r) (wrote (k ++ "_signal") (fst r) s)).
Proof.
  unfold comb_put, const_key. destruct v; try reflexivity; cbn [signal_obj_set put_val bind fst snd wrote].
  - now destruct (String.eqb f "decider_conditions").
  - destruct (signal_json p (VStr s0)); reflexivity.
Qed.
Lemma d_put p n c x r : side (p_signal p) n c x r ->
  match r with Err e => put_val p x = Err e | Ok fx => exists s k, put_val p x = Ok (s, k) /\ fx = [([n], s); ([c], k)] end.
Proof. intros H. destruct H as [|z|s j H|s e H]; cbn [put_val]; eauto; apply d_doc in H; rewrite H; cbn; eauto. Qed.
(** all that a combinator writes *)
Definition rows (f op : string) (o : val) (x y z : option val * option val) : dict :=
  wrote (const_key f "output") (snd z) (wrote "output_signal" (fst z) (wrote (const_key f "second") (snd y) (wrote "second_signal" (fst y)
    (wrote (const_key f "first") (snd x) (wrote "first_signal" (fst x) [(KS op, o)]))))).
Lemma comb_link p cls a obj : cb_json_link p cls CCombinator a obj =
  let! _ := aget a "entity" in match comb_names cls with None => Err EAttribute | Some (_, op) =>
    let! fv := aget a "field" in match fv with VStr f => let! o := aget a "operator" in
      let! x := put_val p (dsc a "first") in let! y := put_val p (dsc a "second") in let! z := put_val p (dsc a "output") in
      Ok (dset f (VDict (dmerge (rows f op o x y z) (sub obj f))) obj) | _ => Err EUnmodelled end end.
Proof.
  cbn [cb_json_link]. unfold aget. destruct (dget "entity" a); [|reflexivity]. cbn [bind]. destruct (comb_names cls) as [[t op]|]; [|reflexivity]. destruct (dget "field" a) as [[]|]; try reflexivity. cbn [bind].
  destruct (dget "operator" a); [|reflexivity]. cbn [bind]. rewrite comb_wrote. destruct (put_val p (dsc a "first")) as [x|]; [|reflexivity]. cbn [bind].
  rewrite comb_wrote. destruct (put_val p (dsc a "second")) as [y|]; [|reflexivity]. cbn [bind]. rewrite comb_wrote. destruct (put_val p (dsc a "output")) as [z|]; reflexivity.
Qed.

Definition own (c : scls) : Prop := c = CArithmetic \/ c = CDecider.
Definition extra (c : scls) (a : dict) : res dict :=
  match c with CDecider => let! v := aget a "copy_count_from_input" in Ok [(KS "copy_count_from_input", v)] | _ => Ok [] end.
Lemma comb_eq p cls c a t op en f o ex : own c -> comb_names cls = Some (t, op) -> aget a "entity" = Ok en -> aget a "field" = Ok (VStr f) -> aget a "operator" = Ok o -> extra c a = Ok ex ->
  cb_json p cls (mkCb [c; CCombinator; CBaseMixin] a) =
    let! x := put_val p (dsc a "first") in let! y := put_val p (dsc a "second") in let! z := put_val p (dsc a "output") in
    Ok (body [(KS f, VDict (dmerge (rows f op o x y z) ex))]).
Proof.
  intros C N E F O X. unfold cb_json. cbn [cb_cls cb_at].
  assert (Y : exists obj, cb_json_link p cls c a [] = Ok obj /\ sub obj f = ex /\ forall v, dset f v obj = [(KS f, v)]).
  { destruct C as [->| ->]; cbn [extra cb_json_link] in *; [exists []; injection X as <-; auto|]. rewrite F. cbn [bind]. destruct (aget a "copy_count_from_input") as [v|]; [|discriminate]. cbn [bind] in *. injection X as <-.
    eexists. split; [reflexivity|]. unfold sub. rewrite DocProofs.dget_dset', key_eqb_refl. split; [reflexivity|]. intros u. cbn [dset]. now rewrite key_eqb_refl. }
  destruct Y as (obj & Y & S & D). assert (Z : cb_json_chain p cls [c; CCombinator; CBaseMixin] a [] = let! obj := cb_json_link p cls c a [] in cb_json_chain p cls [CCombinator; CBaseMixin] a obj) by (destruct C as [->| ->]; reflexivity).
  rewrite Z, Y. cbn [bind]. change (cb_json_chain p cls [CCombinator; CBaseMixin] a obj) with (let! o := cb_json_link p cls CCombinator a obj in Ok (body o)). rewrite comb_link, E. cbn [bind]. rewrite N, F. cbn [bind]. rewrite O. cbn [bind].
  destruct (put_val p (dsc a "first")) as [x|]; [|reflexivity]. cbn [bind]. destruct (put_val p (dsc a "second")) as [y|]; [|reflexivity]. cbn [bind]. destruct (put_val p (dsc a "output")) as [z|]; [|reflexivity]. cbn [bind].
  now rewrite S, D.
Qed.
Lemma comb_inv p cls c a u : own c -> cb_json p cls (mkCb [c; CCombinator; CBaseMixin] a) = Ok u ->
  exists t op en f o ex, comb_names cls = Some (t, op) /\ aget a "entity" = Ok en /\ aget a "field" = Ok (VStr f) /\ aget a "operator" = Ok o /\ extra c a = Ok ex.
Proof.
  intros C H. unfold cb_json in H. cbn [cb_cls cb_at] in H.
  assert (Z : cb_json_chain p cls [c; CCombinator; CBaseMixin] a [] = let! obj := cb_json_link p cls c a [] in cb_json_chain p cls [CCombinator; CBaseMixin] a obj) by (destruct C as [->| ->]; reflexivity).
  rewrite Z in H. destruct (cb_json_link p cls c a []) as [obj|] eqn:L; [|discriminate]. cbn [bind] in H. change (cb_json_chain p cls [CCombinator; CBaseMixin] a obj) with (let! o := cb_json_link p cls CCombinator a obj in Ok (body o)) in H.
  rewrite comb_link in H. destruct (aget a "entity") as [en|]; [|discriminate]. cbn [bind] in H. destruct (comb_names cls) as [[t op]|]; [|discriminate]. destruct (aget a "field") as [fv|] eqn:F; [|discriminate]. cbn [bind] in H. destruct fv; try discriminate.
  destruct (aget a "operator") as [o|]; [|discriminate].
  assert (X : exists ex, extra c a = Ok ex). { destruct C as [->| ->]; cbn [extra cb_json_link] in *; [eauto|]. rewrite F in L. cbn [bind] in L. destruct (aget a "copy_count_from_input"); [cbn; eauto|discriminate]. }
  destruct X as (ex & X). exists t, op, en, s, o, ex. auto.
Qed.
(** reading the rows *)
Definition orelse (x y : option val) : option val := match x with Some v => Some v | None => y end.
Lemma wrote_get (k' k : string) o d : dget (KS k') (wrote k o d) = if String.eqb k' k then orelse o (dget (KS k') d) else dget (KS k') d.
Proof. destruct o; cbn [wrote orelse]; [|now destruct (String.eqb k' k)]. rewrite DocProofs.dget_dset'. reflexivity. Qed.
Lemma single_get (k op : string) (o : val) : dget (KS k) [(KS op, o)] = if String.eqb k op then Some o else None.
Proof. cbn. rewrite String.eqb_sym. reflexivity. Qed.
Lemma rows_arithmetic (op : string) o x y z (k : string) : dget (KS k) (rows "arithmetic_conditions" op o x y z) =
  orelse (if String.eqb k "output_constant" then snd z else if String.eqb k "output_signal" then fst z else
    if String.eqb k "second_constant" then snd y else if String.eqb k "second_signal" then fst y else
    if String.eqb k "first_constant" then snd x else if String.eqb k "first_signal" then fst x else None) (if String.eqb k op then Some o else None).
Proof.
  unfold rows, const_key. destruct x as [x1 x2], y as [y1 y2], z as [z1 z2]. cbn [fst snd String.eqb Ascii.eqb Bool.eqb append]. rewrite !wrote_get, single_get.
  generalize (if String.eqb k op then Some o else None). intros R.
  repeat match goal with |- context [String.eqb k ?s] => destruct (String.eqb_spec k s) as [->|]; [cbn; destruct x1, x2, y1, y2, z1, z2; reflexivity|] end. reflexivity.
Qed.
Lemma rows_decider (op : string) o x y z (k : string) : dget (KS k) (rows "decider_conditions" op o x y z) =
  orelse (if String.eqb k "constant" then orelse (snd z) (orelse (snd y) (snd x)) else if String.eqb k "output_signal" then fst z else
    if String.eqb k "second_signal" then fst y else if String.eqb k "first_signal" then fst x else None) (if String.eqb k op then Some o else None).
Proof.
  unfold rows, const_key. destruct x as [x1 x2], y as [y1 y2], z as [z1 z2]. cbn [fst snd String.eqb Ascii.eqb Bool.eqb append]. rewrite !wrote_get, single_get.
  generalize (if String.eqb k op then Some o else None). intros R.
  repeat match goal with |- context [String.eqb k ?s] => destruct (String.eqb_spec k s) as [->|]; [cbn; destruct x1, x2, y1, y2, z1, z2; reflexivity|] end. reflexivity.
Qed.
Lemma merge_get c a ex r (k : string) : own c -> extra c a = Ok ex -> dget (KS k) (dmerge r ex) = if String.eqb k "copy_count_from_input" then orelse (dget (KS k) ex) (dget (KS k) r) else dget (KS k) r.
Proof.
  intros [->| ->] X; cbn [extra] in X.
  - injection X as <-. cbn. now destruct (String.eqb k "copy_count_from_input").
  - destruct (aget a "copy_count_from_input"); [|discriminate]. cbn [bind] in X. injection X as <-. unfold dmerge. cbn [fold_left fst snd]. rewrite DocProofs.dget_dset'. cbn. destruct (String.eqb k "copy_count_from_input"); reflexivity.
Qed.
Lemma cb_doc_at i w e cb d dd : reachable w -> ent w i = Some e -> e_cb e = Some cb -> snd (ent_json i w) = Ok (VDict d) -> cb_json (w_protos w) (statics (e_cls e)) cb = Ok (body dd) ->
  forall q, q <> [] -> at_path ("control_behavior"%string :: q) (VDict d) = at_path q (VDict dd).
Proof.
  intros R He Hc J CJ q NQ. destruct (own_chain _ _ _ R He) as (l & EL & NB & _). rewrite ent_json_eq, He in J. destruct (e_pos e) as [pos|]; [|discriminate].
  pose proof (RenameProofs.protos_connections_json i w) as P. destruct (connections_to_json i w) as [w1 [cs|z]]; cbn [fst snd] in *; [|discriminate].
  rewrite P, EL, (json_chain_cb _ _ _ (e_cb e)), Hc, CJ in J by auto. destruct (json_chain _ _ _ None _ _ _) as [o|] eqn:JO; [|discriminate]. cbn [bind] in J. injection J as <-.
  assert (NC : dget "control_behavior" o = None). { apply (no_cb_key _ _ _ _ _ _ NB _ _ JO). unfold stem. destruct cs; reflexivity. }
  cbn [at_path]. rewrite <- (at_full q dd NQ). unfold at_opt. destruct dd as [|y0 d0]; cbn [obj_set full body]; [now rewrite NC|]. now rewrite DocProofs.dget_dset', key_eqb_refl.
Qed.
Definition stored_part (p : protos) (c : scls) (a : part) (v : val) : res val :=
  match a with POperator => operator_set (snd (conditions c)) v | PCopy => Ok v | PSide _ => signal_set p v end.
Lemma d_part p c a v : describes (part_taken (p_signal p) c a v) (stored_part p c a v).
Proof.
  destruct a; cbn [part_taken stored_part]; try apply d_gives; try apply d_signal. unfold operator_set.
  destruct (is_none v) eqn:N.
  - destruct v; try discriminate. cbn. split; [intros r [[_ ->]|[K _]]; congruence|auto].
  - rewrite orb_false_r. assert (v <> VNone) by (intros ->; discriminate).
    destruct (d_must (one_of (snd (conditions c)) v) (str_in v (snd (conditions c))) v (str_in_is v _)) as [A B].
    split; [intros r [[K _]|[_ K]]; [contradiction|now apply A]|intros U; right; split; [auto|now apply B]].
Qed.
Lemma set_part_is p c a v at_ : own c -> part_of c a -> set_cb_at p [c; CCombinator; CBaseMixin] (part_name a) v at_ = put (part_name a) (stored_part p c a v) at_.
Proof.
  intros C P. destruct a as [| |s]; cbn [part_name part_of stored_part] in *.
  - destruct C as [->| ->]; reflexivity.
  - reflexivity.
  - destruct C as [->| ->]; destruct P as [<-|[<-|[<-|[]]]]; reflexivity.
Qed.
Lemma p_C68_part_taken i v w e cb c a : ent w i = Some e -> e_cb e = Some cb -> In c [CArithmetic; CDecider] -> cb_cls cb = [c; CCombinator; CBaseMixin] -> part_of c a ->
  (forall r, part_taken (p_signal (w_protos w)) c a v r -> snd (step (OSetCb i (part_name a) v) w) = match r with Ok _ => Ok tt | Err x => Err x end) /\
  (snd (step (OSetCb i (part_name a) v) w) <> Err EUnmodelled -> exists r, part_taken (p_signal (w_protos w)) c a v r).
Proof.
  intros He Hc IC CC I. assert (C : own c) by (destruct IC as [<-|[<-|[]]]; [now left|now right]). cbn [step]. rewrite (assign_cb_eq _ _ _ _ _ He). cbn [snd]. unfold set_cb_attr. rewrite Hc, CC, (set_part_is _ _ _ _ _ C I).
  destruct (d_part (w_protos w) c a v) as [A B]. split.
  - intros r H. apply A in H. rewrite H. destruct r; reflexivity.
  - intros U. exists (stored_part (w_protos w) c a v). apply B. intros E. rewrite E in U. now apply U.
Qed.
(** what replaces what *)
Lemma aget_set (k k' : string) x a : aget (dset (KS k) x a) k' = if String.eqb k' k then Ok x else aget a k'.
Proof. unfold aget. rewrite DocProofs.dget_dset'. cbn [key_eqb]. now destruct (String.eqb k' k). Qed.
Lemma one_row F OP fx m m' : fx <> [] -> dget (KS OP) m <> None -> dget (KS OP) m' <> None -> (forall q o, In (q, o) fx -> exists k', q = [k'] /\ dget (KS k') m' = o) ->
  (forall k', (forall o, ~ In ([k'], o) fx) -> dget (KS k') m' = dget (KS k') m) -> hold (within F fx) [(KS F, VDict m)] [(KS F, VDict m')].
Proof.
  intros NE N N' A B. assert (X : forall m, dget (KS OP) m <> None -> dget (KS F) [(KS F, VDict m)] = full m).
  { intros m0 H. rewrite single_get, String.eqb_refl. destruct m0; [now elim H|reflexivity]. }
  apply (hold_within F fx m m'); auto.
  - intros key NK. assert (E : key_eqb key (KS F) = false) by (apply key_eqb_neq; congruence). change [(KS F, VDict m')] with (dset (KS F) (VDict m') []). change [(KS F, VDict m)] with (dset (KS F) (VDict m) []). now rewrite !DocProofs.dget_dset', E.
  - intros q o I. destruct (A q o I) as (k & -> & _). discriminate.
  - now apply hold_keys.
Qed.
Lemma body_one F m dd : body dd = body [(KS F, VDict m)] -> dd = [(KS F, VDict m)].
Proof. destruct dd; [discriminate|]. cbn. congruence. Qed.
Lemma comb_effect p cls c a r v x at_ dd F OP ops : own c -> conditions c = (F, OP, ops) -> cb_json p cls (mkCb [c; CCombinator; CBaseMixin] at_) = Ok (body dd) ->
  at_path [F; OP] (VDict dd) <> None -> (c = CDecider -> (exists s, a = PSide s) -> at_path [F; "constant"%string] (VDict dd) = None) ->
  part_of c a -> stored_part p c a v = Ok x -> part_shown (p_signal p) c a x r ->
  match r with
  | Err e => cb_json p cls (mkCb [c; CCombinator; CBaseMixin] (dset (KS (part_name a)) x at_)) = Err e
  | Ok fx => exists dd', cb_json p cls (mkCb [c; CCombinator; CBaseMixin] (dset (KS (part_name a)) x at_)) = Ok (body dd') /\ hold fx dd dd' /\ fx <> [] /\ forall q o, In (q, o) fx -> q <> []
  end.
Proof.
  intros C K J PO PC PA V H. destruct (comb_inv _ _ _ _ _ C J) as (t & op & en & f & o & ex & E1 & E2 & E3 & E4 & E5).
  pose proof (comb_eq p cls c at_ t op en f o ex C E1 E2 E3 E4 E5) as E. rewrite J in E.
  destruct (put_val p (dsc at_ "first")) as [X|] eqn:PX; [|discriminate]. cbn [bind] in E. destruct (put_val p (dsc at_ "second")) as [Y|] eqn:PY; [|discriminate]. cbn [bind] in E. destruct (put_val p (dsc at_ "output")) as [Z|] eqn:PZ; [|discriminate]. cbn [bind] in E.
  apply AttrProofs.ok_inj in E. apply body_one in E. subst dd.
  assert (FF : f = F). { cbn [at_path] in PO. rewrite single_get in PO. destruct (String.eqb_spec F f); [auto|now elim PO]. } subst f.
  assert (G : forall o' ex' at' X' Y' Z' (k : string), extra c at' = Ok ex' -> dget (KS k) (dmerge (rows F op o' X' Y' Z') ex') =
    if String.eqb k "copy_count_from_input" then orelse (dget (KS k) ex') (dget (KS k) (rows F op o' X' Y' Z')) else dget (KS k) (rows F op o' X' Y' Z')).
  { intros. apply (merge_get c at'); auto. }
  assert (OO : op = OP).
  { destruct (String.eqb_spec OP op) as [|NO]; [auto|exfalso]. apply String.eqb_neq in NO.
    cbn [at_path] in PO. rewrite single_get, String.eqb_refl in PO. cbn [at_path] in PO. rewrite (G o ex at_ X Y Z OP E5) in PO.
    destruct C as [->| ->]; cbn [conditions] in K; injection K as <- <- <-; [rewrite rows_arithmetic, NO in PO|rewrite rows_decider, NO in PO]; now elim PO. }
  subst op.
  assert (R : forall o' ex' at' X' Y' Z', extra c at' = Ok ex' -> dget (KS OP) (dmerge (rows F OP o' X' Y' Z') ex') = Some o').
  { intros o' ex' at' X' Y' Z' HX. rewrite (G o' ex' at' X' Y' Z' OP HX). destruct C as [->| ->]; cbn [conditions] in K; injection K as <- <- <-; [rewrite rows_arithmetic|rewrite rows_decider]; reflexivity. }
  assert (PC' : c = CDecider -> (exists s, a = PSide s) -> snd X = None /\ snd Y = None /\ snd Z = None).
  { intros -> S. specialize (PC eq_refl S). cbn [at_path] in PC. rewrite single_get, String.eqb_refl in PC. cbn [at_path] in PC. rewrite (G o ex at_ X Y Z _ E5) in PC.
    cbn [conditions] in K. injection K as <- <- <-. rewrite rows_decider in PC. cbn in PC. destruct (snd X), (snd Y), (snd Z); try discriminate. auto. }
  clear PO PC. unfold part_shown in H. rewrite K in H.
  destruct a as [| |s]; cbn [part_name part_of stored_part] in *.
  - subst r. exists [(KS F, VDict (dmerge (rows F OP x X Y Z) ex))].
    assert (EX : extra c (dset (KS "operator") x at_) = Ok ex) by (rewrite <- E5; destruct C as [->| ->]; cbn [extra]; rewrite ?aget_set; reflexivity).
    split. { rewrite (comb_eq p cls c _ t OP en F x ex C E1); rewrite ?aget_set; auto. rewrite !dsc_set. cbn [String.eqb Ascii.eqb Bool.eqb]. rewrite PX, PY, PZ. reflexivity. }
    split; [|split; [discriminate|intros q o' [[= <- <-]|[]]; discriminate]].
    apply (one_row F OP [([OP], Some x)]); [discriminate|rewrite (R o ex at_ X Y Z E5); discriminate|rewrite (R x ex at_ X Y Z E5); discriminate| |].
    + intros q o' [[= <- <-]|[]]. exists OP. split; [reflexivity|]. apply (R x ex at_ X Y Z E5).
    + intros k' N. rewrite !(G _ ex at_ X Y Z k' E5). assert (KO : String.eqb k' OP = false). { apply String.eqb_neq. intros ->. apply (N (Some x)). now left. }
      destruct C as [->| ->]; cbn [conditions] in K; injection K as <- <- <-; [rewrite !rows_arithmetic|rewrite !rows_decider]; rewrite KO; reflexivity.
  - subst c r. cbn [conditions] in K. injection K as <- <- <-. cbn [extra] in E5. destruct (aget at_ "copy_count_from_input") as [cp|] eqn:AC; [|discriminate]. cbn [bind] in E5. injection E5 as <-.
    assert (EX : forall y at', aget at' "copy_count_from_input" = Ok y -> extra CDecider at' = Ok [(KS "copy_count_from_input", y)]) by (intros y at' A; cbn [extra]; now rewrite A).
    assert (AX : aget (dset (KS "copy_count_from_input") x at_) "copy_count_from_input" = Ok x) by (now rewrite aget_set).
    eexists. split. { rewrite (comb_eq p cls CDecider _ t "comparator" en "decider_conditions" o _ C E1) by (try exact (EX _ _ AX); rewrite aget_set; auto). rewrite !dsc_set. cbn [String.eqb Ascii.eqb Bool.eqb]. rewrite PX, PY, PZ. reflexivity. }
    split; [|split; [discriminate|intros q o' [[= <- <-]|[]]; discriminate]].
    apply (one_row "decider_conditions" "comparator" [(["copy_count_from_input"%string], Some x)]); [discriminate|rewrite (R o _ _ X Y Z (EX _ _ AC)); discriminate|rewrite (R o _ _ X Y Z (EX _ _ AX)); discriminate| |].
    + intros q o' [[= <- <-]|[]]. eexists. split; [reflexivity|]. now rewrite (G o _ _ X Y Z _ (EX _ _ AX)).
    + intros k' N. rewrite (G o _ _ X Y Z k' (EX _ _ AX)), (G o _ _ X Y Z k' (EX _ _ AC)). destruct (String.eqb_spec k' "copy_count_from_input") as [->|]; [elim (N (Some x)); now left|reflexivity].
  - assert (NS : forall b, String.eqb s b = false -> forall y, dsc (dset (KS s) y at_) b = dsc at_ b). { intros b B y. rewrite dsc_set, String.eqb_sym, B. reflexivity. }
    assert (SS : forall y, dsc (dset (KS s) y at_) s = y) by (intros y; now rewrite dsc_set, String.eqb_refl).
    assert (EX : extra c (dset (KS s) x at_) = Ok ex) by (rewrite <- E5; destruct C as [->| ->]; destruct PA as [<-|[<-|[<-|[]]]]; cbn [extra]; rewrite ?aget_set; reflexivity).
    assert (Q : cb_json p cls (mkCb [c; CCombinator; CBaseMixin] (dset (KS s) x at_)) =
      let! x' := put_val p (if String.eqb s "first" then x else dsc at_ "first") in let! y' := put_val p (if String.eqb s "second" then x else dsc at_ "second") in let! z' := put_val p (if String.eqb s "output" then x else dsc at_ "output") in
      Ok (body [(KS F, VDict (dmerge (rows F OP o x' y' z') ex))])).
    { rewrite (comb_eq p cls c _ t OP en F o ex C E1); auto; try (rewrite aget_set; destruct PA as [<-|[<-|[<-|[]]]]; auto; fail). rewrite !dsc_set. rewrite !(String.eqb_sym s). reflexivity. }
    rewrite Q. clear Q. destruct H as [(e & H & ->)|(fx & H & ->)]; apply d_put in H.
    + destruct PA as [<-|[<-|[<-|[]]]]; cbn [String.eqb Ascii.eqb Bool.eqb]; rewrite H, ?PX, ?PY, ?PZ; reflexivity.
    + destruct H as (sg & cn & H & ->).
      assert (Q : exists X' Y' Z', (let! x' := put_val p (if String.eqb s "first" then x else dsc at_ "first") in let! y' := put_val p (if String.eqb s "second" then x else dsc at_ "second") in let! z' := put_val p (if String.eqb s "output" then x else dsc at_ "output") in
        Ok (body [(KS F, VDict (dmerge (rows F OP o x' y' z') ex))])) = Ok (body [(KS F, VDict (dmerge (rows F OP o X' Y' Z') ex))]) /\
        X' = (if String.eqb s "first" then (sg, cn) else X) /\ Y' = (if String.eqb s "second" then (sg, cn) else Y) /\ Z' = (if String.eqb s "output" then (sg, cn) else Z)).
      { destruct PA as [<-|[<-|[<-|[]]]]; cbn [String.eqb Ascii.eqb Bool.eqb]; rewrite H, ?PX, ?PY, ?PZ; cbn [bind]; eexists; eexists; eexists; split; try reflexivity; auto. }
      destruct Q as (X' & Y' & Z' & Q & QX & QY & QZ). exists [(KS F, VDict (dmerge (rows F OP o X' Y' Z') ex))]. split; [exact Q|]. clear Q.
      split; [|split; [discriminate|intros q o' I; apply in_map_iff in I as (? & [= <- <-] & _); discriminate]].
      apply (one_row F OP); [discriminate|rewrite (R o ex at_ X Y Z E5); discriminate|rewrite (R o ex at_ X' Y' Z' E5); discriminate| |].
      * intros q o' I. destruct I as [[= <- <-]|[[= <- <-]|[]]]; eexists; (split; [reflexivity|]); rewrite (G _ ex at_ X' Y' Z' _ E5);
        destruct C as [->| ->]; cbn [conditions] in K; injection K as <- <- <-; [rewrite rows_arithmetic|rewrite rows_decider|rewrite rows_arithmetic|rewrite rows_decider];
        try (destruct (PC' eq_refl (ex_intro _ s eq_refl)) as (P1 & P2 & P3)); destruct PA as [<-|[<-|[<-|[]]]]; cbn in QX, QY, QZ; subst X' Y' Z'; cbn; rewrite ?P1, ?P2, ?P3; try (destruct sg; reflexivity); try (destruct cn; reflexivity).
      * intros k' N. rewrite (G _ ex at_ X' Y' Z' k' E5), (G _ ex at_ X Y Z k' E5). 
        assert (N1 : String.eqb k' (s ++ "_signal") = false). { apply String.eqb_neq. intros ->. apply (N sg). now left. }
        destruct C as [->| ->]; cbn [conditions] in K; injection K as <- <- <-.
        -- assert (N2 : String.eqb k' (s ++ "_constant") = false). { apply String.eqb_neq. intros ->. apply (N cn). right. now left. }
           rewrite !rows_arithmetic. destruct PA as [<-|[<-|[<-|[]]]]; cbn in QX, QY, QZ, N1, N2; subst X' Y' Z'; cbn [append] in N1, N2; rewrite N1, N2; reflexivity.
        -- assert (N2 : String.eqb k' "constant" = false). { apply String.eqb_neq. intros ->. apply (N cn). right. now left. }
           rewrite !rows_decider. destruct PA as [<-|[<-|[<-|[]]]]; cbn in QX, QY, QZ; subst X' Y' Z'; cbn [append] in N1; rewrite N1, N2; reflexivity.
Qed.
Lemma p_C68_part_exported i v w e cb c a d x r field op ops : reachable w -> ent w i = Some e -> e_cb e = Some cb -> In c [CArithmetic; CDecider] -> cb_cls cb = [c; CCombinator; CBaseMixin] ->
  conditions c = (field, op, ops) -> snd (ent_json i w) = Ok (VDict d) -> at_path ["control_behavior"%string; field; op] (VDict d) <> None -> part_of c a ->
  (c = CDecider -> (exists s, a = PSide s) -> at_path ["control_behavior"%string; field; "constant"%string] (VDict d) = None) ->
  part_taken (p_signal (w_protos w)) c a v (Ok x) -> part_shown (p_signal (w_protos w)) c a x r ->
  match r with
  | Err y => snd (ent_json i (fst (step (OSetCb i (part_name a) v) w))) = Err y
  | Ok fx => exists d', snd (ent_json i (fst (step (OSetCb i (part_name a) v) w))) = Ok (VDict d') /\
      (forall q o, In (q, o) fx -> at_path ("control_behavior"%string :: q) (VDict d') = o) /\
      (forall q, (forall q' o, In (q', o) fx -> unrelated q ("control_behavior"%string :: q')) -> at_path q (VDict d') = at_path q (VDict d))
  end.
Proof.
  intros R He Hc IC CC K J PO PA PC T H. apply d_part in T. assert (C : own c) by (destruct IC as [<-|[<-|[]]]; [now left|now right]).
  cbn [step]. rewrite (assign_cb_eq _ _ _ _ _ He). cbn [fst].
  replace (fst (set_cb_attr (w_protos w) (part_name a) v e)) with (with_cb (Some (mkCb (cb_cls cb) (dset (KS (part_name a)) x (cb_at cb)))) e).
  2:{ unfold set_cb_attr. rewrite Hc, CC, (set_part_is _ _ _ _ _ C PA), T. reflexivity. }
  destruct (cb_exported i w e cb d R He Hc J) as (u & CJ).
  assert (CE : cb = mkCb [c; CCombinator; CBaseMixin] (cb_at cb)) by (destruct cb; cbn in *; now subst). rewrite CC. 
  assert (B : exists dd, u = body dd). { rewrite CE in CJ. destruct (comb_inv _ _ _ _ _ C CJ) as (t & op' & en & f & o & ex & E1 & E2 & E3 & E4 & E5). rewrite (comb_eq _ _ _ _ _ _ _ _ _ _ C E1 E2 E3 E4 E5) in CJ.
    destruct (put_val _ _) as [X|]; [|discriminate]. cbn [bind] in CJ. destruct (put_val _ _) as [Y|]; [|discriminate]. cbn [bind] in CJ. destruct (put_val _ _) as [Z|]; [|discriminate]. cbn [bind] in CJ. apply AttrProofs.ok_inj in CJ. eauto. }
  destruct B as (dd & ->). pose proof (cb_doc_at i w e cb d dd R He Hc J CJ) as AT. rewrite AT in PO by discriminate.
  assert (CJ' := CJ). rewrite CE in CJ'.
  pose proof (comb_effect (w_protos w) (statics (e_cls e)) c a r v x (cb_at cb) dd field op ops C K CJ' PO (fun A B => eq_trans (eq_sym (AT [field; "constant"%string] ltac:(discriminate))) (PC A B)) PA T H) as X.
  destruct r as [fx|y].
  - destruct X as (dd' & X & HH & NE & NN). destruct (entity_hold i w e cb (mkCb [c; CCombinator; CBaseMixin] (dset (KS (part_name a)) x (cb_at cb))) d dd fx R He Hc J CJ) as [_ S]. apply (S _ X HH NE NN).
  - destruct (entity_hold i w e cb (mkCb [c; CCombinator; CBaseMixin] (dset (KS (part_name a)) x (cb_at cb))) d dd [] R He Hc J CJ) as [S _]. exact (S _ X).
Qed.
Lemma p_C68_part_decided t c a v x : In c [CArithmetic; CDecider] -> part_taken t c a v (Ok x) -> exists r, part_shown t c a x r.
Proof.
  intros _ H. unfold part_shown. destruct (conditions c) as [[f op] ops]. destruct a; cbn [part_taken] in H; try (eexists; reflexivity). apply then_exists, side_exists, (kept _ _ _ H).
Qed.
