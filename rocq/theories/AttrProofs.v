(** * Proofs about assignments to the attributes of an entity. *)
From Coq Require Import Lia.
From Verif Require Import Py Num Util Classes Mixins Entity Setters World WorldFacts SetFacts DictFacts DocProofs ChainFacts SpecAttr.
From Verif Require Import SpecWorld SpecClass ClassProofs CbProofs EntInv RotateProofs EntProofs RenameProofs SpecEntity.
Open Scope Z_scope.

Lemma dset_twice (k : key) (u v : val) (d : dict) : dset k v (dset k u d) = dset k v d.
Proof. induction d as [|[k0 v0] d IH]; cbn; [now rewrite key_eqb_refl|]. destruct (key_eqb k k0) eqn:E; cbn; rewrite E; auto. now rewrite IH. Qed.
Lemma dset_swap (k j : key) (u v : val) (d : dict) : k <> j -> dmem k d = true -> dset k v (dset j u d) = dset j u (dset k v d).
Proof.
  intros N. induction d as [|[k0 v0] d IH]; cbn; [discriminate|]. intros M. unfold dmem in M. cbn in M.
  destruct (key_eqb j k0) eqn:E, (key_eqb k k0) eqn:F; cbn; rewrite ?E, ?F; try reflexivity.
  - apply key_eqb_eq in E, F. congruence.
  - f_equal. apply IH. exact M.
Qed.
Lemma dmem_dset (k j : key) (v : val) (d : dict) : dmem k (dset j v d) = key_eqb k j || dmem k d.
Proof. unfold dmem. rewrite dget_dset'. destruct (key_eqb k j); reflexivity. Qed.
Lemma ddel_dset_other (k j : key) (v : val) (d : dict) : k <> j -> ddel j (dset k v d) = dset k v (ddel j d).
Proof.
  intros N. induction d as [|[k0 v0] d IH]; cbn.
  - replace (key_eqb j k) with false by (symmetry; apply key_eqb_neq; auto). reflexivity.
  - destruct (key_eqb k k0) eqn:E; cbn.
    + apply key_eqb_eq in E. subst k0. replace (key_eqb j k) with false by (symmetry; apply key_eqb_neq; auto). cbn. now rewrite key_eqb_refl.
    + destruct (key_eqb j k0); cbn; rewrite ?E, ?IH; reflexivity.
Qed.
Lemma drop_dset_other ks k v : forall d : dict, ~ In k ks -> drop_keys ks (dset (KS k) v d) = dset (KS k) v (drop_keys ks d).
Proof.
  unfold drop_keys. induction ks as [|j ks IH]; cbn; intros d N; [reflexivity|]. rewrite ddel_dset_other by (intros [= ->]; apply N; auto). apply IH. auto.
Qed.
Lemma drop_dset_same ks k v : forall d : dict, In k ks -> drop_keys ks (dset (KS k) v d) = drop_keys ks d.
Proof.
  unfold drop_keys. induction ks as [|j ks IH]; cbn; intros d N; [contradiction|].
  destruct (string_dec j k) as [->|J]; [now rewrite ddel_dset_same|]. rewrite ddel_dset_other by congruence. apply IH. destruct N; [congruence|auto].
Qed.

(** ** A setter writes the same things whatever the state, or raises whatever the state *)
Definition there (ks : list string) (a : dict) : Prop := forall k, In k ks -> dmem (KS k) a = true.
Definition writes (p : protos) (s : bool) (k : mattr) (v : val) (ws : dict) : Prop :=
  map fst ws = map KS (kept_at k) /\ forall a, there (kept_at k) a -> set_at p s k v a = (putall ws a, Ok tt).
Definition refuses (p : protos) (s : bool) (k : mattr) (v : val) (x : exn) : Prop :=
  forall a, snd (set_at p s k v a) = Err x.

Lemma put_uniform p s k v sk r : kept_at k = [sk] -> (forall a, set_at p s k v a = put sk r a) ->
  match r with Ok u => writes p s k v [(KS sk, u)] | Err x => refuses p s k v x end.
Proof. intros K H. destruct r as [u|x]; [split|]; try (intros a ?; rewrite H; reflexivity); [now rewrite K|intros a; now rewrite H]. Qed.
Definition entries (v : val) : res (list val) := match v with VNone => Ok [] | _ => iter_val v end.
Lemma fill_uniform p s k v f sk u : kept_at k = [sk] -> (forall a, set_at p s k v a = fill_attr sk f u a) ->
  match entries u with
  | Err x => refuses p s k v x
  | Ok l => match fill f l [] with (d, Ok _) => writes p s k v [(KS sk, VDict d)] | (_, Err x) => refuses p s k v x end
  end.
Proof.
  intros K H. assert (H' : forall a, set_at p s k v a = match entries u with Err e => (dset sk (VDict []) a, Err e) | Ok l => let '(d, r) := fill f l [] in (dset sk (VDict d) a, r) end) by exact H.
  destruct (entries u) as [l|x]; [|intros a; now rewrite H']. destruct (fill f l []) as [d [[]|x]]; [|intros a; now rewrite H'].
  split; [now rewrite K|]. intros a _. now rewrite H'.
Qed.

Lemma cargo_fill l : forall acc, cargo_filters l acc = match fill cargo_entry l acc with (d, Ok _) => Ok d | (_, Err x) => Err x end.
Proof.
  induction l as [|f l IH]; intros acc; cbn; [reflexivity|]. unfold cargo_entry at 1.
  destruct (getitem f "name"); cbn [bind]; auto. destruct (name_val a); cbn [bind]; auto. destruct (getitem f "index"); cbn [bind]; auto. destruct (key_of_val a1); cbn [bind]; auto.
Qed.
Lemma request_fill l : forall acc, request_set l acc = match fill request_entry l acc with (d, Ok _) => Ok d | (_, Err x) => Err x end.
Proof.
  induction l as [|f l IH]; intros acc; cbn; [reflexivity|]. unfold request_entry at 1.
  destruct (getitem f "name"); cbn [bind]; auto. destruct (name_val a); cbn [bind]; auto. destruct (getitem f "count"); cbn [bind]; auto. destruct (py_int a1); cbn [bind]; auto. destruct (getitem f "index"); cbn [bind]; auto. destruct (key_of_val a3); cbn [bind]; auto.
Qed.
Lemma infinity_fill l : forall acc, infinity_filters l acc = match fill infinity_entry l acc with (d, Ok _) => Ok d | (_, Err x) => Err x end.
Proof.
  induction l as [|f l IH]; intros acc; cbn; [reflexivity|]. unfold infinity_entry at 1.
  destruct (getitem f "mode"); cbn [bind]; auto. destruct (negb (str_in _ _)); auto. destruct (getitem f "count"); cbn [bind]; auto. destruct (getitem f "name"); cbn [bind]; auto. destruct (name_val a1); cbn [bind]; auto. destruct (getitem f "index"); cbn [bind]; auto. destruct (key_of_val a3); cbn [bind]; auto.
Qed.

Lemma inventory_uniform p s v :
  match inventory_set v with
  | Ok (bar, d) => writes p s AInventory v [(KS "inventory_bar", bar); (KS "inventory_filters", VDict d)]
  | Err x => refuses p s AInventory v x
  end.
Proof.
  assert (SW : forall a x y z, there (kept_at AInventory) a -> dset "inventory_filters" z (dset "inventory_bar" y (dset "inventory_filters" x a)) = dset "inventory_filters" z (dset "inventory_bar" y a)).
  { intros a x y z T. rewrite <- (dset_swap "inventory_filters" "inventory_bar") by (try discriminate; apply T; cbn; auto). apply dset_twice. }
  assert (SN : forall a x y, there (kept_at AInventory) a -> dset "inventory_bar" y (dset "inventory_filters" x a) = dset "inventory_filters" x (dset "inventory_bar" y a)).
  { intros a x y T. symmetry. apply dset_swap; [discriminate|apply T; cbn; auto]. }
  unfold inventory_set, refuses. destruct v; cbn [set_at bind getdef];
    try (intros a; reflexivity); try (split; [reflexivity|intros a T; cbn; rewrite SN; auto]).
  destruct (iter_val (odflt (VList []) (dget "filters" d))) as [l|x] eqn:EI; cbn [bind]; [|intros a; reflexivity].
  rewrite cargo_fill. destruct (fill cargo_entry l []) as [fs [[]|x]] eqn:EF; cbn [bind]; [|intros a; reflexivity].
  split; [reflexivity|]. intros a T. cbn [set_at getdef bind]. rewrite EI, EF, SW by auto. reflexivity.
Qed.
Lemma infinity_uniform p s v :
  match (let! r := getitem v "remove_unfiltered_items" in let! fs := getitem v "filters" in let! l := entries fs in
         let! d := infinity_filters l [] in Ok (r, d)) with
  | Ok (r, d) => writes p s AInfinity v [(KS "infinity_remove", VBool (truthy r)); (KS "infinity_filters", VDict d)]
  | Err x => refuses p s AInfinity v x
  end.
Proof.
  unfold refuses. cbn [set_at]. destruct (getitem v "remove_unfiltered_items") as [r|] eqn:GR; cbn [bind]; [|intros a; reflexivity].
  destruct (getitem v "filters") as [fs|] eqn:GF; cbn [bind]; [|intros a; reflexivity]. 
  assert (H' : forall a, fill_attr "infinity_filters" infinity_entry fs a = match entries fs with Err e => (dset "infinity_filters" (VDict []) a, Err e) | Ok l => let '(d, r) := fill infinity_entry l [] in (dset "infinity_filters" (VDict d) a, r) end) by reflexivity.
  destruct (entries fs) as [l|]; cbn [bind]; [|intros a; rewrite H'; reflexivity].
  rewrite infinity_fill. destruct (fill infinity_entry l []) as [d [[]|]]; cbn [bind]; [|intros a; rewrite H'; reflexivity].
  split; [reflexivity|]. intros a T. cbn [set_at]. rewrite GR, GF, H'. reflexivity.
Qed.

Lemma set_at_uniform p s k v : (exists ws, writes p s k v ws) \/ (exists x, refuses p s k v x).
Proof.
  assert (P : forall sk r, kept_at k = [sk] -> (forall a, set_at p s k v a = put sk r a) -> (exists ws, writes p s k v ws) \/ (exists x, refuses p s k v x)).
  { intros sk r K H. pose proof (put_uniform p s k v sk r K H). destruct r; eauto. }
  assert (F : forall sk f u, kept_at k = [sk] -> (forall a, set_at p s k v a = fill_attr sk f u a) -> (exists ws, writes p s k v ws) \/ (exists x, refuses p s k v x)).
  { intros sk f u K H. pose proof (fill_uniform p s k v f sk u K H) as G. destruct (entries u); eauto. destruct (fill f a []) as [d [[]|]]; eauto. }
  destruct k; try (eapply P; [reflexivity|cbn [set_at]; intros; reflexivity]); try (eapply F; [reflexivity|cbn [set_at]; intros; reflexivity]).
  - pose proof (inventory_uniform p s v) as G. destruct (inventory_set v) as [[]|]; eauto.
  - pose proof (infinity_uniform p s v) as G. destruct (bind _ _) as [[]|]; eauto.
Qed.

(** ** The link of the constructor that takes the keyword *)
Lemma keyword_key k c : keyword_of k = Some c -> In (attr_name k) (mkeys c).
Proof. destruct k; cbn; intros [= <-]; cbn; auto. Qed.
Lemma keyword_attrs k c : keyword_of k = Some c -> forall s, In s (kept_at k) -> In s (mattrs c).
Proof. destruct k; cbn; intros [= <-] s; cbn; tauto. Qed.
Lemma keyword_items k c : keyword_of k = Some c -> c <> CItems /\ c <> CBaseMixin.
Proof. destruct k; cbn; intros [= <-]; split; discriminate. Qed.

Lemma putall_swap l : forall k (u v : val) (a : dict), (forall x, ~ In (k, x) l) -> dmem k a = true -> dset k v (putall l a) = putall l (dset k v a).
Proof.
  unfold putall. induction l as [|[j w] l IH]; intros k u v a N M; [reflexivity|]. cbn [fold_left fst snd].
  assert (k <> j) by (intros ->; apply (N w); now left).
  rewrite <- dset_swap by auto. apply (IH k u v); [intros x I; apply (N x); now right|]. rewrite dmem_dset, M. apply orb_true_r.
Qed.
Lemma putall_write k (u v : val) l at_ : (forall x, ~ In (k, x) l) -> putall ((k, v) :: l) at_ = putall [(k, v)] (putall ((k, u) :: l) at_).
Proof.
  intros N. change (putall ((k, v) :: l) at_) with (putall l (dset k v at_)). change (putall ((k, u) :: l) at_) with (putall l (dset k u at_)).
  change (putall [(k, v)] ?a) with (dset k v a).
  rewrite (putall_swap l k u) by (auto; rewrite dmem_dset, key_eqb_refl; reflexivity). now rewrite dset_twice.
Qed.
Lemma putall_write2 k1 (u1 v1 : val) k2 (u2 v2 : val) at_ : k1 <> k2 -> putall [(k1, v1); (k2, v2)] at_ = putall [(k1, v1); (k2, v2)] (putall [(k1, u1); (k2, u2)] at_).
Proof.
  intros N. unfold putall. cbn. rewrite (dset_swap k1 k2 u2 v1) by (auto; rewrite dmem_dset, key_eqb_refl; reflexivity). now rewrite !dset_twice.
Qed.
Lemma putall_cons k v l (a : dict) : putall ((k, v) :: l) a = putall l (dset k v a). Proof. reflexivity. Qed.

Lemma putall_write' k0 u0 k (u v : val) l at_ : (forall x, ~ In (k, x) l) -> putall ((k0, u0) :: (k, v) :: l) at_ = putall [(k, v)] (putall ((k0, u0) :: (k, u) :: l) at_).
Proof. intros N. exact (putall_write k u v l (dset k0 u0 at_) N). Qed.
Lemma putall_write'' k0 u0 k1 u1 k (u v : val) l at_ : (forall x, ~ In (k, x) l) -> putall ((k0, u0) :: (k1, u1) :: (k, v) :: l) at_ = putall [(k, v)] (putall ((k0, u0) :: (k1, u1) :: (k, u) :: l) at_).
Proof. intros N. exact (putall_write k u v l (dset k1 u1 (dset k0 u0 at_)) N). Qed.
Lemma link_sets p s cls k c v kw m : keyword_of k = Some c -> mats p s cls c kw = Ok m ->
  (exists x, refuses p s k v x /\ mats p s cls c (dset (attr_name k) v kw) = Err x) \/
  (exists ws m', writes p s k v ws /\ mats p s cls c (dset (attr_name k) v kw) = Ok m' /\ forall at_, putall m' at_ = putall ws (putall m at_)).
Proof.
  intros K H. unfold mats in *.
  assert (PUT : forall sk r, kept_at k = [sk] -> (forall a, set_at p s k v a = put sk r a) -> match r with Ok u => writes p s k v [(KS sk, u)] | Err x => refuses p s k v x end) by (intros; now apply put_uniform).
  destruct k; try discriminate K; injection K as <-; cbn [attr_name]; cbn [init_mixin] in *; unfold kwv, consume in *; cbn [i_kw i_args i_at] in *;
    rewrite ?set_get; cbn [key_eqb String.eqb Ascii.eqb Bool.eqb odflt].
  all: try (specialize (PUT _ _ eq_refl (fun a => eq_refl))).
  all: repeat match type of H with
    | context [let! _ := ?r in _] => let E := fresh "E" in destruct r as [?|?] eqn:E; cbn [bind i_at] in H; try discriminate
    | context [let (_, _) := ?r in _] => let E := fresh "E" in destruct r eqn:E; cbn [bind i_at] in H; try discriminate
    | context [if ?b then _ else _] => let E := fresh "E" in destruct b eqn:E; cbn [bind i_at] in H; try discriminate
    end.
  all: try (match type of H with context [match ?r with Some _ => _ | None => _ end] => destruct r eqn:?; cbn [bind i_at] in H; try discriminate end).
  all: try (match type of H with context [if ?b then _ else _] => let E := fresh "E" in destruct b eqn:E; cbn [bind i_at] in H; try discriminate end).
  all: try (injection H as <-).
  all: cbn [bind] in *.
  all: try (unfold only in PUT; repeat match type of PUT with context [if ?b then _ else _] => destruct b eqn:?; cbn [bind negb] in *; try discriminate end).
  all: try (match type of PUT with match ?r with Ok _ => _ | Err _ => _ end => destruct r as [?|?]; cbn [bind] in * end).
  all: try (left; eexists; split; [exact PUT|]; cbn [bind]; reflexivity).
  all: repeat match goal with E : ?r = Ok _ |- _ => rewrite E in *; cbn [bind] in *; clear E end.
  all: try (left; eexists; split; [exact PUT|]; cbn [bind]; reflexivity).
  all: try (right; eexists _, _; split; [exact PUT|]; split; [cbn; reflexivity|]; intros at_;
    first [apply putall_write | apply putall_write' | apply putall_write'']; cbn; intuition discriminate).
  - pose proof (inventory_uniform p s v) as U. destruct (inventory_set v) as [[b fs]|x]; cbn [bind]; [right|left; eexists; split; [exact U|reflexivity]].
    eexists _, _. split; [exact U|]. split; [cbn; reflexivity|]. intros at_. apply putall_write2. discriminate.
  - pose proof (infinity_uniform p s v) as U. destruct (getitem v "remove_unfiltered_items") as [r|]; cbn [bind] in *; [|left; eexists; split; [exact U|reflexivity]].
    destruct (getitem v "filters") as [fs|]; cbn [bind] in *; [|left; eexists; split; [exact U|reflexivity]].
    change (match fs with VNone => Ok [] | _ => iter_val fs end) with (entries fs). destruct (entries fs) as [l|]; cbn [bind] in *; [|left; eexists; split; [exact U|reflexivity]].
    destruct (infinity_filters l []) as [d'|]; cbn [bind] in *; [|left; eexists; split; [exact U|reflexivity]].
    right. eexists _, _. split; [exact U|]. split; [cbn; reflexivity|]. intros at_. apply putall_write2. discriminate.
  - pose proof (fill_uniform p s ARequests v request_entry "request_filters" v eq_refl (fun a => eq_refl)) as U.
    match goal with |- context [bind (match v with _ => _ end) _] => idtac | _ => idtac end.
    replace (match v with VNone => Ok [] | VBool b0 => iter_val (VBool b0) | VInt z => iter_val (VInt z) | VFlt f => iter_val (VFlt f) | VStr s0 => iter_val (VStr s0) | VList l => iter_val (VList l) | VDict d => iter_val (VDict d) end) with (entries v) by (destruct v; reflexivity).
    destruct (entries v) as [l|]; cbn [bind] in *; [|left; eexists; split; [exact U|reflexivity]].
    rewrite request_fill in *. destruct (fill request_entry l []) as [d' [[]|]]; cbn [bind] in *; [right|left; eexists; split; [exact U|reflexivity]].
    eexists _, _. split; [exact U|]. split; [cbn; reflexivity|]. intros at_. apply putall_write'. cbn. tauto.
Qed.

(** ** The whole chain *)
Lemma putall_comm ws m : forall ks, map fst ws = map KS ks -> forall a : dict, there ks a -> (forall s, In s ks -> forall x, ~ In (KS s, x) m) -> putall ws (putall m a) = putall m (putall ws a).
Proof.
  induction ws as [|[k x] ws IH]; intros ks E a T N; [reflexivity|]. destruct ks as [|s ks]; [discriminate|]. injection E as Ek E. cbn in Ek. subst k.
  rewrite !putall_cons. rewrite (putall_swap m (KS s) x) by (intros; (apply N; now left) || (apply T; now left)).
  apply (IH ks); auto; [|intros; apply N; now right]. intros k I. rewrite dmem_dset, (T k) by now right. apply orb_true_r.
Qed.
Lemma there_putall ks m : forall a, there ks a -> there ks (putall m a).
Proof.
  unfold putall. induction m as [|[k x] m IH]; intros a T; [exact T|]. cbn. apply IH. intros s I. rewrite dmem_dset, (T s I). apply orb_true_r.
Qed.
Lemma chain_cons p s name cls c r st : c <> CBaseMixin -> init_chain p s name cls (c :: r) st = let! st' := init_mixin p s cls c st in init_chain p s name cls r st'.
Proof. intros N. destruct c; try reflexivity. congruence. Qed.

Lemma link_any p s cls c n kw a st : init_mixin p s cls c (mkIst n kw a) = Ok st ->
  exists m n' kw', (forall k x, In (k, x) m -> exists f, k = KS f /\ In f (mattrs c)) /\ (forall a', init_mixin p s cls c (mkIst n kw a') = Ok (mkIst n' kw' (putall m a'))) /\ st = mkIst n' kw' (putall m a).
Proof.
  intros H. destruct (scls_eq_dec c CItems) as [->|N].
  - cbn [init_mixin i_kw] in *. destruct (odflt (VDict []) (dget "items" kw)); try discriminate. destruct (items_check p d); [|discriminate]. cbn [bind] in *. injection H as <-.
    exists [(KS "items", VDict d)], (n + length (ddel "items" kw))%nat, []. split; [|split; [intros; reflexivity|reflexivity]]. intros k x [[= <- <-]|[]]. exists "items"%string. cbn. auto.
  - rewrite init_mixin_char in H by auto. destruct (mats p s cls c kw) as [m|] eqn:M; [|discriminate]. injection H as <-.
    exists m, n, (drop_keys (mkeys c) kw). split; [|split; [|reflexivity]].
    + intros k x I. apply (mats_attrs _ _ _ _ _ _ M). eauto.
    + intros a'. rewrite init_mixin_char, M by auto. reflexivity.
Qed.

Lemma chain_after p s name cls ks ws c l : (forall f, In f ks -> In f (mattrs c)) -> map fst ws = map KS ks -> ~ In c l ->
  forall st d, there ks (i_at st) -> init_chain p s name cls l st = Ok d ->
  init_chain p s name cls l (mkIst (i_args st) (i_kw st) (putall ws (i_at st))) = Ok (putall ws d) /\ there ks d.
Proof.
  intros KA KW. induction l as [|c0 l IH]; intros NI st d T H.
  - cbn in *. injection H as <-. auto.
  - destruct (scls_eq_dec c0 CBaseMixin) as [->|NB].
    + cbn [init_chain] in *. cbn [i_args i_kw i_at] in *. destruct (base_init p name (i_args st) (i_kw st)); [|discriminate]. cbn [bind] in *. injection H as <-. auto.
    + rewrite chain_cons in * by auto. destruct st as [n kw a]. cbn [i_args i_kw i_at] in *. destruct (init_mixin p s cls c0 (mkIst n kw a)) as [st1|] eqn:E; [|discriminate]. cbn [bind] in H.
      destruct (link_any _ _ _ _ _ _ _ _ E) as (m & n' & kw' & MA & ML & ->). rewrite ML. cbn [bind].
      assert (DJ : forall f, In f ks -> forall x, ~ In (KS f, x) m).
      { intros f I x J. destruct (MA _ _ J) as (f' & [= <-] & F'). apply NI. left. apply (mattrs_disjoint _ _ _ F' (KA _ I)). }
      rewrite <- (putall_comm ws m ks KW a T DJ). apply (IH (fun I => NI (or_intror I)) (mkIst n' kw' (putall m a)) d); [|exact H]. cbn [i_at]. now apply there_putall.
Qed.

Lemma chain_keyword p s name cls k c v l r : keyword_of k = Some c -> ~ In CItems l -> ~ In CBaseMixin l -> NoDup (l ++ c :: r) ->
  forall n kw a d, init_chain p s name cls (l ++ c :: r) (mkIst n kw a) = Ok d ->
  (exists ws, writes p s k v ws /\ there (kept_at k) d /\ init_chain p s name cls (l ++ c :: r) (mkIst n (dset (attr_name k) v kw) a) = Ok (putall ws d)) \/
  (exists x, refuses p s k v x /\ init_chain p s name cls (l ++ c :: r) (mkIst n (dset (attr_name k) v kw) a) = Err x).
Proof.
  intros K. destruct (keyword_items _ _ K) as (NCI & NCB). pose proof (keyword_key _ _ K) as KK. pose proof (keyword_attrs _ _ K) as KA.
  induction l as [|c0 l IH]; intros NI NB ND n kw a d H; cbn [app] in *.
  - inversion ND as [|? ? NC _]; subst. rewrite chain_cons in * by auto. rewrite init_mixin_char in * by auto.
    destruct (mats p s cls c kw) as [m|] eqn:M; [|discriminate]. cbn [bind] in H.
    destruct (link_sets p s cls k c v kw m K M) as [(x & R & E)|(ws & m' & W & E & P)]; rewrite E; cbn [bind]; [right; eauto|left]. exists ws.
    assert (T : there (kept_at k) (putall m a)).
    { intros f I. apply dmem_dget. pose proof (proj2 (mats_attrs _ _ _ _ _ _ M (KS f))) as G. destruct G as (x & J); [eauto|].
      exists x. rewrite putall_get by (eapply mats_nodup; eauto). now rewrite (in_dget _ _ _ (mats_nodup _ _ _ _ _ _ M) J). }
    rewrite drop_dset_same by auto. rewrite P.
    destruct (chain_after p s name cls (kept_at k) ws c r KA (proj1 W) NC (mkIst n (drop_keys (mkeys c) kw) (putall m a)) d T H) as (X & Y). auto.
  - inversion ND as [|? ? NC ND']; subst. rewrite chain_cons in * by (intros ->; apply NB; now left).
    assert (NI0 : c0 <> CItems) by (intros ->; apply NI; now left). rewrite init_mixin_char in * by auto.
    assert (NK : ~ In (attr_name k) (mkeys c0)). { intros I. apply NC. apply in_or_app. right. left. symmetry. apply (mkeys_disjoint _ _ _ I KK). }
    rewrite (mats_ext p s cls c0 (dset (attr_name k) v kw) kw).
    2: { intros f I. rewrite set_get. destruct (key_eqb (KS f) (KS (attr_name k))) eqn:Q; auto. apply key_eqb_eq in Q. injection Q as ->. contradiction. }
    destruct (mats p s cls c0 kw) as [m|]; [|discriminate]. cbn [bind] in *. rewrite drop_dset_other by auto.
    apply IH; auto; intros I; [apply NI|apply NB]; now right.
Qed.

(** ** Construction *)
Lemma assigned p k v e ws : writes p (e_strict e) k v ws -> there (kept_at k) (e_at e) -> (forall c, attr_cls k = Some c -> In c (statics (e_cls e))) ->
  set_attr p k v e = (with_at (putall ws (e_at e)) e, Ok tt).
Proof.
  intros (_ & W) T I. unfold set_attr. rewrite (W _ T). destruct (attr_cls k) as [c|]; [|reflexivity].
  replace (has_cls c (statics (e_cls e))) with true; [reflexivity|]. symmetry. apply has_cls_In. auto.
Qed.
Lemma not_assigned p k v e x : refuses p (e_strict e) k v x -> (forall c, attr_cls k = Some c -> In c (statics (e_cls e))) ->
  snd (set_attr p k v e) = Err x.
Proof.
  intros R I. unfold set_attr. specialize (R (e_at e)). destruct (set_at p (e_strict e) k v (e_at e)) as [a r]. cbn in R. subst r.
  destruct (attr_cls k) as [c|]; [|reflexivity]. replace (has_cls c (statics (e_cls e))) with true; [reflexivity|]. symmetry. apply has_cls_In. auto.
Qed.

Lemma keyword_general k c : keyword_of k = Some c -> ~ In (attr_name k) (["self"; "blueprint_layer"] ++ entity_keys).
Proof. destruct k; cbn; intros _; intuition discriminate. Qed.
Lemma all_KS_dset (k : string) v (d : dict) : all_KS (dset (KS k) v d) = all_KS d.
Proof. induction d as [|[[s|z] x] d IH]; cbn; auto. destruct (String.eqb k s); cbn; auto. Qed.
Lemma attr_owner k c : keyword_of k = Some c -> forall c', attr_cls k = Some c' -> c' = c.
Proof. destruct k; cbn; congruence. Qed.

(** everything of the constructor before the chain of the mixins *)
Definition before_chain (p : protos) (cust : customs) (layer : option nat) (kw : dict) : dict * res entity :=
  if negb (all_KS kw) || dmem "self" kw || dmem "blueprint_layer" kw then (kw, Err EType) else
  match dget "name" kw, dget "position" kw with
  | Some name, Some position =>
      let num := odflt VNone (dget "entity_number" kw) in
      let e := mkEnt (truthy (odflt (VBool true) (dget "strict" kw))) layer num num (VStr "")
                     entity_cls None 0 (odflt VNone (dget "connections" kw)) None [] in
      let '(e, r) := set_name p cust name e in
      match r with
      | Err x => (kw, Err x)
      | Ok _ =>
          match (let! pos := vec_of_val position in
                 let! dir := dir_of_val (odflt (VInt 0) (dget "direction" kw)) in
                 Ok (with_dir dir (with_pos pos e))) with
          | Err x => (kw, Err x)
          | Ok e =>
              match dget "control_behavior" kw with
              | None => (kw, Ok e)
              | Some cbv =>
                  match as_kwargs cbv with
                  | Err x => (kw, Err x)
                  | Ok cbkw =>
                      if dmem "self" cbkw || dmem "_entity" cbkw then (kw, Err EType) else
                      let ch := cb_chain (e_cls e) in
                      let '(st, r) := cb_init_chain p (e_name e) (statics (e_cls e)) ch ch (mkCst 0 cbkw [] None) in
                      match r with
                      | Err x => (kw, Err x)
                      | Ok a => (kw, Ok (with_cb (Some (mkCb ch a)) e))
                      end
                  end
              end
          end
      end
  | _, _ => (kw, Err EType)
  end.
Lemma construct_before p cust layer kw : snd (construct p cust layer kw) =
  let! e := snd (before_chain p cust layer kw) in
  let! a := init_chain p (e_strict e) (e_name e) (statics (e_cls e)) (chain (e_cls e)) (mkIst 0 (drop_keys entity_keys kw) []) in
  Ok (with_at a e).
Proof.
  unfold construct, before_chain. destruct (negb (all_KS kw) || _ || _); [reflexivity|].
  destruct (dget "name" kw) as [name|]; [|reflexivity]. destruct (dget "position" kw) as [position|]; [|reflexivity].
  destruct (set_name p cust name _) as [e1 [[]|err]]; [|reflexivity].
  destruct (let! pos := vec_of_val position in _) as [e2|]; [|reflexivity].
  destruct (dget "control_behavior" kw) as [cbv|]; [|reflexivity]. destruct (as_kwargs cbv) as [cbkw|]; [|reflexivity].
  destruct (dmem "self" cbkw || dmem "_entity" cbkw); [reflexivity|]. destruct (cb_init_chain _ _ _ _ _ _) as [st [a|]]; reflexivity.
Qed.
Lemma before_keyword p cust layer kw k v c : keyword_of k = Some c -> snd (before_chain p cust layer (dset (attr_name k) v kw)) = snd (before_chain p cust layer kw).
Proof.
  intros K. pose proof (keyword_general _ _ K) as N. unfold before_chain. rewrite all_KS_dset, !dmem_dset, !set_get.
  assert (F : forall s, In s (["self"; "blueprint_layer"] ++ entity_keys) -> key_eqb (KS s) (KS (attr_name k)) = false).
  { intros s I. apply key_eqb_neq. intros [= ->]. contradiction. }
  rewrite !F by (cbn; tauto). cbn [orb].
  destruct (negb (all_KS kw) || _ || _); [reflexivity|].
  destruct (dget "name" kw) as [name|]; [|reflexivity]. destruct (dget "position" kw) as [position|]; [|reflexivity].
  destruct (set_name p cust name _) as [e1 [[]|err]]; [|reflexivity].
  destruct (let! pos := vec_of_val position in _) as [e2|]; [|reflexivity].
  destruct (dget "control_behavior" kw) as [cbv|]; [|reflexivity]. destruct (as_kwargs cbv) as [cbkw|]; [|reflexivity].
  destruct (dmem "self" cbkw || dmem "_entity" cbkw); [reflexivity|]. destruct (cb_init_chain _ _ _ _ _ _) as [st [a|]]; reflexivity.
Qed.

Lemma split_before {A} (c b : A) : forall l r m t, NoDup (l ++ c :: r) -> l ++ c :: r = m ++ b :: t -> In b l -> In c t.
Proof.
  induction l as [|x l IH]; intros r m t ND E I; [destruct I|]. destruct m as [|y m]; cbn in E; injection E as -> E.
  - rewrite <- E. apply in_or_app. right. now left.
  - cbn in ND. inversion ND as [|? ? NI ND']; subst. apply (IH r m t ND' E). destruct I as [->|I]; [|auto]. exfalso. apply NI. rewrite E. apply in_or_app. right. now left.
Qed.
Lemma p_C58_constructed p cust layer kw e k c v : snd (construct p cust layer kw) = Ok e -> keyword_of k = Some c -> accepts e c ->
  match snd (construct p cust layer (dset (attr_name k) v kw)) with
  | Ok e' => set_attr p k v e = (e', Ok tt)
  | Err x => snd (set_attr p k v e) = Err x
  end.
Proof.
  intros H K (l & r & EL & NI). pose proof (st_construct _ stable_fine _ _ _ _ _ H) as C. unfold fine in C.
  rewrite construct_before in H |- *. rewrite (before_keyword _ _ _ _ _ _ _ K). destruct (snd (before_chain p cust layer kw)) as [e0|]; [|discriminate]. cbn [bind] in *.
  destruct (init_chain _ _ _ _ _ _) as [a|] eqn:IC; [|discriminate]. cbn [bind] in H. injection H as <-. cbn [e_cls with_at] in *.
  pose proof (statics_ordered _ C) as (ND & _). pose proof (statics_shape _ C) as SH. rewrite EL in SH.
  destruct (keyword_items _ _ K) as (NCI & NCB).
  destruct l as [|c0 l]; [cbn in SH; injection SH as -> _; destruct k; discriminate|]. cbn [app] in SH. injection SH as -> SH.
  destruct (chain_tail _ C) as (m & EM & NBM & NBB & NBO).
  assert (NB : ~ In CBaseMixin l).
  { intros I. rewrite EL in ND. cbn [app] in ND. inversion ND as [|? ? _ ND']; subst. rewrite EM in SH. pose proof (split_before _ _ _ _ _ _ ND' SH I) as J.
    destruct J as [<-|[<-|[]]]; destruct k; discriminate. }
  assert (ND' : NoDup (l ++ c :: r)) by (rewrite EL in ND; cbn [app] in ND; now inversion ND).
  assert (NI' : ~ In CItems l) by (intros I; apply NI; now right).
  rewrite <- SH in IC |- *. rewrite drop_dset_other. 2:{ intros I. apply (keyword_general _ _ K). apply in_or_app. now right. }
  assert (IN : forall c', attr_cls k = Some c' -> In c' (statics (e_cls (with_at a e0)))).
  { intros c' E. rewrite (attr_owner _ _ K _ E). cbn [with_at e_cls]. rewrite EL. apply in_or_app. right. now left. }
  destruct (chain_keyword _ _ _ _ k c v l r K NI' NB ND' _ _ _ _ IC) as [(ws & W & T & E)|(x & R & E)]; rewrite E; cbn [bind].
  - rewrite (assigned p k v (with_at a e0) ws W T IN). reflexivity.
  - exact (not_assigned p k v (with_at a e0) x R IN).
Qed.

(** for the prototype types of the table *)
Lemma accepts_typed p cust l kw s ty own cbk e k : typed p kw s ty -> dget ty cust = None -> In (ty, (own, cbk)) formats ->
  snd (construct p cust l kw) = Ok e -> In (attr_name k) own -> exists c, keyword_of k = Some c /\ accepts e c.
Proof.
  intros T CU F H I. pose proof (format_shape _ _ _ F) as SH. pose proof (st_construct _ stable_fine _ _ _ _ _ H) as C. unfold fine in C.
  assert (CE : e_cls e = cls_of ty).
  { rewrite (construct_typed _ _ _ _ _ _ _ _ T CU F) in H. apply bind_ok in H as (? & _ & H). apply bind_ok in H as (? & _ & H). apply bind_ok in H as (? & _ & H). apply bind_ok in H as (? & _ & H).
    destruct (drop_keys _ _); [|discriminate]. now injection H as <-. }
  apply (sh_own _ _ SH) in I. apply in_flat_map in I as (c & IC & IK).
  assert (K : keyword_of k = Some c) by (destruct k; cbn in IK; destruct c; cbn in IK; repeat (destruct IK as [IK|IK]; try discriminate); try contradiction; reflexivity).
  exists c. split; [exact K|]. unfold accepts. rewrite (statics_shape _ C), CE, (sh_chain _ _ SH). apply in_split in IC as (l1 & l2 & E). rewrite E.
  exists (CEntity :: l1), (l2 ++ CBaseMixin :: [CBase; CObject]). split; [cbn; now rewrite <- app_assoc|].
  intros [D|D]; [discriminate|]. destruct (sh_items _ _ SH) as (m & EM & NM). rewrite E in EM. destruct EM as [<-|EM]; [apply NM, in_or_app; now left|].
  assert (NC : c <> CItems) by apply (keyword_items _ _ K).
  clear E. revert m EM NM D. induction l1 as [|x l1 IH]; intros m EM NM D; [destruct D|]. destruct m as [|y m]; cbn in EM; injection EM as -> EM.
  - destruct l1; discriminate.
  - destruct D as [->|D]; [apply NM; now left|]. apply (IH m EM); auto. intros Z. apply NM. now right.
Qed.
Lemma p_C58_typed p cust l kw s ty own cbk e k v : typed p kw s ty -> dget ty cust = None -> In (ty, (own, cbk)) formats ->
  snd (construct p cust l kw) = Ok e -> In (attr_name k) own ->
  match snd (construct p cust l (dset (attr_name k) v kw)) with
  | Ok e' => set_attr p k v e = (e', Ok tt)
  | Err x => snd (set_attr p k v e) = Err x
  end.
Proof.
  intros T CU F H I. destruct (accepts_typed _ _ _ _ _ _ _ _ _ _ T CU F H I) as (c & K & A). eapply p_C58_constructed; eauto.
Qed.

(** ** What an assignment does to the exports *)
Lemma assign_attr_eq i k v w e : ent w i = Some e -> assign_attr i k v w = (U i (fst (set_attr (w_protos w) k v e)) w, snd (set_attr (w_protos w) k v e)).
Proof. intros H. unfold assign_attr. rewrite H. destruct (set_attr _ k v e); reflexivity. Qed.
Lemma set_attr_at p k v e : exists a, fst (set_attr p k v e) = with_at a e.
Proof. destruct (set_attr_form p k v e) as (a & _ & E). eauto. Qed.
Lemma p_C58_others i k v w j : j <> i -> snd (ent_json j (fst (assign_attr i k v w))) = snd (ent_json j w).
Proof.
  intros N. destruct (ent w i) as [e|] eqn:He; [|unfold assign_attr; now rewrite He]. rewrite (assign_attr_eq _ _ _ _ _ He). cbn [fst].
  destruct (set_attr_at (w_protos w) k v e) as (a & ->).
  destruct (U_ent_json_other i e (with_at a e) (mkAlike e (with_at a e) eq_refl eq_refl) eq_refl w j He N) as (E & _). now rewrite E.
Qed.
(** the entity itself: its chain over the new attributes *)
Lemma own_json i w e a : ent w i = Some e -> exists o,
  snd (ent_json i w) = (let! o := o in let! d := json_chain (w_protos w) (e_dir e) (statics (e_cls e)) (e_cb e) (chain (e_cls e)) (e_at e) o in Ok (VDict d)) /\
  snd (ent_json i (U i (with_at a e) w)) = (let! o := o in let! d := json_chain (w_protos w) (e_dir e) (statics (e_cls e)) (e_cb e) (chain (e_cls e)) a o in Ok (VDict d)).
Proof.
  intros H. rewrite !ent_json_eq, (U_ent i e) by exact H. rewrite Nat.eqb_refl, H. cbn [e_pos with_at]. destruct (e_pos e) as [v|]; [|exists (Err EAttribute); auto].
  destruct (U_connections_json i e (with_at a e) (mkAlike e (with_at a e) eq_refl eq_refl) eq_refl w i H) as (E & _). rewrite E.
  pose proof (protos_connections_json i w) as P. destruct (connections_to_json i w) as [w1 [cs|x]]; cbn [fst snd] in *; [|exists (Err x); auto].
  exists (Ok (stem e v cs)). cbn [bind]. rewrite U_protos, P. auto.
Qed.

(** one link of the export *)
Lemma written_ext p dir c a a' : (forall s, In s (mattrs c) -> dget (KS s) a' = dget (KS s) a) -> written p dir c a' = written p dir c a.
Proof.
  intros H. unfold written. destruct c; cbn [json_mixin mattrs mkeys] in *; unfold aget, dsc;
    repeat match goal with |- context [dget (KS ?s) a'] => rewrite (H s) by (cbn; tauto) end; reflexivity.
Qed.
Lemma ok_inj {A} (x y : A) : Ok x = Ok y -> x = y. Proof. congruence. Qed.
Lemma written_keys p dir c a u k : written p dir c a = Ok u -> dget k u <> None -> k = KS "direction" \/ exists s, k = KS s /\ In s (mkeys c).
Proof.
  intros W. unfold written in W.
  assert (B : forall (ks : list string) (u : dict), (forall k : key, dget k u <> None -> exists s, k = KS s /\ In s ks) -> forall s v, In s ks -> forall k : key, dget k (dset (KS s) v u) <> None -> exists s, k = KS s /\ In s ks).
  { intros ks u0 H s v I k0. rewrite set_get. destruct (key_eqb k0 (KS s)) eqn:E; [apply key_eqb_eq in E; eauto|auto]. }
  assert (B' : forall (ks : list string) (u : dict), (forall k : key, dget k u <> None -> exists s, k = KS s /\ In s ks) -> forall s v, In s ks -> forall k : key, dget k (obj_set u s v) <> None -> exists s, k = KS s /\ In s ks).
  { intros ks u0 H s v I k0. destruct v; cbn [obj_set]; auto; now apply B. }
  assert (B0 : forall (ks : list string) (k : key), dget k ([] : dict) <> None -> exists s, k = KS s /\ In s ks) by (cbn; congruence).
  destruct c; cbn [json_mixin mkeys] in *;
    repeat (match type of W with
    | context [let! _ := ?r in _] => destruct r as [?|?]; cbn [bind] in W; try discriminate
    | context [if ?b then _ else _] => destruct b; cbn [bind] in W
    | context [match ?v with VDict _ => _ | _ => _ end] => destruct v; cbn [bind] in W; try discriminate
    | context [match ?d with [] => _ | _ :: _ => _ end] => destruct d; cbn [bind] in W; try discriminate
    end); apply ok_inj in W; subst u; intros N; try (right; revert k N; repeat first [apply B0 | apply B' | apply B]; cbn; tauto); try (cbn in N; congruence).
  left. cbn in N. destruct (key_eqb k "direction") eqn:E; [now apply key_eqb_eq in E|congruence].
Qed.

(** attributes that are dictionaries stay dictionaries *)
Definition tables : list string := ["inventory_filters"; "infinity_filters"].
Definition owner (k : mattr) : scls := match attr_cls k with Some c => c | None => CStation end.
Lemma kept_owner k s : In s (kept_at k) -> In s (mattrs (owner k)).
Proof. destruct k; cbn; tauto. Qed.
Lemma shown_owner k : In (shown_at k) (mkeys (owner k)).
Proof. destruct k; cbn; tauto. Qed.
Lemma tables_stay p s k v a t : In t tables -> dget (KS t) (fst (set_at p s k v a)) = dget (KS t) a \/ exists d, dget (KS t) (fst (set_at p s k v a)) = Some (VDict d).
Proof.
  intros I. destruct (in_dec string_dec t (kept_at k)) as [J|J].
  2:{ left. apply (proj1 (set_at_changed p s k v a)). intros k0 I0 [= ->]. contradiction. }
  assert (G : forall x d (a0 : dict), dget (KS t) (dset (KS t) (VDict d) a0) = Some x -> exists d, x = VDict d) by (intros x d a0; rewrite set_get, key_refl; intros [= <-]; eauto).
  cbn in I. destruct I as [<-|[<-|[]]]; destruct k; cbn in J; repeat (destruct J as [J|J]; try discriminate); try contradiction; cbn [set_at]; unfold fill_attr.
  - right. destruct v; cbn [getdef fst]; try (rewrite ?set_get; cbn [key_eqb String.eqb Ascii.eqb Bool.eqb]; eauto; fail).
    cbn [bind]. destruct (iter_val _) as [l|]; [destruct (fill cargo_entry l [])|]; cbn [fst]; rewrite ?set_get; cbn [key_eqb String.eqb Ascii.eqb Bool.eqb]; eauto.
  - destruct (getitem v "remove_unfiltered_items"); [|left; reflexivity]. destruct (getitem v "filters"); [right|left; cbn [fst]; rewrite set_get; reflexivity].
    match goal with |- context [match ?r with Ok _ => _ | Err _ => _ end] => destruct r end; [destruct (fill _ _ [])|]; cbn [fst]; rewrite set_get, key_refl; eauto.
  - right. match goal with |- context [match ?r with Ok _ => _ | Err _ => _ end] => destruct r end; [destruct (fill _ _ [])|]; cbn [fst]; rewrite set_get, key_refl; eauto.
Qed.
(** the link of the owner: what it writes elsewhere stays *)
Lemma obj_other (u : dict) f x k : key_eqb k (KS f) = false -> dget k (obj_set u f x) = dget k u.
Proof. intros N. destruct x; cbn [obj_set]; rewrite ?set_get, ?N; reflexivity. Qed.
Lemma dset_other (u : dict) f x k : key_eqb k (KS f) = false -> dget k (dset (KS f) x u) = dget k u.
Proof. intros N. now rewrite set_get, N. Qed.
Lemma obj_cong (u u' : dict) f x k : dget k u = dget k u' -> dget k (obj_set u f x) = dget k (obj_set u' f x).
Proof. intros N. destruct x; cbn [obj_set]; rewrite ?set_get, ?N; reflexivity. Qed.
Lemma dset_cong (u u' : dict) f x k : dget k u = dget k u' -> dget k (dset (KS f) x u) = dget k (dset (KS f) x u').
Proof. intros N. now rewrite !set_get, N. Qed.
Lemma link_frame p s dir k v a u : written p dir (owner k) a = Ok u ->
  exists u', written p dir (owner k) (fst (set_at p s k v a)) = Ok u' /\ forall key, key <> KS (shown_at k) -> dget key u' = dget key u.
Proof.
  intros W. pose proof (set_at_changed p s k v a) as (CH & TH). pose proof (fun t => tables_stay p s k v a t) as TB. set (a' := fst (set_at p s k v a)) in *. clearbody a'.
  assert (HAS : forall f y, dget (KS f) a = Some y -> exists x, dget (KS f) a' = Some x).
  { intros f y N. specialize (TH (KS f)). unfold dmem in TH. rewrite N in TH. specialize (TH eq_refl). destruct (dget (KS f) a'); [eauto|discriminate]. }
  assert (HASD : forall f d, In f tables -> dget (KS f) a = Some (VDict d) -> exists d', dget (KS f) a' = Some (VDict d')).
  { intros f d I E. destruct (TB f I) as [->|]; eauto. }
  clear TH TB.
  unfold written in *; destruct k; cbn [owner attr_cls kept_at shown_at attr_name] in *; cbn [json_mixin] in *; unfold aget, dsc in *;
    repeat match type of W with
    | context [match dget (KS ?f) a with Some _ => _ | None => _ end] => destruct (dget (KS f) a) eqn:?; cbn [bind] in W; try discriminate
    | context [let! _ := mapM ?f ?l in _] => destruct (mapM f l) eqn:?; cbn [bind] in W; try discriminate
    | context [match ?v with VDict _ => _ | _ => _ end] => is_var v; destruct v; cbn [bind] in W; try discriminate
    | context [match ?v with VList _ => _ | _ => _ end] => is_var v; destruct v; cbn [bind] in W; try discriminate
    | context [match ?d with [] => _ | _ :: _ => _ end] => is_var d; destruct d; cbn [bind] in W; try discriminate
    end; apply ok_inj in W; subst u;
    repeat match goal with |- context [dget (KS ?f) a'] => 
      first [rewrite (CH (KS f)) by (cbn; intros ? [<-|[]]; discriminate) | rewrite (CH (KS f)) by (cbn; intros ? [<-|[<-|[]]]; discriminate)
       | match goal with E : dget (KS f) a = Some (VDict ?d) |- _ => let x := fresh "x" in let E' := fresh "E" in destruct (HASD f d) as (x & E'); [cbn; tauto|exact E|]; rewrite E' end
       | match goal with E : dget (KS f) a = Some _ |- _ => let x := fresh "x" in let E' := fresh "E" in destruct (HAS f _ E) as (x & E'); rewrite E' end
       | generalize (dget (KS f) a'); intros ?x ] end;
    repeat match goal with E : dget (KS _) a = Some _ |- _ => rewrite ?E; clear E end;
    cbn [bind odflt];
    repeat match goal with
    | |- context [match ?v with VDict _ => _ | _ => _ end] => is_var v; destruct v; cbn [bind]
    | |- context [match ?d with [] => _ | _ :: _ => _ end] => is_var d; destruct d; cbn [bind]
    end; try (eexists; split; [reflexivity|]; intros key N; apply key_eqb_neq in N;
    repeat match goal with |- context [if ?b then _ else _] => destruct b end;
    repeat first [reflexivity | rewrite (fun u x => obj_other u _ x _ N) | rewrite (fun u x => dset_other u _ x _ N) | apply obj_cong | apply dset_cong]).
  match goal with E : mapM _ _ = Ok _ |- _ => cbn in E |- *; rewrite E end. eexists. split; [reflexivity|]. intros key N. apply key_eqb_neq in N. cbn [bind].
  repeat first [reflexivity | rewrite (fun u x => obj_other u _ x _ N) | rewrite (fun u x => dset_other u _ x _ N) | apply obj_cong | apply dset_cong].
Qed.
Lemma owner_home k : owner k = home k. Proof. destruct k; reflexivity. Qed.
Lemma shown_general k : ~ In (shown_at k) ["entity_number"; "name"; "position"; "connections"; "direction"; "control_behavior"].
Proof. destruct k; cbn; intuition discriminate. Qed.

Lemma chain_frame p s dir cls cb k v a l t : ~ In CBaseMixin l -> forall o d, json_chain p dir cls cb (l ++ CBaseMixin :: t) a o = Ok d ->
  forall o', (forall key, key <> KS (shown_at k) -> dget key o' = dget key o) ->
  exists d', json_chain p dir cls cb (l ++ CBaseMixin :: t) (fst (set_at p s k v a)) o' = Ok d' /\ forall key, key <> KS (shown_at k) -> dget key d' = dget key d.
Proof.
  induction l as [|c l IH]; intros NB o d H o' E; cbn [app] in *.
  - cbn [json_chain] in *. destruct cb as [cb|]; [|apply ok_inj in H; subst d; eauto]. destruct (cb_json p cls cb) as [u|]; [|discriminate]. cbn [bind] in *. apply ok_inj in H. subst d.
    eexists. split; [reflexivity|]. intros key N. apply obj_cong. auto.
  - rewrite chain_step in * by (intros ->; apply NB; now left).
    pose proof (link_written p dir c a o) as L. pose proof (link_written p dir c (fst (set_at p s k v a)) o') as L'.
    destruct (written p dir c a) as [u|x] eqn:W; [|rewrite L in H; discriminate]. destruct L as (o1 & L & OV). rewrite L in H. cbn [bind] in H.
    assert (X : exists u', written p dir c (fst (set_at p s k v a)) = Ok u' /\ forall key, key <> KS (shown_at k) -> dget key u' = dget key u).
    { destruct (scls_eq_dec c (owner k)) as [->|NO]; [now apply link_frame|]. exists u. split; [|auto]. rewrite <- W. apply written_ext.
      intros f I. apply (proj1 (set_at_changed p s k v a)). intros f' I' [= <-]. apply NO. apply (mattrs_disjoint _ _ _ I (kept_owner _ _ I')). }
    destruct X as (u' & W' & D). rewrite W' in L'. destruct L' as (o1' & L' & OV'). rewrite L'. cbn [bind].
    apply (IH (fun I => NB (or_intror I)) o1 d H o1'). intros key N. rewrite OV', OV, D by auto. destruct (dget key u); auto.
Qed.
(** the value at the key *)
Lemma chain_value p dir cls cb c key a l t : ~ In CBaseMixin l -> NoDup l -> In key (mkeys c) -> key <> "direction" -> key <> "control_behavior" ->
  forall o d, json_chain p dir cls cb (l ++ CBaseMixin :: t) a o = Ok d ->
  exists u, (In c l -> written p dir c a = Ok u) /\ dget (KS key) d = if in_dec scls_eq_dec c l then match dget (KS key) u with Some v => Some v | None => dget (KS key) o end else dget (KS key) o.
Proof.
  intros NB ND K ND1 ND2. induction l as [|c0 l IH]; intros o d H; cbn [app] in *.
  - exists []. split; [intros []|]. cbn [json_chain] in H. destruct cb as [cb|]; [|apply ok_inj in H; subst d; reflexivity]. destruct (cb_json p cls cb) as [u|]; [|discriminate]. cbn [bind] in *. apply ok_inj in H. subst d.
    cbn. rewrite obj_other; [reflexivity|]. apply key_eqb_neq. congruence.
  - rewrite chain_step in * by (intros ->; apply NB; now left). pose proof (link_written p dir c0 a o) as L.
    destruct (written p dir c0 a) as [u0|x] eqn:W; [|rewrite L in H; discriminate]. destruct L as (o1 & L & OV). rewrite L in H. cbn [bind] in H.
    inversion ND as [|? ? NI ND']; subst. destruct (IH (fun I => NB (or_intror I)) ND' o1 d H) as (u & WU & E).
    destruct (scls_eq_dec c0 c) as [->|NC].
    + exists u0. split; [auto|]. rewrite E. destruct (in_dec scls_eq_dec c l); [contradiction|]. rewrite OV. destruct (in_dec scls_eq_dec c (c :: l)) as [|NN]; [reflexivity|]. exfalso. apply NN. now left.
    + exists u. split; [intros [|]; [congruence|auto]|]. rewrite E, OV.
      replace (dget (KS key) u0) with (@None val).
      2:{ destruct (dget (KS key) u0) eqn:G; [|reflexivity]. exfalso. destruct (written_keys p dir c0 a u0 (KS key) W) as [X|(f & X & I)]; try congruence.
          injection X as <-. apply NC. apply (mkeys_disjoint _ _ _ I K). }
      destruct (in_dec scls_eq_dec c l), (in_dec scls_eq_dec c (c0 :: l)) as [J|J]; try reflexivity; exfalso; [apply J; now right|]. destruct J; [congruence|auto].
Qed.

Lemma own_chain w i e : reachable w -> ent w i = Some e -> exists l, chain (e_cls e) = l ++ [CBaseMixin; CBase; CObject] /\ ~ In CBaseMixin l /\ NoDup l /\ forall c, c <> CEntity -> In c (statics (e_cls e)) -> In c l \/ In c [CBaseMixin; CBase; CObject].
Proof.
  intros R H. pose proof (reach_cls _ _ _ R H) as C. destruct (chain_tail _ C) as (l & EL & NB & _). exists l. split; [auto|]. split; [auto|].
  pose proof (statics_ordered _ C) as (ND & _). rewrite (statics_shape _ C), EL in *. inversion ND as [|? ? _ ND']; subst. split.
  - apply NoDup_app_l in ND'. destruct ND' as (X & _). exact X.
  - intros c N [I|I]; [congruence|]. now apply in_app_or in I.
Qed.
Lemma U_same i e w : ent w i = Some e -> U i e w = w.
Proof. intros H. unfold U. unfold ent in H. rewrite upd_same by exact H. now destruct w. Qed.
Lemma with_at_same e : with_at (e_at e) e = e. Proof. now destruct e. Qed.
Lemma p_C58_frame i k v w w1 d : reachable w -> ent_json i w = (w1, Ok (VDict d)) ->
  exists d', snd (ent_json i (fst (assign_attr i k v w))) = Ok (VDict d') /\ forall key, key <> KS (shown_at k) -> dget key d' = dget key d.
Proof.
  intros R J. destruct (ent w i) as [e|] eqn:He; [|rewrite ent_json_eq, He in J; discriminate].
  destruct (own_chain _ _ _ R He) as (l & EL & NB & ND & _).
  rewrite (assign_attr_eq _ _ _ _ _ He). cbn [fst].
  assert (X : fst (set_attr (w_protos w) k v e) = e \/ fst (set_attr (w_protos w) k v e) = with_at (fst (set_at (w_protos w) (e_strict e) k v (e_at e))) e).
  { unfold set_attr. destruct (set_at _ _ k v (e_at e)) as [a r]. destruct (attr_cls k); auto. destruct (has_cls s _); auto. destruct k; auto. }
  destruct X as [-> | ->].
  - rewrite U_same by auto. rewrite J. exists d. split; [reflexivity|auto].
  - destruct (own_json i w e (fst (set_at (w_protos w) (e_strict e) k v (e_at e))) He) as (o & E1 & E2). rewrite J in E1. cbn [snd] in E1. rewrite E2. clear E2.
    destruct o as [o|]; [|discriminate]. cbn [bind] in *. rewrite EL in *.
    destruct (json_chain (w_protos w) (e_dir e) (statics (e_cls e)) (e_cb e) (l ++ [CBaseMixin; CBase; CObject]) (e_at e) o) as [d0|] eqn:JC; [|discriminate]. cbn [bind] in E1. injection E1 as <-.
    destruct (chain_frame _ (e_strict e) _ _ _ k v _ _ _ NB _ _ JC o (fun _ _ => eq_refl)) as (d' & JC' & D). rewrite JC'. cbn [bind]. eauto.
Qed.

(** ** Failing and idle assignments *)
Lemma put_keeps s r a x : snd (put s r a) = Err x -> fst (put s r a) = a. Proof. destruct r; cbn; [discriminate|reflexivity]. Qed.
Lemma p_C58_refused i k v w x : forgetful k = false -> snd (assign_attr i k v w) = Err x -> fst (assign_attr i k v w) = w.
Proof.
  intros F. destruct (ent w i) as [e|] eqn:He.
  - rewrite (assign_attr_eq _ _ _ _ _ He). cbn [fst snd]. intros H.
    assert (X : fst (set_attr (w_protos w) k v e) = e); [|rewrite X; now apply U_same].
    unfold set_attr in *. pose proof (fun s r => put_keeps s r (e_at e) x) as P.
    destruct k; try discriminate F; cbn [attr_cls set_at] in *;
      try (match goal with |- context [has_cls ?c ?l] => destruct (has_cls c l); cbn [fst snd] in *; try discriminate; try reflexivity end);
      match goal with |- context [put ?s ?r ?a] => specialize (P s r); destruct (put s r a); cbn [fst snd] in *; rewrite P by auto; apply with_at_same end.
  - unfold assign_attr. now rewrite He.
Qed.
Lemma p_C58_idle i k v w e : ent w i = Some e -> ~ In (home k) (statics (e_cls e)) -> k <> AStation -> fst (assign_attr i k v w) = w.
Proof.
  intros He N NS. rewrite (assign_attr_eq _ _ _ _ _ He). cbn [fst]. assert (X : fst (set_attr (w_protos w) k v e) = e); [|rewrite X; now apply U_same].
  unfold set_attr. assert (E : attr_cls k = Some (home k)) by (destruct k; try reflexivity; congruence). rewrite E.
  destruct (has_cls (home k) (statics (e_cls e))) eqn:B; [apply has_cls_In in B; contradiction|]. destruct k; reflexivity.
Qed.

(** ** What shows *)
Lemma obj_shows u s v : dget (KS s) u = None -> dget (KS s) (obj_set u s v) = shows v.
Proof. intros N. destruct v; cbn [obj_set shows]; rewrite ?dget_dset', ?key_eqb_refl; auto. Qed.
Lemma link_shows p p' s dir k v a u : as_given k = true \/ whole k = true /\ (v = VNone \/ exists z, v = VInt z) -> snd (set_at p s k v a) = Ok tt ->
  written p' dir (home k) (fst (set_at p s k v a)) = Ok u -> dget (KS (shown_at k)) u = shows v.
Proof.
  intros Q S W.
  assert (X : fst (set_at p s k v a) = dset (KS (attr_name k)) v a).
  { destruct Q as [Q|(Q & [->|(z & ->)])]; destruct k; try discriminate Q; cbn [set_at attr_name] in *; try reflexivity; unfold put, only, recipe_set, variation_set in *;
    repeat match type of S with context [if ?b then _ else _] => destruct b | context [match ?x with VNone => _ | _ => _ end] => destruct x | context [let! _ := ?r in _] => destruct r; cbn [bind] in S end; try discriminate S; try reflexivity. }
  rewrite X in W. clear X.
  assert (Y : forall (key : string) a', aget (dset (KS key) v a') key = Ok v) by (intros; unfold aget; now rewrite dget_dset', key_eqb_refl).
  destruct Q as [Q|(Q & _)]; destruct k; try discriminate Q; cbn [home keyword_of shown_at attr_name] in *; unfold written in W; cbn [json_mixin] in W.
  all: unfold dsc, aget in W; rewrite ?dget_dset', ?key_eqb_refl in W; cbn [odflt key_eqb String.eqb Ascii.eqb Bool.eqb bind] in W;
    repeat match type of W with context [match ?x with _ => _ end] => (is_var x; fail 1) || destruct x; cbn [bind] in W; try discriminate W end;
    repeat match type of W with context [match ?x with _ => _ end] => destruct x; cbn [bind] in W; try discriminate W end.
  all: try (apply ok_inj in W; subst u).
  all: repeat first [apply obj_shows; repeat first [reflexivity | rewrite obj_other by reflexivity] | rewrite obj_other by reflexivity | rewrite dset_other by reflexivity].
  apply bind_ok in W as (js & _ & W). apply ok_inj in W. subst u. rewrite dset_other by reflexivity. now apply obj_shows.
Qed.
Lemma home_key k : In (shown_at k) (mkeys (home k)). Proof. destruct k; cbn; auto 8. Qed.
Lemma p_C58_shown i k v w e d : reachable w -> ent w i = Some e -> In (home k) (statics (e_cls e)) ->
  as_given k = true \/ whole k = true /\ (v = VNone \/ exists z, v = VInt z) ->
  snd (assign_attr i k v w) = Ok tt -> snd (ent_json i (fst (assign_attr i k v w))) = Ok (VDict d) -> dget (KS (shown_at k)) d = shows v.
Proof.
  intros R He I Q S J. destruct (own_chain _ _ _ R He) as (l & EL & NB & ND & ON).
  rewrite (assign_attr_eq _ _ _ _ _ He) in S, J. cbn [fst snd] in S, J.
  assert (X : set_attr (w_protos w) k v e = (with_at (fst (set_at (w_protos w) (e_strict e) k v (e_at e))) e, snd (set_at (w_protos w) (e_strict e) k v (e_at e)))).
  { unfold set_attr. destruct (set_at _ _ k v (e_at e)) as [a r]. cbn [fst snd]. destruct (attr_cls k) as [c|] eqn:C; auto.
    assert (E : c = home k) by (destruct k; cbn in *; congruence). subst c. apply has_cls_In in I. now rewrite I. }
  rewrite X in S, J. clear X. cbn [fst snd] in S, J. rewrite ent_json_eq, (U_ent i e) in J by exact He. rewrite Nat.eqb_refl in J. cbn [e_pos with_at] in J. destruct (e_pos e) as [pos|]; [|discriminate].
  destruct (connections_to_json i _) as [w1 [cs|x]]; [|discriminate]. cbn [snd e_dir e_cls e_cb e_at with_at] in J. rewrite EL in J.
  apply bind_ok in J as (d0 & J & D). injection D as ->.
  assert (HG : ~ In (shown_at k) ["entity_number"; "name"; "position"; "connections"; "direction"; "control_behavior"]) by apply shown_general.
  destruct (chain_value _ _ _ _ (home k) (shown_at k) _ _ _ NB ND (home_key k) ltac:(intros E; apply HG; rewrite E; cbn; auto 9) ltac:(intros E; apply HG; rewrite E; cbn; auto 9) _ _ J) as (u & WU & E).
  assert (IL : In (home k) l).
  { destruct (ON (home k)) as [K|K]; auto; [destruct k; discriminate|]. exfalso. destruct k; cbn in K; intuition discriminate. }
  rewrite E. destruct (in_dec scls_eq_dec (home k) l); [|contradiction]. rewrite (link_shows _ _ _ _ _ _ _ _ Q S (WU IL)).
  destruct v; try reflexivity. cbn [shows]. unfold stem. destruct k, cs; reflexivity.
Qed.

(** ** Control behaviours *)
Lemma assign_cb_eq i k v w e : ent w i = Some e -> assign_cb i k v w = (U i (fst (set_cb_attr (w_protos w) k v e)) w, snd (set_cb_attr (w_protos w) k v e)).
Proof. intros H. unfold assign_cb. rewrite H. destruct (set_cb_attr _ k v e); reflexivity. Qed.
Lemma set_cb_form p k v e : exists c, fst (set_cb_attr p k v e) = with_cb c e.
Proof. unfold set_cb_attr. destruct (e_cb e) as [cb|] eqn:C; [|exists (e_cb e); now destruct e]. destruct (set_cb_at _ _ k v _) as [a r]. cbn [fst]. eauto. Qed.
Lemma p_C58_cb_others i k v w j : j <> i -> snd (ent_json j (fst (assign_cb i k v w))) = snd (ent_json j w).
Proof.
  intros N. destruct (ent w i) as [e|] eqn:He; [|unfold assign_cb; now rewrite He]. rewrite (assign_cb_eq _ _ _ _ _ He). cbn [fst].
  destruct (set_cb_form (w_protos w) k v e) as (a & ->).
  destruct (U_ent_json_other i e (with_cb a e) (mkAlike e (with_cb a e) eq_refl eq_refl) eq_refl w j He N) as (E & _). now rewrite E.
Qed.
Lemma p_C58_cb_none i k v w e : ent w i = Some e -> e_cb e = None -> assign_cb i k v w = (w, Err EAttribute).
Proof. intros He C. rewrite (assign_cb_eq _ _ _ _ _ He). unfold set_cb_attr. rewrite C. cbn [fst snd]. now rewrite U_same. Qed.
Lemma p_C58_cb_refused i k v w x : snd (assign_cb i k v w) = Err x -> fst (assign_cb i k v w) = w.
Proof.
  destruct (ent w i) as [e|] eqn:He; [|unfold assign_cb; now rewrite He]. rewrite (assign_cb_eq _ _ _ _ _ He). cbn [fst snd]. intros H.
  assert (X : fst (set_cb_attr (w_protos w) k v e) = e); [|rewrite X; now apply U_same].
  unfold set_cb_attr in *. destruct (e_cb e) as [cb|] eqn:C; [|reflexivity].
  assert (X : snd (set_cb_at (w_protos w) (cb_cls cb) k v (cb_at cb)) = Err x -> fst (set_cb_at (w_protos w) (cb_cls cb) k v (cb_at cb)) = cb_at cb).
  { unfold set_cb_at. repeat match goal with |- context [if ?b then _ else _] => destruct b end; auto; apply put_keeps. }
  destruct (set_cb_at _ _ k v _) as [a r]. cbn [fst snd] in *. rewrite X by auto. destruct e; cbn in *. rewrite C. now destruct cb.
Qed.
Lemma chain_cb_frame p dir cls cb cb' a t l : ~ In CBaseMixin l -> forall o d d', json_chain p dir cls cb (l ++ CBaseMixin :: t) a o = Ok d ->
  json_chain p dir cls cb' (l ++ CBaseMixin :: t) a o = Ok d' -> forall key, key <> KS "control_behavior" -> dget key d' = dget key d.
Proof.
  induction l as [|c l IH]; intros NB o d d' H H' key N; cbn [app] in *.
  - cbn [json_chain] in *. assert (X : forall cb d, match cb with Some cb => let! d := cb_json p cls cb in Ok (obj_set o "control_behavior" d) | None => Ok o end = Ok d -> dget key d = dget key o).
    { intros [c|] d0 E; [|apply ok_inj in E; now subst]. apply bind_ok in E as (u & _ & E). apply ok_inj in E. subst d0. apply obj_other. now apply key_eqb_neq. }
    rewrite (X _ _ H), (X _ _ H'). reflexivity.
  - rewrite chain_step in * by (intros ->; apply NB; now left). apply bind_ok in H as (o1 & E1 & H). rewrite E1 in H'. cbn [bind] in H'.
    apply (IH (fun I => NB (or_intror I)) o1 d d' H H' key N).
Qed.
Lemma p_C58_cb_frame i k v w d d' : reachable w -> snd (ent_json i w) = Ok (VDict d) -> snd (ent_json i (fst (assign_cb i k v w))) = Ok (VDict d') ->
  forall key, key <> KS "control_behavior" -> dget key d' = dget key d.
Proof.
  intros R J J'. destruct (ent w i) as [e|] eqn:He; [|rewrite ent_json_eq, He in J; discriminate].
  destruct (own_chain _ _ _ R He) as (l & EL & NB & _). rewrite (assign_cb_eq _ _ _ _ _ He) in J'. cbn [fst] in J'.
  destruct (set_cb_form (w_protos w) k v e) as (c & E). rewrite E in J'. clear E.
  rewrite ent_json_eq, (U_ent i e) in J' by exact He. rewrite Nat.eqb_refl in J'. rewrite ent_json_eq, He in J. cbn [e_pos with_cb] in J'. destruct (e_pos e) as [pos|]; [|discriminate].
  destruct (U_connections_json i e (with_cb c e) (mkAlike e (with_cb c e) eq_refl eq_refl) eq_refl w i He) as (E & _). rewrite E in J'. clear E.
  pose proof (protos_connections_json i w) as P. destruct (connections_to_json i w) as [w1 [cs|x]]; cbn [fst snd] in *; [|discriminate].
  rewrite EL in J. cbn [e_dir e_cls e_cb e_at with_cb] in J'. rewrite EL in J'. rewrite U_protos, P in J'. rewrite P in J.
  apply bind_ok in J as (d0 & J & D). injection D as ->. apply bind_ok in J' as (d0' & J' & D). injection D as ->.
  change (stem (with_cb c e) pos cs) with (stem e pos cs) in J'. exact (chain_cb_frame _ _ _ _ _ _ _ _ NB _ _ _ J J').
Qed.

(** one more attribute in one link *)
Lemma dset_idem_same (k : key) (v : val) (d : dict) : dget k (dset k v d) = Some v. Proof. now rewrite dget_dset', key_eqb_refl. Qed.
Lemma concat_dset (f : string) (x : val) : forall (l1 : list dict) (a a' : dict) (l2 : list dict),
  (forall at_, putall a' at_ = dset (KS f) x (putall a at_)) -> (forall at_, dmem (KS f) (putall a at_) = true) ->
  (forall b, In b l2 -> forall y, ~ In (KS f, y) b) -> forall at_ : dict,
  putall (concat (l1 ++ a' :: l2)) at_ = dset (KS f) x (putall (concat (l1 ++ a :: l2)) at_) /\ dmem (KS f) (putall (concat (l1 ++ a :: l2)) at_) = true.
Proof.
  intros l1 a a' l2 E M N at_. rewrite !concat_app, !putall_app. cbn [concat]. rewrite !putall_app, E.
  set (b := putall (concat l1) at_). clearbody b.
  assert (NC : forall y, ~ In (KS f, y) (concat l2)). { intros y I. apply in_concat in I as (u & I1 & I2). exact (N u I1 y I2). }
  split; [symmetry; now apply (putall_swap _ (KS f) x); auto|].
  apply (there_putall [f] (concat l2) (putall a b)); [|now left]. intros g [<-|[]]. apply M.
Qed.
Definition retake (p : protos) (cls : list scls) (c : scls) (f : string) (r : res val) (cb cb' : dict) : Prop :=
  forall a, cats p cls c cb = Ok a -> (forall at_, dmem (KS f) (putall a at_) = true) /\
  match r with Ok x => exists a', cats p cls c cb' = Ok a' /\ forall at_, putall a' at_ = dset (KS f) x (putall a at_) | Err e => cats p cls c cb' = Err e end.
Lemma mapM_app {A B} (g : A -> res B) l1 l2 : mapM g (l1 ++ l2) = let! a := mapM g l1 in let! b := mapM g l2 in Ok (a ++ b).
Proof. induction l1 as [|x l1 IH]; cbn [app]; [cbn; now destruct (mapM g l2)|]. rewrite !mapM_cons, IH. destruct (g x); [|reflexivity]. cbn [bind]. destruct (mapM g l1); [|reflexivity]. cbn [bind]. now destruct (mapM g l2). Qed.
Lemma mids_retake p cls ms c f r cb cb' ats : mapM (fun c => cats p cls c cb) ms = Ok ats -> NoDup (flat_map cattrs ms) -> In c ms -> In f (cattrs c) ->
  (forall c', In c' ms -> c' <> c -> cats p cls c' cb' = cats p cls c' cb) -> NoDup ms -> retake p cls c f r cb cb' ->
  match r with
  | Ok x => exists ats', mapM (fun c => cats p cls c cb') ms = Ok ats' /\ forall at_, putall (concat ats') at_ = dset (KS f) x (putall (concat ats) at_) /\ dmem (KS f) (putall (concat ats) at_) = true
  | Err e => mapM (fun c => cats p cls c cb') ms = Err e
  end.
Proof.
  intros HM ND IC IF OT NDm RT. apply in_split in IC as (m1 & m2 & ->).
  rewrite mapM_app in HM. apply bind_ok in HM as (a1 & M1 & HM). apply bind_ok in HM as (a2' & HM & E). apply ok_inj in E. subst ats. rewrite mapM_cons in HM.
  apply bind_ok in HM as (a & HA & HM). apply bind_ok in HM as (a2 & M2 & E). apply ok_inj in E. subst a2'.
  pose proof (NoDup_remove_2 _ _ _ NDm) as NI.
  assert (M1' : mapM (fun c => cats p cls c cb') m1 = Ok a1).
  { rewrite <- M1. apply mapM_ext. intros c' I. apply OT; [apply in_or_app; auto|]. intros ->. apply NI, in_or_app. auto. }
  assert (M2' : mapM (fun c => cats p cls c cb') m2 = Ok a2).
  { rewrite <- M2. apply mapM_ext. intros c' I. apply OT; [apply in_or_app; right; now right|]. intros ->. apply NI, in_or_app. auto. }
  destruct (RT a HA) as (MEM & RR). destruct r as [x|e].
  - destruct RR as (a' & CA & PA). exists (a1 ++ a' :: a2). rewrite mapM_app, M1'. cbn [bind]. rewrite mapM_cons, CA, M2'. split; [reflexivity|].
    intros at_. apply concat_dset; auto. intros b IB y IY.
    rewrite flat_map_app in ND. apply NoDup_app_l in ND as (_ & ND & _). cbn [flat_map] in ND. apply NoDup_app_l in ND as (_ & _ & DJ).
    apply mapM_F2 in M2. assert (X : exists c', In c' m2 /\ cats p cls c' cb = Ok b).
    { clear - M2 IB. induction M2; [contradiction|]. destruct IB as [->|IB]; [exists x; cbn; auto|]. destruct (IHM2 IB) as (c' & ? & ?). exists c'. cbn. auto. }
    destruct X as (c' & I' & H'). destruct (proj2 (cats_attrs _ _ _ _ _ H') _ _ IY) as (s & [= <-] & IS). apply (DJ f IF). apply in_flat_map. eauto.
  - rewrite mapM_app, M1'. cbn [bind]. rewrite mapM_cons, RR. reflexivity.
Qed.
Lemma retake_key p cls c k v cb : In k (ckeys c) -> ~ In k objects -> retake p cls c k (if str_mem k all_signals then signal_set p v else Ok v) cb (dset (KS k) v cb).
Proof.
  intros I N a H. unfold cats in *. destruct c; cbn [ckeys In] in I; try contradiction;
    repeat (destruct I as [<-|I]; [|]); try contradiction; try (exfalso; apply N; cbn; tauto);
    cbn [cb_simple] in *; unfold ckw, cconsume in *; cbn [k_kw k_args k_at k_mut] in *;
    rewrite ?dget_dset'; cbn [key_eqb String.eqb Ascii.eqb Bool.eqb odflt];
    match goal with |- context [str_mem ?s all_signals] => let b := eval vm_compute in (str_mem s all_signals) in change (str_mem s all_signals) with b; cbv iota end;
    go_cb H; apply ok_inj in H; subst a.
  all: unfold putall; cbn [fold_left fst snd dset key_eqb String.eqb Ascii.eqb Bool.eqb]; split; [intros at_; rewrite ?dmem_dset; cbn [key_eqb String.eqb Ascii.eqb Bool.eqb orb]; reflexivity|].
  all: cbn [bind k_at].
  all: try match goal with |- match signal_set ?p ?v with _ => _ end => destruct (signal_set p v) as [?x|?x]; cbn [bind k_at]; try reflexivity end.
  all: eexists; (split; [reflexivity|]); intros at_; cbn [fold_left fst snd k_at dset key_eqb String.eqb Ascii.eqb Bool.eqb].
  all: repeat (rewrite dset_twice; reflexivity) ||
    match goal with |- _ = dset ?k ?v (dset ?j ?u ?d) => rewrite (dset_swap k j u v d); [f_equal| discriminate | rewrite ?dmem_dset; cbn [key_eqb String.eqb Ascii.eqb Bool.eqb orb]; reflexivity] end.
Qed.
Lemma retake_cond p cls g f v cb cc : dget "circuit_condition" cb = Some (VDict cc) -> In (g, f) [("first_signal", "first"); ("second_signal", "second"); ("comparator", "comparator")] ->
  retake p cls CCircuitCondition f (if String.eqb f "comparator" then operator_set decider_ops v else signal_set p v) cb (dset "circuit_condition" (VDict (dset (KS g) v cc)) cb).
Proof.
  intros C I a H. unfold cats in *. cbn [cb_simple] in *; unfold ckw, cconsume in *; cbn [k_kw k_args k_at k_mut] in *. rewrite C in H. rewrite dget_dset', key_eqb_refl. cbn [odflt] in *.
  unfold getdef in *. cbn [bind] in *.
  repeat (destruct I as [[= <- <-]|I]); try contradiction; rewrite !dget_dset'; cbn [key_eqb String.eqb Ascii.eqb Bool.eqb odflt] in *;
    go_cb H; apply ok_inj in H; subst a; cbn [bind].
  all: unfold putall; cbn [fold_left fst snd dset key_eqb String.eqb Ascii.eqb Bool.eqb]; split; [intros at_; rewrite ?dmem_dset; cbn [key_eqb String.eqb Ascii.eqb Bool.eqb orb]; reflexivity|].
  all: try match goal with |- match signal_set ?p ?v with _ => _ end => destruct (signal_set p v) as [?x|?x]; cbn [bind k_at]; try reflexivity end.
  all: try match goal with |- match operator_set ?p ?v with _ => _ end => destruct (operator_set p v) as [?x|?x]; cbn [bind k_at]; try reflexivity end.
  all: eexists; (split; [reflexivity|]); intros at_; cbn [fold_left fst snd k_at dset key_eqb String.eqb Ascii.eqb Bool.eqb].
  all: repeat (rewrite dset_twice; reflexivity) ||
    match goal with |- _ = dset ?k ?v (dset ?j ?u ?d) => rewrite (dset_swap k j u v d); [f_equal| discriminate | rewrite ?dmem_dset; cbn [key_eqb String.eqb Ascii.eqb Bool.eqb orb]; reflexivity] end.
Qed.

Lemma ckeys_names c g : In g (ckeys c) -> g <> "self" /\ g <> "_entity".
Proof. intros K. split; intros ->; destruct c; cbn in K; intuition discriminate. Qed.
Lemma cattrs_names c f : In f (cattrs c) -> f <> "entity".
Proof. intros K ->; destruct c; cbn in K; intuition discriminate. Qed.
Lemma ckeys_condition c : In "circuit_condition" (ckeys c) -> c = CCircuitCondition.
Proof. destruct c; cbn; intuition discriminate. Qed.
Lemma ckeys_objects c k : In k (ckeys c) -> ~ In k objects -> In k (cattrs c).
Proof. destruct c; cbn [ckeys cattrs]; auto. intros [<-|[]] N. exfalso. apply N. cbn. tauto. Qed.
Lemma conditions_attr (g f : string) : In (g, f) [("first_signal", "first"); ("second_signal", "second"); ("comparator", "comparator")] -> In f (cattrs CCircuitCondition).
Proof. cbn. intuition congruence. Qed.
Lemma snodup_cmids ty own cbk : In (ty, (own, cbk)) formats -> special ty = false -> NoDup (cmids ty).
Proof.
  intros I SP. assert (T : forallb (fun f => special (fst f) || (if list_eq_dec scls_eq_dec (nodup scls_eq_dec (cmids (fst f))) (cmids (fst f)) then true else false)) formats = true) by (vm_compute; reflexivity).
  rewrite forallb_forall in T. specialize (T _ I). cbn [fst] in T. rewrite SP in T. cbn [orb] in T. destruct (list_eq_dec scls_eq_dec (nodup scls_eq_dec (cmids ty)) (cmids ty)) as [<-|]; [apply NoDup_nodup|discriminate].
Qed.
(** the constructor of the control behaviour *)
Lemma cb_make_retake p s ty own cbk c f g r cb v a : In (ty, (own, cbk)) formats -> special ty = false \/ ty = "inserter" ->
  cb_make p (VStr s) (cls_of ty) (VDict cb) = Ok a -> In g cbk -> In g (ckeys c) -> In c (cb_chain (cls_of ty)) -> In f (cattrs c) ->
  retake p (statics (cls_of ty)) c f r cb (dset (KS g) v cb) ->
  match r with Ok x => cb_make p (VStr s) (cls_of ty) (VDict (dset (KS g) v cb)) = Ok (dset (KS f) x a) | Err e => cb_make p (VStr s) (cls_of ty) (VDict (dset (KS g) v cb)) = Err e end.
Proof.
  intros I SP H IG KG IC IF RT. destruct (cb_make_ok _ _ _ _ _ H) as (cb0 & [= <-] & A & S & E).
  destruct (ckeys_names _ _ KG) as (SG & EG).
  assert (A' : all_KS (dset (KS g) v cb) = true) by now rewrite all_KS_dset.
  assert (S' : dget "self" (dset (KS g) v cb) = None) by (rewrite dget_dset'; destruct (key_eqb "self" (KS g)) eqn:Q; auto; apply key_eqb_eq in Q; congruence).
  assert (E' : dget "_entity" (dset (KS g) v cb) = None) by (rewrite dget_dset'; destruct (key_eqb "_entity" (KS g)) eqn:Q; auto; apply key_eqb_eq in Q; congruence).
  assert (OT : forall ms, NoDup (flat_map ckeys ms) -> In c ms -> forall c', In c' ms -> c' <> c -> cats p (statics (cls_of ty)) c' (dset (KS g) v cb) = cats p (statics (cls_of ty)) c' cb).
  { intros ms ND Ic c' Ic' N. apply cats_ext. intros k K. rewrite dget_dset'. destruct (key_eqb k (KS g)) eqn:Q; auto. apply key_eqb_eq in Q. injection Q as ->. exfalso.
    clear - ND Ic Ic' N K KG. induction ms as [|m ms IH]; [contradiction|]. cbn [flat_map] in ND. apply NoDup_app_l in ND as (_ & ND & DJ).
    destruct Ic as [->|Ic], Ic' as [->|Ic']; [congruence| | |auto].
    - apply (DJ g KG). apply in_flat_map. eauto.
    - apply (DJ g K). apply in_flat_map. eauto. }
  destruct SP as [SP| ->].
  - destruct (format_cshape _ _ _ I SP) as [CH PL NK NA OWN].
    rewrite (cb_make_plain _ _ _ _ _ _ I SP A S E) in H. rewrite (cb_make_plain _ _ _ _ _ _ I SP A' S' E').
    apply bind_ok in H as (ats & HM & H). destruct (drop_keys (flat_map ckeys (cmids ty)) cb) eqn:DK; [|discriminate]. apply ok_inj in H. subst a.
    rewrite drop_dset, DK by (apply named_In, OWN; exact IG).
    assert (IM : In c (cmids ty)). { rewrite CH in IC. apply in_app_or in IC as [IC|[<-|[]]]; auto. contradiction. }
    pose proof (mids_retake _ _ _ _ _ _ _ _ _ HM NA IM IF (OT _ NK IM) (snodup_cmids _ _ _ I SP) RT) as X. destruct r as [x|e]; [|rewrite X; reflexivity].
    destruct X as (ats' & X & P). rewrite X. cbn [bind]. destruct (P []) as (P1 & P2). rewrite P1. f_equal. symmetry. apply dset_swap; [|exact P2]. intros Q. injection Q as Q. exact (cattrs_names _ _ IF Q).
  - rewrite (cb_make_inserter _ _ _ A S E) in H. rewrite (cb_make_inserter _ _ _ A' S' E'). apply bind_ok in H as (ats & HM & H). apply ok_inj in H. subst a.
    assert (IM : In c [CCircuitCondition; CInserter]).
    { assert (CH : cb_chain (cls_of "inserter") = [CCircuitCondition] ++ CInserter :: [CBaseMixin]) by (vm_compute; reflexivity). rewrite CH in IC. cbn in IC. destruct IC as [<-|[<-|[<-|[]]]]; cbn; auto; contradiction. }
    assert (NK : NoDup (flat_map ckeys [CCircuitCondition; CInserter])) by (apply snodup_ok; reflexivity).
    assert (NA : NoDup (flat_map cattrs [CCircuitCondition; CInserter])) by (apply snodup_ok; reflexivity).
    assert (NM : NoDup [CCircuitCondition; CInserter]) by (repeat constructor; cbn; intuition discriminate).
    pose proof (mids_retake _ _ _ _ _ _ _ _ _ HM NA IM IF (OT _ NK IM) NM RT) as X. destruct r as [x|e]; [|rewrite X; reflexivity].
    destruct X as (ats' & X & P). rewrite X. cbn [bind]. destruct (P []) as (P1 & P2). rewrite P1. reflexivity.
Qed.

Lemma cb_understands ty own cbk g : In (ty, (own, cbk)) formats -> special ty = false \/ ty = "inserter" -> In g cbk -> exists c, In c (cb_chain (cls_of ty)) /\ In g (ckeys c).
Proof.
  intros I [SP| ->] G.
  - destruct (format_cshape _ _ _ I SP) as [CH PL NK NA OWN]. apply OWN in G. apply in_flat_map in G as (c & Ic & K). exists c. split; auto. rewrite CH. apply in_or_app. auto.
  - assert (CH : cb_chain (cls_of "inserter") = [CCircuitCondition; CInserter; CBaseMixin]) by (vm_compute; reflexivity). rewrite CH.
    assert (T : forallb (fun f => negb (String.eqb (fst f) "inserter") || subsetb (snd (snd f)) (flat_map ckeys [CCircuitCondition; CInserter; CBaseMixin])) formats = true) by (vm_compute; reflexivity).
    rewrite forallb_forall in T. specialize (T _ I). cbn [fst snd] in T. rewrite String.eqb_refl in T. cbn [negb orb] in T.
    pose proof (subsetb_ok _ _ T g G) as F. apply in_flat_map in F. exact F.
Qed.
Lemma construct_retake p cust l kw s ty own cbk c f g r cb v e : typed p kw s ty -> dget ty cust = None -> In (ty, (own, cbk)) formats -> special ty = false \/ ty = "inserter" ->
  snd (construct p cust l (dset "control_behavior" (VDict cb) kw)) = Ok e -> In g cbk -> In g (ckeys c) -> In c (cb_chain (cls_of ty)) -> In f (cattrs c) ->
  retake p (statics (cls_of ty)) c f r cb (dset (KS g) v cb) -> exists ch a, e_cb e = Some (mkCb ch a) /\ ch = cb_chain (cls_of ty) /\
  match r with
  | Ok x => snd (construct p cust l (dset "control_behavior" (VDict (dset (KS g) v cb)) kw)) = Ok (with_cb (Some (mkCb ch (dset (KS f) x a))) e)
  | Err y => snd (construct p cust l (dset "control_behavior" (VDict (dset (KS g) v cb)) kw)) = Err y
  end.
Proof.
  intros T CU I SP H IG KG IC IF RT. destruct (construct_cb_ok _ _ _ _ _ _ _ _ _ _ T CU I H) as (a & Ha).
  pose proof (cb_make_retake _ _ _ _ _ _ _ _ _ _ _ _ I SP Ha IG KG IC IF RT) as M.
  rewrite (construct_cb _ _ _ _ _ _ _ _ _ T CU I) in H. rewrite (construct_cb _ _ _ _ _ _ _ _ _ T CU I).
  apply bind_ok in H as (pos & P & H). rewrite P. apply bind_ok in H as (dir & D & H). rewrite D. rewrite Ha in H. cbn [bind] in *. apply bind_ok in H as (ats & AT & H). rewrite AT.
  destruct (drop_keys (flat_map mkeys (mids ty)) (drop_keys entity_keys kw)); [|discriminate]. apply ok_inj in H. subst e.
  exists (cb_chain (cls_of ty)), a. split; [reflexivity|]. split; [reflexivity|]. destruct r as [x|y]; rewrite M; reflexivity.
Qed.
Lemma str_mem_In s l : str_mem s l = true <-> In s l.
Proof. unfold str_mem. rewrite existsb_exists. split; [intros (x & I & E); apply String.eqb_eq in E; now subst|intros I; exists s; split; auto; apply String.eqb_refl]. Qed.
Lemma set_cb_key p l c k v a : In c l -> In k (ckeys c) -> ~ In k objects -> set_cb_at p l k v a = put k (if str_mem k all_signals then signal_set p v else Ok v) a.
Proof.
  intros Ic K N. assert (SIG : In k (cb_signals c) -> str_mem k (flat_map cb_signals l) = true) by (intros Q; apply str_mem_In, in_flat_map; eauto).
  unfold set_cb_at. destruct c; cbn [ckeys In] in K; try contradiction;
    repeat (destruct K as [<-|K]; [|]); try contradiction; try (exfalso; apply N; cbn; tauto); 
    repeat match goal with |- context [str_mem ?s ?t] => match t with flat_map _ l => fail 1 | _ => let b := eval vm_compute in (str_mem s t) in change (str_mem s t) with b; cbv iota end end; try reflexivity;
    cbn [String.eqb Ascii.eqb Bool.eqb]; rewrite SIG by (cbn; tauto); reflexivity.
Qed.
Lemma not_combinator ty own cbk k : In (ty, (own, cbk)) formats -> In k cbk -> ~ In k objects \/ k = "circuit_condition" -> special ty = false \/ ty = "inserter".
Proof.
  intros I K N. destruct (special ty) eqn:SP; auto. destruct (special_cases _ SP) as [->|[->| ->]]; auto; exfalso.
  - assert (T : forallb (fun f => negb (String.eqb (fst f) "arithmetic-combinator") || subsetb (snd (snd f)) ["arithmetic_conditions"]) formats = true) by (vm_compute; reflexivity).
    rewrite forallb_forall in T. specialize (T _ I). cbn [fst snd] in T. rewrite String.eqb_refl in T. cbn [negb orb] in T. destruct (subsetb_ok _ _ T k K) as [<-|[]]. destruct N as [N|N]; [apply N; cbn; auto 7|discriminate].
  - assert (T : forallb (fun f => negb (String.eqb (fst f) "decider-combinator") || subsetb (snd (snd f)) ["decider_conditions"]) formats = true) by (vm_compute; reflexivity).
    rewrite forallb_forall in T. specialize (T _ I). cbn [fst snd] in T. rewrite String.eqb_refl in T. cbn [negb orb] in T. destruct (subsetb_ok _ _ T k K) as [<-|[]]. destruct N as [N|N]; [apply N; cbn; auto 7|discriminate].
Qed.
Lemma p_C58_cb_key p cust l kw s ty own cbk k cb v e : typed p kw s ty -> dget ty cust = None -> In (ty, (own, cbk)) formats -> In k cbk -> ~ In k objects ->
  snd (construct p cust l (dset "control_behavior" (VDict cb) kw)) = Ok e ->
  match snd (construct p cust l (dset "control_behavior" (VDict (dset (KS k) v cb)) kw)) with
  | Ok e' => set_cb_attr p k v e = (e', Ok tt)
  | Err x => snd (set_cb_attr p k v e) = Err x
  end.
Proof.
  intros T CU I K N H. pose proof (not_combinator _ _ _ _ I K (or_introl N)) as SP. destruct (cb_understands _ _ _ _ I SP K) as (c & Ic & Kc).
  pose proof (ckeys_objects _ _ Kc N) as IF.
  destruct (construct_retake _ _ _ _ _ _ _ _ _ _ _ _ _ v _ T CU I SP H K Kc Ic IF (retake_key p (statics (cls_of ty)) c k v cb Kc N)) as (ch & a & CB & CH & X).
  unfold set_cb_attr. rewrite CB. cbn [cb_cls cb_at]. rewrite (set_cb_key p ch c k v a) by (subst ch; auto).
  destruct (if str_mem k all_signals then signal_set p v else Ok v) as [x|y]; rewrite X; reflexivity.
Qed.
Lemma p_C58_cb_condition p cust l kw s ty own cbk g f cb cc v e : typed p kw s ty -> dget ty cust = None -> In (ty, (own, cbk)) formats -> In "circuit_condition" cbk ->
  In (g, f) [("first_signal", "first"); ("second_signal", "second"); ("comparator", "comparator")] -> dget "circuit_condition" cb = Some (VDict cc) ->
  snd (construct p cust l (dset "control_behavior" (VDict cb) kw)) = Ok e ->
  match snd (construct p cust l (dset "control_behavior" (VDict (dset "circuit_condition" (VDict (dset (KS g) v cc)) cb)) kw)) with
  | Ok e' => set_cb_attr p f v e = (e', Ok tt)
  | Err x => snd (set_cb_attr p f v e) = Err x
  end.
Proof.
  intros T CU I K G C H. pose proof (not_combinator _ _ _ _ I K (or_intror eq_refl)) as SP. destruct (cb_understands _ _ _ _ I SP K) as (c & Ic & Kc).
  apply ckeys_condition in Kc as E. subst c. pose proof (conditions_attr _ _ G) as IF.
  destruct (construct_retake _ _ _ _ _ _ _ _ _ _ _ _ _ _ _ T CU I SP H K Kc Ic IF (retake_cond p (statics (cls_of ty)) g f v cb cc C G)) as (ch & a & CB & CH & X).
  unfold set_cb_attr. rewrite CB. cbn [cb_cls cb_at].
  assert (SE : set_cb_at p ch f v a = put f (if String.eqb f "comparator" then operator_set decider_ops v else signal_set p v) a).
  { rewrite <- CH in Ic. assert (HC : has_cls CCircuitCondition ch = true) by now apply has_cls_In.
    assert (SIG : forall q, In q (cb_signals CCircuitCondition) -> str_mem q (flat_map cb_signals ch) = true) by (intros q Q; apply str_mem_In, in_flat_map; eauto).
    unfold set_cb_at. cbn in G. destruct G as [[= <- <-]|[[= <- <-]|[[= <- <-]|[]]]].
    - change (str_mem "first" cb_plain) with false. change (str_mem "first" all_signals) with true. cbn [String.eqb Ascii.eqb Bool.eqb]. rewrite SIG by (cbn; auto). reflexivity.
    - change (str_mem "second" cb_plain) with false. change (str_mem "second" all_signals) with true. cbn [String.eqb Ascii.eqb Bool.eqb]. rewrite SIG by (cbn; auto). reflexivity.
    - change (str_mem "comparator" cb_plain) with false. cbn [String.eqb Ascii.eqb Bool.eqb]. rewrite HC. reflexivity. }
  rewrite SE. destruct (if String.eqb f "comparator" then operator_set decider_ops v else signal_set p v) as [x|y]; rewrite X; reflexivity.
Qed.

(** ** Making, then assigning *)
Section Later.
  Variables (n : nat) (g : entity -> entity).
  Hypothesis g_pos : forall e, e_pos (g e) = e_pos e.
  Hypothesis g_layer : forall e, e_layer (g e) = e_layer e.
  Hypothesis g_auto : forall e z, with_auto z (g e) = g (with_auto z e).
  Hypothesis g_with : forall e z, with_layer z (g e) = g (with_layer z e).
  Definition A (w : world) : world := upd_ent n g w.
  Lemma lupd_lupd {X} (f h : X -> X) : (forall x, f (h x) = h (f x)) -> forall l i j, lupd i f (lupd j h l) = lupd j h (lupd i f l).
  Proof. intros C. induction l as [|x l IH]; intros [|i] [|j]; cbn; auto; [now rewrite C|]. now rewrite IH. Qed.
  Lemma A_ent w j : ent (A w) j = if Nat.eqb n j then option_map g (ent w j) else ent w j.
  Proof. unfold A. rewrite ent_upd. reflexivity. Qed.
  Lemma A_sorted w l : sorted_objs (A w) l = sorted_objs w l.
  Proof.
    unfold sorted_objs. f_equal. apply mapM_ext. intros i _. rewrite A_ent. destruct (Nat.eqb n i); [|reflexivity]. destruct (ent w i) as [e|]; [|reflexivity]. cbn. unfold pos_key. now rewrite g_pos.
  Qed.
  Lemma A_upd w j h : (forall e, h (g e) = g (h e)) -> upd_ent j h (A w) = A (upd_ent j h w).
  Proof. intros C. unfold A, upd_ent. cbn. now rewrite lupd_lupd. Qed.
  Lemma A_reindex l : forall i w, reindex i l (A w) = A (reindex i l w).
  Proof. induction l as [|o l IH]; intros i w; [reflexivity|]. cbn [reindex]. rewrite A_upd by auto. apply IH. Qed.
  Lemma A_sort b w : sort_layer b (A w) = (A (fst (sort_layer b w)), snd (sort_layer b w)).
  Proof.
    unfold sort_layer, mbind, get_bp, gets, modify. change (blu (A w) b) with (blu w b). destruct (blu w b) as [x|]; [|reflexivity]. rewrite A_sorted.
    destruct (sorted_objs w (b_objs x)) as [l|]; [|reflexivity]. cbn [fst snd]. f_equal. change (upd_bp b (b_set_objs l) (A w)) with (A (upd_bp b (b_set_objs l) w)). apply A_reindex.
  Qed.
  Lemma A_add b i w : layer_add b (OEnt i) (A w) = (A (fst (layer_add b (OEnt i) w)), snd (layer_add b (OEnt i) w)).
  Proof.
    unfold layer_add, mbind, get_ent, get_bp, gets, modify. rewrite A_ent. change (blu (A w) b) with (blu w b).
    assert (X : match (if Nat.eqb n i then option_map g (ent w i) else ent w i) with Some e => Some (e_layer e) | None => None end = match ent w i with Some e => Some (e_layer e) | None => None end).
    { destruct (Nat.eqb n i), (ent w i); cbn; auto. now rewrite g_layer. }
    destruct (if Nat.eqb n i then option_map g (ent w i) else ent w i) as [e'|], (ent w i) as [e|]; try discriminate X; [|reflexivity]. injection X as ->.
    destruct (blu w b) as [x|]; [|reflexivity]. destruct (negb _ && negb _); [reflexivity|]. destruct (mem_nat i (b_objs x)); [reflexivity|].
    change (upd_bp b (b_set_objs (b_objs x ++ [i])) (A w)) with (A (upd_bp b (b_set_objs (b_objs x ++ [i])) w)). rewrite A_upd by auto. apply A_sort.
  Qed.
End Later.
Definition same_inside (e e1 : entity) : Prop := e_strict e1 = e_strict e /\ e_cls e1 = e_cls e /\ e_at e1 = e_at e /\ e_cb e1 = e_cb e.
Definition holding p n e (w : world) : Prop := w_protos w = p /\ exists e1, ent w n = Some e1 /\ same_inside e e1.
Lemma holding_upd p n e i f w : (forall x, same_inside x (f x)) -> holding p n e w -> holding p n e (upd_ent i f w).
Proof.
  intros F (P & e1 & H & S1). split; [exact P|]. rewrite ent_upd. destruct (Nat.eqb i n); [|eauto]. rewrite H. exists (f e1). split; [reflexivity|].
  destruct (F e1) as (F1 & F2 & F3 & F4), S1 as (A1 & A2 & A3 & A4). repeat split; congruence.
Qed.
Lemma holding_reindex p n e l : forall i w, holding p n e w -> holding p n e (reindex i l w).
Proof. induction l as [|o l IH]; intros i w H; [exact H|]. cbn [reindex]. apply IH. apply holding_upd; [|exact H]. intros x. repeat split. Qed.
Lemma holding_add p n e b i : keeps (holding p n e) (layer_add b (OEnt i)).
Proof.
  intros w H. unfold layer_add, mbind, get_ent, get_bp, gets, modify. destruct (ent w i); [|exact H]. destruct (blu w b); [|exact H].
  destruct (negb _ && negb _); [exact H|]. destruct (mem_nat _ _); [exact H|]. cbn. unfold sort_layer, mbind, get_bp, gets, modify. destruct (blu _ b); [|apply holding_upd; [repeat split|exact H]].
  destruct (sorted_objs _ _); [|apply holding_upd; [repeat split|exact H]]. cbn. apply holding_reindex. change (holding p n e (upd_ent i (with_layer (Some b)) w)). apply holding_upd; [repeat split|exact H].
Qed.
Lemma new_later n (w : world) g e : n = length (w_ents w) -> new_ent (g e) w = A n g (new_ent e w).
Proof.
  intros ->. unfold A, upd_ent, new_ent. cbn. f_equal. induction (w_ents w) as [|x l IH]; cbn; [reflexivity|]. now rewrite IH.
Qed.
Definition nice (g : entity -> entity) : Prop := (forall e, e_pos (g e) = e_pos e) /\ (forall e, e_layer (g e) = e_layer e) /\
  (forall e z, with_auto z (g e) = g (with_auto z e)) /\ (forall e z, with_layer z (g e) = g (with_layer z e)).
Lemma made_form mk w kw : creating mk -> snd (step (mk kw) w) = Ok tt -> let n := length (w_ents w) in
  exists cust layer e, snd (construct (w_protos w) cust layer kw) = Ok e /\ holding (w_protos w) n e (fst (step (mk kw) w)) /\
  (forall ty : string, uncustomised mk w ty -> dget (KS ty) cust = None) /\
  (forall kw' g, nice g -> snd (construct (w_protos w) cust layer kw') = Ok (g e) -> step (mk kw') w = (A n g (fst (step (mk kw) w)), Ok tt)) /\
  (forall kw' x, snd (construct (w_protos w) cust layer kw') = Err x -> snd (step (mk kw') w) = Err x).
Proof.
  intros C H n.
  assert (HN : forall e, holding (w_protos w) n e (new_ent e w)).
  { intros e. split; [reflexivity|]. exists e. split; [|repeat split]. unfold ent, new_ent. cbn. subst n. rewrite nth_error_app2 by auto. now rewrite Nat.sub_diag. }
  destruct C as [(b & ->)|([b|] & ->)].
  - cbn [step] in *. unfold layer_make, new_entity, mbind, get_bp, gets, ret in *. destruct (blu w b) as [x|] eqn:B; [|discriminate]. cbn [fst snd] in *.
    destruct (snd (construct (w_protos w) (b_custom x) (Some b) kw)) as [e|] eqn:CE; [|discriminate].
    exists (b_custom x), (Some b), e. split; [exact CE|].
    destruct (layer_add b (OEnt (length (w_ents w))) (new_ent e w)) as [w1 [[]|]] eqn:LA; [|discriminate].
    split; [pose proof (holding_add (w_protos w) n e b n (new_ent e w) (HN e)) as K; fold n in LA; rewrite LA in K; exact K|].
    split; [intros ty U; exact (U b x [] (or_introl eq_refl) B)|]. split.
    + intros kw' g (G1 & G2 & G3 & G4) CE'. rewrite CE'. rewrite (new_later n) by reflexivity. fold n. rewrite (A_add n g G1 G2 G3 G4). fold n in LA. rewrite LA. reflexivity.
    + intros kw' y CE'. rewrite CE'. reflexivity.
  - cbn [step] in *. unfold new_entity, mbind, get_bp, gets, ret in *. destruct (blu w b) as [x|] eqn:B; [|discriminate]. cbn [fst snd] in *.
    destruct (snd (construct (w_protos w) (b_custom x) (Some b) kw)) as [e|] eqn:CE; [|discriminate].
    exists (b_custom x), (Some b), e. split; [exact CE|]. split; [apply HN|]. split; [intros ty U; exact (U b x [] (or_intror eq_refl) B)|]. split.
    + intros kw' g _ CE'. rewrite CE'. now rewrite (new_later n) by reflexivity.
    + intros kw' y CE'. rewrite CE'. reflexivity.
  - cbn [step] in *. unfold new_entity, mbind, ret in *. cbn [fst snd] in *.
    destruct (snd (construct (w_protos w) [] None kw)) as [e|] eqn:CE; [|discriminate].
    exists [], None, e. split; [exact CE|]. split; [apply HN|]. split; [reflexivity|]. split.
    + intros kw' g _ CE'. rewrite CE'. now rewrite (new_later n) by reflexivity.
    + intros kw' y CE'. rewrite CE'. reflexivity.
Qed.
Lemma set_attr_inside p k v e e1 : same_inside e e1 -> exists a, set_attr p k v e = (with_at a e, snd (set_attr p k v e)) /\ set_attr p k v e1 = (with_at a e1, snd (set_attr p k v e)).
Proof.
  intros (S1 & S2 & S3 & S4). unfold set_attr. rewrite S1, S2, S3. destruct (set_at p (e_strict e) k v (e_at e)) as [a r].
  assert (W : forall x, with_at (e_at x) x = x) by (now intros []).
  destruct (attr_cls k) as [c|]; [|exists a; auto]. destruct (has_cls c (statics (e_cls e))); [exists a; auto|]. exists (e_at e). rewrite W. replace (with_at (e_at e) e1) with e1 by (rewrite <- S3; symmetry; apply W). destruct k; auto.
Qed.
Lemma p_C58_later mk w kw k c v e : creating mk -> snd (step (mk kw) w) = Ok tt -> let n := length (w_ents w) in let w1 := fst (step (mk kw) w) in
  ent w1 n = Some e -> keyword_of k = Some c -> accepts e c ->
  snd (step (OSetAttr n k v) w1) = snd (step (mk (dset (attr_name k) v kw)) w) /\
  (snd (step (OSetAttr n k v) w1) = Ok tt -> fst (step (OSetAttr n k v) w1) = fst (step (mk (dset (attr_name k) v kw)) w)).
Proof.
  intros C H n w1 He K AC. destruct (made_form mk w kw C H) as (cust & layer & e0 & CE & (P & e1 & H1 & SI) & _ & F1 & F2). fold n w1 in P, H1, F1.
  rewrite He in H1. injection H1 as <-.
  assert (AC0 : accepts e0 c) by (unfold accepts in *; destruct SI as (_ & <- & _); exact AC).
  pose proof (p_C58_constructed _ _ _ _ _ _ _ v CE K AC0) as X. cbn [step]. rewrite (assign_attr_eq _ _ _ _ _ He). cbn [fst snd]. rewrite P.
  destruct (set_attr_inside (w_protos w) k v e0 e SI) as (a & Y1 & Y2).
  destruct (snd (construct (w_protos w) cust layer (dset (attr_name k) v kw))) as [e'|x] eqn:CE'.
  - rewrite X in Y1, Y2. cbn [snd] in Y1, Y2. injection Y1 as ->. rewrite Y2. cbn [fst snd].
    rewrite (F1 _ (with_at a) ltac:(repeat split) CE'). split; [reflexivity|]. intros _. cbn [fst]. unfold U, A.
    clear - He. unfold upd_ent. f_equal. unfold ent in He. revert He. generalize (w_ents w1). clear. induction n as [|n IH]; intros [|x l]; cbn; try discriminate; [now intros [= ->]|]. intros H. now rewrite (IH l H).
  - rewrite (F2 _ _ CE'). rewrite Y2. cbn [snd]. split; [congruence|congruence].
Qed.
Lemma set_cb_inside p k v e e1 : same_inside e e1 -> exists a, set_cb_attr p k v e = (with_cb a e, snd (set_cb_attr p k v e)) /\ set_cb_attr p k v e1 = (with_cb a e1, snd (set_cb_attr p k v e)).
Proof.
  intros (S1 & S2 & S3 & S4). unfold set_cb_attr. rewrite S4. destruct (e_cb e) as [cb|] eqn:C.
  - destruct (set_cb_at p (cb_cls cb) k v (cb_at cb)) as [a r]. eexists. split; reflexivity.
  - exists None. split; [destruct e; cbn in *; now subst|destruct e1; cbn in *; now subst].
Qed.
Lemma later_cb mk w kw kw' k v e : creating mk -> snd (step (mk kw) w) = Ok tt -> let n := length (w_ents w) in let w1 := fst (step (mk kw) w) in
  ent w1 n = Some e ->
  (forall cust layer e, (forall ty : string, uncustomised mk w ty -> dget (KS ty) cust = None) -> snd (construct (w_protos w) cust layer kw) = Ok e ->
    match snd (construct (w_protos w) cust layer kw') with Ok e' => set_cb_attr (w_protos w) k v e = (e', Ok tt) | Err x => snd (set_cb_attr (w_protos w) k v e) = Err x end) ->
  snd (step (OSetCb n k v) w1) = snd (step (mk kw') w) /\
  (snd (step (OSetCb n k v) w1) = Ok tt -> fst (step (OSetCb n k v) w1) = fst (step (mk kw') w)).
Proof.
  intros C H n w1 He K. destruct (made_form mk w kw C H) as (cust & layer & e0 & CE & (P & e1 & H1 & SI) & CU & F1 & F2). fold n w1 in P, H1, F1.
  rewrite He in H1. injection H1 as <-. specialize (K cust layer e0 CU CE). cbn [step]. rewrite (assign_cb_eq _ _ _ _ _ He). cbn [fst snd]. rewrite P.
  destruct (set_cb_inside (w_protos w) k v e0 e SI) as (a & Y1 & Y2).
  destruct (snd (construct (w_protos w) cust layer kw')) as [e'|x] eqn:CE'.
  - rewrite K in Y1, Y2. cbn [snd] in Y1, Y2. injection Y1 as ->. rewrite Y2. cbn [fst snd].
    rewrite (F1 _ (with_cb a) ltac:(repeat split) CE'). split; [reflexivity|]. intros _. cbn [fst]. unfold U, A.
    clear - He. unfold upd_ent. f_equal. unfold ent in He. revert He. generalize (w_ents w1). clear. induction n as [|n IH]; intros [|x l]; cbn; try discriminate; [now intros [= ->]|]. intros H. now rewrite (IH l H).
  - rewrite (F2 _ _ CE'). rewrite Y2. cbn [snd]. split; [congruence|congruence].
Qed.
Lemma p_C58_cb_later mk w kw (s ty : string) own cbk (k : string) cb v e : creating mk -> uncustomised mk w ty -> typed (w_protos w) kw s ty -> In (ty, (own, cbk)) formats -> In k cbk -> ~ In k objects ->
  snd (step (mk (dset "control_behavior" (VDict cb) kw)) w) = Ok tt -> let n := length (w_ents w) in let w1 := fst (step (mk (dset "control_behavior" (VDict cb) kw)) w) in
  ent w1 n = Some e ->
  snd (step (OSetCb n k v) w1) = snd (step (mk (dset "control_behavior" (VDict (dset (KS k) v cb)) kw)) w) /\
  (snd (step (OSetCb n k v) w1) = Ok tt -> fst (step (OSetCb n k v) w1) = fst (step (mk (dset "control_behavior" (VDict (dset (KS k) v cb)) kw)) w)).
Proof.
  intros C U T I K N H n w1 He. apply (later_cb mk w _ _ k v e C H He). intros cust layer e0 CU CE. exact (p_C58_cb_key _ _ _ _ _ _ _ _ _ _ _ _ T (CU ty U) I K N CE).
Qed.
Lemma p_C58_condition_later mk w kw (s ty : string) own cbk (g f : string) cb cc v e : creating mk -> uncustomised mk w ty -> typed (w_protos w) kw s ty -> In (ty, (own, cbk)) formats ->
  In "circuit_condition" cbk -> In (g, f) condition_parts -> dget "circuit_condition" cb = Some (VDict cc) ->
  snd (step (mk (dset "control_behavior" (VDict cb) kw)) w) = Ok tt -> let n := length (w_ents w) in let w1 := fst (step (mk (dset "control_behavior" (VDict cb) kw)) w) in
  ent w1 n = Some e -> let kw' := dset "control_behavior" (VDict (dset "circuit_condition" (VDict (dset (KS g) v cc)) cb)) kw in
  snd (step (OSetCb n f v) w1) = snd (step (mk kw') w) /\ (snd (step (OSetCb n f v) w1) = Ok tt -> fst (step (OSetCb n f v) w1) = fst (step (mk kw') w)).
Proof.
  intros C U T I K G CC H n w1 He kw'. apply (later_cb mk w _ _ f v e C H He). intros cust layer e0 CU CE. exact (p_C58_cb_condition _ _ _ _ _ _ _ _ _ _ _ _ _ _ T (CU ty U) I K G CC CE).
Qed.
