(** * Proofs of C69. *)
From Coq Require Import Lia QArith.
From Verif Require Import Py Num NumFacts Util SpecUtil SpecRound SpecArith Classes Mixins Entity Setters World WorldFacts SpecWorld DictFacts DocProofs SpecEntity SpecAttr ChainFacts EntProofs CbProofs.
From Verif Require RotateProofs RenameProofs SpecDoc SpecWrite SettingProofs AttrProofs BehaviourProofs ValuesProofs.
From Verif Require Import SpecValues SpecSetting SpecBehaviour SpecMake.
Import SpecWrite(doubles(..)).
Local Notation named := DictFacts.named.
Open Scope string_scope. Open Scope Z_scope. Open Scope list_scope.

(** ** Computations and the faults they find *)
Definition guards {A} (F : exn -> Prop) (r : res A) : Prop :=
  (forall x, r = Err x -> x <> EUnmodelled -> F x) /\ (forall a, r = Ok a -> forall x, ~ F x).
Lemma g_ext {A} (F G : exn -> Prop) (r : res A) : (forall x, F x <-> G x) -> guards F r -> guards G r.
Proof. intros E [H K]. split; [intros x R U; now apply E, H|intros a R x X; now apply (K a R x), E]. Qed.
Lemma g_ok {A} (a : A) : guards (fun _ => False) (Ok a).
Proof. split; [discriminate|tauto]. Qed.
Lemma g_err {A} (F : exn -> Prop) y : F y -> guards F (Err y : res A).
Proof. intros H. split; [intros x [= <-]; auto|discriminate]. Qed.
Lemma g_bind {A B} F G (r : res A) (k : A -> res B) : guards F r -> (forall a, r = Ok a -> guards G (k a)) -> guards (fun x => F x \/ G x) (bind r k).
Proof.
  intros [H K] L. destruct r as [a|e]; cbn [bind].
  - destruct (L a eq_refl) as [M N]. split; [auto|]. intros b E x [X|X]; [exact (K a eq_refl x X)|exact (N b E x X)].
  - split; [intros x [= <-] U; left; auto|discriminate].
Qed.
Lemma g_last {A B} F (r : res A) (f : A -> B) : guards F r -> guards F (let! a := r in Ok (f a)).
Proof. intros H. apply (g_ext (fun x => F x \/ False)); [tauto|]. apply g_bind; [exact H|intros; apply g_ok]. Qed.
Lemma g_status {A B} F (r : res A) (q : res B) : (let! _ := r in Ok tt) = (let! _ := q in Ok tt) -> guards F r -> guards F q.
Proof.
  intros E [H K]. destruct r as [a|e], q as [b|e']; cbn [bind] in E; try discriminate.
  - split; [discriminate|intros _ _; exact (K a eq_refl)].
  - injection E as <-. split; [intros x [= <-]; auto|discriminate].
Qed.
Lemma g_desc {A} (P : res A -> Prop) r : SettingProofs.describes P r -> guards (fun x => P (Err x)) r.
Proof. intros [S T]. split; [intros x -> U; apply T; congruence|intros a -> x X; apply S in X; discriminate]. Qed.
Lemma g_if {A B} F G (b : bool) (u : B) (r : res A) : guards F (if b then Ok u else Err EValue) -> guards G r -> guards (fun x => F x \/ G x) (if negb b then Err EValue else r).
Proof. intros H K. replace (if negb b then Err EValue else r) with (let! _ := (if b then Ok u else Err EValue) in r) by now destruct b. apply g_bind; auto. Qed.
Lemma g_bind2 {A B C} F G (r : res A) (k : A -> res B) (h : B -> res C) : guards F (let! a := r in k a) -> (forall b, guards G (h b)) ->
  guards (fun x => F x \/ G x) (let! a := r in let! b := k a in h b).
Proof. intros H K. replace (let! a := r in let! b := k a in h b) with (let! b := (let! a := r in k a) in h b) by now destruct r. apply g_bind; auto. Qed.
Lemma g_mapM {X A} (F : X -> exn -> Prop) (f : X -> res A) l : (forall c, In c l -> guards (F c) (f c)) -> guards (fun x => exists c, In c l /\ F c x) (mapM f l).
Proof.
  induction l as [|c l IH]; intros H; [apply (g_ext (fun _ => False)); [|apply g_ok]; intros x; split; [tauto|now intros (? & [] & _)]|].
  rewrite mapM_cons. apply (g_ext (fun x => F c x \/ exists c, In c l /\ F c x)).
  - intros x. split; [intros [K|(c' & I & K)]; [exists c|exists c']; (split; [cbn; auto|exact K])|intros (c' & [->|I] & K); eauto].
  - apply g_bind; [apply H; now left|]. intros a _. apply g_last, IH. intros c' I. apply H. now right.
Qed.

(** ** Settings *)
Lemma doubles_dget (d : dict) k v : doubles (VDict d) -> dget k d = Some v -> doubles v.
Proof.
  intros D. inversion_clear D as [| | | | | |? F]. induction F as [|[k' v'] d H F IH]; cbn; [discriminate|]. destruct (key_eqb k k'); [now intros [= <-]|exact IH].
Qed.
Lemma set_guard p k v : doubles v -> ~ is_part k -> guards (fun x => setting (p_recipe p) true k v (Err x)) (snd (set_at p true k v [])).
Proof.
  intros D N. destruct (SettingProofs.all_settled p true v k D N) as (y & S & A). apply (g_status _ y); [|now apply g_desc].
  destruct y as [o|x]; [destruct (A []) as [E _]|pose proof (A []) as E]; rewrite E; reflexivity.
Qed.
Lemma attr_unique k k' : ~ is_part k -> ~ is_part k' -> attr_name k = attr_name k' -> k = k'.
Proof. intros N N' E. destruct k, k'; cbn in E; try discriminate; try reflexivity; elim N'; cbn; auto. Qed.
Lemma own_guard {A} p k (o : option val) (r : res A) : ~ is_part k -> (forall v, o = Some v -> doubles v) ->
  attr_name k <> "items" -> attr_name k <> "filters" -> ~ In (attr_name k) ["type"; "infinity_settings"] ->
  snd (set_at p true k VNone []) = Ok tt -> (let! _ := r in Ok tt) = snd (set_at p true k (odflt VNone o) []) ->
  guards (own_fault (p_signal p) (p_recipe p) (attr_name k) o) r.
Proof.
  intros N D I1 I2 I3 Z E. destruct o as [v|]; cbn [own_fault odflt] in *.
  - apply (g_ext (fun x => setting (p_recipe p) true k v (Err x))).
    + intros x. split; [intros H; left; eauto|]. intros [(k' & E' & N' & H)|[[H _]|[H _]]]; [|contradiction|contradiction]. now rewrite (attr_unique k k' N N' (eq_sym E')).
    + apply (g_status _ (snd (set_at p true k v []))); [|apply set_guard; auto]. rewrite E. now destruct (snd (set_at p true k v [])) as [[]|].
  - rewrite Z in E. apply (g_ext (fun _ => False)); [intros x; split; [tauto|now intros [H _]]|]. apply (g_status _ (Ok tt)); [now rewrite E|apply g_ok].
Qed.
Lemma mats_init {F} p s cls c kw : guards F (init_mixin p s cls c (mkIst 0 kw [])) -> guards F (mats p s cls c kw).
Proof. intros H. apply (g_last _ _ i_at) in H. unfold mats. now destruct (init_mixin _ _ _ _ _). Qed.
Definition keys_fault (p : protos) (kw : dict) (ks : list string) (x : exn) : Prop :=
  exists s, In s ks /\ own_fault (p_signal p) (p_recipe p) s (dget (KS s) kw) x.
Lemma put_status s (r : res val) a : (let! _ := r in Ok tt) = snd (put s r a). Proof. now destruct r. Qed.

Lemma all_strings_named ks (d : dict) : (forall k x, In (k, x) d -> exists s, k = KS s /\ In s ks) -> all_KS d = true /\ drop_keys ks d = [].
Proof.
  intros H. split; [apply SettingProofs.all_strings; intros k x I; destruct (H k x I) as (t & -> & _); eauto|].
  destruct (drop_keys ks d) as [|[k x] l] eqn:L; [reflexivity|]. assert (I : In (k, x) (drop_keys ks d)) by (rewrite L; now left).
  rewrite drop_keys_filter in I. apply filter_In in I as [I N]. destruct (H k x I) as (t & -> & J). cbn in N. apply named_In in J. now rewrite J in N.
Qed.
(** ** Filters and items *)
Lemma d_keywords ks v : SettingProofs.describes (keywords ks v)
  (match v with VDict d => if forallb (fun kv => named ks (fst kv)) d then Ok d else Err EType | _ => Err EType end).
Proof.
  apply SettingProofs.d_iff. intros r. destruct v as [| | | | | |d]; try (split; [intros H; inversion H; reflexivity|intros <-; now constructor]).
  destruct (forallb _ d) eqn:F.
  - rewrite forallb_forall in F. assert (K : forall k x, In (k, x) d -> exists s, k = KS s /\ In s ks).
    { intros k x I. specialize (F _ I). cbn in F. unfold named in F. apply existsb_exists in F as (s & J & E). apply key_eqb_eq in E. eauto. }
    split; [|intros <-; now apply kw_ok]. intros H. inversion H as [? ?|? k x I N|? N]; subst; [reflexivity| |now elim (N d)].
    destruct (K _ _ I) as (s & E & J). now elim (N s E).
  - assert (N : exists k x, In (k, x) d /\ forall s, k = KS s -> ~ In s ks).
    { clear r. induction d as [|[k x] d IH]; [discriminate|]. cbn in F. apply andb_false_iff in F as [F|F].
      - exists k, x. split; [now left|]. intros s -> J. apply named_In in J. congruence.
      - destruct (IH F) as (k' & x' & I & N). exists k', x'. split; [now right|exact N]. }
    destruct N as (k & x & I & N). split; [|intros <-; eapply kw_bad; eauto]. intros H. inversion H as [? K|? ? ? ? ?|? ?]; subst; try reflexivity.
    destruct (K _ _ I) as (s & E & J). now elim (N s E).
Qed.
Lemma forall_named ks (d : dict) : forallb (fun kv => named ks (fst kv)) d = match drop_keys ks d with [] => true | _ => false end.
Proof.
  rewrite drop_keys_filter. induction d as [|[k x] d IH]; [reflexivity|]. cbn [forallb filter fst]. destruct (named ks k); cbn [negb andb]; auto.
Qed.
Lemma named_KS ks (d : dict) : forallb (fun kv => named ks (fst kv)) d = true -> all_KS d = true.
Proof.
  intros F. apply SettingProofs.all_strings. intros k x I. rewrite forallb_forall in F. specialize (F _ I). cbn in F. apply existsb_exists in F as (s & _ & E). apply key_eqb_eq in E. eauto.
Qed.
Lemma named_no ks (d : dict) (s : string) : ~ In s ks -> forallb (fun kv => named ks (fst kv)) d = true -> dmem s d = false.
Proof.
  intros N F. unfold dmem. destruct (dget s d) as [v|] eqn:G; [|reflexivity]. rewrite forall_named in F. destruct (drop_keys ks d) eqn:D; [|discriminate].
  assert (X : dget (KS s) d <> None) by congruence. apply (drop_nil _ _ _ D), named_In in X. contradiction.
Qed.
Definition fallowed (c : fcls) := match c with FSignal => ["signal"; "count"; "index"] | FName => ["name"; "index"] end.
Definition fsignal (c : fcls) := match c with FSignal => "signal" | FName => "name" end.
(** the two checks of a filter, in either order *)
Lemma g_both {A B C} F G (r : res A) (q : res B) (t : res C) : guards F r -> guards G q ->
  (forall c, t = Ok c -> exists a b, r = Ok a /\ q = Ok b) -> (forall x, t = Err x -> r = Err x \/ q = Err x) -> guards (fun x => F x \/ G x) t.
Proof.
  intros [H K] [L M] O E. split.
  - intros x T U. destruct (E x T); auto.
  - intros c T x. destruct (O c T) as (a & b & R & Q). intros [X|X]; [now apply (K a R x)|now apply (M b Q x)].
Qed.
Lemma filter_guard p fc v : guards (filter_fault (p_signal p) (fallowed fc) (fsignal fc) v) (filter_new p (Some fc) v).
Proof.
  pose (q := match v with VDict d => signal_set p (dsc d (fsignal fc)) | _ => Ok VNone end).
  apply (g_both _ _ _ q _ (g_desc _ _ (d_keywords (fallowed fc) v))).
  - unfold q. destruct v as [| | | | | |d]; try (apply (g_ext (fun _ => False)); [|apply g_ok]; intros x; split; [tauto|now intros (? & ? & [=] & _)]).
    unfold dsc. destruct (dget (fsignal fc) d) as [n|] eqn:E; cbn [odflt].
    + apply (g_ext (fun x => signal_taken (p_signal p) n (Err x))); [|apply g_desc, BehaviourProofs.d_signal].
      intros x. split; [eauto 6|]. intros (d' & n' & [= <-] & E' & H). rewrite E in E'. now injection E' as <-.
    + apply (g_ext (fun _ => False)); [|apply g_ok]. intros x. split; [tauto|]. intros (d' & n' & [= <-] & E' & H). congruence.
  - intros c T. unfold filter_new in T. destruct v as [| | | | | |d]; try discriminate. cbn [as_kwargs] in T. destruct (all_KS d) eqn:A; [|discriminate]. cbn [bind] in T.
    destruct (dmem "self" d) eqn:S; [discriminate|]. rewrite forall_named. unfold q.
    destruct fc; cbn [fsignal fallowed]; (destruct (signal_set p _) as [s|]; [|discriminate]); cbn [bind] in T.
    + unfold drop_keys. cbn [fold_left]. destruct (ddel "index" (ddel "count" (ddel "signal" d))); [eauto|discriminate].
    + unfold drop_keys. cbn [fold_left]. destruct (ddel "index" (ddel "name" d)); [eauto|discriminate].
  - intros x T. unfold filter_new in T. destruct v as [| | | | | |d]; try (cbn in T; injection T as <-; now left). cbn [as_kwargs] in T. rewrite forall_named.
    destruct (all_KS d) eqn:A.
    2: { injection T as <-. left. rewrite <- forall_named. destruct (forallb _ d) eqn:F; [|reflexivity]. apply named_KS in F. congruence. }
    cbn [bind] in T. destruct (dmem "self" d) eqn:S.
    + injection T as <-. left. rewrite <- forall_named. destruct (forallb _ d) eqn:F; [|reflexivity]. apply (named_no _ _ "self") in F; [congruence|]. destruct fc; cbn; intuition discriminate.
    + unfold q. destruct fc; cbn [fsignal fallowed]; (destruct (signal_set p _) as [s|y]; [|right; exact T]); cbn [bind] in T; unfold drop_keys; cbn [fold_left].
      * destruct (ddel "index" (ddel "count" (ddel "signal" d))); [discriminate|]. injection T as <-. now left.
      * destruct (ddel "index" (ddel "name" d)); [discriminate|]. injection T as <-. now left.
Qed.
Lemma filters_guard p fc (E : val -> res (list val) -> Prop) v (it : res (list val)) : SettingProofs.describes (E v) it ->
  guards (filters_fault E (p_signal p) (fallowed fc) (fsignal fc) v) (let! l := it in mapM (filter_new p (Some fc)) l).
Proof.
  intros D. apply (g_ext (fun x => E v (Err x) \/ exists l, E v (Ok l) /\ exists f, In f l /\ filter_fault (p_signal p) (fallowed fc) (fsignal fc) f x)).
  { intros x. unfold filters_fault. split; (intros [H|H]; [now left|right]); [destruct H as (l & L & f & K)|destruct H as (l & f & L & K)]; eauto 6. }
  apply g_bind; [now apply g_desc|]. intros l R. apply (g_ext (fun x => exists f, In f l /\ filter_fault (p_signal p) (fallowed fc) (fsignal fc) f x)).
  - intros x. assert (O : E v (Ok l)) by (destruct D as [_ D]; rewrite R in D; apply D; discriminate).
    split; [eauto|]. intros (l' & H & f & K). destruct D as [D _]. apply D in H. rewrite R in H. injection H as <-. eauto.
  - apply g_mapM. intros f _. apply filter_guard.
Qed.
Lemma items_guard p v : guards (items_fault (p_signal p) v) (match v with VDict d => let! _ := items_check p d in Ok d | _ => Err EAttribute end).
Proof.
  destruct v as [| | | | | |d]; try (apply g_err; left; split; [discriminate|reflexivity]). apply g_last.
  apply (g_ext (fun x => exists k n, In (k, n) d /\ signal_taken (p_signal p) (key_value k) (Err x))).
  { intros x. unfold items_fault. split; [intros (k & n & H); right; eauto 6|]. intros [[H _]|(d' & k & n & [= <-] & H)]; [now elim (H d)|eauto]. }
  induction d as [|[k n] d IH]; cbn [items_check].
  - apply (g_ext (fun _ => False)); [|apply g_ok]. intros x. split; [tauto|now intros (? & ? & [] & _)].
  - apply (g_ext (fun x => signal_taken (p_signal p) (key_value k) (Err x) \/ exists k n, In (k, n) d /\ signal_taken (p_signal p) (key_value k) (Err x))).
    + intros x. split; [intros [H|(k' & n' & I & H)]; [exists k, n|exists k', n']; (split; [cbn; auto|exact H])|].
      intros (k' & n' & I & H). destruct I as [I|I]; [injection I as -> ->; now left|right; eauto].
    + replace (val_of_key k) with (key_value k) by now destruct k. apply g_bind; [apply g_desc, BehaviourProofs.d_signal|auto].
Qed.

(** ** The links *)
Ltac sets D := intros ? ?; eapply doubles_dget; [exact D|eassumption].
Lemma fill_status {A} (r : dict * res unit) (f : dict -> A) : (let! _ := (let! d := match r with (d, Ok _) => Ok d | (_, Err x) => Err x end in Ok (f d)) in Ok tt) = snd r.
Proof. now destruct r as [d [[]|]]. Qed.
Lemma link_guard p cls c kw : c <> CVariation -> (c = CFilterInserter -> filter_cls cls = Some FName) -> doubles (VDict kw) ->
  guards (keys_fault p kw (mkeys c)) (mats p true cls c kw).
Proof.
  intros NV FC D.
  assert (N0 : forall (A : Type) (a : A), guards (keys_fault p kw []) (Ok a)) by (intros; apply (g_ext (fun _ => False)); [intros x; split; [tauto|now intros (? & [] & _)]|apply g_ok]).
  assert (E1 : forall a F (X : Type) (r : res X), guards (own_fault (p_signal p) (p_recipe p) a (dget (KS a) kw)) r -> F = [a] -> guards (keys_fault p kw F) r).
  { intros a F X r H ->. revert H. apply g_ext. intros x. split; [intros H; exists a; cbn; auto|now intros (s & [->|[]] & H)]. }
  assert (E2 : forall a b F (X : Type) (r : res X), guards (fun x => own_fault (p_signal p) (p_recipe p) a (dget (KS a) kw) x \/ own_fault (p_signal p) (p_recipe p) b (dget (KS b) kw) x) r ->
     F = [a; b] \/ F = [b; a] -> guards (keys_fault p kw F) r).
  { intros a b F X r H G. revert H. apply g_ext. intros x. unfold keys_fault. destruct G; subst F; (split; [intros [H|H]; eexists; (split; [|exact H]); cbn; auto|intros (s & [->|[->|[]]] & H); auto]). }
  assert (E3 : forall a b c F (X : Type) (r : res X), guards (fun x => own_fault (p_signal p) (p_recipe p) a (dget (KS a) kw) x \/ own_fault (p_signal p) (p_recipe p) b (dget (KS b) kw) x \/
     own_fault (p_signal p) (p_recipe p) c (dget (KS c) kw) x) r -> (forall s, In s F <-> In s [a; b; c]) -> guards (keys_fault p kw F) r).
  { intros a b c' F X r H G. revert H. apply g_ext. intros x. unfold keys_fault. split; [intros [H|[H|H]]; eexists; (split; [|exact H]); apply G; cbn; auto|].
    intros (s & I & H). apply G in I as [<-|[<-|[<-|[]]]]; auto. }
  assert (OG : forall (X : Type) k (r : res X), ~ is_part k -> attr_name k <> "items" -> attr_name k <> "filters" -> ~ In (attr_name k) ["type"; "infinity_settings"] ->
     snd (set_at p true k VNone []) = Ok tt -> (let! _ := r in Ok tt) = snd (set_at p true k (odflt VNone (dget (KS (attr_name k)) kw)) []) ->
     guards (own_fault (p_signal p) (p_recipe p) (attr_name k) (dget (KS (attr_name k)) kw)) r).
  { intros X k r H1 H2 H3 H4 H5 H6. apply own_guard; auto. intros v E. eapply doubles_dget; eauto. }
  apply mats_init. destruct c; try (apply N0); cbn [init_mixin mkeys]; unfold kwv; cbn [i_kw i_at i_args]; try congruence.
  Local Ltac side := first [reflexivity | now cbn | cbn; intuition discriminate | now cbn; destruct (odflt _ _)].
  - (* items *)
    apply (E1 "items"); [|reflexivity]. destruct (dget (KS "items") kw) as [v|] eqn:E; cbn [odflt own_fault].
    + apply (g_ext (items_fault (p_signal p) v)).
      * intros x. split; [intros H; right; left; auto|]. intros [(k & K & _)|[[_ H]|[H _]]]; [destruct k; discriminate|exact H|discriminate].
      * apply (g_status _ _ _) with (2 := items_guard p v). destruct v; try reflexivity. now destruct (items_check p d).
    + apply (g_ext (fun _ => False)); [|apply g_ok]. intros x. split; [tauto|]. cbn. intuition discriminate.
  - apply (E1 "orientation"); [|reflexivity]. apply g_last. apply (OG _ AOrientation); try side. apply put_status.
  - apply (E1 "inventory"); [|reflexivity]. apply (OG _ AInventory); try side. cbn [set_at attr_name]. unfold inventory_set.
    destruct (odflt VNone (dget "inventory" kw)) as [| | | | | |d]; try reflexivity. cbn [getdef bind].
    destruct (iter_val _) as [l|]; [|reflexivity]. cbn [bind]. rewrite AttrProofs.cargo_fill. now destruct (fill cargo_entry l []) as [d' [[]|]].
  - apply (E1 "color"); [|reflexivity]. apply g_last. apply (OG _ AColor); try side. apply put_status.
  - apply (E1 "bar"); [|reflexivity]. apply g_last. apply (OG _ ABar); try side. apply put_status.
  - apply (E3 "override_stack_size" "pickup_position" "drop_position"); [|intros s; cbn; intuition]. apply g_bind; [apply (OG _ AOverride); try side; apply put_status|]. intros ? _.
    apply g_bind; [apply (OG _ APickup); try side; apply put_status|]. intros ? _. apply g_last. apply (OG _ ADrop); try side; apply put_status.
  - (* filters *)
    apply (E2 "filters" "filter_mode"); [|auto]. rewrite (FC eq_refl).
    apply g_bind2.
    + destruct (dget (KS "filters") kw) as [v|] eqn:E; cbn [odflt].
      * apply (g_ext (filters_fault elements_or_none (p_signal p) ["name"; "index"] "name" v)).
        2: { pose proof (filters_guard p FName _ _ _ (SettingProofs.d_elements_or v)) as G. cbn [fallowed fsignal] in G. unfold AttrProofs.entries in G. destruct v; exact G. }
        intros x. split; [intros H; right; right; auto|]. intros [(k & K & _)|[[H _]|[_ H]]]; [destruct k; discriminate|discriminate|exact H].
      * apply (g_ext (fun _ => False)); [|apply g_ok]. intros x. split; [tauto|]. cbn. intuition discriminate.
    + intros fs. apply (OG _ AFilterMode); try side. cbn [set_at attr_name]. now destruct (is_none _ || str_in _ _).
  - (* infinity *)
    apply (E1 "infinity_settings"); [|reflexivity]. destruct (dget (KS "infinity_settings") kw) as [v|] eqn:E; cbn [odflt].
    + apply (g_ext (fun x => setting (p_recipe p) true AInfinity v (Err x))).
      * intros x. split; [intros H; left; exists AInfinity; repeat split; cbn; intuition discriminate|]. intros [(k & K & N & H)|[[H _]|[H _]]]; try discriminate.
        assert (k = AInfinity) as -> by (apply attr_unique; cbn; auto; intuition discriminate). exact H.
      * apply (g_status _ (snd (set_at p true AInfinity v []))); [|apply set_guard; [eapply doubles_dget; eauto|cbn; intuition discriminate]].
        cbn [set_at]. destruct (getitem v "remove_unfiltered_items") as [r|]; [|reflexivity]. destruct (getitem v "filters") as [fs|]; [|reflexivity]. cbn [bind]. unfold fill_attr.
        destruct (match fs with VNone => Ok [] | _ => iter_val fs end) as [l|]; [|reflexivity]. cbn [bind]. rewrite AttrProofs.infinity_fill. now destruct (fill infinity_entry l []) as [d' [[]|]].
    + cbn. apply g_err. cbn. auto.
  - apply (E1 "recipe"); [|reflexivity]. apply g_last. apply (OG _ ARecipe); try side. apply put_status.
  - apply (E2 "request_from_buffers" "request_filters"); [|auto].
    apply (g_ext (fun x => False \/ own_fault (p_signal p) (p_recipe p) "request_filters" (dget (KS "request_filters") kw) x)).
    { intros x. split; [tauto|]. intros [H|H]; [|tauto]. exfalso. unfold own_fault in H. destruct (dget (KS "request_from_buffers") kw) as [v|]; [|cbn in H; intuition discriminate].
      destruct H as [(k & K & N & H)|[[H _]|[H _]]]; try discriminate. assert (k = AFromBuffers) as -> by (apply attr_unique; cbn; auto; intuition discriminate). cbn in H.
      destruct H as [[_ H]|[_ H]]; discriminate. }
    apply (g_ext (own_fault (p_signal p) (p_recipe p) "request_filters" (dget (KS "request_filters") kw))); [tauto|].
    apply (OG _ ARequests); try side. cbn [set_at attr_name]. unfold fill_attr. generalize (odflt VNone (dget "request_filters" kw)). intros v.
    replace (match v with VNone => Ok [] | VBool b => iter_val (VBool b) | VInt z => iter_val (VInt z) | VFlt f => iter_val (VFlt f) | VStr t => iter_val (VStr t) | VList l => iter_val (VList l) | VDict d => iter_val (VDict d) end)
      with (AttrProofs.entries v) by (destruct v; reflexivity).
    change (match v with VNone => Ok [] | _ => iter_val v end) with (AttrProofs.entries v). destruct (AttrProofs.entries v) as [l|]; [|reflexivity]. cbn [bind]. rewrite AttrProofs.request_fill. now destruct (fill request_entry l []) as [d' [[]|]].
  - apply (E1 "auto_launch"); [|reflexivity]. apply (OG _ AAutoLaunch); try side. cbn [set_at attr_name]. now destruct (bool_like _).
  - apply (E2 "parameters" "alert_parameters"); [|auto]. apply g_bind; [apply (OG _ AParameters); try side; apply put_status|]. intros ? _. apply g_last. apply (OG _ AAlert); try side; apply put_status.
  - apply (E3 "input_priority" "output_priority" "filter"); [|intros s; cbn; intuition].
    apply (g_if _ _ _ tt); [apply (OG _ AInputPriority); try side; cbn [set_at attr_name]; now destruct (side_ok _)|].
    apply (g_if _ _ _ tt); [apply (OG _ AOutputPriority); try side; cbn [set_at attr_name]; now destruct (side_ok _)|].
    apply g_last. apply (OG _ AFilter); try side; apply put_status.
  - apply (E1 "station"); [|reflexivity]. apply (OG _ AStation); try side.
  - (* type *)
    apply (E1 "type"); [|reflexivity]. destruct (dget (KS "type") kw) as [v|] eqn:E; cbn [odflt].
    + apply (g_ext (fun x => setting (p_recipe p) true AType v (Err x))).
      * intros x. split; [intros H; left; exists AType; repeat split; cbn; intuition discriminate|]. intros [(k & K & N & H)|[[H _]|[H _]]]; try discriminate.
        assert (k = AType) as -> by (apply attr_unique; cbn; auto; intuition discriminate). exact H.
      * apply (g_status _ (snd (set_at p true AType v []))); [|apply set_guard; [eapply doubles_dget; eauto|cbn; intuition discriminate]].
        cbn [set_at]. now destruct (str_in v _).
    + apply g_err. cbn. auto.
Qed.
(** ** Control behaviours *)
Definition slot (p : protos) (kw : dict) (s : string) (x : exn) : Prop := exists n, dget (KS s) kw = Some n /\ key_fault (p_signal p) s n x.
Definition slots (p : protos) (kw : dict) (ks : list string) (x : exn) : Prop := exists s, In s ks /\ slot p kw s x.
Definition keyed : list string := signal_keys ++ ["circuit_condition"; "filters"; "circuit_parameters"].
Lemma slot_keyed p kw s x : slot p kw s x -> In s keyed.
Proof. intros (n & _ & [[H _]|[[-> _]|[[-> _]|[-> _]]]]); apply in_or_app; cbn [In]; auto 6. Qed.
Lemma sl_ok {A} p kw (a : A) : guards (slots p kw []) (Ok a).
Proof. apply (g_ext (fun _ => False)); [|apply g_ok]. intros x. split; [tauto|now intros (? & [] & _)]. Qed.
Lemma sl_bind {A B} p kw s ks (r : res A) (k : A -> res B) : guards (slot p kw s) r -> (forall a, r = Ok a -> guards (slots p kw ks) (k a)) -> guards (slots p kw (s :: ks)) (bind r k).
Proof.
  intros H K. apply (g_ext (fun x => slot p kw s x \/ slots p kw ks x)); [|now apply g_bind]. intros x. unfold slots.
  split; [intros [X|(c & I & X)]; [exists s|exists c]; (split; [cbn; auto|exact X])|]. intros (c & I & X). destruct I as [<-|I]; eauto.
Qed.
Lemma sl_ext {A} p kw ks ks' (r : res A) : forallb (fun s => str_mem s ks || negb (str_mem s keyed)) ks' && forallb (fun s => str_mem s ks') ks = true ->
  guards (slots p kw ks) r -> guards (slots p kw ks') r.
Proof.
  assert (M : forall s l, str_mem s l = true <-> In s l).
  { intros s l. unfold str_mem. rewrite existsb_exists. split; [intros (y & I & E); apply String.eqb_eq in E; now subst|]. intros I. exists s. split; [exact I|apply String.eqb_refl]. }
  intros H. apply andb_prop in H as [H K]. rewrite forallb_forall in H, K. apply g_ext. intros x. split; intros (s & I & X); exists s; (split; [|exact X]).
  - now apply M, K.
  - specialize (H s I). apply orb_prop in H as [H|H]; [now apply M|]. apply slot_keyed, M in X. rewrite X in H. discriminate.
Qed.
Lemma sl_signal p kw s : In s signal_keys -> guards (slot p kw s) (signal_set p (odflt VNone (dget (KS s) kw))).
Proof.
  intros I. unfold slot. destruct (dget (KS s) kw) as [v|]; cbn [odflt].
  - apply (g_ext (fun x => signal_taken (p_signal p) v (Err x))); [|apply g_desc, BehaviourProofs.d_signal].
    intros x. split; [intros H; exists v; split; [reflexivity|left; auto]|]. intros (n & [= <-] & [[_ H]|[[-> _]|[[-> _]|[-> _]]]]); [exact H| | |]; exfalso; cbn in I; intuition discriminate.
  - apply (g_ext (fun _ => False)); [|apply g_ok]. intros x. split; [tauto|now intros (? & [=] & _)].
Qed.
Lemma sl_given {A} p kw (s : string) (F : val -> exn -> Prop) (r : res A) : (forall v x, key_fault (p_signal p) s v x <-> F v x) ->
  (forall v, dget (KS s) kw = Some v -> guards (F v) r) -> (dget (KS s) kw = None -> exists a, r = Ok a) -> guards (slot p kw s) r.
Proof.
  intros E G N. unfold slot. destruct (dget (KS s) kw) as [v|].
  - apply (g_ext (F v)); [|now apply G]. intros x. split; [intros H; exists v; split; [reflexivity|now apply E]|]. intros (n & [= <-] & H). now apply E.
  - destruct (N eq_refl) as [a ->]. apply (g_ext (fun _ => False)); [|apply g_ok]. intros x. split; [tauto|now intros (? & [=] & _)].
Qed.
Lemma dflt_signal p kw (s : string) : guards (fun x => exists n, dget (KS s) kw = Some n /\ signal_taken (p_signal p) n (Err x)) (signal_set p (odflt VNone (dget (KS s) kw))).
Proof.
  destruct (dget (KS s) kw) as [v|]; cbn [odflt].
  - apply (g_ext (fun x => signal_taken (p_signal p) v (Err x))); [|apply g_desc, BehaviourProofs.d_signal]. intros x. split; [eauto|now intros (n & [= <-] & H)].
  - apply (g_ext (fun _ => False)); [|apply g_ok]. intros x. split; [tauto|now intros (? & [=] & _)].
Qed.
Lemma condition_guard {A} p v (h : val -> val -> val -> A) : guards (condition_fault (p_signal p) v)
  (let! f := getdef v "first_signal" VNone in let! f := signal_set p f in let! k := getdef v "constant" VNone in let! s := getdef v "second_signal" k in
   let! s := signal_set p s in let! m := getdef v "comparator" VNone in let! m := operator_set decider_ops m in Ok (h f s m)).
Proof.
  destruct v as [| | | | | |d]; try (apply g_err; left; split; [discriminate|reflexivity]). cbn [getdef bind].
  apply (g_ext (fun x => (exists n, dget (KS "first_signal") d = Some n /\ signal_taken (p_signal p) n (Err x)) \/
     (exists n, (dget (KS "second_signal") d = Some n \/ dget (KS "second_signal") d = None /\ dget (KS "constant") d = Some n) /\ signal_taken (p_signal p) n (Err x)) \/
     (exists n, dget (KS "comparator") d = Some n /\ taken (p_signal p) KComparator n (Err x)))).
  { intros x. unfold condition_fault. split.
    - intros [(n & H)|[(n & [H|H] & K)|(n & H)]]; right; exists d, n; (split; [reflexivity|]); destruct H; auto 8.
    - intros [[N _]|(d' & n & [= <-] & [H|[[H K]|[(H & H' & K)|H]]])]; [now elim (N d)| | | |]; eauto 8. }
  apply g_bind; [apply dflt_signal|]. intros f _. apply g_bind.
  - destruct (dget (KS "second_signal") d) as [v|]; cbn [odflt].
    + apply (g_ext (fun x => signal_taken (p_signal p) v (Err x))); [|apply g_desc, BehaviourProofs.d_signal]. intros x. split; [eauto 6|]. intros (n & Q & H). destruct Q as [Q|[Q _]]; [now injection Q as <-|discriminate].
    + apply (g_ext (fun x => exists n, dget (KS "constant") d = Some n /\ signal_taken (p_signal p) n (Err x))); [|apply dflt_signal].
      intros x. split; [intros (n & H & K); eauto 6|]. intros (n & Q & K). destruct Q as [Q|[_ Q]]; [discriminate|eauto].
  - intros s _. apply g_last. destruct (dget (KS "comparator") d) as [v|]; cbn [odflt].
    + apply (g_ext (fun x => taken (p_signal p) KComparator v (Err x))); [|exact (g_desc _ _ (BehaviourProofs.d_taken p KComparator v))]. intros x. split; [eauto|now intros (n & [= <-] & H)].
    + apply (g_ext (fun _ => False)); [|apply g_ok]. intros x. split; [tauto|now intros (? & [=] & _)].
Qed.
Lemma parameters_guard v : guards (fun x => keywords ["instrument_id"; "note_id"; "signal_value_is_pitch"] v (Err x)) (circuit_parameters v).
Proof.
  apply (g_status _ _ _) with (2 := g_desc _ _ (d_keywords ["instrument_id"; "note_id"; "signal_value_is_pitch"] v)). unfold circuit_parameters.
  destruct v as [| | | | | |d]; try reflexivity. cbn [as_kwargs].
  assert (O : ddel "note_id" (ddel "instrument_id" (ddel "signal_value_is_pitch" d)) = drop_keys ["instrument_id"; "note_id"; "signal_value_is_pitch"] d).
  { unfold drop_keys. cbn [fold_left]. rewrite (ddel_comm (KS "signal_value_is_pitch") (KS "note_id")). rewrite (ddel_comm (KS "signal_value_is_pitch") (KS "instrument_id")). reflexivity. }
  destruct (forallb (fun kv => named _ (fst kv)) d) eqn:F.
  - rewrite (named_KS _ _ F). cbn [bind]. rewrite forall_named in F. rewrite O.
    destruct (drop_keys _ d); [reflexivity|discriminate].
  - destruct (all_KS d); [|reflexivity]. cbn [bind]. rewrite forall_named in F. rewrite O. destruct (drop_keys _ d); [discriminate|reflexivity].
Qed.

Lemma cats_simple {F} p cls c kw : guards F (cb_simple p cls c (mkCst 0 kw [] None)) -> guards F (cats p cls c kw).
Proof. intros H. apply (g_last _ _ k_at) in H. unfold cats. now destruct (cb_simple _ _ _ _). Qed.
Lemma behaviour_link p cls c kw : (c = CFilters -> filter_cls cls = Some FSignal) -> guards (slots p kw (ckeys c)) (cats p cls c kw).
Proof.
  intros FC. apply cats_simple. destruct c; try apply sl_ok; cbn [cb_simple ckeys]; unfold ckw; cbn [k_kw];
    try (apply (sl_ext _ _ []); [reflexivity|apply sl_ok]).
  Local Ltac sig := apply sl_bind; [apply sl_signal; cbn; auto 12|intros ? _].
  - sig. apply sl_ok.
  - (* filters *)
    rewrite (FC eq_refl). apply (g_ext (fun x => slot p kw "filters" x \/ False)); [intros x; unfold slots; split; [intros [H|[]]; exists "filters"; cbn; auto|intros (s & [<-|[]] & H); auto]|].
    apply g_bind2; [|intros; apply g_ok]. apply (sl_given _ _ _ (filters_fault elements (p_signal p) ["signal"; "count"; "index"] "signal")).
    + intros v x. split; [intros [[H _]|[[H _]|[[_ H]|[H _]]]]; [cbn in H; intuition discriminate|discriminate|exact H|discriminate]|intros H; right; right; left; auto].
    + intros v ->. exact (filters_guard p FSignal _ _ _ (SettingProofs.d_elements v)).
    + intros ->. cbn. eauto.
  - apply (sl_ext _ _ ["red_output_signal"; "orange_output_signal"; "green_output_signal"]); [reflexivity|]. sig. sig. sig. apply sl_ok.
  - sig. apply sl_ok.
  - (* condition *)
    apply (g_ext (slot p kw "circuit_condition")); [intros x; unfold slots; split; [intros H; exists "circuit_condition"; cbn; auto|intros (s & [<-|[]] & H); auto]|].
    apply (sl_given _ _ _ (fun v x => v <> VNone /\ condition_fault (p_signal p) v x)).
    + intros v x. split; [intros [[H _]|[[_ H]|[[H _]|[H _]]]]; [cbn in H; intuition discriminate|exact H|discriminate|discriminate]|intros H; right; left; auto].
    + intros v ->. cbn [odflt]. pose proof (condition_guard p v (fun f s m => cconsume (mkCst 0 kw [] None) ["circuit_condition"] [(KS "first", f); (KS "second", s); (KS "comparator", m)])) as G.
      destruct v; [apply (g_ext (fun _ => False)); [intros x; tauto|apply g_ok]|..]; (eapply g_ext; [|exact G]; intros x; split; [intros H; split; [discriminate|exact H]|now intros [_ H]]).
    + intros ->. cbn. eauto.
  - apply (sl_ext _ _ ["stack_control_input_signal"]); [reflexivity|]. sig. apply sl_ok.
  - apply (sl_ext _ _ ["available_construction_output_signal"; "total_construction_output_signal"; "available_logistic_output_signal"; "total_logistic_output_signal"]); [reflexivity|].
    sig. sig. sig. sig. apply sl_ok.
  - apply sl_bind; [|intros; apply sl_ok]. apply (sl_given _ _ _ (fun v x => keywords ["instrument_id"; "note_id"; "signal_value_is_pitch"] v (Err x))).
    + intros v x. split; [intros [[H _]|[[H _]|[[H _]|[_ H]]]]; [cbn in H; intuition discriminate|discriminate|discriminate|exact H]|intros H; right; right; right; auto].
    + intros v ->. apply parameters_guard.
    + intros ->. cbn. eauto.
  - apply (sl_ext _ _ ["train_stopped_signal"]); [reflexivity|]. sig. apply sl_ok.
Qed.
(** ** Combinators *)
Lemma In_ddel (j k : key) (v : val) (d : dict) : In (j, v) (ddel k d) <-> In (j, v) d /\ j <> k.
Proof.
  rewrite ddel_filter, filter_In. cbn [fst]. split; intros [I H]; (split; [exact I|]).
  - intros ->. now rewrite key_eqb_refl in H.
  - destruct (key_eqb k j) eqn:E; [apply key_eqb_eq in E; congruence|reflexivity].
Qed.
Definition word (c : scls) : string := match c with CArithmetic => "arithmetic" | _ => "decider" end.
Definition op_of (c : scls) : string := snd (fst (conditions c)).
Definition sides : list string := ["first"; "second"; "output"].
Definition sgn (s : string) : string := (s ++ "_signal")%string.
Notation ck := constant_key.
Definition lone (c : scls) (s : string) (d : dict) : bool := is_none (odflt VNone (dget (KS (ck c s)) d)).
Definition side_val (c : scls) (s : string) (d : dict) : res val :=
  if lone c s d then match odflt VNone (dget (KS (sgn s)) d) with VNone => Ok VNone | g => getitem g "name" end else Ok (odflt VNone (dget (KS (ck c s)) d)).
Definition value_fault (t : dict) (c : scls) (s : string) (d : dict) (x : exn) : Prop :=
  (exists v, dget (KS (ck c s)) d = Some v /\ v <> VNone /\ signal_taken t v (Err x)) \/
  ((dget (KS (ck c s)) d = None \/ dget (KS (ck c s)) d = Some VNone) /\
   exists g, dget (KS (sgn s)) d = Some g /\ g <> VNone /\ (let? n := field g "name" in signal_taken t n) (Err x)).
Definition clash (c : scls) (s : string) (d : dict) : Prop := exists v, dget (KS (ck c s)) d = Some v /\ v <> VNone /\ dget (KS (sgn s)) d <> None.
Lemma side_split t c s d x : side_fault t c s d x <-> value_fault t c s d x \/ (clash c s d /\ x = EType).
Proof.
  unfold side_fault, value_fault, clash. split.
  - intros [(v & H & K & [X|[X Y]])|H]; eauto 8.
  - intros [[(v & H & K & X)|H]|[(v & H & K & X) Y]]; eauto 8.
Qed.
Lemma lone_iff c s d : lone c s d = true <-> (dget (KS (ck c s)) d = None \/ dget (KS (ck c s)) d = Some VNone).
Proof. unfold lone. destruct (dget _ d) as [[]|]; cbn; intuition congruence. Qed.
Lemma value_guard p c s d : guards (value_fault (p_signal p) c s d) (bind (side_val c s d) (signal_set p)).
Proof.
  unfold side_val. destruct (lone c s d) eqn:L.
  - apply lone_iff in L. destruct (dget (KS (sgn s)) d) as [g|] eqn:G; cbn [odflt].
    + destruct (is_none g) eqn:N.
      * destruct g; try discriminate. apply (g_ext (fun _ => False)); [|apply g_ok]. intros x. split; [tauto|]. intros [(v & V & K & _)|(_ & g & H & K & _)]; [destruct L; congruence|rewrite G in H; congruence].
      * apply (g_status _ (bind (getitem g "name") (signal_set p))); [destruct g; try reflexivity; discriminate|].
        apply (g_ext (fun x => (let? n := field g "name" in signal_taken (p_signal p) n) (Err x))).
        -- intros x. split; [intros H; right; split; [exact L|]; exists g; split; [exact G|]; split; [intros ->; discriminate|exact H]|].
           intros [(v & V & K & _)|(_ & g' & H & K & X)]; [destruct L; congruence|]. rewrite G in H. now injection H as <-.
        -- apply g_desc. apply SettingProofs.d_then; [apply SettingProofs.d_field|]. intros n _. apply BehaviourProofs.d_signal.
    + apply (g_ext (fun _ => False)); [|apply g_ok]. intros x. split; [tauto|]. intros [(v & V & K & _)|(_ & g & H & K & _)]; [destruct L; congruence|congruence].
  - cbn [bind]. destruct (dget (KS (ck c s)) d) as [v|] eqn:V; [|unfold lone in L; rewrite V in L; discriminate]. cbn [odflt].
    assert (NV : v <> VNone) by (intros ->; unfold lone in L; rewrite V in L; discriminate).
    apply (g_ext (fun x => signal_taken (p_signal p) v (Err x))); [|apply g_desc, BehaviourProofs.d_signal].
    intros x. split; [intros H; left; exists v; auto|]. intros [(v' & V' & K & X)|([W|W] & _)]; [rewrite V in V'; now injection V' as <-|congruence|congruence].
Qed.
Lemma take_is p c s d : BehaviourProofs.own c -> In s sides ->
  take_signal p (word c) s d = ((if lone c s d then ddel (KS (sgn s)) (ddel (KS (ck c s)) d) else ddel (KS (ck c s)) d), bind (side_val c s d) (signal_set p)).
Proof.
  intros O I. unfold take_signal, get_from, side_val, lone, sgn.
  assert (E : (if String.eqb (word c) "decider" && String.eqb s "first" then "constant" else (s ++ "_constant")%string) = ck c s).
  { destruct O as [->| ->]; cbn in I; destruct I as [<-|[<-|[<-|[]]]]; reflexivity. }
  rewrite E. unfold dpop.
  assert (NE : KS (s ++ "_signal")%string <> KS (ck c s)). { destruct O as [->| ->]; cbn in I; destruct I as [<-|[<-|[<-|[]]]]; cbn; discriminate. }
  destruct (odflt VNone (dget (KS (ck c s)) d)); cbn [is_none]; try reflexivity. rewrite dget_ddel_other by exact NE.
  destruct (odflt VNone (dget (KS (s ++ "_signal")%string) d)); reflexivity.
Qed.

(** the conditions after the sides are taken *)
Lemma take_In p c s d k v : BehaviourProofs.own c -> In s sides ->
  In (k, v) (fst (take_signal p (word c) s d)) <-> In (k, v) d /\ k <> KS (ck c s) /\ (lone c s d = true -> k <> KS (sgn s)).
Proof.
  intros O I. rewrite take_is by auto. cbn [fst]. destruct (lone c s d); rewrite ?In_ddel; intuition congruence.
Qed.
Lemma take_keeps p c s d k : BehaviourProofs.own c -> In s sides -> k <> KS (ck c s) -> k <> KS (sgn s) -> dget k (fst (take_signal p (word c) s d)) = dget k d.
Proof. intros O I N N'. rewrite take_is by auto. cbn [fst]. destruct (lone c s d); rewrite ?dget_ddel_other by congruence; reflexivity. Qed.
Lemma side_ext c s d d' : dget (KS (ck c s)) d' = dget (KS (ck c s)) d -> dget (KS (sgn s)) d' = dget (KS (sgn s)) d -> lone c s d' = lone c s d /\ side_val c s d' = side_val c s d.
Proof. intros E F. unfold side_val, lone. now rewrite E, F. Qed.
Definition chain_of (c : scls) : list scls := [c; CCombinator; CBaseMixin].
Lemma comb_steps p c d : BehaviourProofs.own c -> let d' := fst (comb_take p (chain_of c) (word c) (op_of c) d) in
  (let! _ := snd (comb_take p (chain_of c) (word c) (op_of c) d) in Ok tt) =
    (let! o := match dget (KS (op_of c)) d with None => Err EKey | Some o => BehaviourProofs.stored_part p c POperator o end in
     let! f := bind (side_val c "first" d) (signal_set p) in let! s := bind (side_val c "second" d) (signal_set p) in let! t := bind (side_val c "output" d) (signal_set p) in Ok tt) /\
  forall a, snd (comb_take p (chain_of c) (word c) (op_of c) d) = Ok a -> forall k v, In (k, v) d' <-> In (k, v) d /\ k <> KS (op_of c) /\ forall s, In s sides -> k <> KS (ck c s) /\ (lone c s d = true -> k <> KS (sgn s)).
Proof.
  intros O. cbv zeta. unfold comb_take. destruct (dget (KS (op_of c)) d) as [o|] eqn:EO; [|split; [reflexivity|discriminate]]. set (d0 := ddel (KS (op_of c)) d).
  assert (CO : comb_operator (chain_of c) o = BehaviourProofs.stored_part p c POperator o) by (destruct O as [->| ->]; reflexivity). rewrite CO.
  destruct (BehaviourProofs.stored_part p c POperator o) as [o'|]; [|split; [reflexivity|discriminate]]. cbn [bind].
  assert (X0 : forall s, In s sides -> dget (KS (ck c s)) d0 = dget (KS (ck c s)) d /\ dget (KS (sgn s)) d0 = dget (KS (sgn s)) d).
  { intros s I. unfold d0. rewrite !dget_ddel_other; [auto|..]; destruct O as [->| ->]; destruct I as [<-|[<-|[<-|[]]]]; cbn; discriminate. }
  pose proof (take_In p c "first" d0) as I1. pose proof (take_keeps p c "first" d0) as K1. pose proof (take_is p c "first" d0 O (or_introl eq_refl)) as T1.
  destruct (take_signal p (word c) "first" d0) as [d1 r1]. cbn [fst] in I1, K1. injection T1 as _ ->.
  assert (X1 : forall s, In s ["second"; "output"] -> dget (KS (ck c s)) d1 = dget (KS (ck c s)) d /\ dget (KS (sgn s)) d1 = dget (KS (sgn s)) d).
  { intros s I. destruct (X0 s) as [A B]; [cbn in *; intuition|]. rewrite !K1; auto; try (now left); destruct O as [->| ->]; destruct I as [<-|[<-|[]]]; cbn; discriminate. }
  destruct (side_ext c "first" d d0) as [L1 V1]; [apply X0; cbn; auto|apply X0; cbn; auto|]. rewrite V1. 
  destruct (bind (side_val c "first" d) (signal_set p)) as [v1|]; [|split; [reflexivity|discriminate]]. cbn [bind].
  pose proof (take_In p c "second" d1) as I2. pose proof (take_keeps p c "second" d1) as K2. pose proof (take_is p c "second" d1 O (or_intror (or_introl eq_refl))) as T2.
  destruct (take_signal p (word c) "second" d1) as [d2 r2]. cbn [fst] in I2, K2. injection T2 as _ ->.
  assert (X2 : dget (KS (ck c "output")) d2 = dget (KS (ck c "output")) d /\ dget (KS (sgn "output")) d2 = dget (KS (sgn "output")) d).
  { destruct (X1 "output") as [A B]; [cbn; auto|]. rewrite !K2; auto; try (cbn; now auto); destruct O as [->| ->]; cbn; discriminate. }
  destruct (side_ext c "second" d d1) as [L2 V2]; [apply X1; cbn; auto|apply X1; cbn; auto|]. rewrite V2.
  destruct (bind (side_val c "second" d) (signal_set p)) as [v2|]; [|split; [reflexivity|discriminate]]. cbn [bind].
  pose proof (take_In p c "output" d2) as I3. pose proof (take_is p c "output" d2 O (or_intror (or_intror (or_introl eq_refl)))) as T3.
  destruct (take_signal p (word c) "output" d2) as [d3 r3]. cbn [fst] in I3. injection T3 as _ ->.
  destruct (side_ext c "output" d d2) as [L3 V3]; [apply X2|apply X2|]. rewrite V3.
  destruct (bind (side_val c "output" d) (signal_set p)) as [v3|]; [|split; [reflexivity|discriminate]]. cbn [bind snd fst]. split; [reflexivity|].
  intros a _ k v. rewrite I3, I2, I1, L1, L2, L3 by (cbn; auto). unfold d0. rewrite In_ddel. clear. unfold sides. cbn [In]. split.
  - intros H. split; [tauto|]. split; [tauto|]. intros s [<-|[<-|[<-|[]]]]; tauto.
  - intros (A & B & C). pose proof (C "first"). pose proof (C "second"). pose proof (C "output"). tauto.
Qed.
Lemma In_given (k : key) (v : val) (d : dict) : In (k, v) d -> dget k d <> None.
Proof. induction d as [|[k' v'] d IH]; [contradiction|]. intros I. cbn [dget]. destruct (key_eqb k k') eqn:E; [discriminate|]. destruct I as [I|I]; [injection I as -> ->; rewrite key_eqb_refl in E; discriminate|auto]. Qed.
Definition extra (c : scls) : list string := match c with CDecider => ["copy_count_from_input"] | _ => [] end.
Definition type_of (c : scls) : string := match c with CArithmetic => "arithmetic-combinator" | _ => "decider-combinator" end.
Definition comb_check (p : protos) (c : scls) (o : option val) : res unit :=
  match o with
  | None => Err EKey
  | Some (VDict d) =>
      let '(d', r) := comb_take p (chain_of c) (word c) (op_of c) (drop_keys (extra c) d) in let! _ := r in match d' with [] => Ok tt | _ => Err EType end
  | Some v => Err (no_pop v)
  end.
Lemma comb_keys c s : BehaviourProofs.own c -> In s (op_of c :: map (ck c) sides ++ map sgn sides) -> named (extra c) (KS s) = false.
Proof. intros [->| ->] I; cbn in I; [reflexivity|]. repeat destruct I as [<-|I]; try reflexivity. contradiction. Qed.
Lemma cond_all c s : BehaviourProofs.own c -> In s (cond_keys (type_of c)) <-> In s (op_of c :: map (ck c) sides ++ map sgn sides ++ extra c).
Proof. intros [->| ->]; cbn; intuition. Qed.
Lemma comb_guard p c o : BehaviourProofs.own c -> guards (combinator_fault (p_signal p) c (type_of c) o) (comb_check p c o).
Proof.
  intros O. unfold combinator_fault.
  destruct (conditions c) as [[fd op] ops] eqn:CE. assert (OE : op_of c = op) by (unfold op_of; now rewrite CE).
  destruct o as [v|]; [|apply g_err; reflexivity]. destruct v as [| | | | | |d]; try (apply g_err; reflexivity). cbn [comb_check].
  set (d0 := drop_keys (extra c) d).
  assert (G0 : forall s, In s (op_of c :: map (ck c) sides ++ map sgn sides) -> dget (KS s) d0 = dget (KS s) d).
  { intros s I. unfold d0. now rewrite dget_drop_keys, (comb_keys c s O I). }
  assert (S0 : forall s, In s sides -> dget (KS (ck c s)) d0 = dget (KS (ck c s)) d /\ dget (KS (sgn s)) d0 = dget (KS (sgn s)) d).
  { intros s I. split; apply G0; right; apply in_or_app; [left|right]; now apply in_map. }
  destruct (comb_steps p c d0 O) as [ST LE]. cbv zeta in LE. destruct (comb_take p (chain_of c) (word c) (op_of c) d0) as [d' r]. cbn [fst snd] in *.
  apply (g_ext (fun x => ((dget (KS op) d = None /\ x = EKey \/ exists v, dget (KS op) d = Some v /\ part_taken (p_signal p) c POperator v (Err x)) \/
     value_fault (p_signal p) c "first" d x \/ value_fault (p_signal p) c "second" d x \/ value_fault (p_signal p) c "output" d x) \/
     (((exists s, In s sides /\ clash c s d) \/ exists k v, In (k, v) d /\ forall s, k = KS s -> ~ In s (cond_keys (type_of c))) /\ x = EType))).
  { intros x. split.
    - intros [[[H|H]|H]|[[(s & I & H)|(k & v & I & H)] E]]; [auto|auto| |right; right; left; exists s; split; [exact I|now apply side_split; right]|right; right; right; eauto].
      right. right. left. destruct H as [H|[H|H]]; eexists; (split; [|apply side_split; left; exact H]); cbn; auto.
    - intros [H|[H|[(s & I & H)|(k & v & I & H & E)]]]; [auto|auto| |right; split; eauto].
      apply side_split in H as [H|[H E]]; [|right; split; eauto]. destruct I as [<-|[<-|[<-|[]]]]; auto 8. }
  apply g_bind.
  - apply (g_status _ (let! _ := r in Ok tt)); [now destruct r|]. rewrite ST. apply g_bind.
    + rewrite (G0 (op_of c)) by now left. rewrite OE. destruct (dget (KS op) d) as [v|].
      * apply (g_ext (fun x => part_taken (p_signal p) c POperator v (Err x))); [|apply g_desc, BehaviourProofs.d_part]. intros x. split; [eauto|]. now intros [[? _]|(u & [= <-] & H)].
      * apply g_err. auto.
    + intros ? _. assert (V : forall s, In s sides -> side_val c s d0 = side_val c s d) by (intros s I; apply side_ext; now apply S0). rewrite !V by (cbn; auto).
      apply g_bind; [apply value_guard|]. intros ? _. apply g_bind; [apply value_guard|]. intros ? _. apply g_last, value_guard.
  - intros a R. specialize (LE a R).
    assert (D0 : forall k v, In (k, v) d0 <-> In (k, v) d /\ named (extra c) k = false).
    { intros k v. unfold d0. rewrite drop_keys_filter, filter_In. cbn [fst]. now rewrite Bool.negb_true_iff. }
    assert (LO : forall s, In s sides -> lone c s d0 = lone c s d) by (intros s I; apply side_ext; now apply S0).
    assert (Q : (exists k v, In (k, v) d') <-> ((exists s, In s sides /\ clash c s d) \/ exists k v, In (k, v) d /\ forall s, k = KS s -> ~ In s (cond_keys (type_of c)))).
    { split.
      - intros (k & v & I). apply LE in I as (I & NO & NS). apply D0 in I as [I NX]. destruct (cond_keys_in (type_of c) k) as [(s & -> & J)|J]; [left|eauto 6].
        apply (cond_all c s O) in J. destruct J as [J|J]; [congruence|]. apply in_app_or in J as [J|J]; [apply in_map_iff in J as (s' & <- & J); now elim (proj1 (NS s' J))|].
        apply in_app_or in J as [J|J]; [|apply named_In in J; congruence]. apply in_map_iff in J as (s' & <- & J). exists s'. split; [exact J|]. destruct (NS s' J) as [_ W]. rewrite (LO s' J) in W.
        assert (L : lone c s' d <> true) by (intros L; now apply (W L)). unfold lone in L. unfold clash. destruct (dget (KS (ck c s')) d) as [u|]; [|now elim L]. exists u.
        split; [reflexivity|]. split; [intros ->; now elim L|]. exact (In_given _ _ _ I).
      - intros [(s & I & u & U & NU & SG)|(k & v & I & N)].
        + destruct (dget (KS (sgn s)) d) as [g|] eqn:G; [|congruence]. exists (KS (sgn s)), g. apply LE. split; [|split].
          * apply D0. split; [now apply RenameProofs.dget_in_gen|]. apply comb_keys; [exact O|]. right. apply in_or_app. right. now apply in_map.
          * destruct O as [->| ->]; destruct I as [<-|[<-|[<-|[]]]]; cbn; discriminate.
          * intros s' I'. split; [destruct O as [->| ->]; destruct I as [<-|[<-|[<-|[]]]]; destruct I' as [<-|[<-|[<-|[]]]]; cbn; discriminate|].
            rewrite (LO s' I'). intros L E. assert (s = s') as <- by (destruct I as [<-|[<-|[<-|[]]]]; destruct I' as [<-|[<-|[<-|[]]]]; cbn in E; congruence).
            unfold lone in L. rewrite U in L. destruct u; try discriminate. now elim NU.
        + exists k, v. apply LE. assert (NN : forall s, k = KS s -> ~ In s (op_of c :: map (ck c) sides ++ map sgn sides ++ extra c)) by (intros s E J; apply (N s E); now apply cond_all).
          split; [apply D0; split; [exact I|]|split].
          * destruct (named (extra c) k) eqn:X; [|reflexivity]. unfold named in X. apply existsb_exists in X as (s & J & E). apply key_eqb_eq in E. elim (NN s (eq_sym E)). right. apply in_or_app. right. apply in_or_app. now right.
          * intros E. apply (NN _ E). now left.
          * intros s I'. split; [intros E|intros _ E]; apply (NN _ E); right; apply in_or_app; [left|right; apply in_or_app; left]; now apply in_map. }
    destruct d' as [|[k v] d'].
    + apply (g_ext (fun _ => False)); [|apply g_ok]. intros x. split; [tauto|]. intros [H _]. apply Q in H as (? & ? & []).
    + apply g_err. split; [|reflexivity]. apply Q. exists k, v. now left.
Qed.
(** ** Building a control behaviour *)
Definition not_a_call (v : val) : Prop :=
  (forall d, v <> VDict d) \/ exists d k n, v = VDict d /\ In (k, n) d /\ forall s, k = KS s -> In s ["self"; "_entity"].
Lemma call_cases p n ic v : (exists d, v = VDict d /\ all_KS d = true /\ dget "self" d = None /\ dget "_entity" d = None /\ ~ not_a_call v) \/ (not_a_call v /\ cb_make p n ic v = Err EType).
Proof.
  destruct v as [| | | | | |d]; try (right; split; [left; discriminate|reflexivity]). unfold cb_make. cbn [as_kwargs].
  assert (B : all_KS d = false -> exists k n, In (k, n) d /\ forall s, k = KS s -> In s ["self"; "_entity"]).
  { induction d as [|[[s|z] u] d IH]; cbn; [discriminate| |].
    - intros H. destruct (IH H) as (k & m & I & N). eauto.
    - intros _. exists (KI z), u. split; [now left|discriminate]. }
  destruct (all_KS d) eqn:A; [|right; split; [|reflexivity]; right; destruct (B eq_refl) as (k & m & I & N); eauto 6]. cbn [bind].
  assert (C : forall s : string, In s ["self"; "_entity"] -> dget (KS s) d <> None -> not_a_call (VDict d)).
  { intros s J N. destruct (dget (KS s) d) as [u|] eqn:G; [|congruence]. right. exists d, (KS s), u. split; [reflexivity|]. split; [now apply RenameProofs.dget_in_gen|]. now intros t [= <-]. }
  destruct (dget (KS "self") d) as [u|] eqn:S.
  { right. split; [apply (C "self"); cbn; auto; congruence|]. unfold dmem. now rewrite S. }
  destruct (dget (KS "_entity") d) as [u|] eqn:E.
  { right. split; [apply (C "_entity"); cbn; auto; congruence|]. unfold dmem. now rewrite S, E. }
  left. exists d. repeat split; auto. intros [N|(d' & k & m & [= <-] & I & N)]; [now elim (N d)|]. destruct (proj1 (SettingProofs.all_strings d) A k m I) as (t & ->).
  apply In_given in I. destruct (N t eq_refl) as [<-|[<-|[]]]; congruence.
Qed.
Lemma not_a_call_keywords ks v : ~ In "self" ks -> ~ In "_entity" ks -> not_a_call v -> keywords ks v (Err EType).
Proof.
  intros N1 N2 [N|(d & k & n & -> & I & N)]; [now apply kw_other|]. apply (kw_bad _ _ k n I). intros s E. destruct (N s E) as [<-|[<-|[]]]; auto.
Qed.
Lemma cbk_calls ty own cbk : In (ty, (own, cbk)) formats -> ~ In "self" cbk /\ ~ In "_entity" cbk.
Proof.
  intros I. assert (T : forallb (fun f => negb (str_mem "self" (snd (snd f))) && negb (str_mem "_entity" (snd (snd f)))) formats = true) by (vm_compute; reflexivity).
  rewrite forallb_forall in T. specialize (T _ I). cbn [snd] in T. apply andb_prop in T as [A B].
  assert (M : forall s l, In s l -> str_mem s l = true). { intros s l J. unfold str_mem. apply existsb_exists. exists s. split; [exact J|apply String.eqb_refl]. }
  split; intros J; apply M in J; rewrite J in *; discriminate.
Qed.
Lemma drop_keys_same a b (d : dict) : (forall s, In s a <-> In s b) -> drop_keys a d = drop_keys b d.
Proof.
  intros H. rewrite !drop_keys_filter. apply filter_ext. intros [k x]. cbn [fst]. f_equal. destruct k as [s|z].
  - destruct (named a (KS s)) eqn:A, (named b (KS s)) eqn:B; auto; [apply named_In, H, named_In in A|apply named_In, H, named_In in B]; congruence.
  - assert (Z : forall l, named l (KI z) = false) by (induction l; auto). now rewrite !Z.
Qed.

Lemma filters_here ty own cbk : In (ty, (own, cbk)) formats ->
  (In CFilters (cmids ty) -> filter_cls (statics (cls_of ty)) = Some FSignal) /\ (In CFilterInserter (mids ty) -> filter_cls (statics (cls_of ty)) = Some FName) /\ ~ In CVariation (mids ty).
Proof.
  intros I.
  assert (T : forallb (fun f => (negb (has_cls CFilters (cmids (fst f))) || match filter_cls (statics (cls_of (fst f))) with Some FSignal => true | _ => false end) &&
    ((negb (has_cls CFilterInserter (mids (fst f))) || match filter_cls (statics (cls_of (fst f))) with Some FName => true | _ => false end) && negb (has_cls CVariation (mids (fst f))))) formats = true) by (vm_compute; reflexivity).
  rewrite forallb_forall in T. specialize (T _ I). cbn [fst] in T. apply andb_prop in T as [A T]. apply andb_prop in T as [B C].
  split; [|split].
  - intros J. apply RotateProofs.has_cls_In in J. rewrite J in A. destruct (filter_cls _) as [[]|]; try discriminate. reflexivity.
  - intros J. apply RotateProofs.has_cls_In in J. rewrite J in B. destruct (filter_cls _) as [[]|]; try discriminate. reflexivity.
  - intros J. apply RotateProofs.has_cls_In in J. rewrite J in C. discriminate.
Qed.
Definition kw_check (ks : list string) (v : val) : res dict :=
  match v with VDict d => if forallb (fun kv => named ks (fst kv)) d then Ok d else Err EType | _ => Err EType end.
Lemma kw_guard ks v : guards (fun x => keywords ks v (Err x)) (kw_check ks v).
Proof. exact (g_desc _ _ (d_keywords ks v)). Qed.
Lemma kw_bad_check ks v : keywords ks v (Err EType) -> kw_check ks v = Err EType.
Proof. intros H. exact (proj1 (d_keywords ks v) _ H). Qed.
Lemma slots_all p d (ks : scls -> list string) l m : (forall s, In s m <-> In s (flat_map ks l)) -> forall x, (exists c, In c l /\ slots p d (ks c) x) <-> slots p d m x.
Proof.
  intros H x. split; [intros (c & I & s & J & X); exists s; split; [apply H, in_flat_map; eauto|exact X]|]. intros (s & J & X). apply H, in_flat_map in J as (c & I & J). exists c. split; [exact I|]. exists s. auto.
Qed.
Lemma plain_guard p s ty own cbk v : In (ty, (own, cbk)) formats -> special ty = false -> leftover_error p (VStr s) = EType ->
  guards (fun x => keywords cbk v (Err x) \/ exists d, v = VDict d /\ slots p d cbk x) (cb_make p (VStr s) (cls_of ty) v).
Proof.
  intros I SP LE. destruct (cbk_calls _ _ _ I) as [C1 C2]. destruct (format_cshape _ _ _ I SP) as [_ _ _ _ OW].
  apply (g_both _ _ _ (match v with VDict d => mapM (fun c => cats p (statics (cls_of ty)) c d) (cmids ty) | _ => Ok [] end) _ (kw_guard cbk v)).
  - destruct v as [| | | | | |d]; try (apply (g_ext (fun _ => False)); [|apply g_ok]; intros x; split; [tauto|now intros (? & [=] & _)]).
    apply (g_ext (fun x => exists c, In c (cmids ty) /\ slots p d (ckeys c) x)).
    + intros x. rewrite (slots_all p d ckeys (cmids ty) cbk OW). split; [eauto|now intros (d' & [= <-] & H)].
    + apply g_mapM. intros c J. apply behaviour_link. intros ->. now apply (filters_here _ _ _ I).
  - intros a H. destruct (cb_make_ok _ _ _ _ _ H) as (d & -> & A & S & E). rewrite (cb_make_plain _ _ _ _ _ _ I SP A S E) in H.
    destruct (mapM _ (cmids ty)) as [ats|]; [|discriminate]. cbn [bind] in H. cbn [kw_check]. rewrite forall_named, (drop_keys_same _ _ _ OW). destruct (drop_keys _ d); [eauto|discriminate].
  - intros x H. destruct (call_cases p (VStr s) (cls_of ty) v) as [(d & -> & A & S & E & _)|[N H']].
    + rewrite (cb_make_plain _ _ _ _ _ _ I SP A S E) in H. destruct (mapM _ (cmids ty)) as [ats|y]; [|right; cbn [bind] in H; congruence]. left. cbn [bind] in H. cbn [kw_check]. rewrite forall_named, (drop_keys_same _ _ _ OW).
      destruct (drop_keys _ d); [discriminate|]. rewrite LE in H. now injection H as <-.
    + left. rewrite H' in H. injection H as <-. apply kw_bad_check. now apply not_a_call_keywords.
Qed.
Lemma inserter_guard p s cbk v : (forall x, In x cbk <-> In x (flat_map ckeys [CCircuitCondition; CInserter])) ->
  guards (fun x => (x = EType /\ not_a_call v) \/ exists d, v = VDict d /\ slots p d cbk x) (cb_make p (VStr s) (cls_of "inserter") v).
Proof.
  intros OW. destruct (call_cases p (VStr s) (cls_of "inserter") v) as [(d & -> & A & S & E & N)|[N H]].
  - rewrite (cb_make_inserter _ _ _ A S E). apply g_last. apply (g_ext (fun x => exists c, In c [CCircuitCondition; CInserter] /\ slots p d (ckeys c) x)).
    + intros x. rewrite (slots_all p d ckeys [CCircuitCondition; CInserter] cbk OW). split; [eauto|]. intros [[_ H]|(d' & [= <-] & H)]; [contradiction|exact H].
    + apply g_mapM. intros c J. apply behaviour_link. intros ->. destruct J as [J|[J|[]]]; discriminate.
  - rewrite H. apply g_err. auto.
Qed.
Lemma combinator_guard p s c v : BehaviourProofs.own c -> leftover_error p (VStr s) = EType -> let f := fst (fst (conditions c)) in
  guards (fun x => keywords [f] v (Err x) \/ exists d, v = VDict d /\ combinator_fault (p_signal p) c (type_of c) (dget (KS f) d) x) (cb_make p (VStr s) (cls_of (type_of c)) v).
Proof.
  intros O LE f. assert (F1 : ~ In "self" [f] /\ ~ In "_entity" [f]) by (destruct O as [->| ->]; cbn; intuition discriminate).
  assert (K : forall d, all_KS d = true -> dget "self" d = None -> dget "_entity" d = None ->
    (exists a, cb_make p (VStr s) (cls_of (type_of c)) (VDict d) = Ok a /\ comb_check p c (dget (KS f) d) = Ok tt /\ ddel (KS f) d = []) \/
    (exists x, cb_make p (VStr s) (cls_of (type_of c)) (VDict d) = Err x /\ (comb_check p c (dget (KS f) d) = Err x \/ (x = EType /\ ddel (KS f) d <> [])))).
  { intros d A S E. destruct O as [->| ->]; cbn [type_of].
    - rewrite (cb_make_arith _ _ _ A S E). change f with "arithmetic_conditions". destruct (dget (KS "arithmetic_conditions") d) as [u|]; cbn [odflt comb_check].
      + destruct u as [| | | | | |q]; try (right; eexists; split; [reflexivity|left; reflexivity]). change (drop_keys (extra CArithmetic) q) with q. change (chain_of CArithmetic) with arith_cbl. change (word CArithmetic) with "arithmetic". change (op_of CArithmetic) with "operation".
        destruct (comb_take p arith_cbl "arithmetic" "operation" q) as [q' [ats|x]]; cbn [bind]; [|right; eauto]. unfold left_over. rewrite LE.
        destruct q' as [|kv q']; [|right; eexists; split; [reflexivity|left; reflexivity]]. destruct (ddel "arithmetic_conditions" d) eqn:R; [left; eauto|right]. eexists. split; [reflexivity|]. right. split; [reflexivity|discriminate].
      + right. cbn. eauto.
    - rewrite (cb_make_decid _ _ _ A S E). change f with "decider_conditions". destruct (dget (KS "decider_conditions") d) as [u|]; cbn [comb_check]; [|right; eauto].
      destruct u as [| | | | | |q]; try (right; eexists; split; [reflexivity|left; reflexivity]). change (drop_keys (extra CDecider) q) with (ddel "copy_count_from_input" q). change (chain_of CDecider) with decid_cbl. change (word CDecider) with "decider". change (op_of CDecider) with "comparator".
      destruct (comb_take p decid_cbl "decider" "comparator" (ddel "copy_count_from_input" q)) as [q' [ats|x]]; cbn [bind]; [|right; eauto]. unfold left_over. rewrite LE.
      destruct q' as [|kv q']; [|right; eexists; split; [reflexivity|left; reflexivity]]. destruct (ddel "decider_conditions" d) eqn:R; [left; eauto|right]. eexists. split; [reflexivity|]. right. split; [reflexivity|discriminate]. }
  assert (KC : forall d, kw_check [f] (VDict d) = if (match ddel (KS f) d with [] => true | _ => false end) then Ok d else Err EType) by (intros d; cbn [kw_check]; now rewrite forall_named).
  apply (g_both _ _ _ (match v with VDict d => comb_check p c (dget (KS f) d) | _ => Ok tt end) _ (kw_guard [f] v)).
  - destruct v as [| | | | | |d]; try (apply (g_ext (fun _ => False)); [|apply g_ok]; intros x; split; [tauto|now intros (? & [=] & _)]).
    eapply g_ext; [|apply comb_guard; exact O]. intros x. split; [eauto|now intros (d' & [= <-] & H)].
  - intros a H. destruct (cb_make_ok _ _ _ _ _ H) as (d & -> & A & S & E). destruct (K d A S E) as [(a' & _ & C & R)|(x & X & _)]; [|congruence]. rewrite KC, R, C. eauto.
  - intros x H. destruct (call_cases p (VStr s) (cls_of (type_of c)) v) as [(d & -> & A & S & E & _)|[N H']].
    + destruct (K d A S E) as [(a' & X & _)|(y & X & C)]; [congruence|]. rewrite X in H. injection H as ->. destruct C as [C|[-> C]]; [now right|left]. rewrite KC. now destruct (ddel (KS f) d).
    + left. rewrite H' in H. injection H as <-. apply kw_bad_check. apply not_a_call_keywords; tauto.
Qed.
Lemma format_special ty own cbk : In (ty, (own, cbk)) formats -> ty = "arithmetic-combinator" \/ ty = "decider-combinator" \/ ty = "inserter" ->
  (ty = "arithmetic-combinator" /\ cbk = ["arithmetic_conditions"]) \/ (ty = "decider-combinator" /\ cbk = ["decider_conditions"]) \/ (ty = "inserter" /\ cbk = flat_map ckeys [CCircuitCondition; CInserter]).
Proof.
  intros I [->|[->| ->]].
  - left. split; [reflexivity|]. apply (formats_fun _ _ _ _ _ I arith_in).
  - right. left. split; [reflexivity|]. apply (formats_fun _ _ _ _ _ I decid_in).
  - right. right. split; [reflexivity|]. destruct inserter_in as (o & k & J & ->). apply (formats_fun _ _ _ _ _ I J).
Qed.
Lemma no_slot p d ks x : (forall s, In s ks -> ~ In s keyed) -> ~ slots p d ks x.
Proof. intros H (s & I & X). apply (H s I). now apply slot_keyed in X. Qed.
Lemma behaviour_guard p s ty own cbk v : In (ty, (own, cbk)) formats -> leftover_error p (VStr s) = EType ->
  guards (behaviour_fault (p_signal p) ty cbk v) (cb_make p (VStr s) (cls_of ty) v).
Proof.
  intros I LE.
  assert (SL : forall d x, slots p d cbk x <-> exists s n, In s cbk /\ dget (KS s) d = Some n /\ key_fault (p_signal p) s n x).
  { intros d x. unfold slots, slot. split; [intros (t & J & n & H); exists t, n; tauto|intros (t & n & J & H); eauto]. }
  destruct (special ty) eqn:SP.
  - assert (Q : ty = "arithmetic-combinator" \/ ty = "decider-combinator" \/ ty = "inserter") by (apply special_cases in SP; clear - SP; tauto).
    destruct (format_special _ _ _ I Q) as [[-> EK]|[[-> EK]|[-> EK]]]; clear Q.
    + eapply g_ext; [|exact (combinator_guard p s CArithmetic v (or_introl eq_refl) LE)]. intros x. unfold behaviour_fault. cbn [type_of]. change (fst (fst (conditions CArithmetic))) with "arithmetic_conditions". rewrite EK. clear I.
      split.
      * intros [H|(d & -> & H)]; [left; split; [discriminate|exact H]|]. right. right. exists d. split; [reflexivity|]. right. left. auto.
      * intros [[_ H]|[[H _]|(d & E & [H|[[_ H]|[H _]]])]]; [auto|discriminate| |right; eauto|discriminate].
        exfalso. rewrite <- EK in H. apply SL in H. revert H. apply no_slot. rewrite EK. intros t [<-|[]]. cbn. intuition discriminate.
    + eapply g_ext; [|exact (combinator_guard p s CDecider v (or_intror eq_refl) LE)]. intros x. unfold behaviour_fault. cbn [type_of]. change (fst (fst (conditions CDecider))) with "decider_conditions". rewrite EK. clear I.
      split.
      * intros [H|(d & -> & H)]; [left; split; [discriminate|exact H]|]. right. right. exists d. split; [reflexivity|]. right. right. auto.
      * intros [[_ H]|[[H _]|(d & E & [H|[[H _]|[_ H]]])]]; [auto|discriminate| |discriminate|right; eauto].
        exfalso. rewrite <- EK in H. apply SL in H. revert H. apply no_slot. rewrite EK. intros t [<-|[]]. cbn. intuition discriminate.
    + eapply g_ext; [|apply (inserter_guard p s cbk v)]; [|intros t; rewrite EK; reflexivity]. intros x. unfold behaviour_fault. clear I. split.
      * intros [[H K]|(d & -> & H)]; [right; left; auto|]. right. right. exists d. split; [reflexivity|]. left. now apply SL.
      * intros [[H _]|[(_ & H & K)|(d & E & [H|[[H _]|[H _]]])]]; [congruence|left; auto| |discriminate|discriminate]. right. exists d. split; [exact E|]. now apply SL.
  - assert (N : ty <> "inserter" /\ ty <> "arithmetic-combinator" /\ ty <> "decider-combinator") by (clear - SP; repeat split; intros ->; discriminate).
    eapply g_ext; [|exact (plain_guard p s ty own cbk v I SP LE)]. intros x. unfold behaviour_fault. clear I. destruct N as (N1 & N2 & N3). split.
    + intros [H|(d & -> & H)]; [left; auto|]. right. right. exists d. split; [reflexivity|]. left. now apply SL.
    + intros [[_ H]|[(H & _)|(d & E & [H|[[H _]|[H _]]])]]; [auto|contradiction| |contradiction|contradiction]. right. exists d. split; [exact E|]. now apply SL.
Qed.

(** ** Building an entity *)
Lemma position_guard kw : guards (fun x => exists v, dget (KS "position") kw = Some v /\ v <> VNone /\ place v (Err x)) (vec_of_val (dsc kw "position")).
Proof.
  unfold dsc. destruct (dget (KS "position") kw) as [v|]; cbn [odflt].
  - assert (D : guards (fun x => v <> VNone /\ place v (Err x)) (vec_of_val v)); [|revert D; apply g_ext; intros x; split; [eauto|now intros (u & [= <-] & H)]].
    destruct (SettingProofs.s_place (mkProtos [] [] [] [] []) true v APickup (or_introl eq_refl)) as (y & S & A). cbn [setting] in S.
    apply (g_status _ y); [|].
    + destruct y as [o|x]; [destruct (A []) as [E _]|pose proof (A []) as E]; cbn [set_at] in E; unfold vector_field in E; destruct (vec_of_val v); cbn in E |- *; congruence.
    + apply g_desc in S. revert S. apply g_ext. intros x. split; [intros [[_ H]|H]; [discriminate|exact H]|intros H; now right].
  - apply (g_ext (fun _ => False)); [|apply g_ok]. intros x. split; [tauto|now intros (? & [=] & _)].
Qed.
Lemma direction_guard kw : doubles (VDict kw) -> guards (fun x => exists v, dget (KS "direction") kw = Some v /\ no_direction v x) (dir_of_val (odflt (VInt 0) (dget "direction" kw))).
Proof.
  intros D. destruct (dget (KS "direction") kw) as [v|] eqn:E; cbn [odflt].
  2: { apply (g_ext (fun _ => False)); [|apply g_ok]. intros x. split; [tauto|now intros (? & [=] & _)]. }
  apply (doubles_dget _ _ _ D) in E. assert (G : guards (no_direction v) (dir_of_val v)); [|revert G; apply g_ext; intros x; split; [eauto|now intros (u & [= <-] & H)]].
  destruct v as [|b|z|f|t|l|d]; try (apply g_err; constructor).
  - cbn [dir_of_val]. apply (g_ext (fun _ => False)); [|apply g_ok]. intros x. split; [tauto|intros H; inversion H].
  - cbn [dir_of_val]. apply (g_ext (fun _ => False)); [|apply g_ok]. intros x. split; [tauto|intros H; inversion H].
  - inversion E; subst. assert (FD : finite f \/ ~ finite f) by (destruct f; cbn; auto). destruct FD as [F|F].
    + destruct (ValuesProofs.p_C65_float f) as (m & _ & ->); auto. apply (g_ext (fun _ => False)); [|apply g_ok]. intros x. split; [tauto|intros H; inversion H; contradiction].
    + rewrite (ValuesProofs.p_C65_float_bad f F). apply g_err. now constructor.
  - split; [intros x [= <-]; now elim 1|discriminate].
Qed.
Lemma p_C69 p cust l kw s ty own cbk : typed p kw s ty -> dget ty cust = None -> In (ty, (own, cbk)) formats -> doubles (VDict kw) ->
  guards (fault p ty own cbk kw) (snd (construct p cust l kw)).
Proof.
  intros T CU I D. rewrite (construct_typed _ _ _ _ _ _ _ _ T CU I). pose proof (typed_leftover _ _ _ _ T) as LE.
  destruct (format_shape _ _ _ I) as [_ _ _ _ _ OW]. destruct (filters_here _ _ _ I) as (_ & FI & NV).
  apply (g_ext (fun x => (exists v, dget (KS "position") kw = Some v /\ v <> VNone /\ place v (Err x)) \/ (exists v, dget (KS "direction") kw = Some v /\ no_direction v x) \/
    (exists v, dget (KS "control_behavior") kw = Some v /\ behaviour_fault (p_signal p) ty cbk v x) \/ keys_fault p kw own x \/ ((exists k v, In (k, v) kw /\ ~ understood ty k) /\ x = EType))).
  { intros x. split.
    - intros [(v & A & B & C)|[(v & A & B)|[(v & A & B)|[(t & A & B)|[(k & v & A & B) ->]]]]]; [eapply f_position|eapply f_direction|eapply f_behaviour|eapply f_own|eapply f_unknown]; eauto.
    - intros [v y A B C|v y A B|t y A B|k v A B|v y A B]; [left|right; left|right; right; right; left|right; right; right; right|right; right; left]; unfold keys_fault; eauto 6. }
  apply g_bind; [apply position_guard|]. intros ? _. apply g_bind; [now apply direction_guard|]. intros ? _. apply g_bind.
  { unfold cb_part. destruct (dget (KS "control_behavior") kw) as [v|] eqn:E.
    - apply g_last. eapply g_ext; [|exact (behaviour_guard p s ty own cbk v I LE)]. intros x. clear. split; [eauto|now intros (u & [= <-] & H)].
    - apply (g_ext (fun _ => False)); [|apply g_ok]. intros x. clear. split; [tauto|now intros (? & [=] & _)]. }
  intros ? _. apply g_bind.
  { set (kw' := drop_keys entity_keys kw). assert (D' : doubles (VDict kw')).
    { inversion D as [| | | | | |? F]; subst. constructor. unfold kw'. rewrite drop_keys_filter. clear - F. induction F as [|[k v] d H F IH]; [constructor|]. cbn [filter fst]. destruct (negb _); [constructor; auto|exact IH]. }
    apply (g_ext (fun x => exists c, In c (mids ty) /\ keys_fault p kw' (mkeys c) x)).
    - intros x. assert (G : forall t, In t own -> dget (KS t) kw' = dget (KS t) kw).
      { intros t J. unfold kw'. rewrite dget_drop_keys. assert (N : named entity_keys (KS t) = false); [|now rewrite N].
        apply OW, in_flat_map in J as (c & _ & J). clear - J. destruct c; cbn in J; repeat destruct J as [<-|J]; try reflexivity; contradiction. }
      clear I. split.
      + intros (c & C & t & J & X). assert (O : In t own) by (apply OW, in_flat_map; eauto). exists t. rewrite (G t O) in X. auto.
      + intros (t & O & X). rewrite <- (G t O) in X. apply OW, in_flat_map in O as (c & C & J). exists c. split; [exact C|]. exists t. auto.
    - apply g_mapM. intros c C. apply link_guard; [intros ->; contradiction|intros ->; now apply FI|exact D']. }
  intros ? _. rewrite <- drop_keys_app. destruct T as ((A & _ & B & _ & _) & _).
  assert (U : forall k v, In (k, v) kw -> named (entity_keys ++ flat_map mkeys (mids ty)) k = true <-> understood ty k).
  { intros k v J. destruct (proj1 (SettingProofs.all_strings kw) A k v J) as (t & ->). apply (understood_keys _ _ _ _ I). intros ->. apply In_given in J. congruence. }
  clear I. destruct (drop_keys (entity_keys ++ flat_map mkeys (mids ty)) kw) as [|[k v] r] eqn:R.
  - apply (g_ext (fun _ => False)); [|apply g_ok]. intros x. split; [tauto|]. intros [(k & v & J & N) _]. apply N, (U k v J). apply (drop_nil _ _ _ R). now apply In_given in J.
  - apply g_err. split; [|reflexivity]. assert (J : In (k, v) (drop_keys (entity_keys ++ flat_map mkeys (mids ty)) kw)) by (rewrite R; now left).
    rewrite drop_keys_filter in J. apply filter_In in J as [J N]. cbn [fst] in N. exists k, v. split; [exact J|]. intros X. apply (U k v J) in X. now rewrite X in N.
Qed.
(** ** C69 *)
Lemma p_C69_exception p cust l kw s ty own cbk x : typed p kw s ty -> dget ty cust = None -> In (ty, (own, cbk)) formats -> doubles (VDict kw) ->
  snd (construct p cust l kw) = Err x -> x <> EUnmodelled -> fault p ty own cbk kw x.
Proof. intros T C I D H N. now apply (proj1 (p_C69 p cust l kw s ty own cbk T C I D)). Qed.
Lemma p_C69_made p cust l kw s ty own cbk e x : typed p kw s ty -> dget ty cust = None -> In (ty, (own, cbk)) formats -> doubles (VDict kw) ->
  snd (construct p cust l kw) = Ok e -> ~ fault p ty own cbk kw x.
Proof. intros T C I D H. exact (proj2 (p_C69 p cust l kw s ty own cbk T C I D) e H x). Qed.
Lemma p_C69_faultless p cust l kw s ty own cbk : typed p kw s ty -> dget ty cust = None -> In (ty, (own, cbk)) formats -> doubles (VDict kw) ->
  snd (construct p cust l kw) <> Err EUnmodelled -> (exists e, snd (construct p cust l kw) = Ok e) <-> forall x, ~ fault p ty own cbk kw x.
Proof.
  intros T C I D N. destruct (p_C69 p cust l kw s ty own cbk T C I D) as [H K]. clear I. destruct (snd (construct p cust l kw)) as [e|x].
  - split; [intros _; exact (K e eq_refl)|eauto].
  - split; [intros (e & E); discriminate|]. intros F. elim (F x). apply H; [reflexivity|congruence].
Qed.
Lemma p_C69_make w b z kw s (ty : string) own cbk x : blu w b = Some z -> dget ty (b_custom z) = None -> In (ty, (own, cbk)) formats ->
  typed (w_protos w) kw s ty -> doubles (VDict kw) -> fault (w_protos w) ty own cbk kw x ->
  exists y, step (OMake b kw) w = (w, Err y) /\ (y <> EUnmodelled -> fault (w_protos w) ty own cbk kw y).
Proof.
  intros B C I T D F. destruct (p_C69 (w_protos w) (b_custom z) (Some b) kw s ty own cbk T C I D) as [H K]. clear I.
  cbn [step]. unfold layer_make, new_entity, mbind, get_bp, gets. rewrite B. unfold ret. destruct (snd (construct (w_protos w) (b_custom z) (Some b) kw)) as [e|y].
  - now elim (K e eq_refl x).
  - exists y. split; [reflexivity|]. intros N. now apply H.
Qed.
Lemma p_C69_load w b z doc d w' doc' l kw s (ty : string) own cbk x : blu w b = Some z -> SpecDoc.holds doc d -> load b doc w = (w', doc', Ok tt) ->
  dget "entities" d = Some (VList l) -> In (VDict kw) l -> typed (w_protos w) kw s ty -> dget ty (b_custom z) = None -> In (ty, (own, cbk)) formats -> doubles (VDict kw) ->
  ~ fault (w_protos w) ty own cbk kw x.
Proof.
  intros Hx Hd H EL Hk T CU I D. destruct (load_constructs _ _ _ _ _ _ _ _ _ Hx Hd H EL Hk) as (kw' & e & [= <-] & C). exact (p_C69_made _ _ _ _ _ _ _ _ _ _ T CU I D C).
Qed.
