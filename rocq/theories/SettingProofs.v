(** * Proofs of C67. *)
From Coq Require Import Lia QArith.
From Verif Require Import Py Num NumFacts Util UtilFacts SpecUtil SpecRound RoundProofs SpecArith ArithProofs FloorProofs SpecWorld LayerProofs DefaultEntities.
From Verif Require Import Classes Mixins Entity Setters World WorldFacts SetFacts DictFacts SpecAttr.
From Verif Require DocProofs EntProofs AttrProofs RenameProofs SpecWrite.
From Verif Require Import Values SpecValues ValuesProofs SpecSetting.
Import SpecWrite(doubles(..)).
Open Scope Z_scope.

Definition describes {A} (P : res A -> Prop) (x : res A) : Prop := (forall r, P r -> x = r) /\ (x <> Err EUnmodelled -> P x).
Lemma d_iff {A} (P : res A -> Prop) x : (forall r, P r <-> x = r) -> describes P x.
Proof. intros H. split; [intros r K; now apply H|intros _; now apply H]. Qed.
Lemma d_gives {A} (a : A) : describes (gives a) (Ok a).
Proof. split; [intros r ->; reflexivity|reflexivity]. Qed.
Lemma d_then {A B} (P : res A -> Prop) (Q : A -> res B -> Prop) x k :
  describes P x -> (forall a, x = Ok a -> describes (Q a) (k a)) -> describes (and_then P Q) (let! a := x in k a).
Proof.
  intros [S T] H. split.
  - intros r [(e & K & ->)|(a & K & L)]; apply S in K; subst x; cbn; [reflexivity|]. exact (proj1 (H a eq_refl) r L).
  - intros N. destruct x as [a|e]; cbn in *.
    + right. exists a. split; [now apply T|]. now apply (H a eq_refl).
    + left. exists e. split; [|reflexivity]. apply T. congruence.
Qed.
Lemma d_must {A} (C : Prop) (b : bool) (x : A) : (b = true <-> C) -> describes (must C x) (if b then Ok x else Err EValue).
Proof.
  intros H. split.
  - intros r [[K ->]|[K ->]]; [apply H in K as ->; reflexivity|]. destruct b; [elim K; now apply H|reflexivity].
  - intros _. destruct b; [left; split; [now apply H|reflexivity]|]. right. split; [|reflexivity]. intros K. apply H in K. discriminate.
Qed.
Lemma d_optional v (P : res (option val) -> Prop) x y : x = (match v with VNone => Ok None | _ => y end) -> (v <> VNone -> describes P y) -> describes (optional v P) x.
Proof.
  intros -> H. destruct v; try (destruct (H ltac:(discriminate)) as [S T]; split; [intros r [[E _]|[_ K]]; [discriminate|now apply S]|intros N; right; split; [discriminate|now apply T]]).
  split; [intros r [[_ ->]|[N _]]; [reflexivity|now elim N]|intros _; left; auto].
Qed.

(** ** The conversions *)
Lemma trunc_units f : fvalid f = true -> finite f -> nint (NF f) = Ok (Z.quot (units f) one_unit).
Proof.
  intros V F. pose proof one_unit_pos as O. destruct f as [s| | |s m e]; try contradiction.
  - cbn [units]. rewrite Z.quot_0_l by lia. reflexivity.
  - destruct (float_parts _ _ _ V) as (E & _). unfold nint, int_via, ztrunc. f_equal. destruct s; cbn [cond_Zopp].
    + change (Z.neg m <? 0) with true. cbv iota.
      change (- zfloor (- - Z.pos m) e = Z.quot (units (S754_finite true m e)) one_unit). rewrite Z.opp_involutive.
      pose proof (zfloor_units false m e ltac:(lia)) as Q. cbn [cond_Zopp] in Q. rewrite Q.
      assert (U : units (S754_finite true m e) = - units (S754_finite false m e)) by (cbn [units]; lia). rewrite U.
      rewrite Z.quot_opp_l by lia. f_equal. symmetry. apply Z.quot_div_nonneg; [|exact O]. cbn [units].
      assert (0 < 2 ^ (e + 1074)) by (apply Z.pow_pos_nonneg; lia). nia.
    + change (Z.pos m <? 0) with false. cbv iota. pose proof (zfloor_units false m e ltac:(lia)) as Q. cbn [cond_Zopp] in Q. rewrite Q.
      symmetry. apply Z.quot_div_nonneg; [|exact O]. cbn [units]. assert (0 < 2 ^ (e + 1074)) by (apply Z.pow_pos_nonneg; lia). nia.
Qed.
Lemma int_text_not s e : all_ascii s = true -> int_of_string s = Err e -> e = EValue /\ forall z, ~ int_text s z.
Proof.
  intros A H. split.
  - unfold int_of_string in H. rewrite A in H. cbn [negb] in H. repeat match type of H with context [match ?x with _ => _ end] => destruct x; try congruence end.
  - intros z K. apply (int_of_string_spec s z A) in K. congruence.
Qed.
Lemma d_whole v : doubles v -> describes (whole_number v) (py_int v).
Proof.
  intros D. split.
  - intros r H. destruct H; cbn [py_int]; try reflexivity.
    + now apply trunc_units.
    + now apply int_of_string_spec.
    + destruct (int_of_string s) as [z|e] eqn:E; [apply (int_of_string_spec s z H) in E; elim (H0 z E)|].
      now destruct (int_text_not s e H E) as [-> _].
  - intros N. destruct v as [|b|z|f|s|l|d]; cbn [py_int] in *; try constructor.
    + destruct f as [x|x| |x m e]; try (constructor; fail); inversion D; subst.
      * rewrite trunc_units by (auto; exact I). now constructor.
      * rewrite trunc_units by (auto; exact I). now constructor.
    + destruct (all_ascii s) eqn:A; [|unfold int_of_string in N; rewrite A in N; now elim N].
      destruct (int_of_string s) as [z|e] eqn:E.
      * constructor; [exact A|]. now apply int_of_string_spec.
      * destruct (int_text_not s e A E) as [-> K]. now constructor.
Qed.
Lemma d_float v : describes (floated v) (py_float v).
Proof.
  assert (F : forall z r, as_float (NI z) r -> float_of_int z = r).
  { intros z r H. pose proof (as_float_spec (NI z) I) as [K _]. cbn [to_float] in K. exact (as_float_unique _ _ _ K H). }
  assert (G : forall z, as_float (NI z) (float_of_int z)) by (intros z; exact (proj1 (as_float_spec (NI z) I))).
  split.
  - intros r H. destruct H; cbn [py_float]; auto.
  - intros N. destruct v as [|b|z|f|s|l|d]; cbn [py_float] in *.
    + exact fv_none.
    + now apply fv_bool.
    + now apply fv_int.
    + apply fv_float.
    + now elim N.
    + apply fv_list.
    + apply fv_dict.
Qed.
Lemma d_name v : describes (named defaultentities v) (name_str defaultentities v).
Proof. apply d_iff. intros r. apply named_is. Qed.
Lemma d_field v k : describes (field v k) (getitem v k).
Proof.
  split.
  - intros r [d x -> E|d -> E|H]; cbn [getitem]; try (rewrite E; reflexivity). destruct v; try reflexivity. now elim (H d).
  - intros _. destruct v as [|b|z|f|s|l|d]; cbn [getitem]; try (apply fd_other; discriminate). destruct (dget k d) eqn:E; [now apply (fd_found _ _ d)|now apply (fd_missing _ _ d)].
Qed.
Lemma d_field_or v k u : describes (field_or v k u) (getdef v k u).
Proof.
  split.
  - intros r [d x -> E|d -> E|H]; cbn [getdef]; try (rewrite E; reflexivity). destruct v; try reflexivity. now elim (H d).
  - intros _. destruct v as [|b|z|f|s|l|d]; cbn [getdef]; try (apply fo_other; discriminate). destruct (dget k d) eqn:E; [now apply (fo_found _ _ _ d)|now apply (fo_missing _ _ _ d)].
Qed.
Lemma d_elements v : describes (elements v) (iter_val v).
Proof.
  split.
  - intros r H. destruct H; reflexivity.
  - intros N. destruct v; cbn [iter_val] in *; try constructor. now elim N.
Qed.
Lemma d_elements_or v : describes (elements_or_none v) (AttrProofs.entries v).
Proof.
  destruct (d_elements v) as [S T]. split.
  - intros r [|u q N H]; [reflexivity|]. destruct (d_elements u) as [S' _]. apply S' in H. subst q. destruct u; try reflexivity. now elim N.
  - intros N. destruct v; try (apply en_some; [discriminate|apply T; exact N]). constructor.
Qed.
Lemma d_index v : describes (index v) (key_of_val v).
Proof.
  split.
  - intros r H. destruct H; reflexivity.
  - intros N. destruct v; cbn [key_of_val] in *; try constructor; now elim N.
Qed.
Lemma truth_is v b : truth v b <-> truthy v = b.
Proof.
  unfold truth. rewrite falsy_is. destruct (truthy v); split.
  - intros [[-> E]|[-> _]]; [discriminate|reflexivity].
  - intros <-. right. split; [reflexivity|discriminate].
  - intros [[-> _]|[-> E]]; [reflexivity|now elim E].
  - intros <-. left. auto.
Qed.

(** ** Entries *)
Definition cargo_fields (x : val) : res entry :=
  let! n := getitem x "name" in let! o := name_str defaultentities n in
  let! i := getitem x "index" in let! k := key_of_val i in Ok (k, [(KS "name", name_of o)]).
Definition request_fields (x : val) : res entry :=
  let! n := getitem x "name" in let! o := name_str defaultentities n in
  let! c := getitem x "count" in let! z := py_int c in
  let! i := getitem x "index" in let! k := key_of_val i in Ok (k, [(KS "name", name_of o); (KS "count", VInt z)]).
Definition infinity_fields (x : val) : res entry :=
  let! m := getitem x "mode" in let! m := (if str_in m ["at-least"; "at-most"; "exactly"]%string then Ok m else Err EValue) in
  let! c := getitem x "count" in
  let! n := getitem x "name" in let! o := name_str defaultentities n in
  let! i := getitem x "index" in let! k := key_of_val i in Ok (k, [(KS "count", c); (KS "mode", m); (KS "name", name_of o)]).
Lemma str_in_is v l : str_in v l = true <-> one_of l v.
Proof.
  unfold one_of. destruct v as [| | | |s| |]; cbn [str_in]; try (split; [discriminate|intros (s & E & _); discriminate]). rewrite existsb_exists. split.
  - intros (x & I & E). apply String.eqb_eq in E as <-. eauto.
  - intros (x & E & I). injection E as <-. exists s. split; [exact I|apply String.eqb_refl].
Qed.
Lemma doubles_field v k x : doubles v -> getitem v k = Ok x -> doubles x.
Proof.
  intros D. destruct v as [| | | | | |d]; cbn [getitem]; try discriminate. destruct (dget k d) as [y|] eqn:E; [|discriminate]. intros [= <-]. inversion D; subst.
  apply RenameProofs.dget_in_gen in E. rewrite Forall_forall in H0. exact (H0 _ E).
Qed.
Lemma doubles_field_or v k u x : doubles v -> doubles u -> getdef v k u = Ok x -> doubles x.
Proof.
  intros D U. destruct v as [| | | | | |d]; cbn [getdef]; try discriminate. destruct (dget k d) as [y|] eqn:E; intros [= <-]; [|exact U]. cbn [odflt]. inversion D; subst.
  apply RenameProofs.dget_in_gen in E. rewrite Forall_forall in H0. exact (H0 _ E).
Qed.
Lemma doubles_elements v l : doubles v -> iter_val v = Ok l -> Forall doubles l.
Proof.
  intros D. destruct v as [| | | | |l'|d]; cbn [iter_val]; try discriminate; intros [= <-].
  - now inversion D.
  - apply Forall_forall. intros x I. apply in_map_iff in I as ([k y] & <- & _). destruct k; constructor.
Qed.
Lemma doubles_entries v l : doubles v -> AttrProofs.entries v = Ok l -> Forall doubles l.
Proof. intros D H. destruct v; try (apply (doubles_elements _ _ D H)). injection H as <-. constructor. Qed.
Lemma d_cargo x : describes (cargo_item x) (cargo_fields x).
Proof.
  apply d_then; [apply d_field|]. intros n _. apply d_then; [apply d_name|]. intros o _. apply d_then; [apply d_field|]. intros i _.
  apply d_then; [apply d_index|]. intros k _. apply d_gives.
Qed.
Lemma d_request x : doubles x -> describes (request_item x) (request_fields x).
Proof.
  intros D. apply d_then; [apply d_field|]. intros n _. apply d_then; [apply d_name|]. intros o _. apply d_then; [apply d_field|]. intros c C.
  apply d_then; [apply d_whole; exact (doubles_field _ _ _ D C)|]. intros z _. apply d_then; [apply d_field|]. intros i _.
  apply d_then; [apply d_index|]. intros k _. apply d_gives.
Qed.
Lemma d_infinity x : describes (infinity_item x) (infinity_fields x).
Proof.
  apply d_then; [apply d_field|]. intros m _. apply d_then; [apply d_must, str_in_is|]. intros m' _. apply d_then; [apply d_field|]. intros c _.
  apply d_then; [apply d_field|]. intros n _. apply d_then; [apply d_name|]. intros o _. apply d_then; [apply d_field|]. intros i _.
  apply d_then; [apply d_index|]. intros k _. apply d_gives.
Qed.
Lemma d_read E f l : Forall (fun x => describes (E x) (f x)) l -> describes (all_read E l) (mapM f l).
Proof.
  induction 1 as [|x l [S T] _ [S' T']].
  - split; [|intros _; constructor]. intros r H. inversion H. reflexivity.
  - cbn [mapM]. split.
    + intros r H. inversion H as [|y q e K|y q kv e K L|y q kv ps K L]; subst; apply S in K; rewrite K; cbn [bind]; try reflexivity; apply S' in L; now rewrite L.
    + intros N. destruct (f x) as [kv|e]; cbn [bind] in *; [|apply ar_error, T; congruence].
      destruct (mapM f l) as [ps|e]; cbn [bind] in *; [eapply ar_more; [apply T; discriminate|apply T'; discriminate]|eapply ar_later; [apply T; discriminate|apply T'; congruence]].
Qed.

(** *** the table of entries *)
Definition table {V} (ps d : list (key * V)) : list (key * V) := fold_left (fun d kv => dset (fst kv) (snd kv) d) ps d.
Lemma dset_keys {V} k (x : V) d : map fst (dset k x d) = if existsb (key_eqb k) (map fst d) then map fst d else (map fst d ++ [k])%list.
Proof.
  induction d as [|[j y] d IH]; cbn; [reflexivity|]. destruct (key_eqb k j); cbn; [reflexivity|]. rewrite IH. destruct (existsb _ _); reflexivity.
Qed.
Lemma distinct_in k l : In k (distinct l) <-> In k l.
Proof.
  induction l as [|j l IH]; cbn; [tauto|]. rewrite filter_In, IH. split.
  - intros [E|[I _]]; auto.
  - intros [E|I]; auto. destruct (key_eqb k j) eqn:E; [left; symmetry; now apply key_eqb_eq|right]. auto.
Qed.
Lemma distinct_snoc k : forall l, distinct (l ++ [k])%list = if existsb (key_eqb k) l then distinct l else (distinct l ++ [k])%list.
Proof.
  induction l as [|j l IH]; cbn; [reflexivity|]. rewrite IH. destruct (key_eqb k j) eqn:E; cbn.
  - f_equal. destruct (existsb _ l); [reflexivity|]. rewrite filter_app. cbn. rewrite E. cbn. now rewrite app_nil_r.
  - destruct (existsb _ l); [reflexivity|]. rewrite filter_app. cbn. rewrite E. reflexivity.
Qed.
Lemma exists_in k l : existsb (key_eqb k) l = true <-> In k l.
Proof.
  rewrite existsb_exists. split.
  - intros (x & I & E). apply key_eqb_eq in E as ->. exact I.
  - intros I. exists k. split; [exact I|apply key_eqb_refl].
Qed.
Lemma dset_in {V} k (x : V) d j y : In (j, y) (dset k x d) -> (j = k /\ y = x) \/ (In (j, y) d /\ (j <> k \/ In k (map fst d))).
Proof.
  induction d as [|[i z] d IH]; cbn.
  - intros [E|[]]. injection E as -> ->. auto.
  - destruct (key_eqb k i) eqn:E.
    + apply key_eqb_eq in E as ->. intros [K|K]; [injection K as -> ->; auto|]. right. auto.
    + intros [K|K]; [injection K as -> ->; right; split; auto; left; intros ->; now rewrite key_eqb_refl in E|].
      destruct (IH K) as [H|[H [N|I]]]; auto.
Qed.
Lemma table_collected (ps : list (key * dict)) : collected ps (table ps []).
Proof.
  unfold collected, entry in *.
  induction ps as [|[k x] ps [A B]] using rev_ind.
  - split; [reflexivity|]. intros k x [].
  - assert (TE : table (ps ++ [(k, x)])%list [] = dset k x (table ps [])) by (unfold table; now rewrite fold_left_app). rewrite TE. unfold collected. rewrite map_app. cbn [map fst]. split.
    + rewrite dset_keys, distinct_snoc, A.
      replace (existsb (key_eqb k) (distinct (map fst ps))) with (existsb (key_eqb k) (map fst ps)); [reflexivity|].
      apply eq_true_iff_eq. rewrite !exists_in, distinct_in. tauto.
    + intros j y I.
      assert (D : (j = k /\ y = x) \/ (j <> k /\ In (j, y) (table ps []))).
      { destruct (key_eqb j k) eqn:E; [apply key_eqb_eq in E; left; split; [exact E|]|right; split; [intros ->; now rewrite key_eqb_refl in E|]].
        - subst j. clear - I A. assert (ND : NoDup (map fst (table ps []))).
          { rewrite A. clear. induction (map fst ps) as [|k l IH]; cbn; constructor.
            - rewrite filter_In, key_eqb_refl. intros [_ E]. discriminate.
            - now apply NoDup_filter. }
          revert I ND. generalize (table ps []). intros d. induction d as [|[i z] d IH]; cbn.
          + intros [E|[]] _. now injection E.
          + intros I ND. inversion ND as [|a b NI ND']; subst. destruct (key_eqb k i) eqn:E; cbn in I.
            * apply key_eqb_eq in E as ->. destruct I as [I|I]; [now injection I|]. elim NI. now apply (in_map fst _ _ I).
            * destruct I as [I|I]; [injection I as -> _; now rewrite key_eqb_refl in E|]. now apply IH.
        - apply dset_in in I as [[-> _]|[I _]]; [now rewrite key_eqb_refl in E|exact I]. }
      destruct D as [[-> ->]|[N J]].
      * exists ps, []. split; [reflexivity|intros []].
      * destruct (B _ _ J) as (l & r & -> & M). exists l, (r ++ [(k, x)])%list. split; [now rewrite <- app_assoc|]. rewrite map_app, in_app_iff. cbn. intros [Q|[Q|[]]]; auto.
Qed.
Lemma last_one (k : key) (x y : dict) : forall (l l' r r' : list entry), (l ++ (k, x) :: r)%list = (l' ++ (k, y) :: r')%list -> ~ In k (map fst r) -> ~ In k (map fst r') -> x = y.
Proof.
  assert (H : forall (l r : list entry) q, ((k, x) :: r)%list = (q :: l ++ (k, y) :: r)%list -> True) by auto. clear H.
  induction l as [|a l IH]; intros l' r r' E N N'; destruct l' as [|b l']; cbn in E.
  - now injection E.
  - injection E as <- ->. elim N. rewrite map_app, in_app_iff. right. now left.
  - injection E as -> <-. elim N'. rewrite map_app, in_app_iff. right. now left.
  - injection E as _ E. now apply (IH l' r r').
Qed.
Lemma collected_one ps d d' : collected ps d -> collected ps d' -> d = d'.
Proof.
  intros [A B] [A' B'].
  assert (V : forall k x y, In (k, x) d -> In (k, y) d' -> x = y).
  { intros k x y I J. destruct (B _ _ I) as (l & r & E & N), (B' _ _ J) as (l' & r' & E' & N'). rewrite E in E'. exact (last_one _ _ _ _ _ _ _ E' N N'). }
  rewrite <- A' in A. clear B B' A'. revert d' A V. induction d as [|[k x] d IH]; intros [|[k' x'] d'] A V; try discriminate; [reflexivity|].
  injection A as <- A. f_equal; [f_equal; apply (V k); now left|]. apply IH; [exact A|]. intros j u v I J. apply (V j); now right.
Qed.
Definition listing (ps : list entry) : list val := map (fun kx => VDict ((KS "index", key_value (fst kx)) :: snd kx)) (table ps []).
Lemma listed_is ps l : listed ps l <-> l = listing ps.
Proof.
  split.
  - intros (d & C & ->). now rewrite (collected_one _ _ _ C (table_collected ps)).
  - intros ->. exists (table ps []). split; [apply table_collected|reflexivity].
Qed.

(** ** The loops of the setters *)
Definition over (h : dict -> val) (d : list entry) : dict := map (fun kx => (fst kx, h (snd kx))) d.
Lemma over_dset h k x d : over h (dset k x d) = dset k (h x) (over h d).
Proof. induction d as [|[j y] d IH]; cbn; [reflexivity|]. destruct (key_eqb k j); cbn; [reflexivity|]. f_equal. exact IH. Qed.
Lemma fill_table f g h : (forall x, f x = let! kx := g x in Ok (fst kx, h (snd kx))) -> forall l acc,
  match mapM g l with
  | Ok ps => fill f l (over h acc) = (over h (table ps acc), Ok tt)
  | Err x => snd (fill f l (over h acc)) = Err x
  end.
Proof.
  intros H. induction l as [|x l IH]; intros acc; [reflexivity|]. cbn [mapM fill]. rewrite H. destruct (g x) as [[k e]|]; cbn [bind]; [|reflexivity].
  cbn [fst snd]. specialize (IH (dset k e acc)). rewrite over_dset in IH. destruct (mapM g l) as [ps|]; cbn [bind]; [|exact IH]. exact IH.
Qed.
Definition its_name (e : dict) : val := odflt VNone (dget (KS "name") e).
Lemma name_of_val n : name_val n = let! o := name_str defaultentities n in Ok (name_of o).
Proof. unfold name_val. destruct (name_str defaultentities n) as [[]|]; reflexivity. Qed.
Lemma cargo_fill_table l : match mapM cargo_fields l with
  | Ok ps => fill cargo_entry l [] = (over its_name (table ps []), Ok tt) | Err x => snd (fill cargo_entry l []) = Err x end.
Proof.
  apply (fill_table cargo_entry cargo_fields its_name) with (acc := []). intros x. unfold cargo_entry, cargo_fields. destruct (getitem x "name") as [n|]; cbn [bind]; [|reflexivity]. rewrite name_of_val.
  destruct (name_str defaultentities n); cbn [bind]; [|reflexivity]. destruct (getitem x "index") as [j|]; cbn [bind]; [|reflexivity]. destruct (key_of_val j); reflexivity.
Qed.
Lemma request_fill_table l : match mapM request_fields l with
  | Ok ps => fill request_entry l [] = (over VDict (table ps []), Ok tt) | Err x => snd (fill request_entry l []) = Err x end.
Proof.
  apply (fill_table request_entry request_fields VDict) with (acc := []). intros x. unfold request_entry, request_fields. destruct (getitem x "name") as [n|]; cbn [bind]; [|reflexivity]. rewrite name_of_val.
  destruct (name_str defaultentities n); cbn [bind]; [|reflexivity]. destruct (getitem x "count") as [c|]; cbn [bind]; [|reflexivity]. destruct (py_int c); cbn [bind]; [|reflexivity].
  destruct (getitem x "index") as [j|]; cbn [bind]; [|reflexivity]. destruct (key_of_val j); reflexivity.
Qed.
Lemma infinity_fill_table l : match mapM infinity_fields l with
  | Ok ps => fill infinity_entry l [] = (over VDict (table ps []), Ok tt) | Err x => snd (fill infinity_entry l []) = Err x end.
Proof.
  apply (fill_table infinity_entry infinity_fields VDict) with (acc := []). intros x. unfold infinity_entry, infinity_fields. destruct (getitem x "mode") as [m|]; cbn [bind]; [|reflexivity].
  destruct (str_in m _); cbn [negb bind]; [|reflexivity]. destruct (getitem x "count") as [c|]; cbn [bind]; [|reflexivity]. destruct (getitem x "name") as [n|]; cbn [bind]; [|reflexivity]. rewrite name_of_val.
  destruct (name_str defaultentities n); cbn [bind]; [|reflexivity]. destruct (getitem x "index") as [j|]; cbn [bind]; [|reflexivity]. destruct (key_of_val j); reflexivity.
Qed.
Lemma table_from (P : dict -> Prop) (g : val -> res entry) l ps : (forall x k e, g x = Ok (k, e) -> P e) -> mapM g l = Ok ps -> forall k e, In (k, e) (table ps []) -> P e.
Proof.
  intros H M k e I. destruct (table_collected ps) as [_ C]. destruct (C k e I) as (u & r & E & _).
  assert (J : In (k, e) ps) by (rewrite E; apply in_or_app; right; now left). clear -H M J. revert ps M J. induction l as [|x l IH]; intros ps M J; cbn [mapM] in M; [injection M as <-; contradiction|].
  destruct (g x) as [kx|] eqn:G; cbn [bind] in M; [|discriminate]. destruct (mapM g l) as [qs|]; cbn [bind] in M; [|discriminate]. injection M as <-. destruct J as [->|J]; [exact (H _ _ _ G)|eauto].
Qed.
Ltac opened := repeat match goal with H : bind ?r _ = Ok _ |- _ => destruct r; cbn [bind] in H; [|discriminate H] | H : (if ?b then _ else _) = Ok _ |- _ => destruct b; [|discriminate H] end.
Lemma cargo_listed l ps : mapM cargo_fields l = Ok ps -> map (fun kv => VDict [(KS "index", val_of_key (fst kv)); (KS "name", snd kv)]) (over its_name (table ps [])) = listing ps.
Proof.
  intros M. unfold listing, over. rewrite map_map. apply map_ext_in. intros [k e] I. cbn [fst snd].
  destruct (table_from (fun e => exists n, e = [(KS "name", n)]) cargo_fields _ _ ltac:(intros x0 k0 e0 H0; clear - H0; unfold cargo_fields in H0; opened; injection H0 as <- <-; eauto) M k e I) as (n & ->). reflexivity.
Qed.
Lemma request_listed l ps : mapM request_fields l = Ok ps -> map (fun kv => VDict [(KS "index", val_of_key (fst kv));
    (KS "name", odflt VNone (match snd kv with VDict e => dget "name" e | _ => None end)); (KS "count", odflt VNone (match snd kv with VDict e => dget "count" e | _ => None end))]) (over VDict (table ps [])) = listing ps.
Proof.
  intros M. unfold listing, over. rewrite map_map. apply map_ext_in. intros [k e] I. cbn [fst snd].
  destruct (table_from (fun e => exists n c, e = [(KS "name", n); (KS "count", c)]) request_fields _ _ ltac:(intros x0 k0 e0 H0; clear - H0; unfold request_fields in H0; opened; injection H0 as <- <-; eauto) M k e I) as (n & c & ->). reflexivity.
Qed.
Lemma infinity_listed l ps : mapM infinity_fields l = Ok ps -> map (fun kv => VDict [(KS "index", val_of_key (fst kv)); (KS "count", odflt VNone (match snd kv with VDict e => dget "count" e | _ => None end));
    (KS "mode", odflt VNone (match snd kv with VDict e => dget "mode" e | _ => None end)); (KS "name", odflt VNone (match snd kv with VDict e => dget "name" e | _ => None end))]) (over VDict (table ps [])) = listing ps.
Proof.
  intros M. unfold listing, over. rewrite map_map. apply map_ext_in. intros [k e] I. cbn [fst snd].
  destruct (table_from (fun e => exists c m n, e = [(KS "count", c); (KS "mode", m); (KS "name", n)]) infinity_fields _ _ ltac:(intros x0 k0 e0 H0; clear - H0; unfold infinity_fields in H0; opened; injection H0 as <- <-; eauto) M k e I) as (c & m & n & ->). reflexivity.
Qed.

(** ** Settings *)
Section Settings.
Variables (p : protos) (s : bool) (v : val).
Definition after (k : mattr) (y : res (option val)) : Prop :=
  match y with
  | Err x => forall a, snd (set_at p s k v a) = Err x
  | Ok o => forall a, snd (set_at p s k v a) = Ok tt /\
      forall p' dir u, RenameProofs.written p' dir (home k) (fst (set_at p s k v a)) = Ok u -> dget (KS (shown_at k)) u = o
  end.
Lemma put_after k sk (f : res val) (G : val -> option val) : (forall a, set_at p s k v a = put sk f a) ->
  (forall p' dir a j u, f = Ok j -> RenameProofs.written p' dir (home k) (dset (KS sk) j a) = Ok u -> dget (KS (shown_at k)) u = G j) ->
  after k (let! j := f in Ok (G j)).
Proof.
  intros S W. destruct f as [j|x] eqn:F; cbn [bind after]; intros a; rewrite S; cbn [put fst snd]; [|reflexivity].
  split; [reflexivity|]. intros p' dir u H. exact (W p' dir a j u eq_refl H).
Qed.
Ltac look H := unfold RenameProofs.written in H; cbn [home keyword_of json_mixin] in H; unfold dsc, aget in H; rewrite ?DocProofs.dget_dset', ?key_eqb_refl in H;
  cbn [odflt key_eqb String.eqb Ascii.eqb Bool.eqb bind] in H;
  repeat match type of H with context [match ?x with _ => _ end] => (is_var x; fail 1) || destruct x; cbn [bind] in H; try discriminate H end;
  repeat match type of H with context [match ?x with _ => _ end] => destruct x; cbn [bind] in H; try discriminate H end;
  try (apply AttrProofs.ok_inj in H; subst).
Ltac shown := cbn [shown_at attr_name];
  repeat first [apply AttrProofs.obj_shows; repeat first [reflexivity | rewrite AttrProofs.obj_other by reflexivity] | rewrite AttrProofs.obj_other by reflexivity | rewrite AttrProofs.dset_other by reflexivity].
Ltac stored := match goal with |- after ?k _ => apply (put_after k (attr_name k)) end; try reflexivity; let H := fresh in intros ? ? ? ? ? _ H; look H; shown.
Definition spec k := setting (p_recipe p) s k v.
Definition settled k : Prop := exists y, describes (spec k) y /\ after k y.
Lemma shows_opt j : shows j = match j with VNone => None | _ => Some j end. Proof. destruct j; reflexivity. Qed.

(** *** one value *)
Lemma s_whole k : k = ABar \/ k = AOverride -> doubles v -> settled k.
Proof.
  intros K D. exists (let! j := int_or_none v in Ok (shows j)). split.
  - destruct K as [-> | ->]; apply (d_optional v _ _ (let! z := py_int v in Ok (Some (VInt z)))); try (intros _; apply d_then; [now apply d_whole|intros z _; apply d_gives]);
      destruct v as [| | |f|t| |]; cbn [int_or_none bind shows py_int]; try reflexivity; [destruct (nint (NF f))|destruct (int_of_string t)|destruct (nint (NF f))|destruct (int_of_string t)]; reflexivity.
  - destruct K as [-> | ->]; stored.
Qed.
Lemma s_orientation : doubles v -> settled AOrientation.
Proof.
  intros D. exists (let! j := orientation_set v in Ok (shows j)). split.
  - apply (d_optional v _ _ (let! n := (match v with VInt z => Ok (NI z) | VFlt f => Ok (NF f) | VBool _ | VStr _ | VNone => Err EUnmodelled | _ => Err EType end) in
                             let! m := nmod n (NF one) in Ok (Some (numeral m)))).
    + destruct v as [|b|z|f|t|l|d]; cbn [orientation_set bind num_of_val shows]; try reflexivity;
        match goal with |- context [nmod ?n ?m] => change (nmod n (NF one)) with (nmod n (NF fone)); destruct (nmod n (NF fone)) as [[]|] end; reflexivity.
    + intros NN. apply d_then.
      * split.
        { intros r H. destruct H; try reflexivity; discriminate. }
        { intros N. destruct v; try constructor; try (now elim N). }
      * intros n E. apply d_then; [|intros m _; apply d_gives].
        assert (F : float_ok n) by (destruct v as [|b|z|f|t|l|d]; try discriminate; injection E as <-; [exact I|now inversion D]).
        pose proof (remainder_ok n (NF one) F eq_refl) as R. split; [|intros _; exact R].
        intros r H. destruct (p_C62_determined n (NF one) (nmod n (NF one)) r) as (_ & _ & _ & _ & Q). now apply Q.
  - stored.
Qed.
Lemma s_choice k l : k = AFilterMode /\ l = ["whitelist"; "blacklist"]%string \/ (k = AInputPriority \/ k = AOutputPriority) /\ l = ["right"; "left"]%string -> settled k.
Proof.
  intros K. exists (let! j := only (is_none v || str_in v l) v in Ok (shows j)). split.
  - assert (D : describes (optional v (must (one_of l v) (Some v))) (let! j := only (is_none v || str_in v l) v in Ok (shows j))).
    { apply (d_optional v _ _ (if str_in v l then Ok (Some v) else Err EValue)); [|intros _; apply d_must, str_in_is].
      destruct v as [|b|z|f|t|q|d]; try reflexivity. cbn [is_none orb]. unfold only. destruct (str_in _ _); reflexivity. }
    destruct K as [[-> ->]|[[-> | ->] ->]]; exact D.
  - destruct K as [[-> ->]|[[-> | ->] ->]]; stored.
    match goal with H : bind _ _ = Ok _ |- _ => apply EntProofs.bind_ok in H as (js & _ & H); apply AttrProofs.ok_inj in H; subst end. shown.
Qed.
Lemma s_type : settled AType.
Proof.
  exists (let! j := only (str_in v ["input"; "output"]%string) v in Ok (shows j)). split.
  - replace (let! j := only (str_in v ["input"; "output"]%string) v in Ok (shows j)) with (if str_in v ["input"; "output"]%string then Ok (Some v) else Err EValue).
    + apply d_must, str_in_is.
    + destruct v as [|b|z|f|t|q|d]; try reflexivity. unfold only. destruct (str_in _ _); reflexivity.
  - stored.
Qed.
Lemma s_station : settled AStation.
Proof.
  exists (let! j := Ok v in Ok (shows j)). split; [apply d_gives|]. stored.
Qed.
Lemma s_buffers : settled AFromBuffers.
Proof.
  exists (let! j := Ok v in Ok (if truthy j then Some j else None)). split.
  - split.
    + intros r [[F ->]|[F ->]]; rewrite falsy_is in F; cbn [bind]; [now rewrite F|]. destruct (truthy v); [reflexivity|now elim F].
    + intros _. cbn [bind]. unfold spec, setting. destruct (truthy v) eqn:T; [right|left]; (split; [rewrite falsy_is; congruence|reflexivity]).
  - apply (put_after _ "request_from_buffers"); try reflexivity. intros p' dir a j u _ H. unfold RenameProofs.written in H. cbn [home keyword_of json_mixin] in H. unfold aget in H.
    rewrite DocProofs.dget_dset', key_eqb_refl in H. cbn [bind] in H. rewrite DocProofs.dget_dset' in H. cbn [key_eqb String.eqb Ascii.eqb Bool.eqb] in H.
    destruct (dget "request_filters" a) as [f|]; [|discriminate]. cbn [bind] in H.
    assert (U : dget (KS "request_from_buffers") u = dget (KS "request_from_buffers") (if truthy j then dset "request_from_buffers" j [] else [])).
    { destruct f as [| | | | | |[|x r]]; apply AttrProofs.ok_inj in H; subst u; try reflexivity. now rewrite AttrProofs.dset_other. }
    cbn [shown_at attr_name]. rewrite U. destruct (truthy j); reflexivity.
Qed.
Lemma s_filter : settled AFilter.
Proof.
  exists (let! j := name_val v in Ok (shows j)). split.
  - replace (let! j := name_val v in Ok (shows j)) with (let! o := name_str defaultentities v in Ok (option_map VStr o)).
    + apply d_then; [apply d_name|]. intros o _. apply d_gives.
    + unfold name_val. destruct (name_str defaultentities v) as [[]|]; reflexivity.
  - stored.
Qed.
Lemma s_recipe : settled ARecipe.
Proof.
  exists (let! j := recipe_set p s v in Ok (shows j)). split.
  - apply (d_optional v _ _ (let! j := recipe_set p s v in Ok (Some j))).
    + unfold recipe_set. destruct s; cbn [negb]; destruct v as [|b|z|f|t|l|d]; cbn [in_table bind]; try reflexivity. destruct (dmem t _); reflexivity.
    + intros NN. split.
      * intros r H. unfold recipe_set. destruct H as [t [E|E]|u E N HH U|u E HH].
        -- now rewrite E.
        -- destruct s; [|reflexivity]. cbn [negb in_table bind]. unfold dmem. destruct (dget t (p_recipe p)); [reflexivity|now elim E].
        -- rewrite E. cbn [negb]. destruct u as [|b|z|f|t|l|d]; try contradiction; try reflexivity. cbn [in_table bind]. unfold dmem. now rewrite (U t eq_refl).
        -- rewrite E. cbn [negb]. destruct u as [|b|z|f|t|l|d]; try (elim HH; exact I); reflexivity.
      * intros N. unfold recipe_set in *. destruct s; cbn [negb] in *.
        -- destruct v as [|b|z|f|t|l|d]; cbn [in_table bind] in *; [now elim NN|..]; try (apply rk_unknown; [reflexivity|discriminate|exact I|discriminate]); try (apply rk_unhashable; [reflexivity|cbn; auto]).
           unfold dmem in *. destruct (dget t (p_recipe p)) eqn:E; cbn [bind] in *; [apply rk_known; right; congruence|apply rk_unknown; [reflexivity|discriminate|exact I|]]. intros x X. injection X as <-. exact E.
        -- destruct v as [|b|z|f|t|l|d]; cbn [bind] in *; try (now elim N). apply rk_known. now left.
  - stored.
Qed.
Lemma bool_like_is : bool_like v = true <-> bool_or_none v.
Proof.
  unfold bool_or_none. assert (Q : forall n, neqb n (NI 0) || neqb n (NI 1) = true <-> exists q, nfin n q /\ (q == 0 \/ q == 1)%Q).
  { intros n. rewrite orb_true_iff, !neqb_spec. unfold nfin. change (nval (NI 0)) with (XFin 0). change (nval (NI 1)) with (XFin 1).
    unfold xeq, xfin. destruct (nval n) as [| |q|]; cbn [xcmp].
    - split; [intros [E|E]; discriminate|intros (x & [] & _)].
    - split; [intros [E|E]; discriminate|intros (x & [] & _)].
    - assert (K : forall c, Some (q ?= c)%Q = Some Eq <-> (q == c)%Q).
      { intros c. rewrite Qeq_alt. split; congruence. }
      rewrite !K. split; [intros H; exists q; split; [reflexivity|exact H]|intros (x & E & H); now rewrite E].
    - split; [intros [E|E]; discriminate|intros (x & [] & _)]. }
  destruct v as [|b|z|f|t|l|d]; cbn [bool_like]; split; try discriminate; eauto.
  - intros H. right. right. exists (NI z). rewrite <- !neqb_int in H. apply Q in H as (q & A & B). eauto.
  - intros [E|[(b & E)|(n & q & E & H)]]; try discriminate. destruct n as [x|x]; [|discriminate]. injection E as <-. rewrite <- !neqb_int. apply Q. eauto.
  - intros H. right. right. exists (NF f). apply Q in H as (q & A & B). eauto.
  - intros [E|[(b & E)|(n & q & E & H)]]; try discriminate. destruct n as [x|x]; [discriminate|]. injection E as <-. apply Q. eauto.
  - intros [E|[(b & E)|(n & q & E & H)]]; try discriminate. destruct n; discriminate.
  - intros [E|[(b & E)|(n & q & E & H)]]; try discriminate. destruct n; discriminate.
  - intros [E|[(b & E)|(n & q & E & H)]]; try discriminate. destruct n; discriminate.
Qed.
Lemma s_launch : settled AAutoLaunch.
Proof.
  exists (let! j := only (bool_like v) v in Ok (shows j)). split; [|stored].
  apply (d_optional v _ _ (if bool_like v then Ok (Some v) else Err EValue)); [|intros _; apply d_must, bool_like_is].
  destruct v; try reflexivity; unfold only; destruct (bool_like _); reflexivity.
Qed.
Lemma numeral_val n : val_of_num n = numeral n. Proof. destruct n; reflexivity. Qed.
Definition range_check (n : num) : bool := nltb n (NI 0) || ngtb n (NI 255).
Lemma range_is n q : nfin n q -> (range_check n = true <-> (q < 0)%Q \/ (255 < q)%Q).
Proof.
  intros H. unfold range_check. rewrite orb_true_iff, ngtb_nltb, !nltb_spec. change (nval (NI 0)) with (XFin 0). change (nval (NI 255)) with (XFin 255).
  unfold nfin, xfin in H. destruct (nval n) as [| |x|]; try contradiction. unfold xlt. cbn [xcmp].
  assert (K : forall a b, Some (a ?= b)%Q = Some Lt <-> (a < b)%Q) by (intros a b; rewrite Qlt_alt; split; congruence).
  rewrite !K, H. reflexivity.
Qed.
Lemma s_variation : settled AVariation.
Proof.
  exists (let! j := variation_set v in Ok (shows j)). split; [|stored].
  assert (N : forall n, variation_set (numeral n) = if range_check n then Err EValue else Ok (numeral n)).
  { intros [z|f]; cbn [numeral variation_set]; [|reflexivity]. unfold range_check. rewrite ngtb_nltb, !nltb_int. reflexivity. }
  assert (T : forall n q, nfin n q -> variation_checked (numeral n) (let! j := variation_set (numeral n) in Ok (shows j))).
  { intros n q H. rewrite N. pose proof (range_is n q H) as R. destruct (range_check n); cbn [bind].
    - apply (vr_outside n q); [exact H|]. now apply R.
    - replace (shows (numeral n)) with (Some (numeral n)) by (destruct n; reflexivity). apply (vr_number n q); [exact H|..]; apply Qnot_lt_le; intros K; destruct R as [_ R]; assert (false = true) by (apply R; auto); discriminate. }
  split.
  - intros r H. destruct H as [n q F A B|n q F A|t| |b| |t|l|d]; try reflexivity.
    + rewrite N. destruct (range_check n) eqn:R; [|destruct n; reflexivity]. apply (range_is n q F) in R as [R|R]; [elim (Qlt_not_le _ _ R A)|elim (Qlt_not_le _ _ R B)].
    + rewrite N. now apply (range_is n q F) in A as ->.
    + destruct t; reflexivity.
  - intros _. unfold spec, setting. destruct v as [|b|z|f|t|l|d]; try constructor.
    + apply (T (NI z) (inject_Z z)). unfold nfin, xfin. cbn [nval]. reflexivity.
    + destruct f as [t|t| |t m e].
      * apply (T (NF (S754_zero t)) 0%Q). unfold nfin, xfin. cbn. reflexivity.
      * destruct t; apply vr_infinite.
      * apply vr_nan.
      * apply (T (NF (S754_finite t m e)) (dyadic (cond_Zopp t (Zpos m)) e)). unfold nfin, xfin. cbn [nval fval]. reflexivity.
Qed.

(** *** places and colours *)
Lemma s_place k : k = APickup \/ k = ADrop -> settled k.
Proof.
  intros K. exists (let! j := vector_field v in Ok (shows j)). split; [|destruct K as [-> | ->]; stored].
  assert (D : describes (optional v (place v)) (let! j := vector_field v in Ok (shows j))); [|destruct K as [-> | ->]; exact D].
  apply (d_optional v _ _ (let! j := vector_field v in Ok (shows j))); [destruct v; reflexivity|]. intros NN. unfold vector_field. split.
  - intros r H. destruct H as [d x y X Y|d M|u O].
    + cbn [vec_of_val]. rewrite X, Y. destruct x, y; reflexivity.
    + cbn [vec_of_val]. destruct (dget "x" d); [|reflexivity]. destruct M as [M|M]; [discriminate|]. now rewrite M.
    + destruct u; try reflexivity; [now elim NN|now elim (O d)].
  - intros N. destruct v as [|b|z|f|t|l|d]; try (apply pl_other; discriminate); [now elim NN|]. cbn [vec_of_val] in *.
    destruct (dget "x" d) as [x|] eqn:X; [|apply pl_missing; auto]. destruct (dget "y" d) as [y|] eqn:Y; [|apply pl_missing; auto].
    destruct x as [|bx|zx|fx|tx|lx|dx]; try (now elim N); destruct y as [|by'|zy|fy|ty|ly|dy]; try (now elim N); cbn.
    + now apply (pl_ok d (NI zx) (NI zy)).
    + now apply (pl_ok d (NI zx) (NF fy)).
    + now apply (pl_ok d (NF fx) (NI zy)).
    + now apply (pl_ok d (NF fx) (NF fy)).
Qed.
Lemma clamped_one n m : clamped n m <-> m = clamp n.
Proof.
  pose proof (clamp_clamped n) as C. split; [|intros ->; exact C]. unfold clamped in *. destruct (nval n) as [| |q|]; try congruence.
  intros (A & B & D). destruct C as (A' & B' & D'). destruct (Qlt_le_dec q 0) as [L|L]; [rewrite A, A' by exact L; reflexivity|].
  destruct (Qlt_le_dec q 1) as [M|M]; [rewrite D, D' by assumption; reflexivity|rewrite B, B' by exact M; reflexivity].
Qed.
Definition four : list string := ["r"; "g"; "b"; "a"]%string.
Definition left_over (d : dict) : dict := ddel "r" (ddel "g" (ddel "b" (ddel "a" d))).
Lemma left_in d k x : In (k, x) (left_over d) <-> In (k, x) d /\ forall t, k = KS t -> ~ In t four.
Proof.
  assert (E : forall j (e : dict), In (k, x) (ddel (KS j) e) <-> In (k, x) e /\ k <> KS j).
  { intros j e. induction e as [|[i y] e IH]; [cbn; tauto|]. change (ddel (KS j) ((i, y) :: e)) with (if key_eqb (KS j) i then ddel (KS j) e else (i, y) :: ddel (KS j) e). destruct (key_eqb (KS j) i) eqn:Q.
    - apply key_eqb_eq in Q. subst i. rewrite IH. cbn [In]. split; [intuition|]. intros [[K|K] N]; [injection K as <- _; now elim N|auto].
    - cbn [In]. rewrite IH. split; [|intuition]. intros [K|K]; [|intuition]. injection K as -> ->. split; [auto|]. intros ->. now rewrite key_eqb_refl in Q. }
  unfold left_over. rewrite !E. unfold four. split.
  - intros ((((I & N1) & N2) & N3) & N4). split; [exact I|]. intros t -> [<-|[<-|[<-|[<-|[]]]]]; congruence.
  - intros [I N]. repeat split; auto; intros ->; eapply N; try reflexivity; cbn; auto.
Qed.
Lemma all_strings (d : dict) : all_KS d = true <-> forall k x, In (k, x) d -> exists t, k = KS t.
Proof.
  induction d as [|[[t|z] y] d IH]; cbn [all_KS].
  - split; [intros _ k x []|reflexivity].
  - rewrite IH. split.
    + intros H k x [E|I]; [injection E as <- _; eauto|eauto].
    + intros H k x I. apply (H k x). now right.
  - split; [discriminate|]. intros H. destruct (H (KI z) y) as (t & E); [now left|discriminate].
Qed.
Definition kw_four : res dict := let! d := as_kwargs v in match left_over d with _ :: _ => Err EType | [] => Ok d end.
Lemma d_keywords : describes (keywords four v) kw_four.
Proof.
  unfold kw_four. split.
  - intros r H. destruct H as [d H|d k x I H|u H].
    + cbn [as_kwargs]. replace (all_KS d) with true by (symmetry; apply all_strings; intros k x I; destruct (H k x I) as (t & -> & _); eauto). cbn [bind].
      destruct (left_over d) as [|[k x] l] eqn:L; [reflexivity|]. exfalso. assert (I : In (k, x) (left_over d)) by (rewrite L; now left).
      apply left_in in I as [I N]. destruct (H k x I) as (t & -> & J). exact (N t eq_refl J).
    + cbn [as_kwargs]. destruct (all_KS d); [|reflexivity]. cbn [bind]. destruct (left_over d) as [|kx l] eqn:L; [|reflexivity].
      assert (J : In (k, x) (left_over d)) by (apply left_in; auto). rewrite L in J. contradiction.
    + destruct u; try reflexivity. now elim (H d).
  - intros _. destruct v as [|b|z|f|t|l|d]; try (apply kw_other; discriminate). cbn [as_kwargs]. destruct (all_KS d) eqn:A; cbn [bind].
    + pose proof (proj1 (all_strings d) A) as B. destruct (left_over d) as [|[k x] l] eqn:L.
      * apply kw_ok. intros k x I. destruct (B k x I) as (t & ->). exists t. split; [reflexivity|].
        destruct (in_dec string_dec t four) as [J|J]; [exact J|]. assert (K : In (KS t, x) (left_over d)) by (apply left_in; split; [exact I|]; intros u E; now injection E as <-). rewrite L in K. contradiction.
      * assert (I : In (k, x) (left_over d)) by (rewrite L; now left). apply left_in in I as [I N]. now apply (kw_bad _ d k x).
    + assert (X : exists z x, In (KI z, x) d).
      { clear -A. induction d as [|[[t|z] y] d IH]; [discriminate| |exists z, y; now left]. destruct (IH A) as (z & x & I). exists z, x. now right. }
      destruct X as (z & x & I). apply (kw_bad _ d (KI z) x I). discriminate.
Qed.
Lemma d_channel d k : describes (channel d k) (chan_arg (dget k d)).
Proof.
  split.
  - intros r [E|u q E H]; rewrite E; [reflexivity|]. destruct H; reflexivity.
  - intros N. destruct (dget k d) as [u|] eqn:E; [|now apply ch_default]. apply (ch_given d k u); [exact E|]. destruct u; cbn [chan_arg] in *; try (now constructor). now elim N.
Qed.
Lemma s_color : settled AColor.
Proof.
  exists (let! j := (match v with VNone => Ok VNone | _ => let! col := color_of_val v in Ok (color_to_json col) end) in Ok (shows j)). split; [|stored].
  apply (d_optional v _ _ (let! d := kw_four in let! r := chan_arg (dget "r" d) in let! g := chan_arg (dget "g" d) in let! b := chan_arg (dget "b" d) in let! a := chan_arg (dget "a" d) in
    Ok (Some (VDict [(KS "r", numeral (clamp r)); (KS "g", numeral (clamp g)); (KS "b", numeral (clamp b)); (KS "a", numeral (clamp a))])))).
  - unfold kw_four. destruct v as [|b|z|f|t|l|d]; try reflexivity. unfold color_of_val, left_over. destruct (as_kwargs (VDict d)) as [e|]; [|reflexivity]. cbn [bind].
    destruct (ddel "r" (ddel "g" (ddel "b" (ddel "a" e)))); [|reflexivity]. cbn [bind].
    destruct (chan_arg (dget "r" e)); [|reflexivity]. destruct (chan_arg (dget "g" e)); [|reflexivity]. destruct (chan_arg (dget "b" e)); [|reflexivity]. destruct (chan_arg (dget "a" e)); [|reflexivity].
    cbn [bind]. unfold color_to_json, color_new. cbn [col_r col_g col_b col_a shows]. now rewrite !numeral_val.
  - intros _. apply d_then; [apply d_keywords|]. intros d _. apply d_then; [apply d_channel|]. intros r _. apply d_then; [apply d_channel|]. intros g _.
    apply d_then; [apply d_channel|]. intros b _. apply d_then; [apply d_channel|]. intros a _. split.
    + intros q (r' & g' & b' & a' & R & G & B & A & ->). apply clamped_one in R, G, B, A. now subst.
    + intros _. exists (clamp r), (clamp g), (clamp b), (clamp a). repeat split; now apply clamped_one.
Qed.

(** *** speakers *)
Lemma s_parameters : settled AParameters.
Proof.
  exists (let! j := speaker_parameters v in Ok (shows j)). split; [|stored].
  apply (d_optional v _ _ (let! a := getitem v "playback_volume" in let! f := py_float a in let! b := getitem v "playback_globally" in let! c := getitem v "allow_polyphony" in
    Ok (Some (VDict [(KS "playback_volume", VFlt f); (KS "playback_globally", VBool (truthy b)); (KS "allow_polyphony", VBool (truthy c))])))).
  - unfold speaker_parameters. destruct v as [|b|z|f|t|l|d]; try reflexivity. destruct (getitem (VDict d) "playback_volume") as [a|]; [|reflexivity]. cbn [bind].
    destruct (py_float a); [|reflexivity]. cbn [bind]. destruct (getitem (VDict d) "playback_globally"); [|reflexivity]. cbn [bind]. destruct (getitem (VDict d) "allow_polyphony"); reflexivity.
  - intros _. apply d_then; [apply d_field|]. intros a _. apply d_then; [apply d_float|]. intros f _. apply d_then; [apply d_field|]. intros b _. apply d_then; [apply d_field|]. intros c _. split.
    + intros r (x & y & X & Y & ->). apply truth_is in X, Y. now subst.
    + intros _. exists (truthy b), (truthy c). repeat split; now apply truth_is.
Qed.
Definition icon_part (o : option string) : dict :=
  match o with Some n => [(KS "icon_signal_id", VDict [(KS "name", VStr n); (KS "type", default_type defaultentities n)])] | None => [] end.
Definition alert_doc (a b m : val) (o : option string) : val :=
  VDict ([(KS "show_alert", VBool (truthy a)); (KS "show_on_map", VBool (truthy b)); (KS "alert_message", m)] ++ icon_part o)%list.
Definition alert_steps {A} (k : val -> val -> val -> option string -> res A) : res A :=
  let! a := getitem v "show_alert" in let! b := getitem v "show_on_map" in
  let! i := getdef v "icon_signal_id" (VDict []) in let! n := getdef i "name" VNone in
  let! o := name_str defaultentities n in let! m := getitem v "alert_message" in k a b m o.
Lemma s_alert : settled AAlert.
Proof.
  exists (match v with VNone => Ok None | _ => alert_steps (fun a b m o => Ok (Some (alert_doc a b m o))) end). split; unfold alert_steps.
  - apply (d_optional v _ _ (alert_steps (fun a b m o => Ok (Some (alert_doc a b m o))))); [reflexivity|]. intros _. unfold alert_steps.
    apply d_then; [apply d_field|]. intros a _. apply d_then; [apply d_field|]. intros b _. apply d_then; [apply d_field_or|]. intros i _. apply d_then; [apply d_field_or|]. intros n _.
    apply d_then; [apply d_name|]. intros o O. apply d_then; [apply d_field|]. intros m _. split.
    + intros r (x & y & i' & X & Y & Z & ->). apply truth_is in X, Y. subst x y. unfold alert_doc. do 4 f_equal.
      destruct Z as [[-> ->]|(t & u & -> & (ty & K & ->) & ->)]; [reflexivity|]. cbn [icon_part]. unfold default_type, type_of in *. now rewrite K.
    + intros _. exists (truthy a), (truthy b), (icon_part o). repeat split; try now apply truth_is.
      destruct o as [t|]; [right|left; auto]. destruct (named_known _ _ _ O) as [ty K]. exists t, (VDict [(KS "name", VStr t); (KS "type", VStr ty)]). repeat split; [now exists ty|].
      cbn [icon_part]. unfold default_type. unfold type_of in K. now rewrite K.
  - assert (E : forall a, set_at p s AAlert v a = put "alert_parameters" (match v with VNone => Ok VNone | _ => alert_steps (fun x y m o =>
        Ok (VDict [(KS "show_alert", VBool (truthy x)); (KS "show_on_map", VBool (truthy y)); (KS "icon_signal_id", opt_str o); (KS "alert_message", m)])) end) a).
    { intros a. cbn [set_at]. f_equal. unfold speaker_alert, alert_steps. destruct v as [|b|z|f|t|l|d]; try reflexivity.
      destruct (getitem (VDict d) "show_alert"); [|reflexivity]. cbn [bind]. destruct (getitem (VDict d) "show_on_map"); [|reflexivity]. cbn [bind].
      destruct (getdef (VDict d) "icon_signal_id" (VDict [])) as [i|]; [|reflexivity]. cbn [bind]. destruct (getdef i "name" VNone) as [n|]; [|reflexivity]. cbn [bind].
      unfold name_val. destruct (name_str defaultentities n); reflexivity. }
    assert (W : forall p' dir a j u, RenameProofs.written p' dir CSpeaker (dset (KS "alert_parameters") j a) = Ok u ->
      match j with VDict d => dget (KS "alert_parameters") u = Some (VDict ([(KS "show_alert", dsc d "show_alert"); (KS "show_on_map", dsc d "show_on_map"); (KS "alert_message", dsc d "alert_message")]
         ++ match dsc d "icon_signal_id" with VStr n => [(KS "icon_signal_id", VDict [(KS "name", VStr n); (KS "type", default_type defaultentities n)])] | _ => [] end)%list)
      | _ => dget (KS "alert_parameters") u = None end).
    { intros p' dir a j u H. unfold RenameProofs.written in H. cbn [json_mixin] in H. unfold aget in H. rewrite !DocProofs.dget_dset' in H. cbn [key_eqb String.eqb Ascii.eqb Bool.eqb] in H.
      destruct (dget "parameters" a) as [w|]; [|discriminate]. cbn [bind] in H.
      destruct j as [|b|z|f|t|l|d]; try (apply AttrProofs.ok_inj in H; subst u; now rewrite AttrProofs.obj_other).
      apply AttrProofs.ok_inj in H. subst u. rewrite DocProofs.dget_dset', key_eqb_refl. destruct (dsc d "icon_signal_id"); reflexivity. }
    unfold alert_steps in E. unfold after. destruct v as [|b|z|f|t|l|d]; try (intros a; rewrite E; reflexivity).
    + intros a. rewrite E. cbn [put fst snd]. split; [reflexivity|]. intros p' dir u H. exact (W p' dir a VNone u H).
    + revert E. destruct (getitem (VDict d) "show_alert") as [x|]; cbn [bind]; [|intros E a; now rewrite E]. destruct (getitem (VDict d) "show_on_map") as [y|]; cbn [bind]; [|intros E a; now rewrite E].
      destruct (getdef (VDict d) "icon_signal_id" (VDict [])) as [i|]; cbn [bind]; [|intros E a; now rewrite E]. destruct (getdef i "name" VNone) as [n|]; cbn [bind]; [|intros E a; now rewrite E].
      destruct (name_str defaultentities n) as [o|]; cbn [bind]; [|intros E a; now rewrite E]. destruct (getitem (VDict d) "alert_message") as [m|]; cbn [bind]; [|intros E a; now rewrite E].
      intros E a. rewrite E. cbn [put fst snd]. split; [reflexivity|]. intros p' dir u H. pose proof (W p' dir a _ u H) as K. cbn beta iota in K. cbn [shown_at attr_name]. rewrite K. destruct o; reflexivity.
Qed.

(** *** lists *)
Definition requests_doc (ps : list entry) : option val := match listing ps with [] => None | l => Some (VList l) end.
Lemma s_requests : doubles v -> settled ARequests.
Proof.
  intros D. exists (let! l := AttrProofs.entries v in let! ps := mapM request_fields l in Ok (requests_doc ps)). split.
  - apply d_then; [apply d_elements_or|]. intros l L. apply d_then.
    + apply d_read. pose proof (doubles_entries _ _ D L) as F. rewrite Forall_forall in *. intros x I. apply d_request, F, I.
    + intros ps _. unfold requests_doc. split.
      * intros r (l' & K & [[E ->]|[E ->]]); apply listed_is in K; subst l'; [now rewrite E|]. destruct (listing ps); [now elim E|reflexivity].
      * intros _. exists (listing ps). split; [now apply listed_is|]. destruct (listing ps); [left|right]; split; auto; discriminate.
  - assert (E : forall a, set_at p s ARequests v a = match AttrProofs.entries v with Err e => (dset "request_filters" (VDict []) a, Err e) | Ok l => let '(d, r) := fill request_entry l [] in (dset "request_filters" (VDict d) a, r) end) by reflexivity.
    destruct (AttrProofs.entries v) as [l|x]; cbn [bind]; [|intros a; now rewrite E]. pose proof (request_fill_table l) as F. pose proof (request_listed l) as L.
    destruct (mapM request_fields l) as [ps|x]; cbn [bind].
    + rewrite F in E. specialize (L ps eq_refl). unfold after. intros a. rewrite E. cbn [fst snd]. split; [reflexivity|]. intros p' dir u H. unfold RenameProofs.written in H. cbn [home keyword_of json_mixin] in H. unfold aget in H.
      rewrite !DocProofs.dget_dset' in H. cbn [key_eqb String.eqb Ascii.eqb Bool.eqb] in H. destruct (dget "request_from_buffers" a) as [b|]; [|discriminate]. cbn [bind] in H. cbn [shown_at attr_name]. unfold requests_doc. rewrite <- L.
      destruct (over VDict (table ps [])) as [|x r]; apply AttrProofs.ok_inj in H; subst u; [destruct (truthy b); reflexivity|]. now rewrite DocProofs.dget_dset', key_eqb_refl.
    + intros a. rewrite E. destruct (fill request_entry l []) as [d r]. exact F.
Qed.
Lemma s_infinity : settled AInfinity.
Proof.
  exists (let! r := getitem v "remove_unfiltered_items" in let! fs := getitem v "filters" in let! l := AttrProofs.entries fs in let! ps := mapM infinity_fields l in
          Ok (Some (VDict [(KS "remove_unfiltered_items", VBool (truthy r)); (KS "filters", VList (listing ps))]))). split.
  - apply d_then; [apply d_field|]. intros r _. apply d_then; [apply d_field|]. intros fs _. apply d_then; [apply d_elements_or|]. intros l L. apply d_then.
    + apply d_read. apply Forall_forall. intros x _. apply d_infinity.
    + intros ps _. split.
      * intros q (b & l' & B & K & ->). apply listed_is in K. apply truth_is in B. now subst.
      * intros _. exists (truthy r), (listing ps). repeat split; [now apply truth_is|now apply listed_is].
  - destruct (getitem v "remove_unfiltered_items") as [r|] eqn:GR; cbn [bind]; [|intros a; cbn [set_at]; now rewrite GR].
    destruct (getitem v "filters") as [fs|] eqn:GF; cbn [bind]; [|intros a; cbn [set_at]; now rewrite GR, GF].
    assert (E : forall a, set_at p s AInfinity v a = match AttrProofs.entries fs with Err e => (dset "infinity_filters" (VDict []) (dset "infinity_remove" (VBool (truthy r)) a), Err e)
       | Ok l => let '(d, q) := fill infinity_entry l [] in (dset "infinity_filters" (VDict d) (dset "infinity_remove" (VBool (truthy r)) a), q) end).
    { intros a. cbn [set_at]. rewrite GR, GF. reflexivity. }
    destruct (AttrProofs.entries fs) as [l|x]; cbn [bind]; [|intros a; now rewrite E]. pose proof (infinity_fill_table l) as F. pose proof (infinity_listed l) as L.
    destruct (mapM infinity_fields l) as [ps|x]; cbn [bind].
    + rewrite F in E. specialize (L ps eq_refl). unfold after. intros a. rewrite E. cbn [fst snd]. split; [reflexivity|]. intros p' dir u H. unfold RenameProofs.written in H. cbn [home keyword_of json_mixin] in H. unfold aget in H.
      rewrite !DocProofs.dget_dset' in H. cbn [key_eqb String.eqb Ascii.eqb Bool.eqb bind] in H. apply AttrProofs.ok_inj in H. subst u. cbn [shown_at attr_name]. rewrite DocProofs.dget_dset', key_eqb_refl. now rewrite L.
    + intros a. rewrite E. destruct (fill infinity_entry l []) as [d q]. exact F.
Qed.
Definition inventory_doc (bar : val) (ps : list entry) : option val :=
  match bar, listing ps with
  | VNone, [] => None
  | _, l => Some (VDict (match bar with VNone => [] | _ => [(KS "bar", bar)] end ++ match l with [] => [] | _ => [(KS "filters", VList l)] end)%list)
  end.
Lemma s_inventory : settled AInventory.
Proof.
  exists (match v with VNone => Ok None | _ => let! bar := getdef v "bar" VNone in let! fs := getdef v "filters" (VList []) in let! l := iter_val fs in let! ps := mapM cargo_fields l in Ok (inventory_doc bar ps) end). split.
  - apply (d_optional v _ _ (let! bar := getdef v "bar" VNone in let! fs := getdef v "filters" (VList []) in let! l := iter_val fs in let! ps := mapM cargo_fields l in Ok (inventory_doc bar ps))); [reflexivity|].
    intros _. apply d_then; [apply d_field_or|]. intros bar _. apply d_then; [apply d_field_or|]. intros fs _. apply d_then; [apply d_elements|]. intros l _. apply d_then.
    + apply d_read. apply Forall_forall. intros x _. apply d_cargo.
    + intros ps _. unfold inventory_doc. split.
      * intros r (l' & K & H); apply listed_is in K; subst l'. destruct H as [(-> & E & ->)|(N & ->)]; [now rewrite E|]. destruct bar, (listing ps); try reflexivity. elim N. auto.
      * intros _. exists (listing ps). split; [now apply listed_is|]. destruct bar, (listing ps); try (right; split; [intros [X Y]; discriminate|reflexivity]). left. auto.
  - assert (W : forall p' dir a bar (d : list entry) u, RenameProofs.written p' dir CCargo (dset (KS "inventory_filters") (VDict (over its_name d)) (dset (KS "inventory_bar") bar a)) = Ok u ->
       dget (KS "inventory") u = shows (inventory_get bar (over its_name d))).
    { intros p' dir a bar d u H. unfold RenameProofs.written in H. cbn [json_mixin] in H. unfold aget in H. rewrite !DocProofs.dget_dset' in H. cbn [key_eqb String.eqb Ascii.eqb Bool.eqb bind] in H.
      apply AttrProofs.ok_inj in H. subst u. now apply AttrProofs.obj_shows. }
    unfold after. destruct v as [|b|z|f|t|l|d]; try (intros a; reflexivity).
    + intros a. cbn [set_at fst snd]. split; [reflexivity|]. intros p' dir u H. cbn [shown_at attr_name].
      unfold RenameProofs.written in H. cbn [home keyword_of json_mixin] in H. unfold aget in H. rewrite !DocProofs.dget_dset' in H. cbn [key_eqb String.eqb Ascii.eqb Bool.eqb bind] in H.
      apply AttrProofs.ok_inj in H. now subst u.
    + cbn [getdef bind]. set (bar := odflt VNone (dget "bar" d)). set (fs := odflt (VList []) (dget "filters" d)).
      assert (E : forall a, set_at p s AInventory (VDict d) a = match iter_val fs with Err e => (dset "inventory_bar" bar (dset "inventory_filters" (VDict []) a), Err e)
        | Ok l => let '(d, q) := fill cargo_entry l [] in (dset "inventory_filters" (VDict d) (dset "inventory_bar" bar (dset "inventory_filters" (VDict []) a)), q) end) by reflexivity.
      destruct (iter_val fs) as [l|x]; cbn [bind]; [|intros a; now rewrite E]. pose proof (cargo_fill_table l) as F. pose proof (cargo_listed l) as L.
      destruct (mapM cargo_fields l) as [ps|x]; cbn [bind].
      * rewrite F in E. specialize (L ps eq_refl). intros a. rewrite E. cbn [fst snd]. split; [reflexivity|]. intros p' dir u H. cbn [shown_at attr_name]. rewrite (W _ _ _ _ _ _ H).
        unfold inventory_get, inventory_doc. rewrite <- L. destruct bar, (over its_name (table ps [])); reflexivity.
      * intros a. rewrite E. destruct (fill cargo_entry l []) as [q r]. exact F.
Qed.

Lemma all_settled k : doubles v -> ~ is_part k -> settled k.
Proof.
  intros D N. unfold is_part in N. destruct k; try (elim N; cbn; now auto).
  - now apply s_orientation.
  - apply s_inventory.
  - apply s_color.
  - apply s_whole; auto.
  - apply s_whole; auto.
  - apply s_place; auto.
  - apply s_place; auto.
  - eapply s_choice; eauto.
  - apply s_infinity.
  - apply s_recipe.
  - apply s_buffers.
  - now apply s_requests.
  - apply s_launch.
  - apply s_parameters.
  - apply s_alert.
  - eapply s_choice; eauto.
  - eapply s_choice; eauto.
  - apply s_filter.
  - apply s_station.
  - apply s_type.
  - apply s_variation.
Qed.
End Settings.

(** ** Assignments *)
From Verif Require Import SpecClass ClassProofs CbProofs ChainFacts DocProofs EntInv RotateProofs EntProofs RenameProofs SpecEntity AttrProofs.
Lemma assign_is i k v w e : ent w i = Some e -> In (home k) (statics (e_cls e)) ->
  snd (assign_attr i k v w) = snd (set_at (w_protos w) (e_strict e) k v (e_at e)) /\
  set_attr (w_protos w) k v e = (with_at (fst (set_at (w_protos w) (e_strict e) k v (e_at e))) e, snd (set_at (w_protos w) (e_strict e) k v (e_at e))).
Proof.
  intros He I. rewrite (assign_attr_eq _ _ _ _ _ He). cbn [snd].
  assert (X : set_attr (w_protos w) k v e = (with_at (fst (set_at (w_protos w) (e_strict e) k v (e_at e))) e, snd (set_at (w_protos w) (e_strict e) k v (e_at e)))).
  { unfold set_attr. destruct (set_at _ _ k v (e_at e)) as [a r]. cbn [fst snd]. destruct (attr_cls k) as [c|] eqn:C; auto.
    assert (E : c = home k) by (destruct k; cbn in *; congruence). subst c. apply has_cls_In in I. now rewrite I. }
  split; [now rewrite X|exact X].
Qed.
Lemma assign_shown i k v w e d o : reachable w -> ent w i = Some e -> In (home k) (statics (e_cls e)) -> after (w_protos w) (e_strict e) v k (Ok o) ->
  snd (ent_json i (fst (assign_attr i k v w))) = Ok (VDict d) -> dget (KS (shown_at k)) d = o.
Proof.
  intros R He I A J. destruct (own_chain _ _ _ R He) as (l & EL & NB & ND & ON). destruct (assign_is i k v w e He I) as [_ X].
  rewrite (assign_attr_eq _ _ _ _ _ He) in J. cbn [fst] in J.
  rewrite X in J. clear X. cbn [fst snd] in J. rewrite ent_json_eq, (U_ent i e) in J by exact He. rewrite Nat.eqb_refl in J. cbn [e_pos with_at] in J. destruct (e_pos e) as [pos|]; [|discriminate].
  destruct (connections_to_json i _) as [w1 [cs|x]]; [|discriminate]. cbn [snd e_dir e_cls e_cb e_at with_at] in J. rewrite EL in J.
  apply bind_ok in J as (d0 & J & D). injection D as ->.
  assert (HG : ~ In (shown_at k) ["entity_number"; "name"; "position"; "connections"; "direction"; "control_behavior"]) by apply shown_general.
  destruct (chain_value _ _ _ _ (home k) (shown_at k) _ _ _ NB ND (home_key k) ltac:(intros E; apply HG; rewrite E; cbn; auto 9) ltac:(intros E; apply HG; rewrite E; cbn; auto 9) _ _ J) as (u & WU & E).
  assert (IL : In (home k) l).
  { destruct (ON (home k)) as [K|K]; auto; [destruct k; discriminate|]. exfalso. destruct k; cbn in K; intuition discriminate. }
  rewrite E. destruct (in_dec scls_eq_dec (home k) l); [|contradiction]. destruct (A (e_at e)) as [_ W]. rewrite (W _ _ _ (WU IL)).
  destruct o; [reflexivity|]. unfold stem. destruct k, cs; reflexivity.
Qed.

Lemma p_C67_assigned i k v w e r : reachable w -> ent w i = Some e -> In (home k) (statics (e_cls e)) -> doubles v -> ~ is_part k ->
  setting (p_recipe (w_protos w)) (e_strict e) k v r ->
  match r with
  | Err x => snd (step (OSetAttr i k v) w) = Err x
  | Ok o => snd (step (OSetAttr i k v) w) = Ok tt /\
            forall d, snd (ent_json i (fst (step (OSetAttr i k v) w))) = Ok (VDict d) -> dget (KS (shown_at k)) d = o
  end.
Proof.
  intros R He I D N H. destruct (all_settled (w_protos w) (e_strict e) v k D N) as (y & [S _] & A). apply S in H. subst y. cbn [step].
  destruct (assign_is i k v w e He I) as [E _]. destruct r as [o|x]; [|now rewrite E, (A (e_at e))].
  split; [rewrite E; apply (A (e_at e))|]. intros d J. exact (assign_shown i k v w e d o R He I A J).
Qed.
Lemma p_C67_decided i k v w e : ent w i = Some e -> In (home k) (statics (e_cls e)) -> doubles v -> ~ is_part k ->
  snd (step (OSetAttr i k v) w) <> Err EUnmodelled -> exists r, setting (p_recipe (w_protos w)) (e_strict e) k v r.
Proof.
  intros He I D N U. destruct (all_settled (w_protos w) (e_strict e) v k D N) as (y & [_ T] & A). exists y. apply T. intros ->.
  cbn [step] in U. destruct (assign_is i k v w e He I) as [E _]. rewrite E, (A (e_at e)) in U. now apply U.
Qed.
Lemma p_C67_one p s k v r r' : doubles v -> ~ is_part k -> setting p s k v r -> setting p s k v r' -> r = r'.
Proof.
  intros D N H H'. destruct (all_settled (mkProtos [] p [] [] []) s v k D N) as (y & [S _] & _). rewrite <- (S _ H). now apply S.
Qed.
Lemma p_C67_parts i k v w e : ent w i = Some e -> In (home k) (statics (e_cls e)) -> doubles v -> is_part k ->
  (forall r, part_setting k v r -> snd (step (OSetAttr i k v) w) = r) /\
  (snd (step (OSetAttr i k v) w) <> Err EUnmodelled -> part_setting k v (snd (step (OSetAttr i k v) w))).
Proof.
  intros He I D P. cbn [step]. destruct (assign_is i k v w e He I) as [-> _]. generalize (e_at e). intros a.
  change (describes (part_setting k v) (snd (set_at (w_protos w) (e_strict e) k v a))). destruct P as [<-|[<-|[<-|[]]]].
  - replace (snd (set_at (w_protos w) (e_strict e) AInventoryBar v a)) with (match v with VNone => Ok tt | _ => let! _ := py_int v in Ok tt end).
    + assert (E : v <> VNone -> describes (let? _ := whole_number v in gives tt) (let! _ := py_int v in Ok tt)) by (intros _; apply d_then; [now apply d_whole|intros; apply d_gives]).
      destruct v; try (destruct E as [S T]; [discriminate|]; split; [intros r [[X _]|[_ X]]; [discriminate|exact (S _ X)]|intros X; right; split; [discriminate|exact (T X)]]).
      split; [intros r [[_ ->]|[X _]]; [reflexivity|now elim X]|intros _; now left].
    + cbn [set_at]. destruct v; try reflexivity; cbn [int_or_none]; match goal with |- context [py_int ?u] => destruct (py_int u) end; reflexivity.
  - apply d_gives.
  - replace (snd (set_at (w_protos w) (e_strict e) AInfinityFilters v a)) with (let! l := entries v in let! _ := mapM infinity_fields l in Ok tt).
    + apply d_then; [apply d_elements_or|]. intros l _. apply d_then; [apply d_read, Forall_forall; intros x _; apply d_infinity|]. intros ps _. apply d_gives.
    + cbn [set_at]. unfold fill_attr. change (match v with VNone => Ok [] | _ => iter_val v end) with (entries v). destruct (entries v) as [l|]; [|reflexivity]. cbn [bind].
      pose proof (infinity_fill_table l) as F. destruct (mapM infinity_fields l); cbn [bind]; [now rewrite F|]. destruct (fill infinity_entry l []). cbn [snd] in *. congruence.
Qed.
Lemma p_C67_made p cust l kw s ty own cbk e k v r : typed p kw s ty -> dget ty cust = None -> In (ty, (own, cbk)) formats ->
  snd (construct p cust l kw) = Ok e -> In (attr_name k) own -> doubles v -> ~ is_part k -> setting (p_recipe p) (e_strict e) k v r ->
  match r with
  | Err x => snd (construct p cust l (dset (attr_name k) v kw)) = Err x
  | Ok _ => exists e', snd (construct p cust l (dset (attr_name k) v kw)) = Ok e'
  end.
Proof.
  intros T CU F C I D N H. pose proof (p_C58_typed p cust l kw s ty own cbk e k v T CU F C I) as X.
  destruct (accepts_typed _ _ _ _ _ _ _ _ _ _ T CU F C I) as (c & K & A).
  assert (HI : In (home k) (statics (e_cls e))).
  { destruct A as (u & q & E & _). rewrite E. replace (home k) with c; [apply in_or_app; right; now left|]. unfold home. now rewrite K. }
  assert (Y : set_attr p k v e = (with_at (fst (set_at p (e_strict e) k v (e_at e))) e, snd (set_at p (e_strict e) k v (e_at e)))).
  { unfold set_attr. destruct (set_at _ _ k v (e_at e)) as [a q]. cbn [fst snd]. destruct (attr_cls k) as [c'|] eqn:C'; auto.
    assert (E : c' = home k) by (destruct k; cbn in *; congruence). subst c'. apply has_cls_In in HI. now rewrite HI. }
  destruct (all_settled p (e_strict e) v k D N) as (y & [S _] & B). apply S in H. subst y.
  destruct (snd (construct p cust l (dset (attr_name k) v kw))) as [e'|x].
  - destruct r as [o|z]; eauto. exfalso. specialize (B (e_at e)). congruence.
  - destruct r as [o|z]; [destruct (B (e_at e)) as [B' _]|pose proof (B (e_at e)) as B']; rewrite Y in X; cbn [snd] in X; [congruence|]. congruence.
Qed.
