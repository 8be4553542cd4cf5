(** * Proofs of C65 and C66. *)
From Coq Require Import Lia.
From Verif Require Import Py Num Util SpecRound RoundProofs SpecArith ArithProofs FloorProofs DefaultEntities Values SpecValues.
Open Scope string_scope.
Open Scope Z_scope.

(** ** Directions as numbers *)
Lemma dir_new_ok z : a_direction z (Ok (RDir (dir_new z))).
Proof.
  exists (dir_new z). split; [reflexivity|]. unfold dir_new. split; [apply Z.mod_pos_bound; lia|].
  exists (z / 8). pose proof (Z.div_mod z 8). lia.
Qed.
Lemma p_C65_sums d e z : a_direction (d + z) (dir_plus d (DNum (NI z))) /\ a_direction (d - z) (dir_minus d (DNum (NI z))) /\
  a_direction (d + e) (dir_plus d (DDir e)) /\ a_direction (d - e) (dir_minus d (DDir e)).
Proof. repeat split; apply dir_new_ok. Qed.
Lemma p_C65_sums_float d f : dir_plus d (DNum (NF f)) = Err EType /\ dir_minus d (DNum (NF f)) = Err EType.
Proof. split; reflexivity. Qed.
Lemma plain_ok (R : num -> num -> res num -> Prop) a b r : R a b r -> a_plain R a b (plain r).
Proof. destruct r as [n|e]; intros H; [left; exists n|right; exists e]; auto. Qed.
Lemma p_C65_right n d : float_ok n ->
  a_plain a_sum n (NI d) (dir_rplus n d) /\ a_plain a_difference n (NI d) (dir_rminus n d) /\
  a_plain a_floor n (NI d) (dir_rfloordiv n d) /\ a_plain a_quotient n (NI d) (dir_rtruediv n d).
Proof.
  intros F. pose proof (I : float_ok (NI d)) as G. repeat split; apply plain_ok;
    [apply sum_ok|apply difference_ok|apply floor_ok|apply quotient_ok]; assumption.
Qed.
Lemma p_C65_left d n : float_ok n ->
  a_plain a_product (NI d) n (dir_times d (DNum n)) /\ a_plain a_remainder (NI d) n (dir_modulo d (DNum n)) /\
  a_plain a_floor (NI d) n (dir_floordiv d (DNum n)) /\ a_plain a_quotient (NI d) n (dir_truediv d (DNum n)).
Proof.
  intros F. pose proof (I : float_ok (NI d)) as G. repeat split; apply plain_ok;
    [apply product_ok|apply remainder_ok|apply floor_ok|apply quotient_ok]; assumption.
Qed.
Lemma p_C65_directions d e : a_plain a_product (NI d) (NI e) (dir_times d (DDir e)) /\
  a_plain a_remainder (NI d) (NI e) (dir_modulo d (DDir e)) /\
  dir_floordiv d (DDir e) = Err EType /\ dir_truediv d (DDir e) = Err EType.
Proof. repeat split; apply plain_ok; [apply product_ok|apply remainder_ok]; exact I. Qed.
Lemma dir_cases d : 0 <= d < 8 -> d = 0 \/ d = 1 \/ d = 2 \/ d = 3 \/ d = 4 \/ d = 5 \/ d = 6 \/ d = 7.
Proof. lia. Qed.
Lemma p_C65_repr d e : 0 <= d < 8 -> 0 <= e < 8 -> exists s, dir_repr d = Ok s /\ (dir_repr e = Ok s -> e = d).
Proof.
  intros D E. apply dir_cases in D. apply dir_cases in E.
  destruct D as [->|[->|[->|[->|[->|[->|[->| ->]]]]]]];
  (eexists; split; [reflexivity|]; destruct E as [->|[->|[->|[->|[->|[->|[->| ->]]]]]]]; intros H; [|..]; try reflexivity; discriminate H).
Qed.
Lemma p_C65_tests d : 0 <= d < 8 -> (is_up d = true <-> d = dir_up) /\ (is_right d = true <-> d = dir_right) /\
  (is_down d = true <-> d = dir_down) /\ (is_left d = true <-> d = dir_left).
Proof. intros _. unfold is_up, is_right, is_down, is_left. rewrite !Z.eqb_eq. repeat split; trivial. Qed.

(** ** Directions from floats *)
Definition eight_float : float64 := S754_finite false 4503599627370496 (-49).
Definition below_eight : float64 := S754_finite false 9007199254740991 (-50).
Lemma eight_units : units eight_float = eight. Proof. vm_compute. reflexivity. Qed.
Lemma below_units : units below_eight = eight - 2 ^ 1024. Proof. vm_compute. reflexivity. Qed.
(** no float lies between the two *)
Lemma gap_below_eight m : fvalid m = true -> finite m -> units m < eight -> units m <= eight - 2 ^ 1024.
Proof.
  intros V F L. destruct m as [s| | |s m e]; try contradiction; [vm_compute; discriminate|].
  destruct (float_parts _ _ _ V) as (E & M & _). destruct s; [cbn [units]; assert (0 < 2 ^ (e + 1074)) by (apply Z.pow_pos_nonneg; lia);
    assert (0 < eight - 2 ^ 1024) by (vm_compute; reflexivity); nia|].
  cbn [units] in *. rewrite Z.mul_1_l in *. destruct (Z.lt_ge_cases (e + 1074) 1024) as [S|S].
  - assert (A : 2 ^ (e + 1074) <= 2 ^ 1023) by (apply Z.pow_le_mono_r; lia).
    assert (B : 0 < 2 ^ (e + 1074)) by (apply Z.pow_pos_nonneg; lia).
    assert (C : 2 ^ 53 * 2 ^ 1023 <= eight - 2 ^ 1024) by (vm_compute; discriminate).
    set (p := 2 ^ (e + 1074)) in *. set (q := 2 ^ 1023) in *. set (x := eight - 2 ^ 1024) in *. set (y := 2 ^ 53) in *. clearbody p q x y.
    clear L E S V F. nia.
  - replace (e + 1074) with (e + 50 + 1024) in * by lia. rewrite Z.pow_add_r in * by lia.
    assert (C : eight = 2 ^ 53 * 2 ^ 1024) by (vm_compute; reflexivity). rewrite C in *.
    assert (B : 0 < 2 ^ 1024) by (vm_compute; reflexivity).
    set (p := 2 ^ (e + 50)) in *. set (q := 2 ^ 1024) in *. clearbody p q. clear C.
    set (y := 2 ^ 53) in *. clearbody y. rewrite Z.mul_assoc in *. set (k := Z.pos m * p) in *. clearbody k.
    apply Z.mul_lt_mono_pos_r in L; [|exact B]. pose proof (Z.mul_le_mono_nonneg_r k (y - 1) q ltac:(lia) ltac:(lia)). lia.
Qed.
Lemma near_below_eight r m : 0 <= r < eight -> nearest_to false r one_unit m ->
  fvalid m = true /\ finite m /\ negative m = false /\ 0 <= units m <= eight /\ (units m = eight <-> eight - 2 ^ 1023 <= r).
Proof.
  intros R. unfold nearest_to. rewrite Z.abs_eq by lia.
  assert (S : (if r =? 0 then false else r <? 0) = false) by (destruct (r =? 0); [reflexivity|apply Z.ltb_ge; lia]). rewrite S.
  intros (V & N & [(B & _)|(_ & F & H)]).
  { exfalso. assert (C : eight <= (2 ^ 54 - 1) * 2 ^ 970 * one_unit) by (vm_compute; discriminate). lia. }
  split; [exact V|]. split; [exact F|]. split; [exact N|].
  destruct (H eight_float eq_refl I) as [H1 T1]. destruct (H below_eight eq_refl I) as [H2 _]. destruct (H (S754_zero false) eq_refl I) as [H3 _].
  unfold distance in *. rewrite eight_units in *. rewrite below_units in *. change (units (S754_zero false)) with 0 in *.
  change (2 ^ 1074) with one_unit in *. assert (O : 0 < one_unit) by (vm_compute; reflexivity).
  assert (D : forall u, Z.abs (r * one_unit - u * one_unit) = Z.abs (r - u) * one_unit) by (intros u; rewrite <- Z.mul_sub_distr_r, Z.abs_mul, (Z.abs_eq one_unit); lia).
  rewrite !D in H1, H2, H3, T1. apply Z.mul_le_mono_pos_r in H1, H2, H3; [|exact O..].
  assert (P : 2 ^ 1024 = 2 * 2 ^ 1023) by (vm_compute; reflexivity). assert (Q : 0 < 2 ^ 1023) by (vm_compute; reflexivity).
  pose proof (gap_below_eight m V F) as G.
  assert (X : units m = eight - 2 ^ 1024 -> ~ even_mantissa m).
  { intros U. rewrite (units_inj m below_eight V eq_refl F I N ltac:(now rewrite below_units)). vm_compute. discriminate. }
  assert (E0 : 0 < eight - 2 ^ 1024) by (vm_compute; reflexivity).
  set (u := units m) in *. set (h := 2 ^ 1023) in *. set (H' := 2 ^ 1024) in *. set (e := eight) in *. set (o := one_unit) in *. clearbody u h H' e o. subst H'.
  split; [lia|]. split; [lia|]. intros L. destruct (Z.lt_ge_cases u e) as [K|K]; [|lia]. exfalso. specialize (G K).
  assert (E : r = e - h /\ u = e - 2 * h) by lia. destruct E as [E1 E2]. apply (X E2), T1; lia.
Qed.
(** beyond 8 floats are multiples of 2^-49 *)
Lemma coarse f : fvalid f = true -> finite f -> eight <= Z.abs (units f) -> (2 ^ 1025 | units f).
Proof.
  intros V F L. destruct f as [s| | |s m e]; try contradiction.
  destruct (float_parts _ _ _ V) as (E & M & _). cbn [units] in *. assert (P : 0 < 2 ^ (e + 1074)) by (apply Z.pow_pos_nonneg; lia).
  destruct (Z.lt_ge_cases (e + 1074) 1025) as [S|S].
  - exfalso. assert (A : 2 ^ (e + 1074) <= 2 ^ 1024) by (apply Z.pow_le_mono_r; lia).
    assert (C : eight = 2 ^ 53 * 2 ^ 1024) by (vm_compute; reflexivity). rewrite C in L. clear C V E F S.
    set (p := 2 ^ (e + 1074)) in *. set (q := 2 ^ 1024) in *. set (y := 2 ^ 53) in *. clearbody p q y.
    assert (Z.abs ((if s then -1 else 1) * Z.pos m * p) = Z.pos m * p) by (destruct s; lia). nia.
  - exists ((if s then -1 else 1) * Z.pos m * 2 ^ (e + 49)). replace (e + 1074) with (e + 49 + 1025) by lia. rewrite Z.pow_add_r by lia. ring.
Qed.
Lemma nint_units m : fvalid m = true -> finite m -> 0 <= units m -> nint (NF m) = Ok (units m / one_unit).
Proof.
  intros V F P. destruct m as [s| | |s m e]; try contradiction; [reflexivity|].
  destruct (float_parts _ _ _ V) as (E & _). unfold nint, int_via, ztrunc. assert (0 < 2 ^ (e + 1074)) by (apply Z.pow_pos_nonneg; lia).
  destruct s; [cbn [units] in P; nia|]. cbn [cond_Zopp]. change (Z.pos m <? 0) with false. cbv iota.
  change (Z.pos m) with (cond_Zopp false (Z.pos m)). rewrite zfloor_units by lia. reflexivity.
Qed.
Lemma nmod_eight f : nmod (NF f) (NI 8) = Ok (NF (fmodulo f eight_float)).
Proof. reflexivity. Qed.
Lemma p_C65_float f : fvalid f = true -> finite f -> exists m, nearest_to false (units f mod eight) one_unit m /\
  dir_of_val (VFlt f) = Ok (units m / one_unit).
Proof.
  intros V F. exists (fmodulo f eight_float).
  assert (N : nearest_to false (units f mod eight) one_unit (fmodulo f eight_float)).
  { rewrite <- eight_units. apply nearest_one_to. apply (fmodulo_one f eight_float V eq_refl F I). vm_compute. discriminate. }
  split; [exact N|]. unfold dir_of_val. rewrite nmod_eight. cbn [bind].
  assert (R : 0 <= units f mod eight < eight) by (apply Z.mod_pos_bound; vm_compute; reflexivity).
  destruct (near_below_eight _ _ R N) as (VM & FM & _ & B & _). apply nint_units; [exact VM|exact FM|lia].
Qed.
Lemma p_C65_float_range f d : fvalid f = true -> finite f -> dir_of_val (VFlt f) = Ok d ->
  0 <= d <= 8 /\ (d = 8 <-> - 2 ^ 1023 <= units f < 0).
Proof.
  intros V F. destruct (p_C65_float f V F) as (m & N & ->). intros H. injection H as <-.
  assert (R : 0 <= units f mod eight < eight) by (apply Z.mod_pos_bound; vm_compute; reflexivity).
  destruct (near_below_eight _ _ R N) as (VM & FM & _ & B & T).
  assert (Q : units m / one_unit = 8 <-> units m = eight).
  { unfold eight in *. assert (O : 0 < one_unit) by (vm_compute; reflexivity). set (o := one_unit) in *. clearbody o. split.
    - intros E. pose proof (Z.div_mod (units m) o ltac:(lia)). pose proof (Z.mod_pos_bound (units m) o O). rewrite E in *. lia.
    - intros ->. apply Z.div_mul. lia. }
  split.
  { unfold eight in B. assert (O : 0 < one_unit) by (vm_compute; reflexivity). set (o := one_unit) in *. clearbody o.
    split; [apply Z.div_pos; lia|]. apply Z.div_le_upper_bound; lia. }
  rewrite Q, T. assert (E8 : 0 < eight) by (vm_compute; reflexivity). assert (H0 : 0 < 2 ^ 1023) by (vm_compute; reflexivity).
  assert (S0 : 2 ^ 1023 < eight) by (vm_compute; reflexivity).
  split.
  - intros L. destruct (Z.lt_ge_cases (Z.abs (units f)) eight) as [S|S].
    + destruct (Z.lt_ge_cases (units f) 0) as [G|G].
      * replace (units f mod eight) with (units f + eight) in L; [lia|].
        apply (Z.mod_unique _ _ (-1)); lia.
      * (* the float itself is nearer *)
        exfalso. rewrite Z.mod_small in * by lia. pose proof (gap_below_eight f V F ltac:(lia)).
        assert (2 ^ 1024 = 2 * 2 ^ 1023) by (vm_compute; reflexivity). lia.
    + exfalso. destruct (coarse f V F S) as [k K]. assert (C : eight = 2 ^ 52 * 2 ^ 1025) by (vm_compute; reflexivity).
      assert (D : 2 ^ 1025 = 4 * 2 ^ 1023) by (vm_compute; reflexivity).
      rewrite K, C in L. rewrite Z.mul_mod_distr_r in L by (vm_compute; discriminate).
      pose proof (Z.mod_pos_bound k (2 ^ 52) ltac:(lia)) as KB. rewrite D in L.
      set (x := k mod 2 ^ 52) in *. set (h := 2 ^ 1023) in *. set (y := 2 ^ 52) in *. clearbody x h y. clear - L KB H0. nia.
  - intros L. replace (units f mod eight) with (units f + eight); [lia|]. apply (Z.mod_unique _ _ (-1)); lia.
Qed.
Lemma p_C65_float_bad f : ~ finite f -> dir_of_val (VFlt f) = Err EValue.
Proof. destruct f; intros H; try (elim H; exact I); reflexivity. Qed.

(** ** Conditions *)
Lemma dmem_known (t : names) (s : string) : dmem s t = true <-> known t s.
Proof. unfold dmem, known, type_of. destruct (dget s t) as [ty|]; split; [eauto|auto|discriminate|intros (ty & E); discriminate]. Qed.
Lemma named_is t v r : named t v r <-> name_str t v = r.
Proof.
  split.
  - intros [|s K|w H N U|w H]; cbn.
    + reflexivity.
    + apply dmem_known in K. now rewrite K.
    + destruct w; cbn in *; try contradiction; try reflexivity. destruct (dmem s t) eqn:K; [|reflexivity].
      apply dmem_known in K. elim (U s eq_refl K).
    + destruct w; cbn in *; try reflexivity; elim H; exact I.
  - intros <-. destruct v as [|b|z|f|s|l|d]; cbn [name_str].
    + constructor.
    + apply nm_unknown; [exact I|discriminate|discriminate].
    + apply nm_unknown; [exact I|discriminate|discriminate].
    + apply nm_unknown; [exact I|discriminate|discriminate].
    + destruct (dmem s t) eqn:K; [apply nm_known; now apply dmem_known|].
      apply nm_unknown; [exact I|discriminate|]. intros x E. injection E as <-. rewrite <- dmem_known, K. discriminate.
    + apply nm_unhashable. auto.
    + apply nm_unhashable. auto.
Qed.
Lemma prefix_app p : forall s, prefixb p s = true <-> exists r, s = p ++ r.
Proof.
  induction p as [|a p IH]; intros s; cbn.
  - split; eauto.
  - destruct s as [|b s]; [split; [discriminate|intros (r & E); discriminate]|]. rewrite andb_true_iff, Ascii.eqb_eq, IH. split.
    + intros [-> (r & ->)]. eauto.
    + intros (r & E). injection E as -> ->. eauto.
Qed.
Lemma substring_app p : forall s, substringb p s = true <-> exists a b, s = a ++ p ++ b.
Proof.
  induction s as [|c s IH]; cbn [substringb]; rewrite orb_true_iff, prefix_app.
  - split.
    + intros [(r & E)|E]; [exists "", r; exact E|discriminate].
    + intros ([|x a] & b & E); [left; exists b; exact E|discriminate].
  - rewrite IH. split.
    + intros [(r & E)|(a & b & ->)]; [exists "", r; exact E|exists (String c a), b; reflexivity].
    + intros ([|x a] & b & E); [left; exists b; exact E|]. injection E as -> ->. right. eauto.
Qed.
Definition first_of (v : val) : res val :=
  match v with
  | VDict d => match dget "name" d with Some n => Ok n | None => Err EType end
  | VStr s => if substringb "name" s then Err EType else Ok v
  | _ => Err EType
  end.
Lemma first_is v r : first_signal v r <-> first_of v = r.
Proof.
  split.
  - intros [d n E|s N|w D S]; cbn [first_of].
    + now rewrite E.
    + destruct (substringb "name" s) eqn:B; [|reflexivity]. apply substring_app in B. contradiction.
    + destruct w as [| | | |s| |d]; try reflexivity; cbn [first_of].
      * now rewrite (proj2 (substring_app "name" s) (S s eq_refl)).
      * destruct (dget "name" d) as [n|] eqn:E; [elim (D d n eq_refl E)|reflexivity].
  - intros <-. destruct v as [| | | |s| |d]; cbn [first_of]; try (apply fs_bad; discriminate).
    + destruct (substringb "name" s) eqn:B.
      * apply fs_bad; [discriminate|]. intros x E. injection E as <-. now apply substring_app.
      * apply fs_string. rewrite <- substring_app, B. discriminate.
    + destruct (dget "name" d) as [n|] eqn:E; [now apply fs_dict|]. apply fs_bad; [|discriminate].
      intros x n X. injection X as <-. rewrite E. discriminate.
Qed.
Lemma second_is t v r : second_operand t v r <-> cond_set_second t v = r.
Proof.
  assert (W : forall v, {whole v} + {~ whole v}).
  { intros [|b|z|f|s|l|d]; try (left; unfold whole; eauto; fail); right; intros [(x & E)|(x & E)]; discriminate. }
  assert (N : forall v, ~ whole v -> cond_set_second t v = let! n := name_str t v in Ok (match n with Some s => VStr s | None => VNone end)).
  { intros [|b|z|f|s|l|d] H; try reflexivity; elim H; [right|left]; eauto. }
  split.
  - intros [w [(z & ->)|(b & ->)]|w H E|w s H E|w e H E]; try reflexivity; rewrite (N _ H); apply named_is in E; rewrite E; reflexivity.
  - intros <-. destruct (W v) as [H|H].
    + replace (cond_set_second t v) with (@Ok val v) by (destruct H as [(z & ->)|(b & ->)]; reflexivity). now apply so_number.
    + rewrite (N _ H). destruct (name_str t v) as [[s|]|e] eqn:E; cbn [bind]; apply named_is in E.
      * now apply so_name.
      * now apply so_none.
      * now apply so_error.
Qed.
Lemma falsy_is v : falsy v <-> truthy v = false.
Proof.
  unfold falsy. split.
  - intros [H|(s & ->)]; [|reflexivity]. cbn in H. repeat (destruct H as [<-|H]; [reflexivity|]). contradiction.
  - destruct v as [|[]|z|f|s|l|d]; cbn; intros H; try discriminate; auto 10.
    + apply negb_false_iff, Z.eqb_eq in H as ->. auto 10.
    + destruct f; try discriminate. right. eauto.
    + destruct s; [|discriminate]. auto 10.
    + destruct l; [|discriminate]. auto 10.
    + destruct d; [|discriminate]. auto 10.
Qed.
Lemma given_is second constant v : given second constant v <-> v = if truthy second then second else constant.
Proof.
  unfold given. rewrite falsy_is. destruct (truthy second); split.
  - intros [[_ E]|[E _]]; [exact E|discriminate].
  - intros ->. left. split; [discriminate|reflexivity].
  - intros [[E _]|[_ E]]; [elim E; reflexivity|exact E].
  - intros ->. right. split; reflexivity.
Qed.
Lemma cmp_is v c : is_comparator v c <-> cond_set_cmp v = Ok c.
Proof.
  unfold is_comparator, cond_set_cmp. split.
  - intros [-> I]. replace (existsb (String.eqb c) cond_comparators) with true; [reflexivity|].
    symmetry. apply existsb_exists. exists c. split; [exact I|apply String.eqb_refl].
  - destruct v as [| | | |s| |]; try discriminate. destruct (existsb (String.eqb s) cond_comparators) eqn:E; [|discriminate].
    intros H. injection H as <-. split; [reflexivity|]. apply existsb_exists in E as (x & I & E). apply String.eqb_eq in E as ->. exact I.
Qed.
Lemma cmp_not v : (forall c, ~ is_comparator v c) <-> cond_set_cmp v = Err EValue.
Proof.
  split.
  - intros H. destruct (cond_set_cmp v) as [c|e] eqn:E; [apply cmp_is in E; elim (H c E)|].
    unfold cond_set_cmp in E. destruct v; try (destruct (existsb _ _) in E); congruence.
  - intros H c K. apply cmp_is in K. congruence.
Qed.
Lemma new_steps t first cmp constant second : condition_new t first cmp constant second =
  let! n := first_of first in let! o := name_str t n in
  let! s := cond_set_second t (if truthy second then second else constant) in let! c := cond_set_cmp cmp in Ok (mkCond o s c).
Proof.
  unfold condition_new, cond_set_first. destruct first as [|b|z|f|x|l|d]; cbn [first_of]; try reflexivity.
  - destruct (dget "name" d); reflexivity.
Qed.
Lemma p_C66_made t first cmp constant second r : condition_made t first cmp constant second r <-> condition_new t first cmp constant second = r.
Proof.
  rewrite new_steps. split.
  - intros [e A|n e A B|n o v e A B G C|n o v s A B G C D|n o v s c A B G C D]; apply first_is in A; rewrite A; cbn [bind]; try reflexivity;
      apply named_is in B; rewrite B; cbn [bind]; try reflexivity; apply given_is in G as ->; apply second_is in C; rewrite C; cbn [bind]; try reflexivity.
    + apply cmp_not in D. now rewrite D.
    + apply cmp_is in D. now rewrite D.
  - intros <-. destruct (first_of first) as [n|e] eqn:A; apply first_is in A; [|now apply cm_first]. cbn [bind].
    destruct (name_str t n) as [o|e] eqn:B; apply named_is in B; [|now apply (cm_name _ _ _ _ _ n)]. cbn [bind].
    pose proof (proj2 (given_is second constant _) eq_refl) as G.
    destruct (cond_set_second t (if truthy second then second else constant)) as [s|e] eqn:C; apply second_is in C; [|now apply (cm_second _ _ _ _ _ n o _ _ A B G)]. cbn [bind].
    destruct (cond_set_cmp cmp) as [c|e] eqn:D; cbn [bind].
    + apply cmp_is in D. now apply (cm_ok _ _ _ _ _ n o _ s c A B G).
    + assert (e = EValue) as -> by (unfold cond_set_cmp in D; destruct cmp; try (destruct (existsb _ _) in D); congruence).
      pose proof (proj2 (cmp_not _) D) as D2. now apply (cm_cmp _ _ _ _ _ n o _ s A B G).
Qed.

(** *** export *)
Definition sound (t : names) (c : condition) : Prop :=
  (forall s, cd_first c = Some s -> known t s) /\
  (cd_second c = VNone \/ whole (cd_second c) \/ exists s, cd_second c = VStr s /\ known t s) /\ In (cd_cmp c) comparators.
Lemma named_known t v s : name_str t v = Ok (Some s) -> known t s.
Proof. intros H. apply named_is in H. inversion H; subst; assumption. Qed.
Lemma second_sound t v s : cond_set_second t v = Ok s -> s = VNone \/ whole s \/ exists x, s = VStr x /\ known t x.
Proof.
  intros H. apply second_is in H. inversion H as [w W|w W N|w x W N|]; subst; auto.
  right. right. exists x. split; [reflexivity|]. apply named_is in N. exact (named_known _ _ _ N).
Qed.
Lemma cmp_sound v c : cond_set_cmp v = Ok c -> In c comparators.
Proof. intros H. apply cmp_is in H. exact (proj2 H). Qed.
Lemma live_sound t c : live t c -> sound t c.
Proof.
  induction 1 as [first cmp constant second c H|c a v c' L IH H].
  - rewrite new_steps in H. destruct (first_of first) as [n|] eqn:A; [|discriminate]. cbn [bind] in H.
    destruct (name_str t n) as [o|] eqn:B; [|discriminate]. cbn [bind] in H.
    destruct (cond_set_second t _) as [s|] eqn:C; [|discriminate]. cbn [bind] in H.
    destruct (cond_set_cmp cmp) as [p|] eqn:D; [|discriminate]. injection H as <-. repeat split; cbn.
    + intros x ->. exact (named_known _ _ _ B).
    + exact (second_sound _ _ _ C).
    + exact (cmp_sound _ _ D).
  - destruct IH as (F & S & P). destruct a; cbn [cond_set] in H.
    + unfold cond_set_first in H. destruct (name_str t v) as [o|] eqn:B; [|discriminate]. injection H as <-. repeat split; cbn; auto.
      intros x ->. exact (named_known _ _ _ B).
    + destruct (cond_set_second t v) as [s|] eqn:C; [|discriminate]. injection H as <-. repeat split; cbn; auto. exact (second_sound _ _ _ C).
    + destruct (cond_set_cmp v) as [p|] eqn:D; [|discriminate]. injection H as <-. repeat split; cbn; auto. exact (cmp_sound _ _ D).
Qed.
Lemma p_C66_export t c : live t c -> exists d, condition_to_json t c = Ok d /\ condition_document t c d.
Proof.
  intros L. destruct (live_sound t c L) as (F & S & P). unfold condition_to_json.
  assert (A : exists l, match cd_first c with None => Ok [] | Some s => let! v := (let! ty := name_type t s in Ok (VDict [(KS "name", VStr s); (KS "type", VStr ty)])) in Ok [(KS "first_signal", v)] end = Ok l /\
    (cd_first c = None /\ l = [] \/ exists s v, cd_first c = Some s /\ signal_document t s v /\ l = [(KS "first_signal", v)])).
  { destruct (cd_first c) as [s|]; [|exists []; auto]. destruct (F s eq_refl) as [ty K]. unfold name_type. rewrite K. cbn [bind].
    eexists. split; [reflexivity|]. right. exists s, (VDict [(KS "name", VStr s); (KS "type", VStr ty)]). split; [reflexivity|]. split; [|reflexivity]. exists ty. auto. }
  destruct A as (l & -> & A). cbn [bind].
  destruct S as [E|[[(z & E)|(b & E)]|(s & E & ty & K)]]; rewrite E.
  - eexists. split; [reflexivity|]. apply cd_doc; auto.
  - eexists. split; [reflexivity|]. rewrite <- app_assoc. apply cd_doc; auto. right. right. rewrite E. split; [left; eauto|reflexivity].
  - eexists. split; [reflexivity|]. rewrite <- app_assoc. apply cd_doc; auto. right. right. rewrite E. split; [right; eauto|reflexivity].
  - unfold name_type. rewrite K. cbn [bind]. eexists. split; [reflexivity|]. rewrite <- app_assoc. apply cd_doc; auto.
    right. left. exists s. eexists. split; [exact E|]. split; [|reflexivity]. exists ty. auto.
Qed.
(** *** reading it back *)
Lemma signal_first t s v : signal_document t s v -> first_of v = Ok (VStr s) /\ known t s.
Proof. intros (ty & K & ->). split; [reflexivity|]. now exists ty. Qed.
Lemma cmp_back c : In c comparators -> cond_set_cmp (VStr c) = Ok c.
Proof. intros H. apply cmp_is. split; [reflexivity|exact H]. Qed.
Lemma known_back t s : known t s -> name_str t (VStr s) = Ok (Some s).
Proof. intros H. apply named_is. now apply nm_known. Qed.
Lemma p_C66_back t c d : condition_document t c d ->
  condition_of t d = if match cd_first c, cd_second c with Some _, VStr _ => false | Some _, _ => true | None, _ => false end then Ok c else Err EType.
Proof.
  intros [l r A B P]. pose proof (cmp_back _ P) as Q. destruct c as [f s p]. cbn [cd_first cd_second cd_cmp] in *.
  destruct A as [[-> ->]|(x & v & -> & X & ->)].
  - destruct B as [[-> ->]|[(y & u & -> & Y & ->)|[[(z & ->)|(b & ->)] ->]]]; reflexivity.
  - destruct (signal_first _ _ _ X) as [FX KX]. apply known_back in KX. destruct X as (ty & _ & ->).
    destruct B as [[-> ->]|[(y & u & -> & Y & ->)|[[(z & ->)|(b & ->)] ->]]]; unfold condition_of; cbn -[condition_new];
      rewrite new_steps, FX; cbn [bind]; rewrite KX; cbn [bind truthy]; try (rewrite Q; reflexivity).
    destruct Y as (ty' & _ & ->). reflexivity.
Qed.
(** ** SignalID *)
Lemma p_C66_signal t v n : signal_new t v = Ok (Some n) -> exists d, signal_to_json t (Some n) = Ok d /\ signal_document t n d /\ signal_new t d = Ok (Some n).
Proof.
  unfold signal_new. destruct v as [| | | | | |d]; try discriminate. destruct (dget "name" d) as [x|]; [|discriminate]. intros H.
  destruct (named_known _ _ _ H) as [ty K]. unfold signal_to_json, signal_type. unfold type_of in K. rewrite K. cbn [bind]. eexists. split; [reflexivity|].
  split; [exists ty; auto|]. cbn. unfold dmem. now rewrite K.
Qed.
(** ** The remaining statements *)
Lemma p_C65_division : exists d n r, dir_floordiv d (DNum n) = Ok r /\ dir_truediv d (DNum n) = Ok r /\ r <> RDir d.
Proof. exists 0, (NF fone), (RNum (NF (S754_zero false))). repeat split; try (vm_compute; reflexivity). discriminate. Qed.
Lemma p_C65_commutes : exists d z, 0 <= d < 8 /\ dir_plus d (DNum (NI z)) <> dir_rplus (NI z) d.
Proof. exists 6, 5. split; [lia|]. vm_compute. discriminate. Qed.
Lemma p_C65_named :
  (dir_up = 0 /\ dir_right = 2 /\ dir_down = 4 /\ dir_left = 6) /\
  forall d, (is_up d = true <-> d = 0) /\ (is_right d = true <-> d = 2) /\ (is_down d = true <-> d = 4) /\ (is_left d = true <-> d = 6).
Proof. split; [repeat split|]. intros d. unfold is_up, is_right, is_down, is_left. rewrite !Z.eqb_eq. repeat split; trivial. Qed.
Lemma p_C65_nine : exists f d, fvalid f = true /\ finite f /\ dir_of_val (VFlt f) = Ok d /\
  ~ 0 <= d < 8 /\ dir_vector d = None /\ dir_repr d = Err EIndex.
Proof. exists (S754_finite true 4503599627370496 (-152)), 8. repeat split; try (vm_compute; reflexivity). lia. Qed.
Lemma p_C66_assign t c v r :
  (cond_set t c CFirst v = r <-> (exists n, named t v (Ok n) /\ r = Ok (mkCond n (cd_second c) (cd_cmp c))) \/ exists e, named t v (Err e) /\ r = Err e) /\
  (cond_set t c CSecond v = r <-> (exists s, second_operand t v (Ok s) /\ r = Ok (mkCond (cd_first c) s (cd_cmp c))) \/ exists e, second_operand t v (Err e) /\ r = Err e) /\
  (cond_set t c CComparator v = r <-> (exists p, is_comparator v p /\ r = Ok (mkCond (cd_first c) (cd_second c) p)) \/ (forall p, ~ is_comparator v p) /\ r = Err EValue).
Proof.
  cbn [cond_set]. unfold cond_set_first. split; [|split].
  - destruct (name_str t v) as [n|e] eqn:E; cbn [bind]; split.
    + intros <-. left. exists n. split; [now apply named_is|reflexivity].
    + intros [(m & N & ->)|(e & N & ->)]; apply named_is in N; congruence.
    + intros <-. right. exists e. split; [now apply named_is|reflexivity].
    + intros [(m & N & ->)|(e' & N & ->)]; apply named_is in N; congruence.
  - destruct (cond_set_second t v) as [n|e] eqn:E; cbn [bind]; split.
    + intros <-. left. exists n. split; [now apply second_is|reflexivity].
    + intros [(m & N & ->)|(e & N & ->)]; apply second_is in N; congruence.
    + intros <-. right. exists e. split; [now apply second_is|reflexivity].
    + intros [(m & N & ->)|(e' & N & ->)]; apply second_is in N; congruence.
  - destruct (cond_set_cmp v) as [n|e] eqn:E; cbn [bind]; split.
    + intros <-. left. exists n. split; [now apply cmp_is|reflexivity].
    + intros [(m & N & ->)|[N ->]]; [apply cmp_is in N; congruence|]. apply cmp_not in N. congruence.
    + intros <-. assert (e = EValue) as -> by (unfold cond_set_cmp in E; destruct v; try (destruct (existsb _ _) in E); congruence).
      right. split; [exact (proj2 (cmp_not v) E)|reflexivity].
    + intros [(m & N & ->)|[N ->]]; [apply cmp_is in N; congruence|]. apply cmp_not in N. congruence.
Qed.
Lemma p_C66_read_back t c d : live t c -> condition_to_json t c = Ok d ->
  (condition_of t d = Ok c <-> cd_first c <> None /\ forall s, cd_second c <> VStr s) /\
  (condition_of t d = Err EType <-> cd_first c = None \/ exists s, cd_second c = VStr s).
Proof.
  intros L J. destruct (p_C66_export t c L) as (d' & J' & D). assert (d' = d) as -> by congruence. rewrite (p_C66_back t c d D).
  destruct (cd_first c) as [f|]; [|split; split; try discriminate; auto; intros [H _]; now elim H].
  destruct (cd_second c) as [|b|z|x|s|l|m]; split; split; try discriminate; auto; try (intros _; split; discriminate);
    try (intros [H|[y H]]; discriminate).
  - intros [_ H]. now elim (H s).
  - intros _. right. eauto.
Qed.
Lemma p_C66_refuted : exists c d, live defaultentities c /\ cd_first c <> None /\
  condition_to_json defaultentities c = Ok d /\ condition_of defaultentities d = Err EType.
Proof.
  exists (mkCond (Some "signal-A") (VStr "iron-plate") "<=").
  assert (L : live defaultentities (mkCond (Some "signal-A") (VStr "iron-plate") "<=")).
  { apply (lv_new _ (VStr "signal-A") (VStr "<=") VNone (VStr "iron-plate")). vm_compute. reflexivity. }
  destruct (p_C66_export _ _ L) as (d & J & _). exists d. split; [exact L|]. split; [discriminate|]. split; [exact J|].
  apply (proj2 (proj2 (p_C66_read_back _ _ _ L J))). right. now exists "iron-plate".
Qed.
Lemma p_C66_signal_made t v r : signal_new t v = r <->
  (exists d n, v = VDict d /\ dget "name" d = Some n /\ named t n r) \/
  (exists d, v = VDict d /\ dget "name" d = None /\ r = Err EKey) \/
  ((forall d, v <> VDict d) /\ r = Err EType).
Proof.
  split.
  - intros <-. destruct v as [|b|z|f|s|l|d]; try (right; right; split; [discriminate|reflexivity]). cbn [signal_new].
    destruct (dget "name" d) as [n|] eqn:E; [left; exists d, n|right; left; exists d]; repeat split; try assumption. now apply named_is.
  - intros [(d & n & -> & E & N)|[(d & -> & E & ->)|[H ->]]].
    + cbn [signal_new]. rewrite E. now apply named_is.
    + cbn [signal_new]. now rewrite E.
    + destruct v as [|b|z|f|s|l|d]; try reflexivity. now elim (H d).
Qed.
Lemma p_C66_nameless t : signal_new t (VDict [(KS "name", VNone)]) = Ok None /\ signal_to_json t None = Err EKey.
Proof. split; reflexivity. Qed.
