(** * C65, C66: the operators of Direction, Condition and SignalID. *)
From Verif Require Import Py Num Util SpecRound SpecArith DefaultEntities Values SpecValues SpecCompass ValuesProofs CompassProofs.
Open Scope string_scope.
Open Scope Z_scope.

(** ** C65: a Direction as a number *)
Theorem C65_sums_and_differences : forall d e z,
  a_direction (d + z) (dir_plus d (DNum (NI z))) /\ a_direction (d - z) (dir_minus d (DNum (NI z))) /\
  a_direction (d + e) (dir_plus d (DDir e)) /\ a_direction (d - e) (dir_minus d (DDir e)).
Proof. exact p_C65_sums. Qed.
Print Assumptions C65_sums_and_differences.
Theorem C65_float_operand : forall d f, dir_plus d (DNum (NF f)) = Err EType /\ dir_minus d (DNum (NF f)) = Err EType.
Proof. exact p_C65_sums_float. Qed.
Print Assumptions C65_float_operand.
Theorem C65_direction_on_the_right : forall n d, float_ok n ->
  a_plain a_sum n (NI d) (dir_rplus n d) /\ a_plain a_difference n (NI d) (dir_rminus n d) /\
  a_plain a_floor n (NI d) (dir_rfloordiv n d) /\ a_plain a_quotient n (NI d) (dir_rtruediv n d).
Proof. exact p_C65_right. Qed.
Print Assumptions C65_direction_on_the_right.
Theorem C65_direction_on_the_left : forall d n, float_ok n ->
  a_plain a_product (NI d) n (dir_times d (DNum n)) /\ a_plain a_remainder (NI d) n (dir_modulo d (DNum n)) /\
  a_plain a_floor (NI d) n (dir_floordiv d (DNum n)) /\ a_plain a_quotient (NI d) n (dir_truediv d (DNum n)).
Proof. exact p_C65_left. Qed.
Print Assumptions C65_direction_on_the_left.
Theorem C65_two_directions : forall d e,
  a_plain a_product (NI d) (NI e) (dir_times d (DDir e)) /\ a_plain a_remainder (NI d) (NI e) (dir_modulo d (DDir e)) /\
  dir_floordiv d (DDir e) = Err EType /\ dir_truediv d (DDir e) = Err EType.
Proof. exact p_C65_directions. Qed.
Print Assumptions C65_two_directions.
(** the methods that return NotImplemented do not disable division *)
Theorem C65_division_disabled_refuted : exists d n r, dir_floordiv d (DNum n) = Ok r /\ dir_truediv d (DNum n) = Ok r /\ r <> RDir d.
Proof. exact p_C65_division. Qed.
Print Assumptions C65_division_disabled_refuted.
(** a number plus a Direction is no Direction, so addition does not commute *)
Theorem C65_sum_commutes_refuted : exists d z, 0 <= d < 8 /\ dir_plus d (DNum (NI z)) <> dir_rplus (NI z) d.
Proof. exact p_C65_commutes. Qed.
Print Assumptions C65_sum_commutes_refuted.
Theorem C65_names_differ : forall d e, 0 <= d < 8 -> 0 <= e < 8 -> exists s, dir_repr d = Ok s /\ (dir_repr e = Ok s -> e = d).
Proof. exact p_C65_repr. Qed.
Print Assumptions C65_names_differ.
(** the text says where the vector of the Direction points *)
Theorem C65_names_point : forall d, 0 <= d < 8 -> exists s x y, dir_repr d = Ok s /\ dir_vector d = Some (mkVec (NI x) (NI y)) /\ names_step s x y.
Proof. exact p_C65_compass. Qed.
Print Assumptions C65_names_point.
Theorem C65_named_directions :
  (dir_up = 0 /\ dir_right = 2 /\ dir_down = 4 /\ dir_left = 6) /\
  forall d, (is_up d = true <-> d = 0) /\ (is_right d = true <-> d = 2) /\ (is_down d = true <-> d = 4) /\ (is_left d = true <-> d = 6).
Proof. exact p_C65_named. Qed.
Print Assumptions C65_named_directions.
(** Direction(x) of a float: the remainder by eight rounded to a float, then cut *)
Theorem C65_direction_of_a_float : forall f, fvalid f = true -> finite f ->
  exists m, nearest_to false (units f mod eight) one_unit m /\ dir_of_val (VFlt f) = Ok (units m / one_unit).
Proof. exact p_C65_float. Qed.
Print Assumptions C65_direction_of_a_float.
Theorem C65_float_range : forall f d, fvalid f = true -> finite f -> dir_of_val (VFlt f) = Ok d ->
  0 <= d <= 8 /\ (d = 8 <-> - 2 ^ 1023 <= units f < 0).
Proof. exact p_C65_float_range. Qed.
Print Assumptions C65_float_range.
Theorem C65_infinite_float : forall f, ~ finite f -> dir_of_val (VFlt f) = Err EValue.
Proof. exact p_C65_float_bad. Qed.
Print Assumptions C65_infinite_float.
(** so a Direction need not be one of the eight; the ninth has no vector and no repr *)
Theorem C65_float_in_range_refuted : exists f d, fvalid f = true /\ finite f /\ dir_of_val (VFlt f) = Ok d /\
  ~ 0 <= d < 8 /\ dir_vector d = None /\ dir_repr d = Err EIndex.
Proof. exact p_C65_nine. Qed.
Print Assumptions C65_float_in_range_refuted.

Example C65_ex :
  dir_plus 6 (DNum (NI 5)) = Ok (RDir 3) /\ dir_minus 1 (DDir 4) = Ok (RDir 5) /\ dir_rplus (NI 5) 6 = Ok (RNum (NI 11)) /\
  dir_rminus (NI (-1)) 6 = Ok (RNum (NI (-7))) /\ dir_floordiv 7 (DNum (NI (-2))) = Ok (RNum (NI (-4))) /\
  dir_floordiv 6 (DDir 2) = Err EType /\ dir_truediv 6 (DNum (NI 0)) = Err EZeroDiv /\
  dir_times 6 (DDir 7) = Ok (RNum (NI 42)) /\ dir_negate 6 = RNum (NI (-6)) /\
  dir_repr 3 = Ok "<Direction (Down-Right)>" /\
  dir_of_val (VFlt (S754_finite true 7205759403792794 (-56))) = Ok 7.
Proof. repeat split; vm_compute; reflexivity. Qed.

(** ** C66: conditions and signals *)
Theorem C66_what_a_condition_is_made_of : forall t first cmp constant second r,
  condition_made t first cmp constant second r <-> condition_new t first cmp constant second = r.
Proof. exact p_C66_made. Qed.
Print Assumptions C66_what_a_condition_is_made_of.
Theorem C66_assignments : forall t c v r,
  (cond_set t c CFirst v = r <-> (exists n, named t v (Ok n) /\ r = Ok (mkCond n (cd_second c) (cd_cmp c))) \/ exists e, named t v (Err e) /\ r = Err e) /\
  (cond_set t c CSecond v = r <-> (exists s, second_operand t v (Ok s) /\ r = Ok (mkCond (cd_first c) s (cd_cmp c))) \/ exists e, second_operand t v (Err e) /\ r = Err e) /\
  (cond_set t c CComparator v = r <-> (exists p, is_comparator v p /\ r = Ok (mkCond (cd_first c) (cd_second c) p)) \/ (forall p, ~ is_comparator v p) /\ r = Err EValue).
Proof. exact p_C66_assign. Qed.
Print Assumptions C66_assignments.
Theorem C66_export : forall t c, live t c -> exists d, condition_to_json t c = Ok d /\ condition_document t c d.
Proof. exact p_C66_export. Qed.
Print Assumptions C66_export.
(** the exported document read back: with a first signal and no second one it is the same condition, otherwise a TypeError *)
Theorem C66_read_back : forall t c d, live t c -> condition_to_json t c = Ok d ->
  (condition_of t d = Ok c <-> cd_first c <> None /\ forall s, cd_second c <> VStr s) /\
  (condition_of t d = Err EType <-> cd_first c = None \/ exists s, cd_second c = VStr s).
Proof. exact p_C66_read_back. Qed.
Print Assumptions C66_read_back.
Theorem C66_read_back_refuted : exists c d, live defaultentities c /\ cd_first c <> None /\
  condition_to_json defaultentities c = Ok d /\ condition_of defaultentities d = Err EType.
Proof. exact p_C66_refuted. Qed.
Print Assumptions C66_read_back_refuted.
Theorem C66_signals : forall t v n, signal_new t v = Ok (Some n) ->
  exists d, signal_to_json t (Some n) = Ok d /\ signal_document t n d /\ signal_new t d = Ok (Some n).
Proof. exact p_C66_signal. Qed.
Print Assumptions C66_signals.
Theorem C66_signal_made : forall t v r, signal_new t v = r <->
  (exists d n, v = VDict d /\ dget "name" d = Some n /\ named t n r) \/
  (exists d, v = VDict d /\ dget "name" d = None /\ r = Err EKey) \/
  ((forall d, v <> VDict d) /\ r = Err EType).
Proof. exact p_C66_signal_made. Qed.
Print Assumptions C66_signal_made.
Theorem C66_nameless_signal : forall t, signal_new t (VDict [(KS "name", VNone)]) = Ok None /\ signal_to_json t None = Err EKey.
Proof. exact p_C66_nameless. Qed.
Print Assumptions C66_nameless_signal.

Example C66_ex :
  condition_new defaultentities (VStr "iron-plate") (VStr ">") (VInt 5) VNone = Ok (mkCond (Some "iron-plate") (VInt 5) ">") /\
  condition_new defaultentities (VDict [(KS "name", VStr "signal-A"); (KS "type", VStr "virtual")]) (VStr "<=") (VInt 5) (VStr "signal-B")
    = Ok (mkCond (Some "signal-A") (VStr "signal-B") "<=") /\
  condition_new defaultentities (VStr "rename") (VStr ">") VNone VNone = Err EType /\
  condition_new defaultentities (VStr "no such thing") (VStr "<>") VNone VNone = Err EUnknownEntity /\
  condition_new defaultentities (VStr "iron-plate") (VStr "<>") VNone VNone = Err EValue /\
  condition_new defaultentities VNone (VStr ">") VNone VNone = Err EType /\
  condition_to_json defaultentities (mkCond (Some "signal-A") (VStr "iron-plate") "<=")
    = Ok [(KS "first_signal", VDict [(KS "name", VStr "signal-A"); (KS "type", VStr "virtual")]); (KS "comparator", VStr "<=");
          (KS "second_signal", VDict [(KS "name", VStr "iron-plate"); (KS "type", VStr "item")])].
Proof. repeat split; vm_compute; reflexivity. Qed.
