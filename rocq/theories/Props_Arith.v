(** * C62: the operators of Vector on floats and mixed numbers give correctly rounded results. *)
From Verif Require Import Py Num Util SpecRound SpecVector SpecArith FloorProofs.
Open Scope Z_scope.

Theorem C62_operators_are_correctly_rounded :
  forall v o w, stands_for o w -> vec_ok v -> vec_ok w ->
  by_component a_sum v w (vadd v o) /\ by_component a_difference v w (vsub v o) /\
  by_component a_product v w (vmul v o) /\ by_component a_quotient v w (vtruediv v o) /\
  by_component a_floor v w (vfloordiv v o) /\ by_component a_remainder v w (vmod v o) /\
  by_component a_sum w v (vradd o v) /\ by_component a_difference w v (vrsub o v) /\
  by_component a_product w v (vrmul o v) /\ by_component a_quotient w v (vrtruediv o v) /\
  by_component a_floor w v (vrfloordiv o v).
Proof. exact p_C62. Qed.
Print Assumptions C62_operators_are_correctly_rounded.
Theorem C62_remainder_on_the_right :
  forall v o w, stands_for o w -> (forall u, o <> OVec u) -> (forall f, o <> ONum (NF f)) -> vec_ok v -> vec_ok w ->
  exists r, by_component a_remainder w v r /\ vrmod o v = (let! u := r in Ok (Some u)).
Proof. exact p_C62_rmod. Qed.
Print Assumptions C62_remainder_on_the_right.
(** the relations of the specification have one result each *)
Theorem C62_results_are_determined : forall a b r r',
  (a_sum a b r -> a_sum a b r' -> r = r') /\ (a_difference a b r -> a_difference a b r' -> r = r') /\
  (a_product a b r -> a_product a b r' -> r = r') /\ (a_quotient a b r -> a_quotient a b r' -> r = r') /\
  (a_remainder a b r -> a_remainder a b r' -> r = r').
Proof. exact p_C62_determined. Qed.
Print Assumptions C62_results_are_determined.
(** [//] may miss the whole quotient, even one that is a float *)
Theorem C62_floor_division_exact_refuted : exists x y f, fvalid x = true /\ fvalid y = true /\
  vfloordiv (mkVec (NF x) (NF x)) (ONum (NF y)) = Ok (mkVec (NF f) (NF f)) /\
  Z.abs (units x / units y) < 2 ^ 53 /\ units f <> units x / units y * one_unit.
Proof. exact p_C62_refuted. Qed.
Print Assumptions C62_floor_division_exact_refuted.

Definition tenth : float64 := S754_finite false 7205759403792794 (-56).
Definition fifth : float64 := S754_finite false 7205759403792794 (-55).
Example C62_ex :
  vec_ok (mkVec (NF tenth) (NI 9007199254740993)) /\ stands_for (ONum (NF fifth)) (mkVec (NF fifth) (NF fifth)) /\
  vadd (mkVec (NF tenth) (NI 9007199254740993)) (ONum (NF fifth))
    = Ok (mkVec (NF (S754_finite false 5404319552844596 (-54))) (NF (S754_finite false 4503599627370496 1))) /\
  vmod (mkVec (NF (fopp tenth)) (NI (-7))) (OTup [NI 1; NF fone])
    = Ok (mkVec (NF (S754_finite false 8106479329266893 (-53))) (NF (S754_zero false))) /\
  vfloordiv (mkVec (NF (fopp tenth)) (NI (-7))) (OTup [NF fifth; NI 2]) = Ok (mkVec (NF minus_one) (NI (-4))) /\
  vtruediv (mkVec (NI (2 ^ 1030)) (NI 1)) (ONum (NI 3)) = Err EOverflow /\
  vadd (mkVec (NF tenth) (NI (2 ^ 1030))) (ONum (NF fifth)) = Err EOverflow.
Proof. split; [split; [reflexivity|exact I]|]. split; [constructor|]. repeat split; vm_compute; reflexivity. Qed.
