(** * Theorems about the operators of Vector, one by one: C10. *)
From Verif Require Import Py Num NumFacts Util UtilFacts SpecVector VectorProofs.
Open Scope Z_scope.

(** each operator works on the components, x first; the reflected ones with the operands swapped *)
Theorem C10_each_operator :
  forall v o w, stands_for o w ->
  pairwise nadd (fun u => u) v w (vadd v o) /\ pairwise nsub (fun u => u) v w (vsub v o) /\
  pairwise nmul (fun u => u) v w (vmul v o) /\ pairwise ntruediv (fun u => u) v w (vtruediv v o) /\
  pairwise nfloordiv (fun u => u) v w (vfloordiv v o) /\ pairwise nmod (fun u => u) v w (vmod v o) /\
  pairwise nadd (fun u => u) w v (vradd o v) /\ pairwise nsub (fun u => u) w v (vrsub o v) /\
  pairwise nmul (fun u => u) w v (vrmul o v) /\ pairwise ntruediv (fun u => u) w v (vrtruediv o v) /\
  pairwise nfloordiv (fun u => u) w v (vrfloordiv o v) /\
  ((forall u, o <> OVec u) -> (forall f, o <> ONum (NF f)) -> pairwise nmod Some w v (vrmod o v)).
Proof. exact p_C10_each. Qed.
Print Assumptions C10_each_operator.
(** TypeError, or ValueError for a tuple of another length *)
Theorem C10_unsupported_operands :
  forall v o e, bad_operand o e ->
  vadd v o = Err e /\ vsub v o = Err e /\ vmul v o = Err e /\ vtruediv v o = Err e /\ vfloordiv v o = Err e /\ vmod v o = Err e /\
  vradd o v = Err e /\ vrsub o v = Err e /\ vrmul o v = Err e /\ vrtruediv o v = Err e /\ vrfloordiv o v = Err e.
Proof. exact p_C10_bad. Qed.
Print Assumptions C10_unsupported_operands.
(** the operands with which % on the right gives None *)
Theorem C10_rmod_none :
  forall v o, vrmod o v = Ok None <-> o = OOther \/ (exists u, o = OVec u) \/ exists f, o = ONum (NF f).
Proof. exact p_C10_rmod_rest. Qed.
Print Assumptions C10_rmod_none.
Example C10_ex_each :
  vrsub (ONum (NI 10)) (ivec 3 4) = Ok (ivec 7 6) /\ vsub (ivec 3 4) (OTup [NI 10; NI 1]) = Ok (ivec (-7) 3) /\
  vrfloordiv (ONum (NI 10)) (ivec 3 (-4)) = Ok (ivec 3 (-3)) /\ vrtruediv (OTup [NI 1; NI 3]) (ivec 2 2) = Ok (mkVec (NF half) (NF (S754_finite false 6755399441055744 (-52)))) /\
  vrmod (ONum (NI 10)) (ivec 3 (-4)) = Ok (Some (ivec 1 (-2))) /\ vadd (ivec 1 2) (OTup [NI 1]) = Err EValue.
Proof. vm_compute. auto 10. Qed.
