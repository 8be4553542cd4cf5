(** * Property theorems: value classes of util.py (C06-C13, C51). *)
From Coq Require Import QArith Lia.
From Verif Require Import Py Num NumFacts Util SpecUtil UtilFacts UtilProofs.
Open Scope Z_scope.

(** ** C06 *)
Theorem C06_color_channels_in_unit :
  forall (r g b a : num) (sets : list (channel * num)) (ch : channel),
    in_unit (color_get (fold_left (fun c s => color_set c (fst s) (snd s)) sets
                                  (color_new r g b a)) ch).
Proof. exact p_C06_unit. Qed.
Print Assumptions C06_color_channels_in_unit.

Theorem C06_color_assignment :
  forall (r g b a v : num) (c : color) (ch ch' : channel),
    clamped r (color_get (color_new r g b a) ChR) /\
    clamped g (color_get (color_new r g b a) ChG) /\
    clamped b (color_get (color_new r g b a) ChB) /\
    clamped a (color_get (color_new r g b a) ChA) /\
    clamped v (color_get (color_set c ch v) ch) /\
    (ch <> ch' -> color_get (color_set c ch v) ch' = color_get c ch').
Proof. exact p_C06_assign. Qed.
Print Assumptions C06_color_assignment.

Example C06_ex :
  color_new (NI 5) (NF S754_nan) (NF half) (NI (-3)) = mkColor (NI 1) (NI 1) (NF half) (NI 0).
Proof. reflexivity. Qed.

(** ** C07 *)
Theorem C07_direction_mod_8 :
  forall z d n : Z,
    0 <= dir_new z < 8 /\ (dir_new z - z) mod 8 = 0 /\
    dir_add d z = (d + z) mod 8 /\ dir_sub d z = (d - z) mod 8 /\
    dir_rotate d n true = (d + 2 * n) mod 8 /\ dir_rotate d n false = (d - 2 * n) mod 8 /\
    dir_rotate45 d n true = (d + n) mod 8 /\ dir_rotate45 d n false = (d - n) mod 8.
Proof. exact p_C07_mod. Qed.
Print Assumptions C07_direction_mod_8.

Theorem C07_direction_rotation_inverse :
  forall d n m : Z, 0 <= d < 8 ->
    dir_rotate (dir_rotate d n true) n false = d /\
    dir_rotate (dir_rotate d n false) n true = d /\
    dir_rotate45 (dir_rotate45 d n true) n false = d /\
    dir_rotate45 (dir_rotate45 d n false) n true = d /\
    dir_rotate (dir_rotate d n true) m true = dir_rotate d (n + m) true /\
    dir_rotate d 4 true = d /\ dir_rotate d 4 false = d.
Proof. exact p_C07_inv. Qed.
Print Assumptions C07_direction_rotation_inverse.

Example C07_ex : dir_rotate 6 (-11) true = 0 /\ dir_rotate 0 (-11) false = 6 /\ dir_rotate45 3 13 false = 6.
Proof. repeat split; reflexivity. Qed.

(** ** C08 *)
Theorem C08_direction_vectors :
  forall d n : Z, 0 <= d < 8 ->
    exists v, dir_vector d = Some v /\
      dir_vector (dir_rotate d n true) = Some (vrotate v n) /\
      dir_vector (dir_rotate d n false) = Some (vrotate v (- n)) /\
      dir_vector (dir_add d 4) = Some (mkVec (nneg (vx v)) (nneg (vy v))) /\
      (forall d', 0 <= d' < 8 -> dir_vector d' = Some v -> d' = d).
Proof. exact p_C08. Qed.
Print Assumptions C08_direction_vectors.

Example C08_ex : dir_vector 1 = Some (mkVec (NI 1) (NI (-1))).
Proof. reflexivity. Qed.

(** ** C09 *)
Theorem C09_vector_rotate_action :
  forall (v : vec) (a b k : Z),
    vrotate (vrotate v a) b = vrotate v (a + b) /\
    vrotate v (a + 4 * k) = vrotate v a /\
    vrotate v (4 * k) = v /\
    vrotate v 1 = mkVec (nneg (vy v)) (vx v) /\
    vrotate v 2 = mkVec (nneg (vx v)) (nneg (vy v)).
Proof. exact p_C09_action. Qed.
Print Assumptions C09_vector_rotate_action.

Theorem C09_vector_rotate_length :
  forall (v : vec) (a : Z) (x y : Q), nfin (vx v) x -> nfin (vy v) y ->
    exists x' y', nfin (vx (vrotate v a)) x' /\ nfin (vy (vrotate v a)) y' /\
      (x', y') = qrot (Z.to_nat (a mod 4)) (x, y) /\
      (x' * x' + y' * y' == x * x + y * y)%Q.
Proof. exact p_C09_length. Qed.
Print Assumptions C09_vector_rotate_length.

Example C09_ex : vrotate (mkVec (NF half) (NI 3)) (-1) = mkVec (NI 3) (NF (fopp half)) /\
                 nfin (NF half) (1 # 2) /\ nfin (NI 3) 3.
Proof. repeat split; reflexivity. Qed.

(** ** C10 *)
Theorem C10_integer_vector_laws :
  forall a b c d e f : Z,
    vadd (ivec a b) (OVec (ivec c d)) = vadd (ivec c d) (OVec (ivec a b)) /\
    (let! s := vadd (ivec a b) (OVec (ivec c d)) in vadd s (OVec (ivec e f))) =
    (let! s := vadd (ivec c d) (OVec (ivec e f)) in vadd (ivec a b) (OVec s)) /\
    (let! s := vadd (ivec a b) (OVec (ivec c d)) in vsub s (OVec (ivec c d))) = Ok (ivec a b) /\
    (c <> 0 -> d <> 0 ->
     exists q r, vfloordiv (ivec a b) (OVec (ivec c d)) = Ok q /\
       vmod (ivec a b) (OVec (ivec c d)) = Ok r /\
       (let! p := vmul q (OVec (ivec c d)) in vadd p (OVec r)) = Ok (ivec a b) /\
       exists rx ry, r = ivec rx ry /\
         (0 <= rx < c \/ c < rx <= 0) /\ (0 <= ry < d \/ d < ry <= 0)).
Proof. exact p_C10_int. Qed.
Print Assumptions C10_integer_vector_laws.

Theorem C10_commutative :
  forall v w : vec, vadd v (OVec w) = vadd w (OVec v) /\ vmul v (OVec w) = vmul w (OVec v).
Proof. exact p_C10_comm. Qed.
Print Assumptions C10_commutative.

(** [/], [//] and [%] by a vector with a zero component never succeed and raise
    ZeroDivisionError (unless an int too big for a float overflows first). *)
Theorem C10_zero_division :
  forall (f : num -> num -> res num) (v w : vec), divop f ->
  (nzero (vx w) \/ nzero (vy w) -> forall r, vop f v (OVec w) <> Ok r) /\
  (nzero (vx w) -> convertible (vx v) = true -> vop f v (OVec w) = Err EZeroDiv) /\
  (is_ok (f (vx v) (vx w)) = true -> nzero (vy w) -> convertible (vy v) = true ->
   vop f v (OVec w) = Err EZeroDiv).
Proof. exact vdiv_zero. Qed.
Print Assumptions C10_zero_division.

(** scalars and pairs act like the vector they stand for; other operands raise *)
Theorem C10_operands :
  forall (f : num -> num -> res num) (v w : vec) (n : num) (l : list num),
    vop f v (ONum n) = vop f v (OVec (mkVec n n)) /\
    vop f v (OTup [vx w; vy w]) = vop f v (OVec w) /\
    vrop f (ONum n) v = vop f (mkVec n n) (OVec v) /\
    vrop f (OTup [vx w; vy w]) v = vop f w (OVec v) /\
    (length l <> 2%nat -> vop f v (OTup l) = Err EValue /\ vrop f (OTup l) v = Err EValue) /\
    vop f v OOther = Err EType /\ vrop f OOther v = Err EType.
Proof. exact p_C10_operands. Qed.
Print Assumptions C10_operands.

(** The exception: [%] with a float on the left yields None instead of a Vector. *)
Theorem C10_rmod_float_refuted : exists n v, vrmod (ONum n) v = Ok None.
Proof. exact p_C10_rmod. Qed.
Print Assumptions C10_rmod_float_refuted.

Example C10_ex : vfloordiv (ivec 7 (-7)) (OVec (ivec (-2) 3)) = Ok (ivec (-4) (-3)) /\
  vmod (ivec 7 (-7)) (OVec (ivec (-2) 3)) = Ok (ivec (-1) 2) /\
  divop ntruediv /\ nzero (NF (S754_zero true)) /\ convertible (NI 7) = true /\
  vtruediv (ivec 7 1) (ONum (NF (S754_zero true))) = Err EZeroDiv.
Proof. repeat split; try reflexivity; exact div_true. Qed.

(** ** C11 *)
Theorem C11_strict_partial_order :
  forall u v w : vec,
    vltb v v = false /\
    (vltb u v = true -> vltb v u = false) /\
    (vltb u v = true -> vltb v w = true -> vltb u w = true) /\
    vgtb u v = vltb v u /\
    (vltb u v = true <-> xlt (nval (vx u)) (nval (vx v)) /\ xlt (nval (vy u)) (nval (vy v))) /\
    (veqb u v = true -> vltb u v = false).
Proof. exact p_C11. Qed.
Print Assumptions C11_strict_partial_order.

Theorem C11_not_total : exists u v, vltb u v = false /\ vltb v u = false /\ veqb u v = false.
Proof. exact p_C11_not_total. Qed.
Print Assumptions C11_not_total.

Theorem C11_equality :
  forall u v : vec,
    veqb u v = veqb v u /\
    (veqb u v = true <-> xeq (nval (vx u)) (nval (vx v)) /\ xeq (nval (vy u)) (nval (vy v))) /\
    (~ is_nan (vx u) -> ~ is_nan (vy u) -> veqb u u = true).
Proof. exact p_C11_eq. Qed.
Print Assumptions C11_equality.

Example C11_ex : vltb (mkVec (NF half) (NI (-2))) (mkVec (NI 1) (NF half)) = true.
Proof. reflexivity. Qed.

(** ** C12 *)
Theorem C12_floor_ceil :
  forall (v : vec) (x y : Q), nfin (vx v) x -> nfin (vy v) y ->
    exists fx fy cx cy,
      vfloor v = Ok (ivec fx fy) /\ vceil v = Ok (ivec cx cy) /\
      is_floor x fx /\ is_floor y fy /\ is_ceil x cx /\ is_ceil y cy.
Proof. exact p_C12_floor_ceil. Qed.
Print Assumptions C12_floor_ceil.

Theorem C12_nonfinite_raises :
  forall v : vec, (forall q, ~ nfin (vx v) q) \/ (forall q, ~ nfin (vy v) q) ->
    is_ok (vfloor v) = false /\ is_ok (vceil v) = false.
Proof. exact p_C12_nonfinite. Qed.
Print Assumptions C12_nonfinite_raises.

(** On multiples of 1/256 (below 2^44) round is "nearest integer, ties up". *)
Theorem C12_round_on_grid :
  forall (v : vec) (a b : Z),
    on_grid a (vx v) -> on_grid b (vy v) -> Z.abs a < 2 ^ 52 -> Z.abs b < 2 ^ 52 ->
    exists x y, vround v = Ok (ivec x y) /\
      is_floor ((a # 256) + (1 # 2)) x /\ is_floor ((b # 256) + (1 # 2)) y.
Proof. exact p_C12_round. Qed.
Print Assumptions C12_round_on_grid.

(** For arbitrary floats it is not: 0.49999999999999994 rounds to 1. *)
Theorem C12_round_refuted :
  exists (v : vec) (q : Q) x y,
    nfin (vx v) q /\ (q < 1 # 2)%Q /\ vround v = Ok (ivec x y) /\ x = 1.
Proof. exact p_C12_round_refuted. Qed.
Print Assumptions C12_round_refuted.

Example C12_ex : on_grid (-128) (NF (fopp half)) /\
  vround (mkVec (NF (fopp half)) (NI 3)) = Ok (ivec 0 3) /\
  vceil (mkVec (NF half) (NI 3)) = Ok (ivec 1 3).
Proof. repeat split; reflexivity. Qed.

(** ** C13 *)
Theorem C13_connection_equality :
  forall a b c : conn,
    (conn_eqb a b = true <-> same_wire a b) /\
    conn_eqb a a = true /\
    conn_eqb a b = conn_eqb b a /\
    (conn_eqb a b = true -> conn_eqb b c = true -> conn_eqb a c = true) /\
    conn_eqb (conn_flip a) b = conn_eqb a b /\
    conn_eqb a (conn_flip b) = conn_eqb a b.
Proof. exact p_C13. Qed.
Print Assumptions C13_connection_equality.

Example C13_ex :
  conn_eqb (mkConn (Some 1%nat) (Some 2%nat) 1 2 "red") (mkConn (Some 2%nat) (Some 1%nat) 2 1 "red") = true /\
  conn_eqb (mkConn (Some 1%nat) (Some 2%nat) 1 2 "red") (mkConn (Some 2%nat) (Some 1%nat) 1 2 "red") = false.
Proof. split; reflexivity. Qed.

(** ** C51 *)
Theorem C51_vector_forms :
  forall x y : num,
    let v := Ok (Some (mkVec x y)) in
    vector_make [PNum x; PNum y] [] = v /\
    vector_make [PTuple [x; y]] [] = v /\
    vector_make [PVec (mkVec x y)] [] = v /\
    (forall d, dget "x" d = Some x -> dget "y" d = Some y ->
       vector_make [PDict d] [] = v /\ vector_make [] d = v).
Proof. exact p_C51_forms. Qed.
Print Assumptions C51_vector_forms.

(** None exactly for no arguments or a leading None; everything else raises. *)
Theorem C51_vector_rejects :
  forall (args : list pyarg) (kwargs : list (key * num)),
    (vector_make args kwargs = Ok None <->
       kwargs = [] /\ (args = [] \/ exists r, args = PNone :: r)) /\
    (forall v, vector_make args kwargs = Ok (Some v) ->
       (kwargs = [] /\ (args = [PNum (vx v); PNum (vy v)] \/ args = [PTuple [vx v; vy v]] \/
                        args = [PVec v] \/
                        exists d, args = [PDict d] /\ dget "x" d = Some (vx v) /\ dget "y" d = Some (vy v)))
       \/ (args = [] /\ dget "x" kwargs = Some (vx v) /\ dget "y" kwargs = Some (vy v))).
Proof. exact p_C51_rejects. Qed.
Print Assumptions C51_vector_rejects.

Example C51_ex : vector_make [PDict [(KS "x", NI 3); (KS "y", NF half)]] [] = Ok (Some (mkVec (NI 3) (NF half))) /\
  vector_make [PTuple [NI 1]] [] = Err EValue /\ vector_make [PNum (NI 1)] [(KS "y", NI 1)] = Err EType.
Proof. repeat split; reflexivity. Qed.
