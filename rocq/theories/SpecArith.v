(** * Specification: what the arithmetic operators of Vector compute on mixed ints and floats (C62).
    Values of floats are the integers [units] of SpecRound.v (multiples of 2^-1074); every result that is a
    float is said to be the correctly rounded exact result. *)
From Verif Require Import Py Num Util SpecRound.
Open Scope Z_scope.

(** 1, in units *)
Definition one_unit : Z := 2 ^ 1074.
Definition float_ok (n : num) : Prop := match n with NI _ => True | NF f => fvalid f = true end.
Definition vec_ok (v : vec) : Prop := float_ok (vx v) /\ float_ok (vy v).
(** the float nearest to n/d; a zero result for n = 0 has the sign [zs] *)
Definition nearest_to (zs : bool) (n d : Z) (f : float64) : Prop :=
  rounds (if n =? 0 then zs else n <? 0) (Z.abs n) d f.
(** the ints which have no float: half a step above the greatest float and beyond *)
Definition too_big (z : Z) : Prop := (2 ^ 54 - 1) * 2 ^ 970 <= Z.abs z.

(** [float(n)] *)
Inductive as_float : num -> res float64 -> Prop :=
| af_float f : as_float (NF f) (Ok f)
| af_int z f : ~ too_big z -> nearest_to false z 1 f -> as_float (NI z) (Ok f)
| af_big z : too_big z -> as_float (NI z) (Err EOverflow).

(** the sum, difference, product, quotient and remainder of two floats *)
Inductive float_sum (x y : float64) : float64 -> Prop :=
| fs_nan : x = S754_nan \/ y = S754_nan \/ (exists s, x = S754_infinity s /\ y = S754_infinity (negb s)) ->
    float_sum x y S754_nan
| fs_inf s : (x = S754_infinity s /\ (finite y \/ y = x)) \/ (y = S754_infinity s /\ finite x) ->
    float_sum x y (S754_infinity s)
| fs_fin f : finite x -> finite y ->
    nearest_to (negative x && negative y) (units x + units y) one_unit f -> float_sum x y f.
Inductive float_difference (x y : float64) : float64 -> Prop :=
| fd_nan : x = S754_nan \/ y = S754_nan \/ (exists s, x = S754_infinity s /\ y = S754_infinity s) ->
    float_difference x y S754_nan
| fd_inf s : (x = S754_infinity s /\ (finite y \/ y = S754_infinity (negb s))) \/
             (y = S754_infinity (negb s) /\ finite x) ->
    float_difference x y (S754_infinity s)
| fd_fin f : finite x -> finite y ->
    nearest_to (negative x && negb (negative y)) (units x - units y) one_unit f -> float_difference x y f.
Definition infinite (f : float64) : Prop := exists s, f = S754_infinity s.
Inductive float_product (x y : float64) : float64 -> Prop :=
| fp_nan : x = S754_nan \/ y = S754_nan \/ (infinite x /\ finite y /\ units y = 0) \/
           (infinite y /\ finite x /\ units x = 0) ->
    float_product x y S754_nan
| fp_inf : (infinite x /\ (infinite y \/ finite y /\ units y <> 0)) \/ (infinite y /\ finite x /\ units x <> 0) ->
    float_product x y (S754_infinity (xorb (negative x) (negative y)))
| fp_fin f : finite x -> finite y ->
    nearest_to (xorb (negative x) (negative y)) (units x * units y) (one_unit * one_unit) f -> float_product x y f.
(** for y other than zero *)
Inductive float_quotient (x y : float64) : float64 -> Prop :=
| fq_nan : x = S754_nan \/ y = S754_nan \/ (infinite x /\ infinite y) -> float_quotient x y S754_nan
| fq_inf : infinite x -> finite y -> float_quotient x y (S754_infinity (xorb (negative x) (negative y)))
| fq_zero : finite x -> infinite y -> float_quotient x y (S754_zero (xorb (negative x) (negative y)))
| fq_fin f : finite x -> finite y -> units y <> 0 ->
    nearest_to (xorb (negative x) (negative y)) (units x * Z.sgn (units y)) (Z.abs (units y)) f ->
    float_quotient x y f.
(** x - y * floor(x / y): it lies between 0 and y *)
Inductive float_remainder (x y : float64) : float64 -> Prop :=
| fr_nan : x = S754_nan \/ y = S754_nan \/ infinite x -> float_remainder x y S754_nan
| fr_zero : finite x -> units x = 0 -> infinite y -> float_remainder x y (S754_zero (negative y))
| fr_same : finite x -> units x <> 0 -> infinite y -> negative x = negative y -> float_remainder x y x
| fr_other : finite x -> units x <> 0 -> infinite y -> negative x <> negative y -> float_remainder x y y
| fr_fin f : finite x -> finite y -> units y <> 0 ->
    nearest_to (negative y) (units x mod units y) one_unit f -> float_remainder x y f.

(** A Python operator on numbers: [zi] on two ints, [ff] on floats, an int being converted when the other
    operand is a float; the left operand is converted first. *)
Inductive mixed (zi : Z -> Z -> res num -> Prop) (ff : float64 -> float64 -> res num -> Prop) :
  num -> num -> res num -> Prop :=
| mx_ints x y r : zi x y r -> mixed zi ff (NI x) (NI y) r
| mx_floats a b x y r : (exists f, a = NF f \/ b = NF f) -> as_float a (Ok x) -> as_float b (Ok y) ->
    ff x y r -> mixed zi ff a b r
| mx_left a f e : as_float a (Err e) -> mixed zi ff a (NF f) (Err e)
| mx_right f b e : as_float b (Err e) -> mixed zi ff (NF f) b (Err e).
Definition total (R : float64 -> float64 -> float64 -> Prop) x y (r : res num) : Prop :=
  exists f, r = Ok (NF f) /\ R x y f.
(** dividing by zero raises ZeroDivisionError *)
Definition divides (R : float64 -> float64 -> float64 -> Prop) x y (r : res num) : Prop :=
  (finite y /\ units y = 0 /\ r = Err EZeroDiv) \/ (~ (finite y /\ units y = 0) /\ total R x y r).

Definition a_sum := mixed (fun x y r => r = Ok (NI (x + y))) (total float_sum).
Definition a_difference := mixed (fun x y r => r = Ok (NI (x - y))) (total float_difference).
Definition a_product := mixed (fun x y r => r = Ok (NI (x * y))) (total float_product).
(** x / y for ints: the float nearest to the fraction itself, not the quotient of two floats *)
Definition int_quotient (x y : Z) (r : res num) : Prop :=
  (y = 0 /\ r = Err EZeroDiv) \/
  (y <> 0 /\ (2 ^ 54 - 1) * 2 ^ 970 * Z.abs y <= Z.abs x /\ r = Err EOverflow) \/
  (y <> 0 /\ Z.abs x < (2 ^ 54 - 1) * 2 ^ 970 * Z.abs y /\
   exists f, r = Ok (NF f) /\ nearest_to (y <? 0) (x * Z.sgn y) (Z.abs y) f).
Definition a_quotient := mixed int_quotient (divides float_quotient).
Definition int_remainder (x y : Z) (r : res num) : Prop :=
  (y = 0 /\ r = Err EZeroDiv) \/
  (exists m q, y <> 0 /\ r = Ok (NI m) /\ x = q * y + m /\ (0 <= m < y \/ y < m <= 0)).
Definition a_remainder := mixed int_remainder (divides float_remainder).

(** Both components, x first: the first error is the error. *)
Inductive by_component (R : num -> num -> res num -> Prop) (v w : vec) : res vec -> Prop :=
| bc_ok x y : R (vx v) (vx w) (Ok x) -> R (vy v) (vy w) (Ok y) -> by_component R v w (Ok (mkVec x y))
| bc_x e : R (vx v) (vx w) (Err e) -> by_component R v w (Err e)
| bc_y x e : R (vx v) (vx w) (Ok x) -> R (vy v) (vy w) (Err e) -> by_component R v w (Err e).

(** x // y, for y other than zero: the greatest whole number up to x / y, when that is at most 2^48 in size;
    of greater quotients nothing is said here, and the exact one is not always the result. *)
Definition minus_one : float64 := S754_finite true 4503599627370496 (-52).
Inductive float_floor (x y : float64) : float64 -> Prop :=
| fl_nan : x = S754_nan \/ y = S754_nan \/ infinite x -> float_floor x y S754_nan
| fl_zero : finite x -> infinite y -> units x = 0 \/ negative x = negative y ->
    float_floor x y (S754_zero (xorb (negative x) (negative y)))
| fl_below : finite x -> infinite y -> units x <> 0 -> negative x <> negative y -> float_floor x y minus_one
| fl_fin f : finite x -> finite y -> units y <> 0 -> Z.abs (units x / units y) <= 2 ^ 48 ->
    fvalid f = true -> finite f -> units f = units x / units y * one_unit ->
    negative f = (if units x / units y =? 0 then xorb (negative x) (negative y) else units x / units y <? 0) ->
    float_floor x y f
| fl_far f : finite x -> finite y -> units y <> 0 -> 2 ^ 48 < Z.abs (units x / units y) -> fvalid f = true ->
    float_floor x y f.
Definition int_floor (x y : Z) (r : res num) : Prop :=
  (y = 0 /\ r = Err EZeroDiv) \/
  (exists m q, y <> 0 /\ r = Ok (NI q) /\ x = q * y + m /\ (0 <= m < y \/ y < m <= 0)).
Definition a_floor := mixed int_floor (divides float_floor).
