(** * Specification: the binary64 float nearest to a number, ties to even (IEEE 754, C59).
    Values are compared as integers, in units of 2^-1074, the least positive float. *)
From Verif Require Import Py Num.
Open Scope Z_scope.

Definition finite (f : float64) : Prop :=
  match f with S754_zero _ | S754_finite _ _ _ => True | _ => False end.
Definition negative (f : float64) : bool :=
  match f with S754_zero s | S754_infinity s | S754_finite s _ _ => s | S754_nan => false end.
Definition units (f : float64) : Z :=
  match f with S754_finite s m e => (if s then -1 else 1) * Zpos m * 2 ^ (e + 1074) | _ => 0 end.
Definition even_mantissa (f : float64) : Prop :=
  match f with S754_finite _ m _ => Z.even (Zpos m) = true | _ => True end.
(** |n/d - f|, times d, in units *)
Definition distance (n d : Z) (f : float64) : Z := Z.abs (n * 2 ^ 1074 - units f * d).
Definition nearest (n d : Z) (f : float64) : Prop := forall g, fvalid g = true -> finite g ->
  distance n d f <= distance n d g /\
  (distance n d f = distance n d g -> units g <> units f -> even_mantissa f).
(** the float for +-n/d, where 0 <= n and 0 < d: infinite from half a step above the greatest float *)
Definition rounds (neg : bool) (n d : Z) (f : float64) : Prop :=
  fvalid f = true /\ negative f = neg /\
  (((2 ^ 54 - 1) * 2 ^ 970 * d <= n /\ f = S754_infinity neg) \/
   (n < (2 ^ 54 - 1) * 2 ^ 970 * d /\ finite f /\ nearest (if neg then - n else n) d f)).
(** the float for +-m * 10^e *)
Definition rounds_decimal (neg : bool) (m e : Z) (f : float64) : Prop :=
  rounds neg (m * 10 ^ Z.max e 0) (10 ^ Z.max (- e) 0) f.
