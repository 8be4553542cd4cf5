(** * Python numbers: unbounded [int] and IEEE-754 binary64 [float].

    The repository does arithmetic on whatever [json.loads] or the caller
    supplies, i.e. on a mix of ints and floats (e.g. util.py 410-505 Vector
    arithmetic, entity.py 237-254 rotation, blueprint.py 308-328 bounding box).
    This file models CPython's semantics of those operators. *)
From Coq Require Import QArith Lia.
From Verif Require Import Py.
Open Scope Z_scope.

Definition prec64 : Z := 53.
Definition emax64 : Z := 1024.

Definition fnormalize (m e : Z) (szero : bool) : float64 :=
  binary_normalize prec64 emax64 m e szero.
Definition fadd (x y : float64) : float64 := SFadd prec64 emax64 x y.
Definition fsub (x y : float64) : float64 := SFsub prec64 emax64 x y.
Definition fmul (x y : float64) : float64 := SFmul prec64 emax64 x y.
Definition fdiv (x y : float64) : float64 := SFdiv prec64 emax64 x y.
Definition fopp (x : float64) : float64 := SFopp x.
Definition fvalid (x : float64) : bool := valid_binary prec64 emax64 x.

Inductive num := NI (z : Z) | NF (f : float64).

Definition val_of_num (n : num) : val := match n with NI z => VInt z | NF f => VFlt f end.

(** Numbers accepted by the model as coordinates, colour channels, ...
    Booleans (which Python would accept as 0/1) and everything else are outside
    the model. *)
Definition num_of_val (v : val) : res num :=
  match v with VInt z => Ok (NI z) | VFlt f => Ok (NF f) | _ => Err EUnmodelled end.

(** ** Exact value of a number *)
Inductive ext := XNaN | XNInf | XFin (q : Q) | XPInf.

Definition dyadic (m e : Z) : Q :=
  match e with
  | Zneg p => Qmake m (2 ^ p)
  | _ => Qmake (m * 2 ^ e) 1
  end.

Definition fval (f : float64) : ext :=
  match f with
  | S754_nan => XNaN
  | S754_infinity true => XNInf
  | S754_infinity false => XPInf
  | S754_zero _ => XFin 0
  | S754_finite s m e => XFin (dyadic (cond_Zopp s (Zpos m)) e)
  end.

Definition nval (n : num) : ext := match n with NI z => XFin (inject_Z z) | NF f => fval f end.

Definition xcmp (a b : ext) : option comparison :=
  match a, b with
  | XNaN, _ | _, XNaN => None
  | XNInf, XNInf | XPInf, XPInf => Some Eq
  | XNInf, _ | _, XPInf => Some Lt
  | _, XNInf | XPInf, _ => Some Gt
  | XFin p, XFin q => Some (Qcompare p q)
  end.

(** Python compares ints and floats by exact value; NaN compares false. *)
Definition ncmp (a b : num) : option comparison := xcmp (nval a) (nval b).
Definition nltb (a b : num) : bool := match ncmp a b with Some Lt => true | _ => false end.
Definition ngtb (a b : num) : bool := match ncmp a b with Some Gt => true | _ => false end.
Definition neqb (a b : num) : bool := match ncmp a b with Some Eq => true | _ => false end.

(** ** Conversions *)
(** [float(z)]: round to nearest even, OverflowError when out of range. *)
Definition float_of_int (z : Z) : res float64 :=
  match fnormalize z 0 false with
  | S754_infinity _ => Err EOverflow
  | f => Ok f
  end.

Definition to_float (n : num) : res float64 :=
  match n with NI z => float_of_int z | NF f => Ok f end.

(** integer part of m * 2^e toward minus infinity / plus infinity / zero *)
Definition zfloor (m e : Z) : Z := if 0 <=? e then m * 2 ^ e else m / 2 ^ (- e).
Definition zceil (m e : Z) : Z := - zfloor (- m) e.
Definition ztrunc (m e : Z) : Z := if m <? 0 then zceil m e else zfloor m e.

Definition int_via (g : Z -> Z -> Z) (n : num) : res Z :=
  match n with
  | NI z => Ok z
  | NF S754_nan => Err EValue
  | NF (S754_infinity _) => Err EOverflow
  | NF (S754_zero _) => Ok 0
  | NF (S754_finite s m e) => Ok (g (cond_Zopp s (Zpos m)) e)
  end.
Definition nfloor := int_via zfloor.   (* math.floor *)
Definition nceil := int_via zceil.     (* math.ceil *)
Definition nint := int_via ztrunc.     (* int() *)

(** ** Arithmetic *)
Definition nneg (a : num) : num := match a with NI z => NI (- z) | NF f => NF (fopp f) end.

Definition arith (zi : Z -> Z -> Z) (ff : float64 -> float64 -> float64) (a b : num) : res num :=
  match a, b with
  | NI x, NI y => Ok (NI (zi x y))
  | _, _ => let! x := to_float a in let! y := to_float b in Ok (NF (ff x y))
  end.
Definition nadd := arith Z.add fadd.
Definition nsub := arith Z.sub fsub.
Definition nmul := arith Z.mul fmul.

Definition fzerob (f : float64) : bool := match f with S754_zero _ => true | _ => false end.
Definition fsign (f : float64) : bool :=
  match f with S754_zero s | S754_infinity s | S754_finite s _ _ => s | S754_nan => false end.
Definition flt0 (f : float64) : bool :=
  match f with S754_infinity s | S754_finite s _ _ => s | _ => false end.

(** An int as an exact (unnormalised) binary float, for int/int true division. *)
Definition exact_float (z : Z) : float64 :=
  match z with
  | Z0 => S754_zero false
  | Zpos m => S754_finite false m 0
  | Zneg m => S754_finite true m 0
  end.

(** [/]: int/int is the correctly rounded quotient (OverflowError if too big). *)
Definition ntruediv (a b : num) : res num :=
  match a, b with
  | NI x, NI y =>
      if y =? 0 then Err EZeroDiv else
      match fdiv (exact_float x) (exact_float y) with
      | S754_infinity _ => Err EOverflow
      | f => Ok (NF f)
      end
  | _, _ => let! x := to_float a in let! y := to_float b in
            if fzerob y then Err EZeroDiv else Ok (NF (fdiv x y))
  end.

(** C [fmod] (exact). *)
Definition ffmod (x y : float64) : float64 :=
  match x, y with
  | S754_nan, _ | _, S754_nan => S754_nan
  | S754_infinity _, _ | _, S754_zero _ => S754_nan
  | _, S754_infinity _ => x
  | S754_zero _, _ => x
  | S754_finite sx mx ex, S754_finite sy my ey =>
      let e := Z.min ex ey in
      let a := cond_Zopp sx (Zpos mx) * 2 ^ (ex - e) in
      let b := Zpos my * 2 ^ (ey - e) in
      fnormalize (Z.rem a b) e sx
  end.

(** CPython [float_rem] (Objects/floatobject.c). *)
Definition fmodulo (x y : float64) : float64 :=
  let m := ffmod x y in
  match m with
  | S754_zero _ => S754_zero (fsign y)
  | _ => if Bool.eqb (flt0 y) (flt0 m) then m else fadd m y
  end.

Definition fone : float64 := S754_finite false 4503599627370496 (-52).

Definition ffloor (x : float64) : float64 :=
  match x with
  | S754_finite s m e => fnormalize (zfloor (cond_Zopp s (Zpos m)) e) 0 s
  | _ => x
  end.

(** CPython [_float_div_mod], quotient part. *)
Definition ffloordiv (x y : float64) : float64 :=
  let m := ffmod x y in
  let d := fdiv (fsub x m) y in
  let d := match m with
           | S754_zero _ => d
           | _ => if Bool.eqb (flt0 y) (flt0 m) then d else fsub d fone
           end in
  match d with
  | S754_zero _ => S754_zero (fsign (fdiv x y))
  | _ => let fl := ffloor d in
         match ncmp (NF (fsub d fl)) (NF (fdiv fone (fadd fone fone))) with
         | Some Gt => fadd fl fone
         | _ => fl
         end
  end.

(** [//] and [%]. *)
Definition nfloordiv (a b : num) : res num :=
  match a, b with
  | NI x, NI y => if y =? 0 then Err EZeroDiv else Ok (NI (x / y))
  | _, _ => let! x := to_float a in let! y := to_float b in
            if fzerob y then Err EZeroDiv else Ok (NF (ffloordiv x y))
  end.
Definition nmod (a b : num) : res num :=
  match a, b with
  | NI x, NI y => if y =? 0 then Err EZeroDiv else Ok (NI (x mod y))
  | _, _ => let! x := to_float a in let! y := to_float b in
            if fzerob y then Err EZeroDiv else Ok (NF (fmodulo x y))
  end.

(** builtins [min(a, b)] / [max(a, b)]: the first argument wins ties. *)
Definition nmin (a b : num) : num := if nltb b a then b else a.
Definition nmax (a b : num) : num := if ngtb b a then b else a.

Definition half : float64 := S754_finite false 4503599627370496 (-53).
Definition quarter : float64 := S754_finite false 4503599627370496 (-54).
