(** * Specification: the shortest decimal that denotes a float (C63).

    A decimal is a pair of integers (m, e) that stands for m * 10^e.  Independent of the search in
    Json.v: which decimals denote a float is [rounds_decimal] of SpecRound.v, how decimals are
    written is the grammar of SpecJson.v. *)
From Verif Require Import Py Num SpecRound SpecJson.
Open Scope string_scope.
Open Scope Z_scope.

(** a number with a decimal point or an exponent, and the decimal it writes out *)
Inductive decimal_text : string -> bool -> Z -> Z -> Prop :=
| dt sg neg i f ds e x : sign sg neg -> int_part i -> frac_part f ds -> exp_part e x -> f ++ e <> "" ->
    decimal_text (sg ++ i ++ f ++ e) neg (number_of (i ++ ds)) (x - Z.of_nat (String.length ds)).

(** m * 10^e = n * 10^x *)
Definition same_decimal (m e n x : Z) : Prop := m * 10 ^ Z.max (e - x) 0 = n * 10 ^ Z.max (x - e) 0.
(** [k] digits are enough for m * 10^e: it is c * 10^x for some c below 10^k *)
Definition within_digits (k m e : Z) : Prop := exists c x, 0 <= c < 10 ^ k /\ same_decimal m e c x.
(** m * 10^e is no further from +-f than n * 10^x *)
Definition no_further (neg : bool) (f : float64) (m e n x : Z) : Prop :=
  distance (signed neg (m * 10 ^ Z.max e 0)) (10 ^ Z.max (- e) 0) f * 10 ^ Z.max (- x) 0 <=
  distance (signed neg (n * 10 ^ Z.max x 0)) (10 ^ Z.max (- x) 0) f * 10 ^ Z.max (- e) 0.

(** m * 10^e is even and n * 10^x is one more or one less, in some decimal place *)
Definition even_neighbour (m e n x : Z) : Prop := exists c y, Z.even c = true /\ same_decimal m e c y /\
  (same_decimal n x (c + 1) y \/ same_decimal n x (c - 1) y).

(** the decimal (m, e) denotes [f], no decimal of fewer digits does, of those with as few digits
    none is nearer to [f], and if another one is as near the last digit of (m, e) is even *)
Definition shortest_decimal (f : float64) (k m e : Z) : Prop :=
  0 <= m /\ within_digits k m e /\ rounds_decimal (negative f) m e f /\
  forall k' n x, 0 <= k' -> 0 <= n -> within_digits k' n x -> rounds_decimal (negative f) n x f ->
    k <= k' /\
    (k' = k -> no_further (negative f) f m e n x /\
      (no_further (negative f) f n x m e -> same_decimal m e n x \/ even_neighbour m e n x)).

(** 10^-4 <= m * 10^e < 10^16 *)
Definition moderate (m e : Z) : Prop :=
  10 ^ Z.max (- e) 0 <= m * 10 ^ Z.max e 0 * 10 ^ 4 /\ m * 10 ^ Z.max e 0 < 10 ^ 16 * 10 ^ Z.max (- e) 0.
Definition ends_in_zero (s : string) : Prop := exists r, s = r ++ "0".
(** how it is laid out: moderate numbers with a point and no exponent, the others with one digit
    before the point and an exponent with a sign and at least two digits; no zeros at the end
    except a single one after the point *)
Inductive laid_out : string -> bool -> Z -> Z -> Prop :=
| lo_point sg neg i ds : sign sg neg -> int_part i -> digits ds -> ds = "0" \/ ~ ends_in_zero ds ->
    let m := number_of (i ++ ds) in let e := - Z.of_nat (String.length ds) in
    moderate m e -> laid_out (sg ++ i ++ "." ++ ds) neg m e
| lo_exponent sg neg d f ds xs esg : sign sg neg -> digit d -> d <> "0"%char -> frac_part f ds -> ~ ends_in_zero ds ->
    In esg ["+"; "-"] -> digits xs -> (2 <= String.length xs)%nat ->
    (String.length xs = 2%nat \/ forall r, xs <> String "0" r) ->
    let m := number_of (String d ds) in
    let e := signed (String.eqb esg "-") (number_of xs) - Z.of_nat (String.length ds) in
    ~ moderate m e -> laid_out (sg ++ String d "" ++ f ++ "e" ++ esg ++ xs) neg m e.

(** the text of a float other than zero *)
Definition float_written (f : float64) (t : string) : Prop :=
  exists k m e, 0 <= k <= 17 /\ laid_out t (negative f) m e /\ shortest_decimal f k m e.
