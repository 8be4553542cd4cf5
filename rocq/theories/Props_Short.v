(** * C63: the text that is written for a float is the shortest decimal that denotes it. *)
From Verif Require Import Py Num Text Json SpecRound SpecJson SpecShort ShortText ShortUnique.
Open Scope string_scope.
Open Scope Z_scope.

(** what [json.dumps] writes for a float is a decimal of at most 17 digits that denotes the float;
    none of fewer digits denotes it, and none of as few digits that denotes it is nearer to it *)
Theorem C63_text_is_the_shortest_decimal : forall f, fvalid f = true -> finite f ->
  exists t k m e, json_dumps (VFlt f) = Ok t /\ 0 <= k <= 17 /\ decimal_text t (negative f) m e /\ shortest_decimal f k m e.
Proof. exact p_C63_dumps. Qed.
Print Assumptions C63_text_is_the_shortest_decimal.

(** and that decimal, laid out with a point between 10^-4 and 10^16 and with an exponent elsewhere,
    is the only text *)
Theorem C63_text : forall f t, fvalid f = true -> finite f -> units f <> 0 ->
  (json_dumps (VFlt f) = Ok t <-> float_written f t).
Proof. exact p_C63_dumps_text. Qed.
Print Assumptions C63_text.

Theorem C63_one_decimal : forall f k m e k' n x, shortest_decimal f k m e -> shortest_decimal f k' n x ->
  k = k' /\ same_decimal m e n x.
Proof. exact p_C63_unique. Qed.
Print Assumptions C63_one_decimal.

(** it need not be the shortest text *)
Theorem C63_shortest_text_refuted : exists f t, fvalid f = true /\ finite f /\ json_number t (VFlt f) /\
  (String.length t < String.length (float_text f))%nat.
Proof. exact p_C63_refuted. Qed.
Print Assumptions C63_shortest_text_refuted.

(** 2^-24: the nearest decimal of 16 digits is below it and denotes the float before it *)
Example C63_ex : json_dumps (VFlt (S754_finite false (2 ^ 52) (-76))) = Ok "5.960464477539063e-08" /\
  json_dumps (VFlt (S754_finite true 5764607523034235 (-59))) = Ok "-0.01" /\
  json_dumps (VFlt (S754_finite false 1 (-1074))) = Ok "5e-324" /\
  json_dumps (VFlt (S754_finite false 9007199254740991 971)) = Ok "1.7976931348623157e+308" /\
  json_dumps (VFlt (S754_finite false 5000000000000000 1)) = Ok "1e+16" /\
  json_dumps (VFlt (S754_finite false 4503599627370497 (-2))) = Ok "1125899906842624.2".
Proof. vm_compute. repeat split; reflexivity. Qed.
