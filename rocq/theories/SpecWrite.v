(** * Specification: the text and the exchange string that are written for an object (C64).

    JSON as [json.dumps] lays it out, as a relation between objects and texts; the pieces of the
    grammar are those of SpecJson.v, floats are those of SpecShort.v. *)
From Verif Require Import Py Num Text SpecCodec SpecRound SpecJson SpecShort.
Open Scope string_scope.
Open Scope Z_scope.

(** ** strings: printable ASCII stands for itself, the rest is escaped *)
Definition short_escapes : list (ascii * Z) :=
  [(""""%char, 34); ("\"%char, 92); ("b"%char, 8); ("f"%char, 12); ("n"%char, 10); ("r"%char, 13); ("t"%char, 9)].
Definition printable (n : Z) : Prop := 32 <= n <= 126.
Definition has_short (n : Z) : Prop := exists e, In (e, n) short_escapes.
(** lower case only *)
Definition low_hex (c : ascii) (v : Z) : Prop := hex_digit c v /\ ~ 65 <= bz c <= 70.
(** a UTF-16 code unit *)
Inductive unit_written : Z -> string -> Prop :=
| uw a b c d i j k l : low_hex a i -> low_hex b j -> low_hex c k -> low_hex d l ->
    unit_written (((i * 16 + j) * 16 + k) * 16 + l) ("\u" ++ String a (String b (String c (String d "")))).
(** a character: by its short escape if there is one, else as itself if printable, else by one or
    two UTF-16 code units *)
Inductive char_written : Z -> string -> Prop :=
| cw_short e n : In (e, n) short_escapes -> char_written n (String "\" (String e ""))
| cw_plain c : printable (bz c) -> ~ has_short (bz c) -> char_written (bz c) (String c "")
| cw_unit n t : ~ printable n -> ~ has_short n -> unit_written n t -> char_written n t
| cw_pair a b s t : high_surrogate a = true -> low_surrogate b = true -> unit_written a s -> unit_written b t ->
    char_written (65536 + (a - 55296) * 1024 + (b - 56320)) (s ++ t).
Inductive chars_written : list Z -> string -> Prop :=
| cs_nil : chars_written [] ""
| cs_cons c l s t : char_written c s -> chars_written l t -> chars_written (c :: l) (s ++ t).
Inductive string_written : string -> string -> Prop :=
| sw l t : Forall code_point l -> chars_written l t -> string_written (utf8s l) (quoted t).

(** ** numbers *)
(** no leading zeros, and no minus sign at zero *)
Inductive int_written : Z -> string -> Prop :=
| iw sg neg i : sign sg neg -> int_part i -> (neg = true -> i <> "0") -> int_written (signed neg (number_of i)) (sg ++ i).
Definition zero_texts : list (string * val) := [("0.0", VFlt (S754_zero false)); ("-0.0", VFlt (S754_zero true))].

(** ** values *)
(** integer keys are written as strings *)
Inductive key_written : key -> string -> Prop :=
| kw_string s t : string_written s t -> key_written (KS s) t
| kw_int z t : int_written z t -> key_written (KI z) (quoted t).
Inductive written : val -> string -> Prop :=
| w_constant t v : In (t, v) constants -> written v t
| w_int z t : int_written z t -> written (VInt z) t
| w_zero t v : In (t, v) zero_texts -> written v t
| w_float f t : finite f -> units f <> 0 -> float_written f t -> written (VFlt f) t
| w_string s t : string_written s t -> written (VStr s) t
| w_list l ts : Forall2 written l ts -> written (VList l) ("[" ++ String.concat ", " ts ++ "]")
| w_dict d ts : Forall2 (fun kv t => exists k s, key_written (fst kv) k /\ written (snd kv) s /\ t = k ++ ": " ++ s) d ts ->
    written (VDict d) ("{" ++ String.concat ", " ts ++ "}").

(** every float in it is a binary64 number *)
Inductive doubles : val -> Prop :=
| ds_none : doubles VNone
| ds_bool b : doubles (VBool b)
| ds_int z : doubles (VInt z)
| ds_float f : fvalid f = true -> doubles (VFlt f)
| ds_string s : doubles (VStr s)
| ds_list l : Forall doubles l -> doubles (VList l)
| ds_dict d : Forall (fun kv => doubles (snd kv)) d -> doubles (VDict d).

(** ** base64: three bytes are four letters, the last one or two bytes are filled up with zero bits *)
Inductive b64_written : string -> string -> Prop :=
| bw_end : b64_written "" ""
| bw_three x y z r a b c d t va vb vc vd :
    stands_for a va -> stands_for b vb -> stands_for c vc -> stands_for d vd ->
    ((va * 64 + vb) * 64 + vc) * 64 + vd = (bz x * 256 + bz y) * 256 + bz z -> b64_written r t ->
    b64_written (String x (String y (String z r))) (String a (String b (String c (String d t))))
| bw_two x y a b c va vb vc : stands_for a va -> stands_for b vb -> stands_for c vc ->
    (va * 64 + vb) * 64 + vc = (bz x * 256 + bz y) * 4 ->
    b64_written (String x (String y "")) (String a (String b (String c "=")))
| bw_one x a b va vb : stands_for a va -> stands_for b vb -> va * 64 + vb = bz x * 16 ->
    b64_written (String x "") (String a (String b "==")).

(** version 0 *)
Definition exchange_written (deflate : string -> string) (v : val) (s : string) : Prop :=
  exists t b, written v t /\ b64_written (deflate t) b /\ s = "0" ++ b.
