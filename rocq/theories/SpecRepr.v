(** * Specification: how objects are written by repr and str (C71).

    Integers and floats are written as in SpecWrite.v and SpecShort.v (the shortest decimal). *)
From Verif Require Import Py Num Util SpecCodec SpecRound SpecJson SpecShort SpecWrite Entity World.
Open Scope string_scope.
Open Scope Z_scope.

Inductive number_text : num -> string -> Prop :=
| nt_int z t : int_written z t -> number_text (NI z) t
| nt_zero : number_text (NF (S754_zero false)) "0.0"
| nt_minus_zero : number_text (NF (S754_zero true)) "-0.0"
| nt_float f t : finite f -> units f <> 0 -> float_written f t -> number_text (NF f) t
| nt_nan : number_text (NF S754_nan) "nan"
| nt_infinity : number_text (NF (S754_infinity false)) "inf"
| nt_minus_infinity : number_text (NF (S754_infinity true)) "-inf".
Definition a_number (n : num) : Prop := match n with NI _ => True | NF f => fvalid f = true end.
Definition a_vector (v : vec) : Prop := a_number (vx v) /\ a_number (vy v).
Definition a_color (c : color) : Prop := a_number (col_r c) /\ a_number (col_g c) /\ a_number (col_b c) /\ a_number (col_a c).

Inductive vector_text : vec -> string -> Prop :=
| vt x y s t : number_text x s -> number_text y t -> vector_text (mkVec x y) ("<Vector (" ++ s ++ ", " ++ t ++ ")>").
Inductive color_text : color -> string -> Prop :=
| ct r g b a s t u v : number_text r s -> number_text g t -> number_text b u -> number_text a v ->
    color_text (mkColor r g b a) ("<Color (r:" ++ s ++ ", g:" ++ t ++ ", b:" ++ u ++ ", a:" ++ v ++ ")>").
(** the position is None after it was assigned None *)
Inductive place_text : option vec -> string -> Prop :=
| pt_some v s : vector_text v s -> place_text (Some v) s
| pt_none : place_text None "None".
Definition placed (e : entity) : Prop := match e_pos e with Some p => a_vector p | None => True end.
(** repr and str of an entity named [n] *)
Inductive entity_text (n : string) (e : entity) : string -> Prop :=
| et p d : place_text (e_pos e) p -> int_written (e_dir e) d ->
    entity_text n e ("<Entity (name: """ ++ n ++ """, position: " ++ p ++ ", direction: " ++ d ++ ")>").
Definition short_text (n : string) : string := "<Entity (name: """ ++ n ++ """)>".
Definition no_quote (n : string) : Prop := ~ In """"%char (list_ascii_of_string n).
Definition no_comma (n : string) : Prop := ~ In ","%char (list_ascii_of_string n).
(** entity [i] is called [n] *)
Definition called (w : world) (i : nat) (n : string) : Prop := exists e, nth_error (w_ents w) i = Some e /\ e_name e = VStr n.
