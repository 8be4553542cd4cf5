(** * Model of the texts of objects: [__repr__] and [__str__] of Vector, Color, SignalID and Connection (util.py) and of Entity (entity.py). *)
From Verif Require Import Py Num Util Json Values Classes Mixins Entity World.
Open Scope string_scope.
Open Scope Z_scope.

(** [format(n, "")] of an int or float: float.__repr__ names the values that are not finite differently from json *)
Definition num_str (n : num) : string :=
  match n with
  | NI z => int_str z
  | NF S754_nan => "nan"
  | NF (S754_infinity s) => if s then "-inf" else "inf"
  | NF f => float_text f
  end.

(** util.py 407-408 *)
Definition vec_repr (v : vec) : string := "<Vector (" ++ num_str (vx v) ++ ", " ++ num_str (vy v) ++ ")>".
(** util.py 57-58 *)
Definition color_repr (c : color) : string :=
  "<Color (r:" ++ num_str (col_r c) ++ ", g:" ++ num_str (col_g c) ++ ", b:" ++ num_str (col_b c) ++ ", a:" ++ num_str (col_a c) ++ ")>".
(** util.py 299-300; [name] may be None, whose type is a KeyError *)
Definition signal_repr (defaults : list (key * string)) (n : option string) : res string :=
  let! t := signal_type defaults n in
  Ok ("<SignalID (" ++ match n with Some s => s | None => "None" end ++ ", type: " ++ t ++ ")>").

(** [str] of a name, entity.py 99-100; lists and dictionaries as names are outside the model *)
Definition name_text (v : val) : res string :=
  match v with
  | VStr s => Ok s
  | VNone => Ok "None"
  | VBool b => Ok (if b then "True" else "False")
  | VInt z => Ok (num_str (NI z))
  | VFlt f => Ok (num_str (NF f))
  | _ => Err EUnmodelled
  end.
(** entity.py 113-114 *)
Definition ent_str (e : entity) : res string :=
  let! n := name_text (e_name e) in Ok ("<Entity (name: """ ++ n ++ """)>").
(** entity.py 109-111; a Direction is formatted by its [__str__] (util.py 142-143) *)
Definition ent_repr (e : entity) : res string :=
  let! n := name_text (e_name e) in
  Ok ("<Entity (name: """ ++ n ++ """, position: " ++ match e_pos e with Some p => vec_repr p | None => "None" end ++
      ", direction: " ++ int_str (e_dir e) ++ ")>").
(** util.py 316-319; an end is an entity or None (util.py 308-314) *)
Definition end_str (w : world) (o : option nat) : res string :=
  match o with
  | None => Ok "None"
  | Some i => match nth_error (w_ents w) i with Some e => ent_str e | None => Err EUnmodelled end
  end.
Definition conn_repr (w : world) (c : conn) : res string :=
  let! a := end_str w (c_from c) in
  let! b := end_str w (c_to c) in
  Ok ("<Connection (" ++ c_color c ++ " from:(" ++ a ++ ", " ++ int_str (c_fs c) ++ ") to:(" ++ b ++ ", " ++ int_str (c_ts c) ++ "))>").
