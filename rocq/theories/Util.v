(** * Model of py_factorio_blueprints/util.py (value classes). *)
From Verif Require Import Py Num.
Open Scope Z_scope.

(** ** [int(v)] on the values that can reach it *)

(** the blanks int() skips around an ASCII text (Py_ISSPACE in PyLong_FromString) *)
Definition is_ws (c : ascii) : bool :=
  let n := nat_of_ascii c in
  (Nat.leb 9 n && Nat.leb n 13) || Nat.eqb n 32.
Definition digit_of (c : ascii) : option Z :=
  let n := Z.of_nat (nat_of_ascii c) in
  if (48 <=? n) && (n <=? 57) then Some (n - 48) else None.
Fixpoint skip_ws (s : string) : string :=
  match s with String c r => if is_ws c then skip_ws r else s | EmptyString => s end.
(** digits with single underscores between them; [need] = a digit must follow *)
Fixpoint int_digits (need : bool) (acc : Z) (s : string) : option (Z * string) :=
  match s with
  | EmptyString => if need then None else Some (acc, s)
  | String c r =>
      match digit_of c with
      | Some d => int_digits false (acc * 10 + d) r
      | None => if need then None
                else if Ascii.eqb c "_" then int_digits true acc r else Some (acc, s)
      end
  end.
Fixpoint all_ascii (s : string) : bool :=
  match s with
  | EmptyString => true
  | String c r => Nat.ltb (nat_of_ascii c) 128 && all_ascii r
  end.
(** [int("...")], base 10; strings with non-ASCII characters (unicode digits and
    spaces) are outside the model. *)
Definition int_of_string (s : string) : res Z :=
  if negb (all_ascii s) then Err EUnmodelled else
  let s := skip_ws s in
  let '(neg, s) := match s with
                   | String "-" r => (true, r)
                   | String "+" r => (false, r)
                   | _ => (false, s)
                   end in
  match int_digits true 0 s with
  | Some (z, r) => match skip_ws r with
                   | EmptyString => Ok (if neg : bool then - z else z)
                   | _ => Err EValue
                   end
  | None => Err EValue
  end.

Definition py_int (v : val) : res Z :=
  match v with
  | VInt z => Ok z
  | VBool b => Ok (if b then 1 else 0)
  | VFlt f => nint (NF f)
  | VStr s => int_of_string s
  | _ => Err EType
  end.

(** ** Color, util.py 50-111 *)
Record color := mkColor { col_r : num; col_g : num; col_b : num; col_a : num }.

(** util.py 78, 86, 94, 102: [max(min(1, value), 0)] *)
Definition clamp (v : num) : num := nmax (nmin (NI 1) v) (NI 0).

(** util.py 51-55 (through the setters) *)
Definition color_new (r g b a : num) : color := mkColor (clamp r) (clamp g) (clamp b) (clamp a).

Inductive channel := ChR | ChG | ChB | ChA.
(** util.py 76-102: the four property setters *)
Definition color_set (c : color) (ch : channel) (v : num) : color :=
  match ch with
  | ChR => mkColor (clamp v) (col_g c) (col_b c) (col_a c)
  | ChG => mkColor (col_r c) (clamp v) (col_b c) (col_a c)
  | ChB => mkColor (col_r c) (col_g c) (clamp v) (col_a c)
  | ChA => mkColor (col_r c) (col_g c) (col_b c) (clamp v)
  end.
Definition color_get (c : color) (ch : channel) : num :=
  match ch with ChR => col_r c | ChG => col_g c | ChB => col_b c | ChA => col_a c end.

(** util.py 63-70 *)
Definition color_eqb (c d : color) : bool :=
  neqb (col_r c) (col_r d) && neqb (col_g c) (col_g d) &&
  neqb (col_b c) (col_b d) && neqb (col_a c) (col_a d).

(** util.py 104-111 *)
Definition color_to_json (c : color) : val :=
  VDict [(KS "r", val_of_num (col_r c)); (KS "g", val_of_num (col_g c));
         (KS "b", val_of_num (col_b c)); (KS "a", val_of_num (col_a c))].

(** A channel argument: numbers are compared, None/str/list/dict cannot be
    compared with 1 (TypeError); booleans are outside the model. *)
Definition chan_arg (o : option val) : res num :=
  match o with
  | None => Ok (NI 1)
  | Some (VInt z) => Ok (NI z)
  | Some (VFlt f) => Ok (NF f)
  | Some (VBool _) => Err EUnmodelled
  | Some _ => Err EType
  end.
(** [Color(star-star value)], util.py 51 with default channels 1 *)
Definition color_of_val (v : val) : res color :=
  let! d := as_kwargs v in
  let left := ddel "r" (ddel "g" (ddel "b" (ddel "a" d))) in
  match left with
  | _ :: _ => Err EType
  | [] =>
      let! r := chan_arg (dget "r" d) in
      let! g := chan_arg (dget "g" d) in
      let! b := chan_arg (dget "b" d) in
      let! a := chan_arg (dget "a" d) in
      Ok (color_new r g b a)
  end.

(** ** Direction, util.py 114-208 *)
Definition direction := Z.
(** util.py 118-119 *)
Definition dir_new (v : Z) : direction := v mod 8.
(** util.py 121-127 *)
Definition dir_add (d : direction) (o : Z) : direction := dir_new (d + o).
Definition dir_sub (d : direction) (o : Z) : direction := dir_new (d - o).
(** util.py 115-116: CLOCKWISE = 0, COUNTER_CLOCKWISE = 1.  Any value different
    from CLOCKWISE selects the counter-clockwise branch; [cw] is
    [direction == CLOCKWISE]. *)
(** util.py 177-181 *)
Definition dir_rotate45 (d : direction) (amount : Z) (cw : bool) : direction :=
  let amount := if cw then amount else 8 - amount in
  dir_new (dir_add d amount).
(** util.py 183-188 *)
Definition dir_rotate (d : direction) (amount : Z) (cw : bool) : direction :=
  let amount := amount * 2 in
  let amount := if cw then amount else 8 - amount in
  dir_new (dir_add d amount).

(** [Direction(value)] on a JSON value (entity.py 23-24 DirectionField.__set__):
    [value % 8] then [int.__new__].  Strings ([%] is formatting) are outside the model. *)
Definition dir_of_val (v : val) : res direction :=
  match v with
  | VInt z => Ok (dir_new z)
  | VBool b => Ok (dir_new (if b then 1 else 0))
  | VFlt f => let! m := nmod (NF f) (NI 8) in nint m
  | VStr _ => Err EUnmodelled
  | _ => Err EType
  end.

(** ** Vector, util.py 359-561 *)
Record vec := mkVec { vx : num; vy : num }.

Definition vzero : vec := mkVec (NI 0) (NI 0).

(** util.py 190-208: [Direction.vector] *)
Definition dir_vector (d : direction) : option vec :=
  if d =? 0 then Some (mkVec (NI 0) (NI (-1)))
  else if d =? 1 then Some (mkVec (NI 1) (NI (-1)))
  else if d =? 2 then Some (mkVec (NI 1) (NI 0))
  else if d =? 3 then Some (mkVec (NI 1) (NI 1))
  else if d =? 4 then Some (mkVec (NI 0) (NI 1))
  else if d =? 5 then Some (mkVec (NI (-1)) (NI 1))
  else if d =? 6 then Some (mkVec (NI (-1)) (NI 0))
  else if d =? 7 then Some (mkVec (NI (-1)) (NI (-1)))
  else None.   (* the unreachable [return ValueError(...)] *)

(** Argument objects of the Vector constructor.  [POther] stands for every other
    object (list, str, ...). *)
Inductive pyarg :=
| PNone | PNum (n : num) | PTuple (l : list num) | PDict (d : list (key * num)) | PVec (v : vec)
| POther.

(** util.py 360-388.  Result [None] is Python's None.  With two positional
    arguments the code stores whatever it is given; non-numbers are outside the
    model. *)
Definition vector_make (args : list pyarg) (kwargs : list (key * num)) : res (option vec) :=
  match kwargs with
  | _ :: _ =>
      match args with
      | _ :: _ => Err EType
      | [] =>
          match dget "x" kwargs with
          | None => Err EKey
          | Some x => match dget "y" kwargs with None => Err EKey | Some y => Ok (Some (mkVec x y)) end
          end
      end
  | [] =>
      match args with
      | [] => Ok None
      | PNone :: _ => Ok None
      | [PDict d] =>
          match dget "x" d with
          | None => Err EKey
          | Some x => match dget "y" d with None => Err EKey | Some y => Ok (Some (mkVec x y)) end
          end
      | [PTuple [x; y]] => Ok (Some (mkVec x y))
      | [PVec v] => Ok (Some (mkVec (vx v) (vy v)))
      | [_] => Err EValue
      | [PNum x; PNum y] => Ok (Some (mkVec x y))
      | [_; _] => Err EUnmodelled
      | _ :: _ :: _ :: _ => Err EValue
      end
  end.

(** [Vector(v)] for a JSON value [v]: util.py 360-388 again.  None gives None. *)
Definition vec_of_val (v : val) : res (option vec) :=
  match v with
  | VNone => Ok None
  | VDict d =>
      match dget "x" d with
      | None => Err EKey
      | Some x => match dget "y" d with
                  | None => Err EKey
                  | Some y => let! a := num_of_val x in let! b := num_of_val y in
                              Ok (Some (mkVec a b))
                  end
      end
  | _ => Err EValue
  end.

(** util.py 390-394 *)
Definition vec_to_json (v : vec) : val :=
  VDict [(KS "x", val_of_num (vx v)); (KS "y", val_of_num (vy v))].

(** util.py 403-405 *)
Definition vyx (v : vec) : vec := mkVec (vy v) (vx v).

(** Right/left operand of a vector operator; [OOther] is any unsupported type
    (booleans included: [type(other) is int] is false for them). *)
Inductive operand := OVec (v : vec) | ONum (n : num) | OTup (l : list num) | OOther.

Definition vlift (f : num -> num -> res num) (v w : vec) : res vec :=
  let! x := f (vx v) (vx w) in let! y := f (vy v) (vy w) in Ok (mkVec x y).

Definition operand_vec (o : operand) : res vec :=
  match o with
  | OVec w => Ok w
  | ONum n => Ok (mkVec n n)
  | OTup [x; y] => Ok (mkVec x y)
  | OTup _ => Err EValue            (* cannot unpack *)
  | OOther => Err EType             (* NotImplemented on both sides *)
  end.

Definition vop (f : num -> num -> res num) (v : vec) (o : operand) : res vec :=
  let! w := operand_vec o in vlift f v w.
(** reflected operators: a Vector on the left never reaches them *)
Definition vrop (f : num -> num -> res num) (o : operand) (v : vec) : res vec :=
  let! w := operand_vec o in vlift f w v.

Definition vadd := vop nadd.            (* 410-418 *)
Definition vradd (o : operand) (v : vec) := vadd v o.  (* 420-421 *)
Definition vsub := vop nsub.            (* 423-431 *)
Definition vrsub := vrop nsub.          (* 433-439 *)
Definition vmul := vop nmul.            (* 441-449 *)
Definition vrmul (o : operand) (v : vec) := vmul v o.  (* 451-452 *)
Definition vtruediv := vop ntruediv.    (* 454-462 *)
Definition vrtruediv := vrop ntruediv.  (* 464-470 *)
Definition vfloordiv := vop nfloordiv.  (* 472-480 *)
Definition vrfloordiv := vrop nfloordiv. (* 482-488 *)
Definition vmod := vop nmod.            (* 490-498 *)
(** 500-505: floats (and everything else) fall off the end and give None *)
Definition vrmod (o : operand) (v : vec) : res (option vec) :=
  match o with
  | ONum (NI z) => let! r := vlift nmod (mkVec (NI z) (NI z)) v in Ok (Some r)
  | OTup [x; y] => let! r := vlift nmod (mkVec x y) v in Ok (Some r)
  | OTup _ => Err EValue
  | _ => Ok None
  end.

(** 507-518; [None] = NotImplemented (identity comparison, i.e. False) *)
Definition veqb (v w : vec) : bool := neqb (vx v) (vx w) && neqb (vy v) (vy w).
Definition veq_op (v : vec) (o : operand) : res bool :=
  match o with
  | OVec w => Ok (veqb v w)
  | OTup [x; y] => Ok (veqb v (mkVec x y))
  | OTup _ => Err EValue
  | _ => Ok false
  end.
(** 520-536 *)
Definition vltb (v w : vec) : bool := nltb (vx v) (vx w) && nltb (vy v) (vy w).
Definition vgtb (v w : vec) : bool := ngtb (vx v) (vx w) && ngtb (vy v) (vy w).

(** the rich comparisons with any operand: tuples are converted (523, 532), other
    types are NotImplemented on both sides, i.e. TypeError *)
Definition vlt_op (v : vec) (o : operand) : res bool :=
  match o with
  | OVec w => Ok (vltb v w)
  | OTup [x; y] => Ok (vltb v (mkVec x y))
  | OTup _ => Err EValue
  | _ => Err EType
  end.
Definition vgt_op (v : vec) (o : operand) : res bool :=
  match o with
  | OVec w => Ok (vgtb v w)
  | OTup [x; y] => Ok (vgtb v (mkVec x y))
  | OTup _ => Err EValue
  | _ => Err EType
  end.

(** 538-551 *)
Definition vceil (v : vec) : res vec :=
  let! x := nceil (vx v) in let! y := nceil (vy v) in Ok (mkVec (NI x) (NI y)).
Definition vfloor (v : vec) : res vec :=
  let! x := nfloor (vx v) in let! y := nfloor (vy v) in Ok (mkVec (NI x) (NI y)).
Definition nround (n : num) : res Z := let! m := nadd n (NF half) in nfloor m.
Definition vround (v : vec) : res vec :=
  let! x := nround (vx v) in let! y := nround (vy v) in Ok (mkVec (NI x) (NI y)).

(** 618-619 of util.py and 244-245 of entity.py: one quarter turn *)
Definition rot1 (v : vec) : vec := mkVec (nneg (vy v)) (vx v).
Fixpoint rotn (n : nat) (v : vec) : vec := match n with O => v | S k => rotn k (rot1 v) end.
(** 556-561 *)
Definition vrotate (v : vec) (amount : Z) : vec := rotn (Z.to_nat (amount mod 4)) v.

(** ** Connection, util.py 307-356.  Entities are heap addresses; [None] is
    Python's None (an unresolved reference). *)
Record conn := mkConn {
  c_from : option nat; c_to : option nat; c_fs : Z; c_ts : Z; c_color : string }.

(** 308-314 *)
Definition conn_new (f t : option nat) (fs ts : val) (col : string) : res conn :=
  let! a := py_int fs in let! b := py_int ts in Ok (mkConn f t a b col).

Definition end_eqb (a b : option nat) : bool :=
  match a, b with
  | Some x, Some y => Nat.eqb x y
  | None, None => true
  | _, _ => false
  end.

(** 321-324 *)
Definition attached_to (c : conn) (e : nat) : bool :=
  end_eqb (c_from c) (Some e) || end_eqb (c_to c) (Some e).
(** 326-328 *)
Definition conn_flip (c : conn) : conn :=
  mkConn (c_to c) (c_from c) (c_ts c) (c_fs c) (c_color c).
(** 330-333 *)
Definition orientate (c : conn) (e : nat) : conn :=
  if end_eqb (c_to c) (Some e) then conn_flip c else c.
(** 335-339 *)
Definition flip_color (c : conn) : conn :=
  mkConn (c_from c) (c_to c) (c_fs c) (c_ts c)
         (if String.eqb (c_color c) "green" then "red" else "green").
(** 341-356 *)
Definition conn_eqb (a b : conn) : bool :=
  if negb (String.eqb (c_color a) (c_color b)) then false
  else if end_eqb (c_from a) (c_from b) && end_eqb (c_to a) (c_to b) &&
          (c_fs a =? c_fs b) && (c_ts a =? c_ts b) then true
  else if end_eqb (c_from a) (c_to b) && end_eqb (c_to a) (c_from b) &&
          (c_fs a =? c_ts b) && (c_ts a =? c_fs b) then true
  else false.

(** ** NameStr, util.py 266-274: validation against the built-in default table
    (defaultentities.py), passed as [defaults].  Every entry of that table is a
    non-empty dict, so [not entity_data.get(value)] means absent. *)
Definition name_str (defaults : list (key * string)) (v : val) : res (option string) :=
  match v with
  | VNone => Ok None
  | VStr s => if dmem s defaults then Ok (Some s) else Err EUnknownEntity
  | VList _ | VDict _ => Err EType
  | _ => Err EUnknownEntity
  end.

(** ** Tile, util.py 564-623 *)
Record tile := mkTile { t_name : string; t_pos : vec }.

(** 592-595 with TileName.__set__ (574-583); a Tile has no [strict] attribute, so
    the name is always checked.  [kwargs] includes [blueprint_layer] when called
    from BlueprintLayer.make/_load (blueprint.py 88, 97); what is left after the two
    pops reaches [object.__init__], which takes no arguments. *)
Definition tile_init (tile_protos : dict) (kwargs : dict) : res tile :=
  match dget "name" kwargs with
  | None => Err EKey
  | Some n =>
      let! known := in_table n tile_protos in
      if negb known then Err EUnknownTile else
      match dget "position" kwargs with
      | None => Err EKey
      | Some p =>
          let! ov := vec_of_val p in
          match ddel "position" (ddel "name" kwargs) with
          | _ :: _ => Err EType
          | [] => match n, ov with
                  | VStr s, Some v => Ok (mkTile s v)
                  | _, _ => Err EUnmodelled     (* position None: unusable tile *)
                  end
          end
      end
  end.

(** 597-599 *)
Definition tile_to_json (t : tile) : val :=
  VDict [(KS "name", VStr (t_name t)); (KS "position", vec_to_json (t_pos t))].

(** 610-623; [cw] is [direction == 'clockwise'] *)
Definition tile_rotate (t : tile) (amount : Z) (around : vec) (cw : bool) : res tile :=
  let! p := vsub (t_pos t) (OVec around) in
  let amount := amount mod 4 in
  let amount := if cw then amount else 4 - amount in
  let! q := vadd (rotn (Z.to_nat amount) p) (OVec around) in
  Ok (mkTile (t_name t) q).

(** 601-608: [top_left]/[bottom_right] are methods, not properties, so [collides]
    compares a bound method with a Vector *)
Definition tile_collides (t : tile) (p : vec) : res bool := Err EType.

(** ** [p in s] on strings *)
Fixpoint prefixb (p s : string) : bool :=
  match p, s with
  | EmptyString, _ => true
  | String a p', String b s' => Ascii.eqb a b && prefixb p' s'
  | _, _ => false
  end.
Fixpoint substringb (p s : string) : bool :=
  prefixb p s || match s with EmptyString => false | String _ r => substringb p r end.

(** 282-286: NameStr.type *)
Definition default_type (defaults : list (key * string)) (s : string) : val :=
  match dget s defaults with Some t => VStr t | None => VNone end.
