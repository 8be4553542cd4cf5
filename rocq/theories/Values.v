(** * Model of the value classes of util.py that entities do not use: the operators of Direction,
    Condition, NameStr.metadata/type and SignalID (util.py 114-304). *)
From Verif Require Import Py Num Util.
Open Scope Z_scope.

(** ** Direction as a number, util.py 114-208 *)
Inductive doperand := DDir (d : direction) | DNum (n : num).
Inductive dresult := RDir (d : direction) | RNum (n : num).
Definition plain (r : res num) : res dresult := let! n := r in Ok (RNum n).

(** d + o and d - o, 121-127: [int.__add__] of a float is NotImplemented, and NotImplemented % 8 in
    [Direction.__new__] (118-119) is a TypeError *)
Definition dir_plus (d : direction) (o : doperand) : res dresult :=
  match o with
  | DDir e => Ok (RDir (dir_add d e))
  | DNum (NI z) => Ok (RDir (dir_add d z))
  | DNum (NF _) => Err EType
  end.
Definition dir_minus (d : direction) (o : doperand) : res dresult :=
  match o with
  | DDir e => Ok (RDir (dir_sub d e))
  | DNum (NI z) => Ok (RDir (dir_sub d z))
  | DNum (NF _) => Err EType
  end.
(** n + d and n - d: [__radd__] and [__rsub__] are inherited from int *)
Definition dir_rplus (n : num) (d : direction) : res dresult := plain (nadd n (NI d)).
Definition dir_rminus (n : num) (d : direction) : res dresult := plain (nsub n (NI d)).
(** d * o, -d, d % o: inherited from int *)
Definition doperand_num (o : doperand) : num := match o with DDir e => NI e | DNum n => n end.
Definition dir_times (d : direction) (o : doperand) : res dresult := plain (nmul (NI d) (doperand_num o)).
Definition dir_negate (d : direction) : dresult := RNum (nneg (NI d)).
Definition dir_modulo (d : direction) (o : doperand) : res dresult := plain (nmod (NI d) (doperand_num o)).
(** d // o and d / o, 129-133: the methods return NotImplemented.  The interpreter (CPython
    abstract.c binary_op1) then tries the other operand: for two Directions there is nothing else to
    try, but int and float divide a Direction like any int. *)
Definition dir_floordiv (d : direction) (o : doperand) : res dresult :=
  match o with DDir _ => Err EType | DNum n => plain (nfloordiv (NI d) n) end.
Definition dir_truediv (d : direction) (o : doperand) : res dresult :=
  match o with DDir _ => Err EType | DNum n => plain (ntruediv (NI d) n) end.
(** n // d and n / d, inherited *)
Definition dir_rfloordiv (n : num) (d : direction) : res dresult := plain (nfloordiv n (NI d)).
Definition dir_rtruediv (n : num) (d : direction) : res dresult := plain (ntruediv n (NI d)).

(** 145-159 *)
Definition dir_up : direction := dir_new 0.
Definition dir_right : direction := dir_new 2.
Definition dir_down : direction := dir_new 4.
Definition dir_left : direction := dir_new 6.
(** 161-175 *)
Definition is_up (d : direction) : bool := d =? 0.
Definition is_right (d : direction) : bool := d =? 2.
Definition is_down (d : direction) : bool := d =? 4.
Definition is_left (d : direction) : bool := d =? 6.
(** 135-140: a tuple index; a Direction is never negative *)
Definition dir_names : list string :=
  ["Up"; "Up-Right"; "Right"; "Down-Right"; "Down"; "Down-Left"; "Left"; "Up-Left"].
Definition dir_repr (d : direction) : res string :=
  match nth_error dir_names (Z.to_nat d) with
  | Some s => Ok ("<Direction (" ++ s ++ ")>")%string
  | None => Err EIndex
  end.

(** ** NameStr, util.py 266-286: [defaults] is the built-in table (defaultentities.py), each name with
    its "type" entry; [name_str] (Util.v) is the constructor *)
Definition name_type (defaults : list (key * string)) (s : string) : res string :=
  match dget s defaults with Some t => Ok t | None => Err EType end.      (* None["type"] *)

(** ** Condition, util.py 211-263 *)
(** [cd_second]: None, an int or bool, or a name *)
Record condition := mkCond { cd_first : option string; cd_second : val; cd_cmp : string }.
Definition cond_comparators := [">"; "<"; "="; ">="; "<="; "!="].

(** 224-226 *)
Definition cond_set_first (defaults : list (key * string)) (v : val) : res (option string) := name_str defaults v.
(** 232-237: bools are ints *)
Definition cond_set_second (defaults : list (key * string)) (v : val) : res val :=
  match v with
  | VInt _ | VBool _ => Ok v
  | _ => let! n := name_str defaults v in Ok (match n with Some s => VStr s | None => VNone end)
  end.
(** 243-247 *)
Definition cond_set_cmp (v : val) : res string :=
  match v with
  | VStr c => if existsb (String.eqb c) cond_comparators then Ok c else Err EValue
  | _ => Err EValue
  end.
(** 212-218.  [if "name" in first_signal] is a key test on dicts, a substring test on strings (and then
    a string is indexed with a string), a membership test on lists (which fail either way: indexed
    with a string, or unhashable in NameStr) and a TypeError on None and numbers. *)
Definition condition_new (defaults : list (key * string)) (first comparator constant second : val) : res condition :=
  let! first :=
    match first with
    | VDict d => Ok (match dget "name" d with Some n => n | None => first end)
    | VStr s => if substringb "name" s then Err EType else Ok first
    | _ => Err EType
    end in
  let! f := cond_set_first defaults first in
  let! s := cond_set_second defaults (if truthy second then second else constant) in
  let! c := cond_set_cmp comparator in
  Ok (mkCond f s c).
(** the assignments [c.first = v], [c.second = v] and [c.comparator = v] *)
Inductive cond_attr := CFirst | CSecond | CComparator.
Definition cond_set (defaults : list (key * string)) (c : condition) (a : cond_attr) (v : val) : res condition :=
  match a with
  | CFirst => let! f := cond_set_first defaults v in Ok (mkCond f (cd_second c) (cd_cmp c))
  | CSecond => let! s := cond_set_second defaults v in Ok (mkCond (cd_first c) s (cd_cmp c))
  | CComparator => let! p := cond_set_cmp v in Ok (mkCond (cd_first c) (cd_second c) p)
  end.

(** 249-263 *)
Definition condition_to_json (defaults : list (key * string)) (c : condition) : res dict :=
  let sig s := let! t := name_type defaults s in Ok (VDict [(KS "name", VStr s); (KS "type", VStr t)]) in
  let! o := match cd_first c with
            | None => Ok []
            | Some s => let! v := sig s in Ok [(KS "first_signal", v)]
            end in
  let o := o ++ [(KS "comparator", VStr (cd_cmp c))] in
  match cd_second c with
  | VNone => Ok o
  | VStr s => let! v := sig s in Ok (o ++ [(KS "second_signal", v)])
  | v => Ok (o ++ [(KS "constant", v)])
  end.
(** Condition with the entries of a document as keywords: a keyword that is missing is None, one that is unknown a TypeError *)
Definition cond_keywords : list key := [KS "first_signal"; KS "comparator"; KS "constant"; KS "second_signal"].
Definition condition_of (defaults : list (key * string)) (d : dict) : res condition :=
  let arg (k : string) : val := odflt VNone (dget k d) in
  if forallb (fun kv => existsb (key_eqb (fst kv)) cond_keywords) d
  then condition_new defaults (arg "first_signal"%string) (arg "comparator"%string) (arg "constant"%string) (arg "second_signal"%string)
  else Err EType.

(** ** SignalID, util.py 289-304: the name may be None *)
Definition signal_new (defaults : list (key * string)) (data : val) : res (option string) :=
  match data with
  | VDict d => match dget "name" d with Some v => name_str defaults v | None => Err EKey end
  | _ => Err EType
  end.
(** 294-297, 302-304: [entity_data[self.name]] *)
Definition signal_type (defaults : list (key * string)) (n : option string) : res string :=
  match n with
  | None => Err EKey
  | Some s => match dget s defaults with Some t => Ok t | None => Err EKey end
  end.
Definition signal_to_json (defaults : list (key * string)) (n : option string) : res val :=
  let! t := signal_type defaults n in
  Ok (VDict [(KS "name", match n with Some s => VStr s | None => VNone end); (KS "type", VStr t)]).
