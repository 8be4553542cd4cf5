(** * Python values, exceptions and dictionaries.

    Shared vocabulary of the model.  Nothing in this file is specific to the
    repository: it fixes how Python objects that come out of [json.loads] and
    exceptions are represented. *)
From Coq Require Export ZArith Bool String Ascii List.
From Coq Require Export Floats.SpecFloat.
Export ListNotations.
Open Scope string_scope.
Open Scope list_scope.
Open Scope Z_scope.

(** Exceptions the modelled code can raise.  Sub-classes of [ValueError] that
    the code distinguishes are listed separately.  [EUnmodelled] is not a
    Python exception: it marks inputs outside the model (see DESIGN.md). *)
Inductive exn :=
| EType | EValue | EKey | EIndex | EAttribute | EZeroDiv | EOverflow
| EUnicodeDecode | EJSONDecode | EBinascii | EZlib      (* external libraries *)
| EInvalidExchangeString | EUnknownEntity | EUnknownRecipe | EUnknownSignal
| EUnknownItem | EUnknownTile | EDuplicateEntity        (* exceptions.py 1-34 *)
| EUnmodelled.

Inductive res (A : Type) := Ok (a : A) | Err (e : exn).
Arguments Ok {A} a.
Arguments Err {A} e.

Definition bind {A B} (x : res A) (f : A -> res B) : res B :=
  match x with Ok a => f a | Err e => Err e end.
Notation "'let!' x := a 'in' b" := (bind a (fun x => b))
  (at level 200, x pattern, a at level 100, b at level 200).

Definition is_ok {A} (x : res A) : bool := match x with Ok _ => true | Err _ => false end.

Fixpoint mapM {A B} (f : A -> res B) (l : list A) : res (list B) :=
  match l with
  | [] => Ok []
  | x :: r => let! y := f x in let! ys := mapM f r in Ok (y :: ys)
  end.

(** A binary64 float.  [spec_float] is the standard library's IEEE-754 datatype
    (no NaN payloads, as in Python's observable behaviour). *)
Definition float64 := spec_float.

(** Dictionary keys: strings, or the integer keys that
    [Entity.connections_to_json] (entity.py 172-198) produces. *)
Inductive key := KS (s : string) | KI (z : Z).
Coercion KS : string >-> key.

Definition key_eqb (a b : key) : bool :=
  match a, b with
  | KS s, KS t => String.eqb s t
  | KI x, KI y => Z.eqb x y
  | _, _ => false
  end.

(** Python objects as produced by [json.loads] / consumed by [json.dumps].
    A dict is its insertion-ordered list of items. *)
Inductive val :=
| VNone
| VBool (b : bool)
| VInt (z : Z)
| VFlt (f : float64)
| VStr (s : string)
| VList (l : list val)
| VDict (d : list (key * val)).

Definition dict := list (key * val).

(** [d.get(k)] *)
Fixpoint dget {V} (k : key) (d : list (key * V)) : option V :=
  match d with
  | [] => None
  | (k', v) :: r => if key_eqb k k' then Some v else dget k r
  end.

(** [d[k] = v]: replaces in place, otherwise appends. *)
Fixpoint dset {V} (k : key) (v : V) (d : list (key * V)) : list (key * V) :=
  match d with
  | [] => [(k, v)]
  | (k', v') :: r => if key_eqb k k' then (k', v) :: r else (k', v') :: dset k v r
  end.

(** [del d[k]] / the dictionary after [d.pop(k, ...)]. *)
Fixpoint ddel {V} (k : key) (d : list (key * V)) : list (key * V) :=
  match d with
  | [] => []
  | (k', v') :: r => if key_eqb k k' then ddel k r else (k', v') :: ddel k r
  end.

Definition dmem {V} (k : key) (d : list (key * V)) : bool :=
  match dget k d with Some _ => true | None => false end.

Definition dkeys {V} (d : list (key * V)) : list key := map fst d.

(** [{**a, **b}] : right-biased merge keeping [a]'s positions. *)
Definition dmerge {V} (a b : list (key * V)) : list (key * V) :=
  fold_left (fun acc kv => dset (fst kv) (snd kv) acc) b a.

Definition odflt {A} (d : A) (o : option A) : A := match o with Some a => a | None => d end.

(** [d.pop(k, default)] : value and remaining dictionary. *)
Definition dpop {V} (k : key) (dflt : V) (d : list (key * V)) : V * list (key * V) :=
  (odflt dflt (dget k d), ddel k d).

(** Truthiness of a value, [bool(v)]. *)
Definition truthy (v : val) : bool :=
  match v with
  | VNone => false
  | VBool b => b
  | VInt z => negb (z =? 0)
  | VFlt (S754_zero _) => false
  | VFlt _ => true
  | VStr s => negb (String.eqb s "")
  | VList l => match l with [] => false | _ => true end
  | VDict d => match d with [] => false | _ => true end
  end.

Definition is_none (v : val) : bool := match v with VNone => true | _ => false end.

(** [v["k"]] for a string subscript: dicts look up (KeyError), every other type
    that can occur raises TypeError (not subscriptable / bad index type). *)
Definition getitem (v : val) (k : string) : res val :=
  match v with
  | VDict d => match dget k d with Some x => Ok x | None => Err EKey end
  | _ => Err EType
  end.

(** [v.get("k", dflt)]: only dicts have [.get]. *)
Definition getdef (v : val) (k : string) (dflt : val) : res val :=
  match v with
  | VDict d => Ok (odflt dflt (dget k d))
  | _ => Err EAttribute
  end.

(** Iteration [for x in v].  Iterating a string is outside the model. *)
Definition iter_val (v : val) : res (list val) :=
  match v with
  | VList l => Ok l
  | VDict d => Ok (map (fun kv => match fst kv with KS s => VStr s | KI z => VInt z end) d)
  | VStr _ => Err EUnmodelled
  | _ => Err EType
  end.

(** [f(star-star v)]: the operand must be a mapping with string keys. *)
Fixpoint all_KS {V} (d : list (key * V)) : bool :=
  match d with [] => true | (KS _, _) :: r => all_KS r | (KI _, _) :: _ => false end.
Definition as_kwargs (v : val) : res dict :=
  match v with
  | VDict d => if all_KS d then Ok d else Err EType
  | _ => Err EType
  end.

(** [v in table] where [table] is a dict with string keys: unhashable operands
    raise TypeError, hashable non-strings are simply absent. *)
Definition in_table {V} (v : val) (t : list (key * V)) : res bool :=
  match v with
  | VStr s => Ok (dmem s t)
  | VList _ | VDict _ => Err EType
  | _ => Ok false
  end.

(** [v in [strings]]. *)
Definition str_in (v : val) (l : list string) : bool :=
  match v with VStr s => existsb (String.eqb s) l | _ => false end.

(** util.py 626-637 [obj_set], for a value without [to_json] (or already
    converted): None is skipped, anything else is stored. *)
Definition obj_set (obj : dict) (k : string) (v : val) : dict :=
  match v with VNone => obj | _ => dset k v obj end.

(** Induction principle with hypotheses for the elements of lists and dicts. *)
Section ValInd.
  Variable P : val -> Prop.
  Hypothesis HNone : P VNone.
  Hypothesis HBool : forall b, P (VBool b).
  Hypothesis HInt : forall z, P (VInt z).
  Hypothesis HFlt : forall f, P (VFlt f).
  Hypothesis HStr : forall s, P (VStr s).
  Hypothesis HList : forall l, Forall P l -> P (VList l).
  Hypothesis HDict : forall d, Forall (fun kv => P (snd kv)) d -> P (VDict d).
  Fixpoint val_ind' (v : val) : P v :=
    match v with
    | VNone => HNone | VBool b => HBool b | VInt z => HInt z | VFlt f => HFlt f
    | VStr s => HStr s
    | VList l => HList l ((fix go l := match l return Forall P l with
                                     | [] => Forall_nil _
                                     | x :: r => Forall_cons _ (val_ind' x) (go r) end) l)
    | VDict d => HDict d ((fix go d := match d return Forall (fun kv => P (snd kv)) d with
                                     | [] => Forall_nil _
                                     | x :: r => Forall_cons _ (val_ind' (snd x)) (go r) end) d)
    end.
End ValInd.
