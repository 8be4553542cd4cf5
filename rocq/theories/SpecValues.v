(** * Specifications for the operators of Direction (C65), Condition and SignalID (C66). *)
From Verif Require Import Py Num Util SpecRound SpecArith Values.
Open Scope string_scope.
Open Scope Z_scope.

(** ** Directions *)
(** a Direction congruent to [z] modulo 8 *)
Definition a_direction (z : Z) (r : res dresult) : Prop :=
  exists e, r = Ok (RDir e) /\ 0 <= e < 8 /\ (8 | z - e).
(** a plain number, or the error of the operator on plain numbers *)
Definition a_plain (R : num -> num -> res num -> Prop) (a b : num) (r : res dresult) : Prop :=
  (exists n, r = Ok (RNum n) /\ R a b (Ok n)) \/ (exists e, r = Err e /\ R a b (Err e)).
Definition eight : Z := 8 * one_unit.

(** ** Conditions *)
Definition names := list (key * string).
Definition type_of (t : names) (s ty : string) : Prop := dget s t = Some ty.
Definition known (t : names) (s : string) : Prop := exists ty, type_of t s ty.
Definition hashable (v : val) : Prop := match v with VList _ | VDict _ => False | _ => True end.
(** what NameStr(v) gives; None stands for None *)
Inductive named (t : names) : val -> res (option string) -> Prop :=
| nm_none : named t VNone (Ok None)
| nm_known s : known t s -> named t (VStr s) (Ok (Some s))
| nm_unknown v : hashable v -> v <> VNone -> (forall s, v = VStr s -> ~ known t s) -> named t v (Err EUnknownEntity)
| nm_unhashable v : ~ hashable v -> named t v (Err EType).
(** the first signal: a name that does not contain "name", or a dictionary with a name *)
Inductive first_signal : val -> res val -> Prop :=
| fs_dict d n : dget "name" d = Some n -> first_signal (VDict d) (Ok n)
| fs_string s : ~ (exists a b, s = a ++ "name" ++ b) -> first_signal (VStr s) (Ok (VStr s))
| fs_bad v : (forall d n, v = VDict d -> dget "name" d <> Some n) ->
    (forall s, v = VStr s -> exists a b, s = a ++ "name" ++ b) -> first_signal v (Err EType).
Definition whole (v : val) : Prop := (exists z, v = VInt z) \/ exists b, v = VBool b.
(** the second operand: an int or bool as it is, or a name *)
Inductive second_operand (t : names) : val -> res val -> Prop :=
| so_number v : whole v -> second_operand t v (Ok v)
| so_none v : ~ whole v -> named t v (Ok None) -> second_operand t v (Ok VNone)
| so_name v s : ~ whole v -> named t v (Ok (Some s)) -> second_operand t v (Ok (VStr s))
| so_error v e : ~ whole v -> named t v (Err e) -> second_operand t v (Err e).
Definition falsy (v : val) : Prop := In v [VNone; VBool false; VInt 0; VStr ""; VList []; VDict []] \/ exists s, v = VFlt (S754_zero s).
Definition given (second constant v : val) : Prop := (~ falsy second /\ v = second) \/ (falsy second /\ v = constant).
Definition comparators : list string := [">"; "<"; "="; ">="; "<="; "!="].
Definition is_comparator (v : val) (c : string) : Prop := v = VStr c /\ In c comparators.
(** Condition(first_signal=, comparator=, constant=, second_signal=): the first step that fails decides *)
Inductive condition_made (t : names) (first cmp constant second : val) : res condition -> Prop :=
| cm_first e : first_signal first (Err e) -> condition_made t first cmp constant second (Err e)
| cm_name n e : first_signal first (Ok n) -> named t n (Err e) -> condition_made t first cmp constant second (Err e)
| cm_second n o v e : first_signal first (Ok n) -> named t n (Ok o) -> given second constant v ->
    second_operand t v (Err e) -> condition_made t first cmp constant second (Err e)
| cm_cmp n o v s : first_signal first (Ok n) -> named t n (Ok o) -> given second constant v ->
    second_operand t v (Ok s) -> (forall c, ~ is_comparator cmp c) -> condition_made t first cmp constant second (Err EValue)
| cm_ok n o v s c : first_signal first (Ok n) -> named t n (Ok o) -> given second constant v ->
    second_operand t v (Ok s) -> is_comparator cmp c -> condition_made t first cmp constant second (Ok (mkCond o s c)).

(** the conditions a program can have: made, then assigned to *)
Inductive live (t : names) : condition -> Prop :=
| lv_new first cmp constant second c : condition_new t first cmp constant second = Ok c -> live t c
| lv_set c a v c' : live t c -> cond_set t c a v = Ok c' -> live t c'.
(** the document of a condition *)
Definition signal_document (t : names) (s : string) (v : val) : Prop :=
  exists ty, type_of t s ty /\ v = VDict [(KS "name", VStr s); (KS "type", VStr ty)].
Inductive condition_document (t : names) (c : condition) : dict -> Prop :=
| cd_doc l r : (cd_first c = None /\ l = [] \/ exists s v, cd_first c = Some s /\ signal_document t s v /\ l = [(KS "first_signal", v)]) ->
    (cd_second c = VNone /\ r = [] \/
     (exists s v, cd_second c = VStr s /\ signal_document t s v /\ r = [(KS "second_signal", v)]) \/
     (whole (cd_second c) /\ r = [(KS "constant", cd_second c)])) ->
    In (cd_cmp c) comparators ->
    condition_document t c (l ++ (KS "comparator", VStr (cd_cmp c)) :: r)%list.
