(** * What can be wrong with a description of an entity (C69).  A fault is a part of the
      description together with the exception it stands for; nothing is said about order. *)
From Verif Require Import Py Num NumFacts Util SpecUtil SpecRound SpecArith Classes Mixins Entity Setters World SpecWorld SpecDoc SpecEntity SpecAttr SpecValues SpecSetting SpecBehaviour.
Open Scope string_scope. Open Scope Z_scope. Open Scope list_scope.

(** Direction(v); texts are left out *)
Inductive no_direction : val -> exn -> Prop :=
| nd_none : no_direction VNone EType
| nd_list l : no_direction (VList l) EType
| nd_dict d : no_direction (VDict d) EType
| nd_float f : ~ finite f -> no_direction (VFlt f) EValue.

(** a filter: known keys only, and a signal that is known *)
Definition filter_fault (t : dict) (allowed : list string) (s : string) (v : val) (x : exn) : Prop :=
  keywords allowed v (Err x) \/ exists d n, v = VDict d /\ dget (KS s) d = Some n /\ signal_taken t n (Err x).
Definition filters_fault (E : val -> res (list val) -> Prop) (t : dict) (allowed : list string) (s : string) (v : val) (x : exn) : Prop :=
  E v (Err x) \/ exists l f, E v (Ok l) /\ In f l /\ filter_fault t allowed s f x.
(** items by their names *)
Definition items_fault (t : dict) (v : val) (x : exn) : Prop :=
  ((forall d, v <> VDict d) /\ x = EAttribute) \/ exists d k n, v = VDict d /\ In (k, n) d /\ signal_taken t (key_value k) (Err x).

(** the keys of the type itself: two are required *)
Definition own_fault (t recipes : dict) (s : string) (o : option val) (x : exn) : Prop :=
  match o with
  | None => In s ["type"; "infinity_settings"] /\ x = EType
  | Some v =>
      (exists k, attr_name k = s /\ ~ is_part k /\ setting recipes true k v (Err x)) \/
      (s = "items" /\ items_fault t v x) \/
      (s = "filters" /\ filters_fault elements_or_none t ["name"; "index"] "name" v x)
  end.

(** ** Control behaviours *)
Definition signal_keys : list string :=
  ["output_signal"; "red_output_signal"; "orange_output_signal"; "green_output_signal"; "blue_output_signal"; "stack_control_input_signal";
   "available_construction_output_signal"; "total_construction_output_signal"; "available_logistic_output_signal"; "total_logistic_output_signal";
   "train_stopped_signal"].
(** a constant counts when there is no second signal *)
Definition condition_fault (t : dict) (v : val) (x : exn) : Prop :=
  ((forall d, v <> VDict d) /\ x = EAttribute) \/
  exists d n, v = VDict d /\
  ((dget "first_signal" d = Some n /\ signal_taken t n (Err x)) \/
   (dget "second_signal" d = Some n /\ signal_taken t n (Err x)) \/
   (dget "second_signal" d = None /\ dget "constant" d = Some n /\ signal_taken t n (Err x)) \/
   (dget "comparator" d = Some n /\ taken t KComparator n (Err x))).
Definition key_fault (t : dict) (s : string) (v : val) (x : exn) : Prop :=
  (In s signal_keys /\ signal_taken t v (Err x)) \/
  (s = "circuit_condition" /\ v <> VNone /\ condition_fault t v x) \/
  (s = "filters" /\ filters_fault elements t ["signal"; "count"; "index"] "signal" v x) \/
  (s = "circuit_parameters" /\ keywords ["instrument_id"; "note_id"; "signal_value_is_pitch"] v (Err x)).
(** a side of a combinator: a constant and a signal exclude each other *)
Definition constant_key (c : scls) (s : string) : string :=
  match c with CDecider => if String.eqb s "first" then "constant" else s ++ "_constant" | _ => s ++ "_constant" end%string.
Definition side_fault (t : dict) (c : scls) (s : string) (d : dict) (x : exn) : Prop :=
  (exists v, dget (KS (constant_key c s)) d = Some v /\ v <> VNone /\
   (signal_taken t v (Err x) \/ (dget (KS (s ++ "_signal")%string) d <> None /\ x = EType))) \/
  ((dget (KS (constant_key c s)) d = None \/ dget (KS (constant_key c s)) d = Some VNone) /\
   exists g, dget (KS (s ++ "_signal")%string) d = Some g /\ g <> VNone /\ (let? n := field g "name" in signal_taken t n) (Err x)).
Definition combinator_fault (t : dict) (c : scls) (ty : string) (o : option val) (x : exn) : Prop :=
  let '(_, op, _) := conditions c in
  match o with
  | None => x = EKey
  | Some (VDict d) =>
      (dget (KS op) d = None /\ x = EKey) \/
      (exists v, dget (KS op) d = Some v /\ part_taken t c POperator v (Err x)) \/
      (exists s, In s ["first"; "second"; "output"] /\ side_fault t c s d x) \/
      (exists k v, In (k, v) d /\ (forall s, k = KS s -> ~ In s (cond_keys ty)) /\ x = EType)
  | Some (VList _) => x = EType
  | Some _ => x = EAttribute
  end.
Definition behaviour_fault (t : dict) (ty : string) (cbk : list string) (v : val) (x : exn) : Prop :=
  (* inserters let other keys pass *)
  (ty <> "inserter" /\ keywords cbk v (Err x)) \/
  (ty = "inserter" /\ x = EType /\ ((forall d, v <> VDict d) \/ exists d k n, v = VDict d /\ In (k, n) d /\ (forall s, k = KS s -> In s ["self"; "_entity"]))) \/
  exists d, v = VDict d /\
  ((exists s n, In s cbk /\ dget (KS s) d = Some n /\ key_fault t s n x) \/
   (ty = "arithmetic-combinator" /\ combinator_fault t CArithmetic ty (dget "arithmetic_conditions" d) x) \/
   (ty = "decider-combinator" /\ combinator_fault t CDecider ty (dget "decider_conditions" d) x)).

(** ** The description of an entity of type [ty], with the keys of its format *)
Inductive fault (p : protos) (ty : string) (own cbk : list string) (kw : dict) : exn -> Prop :=
| f_position v x : dget "position" kw = Some v -> v <> VNone -> place v (Err x) -> fault p ty own cbk kw x
| f_direction v x : dget "direction" kw = Some v -> no_direction v x -> fault p ty own cbk kw x
| f_own s x : In s own -> own_fault (p_signal p) (p_recipe p) s (dget (KS s) kw) x -> fault p ty own cbk kw x
| f_unknown k v : In (k, v) kw -> ~ understood ty k -> fault p ty own cbk kw EType
| f_behaviour v x : dget "control_behavior" kw = Some v -> behaviour_fault (p_signal p) ty cbk v x -> fault p ty own cbk kw x.
