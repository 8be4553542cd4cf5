(** * What the attributes of control behaviours take and how they are exported (C68). *)
From Verif Require Import Py Num Util SpecUtil SpecWorld Classes SpecAttr SpecValues SpecSetting.
Open Scope Z_scope.

(** ** Paths into a document *)
Fixpoint at_path (q : list string) (v : val) : option val :=
  match q with
  | [] => Some v
  | k :: q => match v with VDict d => match dget (KS k) d with Some x => at_path q x | None => None end | _ => None end
  end.
Definition prefix (q q' : list string) : Prop := exists r, q' = (q ++ r)%list.
Definition unrelated (q q' : list string) : Prop := ~ prefix q q' /\ ~ prefix q' q.

(** ** Signals *)
(** a name must be in the table of signals, the empty one need not *)
Inductive looked_up (t : dict) : val -> res val -> Prop :=
| lu_none : looked_up t VNone (Ok VNone)
| lu_empty : looked_up t (VStr "") (Ok (VStr ""))
| lu_zero : looked_up t (VInt 0) (Ok (VInt 0))
| lu_known (s : string) : s <> ""%string -> dget s t <> None -> looked_up t (VStr s) (Ok (VStr s))
| lu_unknown v : ~ falsy v -> hashable v -> (forall s : string, v = VStr s -> dget s t = None) -> looked_up t v (Err EUnknownSignal)
| lu_unhashable v : ~ falsy v -> ~ hashable v -> looked_up t v (Err EType).
(** an int is a constant; of a dictionary the name counts *)
Inductive signal_taken (t : dict) : val -> res val -> Prop :=
| sk_int z : signal_taken t (VInt z) (Ok (VInt z))
| sk_named d n r : dget "name" d = Some n -> looked_up t n r -> signal_taken t (VDict d) r
| sk_unnamed d : dget "name" d = None -> signal_taken t (VDict d) (Ok VNone)
| sk_other v r : (forall z, v <> VInt z) -> (forall d, v <> VDict d) -> looked_up t v r -> signal_taken t v r.
(** the document of a signal *)
Inductive signal_doc (t : dict) (s : string) : res val -> Prop :=
| sd_ok data ty : dget s t = Some data -> field data "type" (Ok ty) -> signal_doc t s (Ok (VDict [(KS "name", VStr s); (KS "type", ty)]))
| sd_typeless data e : dget s t = Some data -> field data "type" (Err e) -> signal_doc t s (Err e)
| sd_unknown : dget s t = None -> signal_doc t s (Err EKey).

(** ** Kinds of attributes *)
Inductive kind :=
| KGiven       (* exported unless None *)
| KAlways      (* exported, None too *)
| KSwitch      (* exported as false when it is off *)
| KSignal      (* a signal *)
| KOptSignal   (* a signal, nothing when it is empty *)
| KFirst | KSecond | KComparator. (* the parts of the circuit condition *)
Definition behaviour (c : scls) : list (string * kind) :=
  match c with
  | CAccumulator => [("output_signal", KSignal)]
  | CConstantCombinator => [("is_on", KSwitch)]
  | CTransportBelt => [("circuit_read_hand_contents", KAlways); ("circuit_enable_disable", KAlways); ("circuit_contents_read_mode", KAlways)]
  | CTrainSignal => [("circuit_read_signal", KGiven); ("red_output_signal", KSignal); ("orange_output_signal", KSignal); ("green_output_signal", KSignal)]
  | CChainSignal => [("blue_output_signal", KSignal)]
  | CRailSignal => [("circuit_close_signal", KGiven)]
  | CCircuitCondition => [("first", KFirst); ("second", KSecond); ("comparator", KComparator)]
  | CLamp => [("use_colors", KGiven)]
  | CMiningDrill => [("circuit_enable_disable", KAlways); ("circuit_read_resources", KAlways); ("circuit_resource_read_mode", KAlways)]
  | CInserter => [("circuit_mode_of_operation", KGiven); ("circuit_set_stack_size", KGiven); ("stack_control_input_signal", KSignal);
                  ("circuit_hand_read_mode", KGiven); ("circuit_read_hand_contents", KGiven)]
  | CRequester => [("circuit_mode_of_operation", KGiven)]
  | CRoboport => [("read_logistics", KGiven); ("read_robot_stats", KGiven); ("available_construction_output_signal", KOptSignal);
                  ("total_construction_output_signal", KOptSignal); ("available_logistic_output_signal", KOptSignal); ("total_logistic_output_signal", KOptSignal)]
  | CStation => [("circuit_enable_disable", KGiven); ("read_from_train", KGiven); ("read_stopped_train", KGiven); ("train_stopped_signal", KOptSignal)]
  | _ => []
  end%string.
(** no other class of the behaviour has an attribute of that name, and it is no combinator *)
Definition alone (l : list scls) (c : scls) (k : string) : Prop :=
  ~ In CCombinator l /\ ~ In CDecider l /\ forall c' g, In c' l -> In (k, g) (behaviour c') -> c' = c.

(** what is stored for a value *)
Definition taken (t : dict) (g : kind) (v : val) : res val -> Prop :=
  match g with
  | KGiven | KAlways | KSwitch => gives v
  | KComparator => fun r => (v = VNone /\ r = Ok VNone) \/ (v <> VNone /\ must (one_of [">"; "<"; "="; "≥"; "≤"; "!="]%string v) v r)
  | _ => signal_taken t v
  end.
(** what the export holds for what is stored *)
Definition effect : Type := list string * option val.
Inductive side (t : dict) (name constant : string) : val -> res (list effect) -> Prop :=
| si_none : side t name constant VNone (Ok [([name], None); ([constant], None)])
| si_int z : side t name constant (VInt z) (Ok [([name], None); ([constant], Some (VInt z))])
| si_signal s j : signal_doc t s (Ok j) -> side t name constant (VStr s) (Ok [([name], Some j); ([constant], None)])
| si_bad s e : signal_doc t s (Err e) -> side t name constant (VStr s) (Err e).
Definition within (k : string) (fx : list effect) : list effect := map (fun f => (k :: fst f, snd f)) fx.
Definition shown_as (t : dict) (g : kind) (k : string) (x : val) (r : res (list effect)) : Prop :=
  match g with
  | KGiven => r = Ok [([k], shows x)]
  | KAlways => r = Ok [([k], Some x)]
  | KSwitch => exists b, truth x b /\ r = Ok [([k], if b then None else Some (VBool false))]
  | KSignal => (x = VNone /\ r = Ok [([k], None)]) \/ (exists z, x = VInt z /\ r = Ok [([k], Some x)]) \/
               exists s, x = VStr s /\ (let? j := signal_doc t s in gives [([k], Some j)]) r
  | KOptSignal => (falsy x /\ r = Ok [([k], None)]) \/ (exists z, x = VInt z /\ z <> 0 /\ r = Err EAttribute) \/
                  exists s, x = VStr s /\ s <> ""%string /\ (let? j := signal_doc t s in gives [([k], Some j)]) r
  | KFirst => (let? fx := side t "first_signal" "first_constant" x in gives (within "circuit_condition" fx)) r
  | KSecond => (let? fx := side t "second_signal" "constant" x in gives (within "circuit_condition" fx)) r
  | KComparator => r = Ok [(["circuit_condition"; "comparator"]%string, shows x)]
  end.

(** ** Arithmetic and decider combinators *)
(** the key of the conditions, the key of the operator, the operators *)
Definition conditions (c : scls) : string * string * list string :=
  match c with
  | CArithmetic => ("arithmetic_conditions", "operation", ["*"; "/"; "+"; "-"; "%"; "^"; "<<"; ">>"; "AND"; "OR"; "XOR"])
  | _ => ("decider_conditions", "comparator", [">"; "<"; "="; "≥"; "≤"; "!="])
  end%string.
Inductive part := POperator | PCopy | PSide (s : string).
Definition part_name (a : part) : string := match a with POperator => "operator" | PCopy => "copy_count_from_input" | PSide s => s end%string.
Definition part_of (c : scls) (a : part) : Prop :=
  match a with POperator => True | PCopy => c = CDecider | PSide s => In s ["first"; "second"; "output"]%string end.
Definition part_taken (t : dict) (c : scls) (a : part) (v : val) : res val -> Prop :=
  match a with
  | POperator => fun r => (v = VNone /\ r = Ok VNone) \/ (v <> VNone /\ must (one_of (snd (conditions c)) v) v r)
  | PCopy => gives v
  | PSide _ => signal_taken t v
  end.
(** deciders have one place for the constants of all sides *)
Definition part_shown (t : dict) (c : scls) (a : part) (x : val) (r : res (list effect)) : Prop :=
  let '(field, op, _) := conditions c in
  match a with
  | POperator => r = Ok [([field; op], Some x)]
  | PCopy => r = Ok [([field; "copy_count_from_input"%string], Some x)]
  | PSide s => (let? fx := side t (s ++ "_signal") (match c with CArithmetic => s ++ "_constant" | _ => "constant" end)%string x in gives (within field fx)) r
  end.
