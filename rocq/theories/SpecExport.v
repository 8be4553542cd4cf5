(** * What the export of an entity says, given the description it was made from (C70). *)
From Verif Require Import Py Num NumFacts Util SpecUtil SpecRound SpecArith Classes Mixins Entity Setters World SpecWorld SpecDoc SpecEntity SpecAttr SpecValues SpecSetting SpecBehaviour SpecMake SpecWrite.
Open Scope string_scope. Open Scope Z_scope. Open Scope list_scope.

(** [d] is the export of the entity that [mk kw] makes, of the name [s] and the type [ty] *)
Record exported (mk : dict -> op) (w : world) (kw : dict) (s ty : string) (own cbk : list string) (d : dict) : Prop := mkExported {
  ex_making : creating mk;
  ex_class : uncustomised mk w ty;
  ex_typed : typed (w_protos w) kw s ty;
  ex_format : In (ty, (own, cbk)) formats;
  ex_doubles : doubles (VDict kw);
  ex_made : snd (step (mk kw) w) = Ok tt;
  ex_doc : snd (ent_json (length (w_ents w)) (fst (step (mk kw) w))) = Ok (VDict d) }.
Definition given (k : string) (otherwise : val) (d : dict) : val := odflt otherwise (dget (KS k) d).

(** Direction(v) *)
Inductive faces : val -> Z -> Prop :=
| fc_int z : faces (VInt z) (z mod 8)
| fc_bool (b : bool) : faces (VBool b) (if b then 1 else 0)
| fc_float f m : finite f -> nearest_to false (units f mod eight) one_unit m -> faces (VFlt f) (units m / one_unit).
Definition shown_direction (ty : string) (z : Z) : option val -> Prop :=
  fun o => (In ty turnable /\ z <> 0 /\ o = Some (VInt z)) \/ (~ (In ty turnable /\ z <> 0) /\ o = None).

(** items: the same dictionary, unless it is empty *)
Definition shown_items (v : val) (o : option val) : Prop :=
  exists d, v = VDict d /\ ((d = [] /\ o = None) \/ (d <> [] /\ o = Some (VDict d))).
(** lists of filters *)
Definition shown_list (l : list val) (o : option val) : Prop := (l = [] /\ o = None) \/ (l <> [] /\ o = Some (VList l)).
Definition named_filter (t : dict) (f j : val) : Prop :=
  exists fd x, keywords ["name"; "index"] f (Ok fd) /\ signal_taken t (given "name" VNone fd) (Ok x) /\
  j = VDict [(KS "index", given "index" VNone fd); (KS "name", x)].
Definition signal_filter (t : dict) (f j : val) : Prop :=
  exists fd x sj, keywords ["signal"; "count"; "index"] f (Ok fd) /\ signal_taken t (given "signal" VNone fd) (Ok (VStr x)) /\ signal_doc t x (Ok sj) /\
  j = VDict [(KS "signal", sj); (KS "count", given "count" VNone fd); (KS "index", given "index" VNone fd)].

(** ** Control behaviours *)
(** the parts of the behaviour of a type *)
Definition controls (ty : string) : list scls :=
  match find (fun r => String.eqb (fst r) ty) [
    ("accumulator", [CAccumulator]); ("constant-combinator", [CConstantCombinator; CFilters]); ("logistic-container", [CRequester]);
    ("inserter", [CCircuitCondition; CInserter]); ("lamp", [CLamp; CCircuitCondition]); ("mining-drill", [CMiningDrill; CCircuitCondition]);
    ("offshore-pump", [CCircuitCondition]); ("power-switch", [CCircuitCondition]); ("programmable-speaker", [CSpeaker; CCircuitCondition]);
    ("pump", [CCircuitCondition]); ("rail-chain-signal", [CChainSignal; CTrainSignal]); ("rail-signal", [CRailSignal; CTrainSignal]);
    ("roboport", [CRoboport]); ("train-stop", [CStation; CCircuitCondition]); ("transport-belt", [CTransportBelt; CCircuitCondition])]
  with Some r => snd r | None => [] end.
(** the value of an attribute in the description; miners and constant combinators have defaults *)
Definition default (c : scls) (k : string) : val :=
  match c with
  | CConstantCombinator => VBool true
  | CMiningDrill => if String.eqb k "circuit_resource_read_mode" then VInt 0 else VBool true
  | _ => VNone
  end.
Definition from_condition (k : string) (v : val) : val :=
  match v with
  | VDict cc => if String.eqb k "first" then given "first_signal" VNone cc
                else if String.eqb k "second" then given "second_signal" (given "constant" VNone cc) cc
                else given "comparator" VNone cc
  | _ => VNone
  end.
Definition described (c : scls) (k : string) (cb : dict) : val :=
  match c with CCircuitCondition => from_condition k (given "circuit_condition" VNone cb) | _ => given k (default c k) cb end.

(** ** Combinators: what is stored for a side *)
Definition combinators : list string := ["arithmetic-combinator"; "decider-combinator"].
Definition combinator_type (c : scls) : string := match c with CArithmetic => "arithmetic-combinator" | _ => "decider-combinator" end.
Inductive side_stored (t : dict) (c : scls) (s : string) (d : dict) : val -> Prop :=
| ss_constant v x : dget (KS (constant_key c s)) d = Some v -> v <> VNone -> signal_taken t v (Ok x) -> side_stored t c s d x
| ss_signal g n x : given (constant_key c s) VNone d = VNone -> dget (KS (s ++ "_signal")%string) d = Some g -> g <> VNone ->
    field g "name" (Ok n) -> signal_taken t n (Ok x) -> side_stored t c s d x
| ss_nothing : given (constant_key c s) VNone d = VNone -> given (s ++ "_signal")%string VNone d = VNone -> side_stored t c s d VNone.
(** the signal and the constant a side shows *)
Inductive side_shown (t : dict) : val -> option val -> option val -> Prop :=
| sw_none : side_shown t VNone None None
| sw_int z : side_shown t (VInt z) None (Some (VInt z))
| sw_signal s j : signal_doc t s (Ok j) -> side_shown t (VStr s) (Some j) None.
Fixpoint first_of (l : list (option val)) : option val :=
  match l with [] => None | Some v :: _ => Some v | None :: l => first_of l end.
(** the document of the conditions: deciders have one constant, the last side that has one counts *)
Definition conditions_doc (c : scls) (o copy : val) (g1 c1 g2 c2 g3 c3 : option val) (k : string) : option val :=
  if String.eqb k (snd (fst (conditions c))) then Some o
  else if String.eqb k "first_signal" then g1 else if String.eqb k "second_signal" then g2 else if String.eqb k "output_signal" then g3
  else match c with
       | CArithmetic => if String.eqb k "first_constant" then c1 else if String.eqb k "second_constant" then c2 else if String.eqb k "output_constant" then c3 else None
       | _ => if String.eqb k "constant" then first_of [c3; c2; c1] else if String.eqb k "copy_count_from_input" then Some copy else None
       end.
