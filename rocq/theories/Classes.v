(** * The classes of entity_mixins.py / entity.py, ControlBehaviorMeta and the classes
    created at run time. *)
From Verif Require Import Py C3.

(** ** Statically defined classes *)
Inductive scls :=
| CObject                      (* the built-in object *)
| CBase                        (* entity_mixins.py 6 *)
| CBaseMixin                   (* 10 *)
| CAccumulator                 (* 114 *)
| CItems                       (* 128 *)
| CFilters                     (* 152 *)
| CConstantCombinator          (* 189 *)
| CCombinator                  (* 201 *)
| CArithmetic                  (* 258 *)
| CDecider                     (* 267 *)
| CTransportBelt               (* 291 *)
| CTrainSignal                 (* 309 *)
| CChainSignal                 (* 334 *)
| CRailSignal                  (* 348 *)
| COrientation                 (* 360 *)
| CTrain                       (* 371 *)
| CCargo                       (* 392 *)
| CColor                       (* 453 *)
| CContainer                   (* 465 *)
| CCircuitCondition            (* 486 *)
| CLamp                        (* 522 *)
| CMiningDrill                 (* 534 *)
| CInserter                    (* 552 *)
| CFilterInserter              (* 620 *)
| CInfinityContainer           (* 662 *)
| CRecipe                      (* 754 *)
| CRequester                   (* 766 *)
| CRoboport                    (* 822 *)
| CRotatable                   (* 859 *)
| CSilo                        (* 875 *)
| CSpeaker                     (* 895 *)
| CSplitter                    (* 975 *)
| CStation                     (* 1019 *)
| CUnderground                 (* 1052 *)
| CLoader                      (* 1072 *)
| CVariation                   (* 1076 *)
| CEntity.                     (* entity.py 103 *)

Definition scls_eq_dec (a b : scls) : {a = b} + {a <> b}.
Proof. decide equality. Defined.
Definition scls_eqb (a b : scls) : bool := if scls_eq_dec a b then true else false.

(** The base class lists, from the class statements cited above. *)
Definition sbases (c : scls) : list scls :=
  match c with
  | CObject => []
  | CBase => [CObject]
  | CBaseMixin => [CBase]
  | CConstantCombinator => [CFilters]
  | CArithmetic | CDecider => [CCombinator]
  | CChainSignal | CRailSignal => [CTrainSignal]
  | CTrain => [COrientation]
  | CCargo => [CTrain]
  | CLamp | CMiningDrill | CSpeaker | CStation => [CCircuitCondition]
  | CFilterInserter => [CInserter]
  | CLoader => [CUnderground]
  | _ => [CBaseMixin]
  end.

(** Classes whose body contains a nested [class ControlBehavior]. *)
Definition own_cb (c : scls) : bool :=
  match c with
  | CBaseMixin | CAccumulator | CFilters | CConstantCombinator | CCombinator | CArithmetic
  | CDecider | CTransportBelt | CTrainSignal | CChainSignal | CRailSignal | CCircuitCondition
  | CLamp | CMiningDrill | CInserter | CRequester | CRoboport | CSpeaker | CStation => true
  | _ => false
  end.

(** [getattr(cls, 'ControlBehavior', None) is not None]: everything below BaseMixin. *)
Definition has_cb (c : scls) : bool :=
  match c with CObject | CBase => false | _ => true end.

(** ** Class objects as they occur in method resolution orders.
    [NS c]     a class of the source;
    [ND n]     the n-th class created for an instance by add_mixins (entity.py 120-122);
    [OwnCB c]  the class ControlBehavior written in the body of [c];
    [CombCB c] the class ControlBehaviorMeta stores as [c.ControlBehavior] (util.py 651-656);
    [DynCB n]  the same for the class [ND n]. *)
Inductive node := NS (c : scls) | ND (n : nat) | OwnCB (c : scls) | CombCB (c : scls) | DynCB (n : nat).

Definition node_eq_dec (a b : node) : {a = b} + {a <> b}.
Proof. decide equality; try apply scls_eq_dec; apply Nat.eq_dec. Defined.
Definition node_eqb (a b : node) : bool := if node_eq_dec a b then true else false.

Definition the {A} (o : option (list A)) : list A := match o with Some l => l | None => [] end.

(** MRO of a source class; the hierarchy is at most 6 deep. *)
Fixpoint smro_fuel (fuel : nat) (c : scls) : list node :=
  match fuel with
  | O => []
  | S f => the (c3_mro node_eqb (NS c) (map (smro_fuel f) (sbases c)) (map NS (sbases c)))
  end.
Definition smro (c : scls) : list node := smro_fuel 8 c.

(** MRO of [c.ControlBehavior] as built by ControlBehaviorMeta.__new__ (util.py 640-658):
    bases are the class's own ControlBehavior, if any, then those of its bases. *)
Fixpoint cbmro_fuel (fuel : nat) (c : scls) : list node :=
  match fuel with
  | O => []
  | S f =>
      let bs := filter has_cb (sbases c) in
      let own := if own_cb c then [[OwnCB c; NS CObject]] else [] in
      let own' := if own_cb c then [OwnCB c] else [] in
      the (c3_mro node_eqb (CombCB c) (own ++ map (cbmro_fuel f) bs) (own' ++ map CombCB bs))
  end.
Definition cbmro (c : scls) : list node := cbmro_fuel 8 c.

(** ** The class of an entity instance: its depth (how many run-time classes were
    stacked), its MRO and the MRO of its ControlBehavior. *)
Record icls := mkCls { ic_depth : nat; ic_mro : list node; ic_cb : list node }.

Definition entity_cls : icls := mkCls 0 (smro CEntity) (cbmro CEntity).

(** [type('Entity', (cls, *mixins), {})] with metaclass ControlBehaviorMeta: the class
    itself first, then its ControlBehavior (util.py 643, 651-656).  Either may fail with
    TypeError.  Passing Entity itself as a mixin is outside the model. *)
Definition derive (ic : icls) (mixins : list scls) : res icls :=
  if existsb (scls_eqb CEntity) mixins then Err EUnmodelled else
  let n := S (ic_depth ic) in
  match c3_mro node_eqb (ND n) (ic_mro ic :: map smro mixins)
               (firstn 1 (ic_mro ic) ++ map NS mixins) with
  | None => Err EType
  | Some m =>
      let ms := filter has_cb mixins in
      match c3_mro node_eqb (DynCB n) (ic_cb ic :: map cbmro ms)
                   (firstn 1 (ic_cb ic) ++ map CombCB ms) with
      | None => Err EType
      | Some k => Ok (mkCls n m k)
      end
  end.

(** entity.py 120-122 *)
Definition add_mixins (ic : icls) (mixins : list scls) : res icls := derive ic mixins.
(** entity.py 116-118 (the new class is numbered after the current one) *)
Definition set_mixins (ic : icls) (mixins : list scls) : res icls :=
  derive (mkCls (ic_depth ic) (ic_mro entity_cls) (ic_cb entity_cls)) mixins.

(** ** Method lookup: run-time classes have empty bodies, so only source classes matter. *)
Definition static_of (n : node) : list scls := match n with NS c => [c] | _ => [] end.
Definition own_of (n : node) : list scls := match n with OwnCB c => [c] | _ => [] end.

Fixpoint after (c : scls) (l : list scls) : list scls :=
  match l with [] => [] | x :: r => if scls_eqb c x then r else after c r end.

(** The source classes an entity's [super()] calls visit after Entity itself. *)
Definition chain (ic : icls) : list scls := after CEntity (flat_map static_of (ic_mro ic)).
(** All source classes in MRO order. *)
Definition statics (ic : icls) : list scls := flat_map static_of (ic_mro ic).
(** The bodies [class ControlBehavior] in the order a ControlBehavior instance's
    [super()] calls visit them. *)
Definition cb_chain (ic : icls) : list scls := flat_map own_of (ic_cb ic).

Definition has_cls (c : scls) (l : list scls) : bool := existsb (scls_eqb c) l.

(** ** entity_prototypes.py 3-151: prototype type -> mixins *)
Definition type_mixins : list (key * list scls) := [
  (KS "accumulator", [CAccumulator]);
  (KS "artillery-turret", [CRotatable]);
  (KS "beacon", [CItems]);
  (KS "boiler", [CRotatable]);
  (KS "burner-generator", [CRotatable]);
  (KS "arithmetic-combinator", [CArithmetic; CRotatable]);
  (KS "decider-combinator", [CDecider; CRotatable]);
  (KS "constant-combinator", [CConstantCombinator; CRotatable]);
  (KS "container", []);
  (KS "logistic-container", [CRequester]);
  (KS "infinity-container", [CInfinityContainer]);
  (KS "assembling-machine", [CRotatable; CRecipe]);
  (KS "rocket-silo", [CSilo]);
  (KS "furnace", []);
  (KS "electric-energy-interface", []);
  (KS "electric-pole", []);
  (KS "gate", [CRotatable]);
  (KS "generator", [CRotatable]);
  (KS "heat-interface", []);
  (KS "heat-pipe", []);
  (KS "inserter", [CCircuitCondition; CFilterInserter; CRotatable]);
  (KS "lab", []);
  (KS "lamp", [CLamp]);
  (KS "land-mine", []);
  (KS "market", []);
  (KS "mining-drill", [CMiningDrill; CRotatable]);
  (KS "offshore-pump", [CCircuitCondition; CRotatable]);
  (KS "pipe", []);
  (KS "infinity-pipe", []);
  (KS "pipe-to-ground", [CRotatable]);
  (KS "player-port", []);
  (KS "power-switch", [CCircuitCondition]);
  (KS "programmable-speaker", [CSpeaker]);
  (KS "pump", [CRotatable; CCircuitCondition]);
  (KS "radar", []);
  (KS "curved-rail", [CRotatable]);
  (KS "straight-rail", [CRotatable]);
  (KS "rail-chain-signal", [CChainSignal; CRotatable]);
  (KS "rail-signal", [CRailSignal; CRotatable]);
  (KS "reactor", []);
  (KS "roboport", [CRoboport]);
  (KS "simple-entity", []);
  (KS "simple-entity-with-owner", []);
  (KS "simple-entity-with-force", []);
  (KS "solar-panel", []);
  (KS "storage-tank", [CRotatable]);
  (KS "train-stop", [CRotatable; CStation; CColor]);
  (KS "loader-1x1", [CRotatable]);
  (KS "loader", [CRotatable; CLoader]);
  (KS "splitter", [CRotatable; CSplitter]);
  (KS "transport-belt", [CRotatable; CTransportBelt; CCircuitCondition]);
  (KS "underground-belt", [CRotatable; CUnderground]);
  (KS "turret", [CRotatable]);
  (KS "ammo-turret", [CRotatable]);
  (KS "electric-turret", [CRotatable]);
  (KS "fluid-turret", [CRotatable]);
  (KS "vehicle", []);
  (KS "car", []);
  (KS "artillery-wagon", [CTrain]);
  (KS "cargo-wagon", [CCargo]);
  (KS "fluid-wagon", [CTrain]);
  (KS "locomotive", [CTrain; CItems]);
  (KS "wall", [])].
