(** * Specifications for assignments to the attributes of an entity. *)
From Verif Require Import Py Num Util Classes Mixins Entity Setters World SpecWorld.

(** the mixin whose constructor takes the attribute as a keyword, with the lines of its
    [__init__] in entity_mixins.py *)
Definition keyword_of (k : mattr) : option scls :=
  match k with
  | AOrientation => Some CTrain                                     (* 372 *)
  | AInventory => Some CCargo                                       (* 393 *)
  | AColor => Some CColor                                           (* 456 *)
  | ABar => Some CContainer                                         (* 466 *)
  | AOverride | APickup | ADrop => Some CInserter                   (* 580 *)
  | AFilterMode => Some CFilterInserter                             (* 634 *)
  | AInfinity => Some CInfinityContainer                            (* 663 *)
  | ARecipe => Some CRecipe                                         (* 757 *)
  | AFromBuffers | ARequests => Some CRequester                     (* 778 *)
  | AAutoLaunch => Some CSilo                                       (* 876 *)
  | AParameters | AAlert => Some CSpeaker                           (* 923 *)
  | AInputPriority | AOutputPriority | AFilter => Some CSplitter    (* 976 *)
  | AStation => Some CStation                                       (* 1043 *)
  | AType => Some CUnderground                                      (* 1053 *)
  | AVariation => Some CVariation                                   (* 1077 *)
  | AInventoryBar | AInfinityRemove | AInfinityFilters => None      (* parts of the above *)
  end.

(** class [c] is among the classes of [e], and [Items] is not before it: [Items.__init__] (141)
    hands its keywords on as positional arguments *)
Definition accepts (e : entity) (c : scls) : Prop :=
  exists l r, statics (e_cls e) = l ++ c :: r /\ ~ In CItems l.

(** the key of the export where an attribute shows *)
Definition shown_at (k : mattr) : string :=
  match k with
  | AInventoryBar => "inventory"
  | AInfinityRemove | AInfinityFilters => "infinity_settings"
  | _ => attr_name k
  end.
(** attributes whose setter drops the old entries before it looks at the new ones *)
Definition forgetful (k : mattr) : bool :=
  match k with AInventory | AInfinity | AInfinityFilters | ARequests => true | _ => false end.
(** the mixin that exports the attribute *)
Definition home (k : mattr) : scls :=
  match keyword_of k with
  | Some c => c
  | None => match k with AInventoryBar => CCargo | _ => CInfinityContainer end
  end.
(** attributes that are exported as they were assigned, None being left out *)
Definition as_given (k : mattr) : bool :=
  match k with
  | AFilterMode | ARecipe | AAutoLaunch | AInputPriority | AOutputPriority | AStation | AType | AVariation => true
  | _ => false
  end.
(** attributes that hold whole numbers *)
Definition whole (k : mattr) : bool := match k with ABar | AOverride => true | _ => false end.
(** None is left out of an export *)
Definition shows (v : val) : option val := match v with VNone => None | _ => Some v end.
(** the keys of a control behaviour that hold objects, with attributes of other names *)
Definition objects : list string := ["filters"; "circuit_condition"; "circuit_parameters"; "arithmetic_conditions"; "decider_conditions"].
(** the keys of a circuit condition and the attributes they set (491-502) *)
Definition condition_parts : list (string * string) :=
  [("first_signal", "first"); ("second_signal", "second"); ("comparator", "comparator")].
(** the two ways to make an entity from keywords, and the mixins a blueprint was told to use for
    a type *)
Definition creating (mk : dict -> op) : Prop := (exists b, mk = OMake b) \/ (exists l, mk = ONewEntity l).
Definition uncustomised (mk : dict -> op) (w : world) (ty : string) : Prop :=
  forall b x kw, mk kw = OMake b kw \/ mk kw = ONewEntity (Some b) kw -> blu w b = Some x -> dget (KS ty) (b_custom x) = None.
