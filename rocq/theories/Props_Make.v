(** * Theorems about what is wrong with a description of an entity: C69. *)
From Verif Require Import Py Num Util Classes Mixins Entity Setters World SpecWorld SpecEntity SpecAttr SpecSetting SpecBehaviour SpecMake DictFacts MakeProofs EntityData Demo Props_Doc.
From Verif Require SpecDoc SpecWrite.
Open Scope string_scope. Open Scope Z_scope. Open Scope list_scope.

(** the exception of a constructor stands for a fault of the description *)
Theorem C69_an_exception_is_a_fault :
  forall p cust l kw s ty own cbk x, typed p kw s ty -> dget ty cust = None -> In (ty, (own, cbk)) formats -> SpecWrite.doubles (VDict kw) ->
  snd (construct p cust l kw) = Err x -> x <> EUnmodelled -> fault p ty own cbk kw x.
Proof. exact p_C69_exception. Qed.
Print Assumptions C69_an_exception_is_a_fault.
(** an entity is never made from a faulty description *)
Theorem C69_nothing_is_made_from_a_faulty_description :
  forall p cust l kw s ty own cbk e x, typed p kw s ty -> dget ty cust = None -> In (ty, (own, cbk)) formats -> SpecWrite.doubles (VDict kw) ->
  snd (construct p cust l kw) = Ok e -> ~ fault p ty own cbk kw x.
Proof. exact p_C69_made. Qed.
Print Assumptions C69_nothing_is_made_from_a_faulty_description.
(** so that, within the model, it is made exactly when there is no fault *)
Theorem C69_made_exactly_when_faultless :
  forall p cust l kw s ty own cbk, typed p kw s ty -> dget ty cust = None -> In (ty, (own, cbk)) formats -> SpecWrite.doubles (VDict kw) ->
  snd (construct p cust l kw) <> Err EUnmodelled -> (exists e, snd (construct p cust l kw) = Ok e) <-> forall x, ~ fault p ty own cbk kw x.
Proof. exact p_C69_faultless. Qed.
Print Assumptions C69_made_exactly_when_faultless.
(** make: an exception that stands for one of the faults, and no change *)
Theorem C69_make :
  forall w b z kw s (ty : string) own cbk x, blu w b = Some z -> dget ty (b_custom z) = None -> In (ty, (own, cbk)) formats ->
  typed (w_protos w) kw s ty -> SpecWrite.doubles (VDict kw) -> fault (w_protos w) ty own cbk kw x ->
  exists y, step (OMake b kw) w = (w, Err y) /\ (y <> EUnmodelled -> fault (w_protos w) ty own cbk kw y).
Proof. exact p_C69_make. Qed.
Print Assumptions C69_make.
(** load: a document that loads has no faulty entity *)
Theorem C69_load :
  forall w b z doc d w' doc' l kw s (ty : string) own cbk x, blu w b = Some z -> SpecDoc.holds doc d -> load b doc w = (w', doc', Ok tt) ->
  dget "entities" d = Some (VList l) -> In (VDict kw) l -> typed (w_protos w) kw s ty -> dget ty (b_custom z) = None -> In (ty, (own, cbk)) formats -> SpecWrite.doubles (VDict kw) ->
  ~ fault (w_protos w) ty own cbk kw x.
Proof. exact p_C69_load. Qed.
Print Assumptions C69_load.

Definition make_in (kw : dict) : res unit := snd (step (OMake 0 kw) booted).
Definition behaving (name : string) (cb : dict) : dict := thing name 1 1 ++ [(KS "control_behavior", VDict cb)].
Definition named_signal (s : string) : val := VDict [(KS "name", VStr s); (KS "type", VStr "item")].
(** required keys, values, items, unknown keys, directions and positions *)
Example C69_ex :
  make_in (thing "underground-belt" 1 1) = Err EType /\
  make_in (thing "underground-belt" 1 1 ++ [(KS "type", VStr "input")]) = Ok tt /\
  make_in (thing "underground-belt" 1 1 ++ [(KS "type", VStr "sideways")]) = Err EValue /\
  make_in (thing "infinity-chest" 1 1) = Err EType /\
  make_in (thing "infinity-chest" 1 1 ++ [(KS "infinity_settings", VDict [(KS "filters", VList [])])]) = Err EKey /\
  make_in (thing "assembling-machine-2" 1 1 ++ [(KS "recipe", VStr "moon-cheese")]) = Err EUnknownRecipe /\
  make_in (thing "beacon" 1 1 ++ [(KS "items", VDict [(KS "speed-module", VInt 2)])]) = Ok tt /\
  make_in (thing "beacon" 1 1 ++ [(KS "items", VDict [(KS "moon-module", VInt 2)])]) = Err EUnknownSignal /\
  make_in (thing "beacon" 1 1 ++ [(KS "items", VList [])]) = Err EAttribute /\
  make_in (thing "filter-inserter" 1 1 ++ [(KS "filters", VList [VDict [(KS "name", VStr "coal"); (KS "index", VInt 1)]])]) = Ok tt /\
  make_in (thing "filter-inserter" 1 1 ++ [(KS "filters", VList [VDict [(KS "name", VStr "coal"); (KS "mode", VInt 1)]])]) = Err EType /\
  make_in (thing "iron-chest" 1 1 ++ [(KS "direction", VNone)]) = Err EType /\
  make_in [(KS "name", VStr "iron-chest"); (KS "position", VDict [(KS "x", VInt 1)])] = Err EKey.
Proof. vm_compute. repeat split. Qed.
(** control behaviours *)
Example C69_behaviour_ex :
  make_in (behaving "small-lamp" [(KS "circuit_condition", VDict [(KS "first_signal", named_signal "coal"); (KS "constant", VInt 3); (KS "comparator", VStr ">")])]) = Ok tt /\
  make_in (behaving "small-lamp" [(KS "circuit_condition", VDict [(KS "first_signal", named_signal "coal"); (KS "comparator", VStr ">=")])]) = Err EValue /\
  make_in (behaving "small-lamp" [(KS "circuit_condition", VDict [(KS "first_signal", named_signal "moon")])]) = Err EUnknownSignal /\
  make_in (behaving "small-lamp" [(KS "colour", VNone)]) = Err EType /\
  make_in (behaving "inserter" [(KS "colour", VNone)]) = Ok tt /\
  make_in (behaving "inserter" [(KS "self", VNone)]) = Err EType /\
  make_in (behaving "arithmetic-combinator" []) = Err EKey /\
  make_in (behaving "arithmetic-combinator" [(KS "arithmetic_conditions", VDict [(KS "operation", VStr "*"); (KS "second_constant", VInt 2)])]) = Ok tt /\
  make_in (behaving "arithmetic-combinator" [(KS "arithmetic_conditions", VDict [(KS "operation", VStr "*"); (KS "second_constant", VInt 2); (KS "second_signal", named_signal "coal")])]) = Err EType /\
  make_in (behaving "arithmetic-combinator" [(KS "arithmetic_conditions", VDict [(KS "operation", VStr "*"); (KS "second_signal", VStr "coal")])]) = Err EType /\
  make_in (behaving "decider-combinator" [(KS "decider_conditions", VDict [(KS "comparator", VStr "*")])]) = Err EValue /\
  make_in (behaving "decider-combinator" [(KS "decider_conditions", VStr "*")]) = Err EAttribute.
Proof. vm_compute. repeat split. Qed.
(** two faults: the exception is that of one of them *)
Definition two_faults : dict := thing "assembling-machine-2" 1 1 ++ [(KS "recipe", VStr "moon-cheese"); (KS "flavour", VStr "vanilla")].
Example C69_spec_ex :
  typed (w_protos booted) two_faults "assembling-machine-2" "assembling-machine" /\ In ("assembling-machine", (["recipe"], [])) formats /\ SpecWrite.doubles (VDict two_faults) /\
  fault (w_protos booted) "assembling-machine" ["recipe"] [] two_faults EUnknownRecipe /\ fault (w_protos booted) "assembling-machine" ["recipe"] [] two_faults EType /\
  make_in two_faults = Err EUnknownRecipe.
Proof.
  assert (J : In ("assembling-machine", (["recipe"], [] : list string)) formats) by (cbn; auto 20).
  split; [|split; [exact J|split; [|split; [|split]]]].
  - repeat split; try (vm_compute; congruence). eexists. split; vm_compute; reflexivity.
  - repeat (constructor; cbn).
  - apply (f_own _ _ _ _ _ "recipe"); [now left|]. left. exists ARecipe. split; [reflexivity|]. split; [cbn; intuition discriminate|].
    cbn. right. split; [discriminate|]. apply rk_unknown; [reflexivity|discriminate|exact I|]. intros s [= <-]. vm_compute. reflexivity.
  - apply (f_unknown _ _ _ _ _ (KS "flavour") (VStr "vanilla")); [cbn; auto|]. intros (s & own & cb & K & [= <-] & H).
    destruct (EntProofs.formats_fun _ _ _ _ _ J K) as (<- & <-). cbn in H. clear - H. intuition discriminate.
  - vm_compute. reflexivity.
Qed.
