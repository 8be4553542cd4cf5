(** * Theorems about the tables names are looked up in: C50. *)
From Verif Require Import Py Num Util Classes Mixins Entity World SpecWorld SpecDoc SpecEntity SpecTrip SpecName DictFacts EntProofs NameProofs DefaultEntities EntityData Demo Props_Doc Props_Entity.
Open Scope Z_scope.

(** ** C50 *)
(** Splitter filters, cargo, request and infinity filters, speaker icons: whatever tables [p]
    were imported, the built-in table decides *)
Theorem C50_items_are_looked_up_in_the_builtin_table :
  forall p cust l kw s ty own cbk e (k : string) ns v, typed p kw s ty -> dget ty cust = None -> In (ty, (own, cbk)) formats ->
  snd (construct p cust l kw) = Ok e -> naming ty k ns v ->
  (Forall (fun n : string => dget n defaultentities <> None) ns -> exists e', snd (construct p cust l (dset (KS k) v kw)) = Ok e') /\
  (~ Forall (fun n : string => dget n defaultentities <> None) ns -> snd (construct p cust l (dset (KS k) v kw)) = Err EUnknownEntity).
Proof. exact p_C50_builtin. Qed.
Print Assumptions C50_items_are_looked_up_in_the_builtin_table.
(** recipes in the imported recipes; inserter filters and items of beacons and locomotives in
    the imported signals *)
Theorem C50_recipes_and_items_are_looked_up_in_the_imported_tables :
  forall p cust l kw s ty own cbk e (k : string) t ns v, typed p kw s ty -> dget ty cust = None -> In (ty, (own, cbk)) formats ->
  snd (construct p cust l kw) = Ok e -> importing p ty k t ns v -> ~ In "" ns ->
  (Forall (fun n : string => dget n t <> None) ns -> exists e', snd (construct p cust l (dset (KS k) v kw)) = Ok e') /\
  (~ Forall (fun n : string => dget n t <> None) ns -> snd (construct p cust l (dset (KS k) v kw)) = Err (if String.eqb k "recipe" then EUnknownRecipe else EUnknownSignal)).
Proof. exact p_C50_imported. Qed.
Print Assumptions C50_recipes_and_items_are_looked_up_in_the_imported_tables.
(** signals of a control behaviour in the imported signals *)
Theorem C50_signals_are_looked_up_in_the_imported_table :
  forall p cust l kw s ty own cbk e cb (k : string) ns v, typed p kw s ty -> dget ty cust = None -> In (ty, (own, cbk)) formats ->
  snd (construct p cust l (dset "control_behavior" (VDict cb) kw)) = Ok e -> In k cbk -> signalling k ns v -> ~ In "" ns ->
  (Forall (fun n : string => dget n (p_signal p) <> None) ns -> exists e', snd (construct p cust l (dset "control_behavior" (VDict (dset (KS k) v cb)) kw)) = Ok e') /\
  (~ Forall (fun n : string => dget n (p_signal p) <> None) ns -> snd (construct p cust l (dset "control_behavior" (VDict (dset (KS k) v cb)) kw)) = Err EUnknownSignal).
Proof. exact p_C50_signals. Qed.
Print Assumptions C50_signals_are_looked_up_in_the_imported_table.
(** names of entities in the imported entities: a description that is fine can be given every
    name of the same type, and no name that is not in the table *)
Theorem C50_entities_are_looked_up_in_the_imported_table :
  forall p cust l kw s ty own cbk e (n : string), typed p kw s ty -> dget ty cust = None -> In (ty, (own, cbk)) formats ->
  snd (construct p cust l kw) = Ok e ->
  (dget n (p_entity p) = None -> snd (construct p cust l (dset "name" (VStr n) kw)) = Err EUnknownEntity) /\
  (forall data, dget n (p_entity p) = Some (VDict data) -> dget "type" data = Some (VStr ty) -> exists e', snd (construct p cust l (dset "name" (VStr n) kw)) = Ok e').
Proof. exact p_C50_entity. Qed.
Print Assumptions C50_entities_are_looked_up_in_the_imported_table.

(** a modded import: one splitter, one machine, one lamp; "moon-dust" is a signal and a recipe *)
Definition modded_file : val :=
  VDict [(KS "entity", VDict [(KS "moon-splitter", VDict [(KS "type", VStr "splitter")]);
                              (KS "moon-machine", VDict [(KS "type", VStr "assembling-machine")]);
                              (KS "moon-wagon", VDict [(KS "type", VStr "cargo-wagon")]);
                              (KS "moon-battery", VDict [(KS "type", VStr "accumulator")])]);
         (KS "recipe", VDict [(KS "moon-dust", VDict [])]); (KS "item", VDict []);
         (KS "signal", VDict [(KS "moon-dust", VDict [(KS "type", VStr "item")])]); (KS "tile", VDict [])].
Definition modded : world := Eval vm_compute in run [OImport modded_file false; ONewBlueprint true []] start.
Definition holding (n : string) : val := VDict [(KS "filters", VList [VDict [(KS "index", VInt 0); (KS "name", VStr n)]])].
Definition make_with (name k : string) (v : val) : res unit := snd (step (OMake 0 (thing name 1 1 ++ [(KS k, v)])) modded).
Example C50_ex :
  make_with "moon-splitter" "filter" (VStr "moon-dust") = Err EUnknownEntity /\
  make_with "moon-splitter" "filter" (VStr "iron-plate") = Ok tt /\
  make_with "moon-wagon" "inventory" (holding "moon-dust") = Err EUnknownEntity /\
  make_with "moon-wagon" "inventory" (holding "iron-plate") = Ok tt /\
  make_with "moon-machine" "recipe" (VStr "moon-dust") = Ok tt /\
  make_with "moon-machine" "recipe" (VStr "iron-gear-wheel") = Err EUnknownRecipe /\
  make_with "moon-battery" "control_behavior" (VDict [(KS "output_signal", sig "moon-dust" "item")]) = Ok tt /\
  make_with "moon-battery" "control_behavior" (VDict [(KS "output_signal", sig "iron-plate" "item")]) = Err EUnknownSignal /\
  make_with "iron-chest" "direction" (VInt 0) = Err EUnknownEntity /\
  dget "iron-chest" defaultentities <> None /\
  typed (w_protos modded) (thing "moon-splitter" 1 1) "moon-splitter" "splitter" /\
  naming "splitter" "filter" ["moon-dust"] (VStr "moon-dust").
Proof.
  repeat match goal with |- _ /\ _ => split end; try (vm_compute; reflexivity); try (vm_compute; discriminate).
  - repeat split; try (vm_compute; congruence). eexists. split; vm_compute; reflexivity.
  - constructor.
Qed.
(** the empty name is the reason for [~ In "" ns]: the check is skipped for it *)
Example C50_ex_empty :
  make_with "moon-battery" "control_behavior" (VDict [(KS "output_signal", sig "" "item")]) = Ok tt /\ dget "" (p_signal (w_protos modded)) = None.
Proof. split; vm_compute; reflexivity. Qed.
