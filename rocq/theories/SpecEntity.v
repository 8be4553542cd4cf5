(** * Independent specifications for entity descriptions: which keys each prototype type
    understands. *)
From Verif Require Import Py Num Util Classes Mixins Entity World SpecWorld SpecDoc.
Open Scope Z_scope.

(** [kw] is a description of an entity named [s], whose prototype has type [ty] *)
Definition typed (p : protos) (kw : dict) (s ty : string) : Prop :=
  describes kw (VStr s) /\ checked kw /\
  exists data, dget s (p_entity p) = Some (VDict data) /\ dget "type" data = Some (VStr ty).

(** keys every entity understands *)
Definition general_keys : list string :=
  ["name"; "position"; "strict"; "direction"; "entity_number"; "connections"; "control_behavior"].

Definition condition_keys : list string := ["circuit_condition"].
(** prototype type, the keys of its own in a description, the keys in control_behavior *)
Definition formats : list (string * (list string * list string)) := [
  ("accumulator", ([], ["output_signal"]));
  ("artillery-turret", ([], []));
  ("beacon", (["items"], []));
  ("boiler", ([], []));
  ("burner-generator", ([], []));
  ("arithmetic-combinator", ([], ["arithmetic_conditions"]));
  ("decider-combinator", ([], ["decider_conditions"]));
  ("constant-combinator", ([], ["filters"; "is_on"]));
  ("container", ([], []));
  ("logistic-container", (["request_filters"; "request_from_buffers"], ["circuit_mode_of_operation"]));
  ("infinity-container", (["infinity_settings"], []));
  ("assembling-machine", (["recipe"], []));
  ("rocket-silo", (["auto_launch"], []));
  ("furnace", ([], []));
  ("electric-energy-interface", ([], []));
  ("electric-pole", ([], []));
  ("gate", ([], []));
  ("generator", ([], []));
  ("heat-interface", ([], []));
  ("heat-pipe", ([], []));
  ("inserter", (["filters"; "filter_mode"; "override_stack_size"; "pickup_position"; "drop_position"],
                ["circuit_condition"; "circuit_mode_of_operation"; "circuit_set_stack_size";
                 "stack_control_input_signal"; "circuit_hand_read_mode"; "circuit_read_hand_contents"]));
  ("lab", ([], []));
  ("lamp", ([], ["circuit_condition"; "use_colors"]));
  ("land-mine", ([], []));
  ("market", ([], []));
  ("mining-drill", ([], ["circuit_condition"; "circuit_enable_disable"; "circuit_read_resources";
                         "circuit_resource_read_mode"]));
  ("offshore-pump", ([], ["circuit_condition"]));
  ("pipe", ([], []));
  ("infinity-pipe", ([], []));
  ("pipe-to-ground", ([], []));
  ("player-port", ([], []));
  ("power-switch", ([], ["circuit_condition"]));
  ("programmable-speaker", (["parameters"; "alert_parameters"], ["circuit_condition"; "circuit_parameters"]));
  ("pump", ([], ["circuit_condition"]));
  ("radar", ([], []));
  ("curved-rail", ([], []));
  ("straight-rail", ([], []));
  ("rail-chain-signal", ([], ["circuit_read_signal"; "red_output_signal"; "orange_output_signal";
                              "green_output_signal"; "blue_output_signal"]));
  ("rail-signal", ([], ["circuit_read_signal"; "red_output_signal"; "orange_output_signal";
                        "green_output_signal"; "circuit_close_signal"]));
  ("reactor", ([], []));
  ("roboport", ([], ["read_logistics"; "read_robot_stats"; "available_construction_output_signal";
                     "total_construction_output_signal"; "available_logistic_output_signal";
                     "total_logistic_output_signal"]));
  ("simple-entity", ([], []));
  ("simple-entity-with-owner", ([], []));
  ("simple-entity-with-force", ([], []));
  ("solar-panel", ([], []));
  ("storage-tank", ([], []));
  ("train-stop", (["station"; "color"], ["circuit_condition"; "circuit_enable_disable"; "read_from_train";
                                         "read_stopped_train"; "train_stopped_signal"]));
  ("loader-1x1", ([], []));
  ("loader", (["type"], []));
  ("splitter", (["input_priority"; "output_priority"; "filter"], []));
  ("transport-belt", ([], ["circuit_condition"; "circuit_enable_disable"; "circuit_read_hand_contents";
                           "circuit_contents_read_mode"]));
  ("underground-belt", (["type"], []));
  ("turret", ([], []));
  ("ammo-turret", ([], []));
  ("electric-turret", ([], []));
  ("fluid-turret", ([], []));
  ("vehicle", ([], []));
  ("car", ([], []));
  ("artillery-wagon", (["orientation"], []));
  ("cargo-wagon", (["orientation"; "inventory"], []));
  ("fluid-wagon", (["orientation"], []));
  ("locomotive", (["orientation"; "items"], []));
  ("wall", ([], []))].

(** the prototype types that can be turned (they have a direction) *)
Definition turnable : list string :=
  ["artillery-turret"; "boiler"; "burner-generator"; "arithmetic-combinator"; "decider-combinator";
   "constant-combinator"; "assembling-machine"; "gate"; "generator"; "inserter"; "mining-drill";
   "offshore-pump"; "pipe-to-ground"; "pump"; "curved-rail"; "straight-rail"; "rail-chain-signal";
   "rail-signal"; "storage-tank"; "train-stop"; "loader-1x1"; "loader"; "splitter"; "transport-belt";
   "underground-belt"; "turret"; "ammo-turret"; "electric-turret"; "fluid-turret"].

(** [k] is a key a description of a [ty] may have *)
Definition understood (ty : string) (k : key) : Prop :=
  exists s own cb, In (ty, (own, cb)) formats /\ k = KS s /\ (In s general_keys \/ In s own).
(** [k] is a key the control_behavior of a [ty] may have *)
Definition cb_understood (ty : string) (k : key) : Prop :=
  exists s own cb, In (ty, (own, cb)) formats /\ k = KS s /\ In s cb.
(** keys inside the conditions of combinators *)
Definition cond_keys (ty : string) : list string :=
  if String.eqb ty "arithmetic-combinator"
  then ["operation"; "first_signal"; "first_constant"; "second_signal"; "second_constant"; "output_signal"; "output_constant"]
  else if String.eqb ty "decider-combinator"
  then ["comparator"; "first_signal"; "constant"; "second_signal"; "second_constant"; "output_signal"; "output_constant";
        "copy_count_from_input"]
  else [].

(** the description [kw] with control behaviour [cb], its combinator conditions (under the
    key [f]) being [d] *)
Definition with_conditions (f : string) (d cb kw : dict) : dict :=
  dset "control_behavior" (VDict (dset (KS f) (VDict d) cb)) kw.
