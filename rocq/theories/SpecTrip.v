(** * Independent specifications for round trips: equality of JSON documents as mappings and
    well-formed entity descriptions. *)
From Verif Require Import Py Num NumFacts Util Classes Mixins Entity World SpecWorld SpecDoc SpecEntity DefaultEntities.
Open Scope Z_scope.

(** ** The same document, dictionaries compared as mappings *)
Inductive jeq : val -> val -> Prop :=
| jeq_refl v : jeq v v
| jeq_list l m : Forall2 jeq l m -> jeq (VList l) (VList m)
| jeq_dict d e : (forall k v, dget k d = Some v -> exists u, dget k e = Some u /\ jeq v u) ->
                 (forall k, dget k d = None -> dget k e = None) -> jeq (VDict d) (VDict e).
(** the same entry, or both without one *)
Definition same_at (k : key) (d e : dict) : Prop :=
  match dget k d, dget k e with Some v, Some u => jeq v u | None, None => True | _, _ => False end.

(** ** Well-formed values *)
(** exactly the keys [ks] (and no others) *)
Definition keys_within (d : dict) (ks : list string) : Prop := forall k, dget k d <> None -> exists s, k = KS s /\ In s ks.
Definition is_number (v : val) : Prop := (exists z, v = VInt z) \/ exists f, v = VFlt f.
Definition point_doc (v : val) : Prop :=
  exists d x y, v = VDict d /\ keys_within d ["x"; "y"] /\ dget "x" d = Some x /\ dget "y" d = Some y /\ is_number x /\ is_number y.
(** a float in [0, 1) *)
Definition unit_float (f : float64) : Prop :=
  f = S754_zero false \/ exists m e, f = S754_finite false m e /\ fvalid f = true /\ nltb (NF f) (NI 1) = true.
(** colour channels: the integers 0 and 1, floats from 0 to below 1 *)
Definition channel_doc (v : val) : Prop := v = VInt 0 \/ v = VInt 1 \/ exists f, v = VFlt f /\ unit_float f.
Definition colour_doc (v : val) : Prop :=
  exists d, v = VDict d /\ keys_within d ["r"; "g"; "b"; "a"] /\
  forall s, In s ["r"; "g"; "b"; "a"] -> exists c, dget (KS s) d = Some c /\ channel_doc c.

(** a name in the built-in table / in the imported signals *)
Definition builtin (v : val) : Prop := exists s, v = VStr s /\ dget s defaultentities <> None.
Definition a_signal (p : protos) (v : val) : Prop := exists s, v = VStr s /\ s <> "" /\ dget s (p_signal p) <> None.
(** a signal as the exporter writes it *)
Definition signal_doc (p : protos) (v : val) : Prop :=
  exists d s data t, v = VDict d /\ keys_within d ["name"; "type"] /\ dget "name" d = Some (VStr s) /\ dget "type" d = Some t /\
    s <> "" /\ dget s (p_signal p) = Some (VDict data) /\ dget "type" data = Some t.
(** filters: a list of dictionaries with distinct integer indices, satisfying [P] otherwise *)
Definition slots_doc (P : dict -> Prop) (v : val) : Prop :=
  exists ds zs, v = VList (map VDict ds) /\ NoDup zs /\ Forall2 (fun d z => dget "index" d = Some (VInt z) /\ P d) ds zs.
Definition with_keys (ks : list string) (Q : string -> val -> Prop) (d : dict) : Prop :=
  keys_within d ks /\ forall s, In s ks -> exists v, dget (KS s) d = Some v /\ Q s v.

Definition cargo_slot (s : string) (v : val) : Prop := if String.eqb s "name" then builtin v else True.
Definition request_slot (s : string) (v : val) : Prop :=
  if String.eqb s "name" then builtin v else if String.eqb s "count" then exists z, v = VInt z else True.
Definition infinity_slot (s : string) (v : val) : Prop :=
  if String.eqb s "name" then builtin v
  else if String.eqb s "mode" then In v [VStr "at-least"; VStr "at-most"; VStr "exactly"] else True.

Definition inventory_doc (v : val) : Prop :=
  exists d, v = VDict d /\ d <> [] /\ keys_within d ["bar"; "filters"] /\ dget "bar" d <> Some VNone /\
  forall fs, dget "filters" d = Some fs -> fs <> VList [] /\ slots_doc (with_keys ["index"; "name"] cargo_slot) fs.
Definition infinity_doc (v : val) : Prop :=
  exists d b fs, v = VDict d /\ keys_within d ["remove_unfiltered_items"; "filters"] /\
    dget "remove_unfiltered_items" d = Some (VBool b) /\ dget "filters" d = Some fs /\
    slots_doc (with_keys ["index"; "count"; "mode"; "name"] infinity_slot) fs.
Definition speaker_doc (v : val) : Prop :=
  exists d f b c, v = VDict d /\ keys_within d ["playback_volume"; "playback_globally"; "allow_polyphony"] /\
    dget "playback_volume" d = Some (VFlt f) /\ dget "playback_globally" d = Some (VBool b) /\ dget "allow_polyphony" d = Some (VBool c).
(** the icon of an alert: a name of the built-in table with its built-in type *)
Definition icon_doc (v : val) : Prop :=
  exists d s t, v = VDict d /\ keys_within d ["name"; "type"] /\ dget "name" d = Some (VStr s) /\ dget "type" d = Some (VStr t) /\
    dget s defaultentities = Some t.
Definition alert_doc (v : val) : Prop :=
  exists d b c m, v = VDict d /\ keys_within d ["show_alert"; "show_on_map"; "alert_message"; "icon_signal_id"] /\
    dget "show_alert" d = Some (VBool b) /\ dget "show_on_map" d = Some (VBool c) /\ dget "alert_message" d = Some m /\
    forall i, dget "icon_signal_id" d = Some i -> icon_doc i.
(** filters of inserters and of constant combinators: a non-empty list *)
Definition filters_doc (P : dict -> Prop) (v : val) : Prop :=
  exists d ds, v = VList (map VDict (d :: ds)) /\ Forall P (d :: ds).
Definition inserter_slot (p : protos) (s : string) (v : val) : Prop := if String.eqb s "name" then a_signal p v else True.
Definition constant_slot (p : protos) (s : string) (v : val) : Prop := if String.eqb s "signal" then signal_doc p v else True.

(** ** Control behaviours *)
Definition comparators : list val := map VStr [">"; "<"; "="; "≥"; "≤"; "!="].
Definition operations : list val := map VStr ["*"; "/"; "+"; "-"; "%"; "^"; "<<"; ">>"; "AND"; "OR"; "XOR"].
Definition signal_or_not (p : protos) (d : dict) (k : string) : Prop := forall v, dget (KS k) d = Some v -> signal_doc p v.
Definition integer_or_not (d : dict) (k : string) : Prop := forall v, dget (KS k) d = Some v -> exists z, v = VInt z.
(** at most one of two keys *)
Definition not_both (d : dict) (k k' : string) : Prop := dget (KS k) d = None \/ dget (KS k') d = None.
Definition condition_doc (p : protos) (v : val) : Prop :=
  exists d, v = VDict d /\ d <> [] /\ keys_within d ["first_signal"; "second_signal"; "constant"; "comparator"] /\
    signal_or_not p d "first_signal" /\ signal_or_not p d "second_signal" /\ integer_or_not d "constant" /\
    not_both d "second_signal" "constant" /\ forall v, dget "comparator" d = Some v -> In v comparators.
Definition arithmetic_doc (p : protos) (v : val) : Prop :=
  exists d o, v = VDict d /\
    keys_within d ["operation"; "first_signal"; "first_constant"; "second_signal"; "second_constant"; "output_signal"] /\
    dget "operation" d = Some o /\ In o operations /\
    signal_or_not p d "first_signal" /\ integer_or_not d "first_constant" /\ not_both d "first_signal" "first_constant" /\
    signal_or_not p d "second_signal" /\ integer_or_not d "second_constant" /\ not_both d "second_signal" "second_constant" /\
    signal_or_not p d "output_signal".
(** a decider comparing two signals, or a constant with a signal *)
Definition decider_doc (p : protos) (v : val) : Prop :=
  exists d o c, v = VDict d /\
    keys_within d ["comparator"; "first_signal"; "second_signal"; "output_signal"; "copy_count_from_input"; "constant"] /\
    dget "comparator" d = Some o /\ In o comparators /\ dget "copy_count_from_input" d = Some c /\
    signal_or_not p d "first_signal" /\ signal_or_not p d "second_signal" /\ signal_or_not p d "output_signal" /\
    integer_or_not d "constant" /\ not_both d "first_signal" "constant".
Definition circuit_parameters_doc (v : val) : Prop :=
  exists d, v = VDict d /\ with_keys ["signal_value_is_pitch"; "instrument_id"; "note_id"] (fun _ _ => True) d.

Definition signal_keys : list string :=
  ["output_signal"; "red_output_signal"; "orange_output_signal"; "green_output_signal"; "blue_output_signal";
   "stack_control_input_signal"; "available_construction_output_signal"; "total_construction_output_signal";
   "available_logistic_output_signal"; "total_logistic_output_signal"; "train_stopped_signal"].
(** the value of one key of control_behavior *)
Definition cb_field (p : protos) (k : string) (v : val) : Prop :=
  if existsb (String.eqb k) signal_keys then signal_doc p v
  else if String.eqb k "circuit_condition" then condition_doc p v
  else if String.eqb k "filters" then filters_doc (with_keys ["signal"; "count"; "index"] (constant_slot p)) v
  else if String.eqb k "is_on" then v = VBool false
  else if String.eqb k "arithmetic_conditions" then arithmetic_doc p v
  else if String.eqb k "decider_conditions" then decider_doc p v
  else if String.eqb k "circuit_parameters" then circuit_parameters_doc v
  else v <> VNone.
(** keys that are always written *)
Definition cb_required (ty : string) : list string :=
  if String.eqb ty "transport-belt" then ["circuit_enable_disable"; "circuit_read_hand_contents"; "circuit_contents_read_mode"]
  else if String.eqb ty "mining-drill" then ["circuit_enable_disable"; "circuit_read_resources"; "circuit_resource_read_mode"]
  else if String.eqb ty "programmable-speaker" then ["circuit_parameters"]
  else if String.eqb ty "arithmetic-combinator" then ["arithmetic_conditions"]
  else if String.eqb ty "decider-combinator" then ["decider_conditions"]
  else [].
Definition cb_doc (p : protos) (ty : string) (v : val) : Prop :=
  exists d, v = VDict d /\ d <> [] /\
    (forall k u, dget k d = Some u -> exists s, k = KS s /\ cb_understood ty k /\ cb_field p s u) /\
    (forall s, In s (cb_required ty) -> dget (KS s) d <> None).

(** ** Entities *)
(** the value of one key of a description of a [ty] *)
Definition field_doc (p : protos) (ty k : string) (v : val) : Prop :=
  if String.eqb k "position" then point_doc v
  else if String.eqb k "direction" then In ty turnable /\ exists z, v = VInt z /\ 1 <= z <= 7
  else if String.eqb k "control_behavior" then cb_doc p ty v
  else if String.eqb k "items" then exists d, v = VDict d /\ d <> [] /\ forall k u, In (k, u) d -> exists s, k = KS s /\ a_signal p (VStr s)
  else if String.eqb k "orientation" then exists f, v = VFlt f /\ unit_float f
  else if String.eqb k "inventory" then inventory_doc v
  else if String.eqb k "color" then colour_doc v
  else if String.eqb k "override_stack_size" then exists z, v = VInt z
  else if existsb (String.eqb k) ["pickup_position"; "drop_position"] then point_doc v
  else if String.eqb k "filters" then filters_doc (with_keys ["index"; "name"] (inserter_slot p)) v
  else if String.eqb k "filter_mode" then In v [VStr "whitelist"; VStr "blacklist"]
  else if String.eqb k "infinity_settings" then infinity_doc v
  else if String.eqb k "recipe" then exists s, v = VStr s /\ dget s (p_recipe p) <> None
  else if String.eqb k "request_filters" then v <> VList [] /\ slots_doc (with_keys ["index"; "name"; "count"] request_slot) v
  else if String.eqb k "request_from_buffers" then v = VBool true
  else if String.eqb k "auto_launch" then exists b, v = VBool b
  else if String.eqb k "parameters" then speaker_doc v
  else if String.eqb k "alert_parameters" then alert_doc v
  else if existsb (String.eqb k) ["input_priority"; "output_priority"] then In v [VStr "left"; VStr "right"]
  else if String.eqb k "filter" then builtin v
  else if String.eqb k "type" then In v [VStr "input"; VStr "output"]
  else v <> VNone.
Definition required (ty : string) : list string :=
  if existsb (String.eqb ty) ["loader"; "underground-belt"] then ["type"]
  else if String.eqb ty "infinity-container" then ["infinity_settings"]
  else [].
Definition well_formed (p : protos) (kw : dict) (s ty : string) : Prop :=
  typed p kw s ty /\ dget "strict" kw = None /\
  (forall k v, dget k kw = Some v -> exists x, k = KS x /\ understood ty k /\
     (In x ["name"; "entity_number"; "connections"] \/ field_doc p ty x v)) /\
  (forall x, In x (required ty) -> dget (KS x) kw <> None).

(** ** Round trips *)
(** [d] says the same as [kw], except about its number and its wires *)
Definition says_again (kw d : dict) : Prop := forall k, k <> KS "entity_number" -> k <> KS "connections" -> same_at k kw d.
(** an entity at a real place; a point without NaN *)
Definition placed (w : world) (i : nat) : Prop := exists v, has_pos w i v /\ nval (vx v) <> XNaN /\ nval (vy v) <> XNaN.
Definition no_nan (v : val) : Prop := forall d k, v = VDict d -> dget k d <> Some (VFlt S754_nan).
