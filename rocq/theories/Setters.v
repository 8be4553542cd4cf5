(** * Model of the attributes of the mixins that a program may assign to: properties,
    descriptors and plain attributes of entities and of their control behaviours. *)
From Verif Require Import Py Num Util Classes Mixins Entity.

(** ** Entities.  Assigning to [items] (128-149) and to [filters] of a filter inserter (634-641),
    which hold objects, and to the read-only [inventory_filters] (397-399) is not modelled. *)
Inductive mattr :=
| AOrientation | AInventory | AInventoryBar | AColor | ABar | AOverride | APickup | ADrop | AFilterMode
| AInfinity | AInfinityRemove | AInfinityFilters | ARecipe | AFromBuffers | ARequests | AAutoLaunch
| AParameters | AAlert | AInputPriority | AOutputPriority | AFilter | AStation | AType | AVariation.

Definition attr_name (k : mattr) : string :=
  match k with
  | AOrientation => "orientation"                                   (* 380 *)
  | AInventory => "inventory"                                       (* 424 *)
  | AInventoryBar => "inventory_bar"                                (* 405 *)
  | AColor => "color"                                               (* 454 *)
  | ABar => "bar"                                                   (* 474 *)
  | AOverride => "override_stack_size"                              (* 607 *)
  | APickup => "pickup_position"                                    (* 591 *)
  | ADrop => "drop_position"                                        (* 599 *)
  | AFilterMode => "filter_mode"                                    (* 647 *)
  | AInfinity => "infinity_settings"                                (* 675 *)
  | AInfinityRemove => "infinity_settings_remove_unfiltered_items"  (* 685 *)
  | AInfinityFilters => "infinity_settings_filters"                 (* 693 *)
  | ARecipe => "recipe"                                             (* 755 *)
  | AFromBuffers => "request_from_buffers"                          (* 788 *)
  | ARequests => "request_filters"                                  (* 796 *)
  | AAutoLaunch => "auto_launch"                                    (* 884 *)
  | AParameters => "parameters"                                     (* 932 *)
  | AAlert => "alert_parameters"                                    (* 947 *)
  | AInputPriority => "input_priority"                              (* 996 *)
  | AOutputPriority => "output_priority"                            (* 1006 *)
  | AFilter => "filter"                                             (* 988 *)
  | AStation => "station"                                           (* 1044, a plain attribute *)
  | AType => "type"                                                 (* 1061 *)
  | AVariation => "variation"                                       (* 1085 *)
  end.

(** the class with the property or descriptor; none for plain attributes *)
Definition attr_cls (k : mattr) : option scls :=
  match k with
  | AOrientation => Some CTrain
  | AInventory | AInventoryBar => Some CCargo
  | AColor => Some CColor
  | ABar => Some CContainer
  | AOverride | APickup | ADrop => Some CInserter
  | AFilterMode => Some CFilterInserter
  | AInfinity | AInfinityRemove | AInfinityFilters => Some CInfinityContainer
  | ARecipe => Some CRecipe
  | AFromBuffers | ARequests => Some CRequester
  | AAutoLaunch => Some CSilo
  | AParameters | AAlert => Some CSpeaker
  | AInputPriority | AOutputPriority | AFilter => Some CSplitter
  | AStation => None
  | AType => Some CUnderground
  | AVariation => Some CVariation
  end.

(** a loop that stores entries one by one and keeps those before an exception *)
Fixpoint fill (f : val -> res (key * val)) (l : list val) (acc : dict) : dict * res unit :=
  match l with
  | [] => (acc, Ok tt)
  | x :: r => match f x with Ok (k, v) => fill f r (dset k v acc) | Err e => (acc, Err e) end
  end.
(** 432-433 *)
Definition cargo_entry (f : val) : res (key * val) :=
  let! n := getitem f "name" in let! n := name_val n in
  let! i := getitem f "index" in let! k := key_of_val i in Ok (k, n).
(** 801-805 *)
Definition request_entry (f : val) : res (key * val) :=
  let! n := getitem f "name" in let! n := name_val n in
  let! c := getitem f "count" in let! c := py_int c in
  let! i := getitem f "index" in let! k := key_of_val i in
  Ok (k, VDict [(KS "name", n); (KS "count", VInt c)]).
(** 698-705 *)
Definition infinity_entry (f : val) : res (key * val) :=
  let! m := getitem f "mode" in
  if negb (str_in m ["at-least"; "at-most"; "exactly"]) then Err EValue else
  let! c := getitem f "count" in
  let! n := getitem f "name" in let! n := name_val n in
  let! i := getitem f "index" in let! k := key_of_val i in
  Ok (k, VDict [(KS "count", c); (KS "mode", m); (KS "name", n)]).
(** 694-705, 797-805: the old entries are forgotten before the new ones are looked at *)
Definition fill_attr (s : string) (f : val -> res (key * val)) (v : val) (a : dict) : dict * res unit :=
  match (match v with VNone => Ok [] | _ => iter_val v end) with
  | Err e => (dset s (VDict []) a, Err e)
  | Ok l => let '(d, r) := fill f l [] in (dset s (VDict d) a, r)
  end.

(** a setter that checks or converts first and stores last *)
Definition put (s : string) (r : res val) (a : dict) : dict * res unit :=
  match r with Ok v => (dset s v a, Ok tt) | Err e => (a, Err e) end.
Definition only (ok : bool) (v : val) : res val := if ok then Ok v else Err EValue.

(** the setters; the state is returned even when they raise *)
Definition set_at (p : protos) (strict : bool) (k : mattr) (v : val) (a : dict) : dict * res unit :=
  match k with
  | AOrientation => put "orientation" (orientation_set v) a                      (* 380-385 *)
  | AInventory =>                                                               (* 424-433 *)
      let a := dset "inventory_filters" (VDict []) a in
      match v with
      | VNone => (dset "inventory_bar" VNone a, Ok tt)
      | _ => match getdef v "bar" VNone with
             | Err e => (a, Err e)
             | Ok bar =>
                 let a := dset "inventory_bar" bar a in
                 match (let! fs := getdef v "filters" (VList []) in iter_val fs) with
                 | Err e => (a, Err e)
                 | Ok l => let '(d, r) := fill cargo_entry l [] in
                           (dset "inventory_filters" (VDict d) a, r)
                 end
             end
      end
  | AInventoryBar => put "inventory_bar" (int_or_none v) a                       (* 405-410 *)
  | AColor =>                                                                   (* 444-448 *)
      put "color" (match v with
                   | VNone => Ok VNone
                   | _ => let! col := color_of_val v in Ok (color_to_json col)
                   end) a
  | ABar => put "bar" (int_or_none v) a                                          (* 474-479 *)
  | AOverride => put "override_stack_size" (int_or_none v) a                     (* 607-611 *)
  | APickup => put "pickup_position" (vector_field v) a                          (* 591-593 *)
  | ADrop => put "drop_position" (vector_field v) a                              (* 599-601 *)
  | AFilterMode =>                                                              (* 647-651 *)
      put "filter_mode" (only (is_none v || str_in v ["whitelist"; "blacklist"]) v) a
  | AInfinity =>                                                                (* 675-679 *)
      match getitem v "remove_unfiltered_items" with
      | Err e => (a, Err e)
      | Ok r =>
          let a := dset "infinity_remove" (VBool (truthy r)) a in
          match getitem v "filters" with
          | Err e => (a, Err e)
          | Ok fs => fill_attr "infinity_filters" infinity_entry fs a
          end
      end
  | AInfinityRemove => put "infinity_remove" (Ok (VBool (truthy v))) a           (* 685-687 *)
  | AInfinityFilters => fill_attr "infinity_filters" infinity_entry v a          (* 693-705 *)
  | ARecipe => put "recipe" (recipe_set p strict v) a                            (* 736-745 *)
  | AFromBuffers => put "request_from_buffers" (Ok v) a                          (* 788-790 *)
  | ARequests => fill_attr "request_filters" request_entry v a                   (* 796-805 *)
  | AAutoLaunch => put "auto_launch" (only (bool_like v) v) a                    (* 884-888 *)
  | AParameters => put "parameters" (speaker_parameters v) a                     (* 932-941 *)
  | AAlert => put "alert_parameters" (speaker_alert v) a                         (* 947-958 *)
  | AInputPriority => put "input_priority" (only (side_ok v) v) a                (* 996-1000 *)
  | AOutputPriority => put "output_priority" (only (side_ok v) v) a              (* 1006-1010 *)
  | AFilter => put "filter" (name_val v) a                                       (* 988-990 *)
  | AStation => put "station" (Ok v) a                                           (* plain *)
  | AType => put "type" (only (str_in v ["input"; "output"]) v) a                (* 1061-1065 *)
  | AVariation => put "variation" (variation_set v) a                            (* 1085-1090 *)
  end.

(** [entity.k = v].  Without the class, Python stores a plain attribute under the public name,
    which nothing reads: the classes keep theirs under mangled names.  The exception is
    [orientation], which Orientation.rotate (364-368) reads without defining it: not modelled. *)
Definition set_attr (p : protos) (k : mattr) (v : val) (e : entity) : entity * res unit :=
  let assign := let '(a, r) := set_at p (e_strict e) k v (e_at e) in (with_at a e, r) in
  match attr_cls k with
  | None => assign
  | Some c => if has_cls c (statics (e_cls e)) then assign
              else match k with AOrientation => (e, Err EUnmodelled) | _ => (e, Ok tt) end
  end.

(** ** Control behaviours.  The descriptors by the class that has them. *)
Definition cb_signals (c : scls) : list string :=
  match c with
  | CAccumulator => ["output_signal"]                               (* 116 *)
  | CCombinator => ["first"; "second"; "output"]                    (* 207-209 *)
  | CTrainSignal => ["red_output_signal"; "orange_output_signal"; "green_output_signal"] (* 311-313 *)
  | CChainSignal => ["blue_output_signal"]                          (* 336 *)
  | CCircuitCondition => ["first"; "second"]                        (* 488, 490 *)
  | CInserter => ["stack_control_input_signal"]                     (* 554 *)
  | CRoboport => ["available_logistic_output_signal"; "total_logistic_output_signal";
                  "available_construction_output_signal"; "total_construction_output_signal"] (* 824-827 *)
  | CStation => ["train_stopped_signal"]                            (* 1021 *)
  | _ => []
  end.
Definition all_signals : list string :=
  flat_map cb_signals [CAccumulator; CCombinator; CTrainSignal; CChainSignal; CCircuitCondition; CInserter; CRoboport; CStation].
(** plain attributes of the constructors 118-1032 *)
Definition cb_plain : list string :=
  ["is_on"; "copy_count_from_input"; "circuit_enable_disable"; "circuit_read_hand_contents";
   "circuit_contents_read_mode"; "circuit_read_signal"; "circuit_close_signal"; "use_colors";
   "circuit_read_resources"; "circuit_resource_read_mode"; "circuit_mode_of_operation";
   "circuit_set_stack_size"; "circuit_hand_read_mode"; "read_logistics"; "read_robot_stats";
   "read_from_train"; "read_stopped_train"].
Definition str_mem (s : string) (l : list string) : bool := existsb (String.eqb s) l.

(** [control_behavior.k = v]; [filters] and [circuit_parameters] hold objects and are not
    modelled.  A name whose descriptor the class lacks becomes a plain attribute that nothing
    reads. *)
Definition set_cb_at (p : protos) (l : list scls) (k : string) (v : val) (a : dict) : dict * res unit :=
  if str_mem k cb_plain then put k (Ok v) a
  else if String.eqb k "operator" then put k (comb_operator l v) a               (* 58-66 *)
  else if String.eqb k "comparator" then                                         (* 489 *)
    if has_cls CCircuitCondition l then put k (operator_set decider_ops v) a else (a, Ok tt)
  else if str_mem k all_signals then                                             (* 88-103 *)
    if str_mem k (flat_map cb_signals l) then put k (signal_set p v) a else (a, Ok tt)
  else (a, Err EUnmodelled).

(** an entity constructed without control_behavior has no such attribute (entity.py 138-141) *)
Definition set_cb_attr (p : protos) (k : string) (v : val) (e : entity) : entity * res unit :=
  match e_cb e with
  | None => (e, Err EAttribute)
  | Some cb => let '(a, r) := set_cb_at p (cb_cls cb) k v (cb_at cb) in
               (with_cb (Some (mkCb (cb_cls cb) a)) e, r)
  end.
