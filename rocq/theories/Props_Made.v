(** * Theorems about what the export of a made entity says: C70. *)
From Verif Require Import Py Num Util SpecUtil Classes Mixins Entity Setters World SpecWorld SpecEntity SpecAttr SpecSetting SpecBehaviour SpecMake SpecWrite SpecExport DictFacts EntityData Demo Props_Doc Props_Make.
From Verif Require Import ShownProofs.
Open Scope string_scope. Open Scope Z_scope. Open Scope list_scope.

(** a key of its own holds what the setting of the given value exports (C67), None when it is not given *)
Theorem C70_settings : forall mk w kw s ty own cbk d, exported mk w kw s ty own cbk d ->
  forall k, In (attr_name k) own -> ~ is_part k ->
  setting (p_recipe (w_protos w)) true k (given (attr_name k) VNone kw) (Ok (dget (KS (attr_name k)) d)).
Proof. exact p_C70_setting. Qed.
Print Assumptions C70_settings.
Theorem C70_items : forall mk w kw s ty own cbk d, exported mk w kw s ty own cbk d ->
  In "items" own -> shown_items (given "items" (VDict []) kw) (dget "items" d).
Proof. exact p_C70_items. Qed.
Print Assumptions C70_items.
Theorem C70_filters : forall mk w kw s ty own cbk d, exported mk w kw s ty own cbk d ->
  In "filters" own -> exists l js, elements_or_none (given "filters" VNone kw) (Ok l) /\ Forall2 (named_filter (p_signal (w_protos w))) l js /\ shown_list js (dget "filters" d).
Proof. exact p_C70_filters. Qed.
Print Assumptions C70_filters.
(** the name, the place and, for types that turn, the direction *)
Theorem C70_name : forall mk w kw s ty own cbk d, exported mk w kw s ty own cbk d -> dget "name" d = Some (VStr s).
Proof. exact p_C70_name. Qed.
Print Assumptions C70_name.
Theorem C70_position : forall mk w kw s ty own cbk d, exported mk w kw s ty own cbk d -> place (given "position" VNone kw) (Ok (dget "position" d)).
Proof. exact p_C70_position. Qed.
Print Assumptions C70_position.
Theorem C70_direction : forall mk w kw s ty own cbk d, exported mk w kw s ty own cbk d ->
  exists z, faces (given "direction" (VInt 0) kw) z /\ shown_direction ty z (dget "direction" d).
Proof. exact p_C70_direction. Qed.
Print Assumptions C70_direction.
(** and no other keys *)
Theorem C70_no_other_keys : forall mk w kw s ty own cbk d, exported mk w kw s ty own cbk d ->
  forall k, dget k d <> None -> exists f, k = KS f /\ (In f ["entity_number"; "name"; "position"; "direction"; "connections"; "control_behavior"] \/ In f own).
Proof. exact p_C70_keys. Qed.
Print Assumptions C70_no_other_keys.
Theorem C70_no_behaviour : forall mk w kw s ty own cbk d, exported mk w kw s ty own cbk d -> dget "control_behavior" kw = None -> dget "control_behavior" d = None.
Proof. exact p_C70_no_behaviour. Qed.
Print Assumptions C70_no_behaviour.
(** the attributes of a control behaviour: what the given value is taken as and how that shows (C68) *)
Theorem C70_behaviour : forall mk w kw s ty own cbk d, exported mk w kw s ty own cbk d -> ~ In ty combinators ->
  forall cb c k g, dget "control_behavior" kw = Some (VDict cb) -> In c (controls ty) -> In (k, g) (behaviour c) ->
  exists x fx, taken (p_signal (w_protos w)) g (described c k cb) (Ok x) /\ shown_as (p_signal (w_protos w)) g k x (Ok fx) /\
  forall q o, In (q, o) fx -> at_path ("control_behavior" :: q) (VDict d) = o.
Proof. exact p_C70_behaviour. Qed.
Print Assumptions C70_behaviour.
Theorem C70_behaviour_keys : forall mk w kw s ty own cbk d, exported mk w kw s ty own cbk d -> ~ In ty combinators ->
  forall cb, dget "control_behavior" kw = Some (VDict cb) ->
  exists dd, dget "control_behavior" d = shows (match dd with [] => VNone | _ => VDict dd end) /\ forall k, dget k dd <> None -> exists f, k = KS f /\ In f cbk.
Proof. exact p_C70_behaviour_keys. Qed.
Print Assumptions C70_behaviour_keys.
Theorem C70_constant_combinator : forall mk w kw s ty own cbk d, exported mk w kw s ty own cbk d -> ~ In ty combinators ->
  forall cb, dget "control_behavior" kw = Some (VDict cb) -> In CFilters (controls ty) ->
  exists l js, elements (given "filters" (VList []) cb) (Ok l) /\ Forall2 (signal_filter (p_signal (w_protos w))) l js /\ shown_list js (at_path ["control_behavior"; "filters"] (VDict d)).
Proof. exact p_C70_signals. Qed.
Print Assumptions C70_constant_combinator.
Theorem C70_speaker : forall mk w kw s ty own cbk d, exported mk w kw s ty own cbk d -> ~ In ty combinators ->
  forall cb, dget "control_behavior" kw = Some (VDict cb) -> In CSpeaker (controls ty) ->
  exists q, keywords ["instrument_id"; "note_id"; "signal_value_is_pitch"] (given "circuit_parameters" (VDict []) cb) (Ok q) /\
  at_path ["control_behavior"; "circuit_parameters"] (VDict d) = Some (VDict [(KS "instrument_id", given "instrument_id" VNone q); (KS "note_id", given "note_id" VNone q); (KS "signal_value_is_pitch", given "signal_value_is_pitch" VNone q)]).
Proof. exact p_C70_parameters. Qed.
Print Assumptions C70_speaker.
(** arithmetic and decider combinators: the whole of the conditions *)
Theorem C70_combinators : forall mk w kw s own cbk d c, exported mk w kw s (combinator_type c) own cbk d -> c = CArithmetic \/ c = CDecider ->
  forall cb, dget "control_behavior" kw = Some (VDict cb) ->
  exists d0 dd o0 o x1 x2 x3 g1 c1 g2 c2 g3 c3, dget (KS (fst (fst (conditions c)))) cb = Some (VDict d0) /\
  dget (KS (snd (fst (conditions c)))) d0 = Some o0 /\ part_taken (p_signal (w_protos w)) c POperator o0 (Ok o) /\
  side_stored (p_signal (w_protos w)) c "first" d0 x1 /\ side_shown (p_signal (w_protos w)) x1 g1 c1 /\
  side_stored (p_signal (w_protos w)) c "second" d0 x2 /\ side_shown (p_signal (w_protos w)) x2 g2 c2 /\
  side_stored (p_signal (w_protos w)) c "output" d0 x3 /\ side_shown (p_signal (w_protos w)) x3 g3 c3 /\
  dget "control_behavior" d = Some (VDict [(KS (fst (fst (conditions c))), VDict dd)]) /\
  forall k, dget (KS k) dd = conditions_doc c o (given "copy_count_from_input" (VBool false) d0) g1 c1 g2 c2 g3 c3 k.
Proof. exact p_C70_combinator. Qed.
Print Assumptions C70_combinators.

Definition shown (kw : dict) : res val := snd (ent_json (length (w_ents booted)) (fst (step (OMake 0 kw) booted))).
Definition shown_in (kw : dict) (q : list string) : option val := match shown kw with Ok v => at_path q v | Err _ => None end.
(** a splitter that was turned by 10, with a priority *)
Definition turned_splitter : dict := thing "splitter" 1 2 ++ [(KS "direction", VInt 10); (KS "input_priority", VStr "left"); (KS "filter", VStr "coal")].
Example C70_ex : exists d, exported (OMake 0) booted turned_splitter "splitter" "splitter" ["input_priority"; "output_priority"; "filter"] [] d /\
  dget "direction" d = Some (VInt 2) /\ dget "input_priority" d = Some (VStr "left") /\ dget "output_priority" d = None /\ dget "filter" d = Some (VStr "coal").
Proof.
  eexists. split; [constructor|].
  - left. now exists 0%nat.
  - intros b x kw' E B. destruct E as [E|E]; [|discriminate E]. injection E as <-. vm_compute in B. injection B as <-. reflexivity.
  - repeat split; try (vm_compute; congruence). eexists. split; vm_compute; reflexivity.
  - cbn. auto 60.
  - repeat (constructor; cbn).
  - vm_compute. reflexivity.
  - vm_compute. reflexivity.
  - vm_compute. repeat split.
Qed.
(** items, filters, control behaviours *)
Example C70_parts_ex :
  shown_in (thing "beacon" 1 1 ++ [(KS "items", VDict [(KS "speed-module", VInt 2)])]) ["items"; "speed-module"] = Some (VInt 2) /\
  shown_in (thing "beacon" 1 1 ++ [(KS "items", VDict [])]) ["items"] = None /\
  shown_in (thing "filter-inserter" 1 1 ++ [(KS "filters", VList [VDict [(KS "name", VStr "coal"); (KS "index", VInt 1)]])]) ["filters"] = Some (VList [VDict [(KS "index", VInt 1); (KS "name", VStr "coal")]]) /\
  shown_in (behaving "constant-combinator" [(KS "filters", VList [VDict [(KS "signal", named_signal "coal"); (KS "count", VInt 7); (KS "index", VInt 1)]])]) ["control_behavior"]
    = Some (VDict [(KS "filters", VList [VDict [(KS "signal", named_signal "coal"); (KS "count", VInt 7); (KS "index", VInt 1)]])]) /\
  shown_in (behaving "programmable-speaker" []) ["control_behavior"; "circuit_parameters"; "note_id"] = Some VNone /\
  shown_in (behaving "small-lamp" [(KS "circuit_condition", VDict [(KS "first_signal", named_signal "coal"); (KS "constant", VInt 3); (KS "comparator", VStr ">")])]) ["control_behavior"; "circuit_condition"; "constant"] = Some (VInt 3) /\
  shown_in (behaving "electric-mining-drill" []) ["control_behavior"; "circuit_enable_disable"] = Some (VBool true).
Proof. vm_compute. repeat split. Qed.
(** a decider has one place for the constants of its sides: the last one is exported *)
Example C70_decider_ex :
  shown_in (behaving "decider-combinator" [(KS "decider_conditions", VDict [(KS "comparator", VStr ">"); (KS "constant", VInt 1); (KS "second_constant", VInt 2); (KS "output_signal", named_signal "coal")])]) ["control_behavior"; "decider_conditions"]
    = Some (VDict [(KS "comparator", VStr ">"); (KS "constant", VInt 2); (KS "output_signal", named_signal "coal"); (KS "copy_count_from_input", VBool false)]) /\
  shown_in (behaving "arithmetic-combinator" [(KS "arithmetic_conditions", VDict [(KS "operation", VStr "*"); (KS "first_signal", named_signal "coal"); (KS "second_constant", VInt 2)])]) ["control_behavior"; "arithmetic_conditions"]
    = Some (VDict [(KS "operation", VStr "*"); (KS "first_signal", named_signal "coal"); (KS "second_constant", VInt 2)]).
Proof. vm_compute. repeat split. Qed.
