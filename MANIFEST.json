{
 "claims": [
  {
   "property": "C01",
   "status": "proved",
   "theorems": [
    "C01_exchange_string_roundtrip",
    "C01_string_keyed_objects_unchanged"
   ],
   "note": "strings with a high surrogate directly followed by a low one are excluded (JSON merges them)"
  },
  {
   "property": "C02",
   "status": "proved",
   "theorems": [
    "C02_exchange_string_shape"
   ],
   "note": ""
  },
  {
   "property": "C03",
   "status": "proved",
   "theorems": [
    "C03_encoding_injective"
   ],
   "note": ""
  },
  {
   "property": "C04",
   "status": "proved",
   "theorems": [
    "C04_empty_string",
    "C04_wrong_version",
    "C04_non_ascii_body",
    "C04_malformed_base64",
    "C04_inner_layers",
    "C04_no_other_exception"
   ],
   "note": "base64 acceptance is stated against an independent grammar; the JSON grammar itself is the modelled parser, shown total"
  },
  {
   "property": "C05",
   "status": "proved",
   "theorems": [
    "C05_junk_is_ignored",
    "C05_only_letters_matter"
   ],
   "note": ""
  },
  {
   "property": "C06",
   "status": "proved",
   "theorems": [
    "C06_color_channels_in_unit",
    "C06_color_assignment"
   ],
   "note": ""
  },
  {
   "property": "C07",
   "status": "proved",
   "theorems": [
    "C07_direction_mod_8",
    "C07_direction_rotation_inverse"
   ],
   "note": ""
  },
  {
   "property": "C08",
   "status": "proved",
   "theorems": [
    "C08_direction_vectors"
   ],
   "note": ""
  },
  {
   "property": "C09",
   "status": "proved",
   "theorems": [
    "C09_vector_rotate_action",
    "C09_vector_rotate_length"
   ],
   "note": ""
  },
  {
   "property": "C10",
   "status": "proved",
   "theorems": [
    "C10_integer_vector_laws",
    "C10_commutative",
    "C10_zero_division",
    "C10_operands",
    "C10_rmod_float_refuted",
    "C10_each_operator",
    "C10_unsupported_operands",
    "C10_rmod_none"
   ],
   "note": "the reflected % with a float on the left returns None: C10_rmod_float_refuted"
  },
  {
   "property": "C11",
   "status": "proved",
   "theorems": [
    "C11_strict_partial_order",
    "C11_not_total",
    "C11_equality"
   ],
   "note": ""
  },
  {
   "property": "C12",
   "status": "proved",
   "theorems": [
    "C12_floor_ceil",
    "C12_nonfinite_raises",
    "C12_round_on_grid",
    "C12_round_refuted"
   ],
   "note": "the failing part (arbitrary floats) is C12_round_refuted"
  },
  {
   "property": "C13",
   "status": "proved",
   "theorems": [
    "C13_connection_equality"
   ],
   "note": ""
  },
  {
   "property": "C14",
   "status": "proved",
   "theorems": [
    "C14_wire_list_distinct",
    "C14_connect_adds_once",
    "C14_connect_either_way"
   ],
   "note": "flip_color excluded, refuted by C14_recolour_refuted"
  },
  {
   "property": "C15",
   "status": "proved",
   "theorems": [
    "C15_connect_sides",
    "C15_int_of_text",
    "C15_default_side_fails"
   ],
   "note": ""
  },
  {
   "property": "C16",
   "status": "proved",
   "theorems": [
    "C16_entity_lists_exactly_its_wires",
    "C16_nothing_else_under_connections",
    "C16_document_lists_exactly_the_wires",
    "C16_visible_from_both_ends",
    "C16_wires_always_exported"
   ],
   "note": ""
  },
  {
   "property": "C17",
   "status": "proved",
   "theorems": [
    "C17_entry_read_back"
   ],
   "note": "C17_sides_refuted is the failing example"
  },
  {
   "property": "C18",
   "status": "proved",
   "theorems": [
    "C18_export_repeatable",
    "C18_loop_not_repeatable"
   ],
   "note": "the second theorem excludes histories using flip_color"
  },
  {
   "property": "C19",
   "status": "proved",
   "theorems": [
    "C19_one_owner"
   ],
   "note": ""
  },
  {
   "property": "C20",
   "status": "proved",
   "theorems": [
    "C20_add_foreign",
    "C20_add_twice",
    "C20_add_wrong_type"
   ],
   "note": ""
  },
  {
   "property": "C21",
   "status": "proved",
   "theorems": [
    "C21_after_add",
    "C21_after_make",
    "C21_after_rotate",
    "C21_after_sort",
    "C21_after_load",
    "C21_exported_numbers"
   ],
   "note": ""
  },
  {
   "property": "C22",
   "status": "proved",
   "theorems": [
    "C22_remove",
    "C22_remove_absent",
    "C22_dangling_wires_exported"
   ],
   "note": ""
  },
  {
   "property": "C23",
   "status": "proved",
   "theorems": [
    "C23_lookup",
    "C23_delete",
    "C23_delete_fails"
   ],
   "note": "grid coordinates; floats refuted by C23_float_refuted"
  },
  {
   "property": "C24",
   "status": "proved",
   "theorems": [
    "C24_failed_construction",
    "C24_late_failure"
   ],
   "note": ""
  },
  {
   "property": "C25",
   "status": "proved",
   "theorems": [
    "C25_rotation_turns_every_entity",
    "C25_rotations_add_up"
   ],
   "note": "can_turn: finite valid positions about the origin, or grid positions and centre; orientations on the 1/256 grid."
  },
  {
   "property": "C26",
   "status": "proved",
   "theorems": [
    "C26_rotations_compose",
    "C26_any_number_of_rotations",
    "C26_whole_turn_is_identity"
   ],
   "note": "State equality; the identity needs no -0.0 coordinate and a sorted layer (example of -0.0)."
  },
  {
   "property": "C27",
   "status": "proved",
   "theorems": [
    "C27_counter_clockwise_entities",
    "C27_tiles_turn_back",
    "C27_inverse_refuted"
   ],
   "note": "Entities: equality of the whole step. The inverse claim is refuted by a witness; tiles: exact on the grid."
  },
  {
   "property": "C28",
   "status": "proved",
   "theorems": [
    "C28_distance_is_kept",
    "C28_whole_turns_restore_positions",
    "C28_any_float_refuted"
   ],
   "note": "Exactness is in the record turned of C25; floats off the grid refuted by a witness."
  },
  {
   "property": "C29",
   "status": "proved",
   "theorems": [
    "C29_symmetric_boxes_turn",
    "C29_half_turn_keeps_the_box",
    "C29_asymmetric_refuted"
   ],
   "note": "Points on which the collision test is exact are the subject of C23; here box membership is exact arithmetic."
  },
  {
   "property": "C30",
   "status": "proved",
   "theorems": [
    "C30_orientation_turns",
    "C30_no_orientation_stops_halfway"
   ],
   "note": "Orientation multiples of 1/256; drift of 0.1 is an example."
  },
  {
   "property": "C31",
   "status": "proved",
   "theorems": [
    "C31_make_rejects_unknown_names",
    "C31_entity_rejects_unknown_names",
    "C31_load_fails",
    "C31_load_unknown_entity",
    "C31_unchecked_entity"
   ],
   "note": "Names that are strings; make, Entity(...) and load."
  },
  {
   "property": "C32",
   "status": "proved",
   "theorems": [
    "C32_formats_cover_types",
    "C32_only_understood_keys",
    "C32_unknown_key_is_a_type_error",
    "C32_make_unknown_key",
    "C32_load_only_understood_keys"
   ],
   "note": ""
  },
  {
   "property": "C33",
   "status": "proved",
   "theorems": [
    "C33_only_understood_keys",
    "C33_unknown_key_is_a_type_error",
    "C33_inserters_drop_unknown_keys",
    "C33_only_understood_condition_keys",
    "C33_unknown_condition_key_is_a_type_error"
   ],
   "note": ""
  },
  {
   "property": "C34",
   "status": "proved",
   "theorems": [
    "C34_new_entity_says_the_same",
    "C34_made_entity_says_the_same",
    "C34_well_formed_is_made"
   ],
   "note": "well-formedness (SpecTrip.v) excludes inputs the exporter normalises: direction 0, defaults written for belts, drills and speakers, integer volumes"
  },
  {
   "property": "C35",
   "status": "proved",
   "theorems": [
    "C35_blueprint_round_trip"
   ],
   "note": "No tiles, since documents with tiles never load (C38); wires from an entity to itself are excluded; the blueprint has no label colour yet or the document gives one."
  },
  {
   "property": "C36",
   "status": "proved",
   "theorems": [
    "C36_decider_with_constant_never_loads",
    "C36_decider_with_constant_type_error",
    "C36_conditions_round_trip",
    "C36_normal_form_type_error"
   ],
   "note": ""
  },
  {
   "property": "C37",
   "status": "proved",
   "theorems": [
    "C37_what_load_takes",
    "C37_other_documents",
    "C37_untouched",
    "C37_conditions_emptied"
   ],
   "note": "doc_spent describes exactly what may be missing; conditions_emptied for entities checked against the tables and types without custom mixins."
  },
  {
   "property": "C38",
   "status": "proved",
   "theorems": [
    "C38_no_tiles",
    "C38_add_fails",
    "C38_make_fails",
    "C38_make_type_error",
    "C38_load_fails"
   ],
   "note": ""
  },
  {
   "property": "C39",
   "status": "proved",
   "theorems": [
    "C39_loads_as_empty",
    "C39_exports_as_empty"
   ],
   "note": "Documents holding a bare dictionary, loaded into a blueprint without entities."
  },
  {
   "property": "C40",
   "status": "proved",
   "theorems": [
    "C40_slots",
    "C40_slots_stay",
    "C40_export",
    "C40_index_error",
    "C40_unknown_signal"
   ],
   "note": "Icons given as a signal name or dictionary and an int index."
  },
  {
   "property": "C41",
   "status": "proved",
   "theorems": [
    "C41_load",
    "C41_schedules_stay",
    "C41_export",
    "C41_numbers_agree"
   ],
   "note": "Schedules and locomotives given as lists."
  },
  {
   "property": "C42",
   "status": "proved",
   "theorems": [
    "C42_extremes_of_the_corners",
    "C42_empty_blueprint",
    "C42_contains_the_high_corners",
    "C42_contains_the_low_corners",
    "C42_order_is_irrelevant"
   ],
   "note": "corner_points are the exact values of the computed corners (C52 relates them to position and box)."
  },
  {
   "property": "C43",
   "status": "proved",
   "theorems": [
    "C43_success_changes_nothing",
    "C43_origin_succeeds",
    "C43_otherwise_moves_and_fails",
    "C43_default_centre",
    "C43_empty_blueprint"
   ],
   "note": "Exact movement on the 1/256 grid; the success case is unrestricted."
  },
  {
   "property": "C44",
   "status": "proved",
   "theorems": [
    "C44_never_returns",
    "C44_two_errors",
    "C44_type_error"
   ],
   "note": "Never returns: unrestricted. Kind of error: TypeError or OverflowError; TypeError below 4096 grid entities."
  },
  {
   "property": "C45",
   "status": "proved",
   "theorems": [
    "C45_set_table",
    "C45_import",
    "C45_failed_import"
   ],
   "note": ""
  },
  {
   "property": "C46",
   "status": "proved",
   "theorems": [
    "C46_merge_is_a_linear_order",
    "C46_every_prototype_composes",
    "C46_set_mixins_order",
    "C46_add_mixins_order",
    "C46_add_mixins_fails",
    "C46_reachable_classes"
   ],
   "note": "C3 merge proved sound and complete for all lists; composition proved for every mixin list, every prototype type and every reachable entity. Passing Entity itself as a mixin is outside the model."
  },
  {
   "property": "C47",
   "status": "proved",
   "theorems": [
    "C47_a_name_of_the_same_type_keeps_the_settings",
    "C47_missing_settings_break_the_export",
    "C47_without_new_settings_the_export_keeps_the_old_ones",
    "C47_opposite_mixin_orders_are_a_type_error",
    "C47_every_other_type_can_be_assigned",
    "C47_an_unknown_name_changes_nothing"
   ],
   "note": "Same type: export equal up to the name, for every history without set_mixins on the entity. Other types: AttributeError / unchanged settings (the latter for entities without a control behaviour) / TypeError, from the type the entity was made as."
  },
  {
   "property": "C48",
   "status": "proved",
   "theorems": [
    "C48_loaded_wires",
    "C48_mentions_come_from_the_document",
    "C48_dangling_reference_fails"
   ],
   "note": ""
  },
  {
   "property": "C49",
   "status": "proved",
   "theorems": [
    "C49_lookup_by_number",
    "C49_number_of_loaded",
    "C49_number_of_made"
   ],
   "note": ""
  },
  {
   "property": "C50",
   "status": "proved",
   "theorems": [
    "C50_items_are_looked_up_in_the_builtin_table",
    "C50_recipes_and_items_are_looked_up_in_the_imported_tables",
    "C50_signals_are_looked_up_in_the_imported_table",
    "C50_entities_are_looked_up_in_the_imported_table"
   ],
   "note": ""
  },
  {
   "property": "C51",
   "status": "proved",
   "theorems": [
    "C51_vector_forms",
    "C51_vector_rejects"
   ],
   "note": ""
  },
  {
   "property": "C52",
   "status": "proved",
   "theorems": [
    "C52_corners_form_a_rectangle",
    "C52_corners_of_the_turned_box"
   ],
   "note": "Rectangle: all floats. Exact corners: grid positions and boxes."
  },
  {
   "property": "C53",
   "status": "proved",
   "theorems": [
    "C53_strict_flag_has_no_effect"
   ],
   "note": ""
  },
  {
   "property": "C54",
   "status": "proved",
   "theorems": [
    "C54_foreign_calls_do_not_disturb",
    "C54_foreign_histories_do_not_disturb",
    "C54_self_contained",
    "C54_stays_self_contained"
   ],
   "note": ""
  },
  {
   "property": "C55",
   "status": "proved",
   "theorems": [
    "C55_string_loads",
    "C55_same_blueprint",
    "C55_entities_in_place",
    "C55_wires_as_read",
    "C55_from_string",
    "C55_skewed_wire_refuted"
   ],
   "note": "the skewed-wire case is refuted by a witness; the hypotheses (zlib lossless, the types in the signal table are strings) are stated"
  },
  {
   "property": "C56",
   "status": "proved",
   "theorems": [
    "C56_equal_documents",
    "C56_symmetric",
    "C56_transitive",
    "C56_reflexive",
    "C56_raises",
    "C56_looks_only",
    "C56_itself_refuted",
    "C56_copy_refuted"
   ],
   "note": "reflexivity with self-loops and equality of copies are refuted by witnesses"
  },
  {
   "property": "C57",
   "status": "proved",
   "theorems": [
    "C57_decoded_documents",
    "C57_encoded_again",
    "C57_normal_form"
   ],
   "note": "zlib is an oracle: lossless is a stated hypothesis"
  },
  {
   "property": "C58",
   "status": "proved",
   "theorems": [
    "C58_assigning_later_is_making_it_so",
    "C58_settings_of_a_type_can_be_assigned",
    "C58_other_entities_keep_their_exports",
    "C58_only_one_key_of_the_export_changes",
    "C58_what_was_assigned_is_exported",
    "C58_refused_values_change_nothing",
    "C58_foreign_attributes_have_no_effect",
    "C58_behaviours_assigned_later_are_made_so",
    "C58_conditions_assigned_later_are_made_so",
    "C58_behaviours_of_others_keep_their_exports",
    "C58_only_the_behaviour_changes",
    "C58_refused_behaviours_change_nothing",
    "C58_without_a_behaviour_there_is_nothing_to_assign_to",
    "C58_refused_requests_refuted"
   ],
   "note": "the natural claim that a refused value changes nothing is refuted for request_filters by a witness; attributes holding objects (items, filters) are not assigned in the model"
  },
  {
   "property": "C59",
   "status": "proved",
   "theorems": [
    "C59_meaning",
    "C59_refusals",
    "C59_one_meaning"
   ],
   "note": "zlib is an oracle (any decompress function); Python's recursion and digit limits are outside the model"
  },
  {
   "property": "C60",
   "status": "proved",
   "theorems": [
    "C60_load_adds_to_what_is_there",
    "C60_drawn_wires_are_lost",
    "C60_earlier_entities_take_the_numbers",
    "C60_second_copy_is_wired_to_the_first"
   ],
   "note": "For every reachable state. Witnesses: two wired lamps loaded twice; a drawn wire lost by loading a document with nothing but a label."
  },
  {
   "property": "C61",
   "status": "proved",
   "theorems": [
    "C61_what_a_failed_load_leaves",
    "C61_failed_load_changes_nothing_refuted"
   ],
   "note": "One theorem with a case for each place where the call can stop; the claim that a failed load changes nothing is refuted. Entities given as a string, and NaN positions, are outside the model."
  },
  {
   "property": "C62",
   "status": "proved",
   "theorems": [
    "C62_operators_are_correctly_rounded",
    "C62_remainder_on_the_right",
    "C62_results_are_determined",
    "C62_floor_division_exact_refuted"
   ],
   "note": "The specification is the distance-minimising definition of rounding (SpecRound.v), independent of the shift-and-round algorithm of the model, and is shown to determine the result. Exact floor division beyond 2^48 is refuted by a witness."
  },
  {
   "property": "C63",
   "status": "proved",
   "theorems": [
    "C63_text_is_the_shortest_decimal",
    "C63_text",
    "C63_one_decimal",
    "C63_shortest_text_refuted"
   ],
   "note": "Both directions: the text has the described form, and nothing else does. The specification says what shortest, nearest and even mean by distances between exact numbers, independent of the digit search of the model. That the shortest decimal is always the shortest text is refuted."
  },
  {
   "property": "C64",
   "status": "proved",
   "theorems": [
    "C64_text",
    "C64_one_text",
    "C64_text_is_ascii",
    "C64_exchange_string",
    "C64_to_string",
    "C64_to_json_string"
   ],
   "note": "Equivalence between the model and a relational description, and uniqueness of the described text. Strings that are no Python strings (malformed generalised UTF-8) have no text on either side. Python objects json.dumps refuses (e.g. Vector, Enum) are outside the value type."
  },
  {
   "property": "C65",
   "status": "proved",
   "theorems": [
    "C65_sums_and_differences",
    "C65_float_operand",
    "C65_direction_on_the_right",
    "C65_direction_on_the_left",
    "C65_two_directions",
    "C65_division_disabled_refuted",
    "C65_sum_commutes_refuted",
    "C65_names_differ",
    "C65_names_point",
    "C65_named_directions",
    "C65_direction_of_a_float",
    "C65_float_range",
    "C65_infinite_float",
    "C65_float_in_range_refuted"
   ],
   "note": "Operators follow CPython's binary operator protocol (subclass of int with overridden __add__, NotImplemented falls back to the other operand). Three expected laws are refuted with witnesses: division is disabled, addition commutes, a float always gives one of eight directions. Operands that are neither numbers nor Directions are outside."
  },
  {
   "property": "C66",
   "status": "proved",
   "theorems": [
    "C66_what_a_condition_is_made_of",
    "C66_assignments",
    "C66_export",
    "C66_read_back",
    "C66_read_back_refuted",
    "C66_signals",
    "C66_signal_made",
    "C66_nameless_signal"
   ],
   "note": "Equivalence with an inductive specification for the constructor and the assignments; export and reading back for every condition reachable by assignments. Reading back every export is refuted (two-signal conditions)."
  },
  {
   "property": "C67",
   "status": "proved",
   "theorems": [
    "C67_what_a_setting_takes_and_exports",
    "C67_every_value_is_decided",
    "C67_the_result_is_unique",
    "C67_what_a_part_takes",
    "C67_keywords_take_the_same_values"
   ],
   "note": "Relational specification per setting; the model satisfies it for every value, and it is decided wherever the model is (texts given to float(), bools and texts as numbers to compute with, non-ASCII digits, float or None indices are outside). The three attributes that hold a part of an exported object (inventory_bar, infinity_remove, infinity_filters) have their own theorem about which values are taken."
  },
  {
   "property": "C68",
   "status": "proved",
   "theorems": [
    "C68_what_a_behaviour_takes",
    "C68_what_a_behaviour_exports",
    "C68_every_export_is_decided",
    "C68_what_is_taken_is_unique",
    "C68_what_a_combinator_takes",
    "C68_what_a_combinator_exports",
    "C68_every_combinator_export_is_decided",
    "C68_a_decider_loses_a_constant_refuted"
   ],
   "note": "Filters and the parameters of speakers are not among the attributes of this property. The statement about the export needs the attribute to belong to one class of the behaviour, which holds for all classes in the package, and that the entity could be exported before. For combinators the behaviour is of the class of the package itself, and sides of a decider are covered when no constant was exported before; the other case is C68_a_decider_loses_a_constant_refuted. Falsy values other than None, 0, the empty text and dictionaries are outside the model as signals."
  },
  {
   "property": "C69",
   "status": "proved",
   "theorems": [
    "C69_an_exception_is_a_fault",
    "C69_nothing_is_made_from_a_faulty_description",
    "C69_made_exactly_when_faultless",
    "C69_make",
    "C69_load"
   ],
   "note": "For entities of the package's own types (no custom class for the type). Inputs outside the model are excluded by name: texts as numbers (position or direction given as text), and the falsy signal values of C68. When there are several faults the exception is that of one of them; which one is not said."
  },
  {
   "property": "C70",
   "status": "proved",
   "theorems": [
    "C70_settings",
    "C70_items",
    "C70_filters",
    "C70_name",
    "C70_position",
    "C70_direction",
    "C70_no_other_keys",
    "C70_no_behaviour",
    "C70_behaviour",
    "C70_behaviour_keys",
    "C70_constant_combinator",
    "C70_speaker",
    "C70_combinators"
   ],
   "note": "For entities of the package's own types (no custom class for the type), whose making and export succeed (C69 says when making does). The keys entity_number and connections are not described here; C16-C19 and C36 are about them."
  },
  {
   "property": "C71",
   "status": "proved",
   "theorems": [
    "C71_vector",
    "C71_vector_identifies",
    "C71_color",
    "C71_color_identifies",
    "C71_entity",
    "C71_entity_identifies",
    "C71_entity_str",
    "C71_connection",
    "C71_connection_identifies",
    "C71_connection_any_name_refuted",
    "C71_signal",
    "C71_signal_identifies"
   ],
   "note": "Connections: names without quotes (refuted otherwise), colours red and green. Signals: names without commas. repr and str of Direction are part of C65."
  },
  {
   "property": "C72",
   "status": "proved",
   "theorems": [
    "C72_failure",
    "C72_success",
    "C72_sound_tables",
    "C72_accepted_refuted"
   ],
   "note": "Types whose class was not replaced in the blueprint; descriptions whose floats are doubles."
  },
  {
   "property": "C73",
   "status": "proved",
   "theorems": [
    "C73_failure",
    "C73_document",
    "C73_wires",
    "C73_loaded_refuted"
   ],
   "note": "C73_wires assumes that the numbers of the ends are None, integers or texts; other kinds of numbers are outside the model."
  },
  {
   "property": "C74",
   "status": "proved",
   "theorems": [
    "C74_document",
    "C74_position",
    "C74_number_kept_refuted"
   ],
   "note": "Blueprints that have wires or entities at the start are not covered by C74; C73 describes their documents from the state."
  },
  {
   "property": "C75",
   "status": "proved",
   "theorems": [
    "C75_others",
    "C75_document",
    "C75_put_back",
    "C75_put_back_refuted"
   ],
   "note": ""
  },
  {
   "property": "C76",
   "status": "proved",
   "theorems": [
    "C76_any_order",
    "C76_every_order_possible",
    "C76_one_position_refuted"
   ],
   "note": ""
  },
  {
   "property": "C77",
   "status": "proved",
   "theorems": [
    "C77_same_entities",
    "C77_same_export",
    "C77_possible",
    "C77_wires_refuted"
   ],
   "note": ""
  },
  {
   "property": "C78",
   "status": "proved",
   "theorems": [
    "C78_entities",
    "C78_export",
    "C78_one_position_refuted"
   ],
   "note": ""
  },
  {
   "property": "C79",
   "status": "proved",
   "theorems": [
    "C79_moved",
    "C79_there",
    "C79_left",
    "C79_wires_refuted"
   ],
   "note": ""
  }
 ]
}