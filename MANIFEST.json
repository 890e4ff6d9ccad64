{
 "claims": [
  {
   "property": "C01",
   "status": "proved",
   "theorems": [
    "C01_split_undoes_concat",
    "C01_every_index_is_a_key",
    "C01_initial_component",
    "C01_drop_last_component",
    "C01_split_components",
    "C01_concat_components",
    "C01_concat_associative"
   ],
   "note": ""
  },
  {
   "property": "C02",
   "status": "proved",
   "theorems": [
    "C02_each_argument_routed_once"
   ],
   "note": ""
  },
  {
   "property": "C03",
   "status": "proved",
   "theorems": [
    "C03_owned_list_is_a_list",
    "C03_one_shot_iterator_refuted"
   ],
   "note": "Owned list refines Python's list for every history of method calls; the exception named in the statement is proved to be real."
  },
  {
   "property": "C04",
   "status": "proved",
   "theorems": [
    "C04_owned_list_ledger",
    "C04_owned_list_ledger_refuted",
    "C04_owned_list_warns_before_change",
    "C04_owned_list_index",
    "C04_owned_list_index_refuted"
   ],
   "note": "The exceptions named in the statement are hypotheses of the theorems and are proved to be real."
  },
  {
   "property": "C05",
   "status": "proved",
   "theorems": [
    "C05_owned_dict_is_a_dict",
    "C05_owned_dict_ledger",
    "C05_owned_dict_warns_before_change",
    "C05_owned_dict_key_reported",
    "C05_owned_dict_refuted"
   ],
   "note": "The exceptions named in the statement are hypotheses of the theorems and are proved to be real."
  },
  {
   "property": "C06",
   "status": "proved",
   "theorems": [
    "C06_owning_keeps_content",
    "C06_owned_collections_are_labelled",
    "C06_copy_keeps_content",
    "C06_copy_is_unlabelled",
    "C06_copy_undoes_owning",
    "C06_owning_undoes_copy"
   ],
   "note": ""
  },
  {
   "property": "C07",
   "status": "proved",
   "theorems": [
    "C07_one_object_per_identity",
    "C07_get_returns_last_put",
    "C07_merge_is_union_or_conflict",
    "C07_merged_graph_is_shared",
    "C07_linked_objects_share_graph"
   ],
   "note": ""
  },
  {
   "property": "C08",
   "status": "proved",
   "theorems": [
    "C08_recognised_iff_marked",
    "C08_marked_is_recognised",
    "C08_keyless_mark_survives_key",
    "C08_marked_under_future_key",
    "C08_keyless_only_itself",
    "C08_lookup_returns_latest",
    "C08_lookup_by_key",
    "C08_rekeyed_object_refuted"
   ],
   "note": ""
  },
  {
   "property": "C09",
   "status": "proved",
   "theorems": [
    "C09_first_registration_wins",
    "C09_one_class_per_name",
    "C09_jsonenum",
    "C09_jsonenum_history",
    "C09_enum_redefinition_error_refuted"
   ],
   "note": ""
  },
  {
   "property": "C10",
   "status": "proved",
   "theorems": [
    "C10_chain_is_cut_at_the_marks",
    "C10_phases_are_unique",
    "C10_eager_after_preserialize_refuted"
   ],
   "note": ""
  },
  {
   "property": "C11",
   "status": "proved",
   "theorems": [
    "C11_set_succeeds_iff_value_passes",
    "C11_first_rejection_aborts"
   ],
   "note": ""
  },
  {
   "property": "C12",
   "status": "proved",
   "theorems": [
    "C12_chain_valid_iff_all_accept",
    "C12_chain_first_failure",
    "C12_chain_all_failures",
    "C12_valid_iff",
    "C12_field_passes_iff",
    "C12_first_failure",
    "C12_all_failures",
    "C12_class_setting_refuted"
   ],
   "note": "Chain level for any modifiers; object level for every program, object, mode and state. The exception in the statement is the last theorem."
  },
  {
   "property": "C13",
   "status": "proved",
   "theorems": [
    "C13_number_checks_decide",
    "C13_gte_lte",
    "C13_other_values_pass",
    "C13_nan_passes_refuted",
    "C13_parity"
   ],
   "note": "Each check accepts and rejects exactly per the mathematical relation on extended rationals; nan refuted as an exception."
  },
  {
   "property": "C14",
   "status": "proved",
   "theorems": [
    "C14_clamps",
    "C14_idempotent",
    "C14_chain_passes_range",
    "C14_others_unchanged"
   ],
   "note": ""
  },
  {
   "property": "C15",
   "status": "proved",
   "theorems": [
    "C15_truncate",
    "C15_pad",
    "C15_reverse",
    "C15_append_prepend",
    "C15_insertat",
    "C15_split_join",
    "C15_trim",
    "C15_others_unchanged",
    "C15_prepend_int_refuted",
    "C15_truncate_dict_refuted"
   ],
   "note": "Two exceptions refuted and stated in the property."
  },
  {
   "property": "C16",
   "status": "proved",
   "theorems": [
    "C16_length",
    "C16_length_others_pass",
    "C16_membership"
   ],
   "note": ""
  },
  {
   "property": "C17",
   "status": "proved",
   "theorems": [
    "C17_strings",
    "C17_lists",
    "C17_lists_refuted",
    "C17_others_pass",
    "C17_mixed"
   ],
   "note": "The list cases that do not hold are characterised exactly and stated in the property."
  },
  {
   "property": "C18",
   "status": "proved",
   "theorems": [
    "C18_beginning"
   ],
   "note": ""
  },
  {
   "property": "C19",
   "status": "proved",
   "theorems": [
    "C19_next",
    "C19_next_day_is_one_day"
   ],
   "note": ""
  },
  {
   "property": "C20",
   "status": "proved",
   "theorems": [
    "C20_date_round_trip",
    "C20_date_form",
    "C20_datetime_form",
    "C20_datetime_round_trip",
    "C20_iso_text",
    "C20_short_text",
    "C20_date_ignores_rest",
    "C20_whole_second_refuted",
    "C20_offset_refuted"
   ],
   "note": "fromisoformat is modelled as Python documents it up to 3.10."
  },
  {
   "property": "C21",
   "status": "proved",
   "theorems": [
    "C21_enum_round_trip",
    "C21_enum_never_another_member",
    "C21_enum_unknown_rejected",
    "C21_enum_validate",
    "C21_settings",
    "C21_inputall_loses_names_refuted",
    "C21_mixed_case_lname_refuted"
   ],
   "note": "Over the field chain [marks; enum] with any further unmarked modifiers, any enum, any member. Two exceptions proved as _refuted and stated in the property."
  },
  {
   "property": "C22",
   "status": "proved",
   "theorems": [
    "C22_types",
    "C22_date",
    "C22_int_to_float",
    "C22_no_conversion"
   ],
   "note": "Collection item checks are part of C25."
  },
  {
   "property": "C23",
   "status": "proved",
   "theorems": [
    "C23_union_accepts_iff_a_member_does",
    "C23_union_is_the_union",
    "C23_union_refuses",
    "C23_union_output_is_that_of_first_member",
    "C23_union_no_member_no_output",
    "C23_union_input_loses_accepted_value_refuted"
   ],
   "note": "For every list of member types, state threaded through the attempts; the input side (transform) does not share the property: proved as _refuted and stated in the property."
  },
  {
   "property": "C24",
   "status": "proved",
   "theorems": [
    "C24_required_value",
    "C24_required_other_side",
    "C24_required_by_key",
    "C24_required_field_valid",
    "C24_present",
    "C24_presentwith",
    "C24_presentwithout",
    "C24_key_in_listed_object_refuted",
    "C24_required_key_list_refuted",
    "C24_presentwith_on_reference_refuted"
   ],
   "note": "Any program, object and field settings. Three situations outside the rule are proved as _refuted and stated in the property."
  },
  {
   "property": "C25",
   "status": "proved",
   "theorems": [
    "C25_null_item",
    "C25_types_admit_none",
    "C25_valid_at_any_depth",
    "C25_valid_object",
    "C25_reported_at_any_depth",
    "C25_nonnull",
    "C25_null_stays",
    "C25_preserialize_item_refuted"
   ],
   "note": "Any nesting depth by induction on the path. The exception (pre-serialize mark in an item type) is proved and stated in the property."
  },
  {
   "property": "C26",
   "status": "proved",
   "theorems": [
    "C26_readonly_unchanged",
    "C26_keypath_refuted",
    "C26_shared_name_refuted",
    "C26_eager_refuted",
    "C26_reference_refuted"
   ],
   "note": "Over histories of set, successful or not, on any objects, for every object's read-only data field. Hypotheses: the exceptions named in the statement (each with a refutation), considerate user code, and tame/late modifier chains."
  },
  {
   "property": "C27",
   "status": "proved",
   "theorems": [
    "C27_writeonce_kept",
    "C27_nonnull_kept",
    "C27_transformed_null_refuted"
   ],
   "note": "Over histories of set, under the same hypotheses as C26; the non-null part additionally asks that no modifier of the chain turns a value into None (refuted otherwise)."
  },
  {
   "property": "C28",
   "status": "proved",
   "theorems": [
    "C28_set_refuses",
    "C28_construct_refuses",
    "C28_nested_refuses",
    "C28_known_keys_pass",
    "C28_unknown_keys_ignored",
    "C28_nested_unknown_ignored"
   ],
   "note": "Any class, object and input. set leaves the world as it was; construction changes no object but the new one; nested input is refused before the fields of the nested object are touched. Keys with a dot are not part of the check."
  },
  {
   "property": "C29",
   "status": "proved",
   "theorems": [
    "C29_unknown_name",
    "C29_assigns_in_order",
    "C29_data_fields"
   ],
   "note": "Any program, object, arguments. Names decided first; assignments in order up to the first exception; for data fields every assignment takes effect whatever the write rule and nothing else changes."
  },
  {
   "property": "C30",
   "status": "proved",
   "theorems": [
    "C30_fields_and_new",
    "C30_same_key_refuted",
    "C30_nested_writeonce_refuted"
   ],
   "note": "For every class, plain data field and input without compound keys, when construction succeeds. Hypotheses: tame/late modifier chains, a field name that no link uses, user code that leaves the new object alone, and, if the input gives a primary key, that no field holds objects of the class (refuted otherwise)."
  },
  {
   "property": "C31",
   "status": "proved",
   "theorems": [
    "C31_changes_are_tracked",
    "C31_reference_changes_are_listed",
    "C31_untouched_fields_are_not_listed",
    "C31_silent_refuted",
    "C31_slice_refuted",
    "C31_failed_call_refuted",
    "C31_unlinked_not_modified_refuted",
    "C31_sorted_keys_refuted"
   ],
   "note": ""
  },
  {
   "property": "C32",
   "status": "proved",
   "theorems": [
    "C32_reset_restores",
    "C32_equal_value_stays_refuted",
    "C32_any_field_refuted",
    "C32_setdefault_refuted"
   ],
   "note": ""
  },
  {
   "property": "C33",
   "status": "proved",
   "theorems": [
    "C33_new_objects_record_nothing",
    "C33_new_objects_without_stored_keys_record_nothing",
    "C33_unlinked_refuted"
   ],
   "note": ""
  },
  {
   "property": "C34",
   "status": "proved",
   "theorems": [
    "C34_one_to_many",
    "C34_operations_take_effect",
    "C34_nothing_else_changes",
    "C34_equal_objects_refuted",
    "C34_duplicate_item_refuted",
    "C34_slice_iterator_refuted",
    "C34_raised_refuted"
   ],
   "note": "Calls that raise (see C34_raised_refuted), and assignments to primary keys and stored keys of the relation, are outside the histories."
  },
  {
   "property": "C35",
   "status": "proved",
   "theorems": [
    "C35_one_to_one",
    "C34_operations_take_effect",
    "C35_removed_key_refuted"
   ],
   "note": ""
  },
  {
   "property": "C36",
   "status": "proved",
   "theorems": [
    "C36_many_to_many",
    "C34_operations_take_effect",
    "C36_same_item_refuted"
   ],
   "note": ""
  },
  {
   "property": "C37",
   "status": "proved",
   "theorems": [
    "C37_stored_key_lists",
    "C37_reordering_refuted"
   ],
   "note": ""
  },
  {
   "property": "C38",
   "status": "proved",
   "theorems": [
    "C38_unlinked_are_recorded",
    "C38_no_counterpart_refuted"
   ],
   "note": "The exception for references without counterpart is the second theorem."
  },
  {
   "property": "C39",
   "status": "proved",
   "theorems": [
    "C39_visit",
    "C39_validate",
    "C39_checked_fields",
    "C39_due"
   ],
   "note": "C39_visit covers objects met at any depth, C39_validate the call itself; both give every outcome, including exceptions."
  },
  {
   "property": "C40",
   "status": "proved",
   "theorems": [
    "C40_validate_terminates",
    "C40_is_valid_terminates",
    "C40_each_object_once"
   ],
   "note": "Every finite graph, fuel bound explicit; callables change no object and type arguments of modifiers are flat (TameSpec.v). Example: a ring of three objects that list each other."
  },
  {
   "property": "C41",
   "status": "proved",
   "theorems": [
    "C41_nothing_hidden_is_shown",
    "C41_stored_key_refuted"
   ],
   "note": "Any set of single values that no visible field holds, no stored reference key is, and no date, enum or formatter writes, is nowhere in the result at any depth, for every graph. The refutation shows the exception: the stored key of a write-only reference is written. Callables leave objects alone (calm); modifiers whose arguments are types take flat ones (tame_classes)."
  },
  {
   "property": "C42",
   "status": "proved",
   "theorems": [
    "C42_tojson_terminates",
    "C42_reference_graphs",
    "C42_embedded_cycle_refuted"
   ],
   "note": "Proved for every finite graph, cyclic by references or not, whose embeddings are well founded, with a recursion depth that does not depend on the object or the options; orderly_classes: a chain has one modifier about the parts of a value and none before it replaces the value. Refuted for an object embedded in itself."
  },
  {
   "property": "C43",
   "status": "proved",
   "theorems": [
    "C43_entries",
    "C43_keys",
    "C43_plain"
   ],
   "note": "Exact list of entries, in order, for every class with distinct JSON names; calm callables and tame types as in C40."
  },
  {
   "property": "C44",
   "status": "proved",
   "theorems": [
    "C44_guards_decide",
    "C44_rejected_save",
    "C44_rejected_delete",
    "C44_rejected_tojson",
    "C44_no_operator",
    "C44_accepted_delete",
    "C44_accepted_tojson",
    "C44_accepted_save",
    "C44_eager_guard_refuted"
   ],
   "note": "Any guard list and callables. A chain guard failing in its eager part raises a validation error instead of the unauthorized one (refuted)."
  },
  {
   "property": "C45",
   "status": "proved",
   "theorems": [
    "C45_stage_failure_ends",
    "C45_phases_in_order",
    "C45_written_means_passed",
    "C45_delete_in_order",
    "C45_written_valid_refuted"
   ],
   "note": "Any user code at each phase. Written means every phase passed; but on-save setters run after validation, so what is written can be invalid (refuted)."
  },
  {
   "property": "C46",
   "status": "proved",
   "theorems": [
    "C46_setters_run",
    "C46_at_rest_unchanged",
    "C46_serialize_phases",
    "C46_rejected_value_stored_refuted",
    "C46_neighbour_refuted"
   ],
   "note": "Each on-save modifier checks its own result before it is stored (C46_serialize_phases); later modifiers of the field do not, and a nested setter writes to the root object: both are shown by computed counterexamples."
  },
  {
   "property": "C47",
   "status": "proved",
   "theorems": [
    "C47_union_split",
    "C47_parse_print",
    "C47_parse_ends",
    "C47_annotated",
    "C47_objects",
    "C47_chains_are_kept",
    "C47_text_annotation",
    "C47_names",
    "C47_nested_dict_refuted",
    "C47_nested_union_refuted",
    "C47_optional_refuted"
   ],
   "note": "The notations that are not read as written are stated as exceptions and proved to be real."
  },
  {
   "property": "C48",
   "status": "proved",
   "theorems": [
    "C48_settings",
    "C48_default_config",
    "C48_callbacks",
    "C48_equal_iff_same_answers"
   ],
   "note": ""
  },
  {
   "property": "C49",
   "status": "proved",
   "theorems": [
    "C49_write_rule",
    "C49_read_rule",
    "C49_storage",
    "C49_item_nullability",
    "C49_collection_nullability",
    "C49_strictness",
    "C49_delete_rule",
    "C49_enum_output",
    "C49_definition_of_chain",
    "C49_extending_keeps_original",
    "C49_extension"
   ],
   "note": ""
  },
  {
   "property": "C50",
   "status": "proved",
   "theorems": [
    "C50_set_item",
    "C50_addressed_item_replaced",
    "C50_set_in_object",
    "C50_silent_refuted",
    "C50_raises_yet_writes_refuted"
   ],
   "note": "Any object, keypath of any length through objects, lists and dicts, and scalar value. Paths into a field declared without items are silently ignored, and a list or dict as the value raises after writing (refuted)."
  },
  {
   "property": "C51",
   "status": "proved",
   "theorems": [
    "C51_floor",
    "C51_ceil",
    "C51_round",
    "C51_ints_unchanged",
    "C51_abs",
    "C51_not_finite"
   ],
   "note": ""
  },
  {
   "property": "C52",
   "status": "proved",
   "theorems": [
    "C52_int_arithmetic",
    "C52_div_pow",
    "C52_pow_refuted"
   ],
   "note": ""
  },
  {
   "property": "C53",
   "status": "proved",
   "theorems": [
    "C53_before",
    "C53_after",
    "C53_mixed_type_error",
    "C53_before_no_point",
    "C53_after_no_point",
    "C53_order_is_day_count"
   ],
   "note": ""
  },
  {
   "property": "C54",
   "status": "proved",
   "theorems": [
    "C54_every_second_saved",
    "C54_all_unlinked_saved_refuted"
   ],
   "note": "The loop over the unlinked objects skips every second one."
  },
  {
   "property": "C55",
   "status": "proved",
   "theorems": [
    "C55_no_container_added",
    "C55_no_container_in_dict"
   ],
   "note": "Any recursion limit, any depth, any list or dict value: always an exception, since the owner assigns the wrapped value through the same method again."
  },
  {
   "property": "C56",
   "status": "proved",
   "theorems": [
    "C56_prepare_terminates",
    "C56_each_object_once",
    "C56_rekeyed_refuted",
    "C56_eager_after_refuted"
   ],
   "note": "Termination bound and at-most-once for programs whose callables and setters leave classes, tables of stored keys and primary keys alone; two exceptions shown by computed witnesses."
  },
  {
   "property": "C57",
   "status": "proved",
   "theorems": [
    "C57_match",
    "C57_bad_pattern"
   ],
   "note": "Against a relational definition of what a pattern matches; reading the text of a pattern is a parameter."
  },
  {
   "property": "C58",
   "status": "proved",
   "theorems": [
    "C58_securepw",
    "C58_length_refuted",
    "C58_symbols_refuted"
   ],
   "note": ""
  },
  {
   "property": "C59",
   "status": "proved",
   "theorems": [
    "C59_hexcolor",
    "C59_colors_pass",
    "C59_trailing_refuted"
   ],
   "note": ""
  },
  {
   "property": "C60",
   "status": "proved",
   "theorems": [
    "C60_email",
    "C60_addresses_pass",
    "C60_trailing_refuted"
   ],
   "note": "ASCII strings; the word edge is defined in RegexSpec.v."
  },
  {
   "property": "C61",
   "status": "proved",
   "theorems": [
    "C61_url",
    "C61_ip_refuted",
    "C61_newline_refuted"
   ],
   "note": "ASCII strings; the grammar of addresses is in RegexSpec.v."
  },
  {
   "property": "C62",
   "status": "proved",
   "theorems": [
    "C62_get",
    "C62_compose",
    "C62_never_raises",
    "C62_empty_refuted",
    "C62_list_refuted"
   ],
   "note": "Numbers of a configuration are modelled as ints."
  },
  {
   "property": "C63",
   "status": "proved",
   "theorems": [
    "C63_load",
    "C63_missing_variable",
    "C63_missing_error",
    "C63_no_file",
    "C63_collision_refuted",
    "C63_toplevel_refuted"
   ],
   "note": "underscore and the environment are arbitrary functions; C63_load asks for keys that stay distinct, the other case is C63_collision_refuted."
  },
  {
   "property": "C64",
   "status": "proved",
   "theorems": [
    "C64_request",
    "C64_same",
    "C64_distinct",
    "C64_failure",
    "C64_name_refuted"
   ],
   "note": ""
  },
  {
   "property": "C65",
   "status": "proved",
   "theorems": [
    "C65_plain_name",
    "C65_extension",
    "C65_no_overwrite",
    "C65_stored",
    "C65_alioss_refuted"
   ],
   "note": "POSIX paths; uuid4().hex is an arbitrary string of 32 small hexadecimal digits."
  },
  {
   "property": "C66",
   "status": "proved",
   "theorems": [
    "C66_validate",
    "C66_validate_types",
    "C66_oneisvalid",
    "C66_compare",
    "C66_compare_nested",
    "C66_oneisvalid_callable_refuted",
    "C66_compare_in_list_refuted",
    "C66_compare_reference_refuted",
    "C66_desk_refuted"
   ],
   "note": "One modifier in any context and state. C66_oneisvalid is for types whose checks change nothing. The exceptions in the statement are the last four theorems."
  },
  {
   "property": "C67",
   "status": "proved",
   "theorems": [
    "C67_default",
    "C67_transform",
    "C67_map",
    "C67_filter",
    "C67_not_a_list",
    "C67_filter_types",
    "C67_at",
    "C67_fmt",
    "C67_filter_truthy_refuted"
   ],
   "note": "map and filter are equivalences for the successful runs. C67_filter_types is for types whose checks change nothing."
  },
  {
   "property": "C68",
   "status": "proved",
   "theorems": [
    "C68_when",
    "C68_write",
    "C68_read",
    "C68_owner_only",
    "C68_isobjof",
    "C68_callable_refuted",
    "C68_no_key_refuted"
   ],
   "note": ""
  },
  {
   "property": "C69",
   "status": "proved",
   "theorems": [
    "C69_opby_new",
    "C69_opby_other",
    "C69_validate",
    "C69_operator_refuted"
   ],
   "note": "C69_opby_new asks that the references are unset and the functions leave the objects alone."
  },
  {
   "property": "C70",
   "status": "proved",
   "theorems": [
    "C70_onsave",
    "C70_onwrite",
    "C70_onupdate",
    "C70_saved_object",
    "C70_prepare_calls",
    "C70_save_calls",
    "C70_nested_refuted",
    "C70_in_list_refuted",
    "C70_desk_lamp_refuted",
    "C70_desk_pens_refuted"
   ],
   "note": "One modifier in any context and state; a whole save of an object of data fields with any of the callbacks. The exceptions in the statement are the last four theorems."
  },
  {
   "property": "C71",
   "status": "proved",
   "theorems": [
    "C71_include",
    "C71_otherwise",
    "C71_fetched_objects_refuted",
    "C71_reset_refuted"
   ],
   "note": "for every relation between classes and every data base; exceptions refuted by witness"
  },
  {
   "property": "C72",
   "status": "proved",
   "theorems": [
    "C72_persisted_modified_fields",
    "C72_changed_fields_are_written",
    "C72_nested_refuted"
   ],
   "note": ""
  },
  {
   "property": "C73",
   "status": "proved",
   "theorems": [
    "C73_complete",
    "C73_assign_refuted",
    "C73_pick_refuted"
   ],
   "note": ""
  },
  {
   "property": "C74",
   "status": "proved",
   "theorems": [
    "C74_random_strings",
    "C74_every_selection",
    "C74_repeats_refuted",
    "C74_randomint",
    "C74_every_int",
    "C74_randomint_refuted",
    "C74_randomfloat"
   ],
   "note": "a source of randomness is an arbitrary function with the range secrets documents"
  },
  {
   "property": "C75",
   "status": "proved",
   "theorems": [
    "C75_toint",
    "C75_int_text_unique",
    "C75_round_trip",
    "C75_tostr",
    "C75_tobool",
    "C75_tolist",
    "C75_sqrt",
    "C75_tofloat"
   ],
   "note": "the printing and reading of floats is a parameter"
  },
  {
   "property": "C76",
   "status": "proved",
   "theorems": [
    "C76_passwords",
    "C76_salt",
    "C76_twice_refuted"
   ],
   "note": "bcrypt is a parameter with the stated law"
  },
  {
   "property": "C77",
   "status": "proved",
   "theorems": [
    "C77_owner_may",
    "C77_otherwise",
    "C77_loaded_or_not",
    "C77_isobj",
    "C77_fobj",
    "C77_unsaved_refuted"
   ],
   "note": ""
  },
  {
   "property": "C78",
   "status": "proved",
   "theorems": [
    "C78_equal",
    "C78_equivalence",
    "C78_classes",
    "C78_keys",
    "C78_distinct_objects",
    "C78_cycle_refuted",
    "C78_stored_keys_refuted"
   ],
   "note": ""
  },
  {
   "property": "C79",
   "status": "proved",
   "theorems": [
    "C79_all_checked",
    "C79_values",
    "C79_same_key_refuted",
    "C79_class_refuted",
    "C79_union_refuted"
   ],
   "note": ""
  },
  {
   "property": "C80",
   "status": "proved",
   "theorems": [
    "C80_report",
    "C80_names_refuted",
    "C80_not_an_object_refuted"
   ],
   "note": "All object graphs and tame classes. Exceptions proved as _refuted and stated in the property."
  },
  {
   "property": "C81",
   "status": "proved",
   "theorems": [
    "C81_stored_keys",
    "C81_first_keys",
    "C81_unknown_key",
    "C81_join_table",
    "C81_loaded_refuted",
    "C81_unwatched_refuted"
   ],
   "note": "Fields whose chain is one listof with marks that change no value. Two exceptions proved as _refuted and stated in the property."
  },
  {
   "property": "C82",
   "status": "proved",
   "theorems": [
    "C82_form",
    "C82_json",
    "C82_valid",
    "C82_list_of_dates",
    "C82_any_refuted",
    "C82_namesake_refuted"
   ],
   "note": "All tame classes and graphs. C82_form gives the form of every value; C82_json and C82_valid draw the conclusion for typed and for validated objects. Exceptions proved as _refuted and stated in the property."
  },
  {
   "property": "C83",
   "status": "proved",
   "theorems": [
    "C83_assign",
    "C83_only_base",
    "C83_read",
    "C83_put_get",
    "C83_readonly",
    "C83_ends",
    "C83_circle"
   ],
   "note": "Setters of the form this.assign(name, passin...) and getters of the form this.fval(name)..., nested to any depth; the steps between are arbitrary steps that give a value and change nothing."
  },
  {
   "property": "C84",
   "status": "proved",
   "theorems": [
    "C84_set",
    "C84_failed",
    "C84_unnamed",
    "C84_atomic_refuted",
    "C84_same_key_refuted"
   ],
   "note": "Data fields of objects of classes whose own code does not write the field; input with plain keys. A raising set is shown to leave fields old or as set; that it is not all or nothing is C84_atomic_refuted."
  },
  {
   "property": "C85",
   "status": "proved",
   "theorems": [
    "C85_value",
    "C85_object",
    "C85_copied",
    "C85_default_refuted",
    "C85_union_refuted",
    "C85_readonly_refuted",
    "C85_alike_names_refuted"
   ],
   "note": "Data fields; what objects held by reference become is not part of it. Hypotheses on user code as in C30, C82 and C84. The exceptions in the statement are the last four theorems."
  },
  {
   "property": "C86",
   "status": "proved",
   "theorems": [
    "C86_fields",
    "C86_kept",
    "C86_lists",
    "C86_operator",
    "C86_names",
    "C86_factory_refuted"
   ],
   "note": "One class graph; annotations are given as the types that rtypes makes of them (C43). Lists of authentication fields are not modelled."
  },
  {
   "property": "C87",
   "status": "proved",
   "theorems": [
    "C87_other_side",
    "C87_mutual",
    "C87_last_class",
    "C87_as_in_the_object_model",
    "C87_relation",
    "C87_subclass_refuted"
   ],
   "note": "The condition on shared types objects is needed: C87_subclass_refuted. C87_as_in_the_object_model and C87_relation connect the look-up with the one in the models of objects."
  },
  {
   "property": "C88",
   "status": "proved",
   "theorems": [
    "C88_construct",
    "C88_set",
    "C88_names_refuted",
    "C88_nested_refuted",
    "C88_dotted_refuted"
   ],
   "note": "Keys without dots. The first two theorems give the account; the exceptions in the statement are the other three."
  },
  {
   "property": "C89",
   "status": "proved",
   "theorems": [
    "C89_construct",
    "C89_set",
    "C89_same_key_refuted",
    "C89_default_owner_refuted",
    "C89_default_keyed_refuted",
    "C30_nested_writeonce_refuted"
   ],
   "note": "Keys without dots; the depth is any number. Nested objects without a primary key in the input, chains in which the other modifiers leave values that are not None alone; relation fields are not covered here. The exceptions in the statement are the last four theorems."
  },
  {
   "property": "C90",
   "status": "proved",
   "theorems": [
    "C90_construct",
    "C90_set",
    "C90_writeonce_refuted",
    "C90_shared_refuted",
    "C90_same_key_refuted"
   ],
   "note": "Keys of the output without dots; the depth is any number. Nested objects without a primary key, held in fields that are no relations. The exceptions in the statement are the last three theorems."
  },
  {
   "property": "C91",
   "status": "proved",
   "theorems": [
    "C91_nothing_changes",
    "C91_same_answers",
    "C91_answer_of_objects",
    "C91_callable_refuted"
   ],
   "note": "The exception for callables that change objects is the last theorem."
  },
  {
   "property": "C92",
   "status": "proved",
   "theorems": [
    "C92_json",
    "C92_object",
    "C92_replaced",
    "C92_written",
    "C92_nothing_changes",
    "C92_date_refuted",
    "C92_circular_refuted"
   ],
   "note": "The text that Python's json module makes of the data is not modelled. The exceptions in the statement are the last two theorems."
  },
  {
   "property": "C93",
   "status": "proved",
   "theorems": [
    "C93_set_is_assignment",
    "C93_both_sides",
    "C93_takes_effect"
   ],
   "note": "The third theorem is for relations between two different classes. Fields that can be written once only are not in the input."
  },
  {
   "property": "C94",
   "status": "proved",
   "theorems": [
    "C94_constructor_is_assignment",
    "C94_both_sides",
    "C94_key_after_refuted"
   ],
   "note": "The exception in the statement is the last theorem."
  },
  {
   "property": "C95",
   "status": "proved",
   "theorems": [
    "C95_replacer",
    "C95_no_match",
    "C95_characters",
    "C95_runs",
    "C95_malformed",
    "C95_again_refuted"
   ],
   "note": "The text of the pattern and of the replacement are read by parameters; back references to groups are not modelled."
  },
  {
   "property": "C96",
   "status": "proved",
   "theorems": [
    "C96_date",
    "C96_datetime",
    "C96_rest",
    "C96_offset_refuted"
   ],
   "note": "strftime is a parameter. The exceptions in the statement are the last theorem."
  },
  {
   "property": "C97",
   "status": "proved",
   "theorems": [
    "C97_uploads",
    "C97_function",
    "C97_read_back_refuted"
   ],
   "note": "The exceptions are in the specification (alioss) and the last theorem."
  },
  {
   "property": "C98",
   "status": "proved",
   "theorems": [
    "C98_mongoid"
   ],
   "note": ""
  },
  {
   "property": "C99",
   "status": "proved",
   "theorems": [
    "C99_cross_fetch",
    "C99_agrees"
   ],
   "note": "The back end is a parameter."
  },
  {
   "property": "C100",
   "status": "proved",
   "theorems": [
    "C100_data",
    "C100_reference_refuted"
   ],
   "note": "The exception in the statement is the second theorem."
  },
  {
   "property": "C101",
   "status": "proved",
   "theorems": [
    "C101_assigning_keys",
    "C101_histories",
    "C101_unwatched_refuted",
    "C101_none_refuted"
   ],
   "note": "The exceptions in the statement are the last two theorems."
  },
  {
   "property": "C102",
   "status": "proved",
   "theorems": [
    "C102_text",
    "C102_text_decides",
    "C102_unique",
    "C102_line_end_refuted"
   ],
   "note": "The exception in the statement is the last theorem."
  },
  {
   "property": "C103",
   "status": "proved",
   "theorems": [
    "C103_all_prepared",
    "C103_exactly_once",
    "C103_list_of_lists_refuted",
    "C103_order_of_others_refuted",
    "C103_number_for_author_refuted"
   ],
   "note": "The exceptions in the statement are the last three theorems."
  },
  {
   "property": "C104",
   "status": "proved",
   "theorems": [
    "C104_checked",
    "C104_taken",
    "C104_shown",
    "C104_saved",
    "C104_inverse",
    "C104_wrapped",
    "C104_exceptions_refuted"
   ],
   "note": "Contexts as fields and items have them (no original object). The exceptions in the statement are the last theorem."
  },
  {
   "property": "C105",
   "status": "proved",
   "theorems": [
    "C105_new",
    "C105_links",
    "C105_set",
    "C105_twice_refuted"
   ],
   "note": "Relations that store no list of keys; nested dicts without primary keys; callables that change no object; identity as equality. The exception in the statement is the last theorem."
  },
  {
   "property": "C106",
   "status": "proved",
   "theorems": [
    "C106_previous_key",
    "C106_current_key",
    "C106_primary_is_recorded"
   ],
   "note": "The key is no list or dict; calculated fields are not assigned."
  },
  {
   "property": "C107",
   "status": "proved",
   "theorems": [
    "C107_characters",
    "C107_case",
    "C107_replace",
    "C107_replace_unique",
    "C107_len",
    "C107_others"
   ],
   "note": "Letters and digits are the ASCII ones."
  }
 ]
}
