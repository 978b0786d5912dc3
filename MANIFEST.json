{
 "claims": [
  {
   "property": "C01",
   "status": "proved",
   "theorems": [
    "C01_deny_overrides_rules",
    "C01_spec_deterministic",
    "C01_deny_overrides_rules_table"
   ],
   "note": ""
  },
  {
   "property": "C02",
   "status": "proved",
   "theorems": [
    "C02_permit_overrides_rules",
    "C02_spec_deterministic",
    "C02_permit_overrides_rules_table"
   ],
   "note": ""
  },
  {
   "property": "C03",
   "status": "proved",
   "theorems": [
    "C03_first_applicable_rules",
    "C03_spec_deterministic",
    "C03_later_rules_irrelevant"
   ],
   "note": ""
  },
  {
   "property": "C04",
   "status": "proved",
   "theorems": [
    "C04_deny_overrides_policies",
    "C04_never_indeterminate",
    "C04_spec_deterministic",
    "C04_deny_overrides_policies_table"
   ],
   "note": ""
  },
  {
   "property": "C05",
   "status": "proved",
   "theorems": [
    "C05_permit_overrides_policies",
    "C05_spec_deterministic",
    "C05_permit_overrides_policies_table"
   ],
   "note": ""
  },
  {
   "property": "C06",
   "status": "proved",
   "theorems": [
    "C06_first_applicable_policies",
    "C06_later_policies_irrelevant"
   ],
   "note": ""
  },
  {
   "property": "C07",
   "status": "proved",
   "theorems": [
    "C07_rules_order_irrelevant",
    "C07_policies_order_irrelevant",
    "C07_first_applicable_order_refuted",
    "C07_rule_without_effect_refuted"
   ],
   "note": ""
  },
  {
   "property": "C08",
   "status": "proved",
   "theorems": [
    "C08_permit_has_reason",
    "C08_deny_has_reason",
    "C08_policy_decision_from_rule",
    "C08_policyset_decision_from_child"
   ],
   "note": ""
  },
  {
   "property": "C09",
   "status": "proved",
   "theorems": [
    "C09_rule_decides_effect",
    "C09_rule_not_applicable",
    "C09_rule_indeterminate",
    "C09_rule_raises"
   ],
   "note": ""
  },
  {
   "property": "C10",
   "status": "proved",
   "theorems": [
    "C10_only_base_exceptions_escape",
    "C10_faults_contained"
   ],
   "note": ""
  },
  {
   "property": "C11",
   "status": "proved",
   "theorems": [
    "C11_target_and_or_and",
    "C11_target_total"
   ],
   "note": ""
  },
  {
   "property": "C12",
   "status": "proved",
   "theorems": [
    "C12_target_error_not_hidden"
   ],
   "note": ""
  },
  {
   "property": "C13",
   "status": "proved",
   "theorems": [
    "C13_match_any",
    "C13_match_application_error",
    "C13_match_retrieval_error",
    "C13_retrieves_bag"
   ],
   "note": ""
  },
  {
   "property": "C14",
   "status": "proved",
   "theorems": [
    "C14_subject_designator_exact",
    "C14_requested_values_defined",
    "C14_requested_values_members"
   ],
   "note": ""
  },
  {
   "property": "C15",
   "status": "proved",
   "theorems": [
    "C15_other_designators_exact",
    "C15_own_section_only",
    "C15_missing_section",
    "C15_no_queries"
   ],
   "note": ""
  },
  {
   "property": "C16",
   "status": "proved",
   "theorems": [
    "C16_must_be_present_designator",
    "C16_empty_bag_when_not_required",
    "C16_must_be_present_selector"
   ],
   "note": ""
  },
  {
   "property": "C17",
   "status": "proved",
   "theorems": [
    "C17_source_only_adds",
    "C17_one_query_per_subject"
   ],
   "note": ""
  },
  {
   "property": "C18",
   "status": "proved",
   "theorems": [
    "C18_designator_bag_homogeneous",
    "C18_designator_value_is_bag",
    "C18_selector_bag_homogeneous",
    "C18_request_value_rejected",
    "C18_source_value_rejected"
   ],
   "note": ""
  },
  {
   "property": "C19",
   "status": "proved",
   "theorems": [
    "C19_selector_texts",
    "C19_selector_errors"
   ],
   "note": ""
  },
  {
   "property": "C20",
   "status": "proved",
   "theorems": [
    "C20_apply_strict_left_to_right",
    "C20_apply_first_error",
    "C20_each_application_once"
   ],
   "note": ""
  },
  {
   "property": "C21",
   "status": "proved",
   "theorems": [
    "C21_and",
    "C21_and_rejects",
    "C21_not",
    "C21_not_rejects"
   ],
   "note": ""
  },
  {
   "property": "C22",
   "status": "proved",
   "theorems": [
    "C22_equal",
    "C22_equal_rejects",
    "C22_match",
    "C22_match_rejects",
    "C22_value_equality",
    "C22_value_equality_meaning"
   ],
   "note": ""
  },
  {
   "property": "C23",
   "status": "proved",
   "theorems": [
    "C23_one_and_only",
    "C23_one_and_only_rejects",
    "C23_bag",
    "C23_bag_rejects",
    "C23_one_and_only_inverts_bag"
   ],
   "note": ""
  },
  {
   "property": "C24",
   "status": "proved",
   "theorems": [
    "C24_at_least_one_member_of",
    "C24_at_least_one_rejects",
    "C24_symmetric_order_insensitive",
    "C24_empty"
   ],
   "note": ""
  },
  {
   "property": "C25",
   "status": "proved",
   "theorems": [
    "C25_concatenate",
    "C25_concatenate_rejects",
    "C25_stepwise"
   ],
   "note": ""
  },
  {
   "property": "C26",
   "status": "proved",
   "theorems": [
    "C26_cache_transparent",
    "C26_fresh_outcome"
   ],
   "note": ""
  },
  {
   "property": "C27",
   "status": "proved",
   "theorems": [
    "C27_sound",
    "C27_complete",
    "C27_complete_fixed",
    "C27_unknown_type",
    "C27_no_type",
    "C27_raises",
    "C27_config_error",
    "C27_catalogue",
    "C27_standard",
    "C27_implemented_standard"
   ],
   "note": ""
  },
  {
   "property": "C28",
   "status": "proved",
   "theorems": [
    "C28_getitem_transparent",
    "C28_get_transparent",
    "C28_untouched"
   ],
   "note": ""
  },
  {
   "property": "C29",
   "status": "proved",
   "theorems": [
    "C29_refused",
    "C29_standard_kept",
    "C29_custom_last",
    "C29_assignment_refuted"
   ],
   "note": ""
  },
  {
   "property": "C30",
   "status": "proved",
   "theorems": [
    "C30_policy",
    "C30_policyset",
    "C30_policy_outcome",
    "C30_policyset_outcome",
    "C30_policy_factories",
    "C30_policyset_factories",
    "C30_rule_factory",
    "C30_policy_factory"
   ],
   "note": ""
  },
  {
   "property": "C31",
   "status": "proved",
   "theorems": [
    "C31_source",
    "C31_failure"
   ],
   "note": ""
  },
  {
   "property": "C32",
   "status": "proved",
   "theorems": [
    "C32_match_ids",
    "C32_match",
    "C32_apply",
    "C32_match_assign",
    "C32_apply_assign",
    "C32_wrong_type"
   ],
   "note": ""
  },
  {
   "property": "C33",
   "status": "proved",
   "theorems": [
    "C33_history",
    "C33_outcome",
    "C33_constructor",
    "C33_base64"
   ],
   "note": ""
  },
  {
   "property": "C34",
   "status": "proved",
   "theorems": [
    "C34_same_class",
    "C34_symmetric",
    "C34_other_class",
    "C34_equivalence"
   ],
   "note": ""
  },
  {
   "property": "C35",
   "status": "proved",
   "theorems": [
    "C35_standard",
    "C35_additions",
    "C35_add",
    "C35_valid"
   ],
   "note": ""
  },
  {
   "property": "C36",
   "status": "proved",
   "theorems": [
    "C36_typed",
    "C36_all_or_nothing",
    "C36_content",
    "C36_generator_refuted",
    "C36_generator_dropped"
   ],
   "note": ""
  },
  {
   "property": "C37",
   "status": "proved",
   "theorems": [
    "C37_firsts",
    "C37_no_duplicates",
    "C37_raise",
    "C37_extend_refuted"
   ],
   "note": ""
  },
  {
   "property": "C38",
   "status": "proved",
   "theorems": [
    "C38_vetted",
    "C38_rejected",
    "C38_lookup",
    "C38_operation",
    "C38_get"
   ],
   "note": ""
  },
  {
   "property": "C39",
   "status": "proved",
   "theorems": [
    "C39_same_keys",
    "C39_never_gained",
    "C39_rejected",
    "C39_update",
    "C39_deletion",
    "C39_assignment",
    "C39_setdefault_refuted"
   ],
   "note": ""
  },
  {
   "property": "C40",
   "status": "proved",
   "theorems": [
    "C40_effect",
    "C40_decision",
    "C40_status_code",
    "C40_effect_invariant",
    "C40_decision_invariant",
    "C40_rejected",
    "C40_effect_comparison",
    "C40_decision_comparison",
    "C40_shared_objects_refuted"
   ],
   "note": ""
  },
  {
   "property": "C41",
   "status": "proved",
   "theorems": [
    "C41_without_assignment",
    "C41_responses_keep_decisions",
    "C41_evaluation_hands_out_shared_objects",
    "C41_assignment_changes_shared_object",
    "C41_later_evaluations_read_assigned_value",
    "C41_history_independence_refuted"
   ],
   "note": ""
  },
  {
   "property": "C42",
   "status": "proved",
   "theorems": [
    "C42_response",
    "C42_pdp",
    "C42_pdp_new",
    "C42_pdp_raises"
   ],
   "note": ""
  },
  {
   "property": "C43",
   "status": "proved",
   "theorems": [
    "C43_read_policy_iff",
    "C43_rules_in_order",
    "C43_missing_attribute",
    "C43_duplicate_rule_id",
    "C43_unsupported_child",
    "C43_unknown_algorithm"
   ],
   "note": ""
  },
  {
   "property": "C44",
   "status": "proved",
   "theorems": [
    "C44_policy_round_trip",
    "C44_tree_round_trip",
    "C44_only_expressible",
    "C44_only_expressible_trees",
    "C44_written_differ"
   ],
   "note": ""
  },
  {
   "property": "C45",
   "status": "proved",
   "theorems": [
    "C45_read_iff",
    "C45_members",
    "C45_known_from_documents",
    "C45_unresolvable_reference"
   ],
   "note": ""
  },
  {
   "property": "C46",
   "status": "proved",
   "theorems": [
    "C46_lookup",
    "C46_lookup_id",
    "C46_register",
    "C46_register_set"
   ],
   "note": ""
  },
  {
   "property": "C47",
   "status": "proved",
   "theorems": [
    "C47_fetched_once",
    "C47_fetched_once_over_reads",
    "C47_reference_by_id",
    "C47_limit_independent",
    "C47_no_cycles"
   ],
   "note": ""
  },
  {
   "property": "C48",
   "status": "proved",
   "theorems": [
    "C48_url",
    "C48_every_reference",
    "C48_meaning_determined",
    "C48_has_scheme",
    "C48_raises",
    "C48_under_base",
    "C48_always_under_base_refuted",
    "C48_stable"
   ],
   "note": ""
  },
  {
   "property": "C49",
   "status": "proved",
   "theorems": [
    "C49_round_trip",
    "C49_same_decisions",
    "C49_action_and_environment"
   ],
   "note": ""
  },
  {
   "property": "C50",
   "status": "proved",
   "theorems": [
    "C50_round_trip",
    "C50_resource_id"
   ],
   "note": ""
  },
  {
   "property": "C51",
   "status": "proved",
   "theorems": [
    "C51_condition_attribute_value",
    "C51_condition_bag",
    "C51_condition_boolean",
    "C51_condition_other"
   ],
   "note": ""
  },
  {
   "property": "C52",
   "status": "proved",
   "theorems": [
    "C52_str2bool"
   ],
   "note": ""
  },
  {
   "property": "C53",
   "status": "proved",
   "theorems": [
    "C53_blanks",
    "C53_proxy_bypass",
    "C53_entries_determined",
    "C53_trimmed_determined",
    "C53_single_entry",
    "C53_no_host"
   ],
   "note": ""
  },
  {
   "property": "C54",
   "status": "proved",
   "theorems": [
    "C54_parts",
    "C54_plain_name",
    "C54_local_part",
    "C54_round_trip",
    "C54_equality",
    "C54_line_break_refuted"
   ],
   "note": ""
  },
  {
   "property": "C55",
   "status": "proved",
   "theorems": [
    "C55_context_error",
    "C55_context_error_without_message",
    "C55_message_must_be_string",
    "C55_after_any_history"
   ],
   "note": ""
  },
  {
   "property": "C56",
   "status": "proved",
   "theorems": [
    "C56_irrelevant_attribute",
    "C56_only_requested",
    "C56_same_retrievals"
   ],
   "note": ""
  },
  {
   "property": "C57",
   "status": "proved",
   "theorems": [
    "C57_order_independent",
    "C57_built_in",
    "C57_custom_refuted"
   ],
   "note": ""
  },
  {
   "property": "C58",
   "status": "proved",
   "theorems": [
    "C58_decision_or_escape",
    "C58_queries",
    "C58_history_independent",
    "C58_repeatable"
   ],
   "note": ""
  },
  {
   "property": "C59",
   "status": "proved",
   "theorems": [
    "C59_grouping"
   ],
   "note": ""
  },
  {
   "property": "C60",
   "status": "proved",
   "theorems": [
    "C60_request_documents"
   ],
   "note": ""
  },
  {
   "property": "C61",
   "status": "proved",
   "theorems": [
    "C61_response_documents"
   ],
   "note": ""
  },
  {
   "property": "C62",
   "status": "proved",
   "theorems": [
    "C62_any_schedule",
    "C62_decisions",
    "C62_queries",
    "C62_cache",
    "C62_terminates",
    "C62_alone"
   ],
   "note": ""
  },
  {
   "property": "C63",
   "status": "proved",
   "theorems": [
    "C63_inapplicable_rule",
    "C63_inapplicable_policy",
    "C63_repeated_rule",
    "C63_repeated_policy",
    "C63_flatten",
    "C63_single_child",
    "C63_single_child_indeterminate",
    "C63_split",
    "C63_split_determines",
    "C63_deny_stays",
    "C63_permit_stays",
    "C63_replace_parts"
   ],
   "note": ""
  },
  {
   "property": "C64",
   "status": "proved",
   "theorems": [
    "C64_reads_back",
    "C64_reads_back_lxml",
    "C64_stable",
    "C64_succeeds",
    "C64_succeeds_lxml",
    "C64_errors",
    "C64_map",
    "C64_quotes_refuted",
    "C64_markup_refuted",
    "C64_no_namespace_refuted",
    "C64_mixed_refuted",
    "C64_redeclared_refuted",
    "C64_map_refuted"
   ],
   "note": ""
  },
  {
   "property": "C65",
   "status": "proved",
   "theorems": [
    "C65_answer",
    "C65_shape",
    "C65_permit",
    "C65_deny",
    "C65_no_permit_rule",
    "C65_always_answered",
    "C65_exchange"
   ],
   "note": ""
  },
  {
   "property": "C66",
   "status": "proved",
   "theorems": [
    "C66_permit",
    "C66_not_applicable",
    "C66_same_or_indeterminate",
    "C66_decides",
    "C66_deny_refuted",
    "C66_hidden_fault_refuted"
   ],
   "note": ""
  },
  {
   "property": "C67",
   "status": "proved",
   "theorems": [
    "C67_bound",
    "C67_sequence",
    "C67_no_handler",
    "C67_bound_attained"
   ],
   "note": ""
  },
  {
   "property": "C68",
   "status": "proved",
   "theorems": [
    "C68_policy",
    "C68_policy_set",
    "C68_request",
    "C68_response",
    "C68_answer",
    "C68_alike",
    "C68_attribute_order",
    "C68_comment_refuted"
   ],
   "note": ""
  },
  {
   "property": "C69",
   "status": "proved",
   "theorems": [
    "C69_permit",
    "C69_not_applicable",
    "C69_same_or_indeterminate",
    "C69_later",
    "C69_uninterrupted",
    "C69_deny_refuted"
   ],
   "note": ""
  },
  {
   "property": "C70",
   "status": "proved",
   "theorems": [
    "C70_same",
    "C70_truth_functions",
    "C70_permit",
    "C70_not_applicable",
    "C70_same_or_indeterminate",
    "C70_any_function_refuted"
   ],
   "note": ""
  },
  {
   "property": "C71",
   "status": "proved",
   "theorems": [
    "C71_typed",
    "C71_present",
    "C71_items",
    "C71_policy",
    "C71_request",
    "C71_new",
    "C71_setters",
    "C71_other_attributes",
    "C71_rule_algorithm",
    "C71_policy_algorithm",
    "C71_function",
    "C71_exclusive",
    "C71_refused",
    "C71_other_objects",
    "C71_local",
    "C71_local_request",
    "C71_append",
    "C71_extend",
    "C71_delete",
    "C71_insert_refuted",
    "C71_attribute_values_refuted",
    "C71_circular_refuted",
    "C71_unknown",
    "C71_refused_id_refuted"
   ],
   "note": ""
  },
  {
   "property": "C72",
   "status": "proved",
   "theorems": [
    "C72_forms",
    "C72_path",
    "C72_dotted",
    "C72_type",
    "C72_wrong_type",
    "C72_bare",
    "C72_effect",
    "C72_call",
    "C72_no_file",
    "C72_search_path",
    "C72_search_path_extended",
    "C72_search_path_refuted"
   ],
   "note": ""
  },
  {
   "property": "C73",
   "status": "proved",
   "theorems": [
    "C73_registered",
    "C73_inferred",
    "C73_registration",
    "C73_readers",
    "C73_inferred_type_refuted"
   ],
   "note": ""
  },
  {
   "property": "C74",
   "status": "proved",
   "theorems": [
    "C74_lookup",
    "C74_standard",
    "C74_installed_or_before",
    "C74_other_operations",
    "C74_stopped",
    "C74_installed",
    "C74_lost_refuted",
    "C74_deletion_refuted",
    "C74_outcomes",
    "C74_terminates",
    "C74_alone"
   ],
   "note": ""
  },
  {
   "property": "C75",
   "status": "proved",
   "theorems": [
    "C75_document",
    "C75_sharing",
    "C75_history",
    "C75_reads",
    "C75_local",
    "C75_limit",
    "C75_limit_document",
    "C75_limit_deny_refuted",
    "C75_circular_deny_refuted"
   ],
   "note": ""
  },
  {
   "property": "C76",
   "status": "proved",
   "theorems": [
    "C76_faithful",
    "C76_independent",
    "C76_made",
    "C76_limit",
    "C76_refused",
    "C76_request_refused",
    "C76_policy_refused",
    "C76_value_refused",
    "C76_forgotten",
    "C76_category_lost",
    "C76_response",
    "C76_pickled_list_refused",
    "C76_pickled_response_refused",
    "C76_shallow",
    "C76_shallow_made",
    "C76_shallow_refused"
   ],
   "note": ""
  },
  {
   "property": "C77",
   "status": "proved",
   "theorems": [
    "C77_finders",
    "C77_finder_keeps",
    "C77_other_finders",
    "C77_load",
    "C77_finder_after",
    "C77_load_determined",
    "C77_load_possible",
    "C77_failed_load",
    "C77_in_force",
    "C77_once",
    "C77_independent",
    "C77_same_content",
    "C77_directory",
    "C77_one_directory",
    "C77_sibling",
    "C77_bare_name_refuted",
    "C77_only_paths",
    "C77_bad_arguments",
    "C77_policy_from_source",
    "C77_set_from_source_refused",
    "C77_reload_refuted",
    "C77_retry_refuted"
   ],
   "note": ""
  },
  {
   "property": "C78",
   "status": "proved",
   "theorems": [
    "C78_linearizable",
    "C78_moment",
    "C78_one_policy",
    "C78_undisturbed",
    "C78_changes",
    "C78_set_seen",
    "C78_failed",
    "C78_program_order",
    "C78_terminates",
    "C78_decisions"
   ],
   "note": ""
  },
  {
   "property": "C79",
   "status": "proved",
   "theorems": [
    "C79_undone",
    "C79_sequential",
    "C79_readers_only",
    "C79_marked",
    "C79_overlap",
    "C79_origin",
    "C79_print",
    "C79_failed_print_refuted",
    "C79_lost",
    "C79_old_dict",
    "C79_untyped",
    "C79_lxml"
   ],
   "note": ""
  },
  {
   "property": "C80",
   "status": "proved",
   "theorems": [
    "C80_selected",
    "C80_relative",
    "C80_same",
    "C80_absolute_refuted",
    "C80_never_context",
    "C80_twice_refuted",
    "C80_order_refuted",
    "C80_bag",
    "C80_no_text",
    "C80_lxml"
   ],
   "note": ""
  },
  {
   "property": "C81",
   "status": "proved",
   "theorems": [
    "C81_agree",
    "C81_one_library",
    "C81_first",
    "C81_chosen",
    "C81_refused",
    "C81_late_refuted",
    "C81_broken"
   ],
   "note": ""
  },
  {
   "property": "C82",
   "status": "proved",
   "theorems": [
    "C82_meaning",
    "C82_held",
    "C82_kept",
    "C82_once",
    "C82_undisturbed",
    "C82_alone",
    "C82_finishes",
    "C82_duplicate_refuted",
    "C82_own_reference_refuted",
    "C82_shared_reference_refuted"
   ],
   "note": ""
  },
  {
   "property": "C83",
   "status": "proved",
   "theorems": [
    "C83_host",
    "C83_request",
    "C83_no_host",
    "C83_refused",
    "C83_unparsable",
    "C83_data",
    "C83_stream",
    "C83_unclosed",
    "C83_leak_refuted",
    "C83_capitals_refuted"
   ],
   "note": ""
  },
  {
   "property": "C84",
   "status": "proved",
   "theorems": [
    "C84_value",
    "C84_add_reader",
    "C84_standard",
    "C84_local"
   ],
   "note": ""
  },
  {
   "property": "C85",
   "status": "proved",
   "theorems": [
    "C85_load",
    "C85_reads",
    "C85_only",
    "C85_round_trip",
    "C85_evaluates",
    "C85_kept",
    "C85_others",
    "C85_registered",
    "C85_fresh",
    "C85_members",
    "C85_typed",
    "C85_present",
    "C85_items",
    "C85_names",
    "C85_environment"
   ],
   "note": ""
  },
  {
   "property": "C86",
   "status": "proved",
   "theorems": [
    "C86_frame",
    "C86_ends",
    "C86_elsewhere",
    "C86_new_objects",
    "C86_added",
    "C86_added_history",
    "C86_delete_refuted",
    "C86_insert_refuted",
    "C86_match_refuted"
   ],
   "note": ""
  },
  {
   "property": "C87",
   "status": "proved",
   "theorems": [
    "C87_rules",
    "C87_rules_only",
    "C87_policies",
    "C87_policies_only",
    "C87_target_first",
    "C87_target_error",
    "C87_contained",
    "C87_standard",
    "C87_exchange",
    "C87_taken",
    "C87_unlike_any",
    "C87_spoiled",
    "C87_response",
    "C87_permit_from_rule"
   ],
   "note": ""
  },
  {
   "property": "C88",
   "status": "proved",
   "theorems": [
    "C88_installed",
    "C88_new",
    "C88_none",
    "C88_accepted",
    "C88_refused",
    "C88_separate",
    "C88_tables",
    "C88_registered",
    "C88_factory",
    "C88_current_refuted"
   ],
   "note": ""
  },
  {
   "property": "C89",
   "status": "proved",
   "theorems": [
    "C89_decision",
    "C89_meanwhile",
    "C89_operations",
    "C89_live",
    "C89_others_matter"
   ],
   "note": ""
  },
  {
   "property": "C90",
   "status": "proved",
   "theorems": [
    "C90_vocabulary",
    "C90_words",
    "C90_assignment",
    "C90_only_assignment_changes",
    "C90_value_assigned_last",
    "C90_new",
    "C90_equality",
    "C90_equality_string",
    "C90_equality_other",
    "C90_answers",
    "C90_in_list",
    "C90_copy",
    "C90_truth",
    "C90_text_and_hash",
    "C90_not_read_only"
   ],
   "note": ""
  },
  {
   "property": "C91",
   "status": "proved",
   "theorems": [
    "C91_creation",
    "C91_namespace",
    "C91_valid",
    "C91_element",
    "C91_assignment",
    "C91_separate",
    "C91_copy"
   ],
   "note": ""
  },
  {
   "property": "C92",
   "status": "proved",
   "theorems": [
    "C92_moment",
    "C92_ends",
    "C92_final",
    "C92_latest",
    "C92_meaning",
    "C92_document",
    "C92_in_place_refuted"
   ],
   "note": ""
  },
  {
   "property": "C93",
   "status": "proved",
   "theorems": [
    "C93_plain",
    "C93_bound",
    "C93_questions",
    "C93_exponential"
   ],
   "note": ""
  },
  {
   "property": "C94",
   "status": "proved",
   "theorems": [
    "C94_policy",
    "C94_grants",
    "C94_not_applicable",
    "C94_decided",
    "C94_exact",
    "C94_predicates",
    "C94_indeterminate_refuted",
    "C94_deny_refuted",
    "C94_grants_refuted"
   ],
   "note": ""
  },
  {
   "property": "C95",
   "status": "proved",
   "theorems": [
    "C95_typed",
    "C95_kept",
    "C95_slipped",
    "C95_unique",
    "C95_repeated",
    "C95_failed"
   ],
   "note": ""
  },
  {
   "property": "C96",
   "status": "proved",
   "theorems": [
    "C96_retrieved",
    "C96_condition",
    "C96_target",
    "C96_permit",
    "C96_deny",
    "C96_range",
    "C96_deny_rule_refuted",
    "C96_not_refuted",
    "C96_error_refuted"
   ],
   "note": ""
  },
  {
   "property": "C97",
   "status": "proved",
   "theorems": [
    "C97_names",
    "C97_values",
    "C97_expression",
    "C97_merged_refuted",
    "C97_regexp_refuted"
   ],
   "note": ""
  },
  {
   "property": "C98",
   "status": "proved",
   "theorems": [
    "C98_held",
    "C98_moment",
    "C98_every_moment",
    "C98_outcome",
    "C98_late",
    "C98_failed",
    "C98_finders",
    "C98_in_force",
    "C98_refused",
    "C98_stuck",
    "C98_again",
    "C98_retry",
    "C98_repeat_refuted",
    "C98_misplaced_refuted"
   ],
   "note": ""
  },
  {
   "property": "C99",
   "status": "proved",
   "theorems": [
    "C99_policy",
    "C99_policy_refused",
    "C99_policy_iff",
    "C99_policy_only",
    "C99_root",
    "C99_policy_exceptions",
    "C99_standard_exceptions",
    "C99_document",
    "C99_document_refused",
    "C99_document_only",
    "C99_request",
    "C99_request_refused",
    "C99_response",
    "C99_response_refused",
    "C99_first_refuted",
    "C99_first_policy",
    "C99_first_child",
    "C99_first_set",
    "C99_first_member",
    "C99_first_reference",
    "C99_taken_refuted"
   ],
   "note": ""
  },
  {
   "property": "C100",
   "status": "proved",
   "theorems": [
    "C100_list",
    "C100_says",
    "C100_one_reply",
    "C100_matrix",
    "C100_roles"
   ],
   "note": ""
  },
  {
   "property": "C101",
   "status": "proved",
   "theorems": [
    "C101_answers",
    "C101_looked_up",
    "C101_asking",
    "C101_defaults_unused",
    "C101_pop_absent",
    "C101_cleared",
    "C101_contains_refuted",
    "C101_update_standard_refuted"
   ],
   "note": ""
  },
  {
   "property": "C102",
   "status": "proved",
   "theorems": [
    "C102_table",
    "C102_raises",
    "C102_nearest",
    "C102_attribute_values_refused"
   ],
   "note": ""
  },
  {
   "property": "C103",
   "status": "proved",
   "theorems": [
    "C103_grants",
    "C103_refusals",
    "C103_history",
    "C103_unchanged",
    "C103_error_refuted",
    "C103_narrowed_error_refuted",
    "C103_target_refuted"
   ],
   "note": ""
  },
  {
   "property": "C104",
   "status": "proved",
   "theorems": [
    "C104_alternatives",
    "C104_conditions",
    "C104_or",
    "C104_nested_and",
    "C104_double_not",
    "C104_target_down",
    "C104_target_joined",
    "C104_both_targets",
    "C104_equal",
    "C104_alternatives_error_refuted",
    "C104_target_down_no_rules_refuted"
   ],
   "note": ""
  },
  {
   "property": "C105",
   "status": "proved",
   "theorems": [
    "C105_constructor",
    "C105_constructor_refuses",
    "C105_loads",
    "C105_loaded",
    "C105_failed",
    "C105_call_held",
    "C105_call_first",
    "C105_never_none",
    "C105_stable",
    "C105_reload_new",
    "C105_own",
    "C105_init_all",
    "C105_init_all_stops",
    "C105_standard",
    "C105_agrees",
    "C105_one_string",
    "C105_own_family_refuted"
   ],
   "note": ""
  },
  {
   "property": "C106",
   "status": "proved",
   "theorems": [
    "C106_policy",
    "C106_set",
    "C106_twice",
    "C106_set_refuted",
    "C106_permit_overrides",
    "C106_deny_overrides",
    "C106_between",
    "C106_between_refuted",
    "C106_set_permit",
    "C106_set_deny",
    "C106_no_conflict",
    "C106_set_no_conflict"
   ],
   "note": ""
  },
  {
   "property": "C107",
   "status": "proved",
   "theorems": [
    "C107_after",
    "C107_default",
    "C107_prevails",
    "C107_permit_unless",
    "C107_deny_unless",
    "C107_covered",
    "C107_covered_later",
    "C107_overridden",
    "C107_shadowed",
    "C107_set_after",
    "C107_covered_refuted",
    "C107_covered_later_refuted"
   ],
   "note": ""
  },
  {
   "property": "C108",
   "status": "proved",
   "theorems": [
    "C108_part",
    "C108_alike",
    "C108_silent",
    "C108_request",
    "C108_error_refuted",
    "C108_some_alternatives_refuted"
   ],
   "note": ""
  },
  {
   "property": "C109",
   "status": "proved",
   "theorems": [
    "C109_included",
    "C109_same",
    "C109_bundle",
    "C109_twice_refuted",
    "C109_misaddressed_refuted"
   ],
   "note": ""
  },
  {
   "property": "C110",
   "status": "proved",
   "theorems": [
    "C110_failed",
    "C110_whole",
    "C110_session",
    "C110_evaluates",
    "C110_next",
    "C110_unhindered",
    "C110_stuck",
    "C110_left",
    "C110_left_one",
    "C110_left_exactly"
   ],
   "note": ""
  },
  {
   "property": "C111",
   "status": "proved",
   "theorems": [
    "C111_first",
    "C111_same",
    "C111_not_applicable",
    "C111_permit",
    "C111_deny",
    "C111_permit_overrides",
    "C111_apart",
    "C111_permit_refuted",
    "C111_deny_refuted"
   ],
   "note": ""
  },
  {
   "property": "C112",
   "status": "proved",
   "theorems": [
    "C112_deny",
    "C112_permit",
    "C112_not_applicable",
    "C112_same",
    "C112_set_deny",
    "C112_set_permit",
    "C112_error_refuted",
    "C112_order_refuted"
   ],
   "note": ""
  }
 ]
}