{
 "claims": [
  {
   "property": "C01",
   "status": "proved",
   "theorems": [
    "C01_use_is_inclusion"
   ],
   "note": ""
  },
  {
   "property": "C02",
   "status": "proved",
   "theorems": [
    "C02_last_value_first_position"
   ],
   "note": ""
  },
  {
   "property": "C03",
   "status": "proved",
   "theorems": [
    "C03_closure_contributes"
   ],
   "note": ""
  },
  {
   "property": "C04",
   "status": "proved",
   "theorems": [
    "C04_handled_never_written"
   ],
   "note": ""
  },
  {
   "property": "C05",
   "status": "proved",
   "theorems": [
    "C05_depth_bounded_by_sections",
    "C05_no_recursion_error"
   ],
   "note": ""
  },
  {
   "property": "C06",
   "status": "proved",
   "theorems": [
    "C06_default_to_root_never_returns",
    "C06_default_uses_root_recurses"
   ],
   "note": ""
  },
  {
   "property": "C07",
   "status": "proved",
   "theorems": [
    "C07_cycles_reported_exactly",
    "C07_base_class_is_well_behaved"
   ],
   "note": ""
  },
  {
   "property": "C08",
   "status": "proved",
   "theorems": [
    "C08_missing_target_keyerror",
    "C08_missing_section_keyerror"
   ],
   "note": ""
  },
  {
   "property": "C09",
   "status": "proved",
   "theorems": [
    "C09_default_first_then_overridden",
    "C09_no_default"
   ],
   "note": ""
  },
  {
   "property": "C10",
   "status": "proved",
   "theorems": [
    "C10_other_sections_untouched"
   ],
   "note": ""
  },
  {
   "property": "C11",
   "status": "proved",
   "theorems": [
    "C11_reparse_idempotent",
    "C11_reparse_succeeds"
   ],
   "note": ""
  },
  {
   "property": "C12",
   "status": "proved",
   "theorems": [
    "C12_answers_from_file",
    "C12_history_irrelevant",
    "C12_level_follows_assignments"
   ],
   "note": ""
  },
  {
   "property": "C13",
   "status": "proved",
   "theorems": [
    "C13_failed_parse_is_cached"
   ],
   "note": ""
  },
  {
   "property": "C14",
   "status": "proved",
   "theorems": [
    "C14_assignment",
    "C14_parsed_sections_stay",
    "C14_other_sections_follow",
    "C14_bad_assignment",
    "C14_first_assignment_refuted"
   ],
   "note": ""
  },
  {
   "property": "C15",
   "status": "proved",
   "theorems": [
    "C15_reset",
    "C15_accepted",
    "C15_bad_value"
   ],
   "note": ""
  },
  {
   "property": "C16",
   "status": "proved",
   "theorems": [
    "C16_first_access",
    "C16_sticky",
    "C16_missing_file",
    "C16_partial_data"
   ],
   "note": ""
  },
  {
   "property": "C17",
   "status": "proved",
   "theorems": [
    "C17_dispatch",
    "C17_which_handlers"
   ],
   "note": ""
  },
  {
   "property": "C18",
   "status": "proved",
   "theorems": [
    "C18_listed",
    "C18_listed_iff_handled",
    "C18_listed_iff_not_stored",
    "C18_every_attribute_refuted",
    "C18_hooks_not_listed",
    "C18_returned",
    "C18_available",
    "C18_operation_words",
    "C18_operation_characters"
   ],
   "note": ""
  },
  {
   "property": "C19",
   "status": "proved",
   "theorems": [
    "C19_return_codes",
    "C19_successful_parse_codes"
   ],
   "note": ""
  },
  {
   "property": "C20",
   "status": "proved",
   "theorems": [
    "C20_handlers_in_order",
    "C20_initialize_first_finalize_last"
   ],
   "note": ""
  },
  {
   "property": "C21",
   "status": "proved",
   "theorems": [
    "C21_event_raises_iff_threshold",
    "C21_event_monotone_in_level",
    "C21_event_unknown_type",
    "C21_event_not_an_exception",
    "C21_instance_below_threshold_raises"
   ],
   "note": ""
  },
  {
   "property": "C22",
   "status": "proved",
   "theorems": [
    "C22_suppressed_output",
    "C22_raise_prints_nothing"
   ],
   "note": ""
  },
  {
   "property": "C23",
   "status": "proved",
   "theorems": [
    "C23_level_is_last_assignment_clamped",
    "C23_level_in_range",
    "C23_debug_level_is_last_assignment"
   ],
   "note": ""
  },
  {
   "property": "C24",
   "status": "proved",
   "theorems": [
    "C24_typed_property_refines",
    "C24_failed_assignment_changes_nothing",
    "C24_assigned_value_is_read_back"
   ],
   "note": ""
  },
  {
   "property": "C25",
   "status": "proved",
   "theorems": [
    "C25_unbound_iff_never_assigned"
   ],
   "note": ""
  },
  {
   "property": "C26",
   "status": "proved",
   "theorems": [
    "C26_log_structure",
    "C26_log_of_any_parse"
   ],
   "note": ""
  },
  {
   "property": "C27",
   "status": "proved",
   "theorems": [
    "C27_grammar",
    "C27_unique_reading",
    "C27_error",
    "C27_round_trip",
    "C27_unquoted",
    "C27_trailing_backslash",
    "C27_unclosed_quote",
    "C27_never_empty"
   ],
   "note": ""
  },
  {
   "property": "C28",
   "status": "proved",
   "theorems": [
    "C28_assert_section_exact",
    "C28_assert_section_any_history"
   ],
   "note": ""
  },
  {
   "property": "C29",
   "status": "proved",
   "theorems": [
    "C29_assert_file_exact"
   ],
   "note": ""
  },
  {
   "property": "C30",
   "status": "proved",
   "theorems": [
    "C30_unroll_lists_expansion",
    "C30_unknown_section",
    "C30_base_class_parser",
    "C30_base_class_parser_ignores_object"
   ],
   "note": ""
  },
  {
   "property": "C31",
   "status": "proved",
   "theorems": [
    "C31_level_restored_on_success_only"
   ],
   "note": ""
  },
  {
   "property": "C32",
   "status": "proved",
   "theorems": [
    "C32_round_trip",
    "C32_base_class_parser",
    "C32_text_reads",
    "C32_missing_value_refuted",
    "C32_second_line_refuted",
    "C32_quoted_blanks_refuted",
    "C32_percent_refuted",
    "C32_delimiter_refuted"
   ],
   "note": ""
  },
  {
   "property": "C33",
   "status": "proved",
   "theorems": [
    "C33_lines",
    "C33_later_files_override",
    "C33_each_file_alone",
    "C33_first_error",
    "C33_duplicate_section",
    "C33_duplicate_option"
   ],
   "note": ""
  },
  {
   "property": "C34",
   "status": "proved",
   "theorems": [
    "C34_stored_value",
    "C34_blanks",
    "C34_strip",
    "C34_normalisation",
    "C34_interpolation",
    "C34_interpolation_unique",
    "C34_plain_text",
    "C34_percent_round_trip",
    "C34_interpolation_error",
    "C34_interpolation_errors",
    "C34_section",
    "C34_section_present",
    "C34_scope"
   ],
   "note": ""
  },
  {
   "property": "C35",
   "status": "proved",
   "theorems": [
    "C35_sections_not_invented",
    "C35_get_has_option",
    "C35_default_section_refuted"
   ],
   "note": ""
  },
  {
   "property": "C36",
   "status": "proved",
   "theorems": [
    "C36_set_changes_one_option",
    "C36_set_then_read",
    "C36_set_new_section",
    "C36_add_section",
    "C36_has_section_no_parse",
    "C36_get_after_set_refuted"
   ],
   "note": ""
  },
  {
   "property": "C37",
   "status": "proved",
   "theorems": [
    "C37_debug_message",
    "C37_prefix_is_decimal"
   ],
   "note": ""
  },
  {
   "property": "C38",
   "status": "proved",
   "theorems": [
    "C38_argument_checks",
    "C38_last_result"
   ],
   "note": ""
  },
  {
   "property": "C39",
   "status": "proved",
   "theorems": [
    "C39_malformed_option_raises",
    "C39_clean_means_no_defect"
   ],
   "note": ""
  },
  {
   "property": "C40",
   "status": "proved",
   "theorems": [
    "C40_layout_read"
   ],
   "note": ""
  },
  {
   "property": "C41",
   "status": "proved",
   "theorems": [
    "C41_operation",
    "C41_effect_is_unique",
    "C41_errors_change_nothing"
   ],
   "note": ""
  },
  {
   "property": "C42",
   "status": "proved",
   "theorems": [
    "C42_one_expansion",
    "C42_set_stores_the_expansion",
    "C42_references_in_values_stay",
    "C42_plain_text"
   ],
   "note": ""
  },
  {
   "property": "C43",
   "status": "proved",
   "theorems": [
    "C43_add_then_remove",
    "C43_undo_refuted"
   ],
   "note": ""
  },
  {
   "property": "C44",
   "status": "proved",
   "theorems": [
    "C44_never_empty",
    "C44_empty_value_refused"
   ],
   "note": ""
  },
  {
   "property": "C45",
   "status": "proved",
   "theorems": [
    "C45_recorded_actions",
    "C45_actions_are_determined",
    "C45_failure_records_nothing",
    "C45_remove_one_module_refuted"
   ],
   "note": ""
  },
  {
   "property": "C46",
   "status": "proved",
   "theorems": [
    "C46_apply_in_order",
    "C46_outcome_is_determined",
    "C46_nothing_to_apply",
    "C46_atomic_refuted"
   ],
   "note": ""
  },
  {
   "property": "C47",
   "status": "proved",
   "theorems": [
    "C47_plain_text_arrives",
    "C47_values_arrive_refuted",
    "C47_only_documented_commands_refuted"
   ],
   "note": ""
  },
  {
   "property": "C48",
   "status": "proved",
   "theorems": [
    "C48_success_means_done",
    "C48_failure_reported_refuted"
   ],
   "note": ""
  },
  {
   "property": "C49",
   "status": "proved",
   "theorems": [
    "C49_script_of_recorded_actions",
    "C49_script_of_section",
    "C49_lines_are_determined"
   ],
   "note": ""
  },
  {
   "property": "C50",
   "status": "proved",
   "theorems": [
    "C50_script_stays",
    "C50_script_agrees_with_apply_refuted"
   ],
   "note": ""
  },
  {
   "property": "C51",
   "status": "proved",
   "theorems": [
    "C51_lists_one",
    "C51_values_are_listed",
    "C51_returned_values_acceptable",
    "C51_one_per_line",
    "C51_missing_key",
    "C51_from_file",
    "C51_one_value_per_line_refuted",
    "C51_values_not_empty_refuted"
   ],
   "note": ""
  },
  {
   "property": "C52",
   "status": "proved",
   "theorems": [
    "C52_last_key_listing_value",
    "C52_checks_every_key"
   ],
   "note": ""
  },
  {
   "property": "C53",
   "status": "proved",
   "theorems": [
    "C53_selected_options",
    "C53_only_named_options_matter",
    "C53_shared_option_exits",
    "C53_default_options",
    "C53_untyped_flag",
    "C53_empty_flag"
   ],
   "note": ""
  },
  {
   "property": "C54",
   "status": "proved",
   "theorems": [
    "C54_canonical_name",
    "C54_any_options_refuted"
   ],
   "note": ""
  },
  {
   "property": "C55",
   "status": "proved",
   "theorems": [
    "C55_reads_follow_build_name"
   ],
   "note": ""
  },
  {
   "property": "C56",
   "status": "proved",
   "theorems": [
    "C56_system",
    "C56_again",
    "C56_key_of_file",
    "C56_after_exit",
    "C56_exit_again_refuted",
    "C56_anchored_key_refuted",
    "C56_system_in_build_name_refuted"
   ],
   "note": ""
  },
  {
   "property": "C57",
   "status": "proved",
   "theorems": [
    "C57_environment",
    "C57_aliases_unique",
    "C57_words",
    "C57_again",
    "C57_only_the_name_refuted"
   ],
   "note": ""
  },
  {
   "property": "C58",
   "status": "proved",
   "theorems": [
    "C58_reads_follow_build_name",
    "C58_parsed_name",
    "C58_stripped_name",
    "C58_stripped_refuted"
   ],
   "note": ""
  },
  {
   "property": "C59",
   "status": "proved",
   "theorems": [
    "C59_validation",
    "C59_reads_independent",
    "C59_no_flags_unless_valid",
    "C59_complete_config",
    "C59_flags_of_config",
    "C59_listed_configs",
    "C59_failed_validation_restores_refuted",
    "C59_listed_for_other_system_refuted"
   ],
   "note": ""
  },
  {
   "property": "C60",
   "status": "proved",
   "theorems": [
    "C60_canonical_name_is_fixed",
    "C60_overlapping_names_refuted"
   ],
   "note": ""
  },
  {
   "property": "C61",
   "status": "proved",
   "theorems": [
    "C61_script_does_what_apply_does",
    "C61_script_stops_where_apply_stops",
    "C61_module_failure_stops_script_refuted",
    "C61_unset_reference_refuted",
    "C61_every_variable_refuted",
    "C61_empty_value_refuted",
    "C61_module_words_refuted"
   ],
   "note": ""
  },
  {
   "property": "C62",
   "status": "proved",
   "theorems": [
    "C62_bash_remove_path_entry",
    "C62_value_is_determined",
    "C62_same_entries_between_colons",
    "C62_same_as_apply_refuted",
    "C62_entry_removed_refuted",
    "C62_other_entries_stay_refuted",
    "C62_unset_stays_unset_refuted"
   ],
   "note": ""
  },
  {
   "property": "C63",
   "status": "proved",
   "theorems": [
    "C63_bash_remove_substr",
    "C63_unset_stays_unset_refuted",
    "C63_hash_removed_refuted",
    "C63_words_stay_refuted"
   ],
   "note": ""
  },
  {
   "property": "C64",
   "status": "proved",
   "theorems": [
    "C64_python_script",
    "C64_script_does_what_apply_does",
    "C64_module_failure_stops_script_refuted",
    "C64_same_place_of_failure_refuted"
   ],
   "note": ""
  },
  {
   "property": "C65",
   "status": "proved",
   "theorems": [
    "C65_zero_means_done",
    "C65_changes_only_after_success",
    "C65_failure",
    "C65_not_found",
    "C65_error_text",
    "C65_exit_code",
    "C65_command_line",
    "C65_one_argument_or_many",
    "C65_load_action",
    "C65_failure_changes_nothing_refuted",
    "C65_status_false_is_failure_refuted"
   ],
   "note": ""
  },
  {
   "property": "C66",
   "status": "proved",
   "theorems": [
    "C66_zero_iff",
    "C66_results",
    "C66_unload_means_unloaded_refuted"
   ],
   "note": ""
  },
  {
   "property": "C67",
   "status": "proved",
   "theorems": [
    "C67_success",
    "C67_gets_to_the_end",
    "C67_invalid_file",
    "C67_unreadable_file",
    "C67_files",
    "C67_script",
    "C67_invalid_file_never_applied_refuted",
    "C67_old_script_kept_refuted"
   ],
   "note": ""
  },
  {
   "property": "C68",
   "status": "proved",
   "theorems": [
    "C68_fragment_written_iff",
    "C68_fragment_contents",
    "C68_fragment_kept_on_failure",
    "C68_refused",
    "C68_fragment_written_once",
    "C68_arguments_written_iff",
    "C68_arguments_contents",
    "C68_location_kept_on_failure",
    "C68_empty_file_left",
    "C68_cmake_words",
    "C68_saved_arguments",
    "C68_saved_words",
    "C68_files",
    "C68_empty_answer_is_unclear_refuted",
    "C68_failure_leaves_no_file_refuted",
    "C68_cmake_gets_the_options_refuted",
    "C68_saved_arguments_split_refuted"
   ],
   "note": ""
  },
  {
   "property": "C69",
   "status": "proved",
   "theorems": [
    "C69_file_read",
    "C69_load_env_section_required",
    "C69_load_env_completed",
    "C69_load_env_files",
    "C69_gen_config_sections_required",
    "C69_gen_config_completed",
    "C69_gen_config_stable",
    "C69_gen_config_files",
    "C69_relative_path_refuted",
    "C69_overrides_suffice_refuted"
   ],
   "note": ""
  },
  {
   "property": "C70",
   "status": "proved",
   "theorems": [
    "C70_refused",
    "C70_needs_python",
    "C70_help",
    "C70_not_loaded",
    "C70_current_shell",
    "C70_new_shell",
    "C70_environment",
    "C70_user_file_kept_refuted",
    "C70_named_file_kept_refuted",
    "C70_nothing_left_behind_refuted",
    "C70_user_names_kept_refuted",
    "C70_no_new_variables_refuted",
    "C70_only_with_option_refuted",
    "C70_arguments_arrive_refuted",
    "C70_loaded_or_reported_refuted",
    "C70_script_executed_refuted"
   ],
   "note": ""
  },
  {
   "property": "C71",
   "status": "proved",
   "theorems": [
    "C71_needs_source",
    "C71_generation_fails",
    "C71_saving_fails",
    "C71_loading_fails",
    "C71_configures",
    "C71_new_shell",
    "C71_fragment",
    "C71_build_configured",
    "C71_unknown_build_reported_refuted",
    "C71_failed_environment_reported_refuted",
    "C71_user_names_kept_refuted",
    "C71_fragment_only_refuted"
   ],
   "note": ""
  },
  {
   "property": "C72",
   "status": "proved",
   "theorems": [
    "C72_accepts_iff",
    "C72_settings",
    "C72_result",
    "C72_help",
    "C72_in_front",
    "C72_programs",
    "C72_script_line",
    "C72_saved_line",
    "C72_saving_line",
    "C72_script_sees_ci_mode_refuted",
    "C72_script_sees_fragment_refuted",
    "C72_script_sees_help_refuted",
    "C72_every_saved_line_refuted",
    "C72_every_saving_line_refuted",
    "C72_order_of_options_refuted"
   ],
   "note": ""
  },
  {
   "property": "C73",
   "status": "proved",
   "theorems": [
    "C73_load_env",
    "C73_load_env_rejects",
    "C73_load_env_top",
    "C73_gen_config",
    "C73_gen_config_rejects",
    "C73_gen_config_top",
    "C73_environment",
    "C73_environment_loaded",
    "C73_environment_invalid",
    "C73_environment_rejected",
    "C73_build_configured",
    "C73_help_refuted",
    "C73_lists_succeed_refuted"
   ],
   "note": ""
  },
  {
   "property": "C74",
   "status": "proved",
   "theorems": [
    "C74_lines",
    "C74_box",
    "C74_list",
    "C74_items_shown",
    "C74_broken_items_refuted",
    "C74_white_space_refuted",
    "C74_kind_refuted"
   ],
   "note": ""
  },
  {
   "property": "C75",
   "status": "proved",
   "theorems": [
    "C75_environments",
    "C75_no_system",
    "C75_alias_twice",
    "C75_flags",
    "C75_configurations",
    "C75_configurations_no_system",
    "C75_listed_values"
   ],
   "note": ""
  },
  {
   "property": "C76",
   "status": "proved",
   "theorems": [
    "C76_printed_is_applied",
    "C76_nothing_to_print",
    "C76_text_is_determined",
    "C76_text_settles_effect",
    "C76_missing_value_refuted",
    "C76_blank_in_module_refuted",
    "C76_documented_spelling_refuted"
   ],
   "note": ""
  },
  {
   "property": "C77",
   "status": "proved",
   "theorems": [
    "C77_variables",
    "C77_values_hidden",
    "C77_others_hidden",
    "C77_everything_shown",
    "C77_no_filter",
    "C77_line_feed_refuted"
   ],
   "note": ""
  },
  {
   "property": "C78",
   "status": "proved",
   "theorems": [
    "C78_section_report",
    "C78_file_report",
    "C78_report_tells"
   ],
   "note": ""
  },
  {
   "property": "C79",
   "status": "proved",
   "theorems": [
    "C79_default_section",
    "C79_once_refuted"
   ],
   "note": ""
  },
  {
   "property": "C80",
   "status": "proved",
   "theorems": [
    "C80_only_reached_sections",
    "C80_expansion",
    "C80_environment"
   ],
   "note": ""
  },
  {
   "property": "C81",
   "status": "proved",
   "theorems": [
    "C81_use_is_pasting",
    "C81_parse",
    "C81_environment",
    "C81_environment_class",
    "C81_on_cycle_refuted"
   ],
   "note": ""
  },
  {
   "property": "C82",
   "status": "proved",
   "theorems": [
    "C82_at_most",
    "C82_exponential"
   ],
   "note": ""
  },
  {
   "property": "C83",
   "status": "proved",
   "theorems": [
    "C83_debug_level",
    "C83_debug_calls"
   ],
   "note": ""
  },
  {
   "property": "C84",
   "status": "proved",
   "theorems": [
    "C84_lenient",
    "C84_strict"
   ],
   "note": ""
  },
  {
   "property": "C85",
   "status": "proved",
   "theorems": [
    "C85_operations",
    "C85_apply",
    "C85_any_order_refuted"
   ],
   "note": ""
  },
  {
   "property": "C86",
   "status": "proved",
   "theorems": [
    "C86_apply_twice",
    "C86_twice_refuted"
   ],
   "note": ""
  },
  {
   "property": "C87",
   "status": "proved",
   "theorems": [
    "C87_environment",
    "C87_stripped",
    "C87_configuration",
    "C87_known_words",
    "C87_dotted_name_refuted",
    "C87_underscore_refuted",
    "C87_unknown_word_refuted"
   ],
   "note": ""
  },
  {
   "property": "C88",
   "status": "proved",
   "theorems": [
    "C88_tables",
    "C88_tables_unique",
    "C88_flags",
    "C88_environment",
    "C88_system",
    "C88_load_env",
    "C88_gen_config",
    "C88_unparsable_refuted",
    "C88_missing_file_refuted"
   ],
   "note": ""
  },
  {
   "property": "C89",
   "status": "proved",
   "theorems": [
    "C89_default_unchanged",
    "C89_default_is_fresh",
    "C89_factory_is_fresh",
    "C89_own_value",
    "C89_default_not_shared",
    "C89_list_is_copied",
    "C89_nested_list_refuted",
    "C89_assigned_list_refuted"
   ],
   "note": ""
  },
  {
   "property": "C90",
   "status": "proved",
   "theorems": [
    "C90_same_outcomes_options",
    "C90_same_outcomes_load",
    "C90_same_outcomes_gen",
    "C90_values",
    "C90_flag_type",
    "C90_options_twice",
    "C90_two_options_of_a_flag",
    "C90_two_systems",
    "C90_unknown_system",
    "C90_other_system",
    "C90_aliases_twice",
    "C90_no_environment",
    "C90_complete_config",
    "C90_sections",
    "C90_section_with_two_options",
    "C90_corrected",
    "C90_corrected_names_distinct_refuted"
   ],
   "note": ""
  },
  {
   "property": "C91",
   "status": "proved",
   "theorems": [
    "C91_layout",
    "C91_line_ends",
    "C91_answers",
    "C91_inline_comment_refuted",
    "C91_blank_line_refuted",
    "C91_indented_option_refuted"
   ],
   "note": ""
  },
  {
   "property": "C92",
   "status": "proved",
   "theorems": [
    "C92_load_env",
    "C92_environment",
    "C92_environment_loaded",
    "C92_environment_invalid",
    "C92_environment_rejected",
    "C92_gen_config",
    "C92_build_configured",
    "C92_load_env_unreadable",
    "C92_gen_config_unreadable",
    "C92_load_env_layout",
    "C92_gen_config_layout"
   ],
   "note": ""
  },
  {
   "property": "C93",
   "status": "proved",
   "theorems": [
    "C93_split",
    "C93_split_access",
    "C93_join",
    "C93_moved",
    "C93_answers",
    "C93_parse",
    "C93_cut_anywhere_refuted",
    "C93_indented_header_refuted",
    "C93_common_section_refuted",
    "C93_default_order_refuted"
   ],
   "note": ""
  },
  {
   "property": "C94",
   "status": "proved",
   "theorems": [
    "C94_same_run",
    "C94_parse",
    "C94_get",
    "C94_has_option",
    "C94_getitem",
    "C94_options",
    "C94_no_file",
    "C94_getitem_names_missing_refuted"
   ],
   "note": ""
  },
  {
   "property": "C95",
   "status": "proved",
   "theorems": [
    "C95_expansion",
    "C95_parse",
    "C95_answers",
    "C95_parsable",
    "C95_environment",
    "C95_parse_any_handlers_refuted"
   ],
   "note": ""
  },
  {
   "property": "C96",
   "status": "proved",
   "theorems": [
    "C96_no_shared_dicts",
    "C96_given_dict",
    "C96_same_dict",
    "C96_old_dicts",
    "C96_new_delimiters",
    "C96_present_view",
    "C96_parse",
    "C96_programs_that_read",
    "C96_old_view",
    "C96_old_view_has",
    "C96_every_view_finds_refuted"
   ],
   "note": ""
  },
  {
   "property": "C97",
   "status": "proved",
   "theorems": [
    "C97_reads",
    "C97_parses",
    "C97_options",
    "C97_no_rank_refuted"
   ],
   "note": ""
  },
  {
   "property": "C98",
   "status": "proved",
   "theorems": [
    "C98_reads",
    "C98_parses",
    "C98_history"
   ],
   "note": ""
  },
  {
   "property": "C99",
   "status": "proved",
   "theorems": [
    "C99_reads",
    "C99_handlers",
    "C99_final_refuted"
   ],
   "note": ""
  },
  {
   "property": "C100",
   "status": "proved",
   "theorems": [
    "C100_answers"
   ],
   "note": ""
  },
  {
   "property": "C101",
   "status": "proved",
   "theorems": [
    "C101_reads",
    "C101_parses"
   ],
   "note": ""
  },
  {
   "property": "C102",
   "status": "proved",
   "theorems": [
    "C102_answers_last",
    "C102_reading_handlers",
    "C102_same_refuted"
   ],
   "note": ""
  }
 ]
}