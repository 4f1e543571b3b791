{
 "claims": [
  {
   "property": "C01",
   "status": "proved",
   "theorems": [
    "C01_strongest_layer_wins",
    "C01_C02_whole_run"
   ],
   "note": "The second theorem is about whole runs of the configuration stage."
  },
  {
   "property": "C02",
   "status": "proved",
   "theorems": [
    "C02_accumulation",
    "C02_nothing_superseded",
    "C01_C02_whole_run"
   ],
   "note": ""
  },
  {
   "property": "C03",
   "status": "proved",
   "theorems": [
    "C03_resolution_keeps_meaning",
    "C03_other_arguments_survive"
   ],
   "note": "pylint is modelled as a left-to-right interpreter over an arbitrary message type and arbitrary other settings."
  },
  {
   "property": "C04",
   "status": "partial",
   "theorems": [
    "C04_verbatim_refuted",
    "C04_lowercase_verbatim_partial",
    "C04_lowercased_partial"
   ],
   "note": "The property is false: surviving arguments are lower-cased. True for lists without upper-case letters."
  },
  {
   "property": "C05",
   "status": "partial",
   "theorems": [
    "C05_companions_refuted",
    "C05_reset_refuted",
    "C05_companions_partial"
   ],
   "note": "The property is false: grouping ignores the order of options and cannot tell a default that was written from one that was not. Proved for in-file comments that set no group and no option to its default, with pylint arguments beginning like a message switch being one."
  },
  {
   "property": "C06",
   "status": "proved",
   "theorems": [
    "C06_covered_once",
    "C06_grouping"
   ],
   "note": "Directory contents are a tree given to the model; links are not modelled. Groups whose config file cannot be loaded are the subject of C66."
  },
  {
   "property": "C07",
   "status": "partial",
   "theorems": [
    "C07_leak_refuted",
    "C07_command_line_config_partial",
    "C07_options_partial"
   ],
   "note": "The property is false: the memo of language files stores merged translations. Proved when the command line names the config file; the options themselves never leak."
  },
  {
   "property": "C08",
   "status": "proved",
   "theorems": [
    "C08_inheritance_prepends"
   ],
   "note": "Stated for every loaded config file; whole runs in C01_C02_whole_run."
  },
  {
   "property": "C09",
   "status": "partial",
   "theorems": [
    "C09_termination_refuted",
    "C09_acyclic_partial"
   ],
   "note": "The property is false: a config file naming itself recurses until Python's limit. Proved for references that end."
  },
  {
   "property": "C10",
   "status": "proved",
   "theorems": [
    "C10_entry",
    "C10_table",
    "C10_parsed"
   ],
   "note": ""
  },
  {
   "property": "C11",
   "status": "partial",
   "theorems": [
    "C11_no_flake8_refuted",
    "C11_settable_partial"
   ],
   "note": "The property is false for no-flake8 and proved for the other options except config-file and language-file, which are resolved as paths."
  },
  {
   "property": "C12",
   "status": "partial",
   "theorems": [
    "C12_implicit_refuted",
    "C12_never_found"
   ],
   "note": "The property is false: a name is compared with a tuple of names, so no implicit file is ever found."
  },
  {
   "property": "C13",
   "status": "proved",
   "theorems": [
    "C13_exclusion_total"
   ],
   "note": ""
  },
  {
   "property": "C14",
   "status": "proved",
   "theorems": [
    "C14_value_after_first_equals",
    "C14_flag",
    "C14_nothing_else",
    "C14_independent"
   ],
   "note": ""
  },
  {
   "property": "C15",
   "status": "proved",
   "theorems": [
    "C15_resolution_stable",
    "C15_meaning"
   ],
   "note": "For an absolute working directory."
  },
  {
   "property": "C16",
   "status": "proved",
   "theorems": [
    "C16_overriding_exact"
   ],
   "note": "For any table."
  },
  {
   "property": "C17",
   "status": "proved",
   "theorems": [
    "C17_line_never_silenced",
    "C17_any_ranked_table",
    "C17_overridden_line_reported"
   ],
   "note": ""
  },
  {
   "property": "C18",
   "status": "proved",
   "theorems": [
    "C18_only_thinned"
   ],
   "note": "For any tweakers; what the tweakers in use decide is C68."
  },
  {
   "property": "C19",
   "status": "proved",
   "theorems": [
    "C19_ordered"
   ],
   "note": "Paths of the command line and of configuration files are recognised by their text, see C67."
  },
  {
   "property": "C20",
   "status": "partial",
   "theorems": [
    "C20_sort_fails_refuted",
    "C20_sort_fails_pylint_refuted",
    "C20_exact_partial",
    "C20_sort_succeeds_partial"
   ],
   "note": "The property is false: 'a/../b.py' (flake8) and 'a.py' checked from '/' (pylint) make sorting fail. Proved for arguments without '..' and a working directory other than the root."
  },
  {
   "property": "C21",
   "status": "proved",
   "theorems": [
    "C21_pylint_path",
    "C21_flake8_path",
    "C21_pylint_total"
   ],
   "note": "For an absolute working directory; links are not modelled."
  },
  {
   "property": "C22",
   "status": "proved",
   "theorems": [
    "C22_flake8_failure",
    "C22_pylint_failure",
    "C22_flake8_regular",
    "C22_pylint_regular",
    "C22_run_fails"
   ],
   "note": "The linters and JSON parsing are arbitrary functions."
  },
  {
   "property": "C23",
   "status": "partial",
   "theorems": [
    "C23_streams_refuted",
    "C23_streams_partial"
   ],
   "note": "The property is false: an exception other than SystemExit leaves the streams replaced. Proved if the linters only return or exit."
  },
  {
   "property": "C24",
   "status": "proved",
   "theorems": [
    "C24_translated",
    "C24_flake8_messages"
   ],
   "note": "For messages without '%%' and without line ends; 'cannot be confused' means a single snippet or only one way of taking the message apart. Conversions and format specifications in templates are not modelled."
  },
  {
   "property": "C25",
   "status": "partial",
   "theorems": [
    "C25_status_refuted",
    "C25_missing_file",
    "C25_linter_failed_partial",
    "C25_completed_partial"
   ],
   "note": "The property is false: an unexpected exception is logged and the status is 0. Proved when no unexpected exception occurs."
  },
  {
   "property": "C26",
   "status": "proved",
   "theorems": [
    "C26_report"
   ],
   "note": "The textual report."
  },
  {
   "property": "C27",
   "status": "proved",
   "theorems": [
    "C27_fresh"
   ],
   "note": "Whenever the last successful answer was stored completely, whatever happened before; file names (SHA-256) are assumed to differ for the addresses in use. Sequential requests."
  },
  {
   "property": "C28",
   "status": "partial",
   "theorems": [
    "C28_torn_refuted",
    "C28_failed_write_refuted",
    "C28_beginnings_partial"
   ],
   "note": "The property is false: a crash or failed write leaves a cut text with old metadata. Proved: only beginnings of texts sent for that address are served."
  },
  {
   "property": "C29",
   "status": "partial",
   "theorems": [
    "C29_limit_refuted",
    "C29_expired_refuted"
   ],
   "note": "The property is false: the limit is 500*24*60 seconds, about 8.3 days."
  },
  {
   "property": "C30",
   "status": "proved",
   "theorems": [
    "C30_rate"
   ],
   "note": "Sequential checks; attempts are counted by the time recorded before asking."
  },
  {
   "property": "C31",
   "status": "partial",
   "theorems": [
    "C31_unreachable_refuted",
    "C31_older_refuted",
    "C31_current_partial",
    "C31_newer_partial"
   ],
   "note": "The property is false: texts are compared for inequality, also with None. Proved when the index is asked and answers."
  },
  {
   "property": "C32",
   "status": "partial",
   "theorems": [
    "C32_downloaded_refuted",
    "C32_never_used"
   ],
   "note": "The property is false: the distributed file is opened instead of the downloaded one."
  },
  {
   "property": "C33",
   "status": "proved",
   "theorems": [
    "C33_group_suggestion_equivalent",
    "C33_whole_condition_equivalent",
    "C33_groups_exact",
    "C33_groups_cover",
    "C33_no_crash"
   ],
   "note": "Integer constants and values. The excluded texts are the subject of C34."
  },
  {
   "property": "C34",
   "status": "partial",
   "theorems": [
    "C34_abs_text_refuted"
   ],
   "note": "The property is false: texts such as 'abs(x) - 5' start with 'abs(' without being an abs call."
  },
  {
   "property": "C35",
   "status": "partial",
   "theorems": [
    "C35_ints_partial",
    "C35_guard_refuted",
    "C35_brackets_refuted",
    "C35_sets_refuted",
    "C35_maxima_refuted",
    "C35_iterable_refuted"
   ],
   "note": "The property is false: a guard is no longer evaluated first, operands lose their parentheses, sets are not ordered totally, and max(...) is cut out of longer operands; proved for integer operands that need no parentheses."
  },
  {
   "property": "C36",
   "status": "partial",
   "theorems": [
    "C36_balanced_partial",
    "C36_refuted"
   ],
   "note": "The property is false for max(a, b) + c; proved if operands that start with max( or min( are calls."
  },
  {
   "property": "C37",
   "status": "partial",
   "theorems": [
    "C37_ints_partial",
    "C37_float_refuted"
   ],
   "note": "The property is false for floats; proved for integers (the dividends), for any modulus and any number of comparisons."
  },
  {
   "property": "C38",
   "status": "partial",
   "theorems": [
    "C38_ints_partial",
    "C38_compare_partial",
    "C38_guard_refuted",
    "C38_floor_refuted",
    "C38_decimal_refuted",
    "C38_nan_refuted"
   ],
   "note": "The property is false when a removed operand guards another one, for integer division by a negative constant, for decimals and for nan; proved for states in which every number of the condition is an integer, for every sound solver."
  },
  {
   "property": "C39",
   "status": "partial",
   "theorems": [
    "C39_ints_partial",
    "C39_followed_partial",
    "C39_guard_refuted",
    "C39_negated_refuted"
   ],
   "note": "The property is false when an earlier branch guards a division in a later test, and where C52 is false; proved for states in which every number of the tests is an integer, for every sound solver. Bodies are represented by the positions of the branches."
  },
  {
   "property": "C40",
   "status": "partial",
   "theorems": [
    "C40_ints_partial",
    "C40_guard_refuted"
   ],
   "note": "The property is false when a condition divides by a number that an earlier condition excludes: in sequence it raises an exception, merged it does not. Proved for states in which every number of the conditions is an integer, for every sound solver; the analysis of modifications and of assignments is assumed to be right."
  },
  {
   "property": "C41",
   "status": "partial",
   "theorems": [
    "C41_return_truth_partial",
    "C41_assign_truth_partial",
    "C41_expression_truth_partial",
    "C41_conditional_value_refuted",
    "C41_augmented_assignment_refuted",
    "node_text_read_back",
    "text_read_one_way"
   ],
   "note": "The property is false for augmented assignments and for conditional expressions joined with and/or, whose text is read differently; proved for others. Expressions are names, literals, operators, comparisons, calls, attributes, subscripts and conditional expressions."
  },
  {
   "property": "C42",
   "status": "partial",
   "theorems": [
    "C42_value_refuted",
    "C42_return_value_partial",
    "C42_assign_value_partial",
    "C42_expression_value_partial"
   ],
   "note": "The property is false for conditions that do not give a bool; proved if the condition gives a bool or the suggestion negates."
  },
  {
   "property": "C43",
   "status": "partial",
   "theorems": [
    "C43_pass_same",
    "C43_nested_same_partial",
    "C43_sequential_same_partial",
    "C43_nested_refuted",
    "C43_sequential_refuted"
   ],
   "note": "The property is false for conditions that are conditional expressions; proved for others."
  },
  {
   "property": "C44",
   "status": "partial",
   "theorems": [
    "C44_members_partial",
    "C44_unbracketed_refuted",
    "C44_float_refuted"
   ],
   "note": "The property is false for bounds that are conditions (no brackets) and for floats guessed to be integers; proved for integer operands without effects and integer bounds."
  },
  {
   "property": "C45",
   "status": "partial",
   "theorems": [
    "C45_twice_refuted",
    "C45_pure_partial"
   ],
   "note": "The property is false for calls, which are evaluated twice; proved for operands without effects."
  },
  {
   "property": "C46",
   "status": "proved",
   "theorems": [
    "C46_reported",
    "C46_exact"
   ],
   "note": ""
  },
  {
   "property": "C47",
   "status": "partial",
   "theorems": [
    "C47_refuted",
    "C47_first_partial",
    "C47_right_partial",
    "C47_ends"
   ],
   "note": "The property is false for a + a + b; proved for chains whose first operand is not a chain."
  },
  {
   "property": "C48",
   "status": "partial",
   "theorems": [
    "C48_minus_refuted",
    "C48_quote_refuted",
    "C48_value_partial"
   ],
   "note": "The property is false for ord(c) - 96 and for quotes and backslashes; proved for the other constants."
  },
  {
   "property": "C49",
   "status": "partial",
   "theorems": [
    "C49_neighbour_refuted",
    "C49_first_partial",
    "C49_last_partial"
   ],
   "note": "The property is false when the operand next to the constant is not a call of ord; proved when it is."
  },
  {
   "property": "C50",
   "status": "partial",
   "theorems": [
    "C50_string_refuted",
    "C50_ends_partial"
   ],
   "note": "The property is false for strings; proved when all computable operands are integers."
  },
  {
   "property": "C51",
   "status": "partial",
   "theorems": [
    "C51_effects_refuted",
    "C51_value_partial"
   ],
   "note": "The property is false for operands with effects; proved for others, without / (which gives floats)."
  },
  {
   "property": "C52",
   "status": "partial",
   "theorems": [
    "C52_chain_refuted",
    "C52_remainder_refuted",
    "C52_operand_refuted",
    "C52_nan_refuted",
    "C52_opposite_partial"
   ],
   "note": "The property is false for chained comparisons, remainders compared with other numbers than 0 and 1, negations inside operands and floats that are not numbers; proved for the other conditions without effects."
  },
  {
   "property": "C53",
   "status": "proved",
   "theorems": [
    "C53_folded"
   ],
   "note": "Provided that the operators of the program do on constants what those of the linter's interpreter do; a folded None means no value."
  },
  {
   "property": "C54",
   "status": "partial",
   "theorems": [
    "C54_power_refuted",
    "C54_ends_partial"
   ],
   "note": "The property is false for 0 ** -1; proved for expressions without powers if operators on values other than integers raise TypeError or ValueError only."
  },
  {
   "property": "C55",
   "status": "partial",
   "theorems": [
    "C55_targets_refuted",
    "C55_same_partial"
   ],
   "note": "The property is false for several targets; proved for a single name, for types without in-place operations of their own."
  },
  {
   "property": "C56",
   "status": "partial",
   "theorems": [
    "C56_negative_refuted",
    "C56_large_refuted",
    "C56_same_partial"
   ],
   "note": "The property is false for negative quotients and large numbers; proved exactly when it holds if quotients are exact."
  },
  {
   "property": "C57",
   "status": "proved",
   "theorems": [
    "C57_exact",
    "C57_postorder",
    "C57_edges",
    "C57_depth_refuted"
   ],
   "note": "The enumerations that call themselves (postorder, edges; nothing in edulint calls them) end with RecursionError for graphs deeper than the limit."
  },
  {
   "property": "C58",
   "status": "proved",
   "theorems": [
    "C58_exact"
   ],
   "note": "For every list of blocks that is closed under edges and on which edges in and out agree; ex_built shows it for a graph built by the model of the visitor."
  },
  {
   "property": "C59",
   "status": "proved",
   "theorems": [
    "C59_none",
    "C59_single",
    "C59_union",
    "C59_intersection",
    "C59_list",
    "C59_has_only",
    "C59_count",
    "C59_mutable",
    "C59_container"
   ],
   "note": ""
  },
  {
   "property": "C60",
   "status": "partial",
   "theorems": [
    "C60_or_refuted",
    "C60_times_refuted",
    "C60_builtin_refuted",
    "C60_unknown_refuted",
    "C60_sound_partial"
   ],
   "note": "The property is false for and/or, products with floats, abs and sums with unknown operands; proved for integer arithmetic, comparisons and conditional expressions over soundly guessed names and calls."
  },
  {
   "property": "C61",
   "status": "partial",
   "theorems": [
    "C61_unmerged_partial",
    "C61_merged_partial",
    "C61_variant_partial",
    "C61_node_variant_partial",
    "C61_constants_refuted",
    "C61_variant_refuted"
   ],
   "note": "The property is false for constants that are equal but not the same (1, True, 1.0) and, for get_sub_variant, for lists of different lengths; proved up to == of constants, the attributes that are compared and names merged by the analysis of scopes (an oracle), for classes of nodes of which none is a subclass of another (so not for For against AsyncFor)."
  },
  {
   "property": "C62",
   "status": "partial",
   "theorems": [
    "C62_ints_partial",
    "C62_floor_refuted",
    "C62_decimal_refuted"
   ],
   "note": "The property is false for integer division by a negative constant and for decimal numbers; proved for conditions whose numbers are integers otherwise."
  },
  {
   "property": "C63",
   "status": "partial",
   "theorems": [
    "C63_module_partial",
    "C63_functions_partial",
    "C63_finally_refuted",
    "C63_raise_refuted",
    "C63_loop_in_handler_refuted",
    "C63_class_refuted",
    "C63_match_refuted",
    "C63_suppress_refuted",
    "C63_return_refuted"
   ],
   "note": "The property is false for try statements, class bodies, match and context managers that swallow exceptions; proved for modules and functions without them, with the stronger statement that every execution is a walk through the graph."
  },
  {
   "property": "C64",
   "status": "partial",
   "theorems": [
    "C64_only_switches_dropped_refuted"
   ],
   "note": "The property is false: '--enable-all-extensions' before '--disable=all' is dropped."
  },
  {
   "property": "C65",
   "status": "partial",
   "theorems": [
    "C65_excluding_file_refuted"
   ],
   "note": "The property is false unless the command line names the config file (see C01_C02_whole_run)."
  },
  {
   "property": "C66",
   "status": "partial",
   "theorems": [
    "C66_unloadable_refuted"
   ],
   "note": "The property is false."
  },
  {
   "property": "C67",
   "status": "partial",
   "theorems": [
    "C67_named_file_refuted"
   ],
   "note": "The property is false for paths mentioning 'command line' or 'configuration file'."
  },
  {
   "property": "C68",
   "status": "proved",
   "theorems": [
    "C68_tweaks_exact",
    "C68_configs_complete"
   ],
   "note": "Message texts are instances of the linters' templates; characters are bytes."
  },
  {
   "property": "C69",
   "status": "partial",
   "theorems": [
    "C69_doubled_refuted",
    "C69_placeholder_refuted",
    "C69_reworded_refuted",
    "C69_filled_partial"
   ],
   "note": "The property is false: the patterns of F501-F509 keep '%%' and never match, and reworded messages are no longer recognised. Proved for other messages as the linter spells them."
  },
  {
   "property": "C70",
   "status": "partial",
   "theorems": [
    "C70_bad_template_refuted"
   ],
   "note": "The property is false: a placeholder too many aborts the check with status 0."
  },
  {
   "property": "C71",
   "status": "partial",
   "theorems": [
    "C71_empty_refuted",
    "C71_available_partial"
   ],
   "note": "The property is false for empty texts, proved for others (valid UTF-8)."
  },
  {
   "property": "C72",
   "status": "partial",
   "theorems": [
    "C72_asked_again_refuted",
    "C72_not_asked_partial"
   ],
   "note": "The property is false if the server did not send a text; proved after a stored non-empty answer."
  },
  {
   "property": "C73",
   "status": "partial",
   "theorems": [
    "C73_line_ends_refuted",
    "C73_unchanged_partial"
   ],
   "note": "The property is false for texts with a carriage return; proved for others."
  },
  {
   "property": "C74",
   "status": "partial",
   "theorems": [
    "C74_killed_refuted"
   ],
   "note": "The property is false: a truncated versions.json makes every later check fail."
  },
  {
   "property": "C75",
   "status": "partial",
   "theorems": [
    "C75_candidate_refuted",
    "C75_numbers_partial"
   ],
   "note": "The property is false for pre-releases; proved for (major, minor, micro)."
  },
  {
   "property": "C76",
   "status": "proved",
   "theorems": [
    "C76_rate"
   ],
   "note": ""
  },
  {
   "property": "C77",
   "status": "partial",
   "theorems": [
    "C77_explain_refuted",
    "C77_switches_partial"
   ],
   "note": "The property is false for 'explain'; proved for the other commands."
  },
  {
   "property": "C78",
   "status": "proved",
   "theorems": [
    "C78_explained",
    "C78_all"
   ],
   "note": ""
  },
  {
   "property": "C79",
   "status": "proved",
   "theorems": [
    "C79_patches"
   ],
   "note": "For any version order."
  },
  {
   "property": "C80",
   "status": "partial",
   "theorems": [
    "C80_hour_refuted"
   ],
   "note": "The property is false: the limit in use is ten minutes."
  },
  {
   "property": "C81",
   "status": "partial",
   "theorems": [
    "C81_endless_loop_refuted",
    "C81_crash_refuted",
    "C81_checks_end_partial"
   ],
   "note": "The property is false: a bare annotation loops forever, del raises AttributeError. Proved for the other statements; modelled for the checks R6201-R6210."
  },
  {
   "property": "C82",
   "status": "proved",
   "theorems": [
    "C82_ends"
   ],
   "note": "The definitions a name may refer to are given by an oracle (the data-flow analysis); there are finitely many."
  },
  {
   "property": "C83",
   "status": "partial",
   "theorems": [
    "C83_truthy_refuted",
    "C83_misread_refuted",
    "C83_bool_partial"
   ],
   "note": "The property is false for operands that are not bools, and 'not' is put before and/or without brackets; proved for bools."
  },
  {
   "property": "C84",
   "status": "partial",
   "theorems": [
    "C84_elif_partial",
    "C84_calm_partial"
   ],
   "note": "Follows from C52 where that holds."
  },
  {
   "property": "C85",
   "status": "partial",
   "theorems": [
    "C85_starred_refuted",
    "C85_append_partial",
    "C85_augmented_partial"
   ],
   "note": "The property is false for starred elements; proved for others."
  },
  {
   "property": "C86",
   "status": "partial",
   "theorems": [
    "C86_two_refuted",
    "C86_exact_partial"
   ],
   "note": "The property is false for a product of two list displays (AssertionError); proved for others."
  },
  {
   "property": "C87",
   "status": "partial",
   "theorems": [
    "C87_boolop_partial",
    "C87_compare_partial",
    "C87_sorted_partial",
    "C87_abs_refuted",
    "C87_empty_refuted"
   ],
   "note": "The property is false for abs(x % 1) and abs(); proved for conditions without powers in which abs is called with sums, differences and products of variables and numbers."
  },
  {
   "property": "C88",
   "status": "partial",
   "theorems": [
    "C88_ends_partial",
    "C88_three_partial",
    "C88_crash_refuted"
   ],
   "note": "The check ends for all chains without powers; the property is false for some chains of four branches (Z3Exception); proved for chains of up to three branches. Memory and time limits of the interpreter are not modelled."
  },
  {
   "property": "C89",
   "status": "partial",
   "theorems": [
    "C89_ends_partial"
   ],
   "note": "Proved for conditions without powers in which abs is called with plain arithmetic; the analysis of assignments is assumed not to raise an exception."
  },
  {
   "property": "C90",
   "status": "proved",
   "theorems": [
    "C90_never_fails"
   ],
   "note": "The limit on the recursion of the interpreter is not modelled."
  },
  {
   "property": "C91",
   "status": "partial",
   "theorems": [
    "C91_module_partial",
    "C91_functions_partial",
    "C91_second_iteration",
    "C91_never_raises",
    "C91_handler_refuted"
   ],
   "note": "The property is false for loops with a try statement; proved for modules and functions without try, class, match and context managers that swallow exceptions. The check raises no exception for any program."
  },
  {
   "property": "C92",
   "status": "partial",
   "theorems": [
    "C92_without_calls_partial",
    "C92_calls_partial",
    "C92_calls_refuted",
    "C92_redefines_refuted"
   ],
   "note": "The property is false with calls: a call that may assign a variable hides the definitions of earlier blocks, and its definition is said to replace ones that cannot be there. Proved exactly without calls; with calls no use is linked to a definition that cannot arrive. How events and calls are found in statements, and make_up_calls, are not modelled."
  },
  {
   "property": "C93",
   "status": "partial",
   "theorems": [
    "C93_alike_partial",
    "C93_compared_partial",
    "C93_constants_refuted",
    "C93_conversion_refuted",
    "C93_import_refuted"
   ],
   "note": "The property is false: 1 and True, f-strings that differ in the conversion only, and imports that differ in how far up they go only, are taken for the same; proved up to == of constants, attributes that are not compared and names merged by the analysis of scopes (an oracle)."
  },
  {
   "property": "C94",
   "status": "partial",
   "theorems": [
    "C94_one_to_one_partial"
   ],
   "note": "Proved for places that are at the same path in all fragments, with nodes of the same class on the way, for classes of nodes of which none is a subclass of another."
  },
  {
   "property": "C95",
   "status": "partial",
   "theorems": [
    "C95_total_partial",
    "C95_identical_partial",
    "C95_class_refuted",
    "C95_complex_refuted"
   ],
   "note": "The property is false for two classes in the same place (TypeError) and for complex numbers (AssertionError); proved for classes of nodes that can be made of the attributes that are compared. The analysis of scopes is an oracle that raises nothing; the limit on recursion is not modelled."
  },
  {
   "property": "C96",
   "status": "partial",
   "theorems": [
    "C96_after_partial",
    "C96_before_partial",
    "C96_removed_partial",
    "C96_before_refuted",
    "C96_removed_refuted",
    "C96_both_refuted"
   ],
   "note": "Moving code after the if always keeps what the program does. Moving code before it, or removing the if, does so if the code does not change the conditions and the conditions have no effect, and is false otherwise; both parts may be reported though they overlap. Statements other than if, and their texts, are not looked into: the same text is taken to do the same."
  },
  {
   "property": "C97",
   "status": "partial",
   "theorems": [
    "C97_chain_partial",
    "C97_siblings_partial",
    "C97_twice_refuted",
    "C97_else_refuted"
   ],
   "note": "Always true for branches of one chain of elifs. False for if statements one after another when the body runs twice or a later one has an else; proved for ones without else if no later condition is true after the body."
  },
  {
   "property": "C98",
   "status": "proved",
   "theorems": [
    "C98_longest",
    "C98_silent",
    "C98_total"
   ],
   "note": "The lines of each branch are assumed to be in order, as they are in parsed code."
  },
  {
   "property": "C99",
   "status": "partial",
   "theorems": [
    "C99_same_partial",
    "C99_shape_partial",
    "C99_effect_refuted"
   ],
   "note": "False if the outer condition has an effect; proved if it has none and the inner condition does not change it. The anti-unification of the branches and the numbers of tokens are left out."
  },
  {
   "property": "C100",
   "status": "partial",
   "theorems": [
    "C100_value_partial",
    "C100_made_partial",
    "C100_keyword_refuted"
   ],
   "note": "False for attributes that are no expressions, such as names of keyword arguments, which become strings; proved for nodes, names and constants. Where the expression is put, and so the order of evaluation around it, is not modelled."
  },
  {
   "property": "C101",
   "status": "partial",
   "theorems": [
    "C101_condition_partial",
    "C101_dictionary_partial",
    "C101_default_partial",
    "C101_list_partial",
    "C101_keys_partial",
    "C101_part_partial",
    "C101_overlap_refuted"
   ],
   "note": "False when two branches test for the same constant; proved for dictionaries when no two conditions hold at once, and for lists always. The check also looks at if statements one after another, for which the taken branch is not unique; those are not covered."
  },
  {
   "property": "C102",
   "status": "partial",
   "theorems": [
    "C102_constants_partial",
    "C102_expressions_partial",
    "C102_descending_refuted",
    "C102_powers_refuted",
    "C102_equal_refuted"
   ],
   "note": "False if several places vary and one descends by 1 or 2 (one or two iterations too many), for powers of a name and for constant expressions with equal values. Proved in all other cases where all places have constants, and for one place with sums and products."
  },
  {
   "property": "C103",
   "status": "partial",
   "theorems": [
    "C103_one_place_partial",
    "C103_ranges_partial",
    "C103_lists_partial",
    "C103_names_partial",
    "C103_names_refuted",
    "C103_characters_refuted",
    "C103_operators_refuted",
    "C103_remainders_refuted"
   ],
   "note": "Proved for one place with constants, for lists of constants at several places unless they are characters, and for names that the code does not change. False for characters that start differently at two places, for operators, for remainders and for names that the code changes. How the elements of a range are used at several places is shown in no message and not modelled."
  },
  {
   "property": "C104",
   "status": "partial",
   "theorems": [
    "C104_total_partial",
    "C104_equal_refuted",
    "C104_none_refuted"
   ],
   "note": "False for constant expressions with equal values beside another place, and for a loop over range(None). Proved if the values at each place are not all equal and are either no nodes or nodes of different types, as anti-unification yields them."
  },
  {
   "property": "C105",
   "status": "partial",
   "theorems": [
    "C105_loop_partial",
    "C105_text_partial",
    "C105_parentheses_refuted",
    "C105_continue_refuted",
    "C105_target_refuted"
   ],
   "note": "Proved for parts that neither end in continue nor depend on the target, in states that are the same but for the target. False with continue, if the target is used after the loop, and for bounds that need parentheses in a product. Assignments of the loop to its bound are covered as range is evaluated once."
  },
  {
   "property": "C106",
   "status": "proved",
   "theorems": [
    "C106_all",
    "C106_order"
   ],
   "note": ""
  },
  {
   "property": "C107",
   "status": "partial",
   "theorems": [
    "C107_same_partial",
    "C107_breaks_refuted",
    "C107_else_refuted"
   ],
   "note": "Proved for loops without else when nothing comes before the break, or no other break leaves the loop. False otherwise: another break would then be followed by the statements, and the else branch would run."
  },
  {
   "property": "C108",
   "status": "partial",
   "theorems": [
    "C108_first_partial",
    "C108_last_partial",
    "C108_none_partial",
    "C108_break_refuted",
    "C108_step_refuted",
    "C108_moving_refuted",
    "C108_else_refuted",
    "C108_target_refuted"
   ],
   "note": "Proved for bounds that keep their values. False for break on the first element (no iteration happens at all), for steps that do not reach stop - step, for bounds that the loop changes, and for break on the last element with an else branch. The target has another value after the loop."
  },
  {
   "property": "C109",
   "status": "partial",
   "theorems": [
    "C109_change_partial",
    "C109_range_partial",
    "C109_last_partial",
    "C109_subtraction_refuted",
    "C109_float_refuted",
    "C109_after_refuted"
   ],
   "note": "Proved for integers if every iteration adds the number that was found, and in particular if the change is the last statement. False for x = 1 - x, which is taken to subtract 1, and for steps of 1.0; without the increment the variable differs after the loop. That every path through the body has one change (event_on_every_path, a traversal of the control flow graph) is given as a flag and not modelled."
  },
  {
   "property": "C110",
   "status": "partial",
   "theorems": [
    "C110_body",
    "C110_unmodified",
    "C110_same_partial",
    "C110_modified_refuted",
    "C110_alias_refuted",
    "C110_dictionary_refuted",
    "C110_index_after_refuted",
    "C110_else_refuted"
   ],
   "note": "C110_body is proved for all parsed bodies: neither name is assigned, the element is used, and the index is needed afterwards exactly for use-enumerate; C110_unmodified: no method of lists that modifies them is called on the structure outside of blocks that end with break or return. C110_same_partial: the two loops have the same outcomes if calls and other operations of the body keep the structure as it is, up to the index and the element after the loop. False if the structure is modified in a block that ends with break or return, or under another name, for dictionaries with the keys 0, 1, ..., and if the index is used after the loop or in its else branch. Structures that are attributes or subscripts and loops with an else branch are not covered."
  },
  {
   "property": "C111",
   "status": "partial",
   "theorems": [
    "C111_enclosing_partial",
    "C111_python_partial",
    "C111_default_refuted",
    "C111_early_refuted",
    "C111_class_refuted",
    "C111_iterable_refuted",
    "C111_nonlocal_refuted",
    "C111_deleted_refuted"
   ],
   "note": "Proved where every scope around the name that mentions it means Python's variable, for modules whose declarations come first, whose declared names are not deleted, whose nonlocal names belong to the scope directly around and whose imports have no dots (Python itself demands that declarations precede uses, not that they come first). False for defaults named like a parameter, names read before a local assignment, names of a class in its methods, the first iterable of a comprehension, nonlocal names two levels up and declared names after del. Assignment expressions and modifications are not modelled."
  },
  {
   "property": "C112",
   "status": "partial",
   "theorems": [
    "C112_bindings_partial",
    "C112_block_refuted",
    "C112_import_refuted"
   ],
   "note": "Proved for all bindings but those in defaults of lambdas, in decorators and bases, the names of definitions inside blocks, and imports with dots (recorded under the whole name); the latter two are refuted."
  },
  {
   "property": "C113",
   "status": "partial",
   "theorems": [
    "C113_uses_partial",
    "C113_decorator_refuted",
    "C113_lambda_refuted"
   ],
   "note": "Proved for names never deleted in the module. False for decorators, bases and defaults of lambdas, which are never visited."
  },
  {
   "property": "C114",
   "status": "partial",
   "theorems": [
    "C114_total",
    "C114_own_refuted"
   ],
   "note": "Proved that a module without a call written locals(...) or globals(...) is accepted. False for a function of the module that is itself called locals: the check for the built-in looks at events of the name that are recorded only afterwards."
  },
  {
   "property": "C115",
   "status": "proved",
   "theorems": [
    "C115_program",
    "C115_graph_partial",
    "C115_empty_refuted"
   ],
   "note": "C115_program covers all programs, as no block without locations has successors in their graphs. C115_graph_partial and C115_empty_refuted are about graphs in general."
  },
  {
   "property": "C116",
   "status": "partial",
   "theorems": [
    "C116_starts_partial",
    "C116_starts_refuted"
   ],
   "note": "Proved that nothing wrong and nothing twice is yielded, and that all is yielded if the walk stops nowhere. False with a stop function: a start in a block that an earlier walk has entered is skipped, even if that walk stopped before it."
  },
  {
   "property": "C117",
   "status": "partial",
   "theorems": [
    "C117_module_partial",
    "C117_functions_partial"
   ],
   "note": "Proved for modules and function bodies without try, match, classes, asynchronous loops and context managers that swallow exceptions, for which the graphs themselves are wrong (see C63)."
  },
  {
   "property": "C118",
   "status": "partial",
   "theorems": [
    "C118_implied_partial",
    "C118_fraction_refuted"
   ],
   "note": "Proved for blocks without floats and quotients whose conditions and values are integers where they are evaluated, tuples being assigned from tuples; variables are independent, pure expressions are, and modified variables are known. False with fractions: a variable that is once an operand of % is an integer for the solver, so x += 0.5 is a contradiction from which everything follows."
  },
  {
   "property": "C119",
   "status": "proved",
   "theorems": [
    "C119_explicit"
   ],
   "note": "For all programs whose operators on constants are those of the linter (C119_explicit assumes nothing else)."
  },
  {
   "property": "C120",
   "status": "partial",
   "theorems": [
    "C120_implicit_partial",
    "C120_fraction_refuted"
   ],
   "note": "Proved where all that the loop evaluates is about integers and the body is within the reach of C118. False with fractions: while x % 2 == 0: x += 0.5; x = 1 is reported and ends after one pass."
  },
  {
   "property": "C121",
   "status": "partial",
   "theorems": [
    "C121_raises_refuted"
   ],
   "note": "False: assigning a string to several names of which one is a variable of the analysis makes it fail with IndexError. Nothing is proved about the loops for which it does not."
  },
  {
   "property": "C122",
   "status": "proved",
   "theorems": [
    "C122_same",
    "C122_total"
   ],
   "note": "For all if statements reported, all code before and after them in their block, all conditions, and any meaning of the statements other than return, break, continue and if. If there is no else branch, the advice is taken to be about the statement after the if, as in the check."
  },
  {
   "property": "C123",
   "status": "partial",
   "theorems": [
    "C123_number_partial",
    "C123_reported_partial",
    "C123_match_refuted",
    "C123_else_refuted"
   ],
   "note": "Proved without match statements: all that have more than twenty statements are reported, and the number reported is that of statements, lines 'else:' and try statements together. False with a match statement, which counts as one statement with all it contains, and false in the other direction: eighteen statements with enough else branches are reported as twenty-four."
  },
  {
   "property": "C124",
   "status": "partial",
   "theorems": [
    "C124_sound_partial",
    "C124_single_partial",
    "C124_tuple_refuted"
   ],
   "note": "Proved that what is reported is right and that a single variable is found. False for several: the variables of for x, y in ... are never reported."
  },
  {
   "property": "C125",
   "status": "partial",
   "theorems": [
    "C125_reported_partial",
    "C125_unreachable_refuted"
   ],
   "note": "Proved for all methods of the nine checkers, unless unreachable-else is enabled without use-elif, redundant-elif and use-early-return: then it is never reported. What a check finds is given; that the check finds the same whatever is enabled holds as no check looks at the enabled messages."
  },
  {
   "property": "C126",
   "status": "proved",
   "theorems": [
    "C126_still_reported"
   ],
   "note": "For the messages about loops and ifs; the messages about similar blocks, which come after the loop over the statements, are not modelled. What is found is given. Assumed of the nodes of a piece of code: they are nested."
  },
  {
   "property": "C127",
   "status": "partial",
   "theorems": [
    "C127_something_partial",
    "C127_branches_refuted",
    "C127_loops_refuted"
   ],
   "note": "Proved if the messages about identical code and loops are enabled, those about lists and dictionaries are enabled together or not at all, and a repetition found to be a loop has a message (one way out of similar_to_loop has none). False otherwise: disabled messages about identical branches or loops are looked for first and end the search."
  },
  {
   "property": "C128",
   "status": "proved",
   "theorems": [
    "C128_alike"
   ],
   "note": "For all programs of distinct statements, each the first of its own siblings; which statements were left over by the other checks, and what comparing finds, is arbitrary."
  },
  {
   "property": "C129",
   "status": "partial",
   "theorems": [
    "C129_second_partial",
    "C129_lost_refuted"
   ],
   "note": "Proved that the second of two runs that look alike is compared with some earlier run alike to it. False that it is compared with each: entering a later pair with the same second run takes it away from the first. With log(); save(); close() in one function and log(); save() in another, the common log(); save() is never compared."
  },
  {
   "property": "C130",
   "status": "partial",
   "theorems": [
    "C130_two_partial",
    "C130_apart_partial",
    "C130_overlap_refuted"
   ],
   "note": "Proved for messages about two blocks, and that no message starts in an earlier one. False for three: two calls in one function and three in another are reported as three similar blocks, of which two share a statement."
  },
  {
   "property": "C131",
   "status": "proved",
   "theorems": [
    "C131_right",
    "C131_once"
   ],
   "note": "For all walks over the program, given as lists of locations; that walks visit what can be reached is C115 and C116."
  },
  {
   "property": "C132",
   "status": "partial",
   "theorems": [
    "C132_found_partial",
    "C132_class_refuted",
    "C132_nested_refuted",
    "C132_functions_refuted"
   ],
   "note": "Proved for functions outside of classes, at any depth, and for methods of classes that are not in classes. False for code in the body of a class, for methods of a class in a class, and for variables that get a value in functions only."
  },
  {
   "property": "C133",
   "status": "partial",
   "theorems": [
    "C133_right_partial",
    "C133_rebound_refuted",
    "C133_leaving_refuted",
    "C133_raising_refuted"
   ],
   "note": "Proved for bodies that do not assign to the variable in an if and whose modifications are in blocks that can be left by their ends or a continue there (or that end with a break or a return themselves). False if the variable is bound to something else in the same branch, if an outer block ends with a break, and if the block ends with a raise. Inner loops, exception handlers and definitions are not modelled."
  },
  {
   "property": "C134",
   "status": "partial",
   "theorems": [
    "C134_found_partial",
    "C134_extended_refuted",
    "C134_deleted_refuted",
    "C134_hidden_refuted",
    "C134_continued_refuted"
   ],
   "note": "Proved for methods, in bodies without direct assignments to the variable in which blocks that end with a break or a return have no continue. False after an augmented assignment, for del, for the else branch of an if before a direct assignment, and if a continue jumps over the break at the end. Inner loops, exception handlers and definitions are not modelled."
  },
  {
   "property": "C135",
   "status": "proved",
   "theorems": [
    "C135_between",
    "C135_tests"
   ],
   "note": "For the graphs of all programs of the model of control flow graphs and any events of variables. Paths are followed backwards by the incoming edges that the blocks list, as in C115."
  },
  {
   "property": "C136",
   "status": "partial",
   "theorems": [
    "C136_module_partial",
    "C136_functions_partial",
    "C136_again_refuted",
    "C136_itself_refuted"
   ],
   "note": "Proved for modules and functions in which the graphs follow the executions (as in C117), if the first location does not come again in between. False if the first and the third one are the same (a test of a loop), and the other way round if only the third one itself changes the variable. Changes made by functions that are called are no events of the location of the call in this model."
  },
  {
   "property": "C137",
   "status": "partial",
   "theorems": [
    "C137_found_partial",
    "C137_right_partial",
    "C137_simple_partial",
    "C137_index_refuted"
   ],
   "note": "Proved that all these parts are reported, and that what is reported is one or is in one. False that only they are: a subscript in the index of a target is reported, too."
  },
  {
   "property": "C138",
   "status": "partial",
   "theorems": [
    "C138_quiet_partial",
    "C138_lines_partial",
    "C138_else_refuted",
    "C138_annotated_refuted"
   ],
   "note": "Proved for modules whose ifs have no else branch, with the exact lines that are reported. False if the main block has an else branch, which is executed on import. False that assignments are allowed: annotated and augmented ones are reported. What assignments and definitions call is not modelled."
  },
  {
   "property": "C139",
   "status": "partial",
   "theorems": [
    "C139_sure_partial",
    "C139_two_refuted",
    "C139_name_refuted",
    "C139_method_refuted"
   ],
   "note": "Proved for programs in which a name that is called has one meaning everywhere and no methods are called. False if a name has two definitions (only one is looked at), if a parameter or a local function has the name of a function that was already looked at, and for methods. Names without definitions are called without effect; definitions in functions are not modelled."
  },
  {
   "property": "C140",
   "status": "partial",
   "theorems": [
    "C140_only_partial",
    "C140_answered",
    "C140_mutable_refuted"
   ],
   "note": "That it ends is proved for all programs; that it does not invent modifications is proved if the variables cannot be mutable. False if they can be: they are always said to be modified."
  },
  {
   "property": "C141",
   "status": "partial",
   "theorems": [
    "C141_found_partial",
    "C141_import_refuted",
    "C141_skip_refuted",
    "C141_all_refuted"
   ],
   "note": "Proved for all spellings of the comments noqa, flake8: noqa, pylint: disable and pylint: enable; those with noqa only on lines without the words of an import from ib111. False on lines with these words anywhere, even in the comment; false for pylint: skip-file (that this turns off pylint is taken from its documentation); and nothing is selected by All, though names of linters may have capital letters. Reading directories and decoding are not modelled."
  },
  {
   "property": "C142",
   "status": "partial",
   "theorems": [
    "C142_only_partial",
    "C142_string_refuted"
   ],
   "note": "Proved for texts that look like such a comment. False for comments proper: the text can stand in a string."
  },
  {
   "property": "C143",
   "status": "partial",
   "theorems": [
    "C143_searched",
    "C143_linted_partial",
    "C143_reported_partial",
    "C143_there",
    "C143_capital_refuted",
    "C143_name_refuted"
   ],
   "note": "Proved for names that end with .py in small letters. False for names such as a.PY, whose in-file configuration is read and which are linted, and, if in-file configuration is ignored on the command line, for files of any other name, which are then given to the linters without a test of the name. Links are not modelled."
  }
 ]
}
