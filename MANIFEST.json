{"claims": [
 {"property": "C01", "status": "proved", "theorems": ["C01_supported_kinds", "C01_construction_never_panics"], "note": ""},
 {"property": "C02", "status": "proved", "theorems": ["C02_tree_compiles_iff"], "note": ""},
 {"property": "C03", "status": "proved", "theorems": ["C03_no_lifecycle_error", "C03_zero_tree", "C03_zero_mining"], "note": ""},
 {"property": "C04", "status": "proved", "theorems": ["C04_mining_compiles_iff", "C04_accepted_segments"], "note": ""},
 {"property": "C05", "status": "proved", "theorems": ["C05_dictionary_after_success", "C05_dictionary_after_failure"], "note": ""},
 {"property": "C06", "status": "proved", "theorems": ["C06_float_order", "C06_integer_order"], "note": ""},
 {"property": "C07", "status": "proved", "theorems": ["C07_unknown_iff_absent", "C07_isMissing", "C07_isNotMissing"], "note": ""},
 {"property": "C08", "status": "proved", "theorems": ["C08_three_valued_logic"], "note": ""},
 {"property": "C09", "status": "partial", "theorems": ["C09_constants_keep_value_refuted", "C09_constants_are_unknown"], "note": "False of the code: compilation wraps True and False operands into simple predicates without a field, which are unknown. The refutation is a witness; C09_constants_are_unknown says what they do instead."},
 {"property": "C10", "status": "proved", "theorems": ["C10_compiled_predicates_total"], "note": ""},
 {"property": "C11", "status": "proved", "theorems": ["C11_predicate_locality"], "note": ""},
 {"property": "C12", "status": "partial", "theorems": ["C12_membership_refuted", "C12_set_always_false"], "note": "False of the code: a set predicate never matches. The refutation is a witness; C12_set_always_false is the exact behaviour."},
 {"property": "C13", "status": "proved", "theorems": ["C13_equal_notEqual"], "note": ""},
 {"property": "C14", "status": "proved", "theorems": ["C14_splits"], "note": ""},
 {"property": "C15", "status": "proved", "theorems": ["C15_strategy_none"], "note": ""},
 {"property": "C16", "status": "proved", "theorems": ["C16_null_prediction"], "note": ""},
 {"property": "C17", "status": "partial", "theorems": ["C17_last_prediction_partial", "C17_unknown_child_not_entered_refuted", "C17_last_prediction_exact"], "note": "The text's reading (an unknown child is never entered) is refuted; C17_last_prediction_exact is the complete behaviour and C17_last_prediction_partial the property when the first non-false child is never unknown."},
 {"property": "C18", "status": "proved", "theorems": ["C18_default_child"], "note": ""},
 {"property": "C19", "status": "proved", "theorems": ["C19_weighted_confidence"], "note": ""},
 {"property": "C20", "status": "proved", "theorems": ["C20_aggregate_nodes"], "note": ""},
 {"property": "C21", "status": "proved", "theorems": ["C21_strategies_agree"], "note": ""},
 {"property": "C22", "status": "proved", "theorems": ["C22_predicted_class_most_probable", "C22_first_among_equals"], "note": ""},
 {"property": "C23", "status": "proved", "theorems": ["C23_classification_keys", "C23_keys_of_reached_node"], "note": ""},
 {"property": "C24", "status": "partial", "theorems": ["C24_regression_output_partial", "C24_score_of_reached_node_partial", "C24_score_of_reached_node_refuted", "C24_declared_value_first_refuted"], "note": "The score of the reached node is not what is returned when the node has a score distribution; the precedence and the cases where the property holds are proved."},
 {"property": "C25", "status": "partial", "theorems": ["C25_panic_causes", "C25_no_panic_partial", "C25_regression_panics_refuted", "C25_missing_predicate_panics_refuted", "C25_false_default_child_panics_refuted"], "note": "Refuted for regression trees without scores, nodes without predicate and a false default child of weightedConfidence-style descents; C25_no_panic_partial gives the class of documents and rows that never panic, and C25_panic_causes lists every cause of a panic for whole documents: a node without predicate, or the empty scores of a regression tree."},
 {"property": "C26", "status": "proved", "theorems": ["C26_unit_interval", "C26_default_share"], "note": ""},
 {"property": "C27", "status": "partial", "theorems": ["C27_null_prediction_exact_partial", "C27_no_prediction_refuted"], "note": "Refuted: inner nodes still predict; C27_null_prediction_exact_partial describes when the null prediction is returned."},
 {"property": "C28", "status": "proved", "theorems": ["C28_history_independent"], "note": ""},
 {"property": "C29", "status": "proved", "theorems": ["C29_row_frame", "C29_output_names"], "note": ""},
 {"property": "C30", "status": "partial", "theorems": ["C30_deterministic_partial", "C30_tie_refuted"], "note": "Outcome independent of map order except where classes tie or floating sums are reordered: C30_tie_refuted is the witness; the proved part covers documents without weightedConfidence and aggregateNodes, C119 is about those."},
 {"property": "C31", "status": "partial", "theorems": ["C31_recompile_tree_partial", "C31_recompile_select_first_partial", "C31_recompile_regression_partial", "C31_recompile_select_first_refuted", "C31_recompile_sum_refuted", "C31_validate_regression_refuted"], "note": "Holds for trees, regression models with a normalization method and, when no field is declared with two types, selectFirst ensembles. Refuted for summing ensembles (segments are appended again), for selectFirst ensembles with a field of two types (the old segment's literals change type, Evaluate panics) and for Validate on regression models."},
 {"property": "C32", "status": "partial", "theorems": ["C32_same_row_partial", "C32_self_reference_refuted", "C32_chain_refuted"], "note": "Refuted for self-referencing derived fields and chains; proved for the remaining models."},
 {"property": "C33", "status": "partial", "theorems": ["C33_unchanged_race_free_partial", "C33_same_call_race_iff", "C33_warmed_race_free_partial", "C33_no_classification_race_free_partial", "C33_same_replies_partial", "C33_race_refuted"], "note": "False of the code: a classification tree fills its key cache during Evaluate without a lock (C33_race_refuted). C33_same_call_race_iff says exactly when two goroutines making one call race; models without classification trees and rows evaluated once before never race; replies are the sequential ones in every interleaving of atomic accesses."},
 {"property": "C34", "status": "proved", "theorems": ["C34_expression_locality"], "note": ""},
 {"property": "C35", "status": "proved", "theorems": ["C35_binary_arithmetic", "C35_sum", "C35_sum_error"], "note": ""},
 {"property": "C36", "status": "proved", "theorems": ["C36_isMissing", "C36_complement"], "note": ""},
 {"property": "C37", "status": "proved", "theorems": ["C37_if"], "note": ""},
 {"property": "C38", "status": "proved", "theorems": ["C38_map_values", "C38_integer_keys", "C38_other_keys"], "note": ""},
 {"property": "C39", "status": "proved", "theorems": ["C39_frame", "C39_document_order", "C39_equations"], "note": ""},
 {"property": "C40", "status": "partial", "theorems": ["C40_missing_stays_missing_refuted", "C40_missing_becomes_present", "C40_predicate_not_unknown"], "note": "False of the code: arithmetic on a missing field yields a number. Exact behaviour proved beside the witness."},
 {"property": "C41", "status": "proved", "theorems": ["C41_tree", "C41_mining"], "note": ""},
 {"property": "C42", "status": "partial", "theorems": ["C42_int64_exact", "C42_int64_wraps", "C42_int64_other", "C42_width_irrelevant", "C42_nearest_partial", "C42_exact_up_to_53_bits", "C42_nearest_refuted"], "note": "Nearest float for every signed integer and every unsigned one below 2^63; refuted for larger uint64 values, which the code converts to int64 first and so makes negative."},
 {"property": "C43", "status": "proved", "theorems": ["C43_float64_of_string", "C43_string_compares_as_number"], "note": ""},
 {"property": "C44", "status": "proved", "theorems": ["C44_imputation", "C44_imputed_unique", "C44_nil_row_panics"], "note": ""},
 {"property": "C45", "status": "proved", "theorems": ["C45_select_first", "C45_no_segments"], "note": ""},
 {"property": "C46", "status": "partial", "theorems": ["C46_predicates_ignored", "C46_false_segment_refuted"], "note": "False of the code: segment predicates are never read; C46_predicates_ignored proves it for every document."},
 {"property": "C47", "status": "proved", "theorems": ["C47_chain", "C47_no_segments"], "note": ""},
 {"property": "C48", "status": "proved", "theorems": ["C48_sum"], "note": ""},
 {"property": "C49", "status": "proved", "theorems": ["C49_average"], "note": ""},
 {"property": "C50", "status": "proved", "theorems": ["C50_failing_segment_sum", "C50_failing_segment_chain"], "note": ""},
 {"property": "C51", "status": "proved", "theorems": ["C51_declared_keys"], "note": ""},
 {"property": "C52", "status": "proved", "theorems": ["C52_linear_regression", "C52_one_table_one_output"], "note": ""},
 {"property": "C53", "status": "proved", "theorems": ["C53_complementary"], "note": ""},
 {"property": "C54", "status": "proved", "theorems": ["C54_softmax", "C54_simplemax", "C54_other_normalisation"], "note": ""},
 {"property": "C55", "status": "proved", "theorems": ["C55_missing_predictor", "C55_error_names_it"], "note": ""},
 {"property": "C56", "status": "partial", "theorems": ["C56_none_rejected", "C56_none_refuted"], "note": "False of the code: normalize has no case for none (or the empty default), so every such model with something to normalise fails; C56_none_rejected proves it for every document, C56_none_refuted is the witness."},
 {"property": "C57", "status": "proved", "theorems": ["C57_binary", "C57_other_function"], "note": ""},
 {"property": "C58", "status": "proved", "theorems": ["C58_locality"], "note": ""},
 {"property": "C59", "status": "proved", "theorems": ["C59_logistic_normalize", "C59_logistic_regression"], "note": ""},
 {"property": "C60", "status": "partial", "theorems": ["C60_exponent_ignored", "C60_binary_coefficient_ignored", "C60_coefficient_refuted", "C60_exponent_refuted"], "note": "False of the code: exponents are never read, and binary classification never reads coefficients; both proved for every document, with witnesses."},
 {"property": "C61", "status": "proved", "theorems": ["C61_verify_iff", "C61_bad_prefix", "C61_panics_only_in_evaluate"], "note": ""},
 {"property": "C62", "status": "partial", "theorems": ["C62_nonnegative_partial", "C62_negative_never_verified", "C62_negative_refuted"], "note": "True when no expected value is negative (C62_nonnegative_partial); refuted for negative expectations, which can only be 'verified' by NaN (C62_negative_never_verified)."},
 {"property": "C63", "status": "partial", "theorems": ["C63_nan_accepted", "C63_nan_refuted"], "note": "False of the code: a NaN prediction passes every check (C63_nan_accepted), witness in C63_nan_refuted."},
 {"property": "C64", "status": "partial", "theorems": ["C64_column_is_field_partial", "C64_column_refuted"], "note": "True when each input column is named after its field (C64_column_is_field_partial); refuted otherwise. C61_verify_iff states the input row exactly."},
 {"property": "C65", "status": "proved", "theorems": ["C65_softmax_unit", "C65_simplemax_unit"], "note": ""},
 {"property": "C66", "status": "partial", "theorems": ["C66_one_predictor_unit_partial", "C66_unit_refuted"], "note": "False of the code: intercept and inputs are summed after the normalisation, so a reported value can exceed 1 and its complement be negative (C66_unit_refuted). True with one predictor and no intercept (C66_one_predictor_unit_partial)."},
 {"property": "C67", "status": "proved", "theorems": ["C67_document_survives"], "note": ""},
 {"property": "C68", "status": "proved", "theorems": ["C68_integer_literal", "C68_integer_split"], "note": ""},
 {"property": "C69", "status": "proved", "theorems": ["C69_layout_irrelevant"], "note": ""},
 {"property": "C70", "status": "partial", "theorems": ["C70_foreign_elements_never_change", "C70_extensions_partial", "C70_extensions_refuted", "C70_token_loop"], "note": "False under PMML, Segment and InlineTable, whose hand-written token loops reject unknown elements (C70_extensions_refuted); ignored everywhere else (C70_extensions_partial). A foreign element never changes the meaning of a document that still decodes (C70_foreign_elements_never_change)."},
 {"property": "C71", "status": "partial", "theorems": ["C71_constant_text_exact", "C71_constant_text_refuted", "C71_constant_text_partial"], "note": "False of the code: the field is filled with the raw bytes between the tags, so escapes stay escaped (exact behaviour in C71_constant_text_exact); true of texts without markup characters."},
 {"property": "C72", "status": "partial", "theorems": ["C72_categorical_ignored_refuted", "C72_only_numeric"], "note": "False of the code: only NumericPredictor elements are decoded; C72_only_numeric proves that every other predictor is dropped."},
 {"property": "C73", "status": "proved", "theorems": ["C73_unread_parts", "C73_unread_rejected"], "note": ""},
 {"property": "C74", "status": "partial", "theorems": ["C74_defaults_partial", "C74_penalty_refuted", "C74_no_true_child_refuted", "C74_feature_refuted"], "note": "True of missingValueStrategy, usageType, outliers and invalidValueTreatment (C74_defaults_partial). False of missingValuePenalty, noTrueChildStrategy and feature, each with a document as witness."},
 {"property": "C75", "status": "partial", "theorems": ["C75_map_missing_refuted", "C75_apply_default_refuted", "C75_never_replaced"], "note": "False of the code; C75_never_replaced proves that these attributes never have any effect."},
 {"property": "C76", "status": "partial", "theorems": ["C76_derived_predictor_refuted", "C76_transformations_ignored"], "note": "False of the code; C76_transformations_ignored proves that the local transformations of a regression model never have any effect."},
 {"property": "C77", "status": "partial", "theorems": ["C77_definitions_ignored", "C77_dictionary_field_refuted"], "note": "False of the code; C77_definitions_ignored proves that only the names and types of the dictionary's fields matter."},
 {"property": "C78", "status": "partial", "theorems": ["C78_sum_accuracy_partial", "C78_order_refuted"], "note": "False of floats: C78_order_refuted exhibits three segments. C78_sum_accuracy_partial bounds the distance to the exact sum, and between any two orders."},
 {"property": "C79", "status": "partial", "theorems": ["C79_between_refuted", "C79_average_accuracy_partial"], "note": "False of floats: ten segments answering 0.1 average below 0.1 (C79_between_refuted). C79_average_accuracy_partial bounds the distance to the exact mean."},
 {"property": "C80", "status": "proved", "theorems": ["C80_linear_accuracy"], "note": ""},
 {"property": "C81", "status": "proved", "theorems": ["C81_monotone", "C81_logistic_monotone"], "note": ""},
 {"property": "C82", "status": "proved", "theorems": ["C82_softmax_order"], "note": ""},
 {"property": "C83", "status": "proved", "theorems": ["C83_probabilities_sum"], "note": ""},
 {"property": "C84", "status": "proved", "theorems": ["C84_accessors", "C84_errors"], "note": ""},
 {"property": "C85", "status": "partial", "theorems": ["C85_length_refuted", "C85_length_ignored"], "note": "False of the code; C85_length_ignored proves that n has no influence."},
 {"property": "C86", "status": "proved", "theorems": ["C86_integers_survive"], "note": ""},
 {"property": "C87", "status": "proved", "theorems": ["C87_renaming", "C87_renaming_refused", "C87_any_name_refuted"], "note": "C87_renaming holds for renamings that keep the invented names; without that condition it is false (C87_any_name_refuted): a chain can read score from an earlier regression tree under that name only."},
 {"property": "C88", "status": "proved", "theorems": ["C88_inputs", "C88_extra_column"], "note": ""},
 {"property": "C89", "status": "partial", "theorems": ["C89_second_evaluator_partial", "C89_tree_again", "C89_tests_are_the_new_ones", "C89_second_evaluator_refuted", "C89_other_dictionary_refuted"], "note": "True when every field has one type (C89_second_evaluator_partial) and of trees rebuilt with their own dictionaries (C89_tree_again); false otherwise, with a panic and a changed answer as witnesses. C89_tests_are_the_new_ones ties the sharing model to NewModel."},
 {"property": "C90", "status": "proved", "theorems": ["C90_fields", "C90_attribute_order"], "note": ""},
 {"property": "C91", "status": "partial", "theorems": ["C91_kept_attribute", "C91_unkept_attribute", "C91_unkept_child", "C91_lost_attributes", "C91_lost_children", "C91_everything_kept_refuted"], "note": "False of the code as a whole: C91_everything_kept_refuted exhibits Segment/weight. C91_kept_attribute, C91_unkept_attribute and C91_unkept_child say what is kept and what is dropped, C91_lost_attributes and C91_lost_children list the losses completely for the structs the evaluator uses."},
 {"property": "C92", "status": "proved", "theorems": ["C92_fails", "C92_can_fail", "C92_unchecked_models"], "note": ""},
 {"property": "C93", "status": "proved", "theorems": ["C93_view"], "note": ""},
 {"property": "C94", "status": "partial", "theorems": ["C94_valueless_exact", "C94_document_partial", "C94_isMissing_refuted"], "note": "False of the code: C94_isMissing_refuted is a valid tree NewModel refuses. C94_valueless_exact says exactly which such tests are accepted, C94_document_partial what an accepted document looks like."},
 {"property": "C95", "status": "partial", "theorems": ["C95_nil_present", "C95_nil_is_zero", "C95_regression_nil_is_zero", "C95_expression_missing_partial", "C95_nil_refuted"], "note": "False of the code (C95_nil_refuted): C95_nil_present, C95_nil_is_zero and C95_regression_nil_is_zero say what happens instead; true of the two expression functions (C95_expression_missing_partial)."},
 {"property": "C96", "status": "partial", "theorems": ["C96_equal_exact", "C96_float_field_partial", "C96_integer_field_exact", "C96_equal_refuted", "C96_json_refuted"], "note": "True of order comparisons of floating point fields (C96_float_field_partial); false of equal and of integer fields, whose behaviour C96_equal_exact and C96_integer_field_exact describe exactly."},
 {"property": "C97", "status": "proved", "theorems": ["C97_rearranged", "C97_accepted", "C97_surrogate_is_ordered", "C97_xor_counts"], "note": ""},
 {"property": "C98", "status": "proved", "theorems": ["C98_dictionary", "C98_order", "C98_unused"], "note": ""},
 {"property": "C99", "status": "partial", "theorems": ["C99_false_branch_partial", "C99_never_entered_partial", "C99_aggregate_refuted", "C99_null_refuted", "C99_default_refuted", "C99_weighted_partial"], "note": "Proved for the strategies and trees named in the statement (one row: C99_false_branch_partial, all rows: C99_never_entered_partial); refuted for aggregateNodes, returnNullPrediction and a false default child. Under weightedConfidence, whose answers depend on map orders, both trees have the same possible answers (C99_weighted_partial)."},
 {"property": "C100", "status": "partial", "theorems": ["C100_alone_partial", "C100_leak_refuted"], "note": "Proved for ensembles in which no member needs a field an earlier one may write (C100_alone_partial); C100_leak_refuted is an ensemble of two trees whose members predict 3 and 50.5 and whose sum is 203."},
 {"property": "C101", "status": "proved", "theorems": ["C101_single_average", "C101_single_member", "C101_single_accepted", "C101_single_sum"], "note": ""},
 {"property": "C102", "status": "partial", "theorems": ["C102_regressions_ignored", "C102_regressions_refuted"], "note": "False of the code (C102_regressions_refuted, for each of the three spellings of the methods); C102_regressions_ignored says exactly what such an ensemble returns."},
 {"property": "C103", "status": "partial", "theorems": ["C103_precision_ignored", "C103_precision_refuted"], "note": "False of the code: C103_precision_refuted has one document wrongly accepted and one wrongly refused; C103_precision_ignored proves that the declared values have no influence on the verdict."},
 {"property": "C104", "status": "partial", "theorems": ["C104_members_ignored", "C104_members_refuted"], "note": "False of the code (C104_members_refuted); C104_members_ignored proves that the data of members have no influence."},
 {"property": "C105", "status": "partial", "theorems": ["C105_unit_partial", "C105_aggregate_partial", "C105_weighted_refuted"], "note": "Proved for the strategies none, nullPrediction, lastPrediction, defaultChild and, for whole record counts, aggregateNodes; refuted for weightedConfidence (C105_weighted_refuted)."},
 {"property": "C106", "status": "proved", "theorems": ["C106_average_unit", "C106_forest"], "note": ""},
 {"property": "C107", "status": "proved", "theorems": ["C107_monotone"], "note": ""},
 {"property": "C108", "status": "partial", "theorems": ["C108_sum", "C108_ignored", "C108_neutral", "C108_average_refuted", "C108_renamed_refuted"], "note": "True of sum (C108_sum, C108_neutral); refuted for average and for outputs not named like the target; C108_ignored proves that chains and selectFirst ignore targets."},
 {"property": "C109", "status": "partial", "theorems": ["C109_exact", "C109_usable", "C109_calls", "C109_useless", "C109_nil_iff", "C109_nil_refuted"], "note": "False of the code (C109_nil_refuted); C109_nil_iff says exactly when the Model is nil, C109_useless that it always panics, C109_usable that without an error it is an evaluator."},
 {"property": "C110", "status": "proved", "theorems": ["C110_panic_iff", "C110_regression", "C110_only_regression"], "note": ""},
 {"property": "C111", "status": "partial", "theorems": ["C111_same_outcome", "C111_trees_and_ensembles", "C111_regression_nil_iff", "C111_regression_empty", "C111_row_refuted"], "note": "Proved for trees and ensembles; refuted for regression models (C111_row_refuted), with the exact condition for nil and for an empty row."},
 {"property": "C112", "status": "proved", "theorems": ["C112_proportions", "C112_fraction_refuted"], "note": "Proved for whole record counts up to 2^53 in total; refuted for fractional ones (C112_fraction_refuted)."},
 {"property": "C113", "status": "proved", "theorems": ["C113_none", "C113_null", "C113_known", "C113_overlap_refuted"], "note": "Proved for siblings of which at most one is true (C113_none, C113_null, C113_known); refuted when two are (C113_overlap_refuted)."},
 {"property": "C114", "status": "proved", "theorems": ["C114_probabilities", "C114_regression", "C114_class_refuted"], "note": "Proved for probabilities and regression trees; the predicted class may change by rounding (C114_class_refuted)."},
 {"property": "C115", "status": "proved", "theorems": ["C115_redefined", "C115_refused", "C115_failing_refuted", "C115_inline_refuted", "C115_sum_refuted"], "note": "Proved for the listed rewritings (C115_redefined, C115_refused); without the side conditions refuted (C115_failing_refuted, C115_inline_refuted, C115_sum_refuted)."},
 {"property": "C116", "status": "proved", "theorems": ["C116_cells", "C116_row", "C116_between", "C116_between_integers", "C116_unseen", "C116_computed_fields_split_elsewhere"], "note": ""},
 {"property": "C117", "status": "proved", "theorems": ["C117_decimals", "C117_never_reversed", "C117_floats", "C117_equal", "C117_sixteen_digits_refuted", "C117_float32_refuted"], "note": "Proved as stated; that fifteen digits and float64 are needed is shown by C117_sixteen_digits_refuted and C117_float32_refuted."},
 {"property": "C118", "status": "proved", "theorems": ["C118_float64", "C118_overflow", "C118_round_trip", "C118_widening", "C118_integer", "C118_otherwise_zero", "C118_rounded_float64_refuted"], "note": "Proved as stated; the last sentence is C118_rounded_float64_refuted."},
 {"property": "C119", "status": "proved", "theorems": ["C119_whole_records", "C119_regression_refuted", "C119_rounding_refuted"], "note": "Proved as stated; the last sentence is C119_regression_refuted and C119_rounding_refuted."},
 {"property": "C120", "status": "proved", "theorems": ["C120_units"], "note": ""},
 {"property": "C121", "status": "proved", "theorems": ["C121_own_evaluator", "C121_replies"], "note": ""},
 {"property": "C122", "status": "partial", "theorems": ["C122_alone", "C122_same_document", "C122_separate_documents", "C122_same_results_partial", "C122_lost_derived_field_refuted"], "note": "False of the code: NewModel writes the shared dictionary and the document (C122_lost_derived_field_refuted). C122_separate_documents and C122_same_document say exactly when the calls race; C122_same_results_partial covers the values when nothing is registered."},
 {"property": "C123", "status": "proved", "theorems": ["C123_error_causes", "C123_always_answers"], "note": ""},
 {"property": "C124", "status": "proved", "theorems": ["C124_alone", "C124_other_documents", "C124_same_document"], "note": ""},
 {"property": "C125", "status": "partial", "theorems": ["C125_tree_partial", "C125_average_partial", "C125_forest_partial", "C125_answering_forest_partial", "C125_silent_member_refuted", "C125_penalty_refuted", "C125_weighted_partial", "C125_same_ids_refuted", "C125_empty_child_refuted"], "note": "False of the code when a member gives no prediction (C125_silent_member_refuted: it counts as probability 0 for every class), under defaultChild with a penalty (C125_penalty_refuted); under weightedConfidence also when children share an id (C125_same_ids_refuted) and when a true child has no scores (C125_empty_child_refuted); proved in all other cases with whole record counts and distinct classes."},
 {"property": "C126", "status": "proved", "theorems": ["C126_answer", "C126_own"], "note": ""},
 {"property": "C127", "status": "proved", "theorems": ["C127_once", "C127_total", "C127_path"], "note": ""},
 {"property": "C128", "status": "proved", "theorems": ["C128_answers", "C128_rejected"], "note": ""},
 {"property": "C129", "status": "proved", "theorems": ["C129_leaf", "C129_only_none", "C129_null", "C129_known"], "note": ""},
 {"property": "C130", "status": "proved", "theorems": ["C130_softmax", "C130_simplemax", "C130_overflow_refuted", "C130_unnamed_refuted"], "note": ""},
 {"property": "C131", "status": "proved", "theorems": ["C131_identifiers", "C131_accepted", "C131_weighted", "C131_left_out_refuted"], "note": ""},
 {"property": "C132", "status": "proved", "theorems": ["C132_classes", "C132_ties_refuted", "C132_regressions", "C132_one_to_one"], "note": ""},
 {"property": "C133", "status": "partial", "theorems": ["C133_final", "C133_last_prediction", "C133_other_strategies_refuted", "C133_derived_refuted", "C133_forest_refuted", "C133_ensemble"], "note": "Proved for trees (C133_final, C133_last_prediction).  C133_ensemble: sums and averages are final if all members predict.  False of ensembles otherwise: sum and average leave out members that return no prediction (mining.go:168-180), so their total changes when the inputs are filled in (C133_forest_refuted).  C133_other_strategies_refuted and C133_derived_refuted show that the conditions are needed."},
 {"property": "C134", "status": "partial", "theorems": ["C134_order", "C134_accepted", "C134_verification", "C134_tables_refuted", "C134_twice_refuted"], "note": "Proved for mining fields, output fields, targets and verification fields.  False of the tables of a binary classification (C134_tables_refuted): a table without predictors gets what the tables before it left over (regression.go:130-151).  C134_twice_refuted shows that nothing may be listed twice."},
 {"property": "C135", "status": "partial", "theorems": ["C135_some_node", "C135_reports", "C135_predicts", "C135_class", "C135_default_refuted", "C135_counts_refuted"], "note": "Proved for all strategies but nullPrediction, which is meant to give none, and defaultChild, for which it is false (C135_default_refuted): a false default child hands up no scores (tree.go:177-223), so a classification reports the empty class and a regression panics.  C135_counts_refuted shows that without record counts aggregateNodes and weightedConfidence report the empty class."},
 {"property": "C136", "status": "proved", "theorems": ["C136_rules", "C136_first_rule", "C136_only_these", "C136_not_null"], "note": ""},
 {"property": "C137", "status": "proved", "theorems": ["C137_types", "C137_other_documents", "C137_again", "C137_same_name"], "note": ""},
 {"property": "C138", "status": "proved", "theorems": ["C138_measures", "C138_every_file", "C138_one_per_name", "C138_finishes", "C138_finished", "C138_stops"], "note": ""},
 {"property": "C139", "status": "proved", "theorems": ["C139_same_kind", "C139_no_other", "C139_constant"], "note": ""},
 {"property": "C140", "status": "proved", "theorems": ["C140_units", "C140_two_outputs"], "note": ""},
 {"property": "C141", "status": "proved", "theorems": ["C141_left_out", "C141_must_be_there", "C141_must_be_finite", "C141_two_outputs"], "note": ""},
 {"property": "C142", "status": "proved", "theorems": ["C142_reported", "C142_types", "C142_numbers"], "note": ""},
 {"property": "C143", "status": "proved", "theorems": ["C143_left_out", "C143_harmless", "C143_accepted", "C143_still_computed"], "note": ""},
 {"property": "C144", "status": "partial", "theorems": ["C144_otherwise_partial", "C144_split_partial", "C144_last_child", "C144_otherwise_refuted"], "note": "Proved for the strategies none and nullPrediction (C144_otherwise_partial, C144_split_partial); refuted for the other four (C144_otherwise_refuted), which enter the last true child (C144_last_child is the exact behaviour on rows without unknown predicates)."},
 {"property": "C145", "status": "partial", "theorems": ["C145_ensemble_partial", "C145_ignored", "C145_tree_refuted", "C145_regression_refuted"], "note": "Proved for ensembles (C145_ensemble_partial); refuted for trees and regression models (C145_tree_refuted, C145_regression_refuted), whose replacements are ignored (C145_ignored is the exact behaviour)."},
 {"property": "C146", "status": "partial", "theorems": ["C146_treatments_ignored", "C146_values_ignored", "C146_invalid_refuted", "C146_as_missing_refuted"], "note": "Refuted (C146_invalid_refuted, C146_as_missing_refuted); the exact behaviour is that the declarations are ignored (C146_treatments_ignored, C146_values_ignored)."},
 {"property": "C147", "status": "partial", "theorems": ["C147_wrapped_partial", "C147_known_partial", "C147_wrapped_refuted"], "note": "Proved for the strategies none and nullPrediction (C147_wrapped_partial) and for the others on rows without unknown predicates (C147_known_partial); refuted for the others with unknown predicates (C147_wrapped_refuted)."},
 {"property": "C148", "status": "partial", "theorems": ["C148_joined_partial", "C148_null_partial", "C148_known_partial", "C148_joined_refuted"], "note": "Proved for trees without a strategy (C148_joined_partial) and for all others on rows without unknown predicates (C148_null_partial, C148_known_partial); refuted for the others with unknown predicates (C148_joined_refuted)."},
 {"property": "C149", "status": "proved", "theorems": ["C149_chain", "C149_sum", "C149_first", "C149_must_succeed", "C149_noticed"], "note": ""},
 {"property": "C150", "status": "proved", "theorems": ["C150_answers", "C150_rejected", "C150_forest", "C150_later_member", "C150_computed_from_itself"], "note": ""},
 {"property": "C151", "status": "proved", "theorems": ["C151_order", "C151_accepted", "C151_ties", "C151_fractions", "C151_regression"], "note": ""},
 {"property": "C152", "status": "proved", "theorems": ["C152_folded", "C152_last", "C152_average", "C152_once", "C152_zero"], "note": ""},
 {"property": "C153", "status": "proved", "theorems": ["C153_repeated", "C153_known_rows", "C153_implied", "C153_bounds", "C153_integer_bounds", "C153_not_missing", "C153_unknown_rows", "C153_not_true"], "note": ""},
 {"property": "C154", "status": "proved", "theorems": ["C154_removed", "C154_bounds", "C154_integer_bounds", "C154_categories", "C154_operand", "C154_contradiction", "C154_last_prediction", "C154_last_child"], "note": ""},
 {"property": "C155", "status": "proved", "theorems": ["C155_verdict", "C155_same_predictions", "C155_trimmed"], "note": ""},
 {"property": "C156", "status": "proved", "theorems": ["C156_classifier", "C156_no_intercept", "C156_regressor", "C156_forest"], "note": ""},
 {"property": "C157", "status": "proved", "theorems": ["C157_exchanged", "C157_verdict", "C157_rows_matter", "C157_dictionary_matters"], "note": ""},
 {"property": "C158", "status": "proved", "theorems": ["C158_power_of_two", "C158_three_members"], "note": ""},
 {"property": "C159", "status": "proved", "theorems": ["C159_sign", "C159_ordered"], "note": ""}
]}
