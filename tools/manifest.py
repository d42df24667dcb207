"""Regenerates /verif/MANIFEST.json from the theorem names in rocq/theories/Properties*.v."""
import glob, json, os, re
root = os.path.join(os.path.dirname(os.path.abspath(__file__)), "..")
ids = [json.loads(l)["id"] for l in open(os.path.join(root, "properties.jsonl"))]
thms = {}
for f in sorted(glob.glob(os.path.join(root, "rocq/theories/Properties*.v"))):
    for m in re.finditer(r"^Theorem ((C\d+)_[\w']+)", open(f).read(), re.M):
        thms.setdefault(m[2], []).append(m[1])
NOTE = {
    "C135": "Proved for all strategies but nullPrediction, which is meant to give none, and defaultChild, for which it is false (C135_default_refuted): a false default child hands up no scores (tree.go:177-223), so a classification reports the empty class and a regression panics.  C135_counts_refuted shows that without record counts aggregateNodes and weightedConfidence report the empty class.",
    "C134": "Proved for mining fields, output fields, targets and verification fields.  False of the tables of a binary classification (C134_tables_refuted): a table without predictors gets what the tables before it left over (regression.go:130-151).  C134_twice_refuted shows that nothing may be listed twice.",
    "C133": "Proved for trees (C133_final, C133_last_prediction).  C133_ensemble: sums and averages are final if all members predict.  False of ensembles otherwise: sum and average leave out members that return no prediction (mining.go:168-180), so their total changes when the inputs are filled in (C133_forest_refuted).  C133_other_strategies_refuted and C133_derived_refuted show that the conditions are needed.",
 "C09": "False of the code: compilation wraps True and False operands into simple predicates without a field, which are unknown. The refutation is a witness; C09_constants_are_unknown says what they do instead.",
 "C12": "False of the code: a set predicate never matches. The refutation is a witness; C12_set_always_false is the exact behaviour.",
 "C17": "The text's reading (an unknown child is never entered) is refuted; C17_last_prediction_exact is the complete behaviour and C17_last_prediction_partial the property when the first non-false child is never unknown.",
 "C24": "The score of the reached node is not what is returned when the node has a score distribution; the precedence and the cases where the property holds are proved.",
 "C25": "Refuted for regression trees without scores, nodes without predicate and a false default child of weightedConfidence-style descents; C25_no_panic_partial gives the class of documents and rows that never panic, and C25_panic_causes lists every cause of a panic for whole documents: a node without predicate, or the empty scores of a regression tree.",
 "C27": "Refuted: inner nodes still predict; C27_null_prediction_exact_partial describes when the null prediction is returned.",
 "C30": "Outcome independent of map order except where classes tie or floating sums are reordered: C30_tie_refuted is the witness; the proved part covers documents without weightedConfidence and aggregateNodes, C119 is about those.",
 "C31": "Holds for trees, regression models with a normalization method and, when no field is declared with two types, selectFirst ensembles. Refuted for summing ensembles (segments are appended again), for selectFirst ensembles with a field of two types (the old segment's literals change type, Evaluate panics) and for Validate on regression models.",
 "C32": "Refuted for self-referencing derived fields and chains; proved for the remaining models.",
 "C33": "False of the code: a classification tree fills its key cache during Evaluate without a lock (C33_race_refuted). C33_same_call_race_iff says exactly when two goroutines making one call race; models without classification trees and rows evaluated once before never race; replies are the sequential ones in every interleaving of atomic accesses.",
 "C40": "False of the code: arithmetic on a missing field yields a number. Exact behaviour proved beside the witness.",
 "C56": "False of the code: normalize has no case for none (or the empty default), so every such model with something to normalise fails; C56_none_rejected proves it for every document, C56_none_refuted is the witness.",
 "C60": "False of the code: exponents are never read, and binary classification never reads coefficients; both proved for every document, with witnesses.",
 "C62": "True when no expected value is negative (C62_nonnegative_partial); refuted for negative expectations, which can only be 'verified' by NaN (C62_negative_never_verified).",
 "C63": "False of the code: a NaN prediction passes every check (C63_nan_accepted), witness in C63_nan_refuted.",
 "C64": "True when each input column is named after its field (C64_column_is_field_partial); refuted otherwise. C61_verify_iff states the input row exactly.",
 "C42": "Nearest float for every signed integer and every unsigned one below 2^63; refuted for larger uint64 values, which the code converts to int64 first and so makes negative.",
 "C66": "False of the code: intercept and inputs are summed after the normalisation, so a reported value can exceed 1 and its complement be negative (C66_unit_refuted). True with one predictor and no intercept (C66_one_predictor_unit_partial).",
 "C46": "False of the code: segment predicates are never read; C46_predicates_ignored proves it for every document.",
 "C70": "False under PMML, Segment and InlineTable, whose hand-written token loops reject unknown elements (C70_extensions_refuted); ignored everywhere else (C70_extensions_partial). A foreign element never changes the meaning of a document that still decodes (C70_foreign_elements_never_change).",
 "C71": "False of the code: the field is filled with the raw bytes between the tags, so escapes stay escaped (exact behaviour in C71_constant_text_exact); true of texts without markup characters.",
 "C72": "False of the code: only NumericPredictor elements are decoded; C72_only_numeric proves that every other predictor is dropped.",
 "C74": "True of missingValueStrategy, usageType, outliers and invalidValueTreatment (C74_defaults_partial). False of missingValuePenalty, noTrueChildStrategy and feature, each with a document as witness.",
 "C75": "False of the code; C75_never_replaced proves that these attributes never have any effect.",
 "C76": "False of the code; C76_transformations_ignored proves that the local transformations of a regression model never have any effect.",
 "C77": "False of the code; C77_definitions_ignored proves that only the names and types of the dictionary's fields matter.",
 "C78": "False of floats: C78_order_refuted exhibits three segments. C78_sum_accuracy_partial bounds the distance to the exact sum, and between any two orders.",
 "C79": "False of floats: ten segments answering 0.1 average below 0.1 (C79_between_refuted). C79_average_accuracy_partial bounds the distance to the exact mean.",
 "C87": "C87_renaming holds for renamings that keep the invented names; without that condition it is false (C87_any_name_refuted): a chain can read score from an earlier regression tree under that name only.",
 "C89": "True when every field has one type (C89_second_evaluator_partial) and of trees rebuilt with their own dictionaries (C89_tree_again); false otherwise, with a panic and a changed answer as witnesses. C89_tests_are_the_new_ones ties the sharing model to NewModel.",
 "C91": "False of the code as a whole: C91_everything_kept_refuted exhibits Segment/weight. C91_kept_attribute, C91_unkept_attribute and C91_unkept_child say what is kept and what is dropped, C91_lost_attributes and C91_lost_children list the losses completely for the structs the evaluator uses.",
 "C94": "False of the code: C94_isMissing_refuted is a valid tree NewModel refuses. C94_valueless_exact says exactly which such tests are accepted, C94_document_partial what an accepted document looks like.",
 "C95": "False of the code (C95_nil_refuted): C95_nil_present, C95_nil_is_zero and C95_regression_nil_is_zero say what happens instead; true of the two expression functions (C95_expression_missing_partial).",
 "C96": "True of order comparisons of floating point fields (C96_float_field_partial); false of equal and of integer fields, whose behaviour C96_equal_exact and C96_integer_field_exact describe exactly.",
 "C99": "Proved for the strategies and trees named in the statement (one row: C99_false_branch_partial, all rows: C99_never_entered_partial); refuted for aggregateNodes, returnNullPrediction and a false default child. Under weightedConfidence, whose answers depend on map orders, both trees have the same possible answers (C99_weighted_partial).",
 "C100": "Proved for ensembles in which no member needs a field an earlier one may write (C100_alone_partial); C100_leak_refuted is an ensemble of two trees whose members predict 3 and 50.5 and whose sum is 203.",
 "C102": "False of the code (C102_regressions_refuted, for each of the three spellings of the methods); C102_regressions_ignored says exactly what such an ensemble returns.",
 "C103": "False of the code: C103_precision_refuted has one document wrongly accepted and one wrongly refused; C103_precision_ignored proves that the declared values have no influence on the verdict.",
 "C104": "False of the code (C104_members_refuted); C104_members_ignored proves that the data of members have no influence.",
 "C105": "Proved for the strategies none, nullPrediction, lastPrediction, defaultChild and, for whole record counts, aggregateNodes; refuted for weightedConfidence (C105_weighted_refuted).",
 "C108": "True of sum (C108_sum, C108_neutral); refuted for average and for outputs not named like the target; C108_ignored proves that chains and selectFirst ignore targets.",
 "C109": "False of the code (C109_nil_refuted); C109_nil_iff says exactly when the Model is nil, C109_useless that it always panics, C109_usable that without an error it is an evaluator.",
 "C111": "Proved for trees and ensembles; refuted for regression models (C111_row_refuted), with the exact condition for nil and for an empty row.",
 "C112": "Proved for whole record counts up to 2^53 in total; refuted for fractional ones (C112_fraction_refuted).",
 "C113": "Proved for siblings of which at most one is true (C113_none, C113_null, C113_known); refuted when two are (C113_overlap_refuted).",
 "C114": "Proved for probabilities and regression trees; the predicted class may change by rounding (C114_class_refuted).",
 "C115": "Proved for the listed rewritings (C115_redefined, C115_refused); without the side conditions refuted (C115_failing_refuted, C115_inline_refuted, C115_sum_refuted).",
 "C117": "Proved as stated; that fifteen digits and float64 are needed is shown by C117_sixteen_digits_refuted and C117_float32_refuted.",
 "C118": "Proved as stated; the last sentence is C118_rounded_float64_refuted.",
 "C119": "Proved as stated; the last sentence is C119_regression_refuted and C119_rounding_refuted.",
 "C122": "False of the code: NewModel writes the shared dictionary and the document (C122_lost_derived_field_refuted). C122_separate_documents and C122_same_document say exactly when the calls race; C122_same_results_partial covers the values when nothing is registered.",
 "C144": "Proved for the strategies none and nullPrediction (C144_otherwise_partial, C144_split_partial); refuted for the other four (C144_otherwise_refuted), which enter the last true child (C144_last_child is the exact behaviour on rows without unknown predicates).",
 "C145": "Proved for ensembles (C145_ensemble_partial); refuted for trees and regression models (C145_tree_refuted, C145_regression_refuted), whose replacements are ignored (C145_ignored is the exact behaviour).",
 "C146": "Refuted (C146_invalid_refuted, C146_as_missing_refuted); the exact behaviour is that the declarations are ignored (C146_treatments_ignored, C146_values_ignored).",
 "C147": "Proved for the strategies none and nullPrediction (C147_wrapped_partial) and for the others on rows without unknown predicates (C147_known_partial); refuted for the others with unknown predicates (C147_wrapped_refuted).",
 "C148": "Proved for trees without a strategy (C148_joined_partial) and for all others on rows without unknown predicates (C148_null_partial, C148_known_partial); refuted for the others with unknown predicates (C148_joined_refuted).",
 "C125": "False of the code when a member gives no prediction (C125_silent_member_refuted: it counts as probability 0 for every class), under defaultChild with a penalty (C125_penalty_refuted); under weightedConfidence also when children share an id (C125_same_ids_refuted) and when a true child has no scores (C125_empty_child_refuted); proved in all other cases with whole record counts and distinct classes.",
 "C85": "False of the code; C85_length_ignored proves that n has no influence.",
}
# claims whose statement spells out its own limits; the refutations show these are needed
COMPLETE = {"C132", "C131", "C130", "C87", "C112", "C113", "C114", "C115", "C117", "C118", "C119"}
claims = []
for i in ids:
    t = thms.get(i, [])
    if not t:
        continue
    part = any(x.endswith("_partial") or x.endswith("_refuted") for x in t) and i not in COMPLETE
    claims.append({"property": i, "status": "partial" if part else "proved", "theorems": t, "note": NOTE.get(i, "")})
    if part and not NOTE.get(i):
        print("note missing:", i)
with open(os.path.join(root, "MANIFEST.json"), "w") as f:
    f.write('{"claims": [\n' + ",\n".join(" " + json.dumps(c) for c in claims) + "\n]}\n")
print(len(claims), "claims; without theorem:", [i for i in ids if i not in thms])
