# Formal model of the PMML evaluator

Target: `/repo` (module `github.com/flukeish/pmml`), packages `evaluation`,
`models` and `main`.  Model and proofs: `/verif/rocq/theories` (Coq 8.16.1, std++,
`Coq.Floats.SpecFloat`; Flocq only where real-number facts are needed).

## How the code is modelled

* **float64 / float32** are `spec_float` of the standard library
  (`Coq.Floats.SpecFloat`, prec 53 / emax 1024 and 24 / 128).  `+ - * /` and the
  comparisons are `SFadd`, `SFsub`, `SFmul`, `SFdiv`, `SFeqb`, `SFltb`, `SFleb`.
  They compute, and need no axiom.  NaN payloads do not exist in the model.
  Go may fuse `x*y+z` on some architectures (on amd64 only with GOAMD64=v3): not
  modelled.
* **interface{} values** (`Value.val`) are the type `gov`: nil, bool, float64,
  float32, string, the ten integer kinds, and "anything else" (a tag and an
  optional `String()` result).
* **DataRow** is `option (gmap string gov)`; `None` is Go's nil map, and writing
  to it is the panic `PNilMapWrite`.
* **Results**: `res A := Ok | Err | Panic`.  Error texts are dropped, the cause
  is kept (`err` type).  Panics carry the runtime cause.
* **Mutation** is explicit: `Evaluate` takes and returns the caller's row and
  the evaluator; `NewModel`/`Compile` take and return the shared
  `TransformationDictionary`.
* **Sharing**: `compilePredicate` caches literals in the document's predicates,
  which all evaluators of the document share.  The model keeps a copy in each
  evaluator; `touch` (`Model.v`) is what a further `NewModel` on the document
  does to an existing evaluator, and `Compile` applies it to the segment models
  of earlier `Compile` calls (the ghost field `em_rounds` says which segment each
  belongs to).  `C89_tests_are_the_new_ones` shows that `touch` and `new_model`
  leave the same tests.  The other writes to the document (default usage types,
  the method `sum`, the normalization `none`) are modelled in the evaluator that
  writes them, not in its siblings.
* **Everything outside the repository** is the record `Ext`: `strconv.ParseFloat`,
  `math.Exp`, `math.Atan`, `%v` formatting of values without their own case, and
  the **map iteration order**, an arbitrary permutation chosen anew for every
  `range` over a map (identified by a ticket: path of calls plus loop site).
  Theorems quantify over every `Ext`, so over every iteration order.
* **Rows are values** in all files but `Heap.v`: Evaluate takes the contents of its
  row and gives back the contents afterwards.  `Heap.v` repeats the functions that make,
  write or return rows with references into a heap; `h_evaluate_spec` shows that both
  do the same to the contents and that no evaluator returns a row it was given.
* **Concurrency** (C33, C121) is a small-step interleaving model of the accesses to
  the `outKeys` map; for NewModel (C122) one of the accesses to the shared dictionary
  and the document.  A NewModel beside an Evaluate: `Beside.v`, the
  accesses to literals and methods only, not the values read.  Accesses
  are atomic and sequentially consistent, so values returned in racy runs are those of
  a program without torn reads.

## Files

Model files contain no proofs: `Base`, `Strconv`, `Value` (miningschema.go),
`Doc` (the document types), `Expr` (input.go), `Pred`, `Tree` (tree.go),
`Regression`, `Model` (mining.go, evaluation.go), `Api` (histories of calls),
`Race` (goroutines sharing an evaluator), `Workers` (series of calls on several
evaluators), `Build` (goroutines calling NewModel), `Beside` (and Evaluate beside them), `Heap` (rows as
references), `Xml` and `Decode` (package models:
from XML to the document), `TokenLoop` (the hand-written UnmarshalXML loops),
`Array` (complexTypes.go), `Schema` and `Reflect` (every struct of package models as
a table, and encoding/xml as an interpreter of it), `Nil` (nil arguments, interface
values, rows beside errors), `Perf` (main/perftest.go).  `Schema.v` is generated by
`tools/schema.py` from the struct tags, the UnmarshalXML methods and the schema
quoted in the comments; nothing in it is written by hand.
`GoExt` is one concrete `Ext`, used for examples only; `TestData` and `Replay`
run the repository's own tests through decoder and evaluator.

`Spec*.v` are the independent specifications; `Proofs*.v`, `Lib.v`, `FloatLib.v`,
`RealLib.v` the lemmas; `Properties*.v` only the property theorems, each with its
`Print Assumptions` and an `Example` meeting its hypotheses; `Samples.v` the
documents used in the examples.  `tools/` regenerates properties.jsonl and
MANIFEST.json, translates the test data, and runs wrong programs.

## Plan per property

| id | modelled as | proof |
|----|-------------|-------|
| C01 | `new_model` on the document type `doc_model` | case analysis |
| C02 | `new_tree_model`; spec: `Forall` over all simple predicates of the tree | nested induction on trees and predicates |
| C03 | `new_model` then `evaluate` with any row | induction on nested models, invariant "validated and compiled" |
| C04 | `new_model` on mining documents; spec: inductive acceptance relation | induction on documents |
| C05 | threaded `TransformationDictionary` | induction on documents |
| C06, C07, C13, C14 | `eval_simple`; spec: a table written from the PMML text | case analysis; IEEE order lemmas on `SFcompare` |
| C08, C09 | `eval_compound`; spec: Kleene connectives on lists | induction on operand lists; C09 refuted by witness |
| C10 | `compile_predicate` then `run_test` | nested induction |
| C11 | two rows agreeing on the mentioned fields | nested induction |
| C12 | `eval_set` | refuted by witness, plus "always false" |
| C15..C20 | the six strategy functions; spec: inductive descent relations / closed formulas | nested induction on nodes |
| C21 | six strategies on known rows | nested induction |
| C22..C24, C27 | `tree_evaluate` | list lemmas, float order |
| C25 | `tree_evaluate` does not panic | holds with side conditions; refuted in general (regression tree with empty scores; node without predicate); `C25_panic_causes`: these are the only causes, for whole documents, by rule induction with `evaluate_rule` |
| C26 | `new_node` | Flocq rounding facts (Reals axioms) |
| C28, C29, C31, C32 | state machine over API calls | invariants; C31 refuted for mining, C32 refuted in general |
| C30 | two iteration-order oracles | proved for the other strategies, refuted for weightedConfidence and aggregateNodes |
| C33 | small-step model | race exhibited; race freedom for warmed cache and regression |
| C34..C41 | `handle_expr`, `handle_input` | nested induction; C40 refuted |
| C42, C43 | `val_int64`, `val_float64` | case analysis, Flocq for "nearest" |
| C44..C51 | mining evaluation | induction over segments; C46 refuted |
| C52..C60 | regression evaluation | list induction; C56, C60 refuted; C59 Flocq |
| C61..C64 | `verify_model` | iff by induction over rows; C62..C64 refuted in general |
| C65, C66 | regression classification | Flocq rounding facts; C66 refuted in general |
| C67 | `decode` against an independent XML writer | induction on expressions, predicates, nodes, models |
| C68 | `get_raw_value`, `eval_simple`; spec: decimal printing of integers | induction on digits |
| C69, C70 | `decode` on two documents related by `rewritten` | simulation by induction on the XML; `TokenLoop` links the fold to the token loop; C70 refuted under PMML, Segment, InlineTable |
| C71, C72 | `dec_expr`, `dec_regr_table` | exact behaviour, refuted by witness |
| C73..C77 | `essence`: the part of a document that is read; XML witnesses | `new_model` and `evaluate` simulate on documents of equal essence; C74 refuted for three attributes, C75..C77 refuted |
| C78..C83 | `AccLib`: floats as reals through Flocq | relative error of each operation, monotone rounding; C78, C79 refuted, with error bounds |
| C84..C86 | `Array` (complexTypes.go) | cache invariant over call histories; C85 refuted |
| C87, C88 | whole evaluator; spec: `ren_doc`, `doc_inputs` on documents | one simulation between a model and its renamed copy, over rows related on the needed fields; C88 is the identity renaming |
| C89 | `touch`: an evaluator after a further NewModel on its document; spec: `one_type` on declarations | invariant `fixed_model` (no compilation within a type map changes a test); refuted without it |
| C90 | `read`: the table of Schema.v interpreted; spec: `holds`, one rule per kind of field | folds over attributes and children commute with the fields |
| C91 | same; spec: `attr_kept`, `child_kept`, `pmml_declares` | idle updates; the lists by computation on the table; refuted by Segment/weight |
| C92 | same; spec: inductive `malformed`, `can_fail` | induction on the XML; the types that never fail by a closed set |
| C93 | `decode` of Decode.v against `see_pmml` of the reflective values | induction on the XML, one lemma per struct |
| C94 | `compile_predicate`, `get_raw_value`; spec: which data types have the empty text as a literal | inversion; refuted by a tree testing a double for being missing |
| C95 | `run_test`, `regr_evaluate`, `handle_expr` on rows holding `GNil` | compared with the row holding 0, by induction on predictors and tables |
| C96 | `run_test` on `GInt k z` against `GF64`; spec: case analysis on the Go value | the predicate semantics of C12; refuted by an int and by every float64 in an integer field |
| C97 | `compile_predicate`, `run_test`; spec: inductive `same_pred` lifted by `same_nodes` and `rewritten` to documents | operand values as a list; tests that agree give trees that agree; induction on the document |
| C98 | `field_types`, `output_dist`; spec: `entries` per name in `looked_up` | predicates are local in the field types; same induction |
| C99 | the strategies on `pruned` trees; spec: `thinned` child lists | induction on the tree per strategy, for weightedConfidence with the paths of the two trees translated into each other; three witnesses |
| C100 | `sum_models`, `average_models`, shared `transformations`; spec: `undisturbed` segments | members compiled with other dictionaries agree (`td_agree`), rows agree on the inputs (C88) |
| C101 | `select_first`, `chain`, `sum_models`, `average_models` on one segment | unfolding; 0 + x on spec_float, x / 1 = x by Flocq |
| C102 | `sum_models` over `regr_evaluate` outputs | C48/C49 with "score" absent from every member's outputs |
| C103 | `verify_model`, `ver_maps`; spec: `same_columns`, `same_tables` | C61 on both sides, C73 for the predictions; two witnesses |
| C104 | `verify_model`, `verification_of`; spec: `without_data` | C103 through equal essences; witness |
| C105 | `tree_evaluate` through C15 - C20 | induction over `subtree_answer`; quotients and penalties in [0,1] by monotone rounding; whole counts add exactly; witness with nine children |
| C106 | `average_models`; spec: `sound_tree` | a sum of n floats in [0,1] is at most n, C105 for the members |
| C107 | `sum_models`, `rescale_step`, `average_row` | rounding is monotone, induction over contributions and targets |
| C108 | `rescale_step`; spec: `with_targets` | C48 and C49 for two headers; x * 1 + 0 = x unless x = -0; witnesses |
| C109 | `go_new_model` (Nil.v), interface values and pointers | induction over documents: agreement with `new_model`; witness |
| C110 | `go_new_model` with nil dictionaries and documents; spec: `validates` | case analysis, C01 for non-nil arguments |
| C111 | `go_evaluate` (Nil.v), the row beside an error | agreement with `evaluate`, induction over tables and predictors; witness |
| C112 | `out_score_dist`, all six strategies; spec: `more_records` | relation on compiled trees kept by every strategy; multiples of whole numbers are exact, quotients equal; witness |
| C113 | `eval_none`, `eval_null`, all strategies through C21; spec: `shuffled` | descents in both trees reach corresponding nodes; C15, C16, C21; witness |
| C114 | `eval_default`, `adjust`; spec: `with_penalty`, `default_answer` | two answers of one tree related by induction; rounding is monotone; witness |
| C115 | `handle_expr`, `handle_input`; spec: `same_expr`, `same_derivation`, `redefined` | each rewriting gives the same row and types after every prefix; lifted through trees and ensembles; witnesses |
| C116 | `eval_simple`, `node_evaluate`, `evaluate`; spec: `literals`, `computed_from`, `same_side`, `same_cell` | every compiled test has the same truth on both rows; the strategies and ensembles only see truths; corollaries for floats, whole numbers, unseen categories |
| C117 | `compile_predicate`, `run_test`; spec: `decimal`, `decimal_value`, `correctly_rounds`, `fifteen_digits` | relative error 2^-53 against the gap of the common decimal grid; rounding is monotone; the example parser of GoExt.v is proved to round correctly |
| C118 | `val_float32`, `val_float64`, `f64_to_f32`, `f32_to_f64` | Flocq's `binary_normalize_correct` at 24 bits; the float32 grid lies in the float64 grid |
| C119 | `eval_aggregate`, `eval_weighted`, `map_range`, `tree_output`; spec: `whole_records`, `same_but_ties` | whole sums are exact, so the class counts do not depend on the order of the scores; induction over the tree with scores related up to permutation; witnesses by computing under two orders |
| C120 | `eval_simple`, `compile_predicate`, `node_evaluate`, `run_method`; spec: `same_order`, `recoded`, `recoded_rows`, `only_split` | two compiled trees and two rows on which all tests agree evaluate alike, strategy by strategy; rows stay related through imputation, derived fields and chains as the recoded fields are never written (C29) |
| C121 | `worker_steps`: series of the step programs of Race.v, caches named by evaluator; spec: `alone` | every access of a goroutine lies in a cache of one of its evaluators (`exec_within`); replies by the memo invariant of C33 |
| C122 | `build_steps`: NewModel with every access to td.DerivedFields, mining fields, methods and literals as a step, `bexec` interleavings; spec: `written_document`, `doc_locals` | `build_alone`: alone it is `new_model`; races by running two copies in lockstep to the first write, or one goroutine after the other; freedom by the footprint `within`; lost append refuted by a schedule |
| C123 | `evaluate`; spec: the inductive lists `expr_fault`, `regr_fault`, `fault` (SpecError.v) over the document and the caller's row | induction over the document; the row only gains keys (`above`), each member is asked at most once; with C25's panic causes: no fault, then an answer |
| C124 | `evaluate_reads`, `task_steps` (Beside.v) over the programs of Build.v; spec: the inductive `asks`, `node_asks`, `fed`, `model_asks` (SpecBeside.v) over results of tests, children and segments | run alone, the program is `evaluate` and reads a literal exactly when `model_asks` (induction over predicates, nodes, segments); what is read is written by a second NewModel (same shape of evaluator and document); the rest by the place each access names |
| C125 | `average_models` and the strategies of Tree.v; spec: `counting_tree`, `probability_of` and a sum over the classes in the reals | the scores of every subtree are shares of whole counts (induction over answers, C15 - C17, C20), each share is within a relative roundoff (Flocq), double sum over members and classes for the average; refuted for penalties and for members without a prediction; weightedConfidence (PropertiesForestWeighted.v): per class an affine form of shares and probabilities (C80's error bound), summed over classes and children, one factor per level |
| C126 | `h_evaluate` (Heap.v): the code once more with every DataRow a reference; spec: programs of statements over variables (SpecHeap.v) and `evaluate` on contents | `h_evaluate` refines `evaluate`, writes only to its argument and returns nil or a new row (induction on models); private rows stay private (induction on the program); history independence (C28) |
| C127 | the reads of `evaluate_reads` (Beside.v; one per comparison with a literal, tree.go:522); spec: `simples`, `levels`, `widest`, `longest` of the document | every loop round touches places of its own child or segment (`tidy`), so no place twice; a node that is not true costs its own test only, and the loop stops behind the first one that is (induction on nodes) |
| C128 | `evaluate`, `chain`, `compile_segments` (Model.v); spec: `regrouped` (SpecNest.v), an equivalence on documents | `chain` is a fold of functions on rows (`chained`), which is associative; regroupings preserve being `alike` (built alike and same answers), by induction on the derivation |
| C129 | `eval_none`, `output_dist`, `evaluate`; spec: `one_opinion`, `collapsed`, `simplified` (SpecCollapse.v), from what nodes of the document say | inside a subtree of one opinion the descent stops at some node of it, and all give the same output (`simplified_stands_in`); lifted to ensembles as in C108; for the other strategies C16 and C144 on both trees, whose leaves say the same (`collapsed_null`, `collapsed_late`, ProofsIdle.v) |
| C130 | `eval_multiclass` (Regression.v); spec: sum in the reals of the reported numbers | C54 gives the quotients, `shares_sum_one` (ProofsSoftmax.v) bounds the sum of rounded quotients by the rounded total |
| C131 | `eval_*` (Tree.v), `new_node`; spec: `reidentified` (SpecIds.v) on documents | relation on compiled nodes preserved by every strategy but weightedConfidence; for that one, C19's `weighted_answer` does not mention identifiers (`weighted_reid`) |
| C132 | `eval_*`, `output_dist`, `pick_best`, `tree_output` (Tree.v); spec: `relabel_tree`, `relabelled` (SpecLabels.v) | all these commute with renaming the values of scores (`lab`); the rows built from renamed scores are `relabelled`; for regression models `regr_evaluate` is unchanged by `relabel_regr`, and `mining_stands_in` lifts it to ensembles |
| C133 | `run_test` (Pred.v), `eval_null`, `eval_last` (Tree.v), `handle_input` (Expr.v), `score_add` (Model.v); spec: `steady`, `same_sources` (SpecFinal.v), `descend_null`, `descend_last` (SpecTree.v) | a known predicate stays as it is when fields are filled in (induction on the predicate, counting true and unknown operands); the descents of C16 and C17 carry over, C100 to sums and averages.  Refuted for the other strategies, for derived fields of missing fields and for sums and averages, which leave out members without a prediction |
| C134 | `new_model`, `default_values`, `score_init`, `rescale_step` (Model.v), `out_fields`, `binary_tables` (Regression.v), `target_of` (Tree.v), `ver_maps` (Model.v); spec: `reordered` (SpecListed.v) | the folds over the declarations commute when the names differ; `stands_in` by induction on the document.  Refuted for the tables of a binary classification |
| C135 | `eval_none`, `eval_last`, `eval_aggregate`, `eval_weighted`, `pick_best` (Tree.v); spec: `below`, `node_dist`, `reported` | from C15, C17 and C20 and the answers of subtrees by induction; weightedConfidence on the compiled tree, where node ids need not differ.  Refuted for defaultChild and, as to the class, for trees without record counts |
| C136 | `eval_none`, `eval_null`, `new_node` (Tree.v), `compound_loop` (Pred.v); spec: `all_of`, `rules`, `as_rules`, `ruled` (SpecRules.v) | the conjunction of a path has the three-valued value of its predicates; scanning the rules of a node is scanning the node, by induction on the tree; `stands_in` |
| C137 | `new_model`, `new_tree_model`, `tree_compile`, `compile_segments` (Tree.v, Model.v); spec: `tested`, `type_given`, `same_outcome`, `left_by` (SpecEarlier.v) | equal types of the tested fields are kept when the same local fields are appended; induction on documents, all three outcomes of NewModel; C05 for what is left behind |
| C138 | `bench`, `walk`, `bench_file`, `path_ext`, `path_base` (Perf.v); spec: `last_named`, `same_name`, `loads` (SpecPerf.v) | the file's key is its last path element without .xml, so keys differ exactly if names do; induction on the walk; `history_independent` for the iterations |
| C139 | `get_raw_value`, `ordering`, `compile_predicate`, `handle_map_values`, `handle_constant`, `new_model`; spec: `same_kind`, `retyped_data`, `retyped_derived`, `retyped` (SpecKinds.v) | field types related pointwise give equal compiled tests and equal verdicts; induction on the document; one literal that every kind reads differently for the converse |
| C140 | `regr_evaluate`, `linear_form` (Regression.v); spec: `converts`, `model_converts`, `row_converts` (SpecUnits.v) | the exact products of coefficient and input are the same real number, so Flocq's multiplication rounds both to the same float, with the sign of zeros from the operands; induction on the predictors |
| C141 | `regr_evaluate`, `linear_form` (Regression.v); spec: `without`, `weightless`, `model_without` (SpecZero.v) | a zero product leaves a partial sum alone, which is never the negative zero (Flocq); induction on the predictors |
| C142 | `evaluate`, `run_method`, `chain` (Model.v), `tree_output` (Tree.v), `regr_evaluate` (Regression.v); spec: `may_report`, `speaker` (SpecTypes.v) | induction on the evaluator; trees by the classes of their score lists (ProofsClass) |
| C143 | `handle_input` (Expr.v), `new_model`, `evaluate` (Model.v); spec: `consulted`, `dropped` (SpecUnread.v), `redefined`, `settled` (SpecDerive.v) | simulation between rows and types that agree off the names left out, by induction on the document |
| C144 | `eval_none` … `eval_aggregate`, `scan_step` (Tree.v); spec: `with_else`, `takes_the_rest`, `descend_late` (SpecElse.v) | descents of the two trees step by step (C15, C16); induction on the tree for the last true child |
| C145 | `default_values`, `evaluate` (Model.v), `tree_evaluate`, `regr_evaluate`; spec: `imputed` (SpecModel.v), `with_fields`, `only_ensembles_replace` (SpecDeclared.v) | C44_imputation for both rows, imputing twice is imputing once; equality of the parts a document is read for (C73) |
| C146 | `new_model`, `evaluate` (Model.v), `field_types`, `target_values`; spec: `untreated`, `targets`, `other_values`, `not_listed` (SpecDeclared.v) | equality of the parts a document is read for (C73); documents standing in for each other (C98) with equal types of all fields and equal values of targets |
| C147 | `eval_none` … `eval_aggregate`, `first_true`, `first_known`, `scan_step` (Tree.v); spec: `wrapped`, `rewrapped` (SpecWrap.v) | equal evaluation of compiled nodes by induction; for the other strategies equal leaves of the descent of C144_last_child |
| C148 | `eval_none` … `eval_aggregate` (Tree.v), `eval_compound` (Pred.v); spec: `joined`, `rejoined` (SpecJoin.v) | equal evaluation of compiled nodes by induction; for the last true child equal leaves of the descent of C144_last_child |
| C149 | `chain`, `sum_segments`, `select_first` (Model.v); spec: `unread`, `ordered`, `own_failure` (SpecSilent.v) | rows that agree off the written names are answered alike (C143); frame of C29 for the member; types of C137 |
| C150 | `handle_input`, `tree_compile`, `compile_segments`, `evaluate`; spec: `hands_over`, `involves`, `declared_above` (SpecOnce.v) | a member answers like the relieved one on the completed row (`relieved_hand`); completed rows stay completed (C29, C39), so computing again changes nothing (`method_content`); congruence up to types (`declared_good`) |
| C151 | `convert_dists`, `eval_*`, `pick_best`, `tree_output` (Tree.v); spec: `classes_reordered` (SpecDists.v), `same_but_ties` (SpecOrder.v) | whole totals are exact, so converted scores are permuted (`convert_perm`); every strategy maps permuted scores to permuted scores (`node_evaluate_sorted`; additions per class commute); permuted scores report the same row up to ties (`reordered_rows`) |
| C152 | `sum_segments`, `score_init`, `rescale_step`, `score_out`, `new_model` (Model.v), `output_dist`, `tree_output` (Tree.v); spec: `constant_tree`, `with_constant`, `constants_folded` (SpecConstant.v) | the constant tree answers its number under every strategy (`constant_built`); as last summand it is added to every key (`sum_last`), as the targets add it (`rescale_outputs`); lifted to documents with `mining_stands_in`; totals start at +0 and are never -0, so that adding 0 changes nothing (`sum_left_out`) |
| C153 | `compound_loop`, `run_test`, `compile_predicate` (Pred.v), `eval_*`, `new_node` (Tree.v); spec: `part_of`, `trimmed_pred`, `trimmed`, `trimmed_trees`, `holds`, `implied`, `wider` (SpecTrim.v) | true operands do not change an and (`thinned_and`); trees whose tests agree wherever the row gets to evaluate alike under every strategy (`node_evaluate_at`); both documents compile together (`nodes_compile`); comparisons are transitive on all of float64 (`compare_trans`) |
| C154 | `first_true`, `first_known`, `eval_none`, `eval_null`, `output_dist` (Tree.v), `eval_simple`, `compound_loop` (Pred.v); spec: `excluded`, `lopped`, `apart` (SpecDead.v), `holds`, `certain` (SpecTrim.v) | skipped children leave `first_true` and `first_known` alone (`eval_none_lean`, `eval_null_lean`); a true condition is never followed by a later sibling (`none_entered`, `null_entered`); bounds apart exclude each other by transitivity on all of float64 (`apart_float`) |
| C155 | `ver_maps`, `ver_input`, `ver_check_step`, `ver_rows`, `model_verify` (Model.v); spec: `seen_alike` (SpecAlike.v), `verification_input`, `output_column` (SpecVerify.v) | the checks of a row read only the expected columns (`check_alike`); row by row with the state left behind (`rows_alike`) |
| C156 | `evaluate`, `sum_models`, `chain_models`, `regr_evaluate` (Model.v, Regression.v); spec: `boosted_classifier`, `scores`, `predictions`, `added`, `logistic` (SpecBoosted.v) | the chain, sum and average theorems (C47 to C49) applied to the trees built on their own (`sum_of_trees`, `logistic_row`, `boosted_run`) |
| C157 | `new_model`, `compile_segments`, `evaluate`, `run_method` (Model.v); spec: `answers_for`, `exchanged` (SpecExchange.v) | induction over the document with the congruence of the four methods (`mining_stands_in`, `run_method_sim`), then over the exchanges (`exchanges_answer`) |
| C158 | `average_models`, `average_row`, `sum_models`, `rescale_step` (Model.v); spec: `as_sum`, `rescaled_average` (SpecMean.v), `exchanged` (SpecExchange.v) | dividing by a power of two and multiplying by its inverse round the same real number (`div_pow`, with Flocq); the rest as C157 (`average_pair`) |
| C159 | `evaluate`, `sum_models`, `chain_models`, `regr_evaluate` (Model.v, Regression.v); spec: `boosted_classifier`, `scores`, `added` (SpecBoosted.v), `decent_exp` (PropertiesSign.v) | C156 with the monotony of rounded addition, of the logistic function (C81) and of 1 - p (`rest_anti`, with Flocq) |

## Trusted base

* Coq's kernel; the standard library; std++; Flocq for `RealLib.v`, `AccLib.v`,
  `ForestLib.v`, `PropertiesReal.v`, `PropertiesAccuracy.v`, `PropertiesForest.v`, `PropertiesForestSum.v`, `SpecRecords.v`, `ProofsRecords.v`,
  `PropertiesRecords.v`, `PropertiesPenalty.v`, `SpecDecimal.v`, `ProofsDecimal.v`,
  `PropertiesDecimal.v`, `ProofsFloat32.v`, `PropertiesFloat32.v`, `ProofsOrder.v`, `PropertiesOrder.v`,
  `ProofsSoftmax.v`, `PropertiesSoftmax.v`,
  `ProofsForestWeighted.v`, `PropertiesForestWeighted.v`, `SpecUnits.v`, `ProofsUnits.v`, `PropertiesUnits.v`, `ProofsSign.v`, `PropertiesSign.v`, `ProofsMean.v`, `ProofsLeftZero.v`, `PropertiesLeftZero.v`, `ProofsDists.v`, `PropertiesDists.v`, `SpecZero.v`, `ProofsZero.v`, `PropertiesZero.v`.
* `Print Assumptions` says "Closed under the global context" for every theorem of
  every `Properties*.v` file except these:
  `C26_unit_interval`, `C42_nearest_partial`, `C42_exact_up_to_53_bits`,
  `C42_nearest_refuted`, `C59_logistic_normalize`, `C59_logistic_regression`,
  `C65_softmax_unit`, `C65_simplemax_unit`, `C66_one_predictor_unit_partial`,
  `C78_sum_accuracy_partial`, `C79_average_accuracy_partial`, `C80_linear_accuracy`,
  `C81_monotone`, `C81_logistic_monotone`, `C82_softmax_order`, `C83_probabilities_sum`,
  `C101_single_average`, `C105_unit_partial`, `C105_aggregate_partial`,
  `C106_average_unit`, `C106_forest`, `C107_monotone`, `C108_neutral`, `C112_proportions`, `C114_probabilities`,
  `C117_decimals`, `C117_never_reversed`, `C117_floats`, `C117_equal`, `C117_sixteen_digits_refuted`, `C117_float32_refuted`,
  `C118_float64`, `C118_overflow`, `C118_round_trip`, `C118_widening`, `C118_integer`, `C119_whole_records`,
  `C125_tree_partial`, `C125_average_partial`, `C125_forest_partial`, `C125_answering_forest_partial`,
  `C125_silent_member_refuted`, `C125_penalty_refuted`, `C125_weighted_partial`, `C130_softmax`, `C130_simplemax`,
  `C141_left_out`,
  `C151_order`, `C151_accepted`,
  `C152_zero`,
  `C158_power_of_two`,
  `C159_sign`, `C159_ordered`,
  `C140_units` and `C140_two_outputs`.
  They use the axioms of the standard library's real numbers:
  `ClassicalDedekindReals.sig_not_dec`, `ClassicalDedekindReals.sig_forall_dec`,
  `FunctionalExtensionality.functional_extensionality_dep` and
  `Classical_Prop.classic`.
* The correspondence between the Go text and the Gallina definitions, each of
  which cites file and lines.  `Replay.v` checks it on the repository's tests.
* The laws stated in `Ext`: `range` visits each key once, and `ParseFloat("")` is
  an error.

## Not modelled

* Error message texts; logging; memory exhaustion; stack overflow on cyclic
  documents (documents are finite trees as produced by the XML decoder); the
  profile, the clock and the printed figures of `main/perftest.go`.
* The byte-level XML parser: `decode` starts from the element tree.  Name spaces
  are dropped, attribute and element names are local names.  Numbers in
  attributes are trimmed of ASCII white space only, Go trims Unicode white space.
* Structs that are decoded but never read by the evaluator (NeuralNetwork and the
  other model kinds, Header, ModelStats, ...): whether decoding them succeeds is
  the oracle `U`, arbitrary in the theorems before C90.  `go_unread` (Reflect.v) is
  what it is in Go, and C93 shows that with it `decode` is exactly encoding/xml.
* encoding/xml itself is modelled from its documentation, without its limit of
  10000 nested elements.
* `defaults.SetDefaults`, called by the hand-written UnmarshalXML methods: the one
  default it sets (Apply/returnInvalid) is in `Schema.v`; the evaluator reads none.
* nil pointers: `Nil.v` has them for the arguments and the result of NewModel, and
  the row beside an error; the rest of the model has non-nil dictionaries.
* `shellwords.Parse`, used by the array accessors: a parameter of the model, with
  the law that an error comes with a nil slice.
