#!/usr/bin/env python3
"""Writes /verif/properties.jsonl.  One P(...) call per property."""
import json, os
OUT = os.path.join(os.path.dirname(__file__), "..", "properties.jsonl")
rows = []
def P(title, statement, quantifier, why, *anchors):
    rows.append(dict(id="C%02d" % (len(rows) + 1), title=title, statement=statement,
                     quantifier=quantifier, why_tests_cant=why, anchors=list(anchors)))
T, I, M, R, V, S = ("evaluation/tree.go", "evaluation/input.go", "evaluation/mining.go",
                    "evaluation/regression.go", "evaluation/evaluation.go", "evaluation/miningschema.go")
EL, CT, GR = "models/elements.go", "models/complexTypes.go", "models/groups.go"

# ---- construction -------------------------------------------------------
P("NewModel accepts exactly the three supported model kinds",
  "NewModel returns an error for every model element that is not a TreeModel, MiningModel or RegressionModel, and leaves the TransformationDictionary untouched in that case; when it succeeds the evaluator is of the same kind as the element.",
  "every model element, data dictionary and transformation dictionary",
  "The set of documents is infinite and nested; tests load a handful of files.",
  f"{V}:NewModel", f"{GR}:GetModelElement")
P("Exactly which tree documents compile",
  "NewTreeModel succeeds if and only if the mining function is classification or regression and every SimplePredicate anywhere in the tree (including inside compound predicates) names a field declared in the DataDictionary, TransformationDictionary or LocalTransformations whose data type is boolean, double, float, integer or string and whose literal parses as that type.",
  "every tree of every depth, every predicate nesting, every dictionary",
  "Unbounded trees and predicate nesting.",
  f"{T}:NewTreeModel", f"{T}:compilePredicate", f"{T}:newNode", f"{V}:getRawValue")
P("Constructed evaluators never report a lifecycle error",
  "An evaluator returned by NewModel never answers Evaluate with ErrNotValidated or ErrNotCompiled, at any nesting depth; a zero-value TreeModel or MiningModel always answers ErrNotValidated and leaves the row alone.",
  "every document NewModel accepts, every row, every iteration order",
  "Ranges over every nesting of mining models.",
  f"{T}:Evaluate", f"{M}:Evaluate", "evaluation/error.go")
P("Exactly which mining documents compile",
  "NewMiningModel succeeds if and only if the multiple-model method is empty, average, sum, modelChain or selectFirst, every output field has no feature or the feature probability, and every segment holds exactly one model which itself is accepted given the fields declared so far.",
  "every mining document of every nesting depth",
  "Unbounded recursive documents.",
  f"{M}:Validate", f"{M}:Compile", f"{V}:NewModel")
P("Construction extends the shared transformation dictionary in document order",
  "A successful NewModel leaves the caller's TransformationDictionary equal to its old derived fields followed by every LocalTransformations field of the document in pre-order, nothing removed, reordered or changed; a failing one still leaves the old dictionary as a prefix.",
  "every document and every initial dictionary",
  "Shared-state effect over unboundedly nested documents.",
  f"{T}:Compile", f"{M}:Compile")
# ---- predicates ---------------------------------------------------------
P("Numeric predicates compare the input with the literal",
  "For a compiled predicate on a double or float field the operators lessThan, lessOrEqual, greaterThan and greaterOrEqual are true exactly when the IEEE comparison of the input's Float64() with the literal holds, and false otherwise; on an integer field they compare Int64() with the integer literal.",
  "every field, literal, operator and present input value of every Go type",
  "The value space is every float, integer and string.",
  f"{T}:evaluateSimplePredicate", f"{S}:Value.Float64", f"{S}:Value.Int64")
P("A simple predicate is unknown exactly when its field is absent",
  "A compiled SimplePredicate yields unknown if and only if its field is absent from the row and its operator is not isMissing; isMissing is true exactly on absent fields and isNotMissing, when the field is present, is true.",
  "every compiled predicate and row",
  "All rows and predicates.",
  f"{T}:evaluateSimplePredicate")
P("Compound predicates follow three-valued logic",
  "A compiled CompoundPredicate over simple, compound and set predicates evaluates and/or as Kleene conjunction/disjunction, xor as parity that is unknown when any operand is unknown, and surrogate as the first operand that is not unknown (unknown if all are).",
  "every operand list of every length and nesting",
  "Unbounded arity and nesting depth.",
  f"{T}:evaluateCompoundPredicate")
P("True and False operands of a compound predicate keep their truth value",
  "A True or False element used as an operand of a CompoundPredicate contributes true or false.",
  "every compound predicate with constant operands",
  "Holds or fails for the whole family; a test shows one instance.",
  f"{T}:evaluateCompoundPredicate")
P("Compiled predicates never panic",
  "Once compiled, no predicate panics on any row, whatever Go types the row holds (the unchecked type assertions on the literal always succeed).",
  "every compiled predicate, every row, every Go value type",
  "A panic hides in any of infinitely many type/operator/row combinations.",
  f"{T}:evaluateSimplePredicate", f"{T}:compilePredicate")
P("Predicates look only at the fields they mention",
  "Two rows that agree on the fields mentioned in a predicate give the same predicate result.",
  "every predicate and every pair of rows",
  "Non-interference is a two-run property over all rows.",
  f"{T}:evaluateSimplePredicate", f"{T}:evaluateCompoundPredicate")
P("Set predicates test membership",
  "A SimpleSetPredicate with isIn is true when the field value is listed in the array and isNotIn is true when it is not.",
  "every set predicate and row",
  "Ranges over all arrays and values.",
  f"{T}:evaluateSimpleSetPredicate", f"{T}:newNode")
P("equal and notEqual are complementary on present values",
  "For a present field equal and notEqual with the same literal give opposite answers, and for an absent field both are unknown.",
  "every field, literal and value, NaN included",
  "All values including NaN and mixed Go types.",
  f"{T}:evaluateSimplePredicate")
P("Binary numeric splits are exhaustive and exclusive",
  "For a numeric field and threshold exactly one of lessOrEqual/greaterThan, and exactly one of lessThan/greaterOrEqual, is true for every present value that is not NaN; for a NaN value none is true.",
  "every threshold and every present value",
  "Needs all of IEEE order, not samples.",
  f"{T}:evaluateSimplePredicate")
# ---- tree evaluation ----------------------------------------------------
P("Strategy none descends through the first true child",
  "With missingValueStrategy none (or any unrecognised value) evaluation succeeds iff the root predicate is true, and then returns the distribution of the node reached by repeatedly moving to the first child whose predicate is true, unknown counting as false, stopping where no child is true.",
  "every tree and row",
  "Unbounded depth and fan-out.",
  f"{T}:evaluateMissingValueStrategyNone", f"{T}:evaluate")
P("Strategy nullPrediction gives no prediction once an unknown is met",
  "With nullPrediction the descent is the same, but meeting an unknown predicate among the children inspected (at or before the first true one) makes Evaluate return no prediction and no error.",
  "every tree and row",
  "Unbounded depth and fan-out.",
  f"{T}:evaluateMissingValueStrategyNullPrediction")
P("Strategy lastPrediction stops at the last known node",
  "With lastPrediction, if some child predicate of a reached node is unknown the prediction is that node's own distribution (PMML: evaluation stops and the current winner is returned), and a child with an unknown predicate is never descended into.",
  "every tree and row",
  "Unbounded trees.",
  f"{T}:evaluateMissingValueStrategyLastPrediction")
P("Strategy defaultChild uses the penalised default child",
  "With defaultChild, when a child of the current node is unknown the result is the scores of the child whose id is defaultChild with confidence and probability multiplied by missingValuePenalty and record counts and values unchanged, or no prediction when there is no such child.",
  "every tree and row",
  "Unbounded trees, any ids.",
  f"{T}:evaluateMissingValueStrategyDefaultChild")
P("Strategy weightedConfidence averages by record count",
  "With weightedConfidence and distinct child ids, when a child is unknown the reported probability (and confidence) of a class is the sum over the non-false children of their probability times their share of the total record count of the non-false children.",
  "every tree, row and map iteration order",
  "Unbounded fan-out and iteration orders.",
  f"{T}:evaluateMissingValueStrategyWeightedConfidence")
P("Strategy aggregateNodes aggregates record counts",
  "With aggregateNodes, when a child is unknown the reported probability and confidence of each class are its record count summed over the children's distributions divided by the total of all record counts, one entry per class.",
  "every tree, row and map iteration order",
  "Unbounded fan-out and iteration orders.",
  f"{T}:evaluateMissingValueStrategyAggregateNodes")
P("Missing-value strategies agree when nothing is missing",
  "On a row that makes no predicate of the tree unknown, and on which at most one child of each node is true and every node carries a distribution, all six missingValueStrategies return the same scores.",
  "every tree and every fully known row",
  "Relates six recursive procedures over all trees.",
  f"{T}:evaluate")
P("The predicted class is the most probable one",
  "The class reported under the target field has the largest probability among the reported class probabilities (the first such class in distribution order), whenever some probability is positive.",
  "every score list",
  "All list lengths and float values incl. NaN.",
  f"{T}:pickBest", f"{T}:TreeModel.Evaluate")
P("Classification output has exactly the expected keys",
  "A successful classification Evaluate returns the target field and probability(v) for each class v of the distribution and no other key, each holding that class's probability.",
  "every tree, row and cache state",
  "All class sets and histories.",
  f"{T}:TreeModel.Evaluate")
P("Regression output is the parsed score of the reached node",
  "A successful regression Evaluate returns exactly one key, score, holding the reached node's score parsed as a float; if it does not parse Evaluate returns an error.",
  "every regression tree and row",
  "All trees and rows.",
  f"{T}:TreeModel.Evaluate")
P("Evaluate of a compiled tree never panics",
  "Evaluating a successfully constructed tree on any non-nil row never panics.",
  "every accepted tree and row",
  "Panics hide in unvisited combinations.",
  f"{T}:TreeModel.Evaluate", f"{T}:outputScoreDist", f"{T}:newNode")
P("Default class probabilities are record-count shares in [0,1]",
  "When a ScoreDistribution has no explicit probability (confidence) its probability (confidence) is recordCount divided by the node's total; for finite non-negative counts with positive finite total it lies in [0,1]. Explicit values are kept verbatim.",
  "every distribution list",
  "Float rounding over all count lists.",
  f"{T}:newNode")
P("returnNullPrediction suppresses predictions from inner nodes",
  "With noTrueChildStrategy returnNullPrediction, when the descent stops at a node with children because none is true, Evaluate reports no prediction.",
  "every tree and row",
  "All trees and rows.",
  f"{T}:outputScoreDist", f"{T}:TreeModel.Evaluate")
# ---- history, state, determinism ---------------------------------------
P("Evaluate is independent of earlier Evaluate calls",
  "After any sequence of Evaluate calls on a constructed evaluator, Evaluate on a row gives the same outcome and the same effect on the row as on a fresh evaluator.",
  "every history of calls",
  "All histories.",
  f"{T}:TreeModel.Evaluate", f"{M}:Evaluate")
P("Evaluate changes only announced keys of the caller's row",
  "Evaluate never removes a key, and changes or adds only names of local derived fields, fields with a missing-value replacement, and (for a model chain) output names of segments; in particular a model with none of these leaves the row untouched.",
  "every model and row, also when evaluation fails midway",
  "Frame property over all rows.",
  f"{I}:HandleInput", f"{M}:imputeMissingValues", f"{M}:evaluateMultipleModelChain")
P("Evaluate is deterministic",
  "The outcome of Evaluate does not depend on Go's random map iteration order.",
  "every model, row and pair of iteration orders",
  "Iteration order is outside a test's control.",
  f"{T}:evaluate", f"{M}:evaluateMultipleModelSum")
P("Compiling an evaluator again does not change its predictions",
  "Calling Validate and Compile any number of times on a constructed evaluator leaves every later Evaluate outcome unchanged.",
  "every evaluator and number of extra calls",
  "All histories of API calls.",
  f"{T}:Compile", f"{M}:Compile", f"{V}:Model")
P("Re-evaluating the same row gives the same outcome",
  "Calling Evaluate twice with the same DataRow object gives the same outcome twice.",
  "every model and row",
  "Depends on in-place mutation for all derived-field programs.",
  f"{I}:HandleInput", f"{M}:Evaluate")
P("Concurrent Evaluate on one model is race free",
  "Several goroutines may call Evaluate on the same model with their own rows without a data race on the model.",
  "every interleaving of any number of calls",
  "Schedules are unbounded.",
  f"{T}:TreeModel.outKeys", f"{T}:TreeModel.Evaluate")
# ---- expressions --------------------------------------------------------
P("Expressions depend only on the fields they reference",
  "Two rows that agree on the fields referenced by an expression give the same value or the same error.",
  "every expression and pair of rows",
  "Two-run property over unbounded expressions.",
  f"{I}:HandleExpression")
P("Arithmetic functions compute the IEEE result of their two arguments",
  "+ - * / applied to two arguments evaluate to the float64 operation on the arguments' Float64(), sum to the left-to-right float sum of all arguments, and any other number of arguments (for the binary ones) is an error.",
  "every argument expression list",
  "Unbounded nesting and arity.",
  f"{I}:handleApplyExpression")
P("isMissing and isNotMissing are complementary",
  "For every argument list isNotMissing returns the negation of isMissing, or both return an error; isMissing of a field reference is true iff the field is absent or nil.",
  "every argument and row",
  "All expressions.",
  f"{I}:isMissing", f"{I}:handleApplyExpression")
P("if evaluates only the selected branch",
  "if with a condition that evaluates to true returns exactly the outcome of its second argument, otherwise (false or not a bool) that of its third, whatever the other branch would do, including failing; a failing condition fails the whole expression.",
  "every condition and branches",
  "All expressions.",
  f"{I}:handleApplyExpression")
P("MapValues returns the last matching row, then the default, then the input",
  "MapValues returns the output of the last row (over all tables) whose input equals the input's string form; without a match it returns the default value parsed as the declared type, else the input itself, else an error. The string form of an integer of any width is its decimal numeral, of a string the string, of booleans true and false, of nil <nil>.",
  "every table, row and input",
  "All tables.",
  f"{I}:handleMapValuesExpression")
P("Derived fields are computed in document order and nothing else changes",
  "After local transformations succeed, every key that is not a derived field name is unchanged, and each derived field holds the value of its expression evaluated after the preceding derived fields were stored (converted to float64 when continuous).",
  "every derived-field list and row",
  "Unbounded sequences with data dependencies.",
  f"{I}:HandleInput")
P("Missing inputs stay missing through derived fields",
  "A derived field that copies a missing field is itself missing.",
  "every row",
  "Holds or fails for a whole family of documents.",
  f"{I}:HandleInput", f"{S}:Value.Float64")
P("A failing transformation fails Evaluate without output",
  "If a derived field's expression is unsupported or fails, tree and mining Evaluate return that error and no output.",
  "every document and row",
  "All documents.",
  f"{I}:HandleInput", f"{T}:TreeModel.Evaluate", f"{M}:Evaluate")
# ---- values -------------------------------------------------------------
P("Integers convert by two's complement and every width agrees",
  "Int64 of every Go integer type returns the same number when it fits in int64, uint and uint64 wrap modulo 2^64, every non-integer value gives 0, and Float64 of an integer is the nearest float64.",
  "every integer of every width",
  "2^64 values per width.",
  f"{S}:Value.Int64", f"{S}:Value.Float64")
P("Numeric strings behave as the number they denote in float comparisons",
  "Float64 of a string is its parsed value, and 0 when it does not parse; so a numeric predicate on a double or float field gives the same result for a string and for the float it parses to.",
  "every string",
  "All strings.",
  f"{S}:Value.Float64", f"{T}:evaluateSimplePredicate")
# ---- mining -------------------------------------------------------------
P("Imputation replaces exactly the missing fields",
  "Mining Evaluate replaces each field that has a missingValueReplacement and is absent or nil in the row by that replacement, and leaves every present non-nil field alone.",
  "every row, schema and iteration order",
  "All rows and iteration orders.",
  f"{M}:imputeMissingValues")
P("selectFirst returns the first segment's outcome",
  "With selectFirst Evaluate returns exactly what the first segment's model returns on the prepared row (error when there are no segments).",
  "every segment list and row",
  "All nestings.",
  f"{M}:evaluateMultipleModelSelectFirst")
P("Segment predicates gate their segments",
  "A segment whose predicate is not true for the row does not contribute to the outcome.",
  "every segmentation and row",
  "Family of documents.",
  f"{M}:Compile", f"{EL}:Segment")
P("modelChain feeds each output to the next segment and returns the last",
  "With modelChain, segment i+1 is evaluated on the row extended (overriding) with segment i's outputs, and Evaluate returns the last segment's outcome, or an empty row without segments.",
  "every segment list and row",
  "Unbounded chains.",
  f"{M}:evaluateMultipleModelChain")
P("sum adds the segments' scores in order and rescales targets",
  "With sum each output field and target gets 0 plus each segment's contribution in segment order (its own key for classification, score otherwise; absent contributions add nothing), targets are then multiplied by rescaleFactor and increased by rescaleConstant.",
  "every segment list, output list, target list, row, iteration order",
  "Unbounded lists and orders.",
  f"{M}:evaluateMultipleModelSum")
P("average is the rescaled sum divided by the number of segments",
  "With average every output of the sum is divided by the number of segments of the document.",
  "every segmentation and row",
  "Unbounded lists.",
  f"{M}:evaluateMultipleModelAverage")
P("A failing segment fails the ensemble",
  "If a segment evaluated by the chosen method returns an error, Evaluate returns that error and no output.",
  "every segmentation, method and row",
  "All nestings.",
  f"{M}:Evaluate")
P("sum and average report exactly the declared outputs and targets",
  "The keys of a successful sum or average are exactly the output field names and target field names of the mining model.",
  "every mining model and row",
  "All documents.",
  f"{M}:evaluateMultipleModelSum", f"{M}:evaluateMultipleModelAverage")
# ---- regression ---------------------------------------------------------
P("Linear regression computes the normalised affine form",
  "For functionName regression with one table and one output field the output is the normalisation of intercept + sum of coefficient*input in table order, under that output's name only.",
  "every table and row",
  "All coefficient lists.",
  f"{R}:EvaluateRegression")
P("Binary classification outputs are complementary",
  "With a predictor table followed by an empty table the second output is 1 minus the first.",
  "every first table, row and normalisation",
  "All rows.",
  f"{R}:EvaluateBinaryClassification")
P("Multiclass outputs are the softmax (simplemax) of the linear forms",
  "Each declared class receives exp(y_i)/sum exp(y_j) (or y_i/sum y_j) with y the linear forms in table order; any other normalisation is an error.",
  "every table list and row",
  "All list lengths.",
  f"{R}:EvaluateMulticlassClassification")
P("A missing predictor is an error",
  "Regression Evaluate returns an error and no output whenever some reached numeric predictor is absent from the row, and never substitutes a value.",
  "every regression model and row",
  "All rows.",
  f"{R}:EvaluateRegression", f"{R}:EvaluateBinaryClassification", f"{R}:EvaluateMulticlassClassification")
P("Normalisation none is accepted",
  "A regression model whose normalisation method is none (the PMML default) evaluates to the plain linear form.",
  "every table and row",
  "Family of documents.",
  f"{R}:normalize")
P("Regression evaluation chooses the procedure from the document",
  "functionName regression uses linear regression, classification with exactly two output fields the binary procedure, classification otherwise the multiclass one, anything else is an error.",
  "every regression document",
  "All documents.",
  f"{R}:Evaluate")
P("Regression Evaluate never changes the row and looks only at its predictors",
  "Evaluate of a RegressionModel leaves the row untouched and its outcome depends only on the fields named by its predictors.",
  "every regression model and pair of rows",
  "Two-run property.",
  f"{R}:Evaluate")
P("Logistic normalisation stays in [0,1]",
  "With logit or softmax normalisation and an exponential that is never negative or NaN on the given input, the normalised value is a number between 0 and 1.",
  "every float input",
  "All floats, rounding included.",
  f"{R}:normalize")
P("Predictor coefficients and exponents enter the score",
  "In binary classification the score depends on the predictor's coefficient, and everywhere on its exponent.",
  "every regression document",
  "Family of documents.",
  f"{R}:EvaluateBinaryClassification", f"{R}:EvaluateRegression")
# ---- verification -------------------------------------------------------
P("Verify succeeds exactly when every row matches",
  "Verify returns nil iff there is no ModelVerification, or all column names start with data:, and for every table row Evaluate succeeds on the row's input columns and produces every expected output column present in the row with not(|expected-predicted| > 1e-5*expected).",
  "every model, verification table and iteration order",
  "All tables and orders.",
  f"{V}:verifyModel")
P("A model reproducing the expected outputs passes Verify",
  "If Evaluate returns exactly the expected value for every expected column, Verify succeeds.",
  "every model and verification table",
  "All expected values including negative ones.",
  f"{V}:verifyModel")
P("Verify detects NaN predictions",
  "If a predicted value is NaN while a number was expected, Verify fails.",
  "every model and verification table",
  "Needs all float cases.",
  f"{V}:verifyModel")
P("Verify feeds inputs under their field names",
  "Each verification column without precision is passed to Evaluate under the field name declared for the column.",
  "every verification table",
  "All column/field pairings.",
  f"{V}:verifyModel")
# ---- values produced by regression classification ------------------------
P("Multiclass probabilities lie in [0,1]",
  "With softmax (or simplemax) normalisation, when every class term is a finite non-negative number and their float sum is positive and finite, every reported value is a number between 0 and 1.",
  "every multiclass model, row and rounding",
  "All floats, rounding included.",
  f"{R}:EvaluateMulticlassClassification")
P("Binary probabilities lie in [0,1]",
  "A binary classification with logit or softmax normalisation reports two numbers between 0 and 1 whenever the exponential of every predictor is a finite non-negative number.",
  "every binary model and row",
  "All floats, rounding included.",
  f"{R}:EvaluateBinaryClassification", f"{R}:normalize")
# ---- reading the document -----------------------------------------------
P("A document written as XML is read back unchanged",
  "Decoding the XML form of a PMML document yields the same version, data dictionary, transformation dictionary and models, in the same order, for every document whose numbers are printed in a form strconv parses back and whose constants contain no markup characters.",
  "every document of the modelled part of PMML, every nesting depth",
  "Unbounded documents: tests read a handful of files.",
  f"{EL}:UnmarshalXML", f"{EL}:TreeModel", f"{EL}:MiningModel", f"{EL}:RegressionModel")
P("Integer split literals are read exactly",
  "On a field of type integer a predicate literal written in decimal compiles to exactly that number if it fits 64 bits and is an error otherwise, and the four order comparisons of a row's integer against it are those of the integers.",
  "every integer, every comparison, every row",
  "Two to the 64 literals and values.",
  f"{V}:getRawValue", f"{T}:compilePredicate", f"{T}:evaluateSimplePredicate")
P("Layout does not change what a document means",
  "Reordering attributes, adding attributes of other vendors, comments and white space between elements, and unknown elements where structures are read by struct tags, all leave the decoded document the same.",
  "every document and every such rewriting at every depth",
  "Infinitely many layouts of infinitely many documents.",
  f"{EL}:UnmarshalXML", f"{EL}")
P("Extension elements are ignored",
  "Adding an Extension element below any element, as PMML allows, leaves the decoded document unchanged.",
  "every document, every place",
  "All positions in all documents.",
  f"{EL}:UnmarshalXML", f"{EL}:Segment", f"{EL}:InlineTable")
P("A constant is the text of its element",
  "The value of a Constant element is the character data of the element.",
  "every text and data type",
  "All texts, including those needing escapes.",
  f"{EL}:Constant")
P("Every predictor of a regression table counts",
  "A regression table's numeric predictors, categorical predictors and predictor terms all reach the evaluator.",
  "every regression table",
  "All tables.",
  f"{EL}:RegressionTable", f"{R}:EvaluateRegression")
# ---- what decides a prediction ------------------------------------------
P("Annotations never influence a prediction",
  "Two documents that differ only in annotations (verification data, segment and node identifiers nothing refers to, usage types other than target, outlier and missing value attributes of mining fields, confidences a strategy does not read, default values of expressions) are accepted or rejected together with the same error, and their evaluators give equal answers to every row after any history of calls.",
  "every document, every row, every history, every iteration order",
  "Infinitely many documents carry the same meaning; a test fixes one.",
  f"{T}:NewTreeModel", f"{M}:NewMiningModel", f"{R}:NewRegressionModel", f"{T}:Evaluate")
P("A left-out attribute acts as its PMML default",
  "Writing the default value of an optional attribute into a document (missingValueStrategy, missingValuePenalty, noTrueChildStrategy, usageType, outliers, invalidValueTreatment, feature) changes no prediction.",
  "every document and every row",
  "All combinations of present and absent attributes.",
  f"{EL}:TreeModel", f"{EL}:OutputField", f"{T}:evaluate", f"{M}:Validate")
P("mapMissingTo and defaultValue replace missing results",
  "A FieldRef with mapMissingTo, or an Apply with mapMissingTo or defaultValue, yields the replacement when its input is missing.",
  "every expression, every row",
  "All expressions and all patterns of missing inputs.",
  f"{I}:HandleExpression", f"{I}:handleApplyExpression")
P("Regression models compute their derived fields",
  "A predictor naming a field derived in the LocalTransformations of a RegressionModel uses the derived value.",
  "every regression model and row",
  "All models: the tests have no regression with transformations.",
  f"{R}:Evaluate", f"{R}:NewRegressionModel")
P("Fields of the TransformationDictionary are computed",
  "A field derived in the document's TransformationDictionary is available to predicates and predictors of every model.",
  "every document and row",
  "All documents and derived fields.",
  f"{I}:HandleInput", f"{T}:Evaluate")
# ---- rounding ------------------------------------------------------------
P("The order of the segments does not change a sum",
  "Permuting the segments of an ensemble with method sum leaves the reported score unchanged.",
  "every ensemble, every permutation, every row",
  "All permutations of all ensembles with all rounding patterns.",
  f"{M}:evaluateMultipleModelSum", f"{M}:Evaluate")
P("An average lies between the segments' scores",
  "With method average the reported score is at least the smallest and at most the largest of the segments' scores.",
  "every ensemble and row",
  "All score combinations, rounding included.",
  f"{M}:evaluateMultipleModelAverage", f"{M}:Evaluate")
P("A linear prediction is accurate",
  "The linear form a regression model feeds into its link function differs from the exact real value of intercept plus sum of coefficient times input by at most ((1+2^-53)^(n+1)-1) times the sum of the absolute terms, plus n(1+2^-53)^n 2^-1075, whenever it is finite.",
  "every regression model with n predictors and every row",
  "All floats, all lengths: an error bound cannot be tested.",
  f"{R}:EvaluateRegression")
P("Raising a predictor never lowers the prediction",
  "If one row's inputs are at least another's wherever the coefficient is not negative and at most wherever it is not positive, the reported prediction is at least the other's, rounding included, for every monotone link.",
  "every regression model, every pair of rows",
  "All pairs of rows; rounding could break the order anywhere.",
  f"{R}:EvaluateRegression", f"{R}:normalize")
P("Softmax keeps the order of the classes",
  "A class whose exponential is at least another's is reported with at least the other's probability.",
  "every multiclass model and row",
  "All floats, rounding included.",
  f"{R}:EvaluateMulticlassClassification")
P("Class probabilities add up to one",
  "With the default missing value strategy, the probabilities a tree reports for the classes of the reached node, when they come from integer record counts, add up to 1 within 2^-53.",
  "every tree, row and record counts up to 2^53 in total",
  "All counts; the bound is over real numbers.",
  f"{T}:newNode", f"{T}:Evaluate")
# ---- arrays --------------------------------------------------------------
P("Array accessors are typed and repeatable",
  "Strings, Int64s and Float64s succeed exactly on arrays of their type whose text is a list of such elements, return these elements, and give the same result whatever accessors were called before.",
  "every array text, every sequence of accessor calls",
  "All call sequences on all texts.",
  f"{CT}:Strings", f"{CT}:Int64s", f"{CT}:Float64s")
P("An array has the declared number of elements",
  "An accessor only succeeds if the array has as many elements as its attribute n declares.",
  "every array",
  "All lengths and texts.",
  f"{CT}:Int64s")
P("Integers written into an array are read back",
  "An int array whose words are the decimal forms of 64-bit integers yields exactly these integers.",
  "every list of 64-bit integers, every call history",
  "All integers, all lengths.",
  f"{CT}:Int64s")
# ---- names ---------------------------------------------------------------
P("Field names are only names",
  "Renaming the fields of a document consistently (injectively, leaving alone the names the library invents: the empty name, score and probability(...)) changes nothing but the names: the renamed document is refused exactly when the original is, for the same reason, and on the renamed row gives the renamed outcome. For a renaming that touches the invented names this fails.",
  "every document, injective renaming, row and call history",
  "All documents and all renamings; a test renames one field of one document.",
  f"{T}:Evaluate", f"{M}:Evaluate", f"{R}:Evaluate")
P("A prediction looks only at the inputs its document needs",
  "Two rows that agree on the fields the document reads and does not itself derive first get the same outcome from every model; other columns, also ones named like a derived field, are ignored.",
  "every document, every pair of rows, every call history",
  "All rows that differ elsewhere.",
  f"{T}:Evaluate", f"{M}:Evaluate", f"{I}:HandleInput")
# ---- sharing -------------------------------------------------------------
P("A second evaluator leaves the first alone",
  "Calling NewModel again on a document does not change what the evaluators already built from it answer. True when no field is declared with two data types; otherwise the literals cached in the shared predicates change type under the existing evaluator, which then answers differently or panics. A tree built again with its own dictionaries is never affected.",
  "every document, pair of dictionaries, call history and row",
  "All pairs of constructions; tests build one evaluator per document.",
  f"{T}:compilePredicate", f"{T}:newNode", f"{M}:Compile")
# ---- every struct --------------------------------------------------------
P("Every struct is filled field by field",
  "For each of the 267 structs of package models: decoding an element succeeds exactly when each attribute, text and child element that belongs to a field is readable for it (and the hand-written loops know every child), and then every field holds exactly what its own attribute, text or children say, or its zero value. The order of attributes never matters.",
  "every struct type, every element whose attributes are distinct and whose single children occur once",
  "267 types and unbounded trees of elements; tests decode a few files.",
  f"{EL}:UnmarshalXML", f"{GR}:GetModelElement")
P("Decoding keeps what the PMML schema declares",
  "What a struct has a field for is kept (two texts of a string attribute never decode to the same value) and everything else is dropped without trace. Of the elements the evaluator's documents are made of, exactly six attributes (among them Segment/weight) and twenty-one child elements (among them CategoricalPredictor and PredictorTerm) which the quoted schema declares are lost; so the claim that all is kept is false.",
  "every struct type, attribute, child element, text and surrounding element",
  "Needs all attribute names of all structs and all their values.",
  f"{EL}:Segment", f"{EL}:RegressionTable", f"{EL}:OutputField")
P("Exactly which elements fail to decode",
  "Decoding into a struct fails exactly when some number, integer or truth value in reach is malformed or one of the hand-written loops meets an unknown child. Whether a type can fail at all is decided by the types in reach; twelve of the eighteen model elements can never fail, whatever they contain.",
  "every struct type, every element",
  "All trees of elements; absence of failure for every content.",
  f"{EL}:UnmarshalXML", f"{GR}:GetModelElement")
P("The evaluator's document is what Go decoded",
  "The document the evaluator works on (and all properties here speak about) is a projection of the values encoding/xml stores in the structs of package models, and decoding fails for the one exactly when it fails for the other, also for malformed numbers in parts the evaluator never reads.",
  "every XML document",
  "All documents.",
  f"{EL}:PMML", f"{EL}:UnmarshalXML", f"{GR}:GetModelElement")
# ---- what a row may contain ----------------------------------------------
P("Missing values can be tested for as PMML writes it",
  "A SimplePredicate with isMissing or isNotMissing, which in PMML has no value attribute, is accepted for every field and decides whether the row has the field. False: such a predicate is accepted exactly for string fields, so NewModel refuses every tree that tests a number or a boolean for being missing.",
  "every field, operator, data type and document",
  "All documents; absence of acceptance for every data type but one.",
  f"{T}:compilePredicate", f"{V}:getRawValue", f"{T}:evaluateSimplePredicate")
P("A nil value counts as a missing value",
  "A row that maps a field to nil is treated like a row without the field. False: predicates find the field present (isMissing is false, nothing is unknown) and compare it as 0, and regression models compute with 0; only the isMissing and isNotMissing functions of expressions treat nil as missing.",
  "every predicate, regression model and row",
  "All predicates and rows.",
  f"{T}:evaluateSimplePredicate", f"{R}:Evaluate", f"{S}:Float64")
P("A number means the same in every Go type",
  "Whether a predicate holds of a number does not depend on the Go type it has in the row. True of order comparisons of double and float fields. False of equal, which demands exactly the Go type of the parsed literal (float64, int64), and of order comparisons of integer fields, for which every float64 (what encoding/json yields) counts as 0.",
  "every predicate, Go value and row",
  "All values of all Go kinds.",
  f"{T}:evaluateSimplePredicate", f"{S}:Int64")
# ---- written differently -------------------------------------------------
P("How compound predicates are written does not matter",
  "Reordering the operands of and, or and xor, flattening a compound nested in one of the same operator, unwrapping a compound of one operand and dropping a repeated operand of and or or, anywhere in the trees of an arbitrarily nested document, changes neither whether it is accepted nor any outcome. Surrogate operands are ordered and repeated xor operands count.",
  "every document, every sequence of such rewritings, every row and call history",
  "Closure under arbitrarily many rewritings of arbitrarily nested predicates.",
  f"{T}:evaluateCompoundPredicate", f"{T}:compilePredicate")
P("The data dictionary is looked up by name",
  "Two data dictionaries that say the same about each field tested by a predicate or predicted by a tree are interchangeable: the order of data fields with distinct names is irrelevant, and a data field that is neither tested nor predicted can be added or dropped.",
  "every document, pair of dictionaries, row and call history",
  "All dictionaries and all documents.",
  f"{T}:Compile", f"{M}:Compile", f"{T}:outputScoreDist")
P("A branch the row does not enter has no influence",
  "Dropping children whose predicate is false on the row, at any depth of a tree, does not change the outcome; dropping children under False changes no outcome at all. True for the strategies none, nullPrediction, lastPrediction and (unless the child is the default child) defaultChild without returnNullPrediction, and for weightedConfidence up to the order in which Go visits maps; false of aggregateNodes, which counts the records of false branches, of returnNullPrediction and of a false default child.",
  "every tree, strategy, set of dropped branches, row",
  "All trees and all sets of branches.",
  f"{T}:evaluate", f"{T}:evaluateMissingValueStrategyAggregateNodes", f"{T}:outputScoreDist")
# ---- segments ------------------------------------------------------------
P("Segments do not influence each other",
  "Each member of a sum or average ensemble contributes what it predicts on its own from the row the ensemble prepared. True when no member needs a field that an earlier member may write. False in general: the derived fields an earlier segment computes are left in the row and replace an input of the same name for the later ones.",
  "every ensemble, row and call history",
  "All ensembles; the comparison is with evaluators compiled separately.",
  f"{M}:evaluateMultipleModelSum", f"{M}:evaluateMultipleModelAverage", f"{M}:Compile", f"{I}:HandleInput")
P("An ensemble of one member is that member",
  "A selectFirst or modelChain ensemble with one segment and no derived fields or replacements of its own returns exactly what its member returns, errors, panics and the row left behind included, and is accepted whenever the member is. With sum and average each declared output is the member's value as a float64, except that a negative zero becomes zero.",
  "every single-segment ensemble, row and call history",
  "All members, nested arbitrarily; includes failures and panics.",
  f"{M}:Evaluate", f"{M}:evaluateMultipleModelSelectFirst", f"{M}:evaluateMultipleModelChain", f"{M}:evaluateMultipleModelSum")
P("Every kind of segment contributes to a sum or average",
  "A regression ensemble (sum or average) returns the sum or average of its members' predictions, whichever kind of model they are. False: a regression model's prediction is never found unless it declares an output called score, so an ensemble of regression models returns its rescaled zero whatever the members predict.",
  "every ensemble of regression models, row and call history",
  "All ensembles and rows.",
  f"{M}:evaluateMultipleModelSum", f"{M}:evaluateMultipleModelAverage", f"{R}:Evaluate")
P("The declared precision decides how close a prediction must be",
  "Verify accepts a row exactly when the prediction is within the precision its verification field declares. False: the value of the precision has no influence. Documents that differ only in declared precisions (and in anything else Evaluate does not read) get the same verdict: a prediction too far for the declared precision is accepted, one near enough is refused.",
  "every document, pair of verification tables with the same columns, row and call history",
  "All documents, precisions and tables.",
  f"{V}:verifyModel")
P("Verify checks the verification data of the members",
  "An ensemble whose members carry verification data is verified by them too. False: only the data of the outermost model count, whatever the members declare at any depth; a member that fails its own verification sits in an ensemble that passes.",
  "every document, at any nesting depth",
  "All documents and all member tables.",
  f"{V}:verifyModel", f"{M}:Verify")
# ---- probabilities and totals --------------------------------------------
P("The probabilities of a tree lie in [0,1]",
  "Every probability a classification tree reports lies between 0 and 1 when its record counts are not negative, its declared probabilities lie in [0,1] and its penalty does. True of every strategy but weightedConfidence, for aggregateNodes with whole record counts. False of weightedConfidence: the weights of nine equal children add up to more than 1 in floating point and 1.0000000000000002 is reported.",
  "every tree, strategy, row and call history",
  "All trees and distributions; rounding decides.",
  f"{T}:outputScoreDist", f"{T}:evaluateMissingValueStrategyAggregateNodes", f"{T}:evaluateMissingValueStrategyWeightedConfidence", f"{T}:evaluateMissingValueStrategyDefaultChild")
P("The probabilities of a forest lie in [0,1]",
  "Whenever an averaging ensemble of at most 2^53 such trees succeeds, each declared probability it reports lies between 0 and 1, rounding included; so it does for members of any kind whose contributions lie in [0,1].",
  "every ensemble, row and call history",
  "All forests, of any size; rounding errors accumulate.",
  f"{M}:evaluateMultipleModelAverage", f"{M}:evaluateMultipleModelSum", f"{T}:outputScoreDist")
P("Raising members' scores never lowers the total",
  "If each member of one ensemble contributes at least what its counterpart in another with the same header contributes, the sum and the average of the one are at least those of the other (finite totals, rescale factors not negative), rounding included.",
  "every pair of ensembles, of any size, and every pair of rows",
  "All ensembles; floating-point sums of any length.",
  f"{M}:evaluateMultipleModelSum", f"{M}:evaluateMultipleModelAverage")
P("Targets rescale the prediction",
  "The reported prediction is what the ensemble would predict without Targets, times rescaleFactor plus rescaleConstant. True of sum for an output named like the target; factor 1 and constant 0 change nothing. False of average, which divides the constant by the number of segments, of an output with another name, which stays as it was, and of modelChain and selectFirst, which ignore Targets.",
  "every ensemble, list of targets, row and call history",
  "All ensembles and targets; the comparison is with another document.",
  f"{M}:evaluateMultipleModelSum", f"{M}:evaluateMultipleModelAverage", f"{M}:Evaluate")
# ---- nil values and errors -----------------------------------------------
P("A failed construction returns a nil Model",
  "When NewModel returns an error the Model beside it is nil, so callers may test either. False: for tree and mining documents it is an interface holding a nil pointer, which is not equal to nil and panics on every method call; it is nil exactly for unsupported and nil elements. Without an error the Model is a working evaluator.",
  "every document, dictionaries and nil arguments",
  "All documents; tests compare errors only.",
  f"{V}:NewModel", f"{T}:NewTreeModel", f"{M}:NewMiningModel", f"{R}:NewRegressionModel")
P("Exactly when NewModel panics",
  "NewModel panics exactly when it is given a nil *TreeModel or *MiningModel, or a nil dictionary together with a tree or mining document that passes validation, however its segments look. Regression models need no dictionaries and nothing else can be built without them.",
  "every document, nil and non-nil arguments",
  "All documents and argument combinations; an equivalence.",
  f"{V}:NewModel", f"{T}:Compile", f"{M}:Compile", f"{R}:NewRegressionModel")
P("Evaluate returns no row beside an error",
  "When Evaluate returns an error the DataRow beside it is nil. True of trees and ensembles. False of regression models: it is nil exactly when a predictor is missing or the function is unknown, otherwise an empty row, and a binary classifier returns the probabilities of the classes it got to before the error.",
  "every document, row and error",
  "All documents and rows, on failing paths.",
  f"{R}:Evaluate", f"{R}:EvaluateRegression", f"{R}:EvaluateBinaryClassification", f"{R}:EvaluateMulticlassClassification", f"{T}:Evaluate", f"{M}:Evaluate")
# ---- further invariances of trees ----------------------------------------
P("Only the proportions of record counts matter",
  "Multiplying every recordCount of a tree by the same whole number, as when the training set is repeated, changes no prediction, probability or error on any row, under every missing-value strategy and at any depth of an ensemble, as long as the counts are whole and their total stays within 2^53. False of fractional counts: 0.3 and 0.1 give another probability than 3 and 1.",
  "every document, multiple, row, map order and call history",
  "All trees and multiples; depends on every division and sum being correctly rounded.",
  f"{T}:outputScoreDist", f"{T}:evaluateMissingValueStrategyAggregateNodes", f"{T}:evaluateMissingValueStrategyWeightedConfidence")
P("The order of exclusive siblings does not matter",
  "Putting the children of a tree's nodes, at any depth, into another order changes neither the outcome nor the row on inputs where no two siblings are both true: under the default strategy always, under nullPrediction when all siblings but one are false, under every strategy when all predicates are known and every node has scores. False when siblings overlap: the first true one wins.",
  "every tree, rearrangement, row and call history",
  "All trees and permutations; the comparison is with another document.",
  f"{T}:evaluateMissingValueStrategyNone", f"{T}:evaluateMissingValueStrategyNullPrediction", f"{T}:Evaluate")
P("A smaller missingValuePenalty never raises a probability",
  "Under defaultChild, replacing the penalty by a smaller one leaves errors, rows without a prediction and the set of reported keys as they are, and raises no class probability, rounding included; regression trees do not look at the penalty at all. The predicted class may change: unequal probabilities become equal when the products are rounded, and the first class wins.",
  "every tree, pair of penalties in [0,1], row and call history",
  "All trees, depths and penalties; products of any length are rounded.",
  f"{T}:evaluateMissingValueStrategyDefaultChild", f"{T}:pickBest")
P("How derived fields are written does not matter",
  "Rewriting the derived fields of a document's trees and ensembles, at any depth, leaves construction errors, outcomes and rows as they are: swapping the operands of + and *, exchanging isMissing and isNotMissing with the branches of if, dropping an if with equal branches, reordering table rows with distinct inputs, reordering fields that cannot fail and do not read each other, writing a field out by its definition, dropping one that is redefined before it is read, and any combination. The side conditions are needed: fields that can fail do not commute, a continuous field of a missing input is no longer missing, and sum of two is not +.",
  "every document, rewriting, row, world and call history",
  "All combinations of rewritings at all depths; the comparison is with another document.",
  f"{I}:HandleInput", f"{I}:handleApplyExpression", f"{I}:handleMapValuesExpression")
P("A prediction changes only where a split is crossed",
  "Two rows between which no test of the document distinguishes get the same outcome, and are left the same wherever they were the same. Fields may differ if nothing computes with them (no derived field, no predictor) and their two values lie on the same side of every literal the document's predicates compare them with, at any depth: floats and whole numbers with no literal between them, strings no predicate mentions.",
  "every document, pair of rows (any number of differing fields), world and call history",
  "All pairs of rows in the same cell of an arbitrary document; testing compares finitely many pairs.",
  f"{T}:evaluateSimplePredicate", f"{T}:evaluate", f"{M}:Evaluate")
P("Split points are the decimals the document shows",
  "If ParseFloat rounds correctly, an order test of a double or float field against a decimal literal decides the order of the decimals themselves, although both are rounded: for a row that holds a decimal as text, or the float64 read from it, when both have at most fifteen significant digits (any notation, 1e-307 to 1e308, or 0); equal then is equality of the decimals. With more digits a difference may be missed but is never turned around, and sixteen digits are too many. Any other float64 is compared with the exact decimal unless it is the float64 nearest to it. A float32 in the row is not the decimal it was read from: 0.1 is above 0.1.",
  "every literal, row value, notation and operator, under every correctly rounding ParseFloat",
  "Infinitely many pairs of decimals; the statement is about real numbers, not about the floats that represent them.",
  f"{T}:evaluateSimplePredicate", f"{T}:compilePredicate", f"{V}:getRawValue")
P("Float32 is the nearest float32",
  "Float32 of a float64 is the float32 nearest to it, or an infinity of its sign from halfway past the largest float32; Float32 of an integer that fits in int64 is the float32 nearest to the integer itself; Float64 of a float32 is the same number and Float32 gives it back. Every other value, numeric strings included, is 0: Float32 is not Float64 rounded once more, neither on strings nor on large integers.",
  "every float64, float32, integer of every width and other value",
  "2^64 floats; nearest is a statement about real numbers.",
  f"{S}:Value.Float32", f"{S}:Value.Float64")
P("aggregateNodes is random only in ties",
  "For a classification tree with aggregateNodes, whole record counts (2^53 in total) and distinct target values, two evaluations under any iteration orders of Go's maps return the same error, or rows that agree on every probability and differ at most in the predicted class; if that class is reported as more probable than all others the rows are equal. None of this holds for regression trees, where aggregateNodes and weightedConfidence return the value of a random leaf; and weightedConfidence, or fractional counts, leave the last bits of the probabilities to the iteration order.",
  "every such tree, row, earlier history and pair of iteration orders",
  "Iteration order is outside a test's control.",
  f"{T}:evaluateMissingValueStrategyAggregateNodes", f"{T}:evaluateMissingValueStrategyWeightedConfidence", f"{T}:TreeModel.Evaluate")
P("Trees look only at the order of numbers",
  "If the numbers of some double or float fields, in the row and in the literals of all predicates, are replaced by other numbers in the same order (another unit of measurement, ranks, logarithms), the document is accepted as before and every evaluation returns the same row or error and leaves the other fields of the caller's row the same. The fields may be missing, but must not be used by derived fields or predictors and not be written by the document.",
  "every document of trees, ensembles and chains, every order-preserving recoding, every row and earlier history",
  "All monotone recodings of all documents.",
  f"{T}:evaluateSimplePredicate", f"{T}:compilePredicate", f"{T}:TreeModel.Evaluate", f"{M}:MiningModel.Evaluate")
P("One evaluator per goroutine is safe",
  "Goroutines that each make any series of Evaluate calls never race as long as no evaluator is used by two of them, even if the evaluators were built from one document and used before. Whatever the interleaving, each goroutine can finish and gets the replies its calls give one by one.",
  "every set of evaluators, every assignment of calls to goroutines, every interleaving",
  "All interleavings of any number of goroutines.",
  f"{T}:TreeModel.Evaluate", f"{M}:MiningModel.Evaluate", f"{R}:RegressionModel.Evaluate")
P("Evaluators can be built in parallel",
  "Goroutines may call NewModel at the same time on the models of one file, which share the dictionaries. False: NewModel appends to the shared TransformationDictionary and writes into the document. Separate models race exactly when one of them has LocalTransformations and another is not a plain RegressionModel; a lost append then makes NewModel fail with an unknown field. One model built twice races exactly when building it writes anything: a derived field, a mining field or predicate literal of a tree, an empty multipleModelMethod. Without LocalTransformations every goroutine gets the evaluator NewModel alone returns.",
  "every set of accepted documents, every interleaving of the NewModel calls",
  "All interleavings of the constructions.",
  f"{V}:NewModel", f"{T}:TreeModel.Compile", f"{T}:TreeModel.Validate", f"{T}:compilePredicate", f"{M}:MiningModel.Compile", f"{M}:MiningModel.Validate")
P("Every error of Evaluate has a cause the caller can check",
  "An error returned by Evaluate on a non-nil row names one of: a derived field of a tree or ensemble with a constant that is not a readable double, a function that is unknown or has the wrong number of arguments, an unsupported expression, or a MapValues with an unreadable default or without default on an absent input; a score of a regression tree that is no number; a regression model that lacks a predictor in the row, or whose normalization, function, tables or outputs do not fit; selectFirst without segments. Only members that are asked count, and an absent field is one the caller's own row lacks. A document with none of these faults, whose trees cannot panic, answers every row.",
  "every accepted document, row and earlier calls, at any nesting depth",
  "All documents and rows; tests show that an error occurs, not that no other can.",
  f"{I}:HandleExpression", f"{I}:HandleInput", f"{T}:TreeModel.Evaluate", f"{M}:MiningModel.Evaluate", f"{R}:RegressionModel.Evaluate")
P("Evaluators may be used while other documents are built, not while their own is built again",
  "Evaluate calls may run beside NewModel calls on other documents, with shared dictionaries and derived fields, without a data race, provided the NewModel calls do not race among themselves (C122). NewModel on a document that has been built before, beside Evaluate calls on evaluators built from it, races exactly when one of these calls tests a simple predicate: NewModel fills in every literal again and Evaluate reads those it tests. Which predicates a row reaches is stated by the results of tests, children and segments for each missing value strategy and multiple model method.",
  "every set of goroutines and interleaving, every accepted document, evaluators in use for any number of calls, all rows",
  "A race shows under particular schedules and rows only; the detector reports those that occur in a run.",
  f"{T}:compilePredicate", f"{T}:evaluateSimplePredicate", f"{T}:evaluateCompoundPredicate", f"{M}:MiningModel.Evaluate", f"{V}:NewModel")
P("The class probabilities of a forest add up to one",
  "A classification tree whose distributions are whole record counts reports probabilities that add up to one within one unit roundoff, under none, nullPrediction, lastPrediction and aggregateNodes, whenever it reports any. The averaged probabilities of n members that do so add up to one within (1 + 2^-53)^(n+2) - 1 plus 2^-1075 per class. A forest of trees of the default strategy with a True root does so on every row it accepts. Under weightedConfidence, with different ids and whole record counts for the children of a node, every level of a tree with at most n children per node multiplies the error by (1 + 2^-53)^(n+2).",
  "all dictionaries and documents of these forms, rows, histories of calls and iteration orders; up to 2^53 records and members",
  "Every class is rounded separately in every member and again in the average; a test fixes one forest and row, and says nothing about the others.",
  f"{M}:evaluateMultipleModelAverage", f"{T}:evaluateMissingValueStrategyAggregateNodes", f"{T}:outputScoreDist")
P("A returned row is the caller's own",
  "In a program that keeps rows in variables, shares, writes, deletes and evaluates them in any order with any number of evaluators, the variable that receives Evaluate's row is the only one to hold that row, and no later statement that does not mention the variable changes it. What Evaluate reports, returns and writes to its argument is decided by the contents of that argument at the time; rows that are not the argument stay as they were.",
  "all programs of such statements, evaluators of all documents, iteration orders; also answers beside errors",
  "A map is a reference: an answer could be the caller's own input or the row of an earlier answer on some path only, and a test would have to look at every row the program holds after every later call.",
  f"{M}:MiningModel.Evaluate", f"{M}:evaluateMultipleModelChain", f"{T}:TreeModel.Evaluate", f"{R}:RegressionModel.Evaluate", f"{I}:HandleInput")
P("The cost of a prediction is bounded by the document",
  "An Evaluate call compares the row with no literal of the document twice, so it makes at most as many comparisons as the document has simple predicates. A tree of strategy none or nullPrediction makes at most L (1 + W (D - 1)) of them, for D levels, W children of the widest node and L simple predicates in the longest predicate, however many nodes it has; an ensemble at most the sum over its members.",
  "all documents that build, rows, histories of calls and iteration orders; also calls that are not finished or fail",
  "A test counts the comparisons of one call on one document; that no row makes a tree revisit a node or look into branches it does not take is a statement about all rows.",
  f"{T}:node.evaluate", f"{T}:evaluateMissingValueStrategyNone", f"{T}:evaluateMissingValueStrategyNullPrediction", f"{T}:evaluateSimplePredicate", f"{M}:MiningModel.Evaluate")
P("How ensembles are nested does not matter",
  "A chain inside a chain answers like the one chain of all the segments, and an ensemble of one member (selectFirst or modelChain) like that member, when the inner mining model adds no derived fields or default values; anywhere in the document and any number of times. The same documents are accepted, and otherwise rejected with the same error.",
  "all documents related by such regroupings whose trees do not use weightedConfidence or aggregateNodes, dictionaries, histories of calls, iteration orders and rows",
  "A test compares two nestings on a few rows; that no row tells them apart, at any depth, needs an argument about how chains pass rows on.",
  f"{M}:evaluateMultipleModelChain", f"{M}:evaluateMultipleModelSelectFirst", f"{M}:MiningModel.Evaluate", f"{M}:MiningModel.Compile")
P("Splits that decide nothing can be leaves",
  "Where a node and all nodes below it predict the same classes with the same probabilities (or the same score), the document with a leaf there is accepted as well and answers alike, whatever the ids, record counts and confidences of the nodes removed; in any number of places and of trees of the document. This holds for the strategy none (or no strategy) with returnLastPrediction; under nullPrediction for rows that meet no unknown predicate on their way, and under the other strategies for rows that leave no predicate unknown. Under nullPrediction and defaultChild rows with missing values can tell the two documents apart.",
  "all documents whose simplified trees use no missing value strategy, dictionaries, histories of calls, iteration orders and rows (including rows with missing or unreadable values); all tree documents with a missing value strategy and rows as described",
  "A test compares a tree and its simplification on a few rows; that no row, with or without missing values, tells them apart needs an argument about the descent.",
  f"{T}:evaluateMissingValueStrategyNone", f"{T}:TreeModel.Evaluate", f"{T}:outputScoreDist")
P("The probabilities of multiclass regressions add up to one",
  "Under softmax or simplemax, when every class has an output field of its own and the exponentials (forms) are nonnegative with a positive sum that does not overflow, the n reported probabilities add up to 1 up to (2n+2) units of rounding. Without these conditions they do not: a form of 1000 makes its softmax probability NaN, and classes without an output field overwrite each other under the empty name.",
  "all regression documents with up to 2^51 tables, dictionaries, histories of calls, rows with all predictors present",
  "A test sums up the probabilities of a few rows; a bound on the error for every number of classes and all scores needs an analysis of the roundings.",
  f"{R}:EvaluateMulticlassClassification")
P("Node identifiers only tell siblings apart",
  "Trees whose nodes are identified differently, such that each defaultChild names the same children, are accepted and rejected alike and answer alike; identifiers may repeat in other parts of the tree. Under weightedConfidence with distinct siblings the answer is one of those of the original (siblings are visited in map order). Identifiers that are left out count as the same identifier: under defaultChild and weightedConfidence this changes answers, although PMML makes them optional.",
  "all documents with trees related by such renamings, dictionaries, histories of calls, iteration orders and rows",
  "A test compares two numberings on a few rows; that no row and no repetition of an identifier elsewhere matters needs an argument about all evaluations.",
  f"{T}:evaluateMissingValueStrategyDefaultChild", f"{T}:evaluateMissingValueStrategyWeightedConfidence", f"{T}:newNode")
P("Class names are only names",
  "A classification tree whose classes are renamed one to one, in its scores and in the data dictionary, is accepted as well and predicts the renamed class, with each probability under the renamed key, the same errors and the same row afterwards. A regression model whose classes are renamed, in its tables and outputs, answers exactly as before, alone or in an ensemble. Under aggregateNodes and weightedConfidence ties may be broken differently.",
  "all injective renamings that keep the empty name, trees of the other strategies whose target is not named like a probability, documents with regression models at any depth, dictionaries, histories of calls and rows",
  "A test renames the classes of one tree; that no name is treated specially for any tree and row needs an argument about all comparisons of names.",
  f"{T}:outputScoreDist", f"{T}:pickBest", f"{T}:TreeModel.Evaluate", f"{T}:newNode", f"{R}:EvaluateBinaryClassification", f"{R}:EvaluateMulticlassClassification")
P("A prediction made without some inputs is final under nullPrediction",
  "Under nullPrediction a tree that predicts although inputs are missing predicts the same for every row that fills them in, if no predicate asks whether a field is missing and no derived field reads a field that is filled in. Under lastPrediction the prediction for the filled-in row comes from the node the incomplete row stopped at or from one below it. The same holds for ensembles of such trees.",
  "all tree documents, dictionaries, pairs of rows of which one extends the other, and histories of calls",
  "A test fills in some values of one row; that no way of filling in the missing inputs changes the prediction is a statement about pairs of rows.",
  f"{T}:evaluateMissingValueStrategyNullPrediction", f"{T}:evaluateMissingValueStrategyLastPrediction", f"{T}:evaluateCompoundPredicate", f"{T}:evaluateSimplePredicate", f"{M}:evaluateMultipleModelSum")
P("The order of declarations does not matter",
  "A document whose mining fields, output fields, targets or verification fields are listed in another order is accepted just the same and gives the same results, errors and row changes for every row, in ensembles and all their members, provided nothing is listed twice. So is one whose regression tables are listed in another order.",
  "all documents, permutations at every level of nesting, dictionaries, histories of calls and rows",
  "A test shuffles one document; that no order is ever looked at needs an argument about every loop over declarations.",
  f"{M}:evaluateMultipleModelSum", f"{M}:MiningModel.Compile", f"{R}:EvaluateBinaryClassification", f"{R}:EvaluateMulticlassClassification", f"{T}:TreeModel.Compile", f"{V}:verifyModel")
P("A tree whose root is true predicts for every row",
  "A tree model whose root's predicate is true answers every row: without a strategy for missing values and under lastPrediction with the distribution of one of its own nodes, under aggregateNodes and weightedConfidence with some scores, if no node's distribution is empty. A classification then returns a row with a class and probabilities, a regression a number or the error of a score that is not one; never nil and never a panic. Under the first two the class is one the answering node lists, if every node has a class of positive probability.",
  "all trees, dictionaries, histories of calls and rows, whatever is missing, map iteration orders included",
  "A test shows that some rows are answered; the claim is that no row, however incomplete, falls through the tree.",
  f"{T}:node.evaluate", f"{T}:evaluateMissingValueStrategyNone", f"{T}:evaluateMissingValueStrategyLastPrediction", f"{T}:evaluateMissingValueStrategyAggregateNodes", f"{T}:evaluateMissingValueStrategyWeightedConfidence", f"{T}:TreeModel.Evaluate")
P("A tree is the list of its rules",
  "Without a strategy for missing values, and under nullPrediction, a tree may be written flat: under its root one leaf for every other node, children before their parent, each with the conjunction of the predicates on the way to it. The flat document is accepted whenever the tree is, and every row gets the same result, error and changes from both, in any number of trees of an ensemble. So without a strategy the first rule that holds decides, and the root if none does. It holds unless returnNullPrediction silences inner nodes, and the other strategies tell the two apart.",
  "all documents with any number of trees, dictionaries, histories of calls and rows, missing values included",
  "Tests compare a tree and its rules on some rows; which node answers depends on every predicate on every path, three-valued.",
  f"{T}:evaluateMissingValueStrategyNone", f"{T}:evaluateMissingValueStrategyNullPrediction", f"{T}:evaluateCompoundPredicate", f"{T}:newNode")
P("Models built earlier do not matter unless they derive a tested field",
  "All that NewModel takes from the TransformationDictionary it is given are the data types of the fields that the document's trees test and do not derive themselves: two dictionaries that give these fields the same types lead to the same error, or to evaluators that give every row the same result, error and changes. NewModel adds local derived fields to the dictionary, also for documents that it rejects, so the order in which models are built could matter: it does not, unless an earlier document derives a field that a later one tests. Then the later model may predict something else or be rejected.",
  "all documents, data dictionaries, transformation dictionaries, sequences of earlier documents (accepted or rejected, each with its own data dictionary), histories of calls and rows",
  "Tests build one model per document. What is left behind in a shared dictionary shows only in the models built after it.",
  f"{V}:NewModel", f"{T}:Compile", f"{M}:Compile", f"{T}:NewTreeModel", f"{R}:NewRegressionModel")
P("The benchmark measures each model file once",
  "If the benchmark program runs to its end, it has measured each file ending in .xml below its directory once, of files with the same name only the last one it walks to. It runs to its end if each of these files can be read, NewModel takes the first model in it and this model accepts rows of the six random inputs; in that case every row consists of six numbers not used before and is answered as by an evaluator that has just been built. A single bad file ends the run and leaves files unmeasured.",
  "all directories, files, XML documents, random numbers, orders of the map of files and numbers of iterations",
  "The program is not tested; it is run on two files, in an order that changes from run to run.",
  "main/perftest.go:main", f"{V}:NewModel")
P("The data types float and double mean the same",
  "Declaring a data field, a derived field (of the dictionary or of any model) or the default of a MapValues float instead of double, or with another data type that the evaluator does not know instead of one that it does not know, changes nothing: NewModel fails with the same error, or the evaluators give every row the same result, error and changes. No other two data types can be exchanged: for any two a tree with one test tells them apart. Constants are the exception: the only ones accepted are double, one declared float is an error for every row.",
  "all documents, data types, dictionaries, histories of calls and rows",
  "Every place where a type is looked at must treat the two names alike; a test looks at one of them.",
  f"{V}:getRawValue", f"{T}:evaluateSimplePredicate", f"{T}:compilePredicate", f"{I}:handleMapValuesExpression", f"{I}:handleConstantExpression")
P("The units of the inputs of a regression do not matter",
  "If inputs of a regression model are given in other units (each numerical field times its own factor, which may be negative for a scale that runs the other way) and the coefficients of the predictors are divided by the same factors, a regression, and a classification with other than two outputs, answers every row bit by bit as before, if the converted numbers are exact. Classifications with two outputs are the exception: they add the inputs up without coefficients, so another unit changes the answer.",
  "all regression documents, nonzero factors per field, rows, histories of calls and exact conversions",
  "The factors are arbitrary real numbers and the claim is about rounding: products of converted operands must round alike.",
  f"{R}:EvaluateRegression", f"{R}:EvaluateMulticlassClassification", f"{R}:EvaluateBinaryClassification")
P("A predictor with coefficient zero only has to be present",
  "In a regression, and in a classification with other than two outputs, predictors whose coefficient is zero can be left out of the tables: every row that has finite numbers for them gets bit by bit the same answer (unless an intercept is the negative zero). They cannot be left out for other rows: a missing field is an error and an infinite one makes NaN. Classifications with two outputs are the exception: they ignore coefficients.",
  "all regression documents with such predictors anywhere in their tables, rows and histories of calls",
  "Zero times an input and the sum with it must be exact for all numbers; tests try a few.",
  f"{R}:EvaluateRegression", f"{R}:EvaluateMulticlassClassification", f"{R}:EvaluateBinaryClassification")
P("Every value of a returned row has a known Go type",
  "Every value in a row returned by Evaluate is a float64, with one exception: the predicted class of a classification tree is a string, stored under the tree's target field, and it is the empty string or a class the tree or its target field lists. Which model answers depends on the document only: trees, regression models and the methods sum and average answer themselves, modelChain answers with its last segment and selectFirst with its first. So a document answered by anything but a classification tree returns float64 values only, under the names its outputs and targets list (score for a regression tree, and there a number written in the tree).",
  "all documents NewModel accepts, however deeply nested, rows, histories of calls and map iteration orders",
  "A caller's type assertions must hold for every document and row; tests see a handful of documents.",
  f"{T}:Evaluate", f"{M}:Evaluate", f"{R}:Evaluate", f"{M}:evaluateMultipleModelChain", f"{M}:evaluateMultipleModelSum")
P("Derived fields that nothing reads can be left out",
  "Local derived fields whose names no split, no predictor and no remaining derived field reads can be left out of a document, in trees and ensembles however nested: NewModel accepts or refuses it for the same reason, and every row that was answered gets the same answer. The caller's row differs afterwards only in the names left out. If the expressions left out cannot fail, rows that were refused are refused with the same error too. The proviso is needed: a field nothing reads is still computed, so it can fail the prediction, and it cannot be stored in a nil row.",
  "all documents, selections of unread derived fields, rows, histories of calls and map iteration orders",
  "Leaving out a field changes the row, the types known to later models and the order of evaluation; no set of test rows shows that nothing depends on it.",
  f"{T}:Evaluate", f"{T}:Compile", f"{M}:Compile", f"{M}:Evaluate", f"{I}:HandleInput")
P("An else branch may be written as True",
  "The last child of a node may have the predicate True where it is true anyway unless an earlier sibling is, for instance as the second branch of a numeric split on rows that have a number there: the document is accepted and predicts the same. This is so without a strategy for missing values and under nullPrediction, where the first true child is entered as PMML says. It is false of lastPrediction, defaultChild, weightedConfidence and aggregateNodes: they enter the last true child, so that an else branch takes every row.",
  "all tree documents, else branches at any depth, rows, histories of calls and map iteration orders",
  "Test trees have exclusive siblings, on which entering the first and the last true child is the same; the difference shows only for documents of other exporters.",
  f"{T}:evaluateMissingValueStrategyNone", f"{T}:evaluateMissingValueStrategyNullPrediction", f"{T}:evaluateMissingValueStrategyLastPrediction", f"{T}:evaluateMissingValueStrategyDefaultChild", f"{T}:evaluateMissingValueStrategyWeightedConfidence", f"{T}:evaluateMissingValueStrategyAggregateNodes")
P("A missing field counts as its replacement",
  "A mining field with a missingValueReplacement makes a row without that field, or with nil there, the row with the replacement filled in: both get the same answer. This is so for ensembles. It is false of trees and regression models, alone or as members of an ensemble: their replacements have no effect at all, so a tree treats the field as unknown and a regression model rejects the row.",
  "all documents, replacements at any depth, rows, histories of calls and map iteration orders",
  "Tests evaluate complete rows; a replacement matters only for rows without the field, and that it is ignored in one kind of model shows only by comparing two rows, or two documents, for all inputs.",
  f"{M}:imputeMissingValues", f"{I}:HandleInput", f"{I}:validate", f"{T}:Evaluate", f"{R}:EvaluateRegression")
P("Values the data dictionary does not list are treated as the mining schema says",
  "False of the code: a field marked returnInvalid with a value that the data dictionary does not list still gets a prediction, and asMissing does not make the row the one without the field. Exactly: invalidValueTreatment and outliers can be changed or removed in any model at any depth, and the values listed for fields that are not the target of a tree can be changed, without any effect on acceptance or answers.",
  "all documents, dictionaries, rows, histories of calls and map iteration orders",
  "That a declaration is never consulted is a statement about pairs of documents and all rows; tests with valid rows pass either way.",
  f"{I}:validate", f"{I}:HandleInput", f"{T}:Evaluate", f"{M}:imputeMissingValues")
P("A node may hold its contents in a single child True",
  "Moving the score, distribution and children of a node into a single child with the predicate True changes no prediction, at any depth and whatever the node left above it says. This is so without a strategy for missing values and under nullPrediction, in ensembles as well. Under lastPrediction, defaultChild, weightedConfidence and aggregateNodes it is so for rows that leave no predicate unknown, and false otherwise: the extra child makes an unknown branch count as true, or a resolved one as unknown.",
  "all tree documents, wrapped nodes at any depth, rows, histories of calls and map iteration orders",
  "Exporters differ in whether they write such nodes; the difference shows only on rows with missing fields, and only under some strategies, so no set of test rows settles it.",
  f"{T}:evaluateMissingValueStrategyNone", f"{T}:evaluateMissingValueStrategyNullPrediction", f"{T}:evaluateMissingValueStrategyLastPrediction", f"{T}:evaluateMissingValueStrategyDefaultChild", f"{T}:evaluateMissingValueStrategyWeightedConfidence", f"{T}:evaluateMissingValueStrategyAggregateNodes")
P("Neighbouring branches that say the same can be joined with or",
  "Two neighbouring children that differ only in identifier and predicate may be written as one whose predicate is the or of theirs, and the other way round, at any depth: the document is accepted and predicts the same. This is so for all rows without a strategy for missing values, in ensembles as well, and for rows that leave no predicate unknown under every other strategy. With unknown predicates it is false of the other five: an unknown branch beside a true one is not the unknown-or-true branch, which is true. The predicates have to be simple or compound ones, as True and False count as unknown inside or.",
  "all tree documents, joined branches at any depth, rows, histories of calls and map iteration orders",
  "Exporters simplify trees this way; whether it is sound depends on how unknown results travel through six strategies, which no set of test rows settles.",
  f"{T}:evaluateMissingValueStrategyNone", f"{T}:evaluateMissingValueStrategyNullPrediction", f"{T}:evaluateMissingValueStrategyLastPrediction", f"{T}:evaluateMissingValueStrategyDefaultChild", f"{T}:evaluateCompoundPredicate")
P("A member of an ensemble whose results nobody uses only has to succeed",
  "A member of a modelChain that is not the last one and whose outputs and written fields no later member reads can be left out: the smaller document is accepted, and every row is answered alike, errors included, unless the member itself fails, in which case the whole chain fails the way the member does. The same holds in a sum for a member that reports nothing the sum adds up, and under selectFirst for every member but the first, which is not even evaluated. In an average leaving out a member is noticed because the members are counted. Later members must not iterate over Go maps (weightedConfidence, aggregateNodes), since their random orders are their own.",
  "all mining documents, members at any position, non-nil rows (all rows under selectFirst), histories of calls and map iteration orders",
  "It relates the answers of two different documents on every row, through writes into the caller's row and types that the member's derived fields would have given to later members.",
  f"{M}:evaluateMultipleModelChain", f"{M}:evaluateMultipleModelSum", f"{M}:evaluateMultipleModelSelectFirst")
P("Derived fields can be declared by the ensemble instead of its members",
  "The derived fields a first member computes first may as well be declared by the ensemble, after its own; and what the ensemble has computed its members need not compute again, provided no derived field is computed from itself or a later one and nothing the members write (in a chain, nor return) is involved. So a forest whose trees all repeat the same derived fields is the forest that declares them once. This holds anywhere in the document, any number of times and in both directions: the same documents are accepted, and rows are answered and left alike, errors included. Fields that only a later member declares, or that are computed from themselves, cannot be moved.",
  "all mining documents related by such moves, dictionaries, histories of calls, iteration orders and rows (including nil rows and rows with missing values)",
  "It relates two different documents on every row and at every depth of nesting; tests compare a few rows of a few documents and miss rows on which a derivation fails halfway.",
  f"{I}:HandleInput", f"{M}:MiningModel.Evaluate", f"{M}:MiningModel.Compile", f"{T}:TreeModel.Evaluate")
P("The order in which nodes list their classes only decides ties",
  "A classification tree whose nodes list their ScoreDistributions in another order is accepted exactly if the original is, and reports the same probabilities and errors and leaves the same row for every row, under every missing value strategy; the predicted class is the same whenever one class is more probable than all others. It holds if no node lists a class twice and the record counts are whole numbers (or, except under aggregateNodes, confidences and probabilities are given). Among equally probable classes the first listed is predicted; fractional record counts are added up in the order listed, so that probabilities differ in the last digit; and a regression tree with ScoreDistributions predicts the first one.",
  "all classification trees, permutations at every node, strategies, dictionaries, histories of calls, iteration orders and rows",
  "A test compares two orders on a few rows; that no strategy lets the order influence a probability needs an argument about rounding and about every path through the tree.",
  f"{T}:newNode", f"{T}:outputScoreDist", f"{T}:pickBest", f"{T}:evaluateMissingValueStrategyWeightedConfidence", f"{T}:evaluateMissingValueStrategyAggregateNodes", f"{T}:TreeModel.Evaluate")
P("A constant last member of a sum is a rescaleConstant",
  "In an ensemble with method sum that is not a classification, names each output once and has no targets, a last member that is a regression tree consisting of a root without condition, children and derived fields can be removed if its number is given as the rescaleConstant of every output instead, and the other way round. This holds in every sum of a document, at any depth and repeatedly: the rewritten document is accepted exactly if the original is, and gives bit for bit the same results, errors and final rows. A member that always predicts 0 can be left out wherever it stands, after regression trees and before members that do not go through a Go map. Other constants cannot be moved: it does not hold for members that are not last (sums are rounded in the order of the members), for averages (the member is counted), or for an output declared twice (the constant is added twice).",
  "all documents, dictionaries, sums in them, texts of the constant, strategies of the constant tree, histories of calls, iteration orders and rows",
  "A test compares one pair of documents on a few rows; bit-for-bit equality for every sum, and for panics and errors of the other members, needs the argument about the order of floating-point additions in the code.",
  f"{M}:evaluateMultipleModelSum", f"{M}:evaluateMultipleModelAverage", f"{M}:MiningModel.Compile", f"{T}:TreeModel.Evaluate", f"{T}:outputScoreDist")
P("Conditions tested on the way down need not be repeated",
  "In a tree without a strategy for missing values or with nullPrediction, an operand of a child's and may be left out if it is the condition of a node above it, or an operand of such a condition when that is an and; what remains may be written as its only operand, or as True if nothing remains. Such a document, with trees at any depth of ensembles, is accepted exactly if the original is and gives the same results, errors and final rows for every row. More generally, in a single tree every operand can be left out that is true in all rows in which the conditions above are: a wider bound on a number below a narrower one, for every float64 and every integer value, and isNotMissing below any test of the field other than isMissing. Under the other strategies the first rule holds for the rows in which no condition of the tree is unknown; with missing values the results can differ, as children are looked at also when the condition of their parent is unknown. A True operand cannot be left out, because inside a compound predicate it counts as unknown.",
  "all documents, dictionaries, places and numbers of repeated conditions, depths, histories of calls, iteration orders and rows",
  "Tests compare two ways of writing one tree on a few rows; the claim covers every placement of conditions above and below and three-valued logic with missing values.",
  f"{T}:evaluateMissingValueStrategyNone", f"{T}:evaluateMissingValueStrategyNullPrediction", f"{T}:evaluateMissingValueStrategyLastPrediction", f"{T}:evaluateCompoundPredicate", f"{T}:newNode", f"{T}:compilePredicate")
P("Branches that no row can take can be removed",
  "In a tree without a strategy for missing values, branches can be removed whose condition is never true where the conditions of the nodes above are, and all branches after a sibling with the condition True; with nullPrediction the same holds for branches whose condition is false there. The document stays accepted and gives the same results, errors and final rows for every row. A branch is such a one if it bounds a number apart from a bound above it, for every float64 and every integer value; if it asks for a category other than the one asked for above; if it is an and with such an operand; and, without a strategy, if it is an and that contradicts itself. Under lastPrediction a removed branch can matter when values are missing, and under returnNullPrediction a node must keep a child.",
  "all trees, dictionaries, places and numbers of removed branches, bounds, histories of calls, iteration orders and rows",
  "Whether a branch can be taken is a statement about all rows; tests only show that some rows do not take it.",
  f"{T}:evaluateMissingValueStrategyNone", f"{T}:evaluateMissingValueStrategyNullPrediction", f"{T}:evaluateMissingValueStrategyLastPrediction", f"{T}:evaluateSimplePredicate", f"{T}:evaluateCompoundPredicate", f"{T}:newNode")
P("Models that predict alike verify alike",
  "The verdict of Verify, with the error it returns, depends on the model only through the values Evaluate gives for the expected columns of the rows of the verification table. Two accepted documents of any kind with the same verification data, over any dictionaries, whose results agree in those values (or fail alike) get the same verdict, whatever was evaluated before. So every way of writing a document that does not change its predictions does not change its verdict, for instance leaving out repeated conditions (C153).",
  "all pairs of documents, dictionaries, verification tables, histories of calls and iteration orders",
  "Tests verify one model against one table; the claim compares the verdicts of any two models on any table, the order in which columns are checked included.",
  f"{V}:verifyModel", f"{T}:Verify", f"{M}:Verify", f"{R}:Verify")
P("Exported boosted trees and forests compute their formula",
  "The documents in which boosted trees and forests are exported compute one formula exactly. A chain of a sum of trees and a logistic regression reading that sum, with two classes, predicts p for the first class and 1 - p for the second, where p is the intercept plus the logistic function of the trees' scores added from left to right starting at 0; the intercept is added outside the logistic function, and the coefficient and exponent of the predictor have no influence. The caller's row afterwards additionally holds the sum. A sum with one target adds its rescaleConstant after the scores. An average of classification trees gives for each declared output the sum of the trees' values divided by their number. The conditions of the segments have no influence, and neither do earlier calls.",
  "all such documents with any number of trees of any shape, dictionaries, rows, histories of calls, iteration orders and exponential functions",
  "Tests compare a few exported files with tables of expected numbers up to a tolerance; the claim gives the exact float64 result of every such document.",
  f"{M}:evaluateMultipleModelChain", f"{R}:Evaluate")
P("Members of an ensemble can be exchanged for documents that answer alike",
  "A member of an ensemble, at any depth and under any method, can be exchanged for a document that NewModel accepts whenever it accepts the member, that leaves the same transformation dictionary behind and whose evaluator gives the same results, errors and final rows. The ensemble stays accepted, leaves the same transformation dictionary behind and gives the same results, errors and final rows for every row, and Verify comes to the same verdict; any number of members can be exchanged, and exchanged again. So every way of rewriting a document that keeps its answers can be used inside ensembles and combined with the others. Equal results alone are not enough: two members with the same result for every row can leave different derived fields in the row, and the predictions of the ensembles differ, or different fields in the dictionary, and one ensemble is rejected.",
  "all ensembles nested to any depth, members, dictionaries, rows, histories of calls and iteration orders",
  "Tests evaluate given ensembles; the claim relates every ensemble to all the ensembles that arise from it by exchanging members.",
  f"{M}:Compile", f"{M}:Evaluate", f"{M}:evaluateMultipleModelChain")
P("An average of a power of two of members is a rescaled sum",
  "An average of 1, 2, 4, 8, ... members (up to 2^53) can be written as the sum of the same members in which every output gets a further target with the rescaleFactor one over their number, and the other way round, wherever the average stands in the document. The document stays accepted, leaves the same transformation dictionary behind and gives the same results, to the last bit, the same errors and final rows for every row, overflow, NaN and numbers near 0 included. With three members the last digit can differ.",
  "all documents holding such averages at any depth, members of any kind, targets, dictionaries, rows, histories of calls and iteration orders",
  "Tests compare a few predictions up to a tolerance; the claim is the equality of all float64 results.",
  f"{M}:evaluateMultipleModelAverage", f"{M}:evaluateMultipleModelSum")
P("The sign of the scores decides what a boosted classifier predicts",
  "For a boosted classifier (the documents of C156, intercept 0) both probabilities lie in [0,1]. If the scores of the trees add up to 0 or more, the first class is at least as probable as the second, and if they add up to 0 or less, at most as probable. Where every tree scores at least as high as for another row, the first probability is at least as large and the second at most. The first two need of math.Exp only that, except at NaN, it is not negative, at most 1 up to 0 and at least 1 from there; the comparison of rows also that it never falls.",
  "all such documents with any number of trees of any shape, scores, rows, histories of calls, iteration orders, and all such exponential functions",
  "Tests compare some probabilities; that rounding in the sum, the exponential, the quotient and the difference never turns the decision or the order needs a proof over all scores.",
  f"{M}:evaluateMultipleModelChain", f"{R}:Evaluate")
json_rows = rows
def main():
    with open(OUT, "w") as f:
        for r in json_rows:
            f.write(json.dumps(r) + "\n")
if __name__ == "__main__":
    main()
