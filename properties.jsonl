{"id": "C01", "title": "NewModel accepts exactly the three supported model kinds", "statement": "NewModel returns an error for every model element that is not a TreeModel, MiningModel or RegressionModel, and leaves the TransformationDictionary untouched in that case; when it succeeds the evaluator is of the same kind as the element.", "quantifier": "every model element, data dictionary and transformation dictionary", "why_tests_cant": "The set of documents is infinite and nested; tests load a handful of files.", "anchors": ["evaluation/evaluation.go:NewModel", "models/groups.go:GetModelElement"]}
{"id": "C02", "title": "Exactly which tree documents compile", "statement": "NewTreeModel succeeds if and only if the mining function is classification or regression and every SimplePredicate anywhere in the tree (including inside compound predicates) names a field declared in the DataDictionary, TransformationDictionary or LocalTransformations whose data type is boolean, double, float, integer or string and whose literal parses as that type.", "quantifier": "every tree of every depth, every predicate nesting, every dictionary", "why_tests_cant": "Unbounded trees and predicate nesting.", "anchors": ["evaluation/tree.go:NewTreeModel", "evaluation/tree.go:compilePredicate", "evaluation/tree.go:newNode", "evaluation/evaluation.go:getRawValue"]}
{"id": "C03", "title": "Constructed evaluators never report a lifecycle error", "statement": "An evaluator returned by NewModel never answers Evaluate with ErrNotValidated or ErrNotCompiled, at any nesting depth; a zero-value TreeModel or MiningModel always answers ErrNotValidated and leaves the row alone.", "quantifier": "every document NewModel accepts, every row, every iteration order", "why_tests_cant": "Ranges over every nesting of mining models.", "anchors": ["evaluation/tree.go:Evaluate", "evaluation/mining.go:Evaluate", "evaluation/error.go"]}
{"id": "C04", "title": "Exactly which mining documents compile", "statement": "NewMiningModel succeeds if and only if the multiple-model method is empty, average, sum, modelChain or selectFirst, every output field has no feature or the feature probability, and every segment holds exactly one model which itself is accepted given the fields declared so far.", "quantifier": "every mining document of every nesting depth", "why_tests_cant": "Unbounded recursive documents.", "anchors": ["evaluation/mining.go:Validate", "evaluation/mining.go:Compile", "evaluation/evaluation.go:NewModel"]}
{"id": "C05", "title": "Construction extends the shared transformation dictionary in document order", "statement": "A successful NewModel leaves the caller's TransformationDictionary equal to its old derived fields followed by every LocalTransformations field of the document in pre-order, nothing removed, reordered or changed; a failing one still leaves the old dictionary as a prefix.", "quantifier": "every document and every initial dictionary", "why_tests_cant": "Shared-state effect over unboundedly nested documents.", "anchors": ["evaluation/tree.go:Compile", "evaluation/mining.go:Compile"]}
{"id": "C06", "title": "Numeric predicates compare the input with the literal", "statement": "For a compiled predicate on a double or float field the operators lessThan, lessOrEqual, greaterThan and greaterOrEqual are true exactly when the IEEE comparison of the input's Float64() with the literal holds, and false otherwise; on an integer field they compare Int64() with the integer literal.", "quantifier": "every field, literal, operator and present input value of every Go type", "why_tests_cant": "The value space is every float, integer and string.", "anchors": ["evaluation/tree.go:evaluateSimplePredicate", "evaluation/miningschema.go:Value.Float64", "evaluation/miningschema.go:Value.Int64"]}
{"id": "C07", "title": "A simple predicate is unknown exactly when its field is absent", "statement": "A compiled SimplePredicate yields unknown if and only if its field is absent from the row and its operator is not isMissing; isMissing is true exactly on absent fields and isNotMissing, when the field is present, is true.", "quantifier": "every compiled predicate and row", "why_tests_cant": "All rows and predicates.", "anchors": ["evaluation/tree.go:evaluateSimplePredicate"]}
{"id": "C08", "title": "Compound predicates follow three-valued logic", "statement": "A compiled CompoundPredicate over simple, compound and set predicates evaluates and/or as Kleene conjunction/disjunction, xor as parity that is unknown when any operand is unknown, and surrogate as the first operand that is not unknown (unknown if all are).", "quantifier": "every operand list of every length and nesting", "why_tests_cant": "Unbounded arity and nesting depth.", "anchors": ["evaluation/tree.go:evaluateCompoundPredicate"]}
{"id": "C09", "title": "True and False operands of a compound predicate keep their truth value", "statement": "A True or False element used as an operand of a CompoundPredicate contributes true or false.", "quantifier": "every compound predicate with constant operands", "why_tests_cant": "Holds or fails for the whole family; a test shows one instance.", "anchors": ["evaluation/tree.go:evaluateCompoundPredicate"]}
{"id": "C10", "title": "Compiled predicates never panic", "statement": "Once compiled, no predicate panics on any row, whatever Go types the row holds (the unchecked type assertions on the literal always succeed).", "quantifier": "every compiled predicate, every row, every Go value type", "why_tests_cant": "A panic hides in any of infinitely many type/operator/row combinations.", "anchors": ["evaluation/tree.go:evaluateSimplePredicate", "evaluation/tree.go:compilePredicate"]}
{"id": "C11", "title": "Predicates look only at the fields they mention", "statement": "Two rows that agree on the fields mentioned in a predicate give the same predicate result.", "quantifier": "every predicate and every pair of rows", "why_tests_cant": "Non-interference is a two-run property over all rows.", "anchors": ["evaluation/tree.go:evaluateSimplePredicate", "evaluation/tree.go:evaluateCompoundPredicate"]}
{"id": "C12", "title": "Set predicates test membership", "statement": "A SimpleSetPredicate with isIn is true when the field value is listed in the array and isNotIn is true when it is not.", "quantifier": "every set predicate and row", "why_tests_cant": "Ranges over all arrays and values.", "anchors": ["evaluation/tree.go:evaluateSimpleSetPredicate", "evaluation/tree.go:newNode"]}
{"id": "C13", "title": "equal and notEqual are complementary on present values", "statement": "For a present field equal and notEqual with the same literal give opposite answers, and for an absent field both are unknown.", "quantifier": "every field, literal and value, NaN included", "why_tests_cant": "All values including NaN and mixed Go types.", "anchors": ["evaluation/tree.go:evaluateSimplePredicate"]}
{"id": "C14", "title": "Binary numeric splits are exhaustive and exclusive", "statement": "For a numeric field and threshold exactly one of lessOrEqual/greaterThan, and exactly one of lessThan/greaterOrEqual, is true for every present value that is not NaN; for a NaN value none is true.", "quantifier": "every threshold and every present value", "why_tests_cant": "Needs all of IEEE order, not samples.", "anchors": ["evaluation/tree.go:evaluateSimplePredicate"]}
{"id": "C15", "title": "Strategy none descends through the first true child", "statement": "With missingValueStrategy none (or any unrecognised value) evaluation succeeds iff the root predicate is true, and then returns the distribution of the node reached by repeatedly moving to the first child whose predicate is true, unknown counting as false, stopping where no child is true.", "quantifier": "every tree and row", "why_tests_cant": "Unbounded depth and fan-out.", "anchors": ["evaluation/tree.go:evaluateMissingValueStrategyNone", "evaluation/tree.go:evaluate"]}
{"id": "C16", "title": "Strategy nullPrediction gives no prediction once an unknown is met", "statement": "With nullPrediction the descent is the same, but meeting an unknown predicate among the children inspected (at or before the first true one) makes Evaluate return no prediction and no error.", "quantifier": "every tree and row", "why_tests_cant": "Unbounded depth and fan-out.", "anchors": ["evaluation/tree.go:evaluateMissingValueStrategyNullPrediction"]}
{"id": "C17", "title": "Strategy lastPrediction stops at the last known node", "statement": "With lastPrediction, if some child predicate of a reached node is unknown the prediction is that node's own distribution (PMML: evaluation stops and the current winner is returned), and a child with an unknown predicate is never descended into.", "quantifier": "every tree and row", "why_tests_cant": "Unbounded trees.", "anchors": ["evaluation/tree.go:evaluateMissingValueStrategyLastPrediction"]}
{"id": "C18", "title": "Strategy defaultChild uses the penalised default child", "statement": "With defaultChild, when a child of the current node is unknown the result is the scores of the child whose id is defaultChild with confidence and probability multiplied by missingValuePenalty and record counts and values unchanged, or no prediction when there is no such child.", "quantifier": "every tree and row", "why_tests_cant": "Unbounded trees, any ids.", "anchors": ["evaluation/tree.go:evaluateMissingValueStrategyDefaultChild"]}
{"id": "C19", "title": "Strategy weightedConfidence averages by record count", "statement": "With weightedConfidence and distinct child ids, when a child is unknown the reported probability (and confidence) of a class is the sum over the non-false children of their probability times their share of the total record count of the non-false children.", "quantifier": "every tree, row and map iteration order", "why_tests_cant": "Unbounded fan-out and iteration orders.", "anchors": ["evaluation/tree.go:evaluateMissingValueStrategyWeightedConfidence"]}
{"id": "C20", "title": "Strategy aggregateNodes aggregates record counts", "statement": "With aggregateNodes, when a child is unknown the reported probability and confidence of each class are its record count summed over the children's distributions divided by the total of all record counts, one entry per class.", "quantifier": "every tree, row and map iteration order", "why_tests_cant": "Unbounded fan-out and iteration orders.", "anchors": ["evaluation/tree.go:evaluateMissingValueStrategyAggregateNodes"]}
{"id": "C21", "title": "Missing-value strategies agree when nothing is missing", "statement": "On a row that makes no predicate of the tree unknown, and on which at most one child of each node is true and every node carries a distribution, all six missingValueStrategies return the same scores.", "quantifier": "every tree and every fully known row", "why_tests_cant": "Relates six recursive procedures over all trees.", "anchors": ["evaluation/tree.go:evaluate"]}
{"id": "C22", "title": "The predicted class is the most probable one", "statement": "The class reported under the target field has the largest probability among the reported class probabilities (the first such class in distribution order), whenever some probability is positive.", "quantifier": "every score list", "why_tests_cant": "All list lengths and float values incl. NaN.", "anchors": ["evaluation/tree.go:pickBest", "evaluation/tree.go:TreeModel.Evaluate"]}
{"id": "C23", "title": "Classification output has exactly the expected keys", "statement": "A successful classification Evaluate returns the target field and probability(v) for each class v of the distribution and no other key, each holding that class's probability.", "quantifier": "every tree, row and cache state", "why_tests_cant": "All class sets and histories.", "anchors": ["evaluation/tree.go:TreeModel.Evaluate"]}
{"id": "C24", "title": "Regression output is the parsed score of the reached node", "statement": "A successful regression Evaluate returns exactly one key, score, holding the reached node's score parsed as a float; if it does not parse Evaluate returns an error.", "quantifier": "every regression tree and row", "why_tests_cant": "All trees and rows.", "anchors": ["evaluation/tree.go:TreeModel.Evaluate"]}
{"id": "C25", "title": "Evaluate of a compiled tree never panics", "statement": "Evaluating a successfully constructed tree on any non-nil row never panics.", "quantifier": "every accepted tree and row", "why_tests_cant": "Panics hide in unvisited combinations.", "anchors": ["evaluation/tree.go:TreeModel.Evaluate", "evaluation/tree.go:outputScoreDist", "evaluation/tree.go:newNode"]}
{"id": "C26", "title": "Default class probabilities are record-count shares in [0,1]", "statement": "When a ScoreDistribution has no explicit probability (confidence) its probability (confidence) is recordCount divided by the node's total; for finite non-negative counts with positive finite total it lies in [0,1]. Explicit values are kept verbatim.", "quantifier": "every distribution list", "why_tests_cant": "Float rounding over all count lists.", "anchors": ["evaluation/tree.go:newNode"]}
{"id": "C27", "title": "returnNullPrediction suppresses predictions from inner nodes", "statement": "With noTrueChildStrategy returnNullPrediction, when the descent stops at a node with children because none is true, Evaluate reports no prediction.", "quantifier": "every tree and row", "why_tests_cant": "All trees and rows.", "anchors": ["evaluation/tree.go:outputScoreDist", "evaluation/tree.go:TreeModel.Evaluate"]}
{"id": "C28", "title": "Evaluate is independent of earlier Evaluate calls", "statement": "After any sequence of Evaluate calls on a constructed evaluator, Evaluate on a row gives the same outcome and the same effect on the row as on a fresh evaluator.", "quantifier": "every history of calls", "why_tests_cant": "All histories.", "anchors": ["evaluation/tree.go:TreeModel.Evaluate", "evaluation/mining.go:Evaluate"]}
{"id": "C29", "title": "Evaluate changes only announced keys of the caller's row", "statement": "Evaluate never removes a key, and changes or adds only names of local derived fields, fields with a missing-value replacement, and (for a model chain) output names of segments; in particular a model with none of these leaves the row untouched.", "quantifier": "every model and row, also when evaluation fails midway", "why_tests_cant": "Frame property over all rows.", "anchors": ["evaluation/input.go:HandleInput", "evaluation/mining.go:imputeMissingValues", "evaluation/mining.go:evaluateMultipleModelChain"]}
{"id": "C30", "title": "Evaluate is deterministic", "statement": "The outcome of Evaluate does not depend on Go's random map iteration order.", "quantifier": "every model, row and pair of iteration orders", "why_tests_cant": "Iteration order is outside a test's control.", "anchors": ["evaluation/tree.go:evaluate", "evaluation/mining.go:evaluateMultipleModelSum"]}
{"id": "C31", "title": "Compiling an evaluator again does not change its predictions", "statement": "Calling Validate and Compile any number of times on a constructed evaluator leaves every later Evaluate outcome unchanged.", "quantifier": "every evaluator and number of extra calls", "why_tests_cant": "All histories of API calls.", "anchors": ["evaluation/tree.go:Compile", "evaluation/mining.go:Compile", "evaluation/evaluation.go:Model"]}
{"id": "C32", "title": "Re-evaluating the same row gives the same outcome", "statement": "Calling Evaluate twice with the same DataRow object gives the same outcome twice.", "quantifier": "every model and row", "why_tests_cant": "Depends on in-place mutation for all derived-field programs.", "anchors": ["evaluation/input.go:HandleInput", "evaluation/mining.go:Evaluate"]}
{"id": "C33", "title": "Concurrent Evaluate on one model is race free", "statement": "Several goroutines may call Evaluate on the same model with their own rows without a data race on the model.", "quantifier": "every interleaving of any number of calls", "why_tests_cant": "Schedules are unbounded.", "anchors": ["evaluation/tree.go:TreeModel.outKeys", "evaluation/tree.go:TreeModel.Evaluate"]}
{"id": "C34", "title": "Expressions depend only on the fields they reference", "statement": "Two rows that agree on the fields referenced by an expression give the same value or the same error.", "quantifier": "every expression and pair of rows", "why_tests_cant": "Two-run property over unbounded expressions.", "anchors": ["evaluation/input.go:HandleExpression"]}
{"id": "C35", "title": "Arithmetic functions compute the IEEE result of their two arguments", "statement": "+ - * / applied to two arguments evaluate to the float64 operation on the arguments' Float64(), sum to the left-to-right float sum of all arguments, and any other number of arguments (for the binary ones) is an error.", "quantifier": "every argument expression list", "why_tests_cant": "Unbounded nesting and arity.", "anchors": ["evaluation/input.go:handleApplyExpression"]}
{"id": "C36", "title": "isMissing and isNotMissing are complementary", "statement": "For every argument list isNotMissing returns the negation of isMissing, or both return an error; isMissing of a field reference is true iff the field is absent or nil.", "quantifier": "every argument and row", "why_tests_cant": "All expressions.", "anchors": ["evaluation/input.go:isMissing", "evaluation/input.go:handleApplyExpression"]}
{"id": "C37", "title": "if evaluates only the selected branch", "statement": "if with a condition that evaluates to true returns exactly the outcome of its second argument, otherwise (false or not a bool) that of its third, whatever the other branch would do, including failing; a failing condition fails the whole expression.", "quantifier": "every condition and branches", "why_tests_cant": "All expressions.", "anchors": ["evaluation/input.go:handleApplyExpression"]}
{"id": "C38", "title": "MapValues returns the last matching row, then the default, then the input", "statement": "MapValues returns the output of the last row (over all tables) whose input equals the input's string form; without a match it returns the default value parsed as the declared type, else the input itself, else an error. The string form of an integer of any width is its decimal numeral, of a string the string, of booleans true and false, of nil <nil>.", "quantifier": "every table, row and input", "why_tests_cant": "All tables.", "anchors": ["evaluation/input.go:handleMapValuesExpression"]}
{"id": "C39", "title": "Derived fields are computed in document order and nothing else changes", "statement": "After local transformations succeed, every key that is not a derived field name is unchanged, and each derived field holds the value of its expression evaluated after the preceding derived fields were stored (converted to float64 when continuous).", "quantifier": "every derived-field list and row", "why_tests_cant": "Unbounded sequences with data dependencies.", "anchors": ["evaluation/input.go:HandleInput"]}
{"id": "C40", "title": "Missing inputs stay missing through derived fields", "statement": "A derived field that copies a missing field is itself missing.", "quantifier": "every row", "why_tests_cant": "Holds or fails for a whole family of documents.", "anchors": ["evaluation/input.go:HandleInput", "evaluation/miningschema.go:Value.Float64"]}
{"id": "C41", "title": "A failing transformation fails Evaluate without output", "statement": "If a derived field's expression is unsupported or fails, tree and mining Evaluate return that error and no output.", "quantifier": "every document and row", "why_tests_cant": "All documents.", "anchors": ["evaluation/input.go:HandleInput", "evaluation/tree.go:TreeModel.Evaluate", "evaluation/mining.go:Evaluate"]}
{"id": "C42", "title": "Integers convert by two's complement and every width agrees", "statement": "Int64 of every Go integer type returns the same number when it fits in int64, uint and uint64 wrap modulo 2^64, every non-integer value gives 0, and Float64 of an integer is the nearest float64.", "quantifier": "every integer of every width", "why_tests_cant": "2^64 values per width.", "anchors": ["evaluation/miningschema.go:Value.Int64", "evaluation/miningschema.go:Value.Float64"]}
{"id": "C43", "title": "Numeric strings behave as the number they denote in float comparisons", "statement": "Float64 of a string is its parsed value, and 0 when it does not parse; so a numeric predicate on a double or float field gives the same result for a string and for the float it parses to.", "quantifier": "every string", "why_tests_cant": "All strings.", "anchors": ["evaluation/miningschema.go:Value.Float64", "evaluation/tree.go:evaluateSimplePredicate"]}
{"id": "C44", "title": "Imputation replaces exactly the missing fields", "statement": "Mining Evaluate replaces each field that has a missingValueReplacement and is absent or nil in the row by that replacement, and leaves every present non-nil field alone.", "quantifier": "every row, schema and iteration order", "why_tests_cant": "All rows and iteration orders.", "anchors": ["evaluation/mining.go:imputeMissingValues"]}
{"id": "C45", "title": "selectFirst returns the first segment's outcome", "statement": "With selectFirst Evaluate returns exactly what the first segment's model returns on the prepared row (error when there are no segments).", "quantifier": "every segment list and row", "why_tests_cant": "All nestings.", "anchors": ["evaluation/mining.go:evaluateMultipleModelSelectFirst"]}
{"id": "C46", "title": "Segment predicates gate their segments", "statement": "A segment whose predicate is not true for the row does not contribute to the outcome.", "quantifier": "every segmentation and row", "why_tests_cant": "Family of documents.", "anchors": ["evaluation/mining.go:Compile", "models/elements.go:Segment"]}
{"id": "C47", "title": "modelChain feeds each output to the next segment and returns the last", "statement": "With modelChain, segment i+1 is evaluated on the row extended (overriding) with segment i's outputs, and Evaluate returns the last segment's outcome, or an empty row without segments.", "quantifier": "every segment list and row", "why_tests_cant": "Unbounded chains.", "anchors": ["evaluation/mining.go:evaluateMultipleModelChain"]}
{"id": "C48", "title": "sum adds the segments' scores in order and rescales targets", "statement": "With sum each output field and target gets 0 plus each segment's contribution in segment order (its own key for classification, score otherwise; absent contributions add nothing), targets are then multiplied by rescaleFactor and increased by rescaleConstant.", "quantifier": "every segment list, output list, target list, row, iteration order", "why_tests_cant": "Unbounded lists and orders.", "anchors": ["evaluation/mining.go:evaluateMultipleModelSum"]}
{"id": "C49", "title": "average is the rescaled sum divided by the number of segments", "statement": "With average every output of the sum is divided by the number of segments of the document.", "quantifier": "every segmentation and row", "why_tests_cant": "Unbounded lists.", "anchors": ["evaluation/mining.go:evaluateMultipleModelAverage"]}
{"id": "C50", "title": "A failing segment fails the ensemble", "statement": "If a segment evaluated by the chosen method returns an error, Evaluate returns that error and no output.", "quantifier": "every segmentation, method and row", "why_tests_cant": "All nestings.", "anchors": ["evaluation/mining.go:Evaluate"]}
{"id": "C51", "title": "sum and average report exactly the declared outputs and targets", "statement": "The keys of a successful sum or average are exactly the output field names and target field names of the mining model.", "quantifier": "every mining model and row", "why_tests_cant": "All documents.", "anchors": ["evaluation/mining.go:evaluateMultipleModelSum", "evaluation/mining.go:evaluateMultipleModelAverage"]}
{"id": "C52", "title": "Linear regression computes the normalised affine form", "statement": "For functionName regression with one table and one output field the output is the normalisation of intercept + sum of coefficient*input in table order, under that output's name only.", "quantifier": "every table and row", "why_tests_cant": "All coefficient lists.", "anchors": ["evaluation/regression.go:EvaluateRegression"]}
{"id": "C53", "title": "Binary classification outputs are complementary", "statement": "With a predictor table followed by an empty table the second output is 1 minus the first.", "quantifier": "every first table, row and normalisation", "why_tests_cant": "All rows.", "anchors": ["evaluation/regression.go:EvaluateBinaryClassification"]}
{"id": "C54", "title": "Multiclass outputs are the softmax (simplemax) of the linear forms", "statement": "Each declared class receives exp(y_i)/sum exp(y_j) (or y_i/sum y_j) with y the linear forms in table order; any other normalisation is an error.", "quantifier": "every table list and row", "why_tests_cant": "All list lengths.", "anchors": ["evaluation/regression.go:EvaluateMulticlassClassification"]}
{"id": "C55", "title": "A missing predictor is an error", "statement": "Regression Evaluate returns an error and no output whenever some reached numeric predictor is absent from the row, and never substitutes a value.", "quantifier": "every regression model and row", "why_tests_cant": "All rows.", "anchors": ["evaluation/regression.go:EvaluateRegression", "evaluation/regression.go:EvaluateBinaryClassification", "evaluation/regression.go:EvaluateMulticlassClassification"]}
{"id": "C56", "title": "Normalisation none is accepted", "statement": "A regression model whose normalisation method is none (the PMML default) evaluates to the plain linear form.", "quantifier": "every table and row", "why_tests_cant": "Family of documents.", "anchors": ["evaluation/regression.go:normalize"]}
{"id": "C57", "title": "Regression evaluation chooses the procedure from the document", "statement": "functionName regression uses linear regression, classification with exactly two output fields the binary procedure, classification otherwise the multiclass one, anything else is an error.", "quantifier": "every regression document", "why_tests_cant": "All documents.", "anchors": ["evaluation/regression.go:Evaluate"]}
{"id": "C58", "title": "Regression Evaluate never changes the row and looks only at its predictors", "statement": "Evaluate of a RegressionModel leaves the row untouched and its outcome depends only on the fields named by its predictors.", "quantifier": "every regression model and pair of rows", "why_tests_cant": "Two-run property.", "anchors": ["evaluation/regression.go:Evaluate"]}
{"id": "C59", "title": "Logistic normalisation stays in [0,1]", "statement": "With logit or softmax normalisation and an exponential that is never negative or NaN on the given input, the normalised value is a number between 0 and 1.", "quantifier": "every float input", "why_tests_cant": "All floats, rounding included.", "anchors": ["evaluation/regression.go:normalize"]}
{"id": "C60", "title": "Predictor coefficients and exponents enter the score", "statement": "In binary classification the score depends on the predictor's coefficient, and everywhere on its exponent.", "quantifier": "every regression document", "why_tests_cant": "Family of documents.", "anchors": ["evaluation/regression.go:EvaluateBinaryClassification", "evaluation/regression.go:EvaluateRegression"]}
{"id": "C61", "title": "Verify succeeds exactly when every row matches", "statement": "Verify returns nil iff there is no ModelVerification, or all column names start with data:, and for every table row Evaluate succeeds on the row's input columns and produces every expected output column present in the row with not(|expected-predicted| > 1e-5*expected).", "quantifier": "every model, verification table and iteration order", "why_tests_cant": "All tables and orders.", "anchors": ["evaluation/evaluation.go:verifyModel"]}
{"id": "C62", "title": "A model reproducing the expected outputs passes Verify", "statement": "If Evaluate returns exactly the expected value for every expected column, Verify succeeds.", "quantifier": "every model and verification table", "why_tests_cant": "All expected values including negative ones.", "anchors": ["evaluation/evaluation.go:verifyModel"]}
{"id": "C63", "title": "Verify detects NaN predictions", "statement": "If a predicted value is NaN while a number was expected, Verify fails.", "quantifier": "every model and verification table", "why_tests_cant": "Needs all float cases.", "anchors": ["evaluation/evaluation.go:verifyModel"]}
{"id": "C64", "title": "Verify feeds inputs under their field names", "statement": "Each verification column without precision is passed to Evaluate under the field name declared for the column.", "quantifier": "every verification table", "why_tests_cant": "All column/field pairings.", "anchors": ["evaluation/evaluation.go:verifyModel"]}
{"id": "C65", "title": "Multiclass probabilities lie in [0,1]", "statement": "With softmax (or simplemax) normalisation, when every class term is a finite non-negative number and their float sum is positive and finite, every reported value is a number between 0 and 1.", "quantifier": "every multiclass model, row and rounding", "why_tests_cant": "All floats, rounding included.", "anchors": ["evaluation/regression.go:EvaluateMulticlassClassification"]}
{"id": "C66", "title": "Binary probabilities lie in [0,1]", "statement": "A binary classification with logit or softmax normalisation reports two numbers between 0 and 1 whenever the exponential of every predictor is a finite non-negative number.", "quantifier": "every binary model and row", "why_tests_cant": "All floats, rounding included.", "anchors": ["evaluation/regression.go:EvaluateBinaryClassification", "evaluation/regression.go:normalize"]}
{"id": "C67", "title": "A document written as XML is read back unchanged", "statement": "Decoding the XML form of a PMML document yields the same version, data dictionary, transformation dictionary and models, in the same order, for every document whose numbers are printed in a form strconv parses back and whose constants contain no markup characters.", "quantifier": "every document of the modelled part of PMML, every nesting depth", "why_tests_cant": "Unbounded documents: tests read a handful of files.", "anchors": ["models/elements.go:UnmarshalXML", "models/elements.go:TreeModel", "models/elements.go:MiningModel", "models/elements.go:RegressionModel"]}
{"id": "C68", "title": "Integer split literals are read exactly", "statement": "On a field of type integer a predicate literal written in decimal compiles to exactly that number if it fits 64 bits and is an error otherwise, and the four order comparisons of a row's integer against it are those of the integers.", "quantifier": "every integer, every comparison, every row", "why_tests_cant": "Two to the 64 literals and values.", "anchors": ["evaluation/evaluation.go:getRawValue", "evaluation/tree.go:compilePredicate", "evaluation/tree.go:evaluateSimplePredicate"]}
{"id": "C69", "title": "Layout does not change what a document means", "statement": "Reordering attributes, adding attributes of other vendors, comments and white space between elements, and unknown elements where structures are read by struct tags, all leave the decoded document the same.", "quantifier": "every document and every such rewriting at every depth", "why_tests_cant": "Infinitely many layouts of infinitely many documents.", "anchors": ["models/elements.go:UnmarshalXML", "models/elements.go"]}
{"id": "C70", "title": "Extension elements are ignored", "statement": "Adding an Extension element below any element, as PMML allows, leaves the decoded document unchanged.", "quantifier": "every document, every place", "why_tests_cant": "All positions in all documents.", "anchors": ["models/elements.go:UnmarshalXML", "models/elements.go:Segment", "models/elements.go:InlineTable"]}
{"id": "C71", "title": "A constant is the text of its element", "statement": "The value of a Constant element is the character data of the element.", "quantifier": "every text and data type", "why_tests_cant": "All texts, including those needing escapes.", "anchors": ["models/elements.go:Constant"]}
{"id": "C72", "title": "Every predictor of a regression table counts", "statement": "A regression table's numeric predictors, categorical predictors and predictor terms all reach the evaluator.", "quantifier": "every regression table", "why_tests_cant": "All tables.", "anchors": ["models/elements.go:RegressionTable", "evaluation/regression.go:EvaluateRegression"]}
{"id": "C73", "title": "Annotations never influence a prediction", "statement": "Two documents that differ only in annotations (verification data, segment and node identifiers nothing refers to, usage types other than target, outlier and missing value attributes of mining fields, confidences a strategy does not read, default values of expressions) are accepted or rejected together with the same error, and their evaluators give equal answers to every row after any history of calls.", "quantifier": "every document, every row, every history, every iteration order", "why_tests_cant": "Infinitely many documents carry the same meaning; a test fixes one.", "anchors": ["evaluation/tree.go:NewTreeModel", "evaluation/mining.go:NewMiningModel", "evaluation/regression.go:NewRegressionModel", "evaluation/tree.go:Evaluate"]}
{"id": "C74", "title": "A left-out attribute acts as its PMML default", "statement": "Writing the default value of an optional attribute into a document (missingValueStrategy, missingValuePenalty, noTrueChildStrategy, usageType, outliers, invalidValueTreatment, feature) changes no prediction.", "quantifier": "every document and every row", "why_tests_cant": "All combinations of present and absent attributes.", "anchors": ["models/elements.go:TreeModel", "models/elements.go:OutputField", "evaluation/tree.go:evaluate", "evaluation/mining.go:Validate"]}
{"id": "C75", "title": "mapMissingTo and defaultValue replace missing results", "statement": "A FieldRef with mapMissingTo, or an Apply with mapMissingTo or defaultValue, yields the replacement when its input is missing.", "quantifier": "every expression, every row", "why_tests_cant": "All expressions and all patterns of missing inputs.", "anchors": ["evaluation/input.go:HandleExpression", "evaluation/input.go:handleApplyExpression"]}
{"id": "C76", "title": "Regression models compute their derived fields", "statement": "A predictor naming a field derived in the LocalTransformations of a RegressionModel uses the derived value.", "quantifier": "every regression model and row", "why_tests_cant": "All models: the tests have no regression with transformations.", "anchors": ["evaluation/regression.go:Evaluate", "evaluation/regression.go:NewRegressionModel"]}
{"id": "C77", "title": "Fields of the TransformationDictionary are computed", "statement": "A field derived in the document's TransformationDictionary is available to predicates and predictors of every model.", "quantifier": "every document and row", "why_tests_cant": "All documents and derived fields.", "anchors": ["evaluation/input.go:HandleInput", "evaluation/tree.go:Evaluate"]}
{"id": "C78", "title": "The order of the segments does not change a sum", "statement": "Permuting the segments of an ensemble with method sum leaves the reported score unchanged.", "quantifier": "every ensemble, every permutation, every row", "why_tests_cant": "All permutations of all ensembles with all rounding patterns.", "anchors": ["evaluation/mining.go:evaluateMultipleModelSum", "evaluation/mining.go:Evaluate"]}
{"id": "C79", "title": "An average lies between the segments' scores", "statement": "With method average the reported score is at least the smallest and at most the largest of the segments' scores.", "quantifier": "every ensemble and row", "why_tests_cant": "All score combinations, rounding included.", "anchors": ["evaluation/mining.go:evaluateMultipleModelAverage", "evaluation/mining.go:Evaluate"]}
{"id": "C80", "title": "A linear prediction is accurate", "statement": "The linear form a regression model feeds into its link function differs from the exact real value of intercept plus sum of coefficient times input by at most ((1+2^-53)^(n+1)-1) times the sum of the absolute terms, plus n(1+2^-53)^n 2^-1075, whenever it is finite.", "quantifier": "every regression model with n predictors and every row", "why_tests_cant": "All floats, all lengths: an error bound cannot be tested.", "anchors": ["evaluation/regression.go:EvaluateRegression"]}
{"id": "C81", "title": "Raising a predictor never lowers the prediction", "statement": "If one row's inputs are at least another's wherever the coefficient is not negative and at most wherever it is not positive, the reported prediction is at least the other's, rounding included, for every monotone link.", "quantifier": "every regression model, every pair of rows", "why_tests_cant": "All pairs of rows; rounding could break the order anywhere.", "anchors": ["evaluation/regression.go:EvaluateRegression", "evaluation/regression.go:normalize"]}
{"id": "C82", "title": "Softmax keeps the order of the classes", "statement": "A class whose exponential is at least another's is reported with at least the other's probability.", "quantifier": "every multiclass model and row", "why_tests_cant": "All floats, rounding included.", "anchors": ["evaluation/regression.go:EvaluateMulticlassClassification"]}
{"id": "C83", "title": "Class probabilities add up to one", "statement": "With the default missing value strategy, the probabilities a tree reports for the classes of the reached node, when they come from integer record counts, add up to 1 within 2^-53.", "quantifier": "every tree, row and record counts up to 2^53 in total", "why_tests_cant": "All counts; the bound is over real numbers.", "anchors": ["evaluation/tree.go:newNode", "evaluation/tree.go:Evaluate"]}
{"id": "C84", "title": "Array accessors are typed and repeatable", "statement": "Strings, Int64s and Float64s succeed exactly on arrays of their type whose text is a list of such elements, return these elements, and give the same result whatever accessors were called before.", "quantifier": "every array text, every sequence of accessor calls", "why_tests_cant": "All call sequences on all texts.", "anchors": ["models/complexTypes.go:Strings", "models/complexTypes.go:Int64s", "models/complexTypes.go:Float64s"]}
{"id": "C85", "title": "An array has the declared number of elements", "statement": "An accessor only succeeds if the array has as many elements as its attribute n declares.", "quantifier": "every array", "why_tests_cant": "All lengths and texts.", "anchors": ["models/complexTypes.go:Int64s"]}
{"id": "C86", "title": "Integers written into an array are read back", "statement": "An int array whose words are the decimal forms of 64-bit integers yields exactly these integers.", "quantifier": "every list of 64-bit integers, every call history", "why_tests_cant": "All integers, all lengths.", "anchors": ["models/complexTypes.go:Int64s"]}
{"id": "C87", "title": "Field names are only names", "statement": "Renaming the fields of a document consistently (injectively, leaving alone the names the library invents: the empty name, score and probability(...)) changes nothing but the names: the renamed document is refused exactly when the original is, for the same reason, and on the renamed row gives the renamed outcome. For a renaming that touches the invented names this fails.", "quantifier": "every document, injective renaming, row and call history", "why_tests_cant": "All documents and all renamings; a test renames one field of one document.", "anchors": ["evaluation/tree.go:Evaluate", "evaluation/mining.go:Evaluate", "evaluation/regression.go:Evaluate"]}
{"id": "C88", "title": "A prediction looks only at the inputs its document needs", "statement": "Two rows that agree on the fields the document reads and does not itself derive first get the same outcome from every model; other columns, also ones named like a derived field, are ignored.", "quantifier": "every document, every pair of rows, every call history", "why_tests_cant": "All rows that differ elsewhere.", "anchors": ["evaluation/tree.go:Evaluate", "evaluation/mining.go:Evaluate", "evaluation/input.go:HandleInput"]}
{"id": "C89", "title": "A second evaluator leaves the first alone", "statement": "Calling NewModel again on a document does not change what the evaluators already built from it answer. True when no field is declared with two data types; otherwise the literals cached in the shared predicates change type under the existing evaluator, which then answers differently or panics. A tree built again with its own dictionaries is never affected.", "quantifier": "every document, pair of dictionaries, call history and row", "why_tests_cant": "All pairs of constructions; tests build one evaluator per document.", "anchors": ["evaluation/tree.go:compilePredicate", "evaluation/tree.go:newNode", "evaluation/mining.go:Compile"]}
{"id": "C90", "title": "Every struct is filled field by field", "statement": "For each of the 267 structs of package models: decoding an element succeeds exactly when each attribute, text and child element that belongs to a field is readable for it (and the hand-written loops know every child), and then every field holds exactly what its own attribute, text or children say, or its zero value. The order of attributes never matters.", "quantifier": "every struct type, every element whose attributes are distinct and whose single children occur once", "why_tests_cant": "267 types and unbounded trees of elements; tests decode a few files.", "anchors": ["models/elements.go:UnmarshalXML", "models/groups.go:GetModelElement"]}
{"id": "C91", "title": "Decoding keeps what the PMML schema declares", "statement": "What a struct has a field for is kept (two texts of a string attribute never decode to the same value) and everything else is dropped without trace. Of the elements the evaluator's documents are made of, exactly six attributes (among them Segment/weight) and twenty-one child elements (among them CategoricalPredictor and PredictorTerm) which the quoted schema declares are lost; so the claim that all is kept is false.", "quantifier": "every struct type, attribute, child element, text and surrounding element", "why_tests_cant": "Needs all attribute names of all structs and all their values.", "anchors": ["models/elements.go:Segment", "models/elements.go:RegressionTable", "models/elements.go:OutputField"]}
{"id": "C92", "title": "Exactly which elements fail to decode", "statement": "Decoding into a struct fails exactly when some number, integer or truth value in reach is malformed or one of the hand-written loops meets an unknown child. Whether a type can fail at all is decided by the types in reach; twelve of the eighteen model elements can never fail, whatever they contain.", "quantifier": "every struct type, every element", "why_tests_cant": "All trees of elements; absence of failure for every content.", "anchors": ["models/elements.go:UnmarshalXML", "models/groups.go:GetModelElement"]}
{"id": "C93", "title": "The evaluator's document is what Go decoded", "statement": "The document the evaluator works on (and all properties here speak about) is a projection of the values encoding/xml stores in the structs of package models, and decoding fails for the one exactly when it fails for the other, also for malformed numbers in parts the evaluator never reads.", "quantifier": "every XML document", "why_tests_cant": "All documents.", "anchors": ["models/elements.go:PMML", "models/elements.go:UnmarshalXML", "models/groups.go:GetModelElement"]}
{"id": "C94", "title": "Missing values can be tested for as PMML writes it", "statement": "A SimplePredicate with isMissing or isNotMissing, which in PMML has no value attribute, is accepted for every field and decides whether the row has the field. False: such a predicate is accepted exactly for string fields, so NewModel refuses every tree that tests a number or a boolean for being missing.", "quantifier": "every field, operator, data type and document", "why_tests_cant": "All documents; absence of acceptance for every data type but one.", "anchors": ["evaluation/tree.go:compilePredicate", "evaluation/evaluation.go:getRawValue", "evaluation/tree.go:evaluateSimplePredicate"]}
{"id": "C95", "title": "A nil value counts as a missing value", "statement": "A row that maps a field to nil is treated like a row without the field. False: predicates find the field present (isMissing is false, nothing is unknown) and compare it as 0, and regression models compute with 0; only the isMissing and isNotMissing functions of expressions treat nil as missing.", "quantifier": "every predicate, regression model and row", "why_tests_cant": "All predicates and rows.", "anchors": ["evaluation/tree.go:evaluateSimplePredicate", "evaluation/regression.go:Evaluate", "evaluation/miningschema.go:Float64"]}
{"id": "C96", "title": "A number means the same in every Go type", "statement": "Whether a predicate holds of a number does not depend on the Go type it has in the row. True of order comparisons of double and float fields. False of equal, which demands exactly the Go type of the parsed literal (float64, int64), and of order comparisons of integer fields, for which every float64 (what encoding/json yields) counts as 0.", "quantifier": "every predicate, Go value and row", "why_tests_cant": "All values of all Go kinds.", "anchors": ["evaluation/tree.go:evaluateSimplePredicate", "evaluation/miningschema.go:Int64"]}
{"id": "C97", "title": "How compound predicates are written does not matter", "statement": "Reordering the operands of and, or and xor, flattening a compound nested in one of the same operator, unwrapping a compound of one operand and dropping a repeated operand of and or or, anywhere in the trees of an arbitrarily nested document, changes neither whether it is accepted nor any outcome. Surrogate operands are ordered and repeated xor operands count.", "quantifier": "every document, every sequence of such rewritings, every row and call history", "why_tests_cant": "Closure under arbitrarily many rewritings of arbitrarily nested predicates.", "anchors": ["evaluation/tree.go:evaluateCompoundPredicate", "evaluation/tree.go:compilePredicate"]}
{"id": "C98", "title": "The data dictionary is looked up by name", "statement": "Two data dictionaries that say the same about each field tested by a predicate or predicted by a tree are interchangeable: the order of data fields with distinct names is irrelevant, and a data field that is neither tested nor predicted can be added or dropped.", "quantifier": "every document, pair of dictionaries, row and call history", "why_tests_cant": "All dictionaries and all documents.", "anchors": ["evaluation/tree.go:Compile", "evaluation/mining.go:Compile", "evaluation/tree.go:outputScoreDist"]}
{"id": "C99", "title": "A branch the row does not enter has no influence", "statement": "Dropping children whose predicate is false on the row, at any depth of a tree, does not change the outcome; dropping children under False changes no outcome at all. True for the strategies none, nullPrediction, lastPrediction and (unless the child is the default child) defaultChild without returnNullPrediction, and for weightedConfidence up to the order in which Go visits maps; false of aggregateNodes, which counts the records of false branches, of returnNullPrediction and of a false default child.", "quantifier": "every tree, strategy, set of dropped branches, row", "why_tests_cant": "All trees and all sets of branches.", "anchors": ["evaluation/tree.go:evaluate", "evaluation/tree.go:evaluateMissingValueStrategyAggregateNodes", "evaluation/tree.go:outputScoreDist"]}
{"id": "C100", "title": "Segments do not influence each other", "statement": "Each member of a sum or average ensemble contributes what it predicts on its own from the row the ensemble prepared. True when no member needs a field that an earlier member may write. False in general: the derived fields an earlier segment computes are left in the row and replace an input of the same name for the later ones.", "quantifier": "every ensemble, row and call history", "why_tests_cant": "All ensembles; the comparison is with evaluators compiled separately.", "anchors": ["evaluation/mining.go:evaluateMultipleModelSum", "evaluation/mining.go:evaluateMultipleModelAverage", "evaluation/mining.go:Compile", "evaluation/input.go:HandleInput"]}
{"id": "C101", "title": "An ensemble of one member is that member", "statement": "A selectFirst or modelChain ensemble with one segment and no derived fields or replacements of its own returns exactly what its member returns, errors, panics and the row left behind included, and is accepted whenever the member is. With sum and average each declared output is the member's value as a float64, except that a negative zero becomes zero.", "quantifier": "every single-segment ensemble, row and call history", "why_tests_cant": "All members, nested arbitrarily; includes failures and panics.", "anchors": ["evaluation/mining.go:Evaluate", "evaluation/mining.go:evaluateMultipleModelSelectFirst", "evaluation/mining.go:evaluateMultipleModelChain", "evaluation/mining.go:evaluateMultipleModelSum"]}
{"id": "C102", "title": "Every kind of segment contributes to a sum or average", "statement": "A regression ensemble (sum or average) returns the sum or average of its members' predictions, whichever kind of model they are. False: a regression model's prediction is never found unless it declares an output called score, so an ensemble of regression models returns its rescaled zero whatever the members predict.", "quantifier": "every ensemble of regression models, row and call history", "why_tests_cant": "All ensembles and rows.", "anchors": ["evaluation/mining.go:evaluateMultipleModelSum", "evaluation/mining.go:evaluateMultipleModelAverage", "evaluation/regression.go:Evaluate"]}
{"id": "C103", "title": "The declared precision decides how close a prediction must be", "statement": "Verify accepts a row exactly when the prediction is within the precision its verification field declares. False: the value of the precision has no influence. Documents that differ only in declared precisions (and in anything else Evaluate does not read) get the same verdict: a prediction too far for the declared precision is accepted, one near enough is refused.", "quantifier": "every document, pair of verification tables with the same columns, row and call history", "why_tests_cant": "All documents, precisions and tables.", "anchors": ["evaluation/evaluation.go:verifyModel"]}
{"id": "C104", "title": "Verify checks the verification data of the members", "statement": "An ensemble whose members carry verification data is verified by them too. False: only the data of the outermost model count, whatever the members declare at any depth; a member that fails its own verification sits in an ensemble that passes.", "quantifier": "every document, at any nesting depth", "why_tests_cant": "All documents and all member tables.", "anchors": ["evaluation/evaluation.go:verifyModel", "evaluation/mining.go:Verify"]}
{"id": "C105", "title": "The probabilities of a tree lie in [0,1]", "statement": "Every probability a classification tree reports lies between 0 and 1 when its record counts are not negative, its declared probabilities lie in [0,1] and its penalty does. True of every strategy but weightedConfidence, for aggregateNodes with whole record counts. False of weightedConfidence: the weights of nine equal children add up to more than 1 in floating point and 1.0000000000000002 is reported.", "quantifier": "every tree, strategy, row and call history", "why_tests_cant": "All trees and distributions; rounding decides.", "anchors": ["evaluation/tree.go:outputScoreDist", "evaluation/tree.go:evaluateMissingValueStrategyAggregateNodes", "evaluation/tree.go:evaluateMissingValueStrategyWeightedConfidence", "evaluation/tree.go:evaluateMissingValueStrategyDefaultChild"]}
{"id": "C106", "title": "The probabilities of a forest lie in [0,1]", "statement": "Whenever an averaging ensemble of at most 2^53 such trees succeeds, each declared probability it reports lies between 0 and 1, rounding included; so it does for members of any kind whose contributions lie in [0,1].", "quantifier": "every ensemble, row and call history", "why_tests_cant": "All forests, of any size; rounding errors accumulate.", "anchors": ["evaluation/mining.go:evaluateMultipleModelAverage", "evaluation/mining.go:evaluateMultipleModelSum", "evaluation/tree.go:outputScoreDist"]}
{"id": "C107", "title": "Raising members' scores never lowers the total", "statement": "If each member of one ensemble contributes at least what its counterpart in another with the same header contributes, the sum and the average of the one are at least those of the other (finite totals, rescale factors not negative), rounding included.", "quantifier": "every pair of ensembles, of any size, and every pair of rows", "why_tests_cant": "All ensembles; floating-point sums of any length.", "anchors": ["evaluation/mining.go:evaluateMultipleModelSum", "evaluation/mining.go:evaluateMultipleModelAverage"]}
{"id": "C108", "title": "Targets rescale the prediction", "statement": "The reported prediction is what the ensemble would predict without Targets, times rescaleFactor plus rescaleConstant. True of sum for an output named like the target; factor 1 and constant 0 change nothing. False of average, which divides the constant by the number of segments, of an output with another name, which stays as it was, and of modelChain and selectFirst, which ignore Targets.", "quantifier": "every ensemble, list of targets, row and call history", "why_tests_cant": "All ensembles and targets; the comparison is with another document.", "anchors": ["evaluation/mining.go:evaluateMultipleModelSum", "evaluation/mining.go:evaluateMultipleModelAverage", "evaluation/mining.go:Evaluate"]}
{"id": "C109", "title": "A failed construction returns a nil Model", "statement": "When NewModel returns an error the Model beside it is nil, so callers may test either. False: for tree and mining documents it is an interface holding a nil pointer, which is not equal to nil and panics on every method call; it is nil exactly for unsupported and nil elements. Without an error the Model is a working evaluator.", "quantifier": "every document, dictionaries and nil arguments", "why_tests_cant": "All documents; tests compare errors only.", "anchors": ["evaluation/evaluation.go:NewModel", "evaluation/tree.go:NewTreeModel", "evaluation/mining.go:NewMiningModel", "evaluation/regression.go:NewRegressionModel"]}
{"id": "C110", "title": "Exactly when NewModel panics", "statement": "NewModel panics exactly when it is given a nil *TreeModel or *MiningModel, or a nil dictionary together with a tree or mining document that passes validation, however its segments look. Regression models need no dictionaries and nothing else can be built without them.", "quantifier": "every document, nil and non-nil arguments", "why_tests_cant": "All documents and argument combinations; an equivalence.", "anchors": ["evaluation/evaluation.go:NewModel", "evaluation/tree.go:Compile", "evaluation/mining.go:Compile", "evaluation/regression.go:NewRegressionModel"]}
{"id": "C111", "title": "Evaluate returns no row beside an error", "statement": "When Evaluate returns an error the DataRow beside it is nil. True of trees and ensembles. False of regression models: it is nil exactly when a predictor is missing or the function is unknown, otherwise an empty row, and a binary classifier returns the probabilities of the classes it got to before the error.", "quantifier": "every document, row and error", "why_tests_cant": "All documents and rows, on failing paths.", "anchors": ["evaluation/regression.go:Evaluate", "evaluation/regression.go:EvaluateRegression", "evaluation/regression.go:EvaluateBinaryClassification", "evaluation/regression.go:EvaluateMulticlassClassification", "evaluation/tree.go:Evaluate", "evaluation/mining.go:Evaluate"]}
{"id": "C112", "title": "Only the proportions of record counts matter", "statement": "Multiplying every recordCount of a tree by the same whole number, as when the training set is repeated, changes no prediction, probability or error on any row, under every missing-value strategy and at any depth of an ensemble, as long as the counts are whole and their total stays within 2^53. False of fractional counts: 0.3 and 0.1 give another probability than 3 and 1.", "quantifier": "every document, multiple, row, map order and call history", "why_tests_cant": "All trees and multiples; depends on every division and sum being correctly rounded.", "anchors": ["evaluation/tree.go:outputScoreDist", "evaluation/tree.go:evaluateMissingValueStrategyAggregateNodes", "evaluation/tree.go:evaluateMissingValueStrategyWeightedConfidence"]}
{"id": "C113", "title": "The order of exclusive siblings does not matter", "statement": "Putting the children of a tree's nodes, at any depth, into another order changes neither the outcome nor the row on inputs where no two siblings are both true: under the default strategy always, under nullPrediction when all siblings but one are false, under every strategy when all predicates are known and every node has scores. False when siblings overlap: the first true one wins.", "quantifier": "every tree, rearrangement, row and call history", "why_tests_cant": "All trees and permutations; the comparison is with another document.", "anchors": ["evaluation/tree.go:evaluateMissingValueStrategyNone", "evaluation/tree.go:evaluateMissingValueStrategyNullPrediction", "evaluation/tree.go:Evaluate"]}
{"id": "C114", "title": "A smaller missingValuePenalty never raises a probability", "statement": "Under defaultChild, replacing the penalty by a smaller one leaves errors, rows without a prediction and the set of reported keys as they are, and raises no class probability, rounding included; regression trees do not look at the penalty at all. The predicted class may change: unequal probabilities become equal when the products are rounded, and the first class wins.", "quantifier": "every tree, pair of penalties in [0,1], row and call history", "why_tests_cant": "All trees, depths and penalties; products of any length are rounded.", "anchors": ["evaluation/tree.go:evaluateMissingValueStrategyDefaultChild", "evaluation/tree.go:pickBest"]}
{"id": "C115", "title": "How derived fields are written does not matter", "statement": "Rewriting the derived fields of a document's trees and ensembles, at any depth, leaves construction errors, outcomes and rows as they are: swapping the operands of + and *, exchanging isMissing and isNotMissing with the branches of if, dropping an if with equal branches, reordering table rows with distinct inputs, reordering fields that cannot fail and do not read each other, writing a field out by its definition, dropping one that is redefined before it is read, and any combination. The side conditions are needed: fields that can fail do not commute, a continuous field of a missing input is no longer missing, and sum of two is not +.", "quantifier": "every document, rewriting, row, world and call history", "why_tests_cant": "All combinations of rewritings at all depths; the comparison is with another document.", "anchors": ["evaluation/input.go:HandleInput", "evaluation/input.go:handleApplyExpression", "evaluation/input.go:handleMapValuesExpression"]}
{"id": "C116", "title": "A prediction changes only where a split is crossed", "statement": "Two rows between which no test of the document distinguishes get the same outcome, and are left the same wherever they were the same. Fields may differ if nothing computes with them (no derived field, no predictor) and their two values lie on the same side of every literal the document's predicates compare them with, at any depth: floats and whole numbers with no literal between them, strings no predicate mentions.", "quantifier": "every document, pair of rows (any number of differing fields), world and call history", "why_tests_cant": "All pairs of rows in the same cell of an arbitrary document; testing compares finitely many pairs.", "anchors": ["evaluation/tree.go:evaluateSimplePredicate", "evaluation/tree.go:evaluate", "evaluation/mining.go:Evaluate"]}
{"id": "C117", "title": "Split points are the decimals the document shows", "statement": "If ParseFloat rounds correctly, an order test of a double or float field against a decimal literal decides the order of the decimals themselves, although both are rounded: for a row that holds a decimal as text, or the float64 read from it, when both have at most fifteen significant digits (any notation, 1e-307 to 1e308, or 0); equal then is equality of the decimals. With more digits a difference may be missed but is never turned around, and sixteen digits are too many. Any other float64 is compared with the exact decimal unless it is the float64 nearest to it. A float32 in the row is not the decimal it was read from: 0.1 is above 0.1.", "quantifier": "every literal, row value, notation and operator, under every correctly rounding ParseFloat", "why_tests_cant": "Infinitely many pairs of decimals; the statement is about real numbers, not about the floats that represent them.", "anchors": ["evaluation/tree.go:evaluateSimplePredicate", "evaluation/tree.go:compilePredicate", "evaluation/evaluation.go:getRawValue"]}
{"id": "C118", "title": "Float32 is the nearest float32", "statement": "Float32 of a float64 is the float32 nearest to it, or an infinity of its sign from halfway past the largest float32; Float32 of an integer that fits in int64 is the float32 nearest to the integer itself; Float64 of a float32 is the same number and Float32 gives it back. Every other value, numeric strings included, is 0: Float32 is not Float64 rounded once more, neither on strings nor on large integers.", "quantifier": "every float64, float32, integer of every width and other value", "why_tests_cant": "2^64 floats; nearest is a statement about real numbers.", "anchors": ["evaluation/miningschema.go:Value.Float32", "evaluation/miningschema.go:Value.Float64"]}
{"id": "C119", "title": "aggregateNodes is random only in ties", "statement": "For a classification tree with aggregateNodes, whole record counts (2^53 in total) and distinct target values, two evaluations under any iteration orders of Go's maps return the same error, or rows that agree on every probability and differ at most in the predicted class; if that class is reported as more probable than all others the rows are equal. None of this holds for regression trees, where aggregateNodes and weightedConfidence return the value of a random leaf; and weightedConfidence, or fractional counts, leave the last bits of the probabilities to the iteration order.", "quantifier": "every such tree, row, earlier history and pair of iteration orders", "why_tests_cant": "Iteration order is outside a test's control.", "anchors": ["evaluation/tree.go:evaluateMissingValueStrategyAggregateNodes", "evaluation/tree.go:evaluateMissingValueStrategyWeightedConfidence", "evaluation/tree.go:TreeModel.Evaluate"]}
{"id": "C120", "title": "Trees look only at the order of numbers", "statement": "If the numbers of some double or float fields, in the row and in the literals of all predicates, are replaced by other numbers in the same order (another unit of measurement, ranks, logarithms), the document is accepted as before and every evaluation returns the same row or error and leaves the other fields of the caller's row the same. The fields may be missing, but must not be used by derived fields or predictors and not be written by the document.", "quantifier": "every document of trees, ensembles and chains, every order-preserving recoding, every row and earlier history", "why_tests_cant": "All monotone recodings of all documents.", "anchors": ["evaluation/tree.go:evaluateSimplePredicate", "evaluation/tree.go:compilePredicate", "evaluation/tree.go:TreeModel.Evaluate", "evaluation/mining.go:MiningModel.Evaluate"]}
{"id": "C121", "title": "One evaluator per goroutine is safe", "statement": "Goroutines that each make any series of Evaluate calls never race as long as no evaluator is used by two of them, even if the evaluators were built from one document and used before. Whatever the interleaving, each goroutine can finish and gets the replies its calls give one by one.", "quantifier": "every set of evaluators, every assignment of calls to goroutines, every interleaving", "why_tests_cant": "All interleavings of any number of goroutines.", "anchors": ["evaluation/tree.go:TreeModel.Evaluate", "evaluation/mining.go:MiningModel.Evaluate", "evaluation/regression.go:RegressionModel.Evaluate"]}
{"id": "C122", "title": "Evaluators can be built in parallel", "statement": "Goroutines may call NewModel at the same time on the models of one file, which share the dictionaries. False: NewModel appends to the shared TransformationDictionary and writes into the document. Separate models race exactly when one of them has LocalTransformations and another is not a plain RegressionModel; a lost append then makes NewModel fail with an unknown field. One model built twice races exactly when building it writes anything: a derived field, a mining field or predicate literal of a tree, an empty multipleModelMethod. Without LocalTransformations every goroutine gets the evaluator NewModel alone returns.", "quantifier": "every set of accepted documents, every interleaving of the NewModel calls", "why_tests_cant": "All interleavings of the constructions.", "anchors": ["evaluation/evaluation.go:NewModel", "evaluation/tree.go:TreeModel.Compile", "evaluation/tree.go:TreeModel.Validate", "evaluation/tree.go:compilePredicate", "evaluation/mining.go:MiningModel.Compile", "evaluation/mining.go:MiningModel.Validate"]}
{"id": "C123", "title": "Every error of Evaluate has a cause the caller can check", "statement": "An error returned by Evaluate on a non-nil row names one of: a derived field of a tree or ensemble with a constant that is not a readable double, a function that is unknown or has the wrong number of arguments, an unsupported expression, or a MapValues with an unreadable default or without default on an absent input; a score of a regression tree that is no number; a regression model that lacks a predictor in the row, or whose normalization, function, tables or outputs do not fit; selectFirst without segments. Only members that are asked count, and an absent field is one the caller's own row lacks. A document with none of these faults, whose trees cannot panic, answers every row.", "quantifier": "every accepted document, row and earlier calls, at any nesting depth", "why_tests_cant": "All documents and rows; tests show that an error occurs, not that no other can.", "anchors": ["evaluation/input.go:HandleExpression", "evaluation/input.go:HandleInput", "evaluation/tree.go:TreeModel.Evaluate", "evaluation/mining.go:MiningModel.Evaluate", "evaluation/regression.go:RegressionModel.Evaluate"]}
{"id": "C124", "title": "Evaluators may be used while other documents are built, not while their own is built again", "statement": "Evaluate calls may run beside NewModel calls on other documents, with shared dictionaries and derived fields, without a data race, provided the NewModel calls do not race among themselves (C122). NewModel on a document that has been built before, beside Evaluate calls on evaluators built from it, races exactly when one of these calls tests a simple predicate: NewModel fills in every literal again and Evaluate reads those it tests. Which predicates a row reaches is stated by the results of tests, children and segments for each missing value strategy and multiple model method.", "quantifier": "every set of goroutines and interleaving, every accepted document, evaluators in use for any number of calls, all rows", "why_tests_cant": "A race shows under particular schedules and rows only; the detector reports those that occur in a run.", "anchors": ["evaluation/tree.go:compilePredicate", "evaluation/tree.go:evaluateSimplePredicate", "evaluation/tree.go:evaluateCompoundPredicate", "evaluation/mining.go:MiningModel.Evaluate", "evaluation/evaluation.go:NewModel"]}
{"id": "C125", "title": "The class probabilities of a forest add up to one", "statement": "A classification tree whose distributions are whole record counts reports probabilities that add up to one within one unit roundoff, under none, nullPrediction, lastPrediction and aggregateNodes, whenever it reports any. The averaged probabilities of n members that do so add up to one within (1 + 2^-53)^(n+2) - 1 plus 2^-1075 per class. A forest of trees of the default strategy with a True root does so on every row it accepts. Under weightedConfidence, with different ids and whole record counts for the children of a node, every level of a tree with at most n children per node multiplies the error by (1 + 2^-53)^(n+2).", "quantifier": "all dictionaries and documents of these forms, rows, histories of calls and iteration orders; up to 2^53 records and members", "why_tests_cant": "Every class is rounded separately in every member and again in the average; a test fixes one forest and row, and says nothing about the others.", "anchors": ["evaluation/mining.go:evaluateMultipleModelAverage", "evaluation/tree.go:evaluateMissingValueStrategyAggregateNodes", "evaluation/tree.go:outputScoreDist"]}
{"id": "C126", "title": "A returned row is the caller's own", "statement": "In a program that keeps rows in variables, shares, writes, deletes and evaluates them in any order with any number of evaluators, the variable that receives Evaluate's row is the only one to hold that row, and no later statement that does not mention the variable changes it. What Evaluate reports, returns and writes to its argument is decided by the contents of that argument at the time; rows that are not the argument stay as they were.", "quantifier": "all programs of such statements, evaluators of all documents, iteration orders; also answers beside errors", "why_tests_cant": "A map is a reference: an answer could be the caller's own input or the row of an earlier answer on some path only, and a test would have to look at every row the program holds after every later call.", "anchors": ["evaluation/mining.go:MiningModel.Evaluate", "evaluation/mining.go:evaluateMultipleModelChain", "evaluation/tree.go:TreeModel.Evaluate", "evaluation/regression.go:RegressionModel.Evaluate", "evaluation/input.go:HandleInput"]}
{"id": "C127", "title": "The cost of a prediction is bounded by the document", "statement": "An Evaluate call compares the row with no literal of the document twice, so it makes at most as many comparisons as the document has simple predicates. A tree of strategy none or nullPrediction makes at most L (1 + W (D - 1)) of them, for D levels, W children of the widest node and L simple predicates in the longest predicate, however many nodes it has; an ensemble at most the sum over its members.", "quantifier": "all documents that build, rows, histories of calls and iteration orders; also calls that are not finished or fail", "why_tests_cant": "A test counts the comparisons of one call on one document; that no row makes a tree revisit a node or look into branches it does not take is a statement about all rows.", "anchors": ["evaluation/tree.go:node.evaluate", "evaluation/tree.go:evaluateMissingValueStrategyNone", "evaluation/tree.go:evaluateMissingValueStrategyNullPrediction", "evaluation/tree.go:evaluateSimplePredicate", "evaluation/mining.go:MiningModel.Evaluate"]}
{"id": "C128", "title": "How ensembles are nested does not matter", "statement": "A chain inside a chain answers like the one chain of all the segments, and an ensemble of one member (selectFirst or modelChain) like that member, when the inner mining model adds no derived fields or default values; anywhere in the document and any number of times. The same documents are accepted, and otherwise rejected with the same error.", "quantifier": "all documents related by such regroupings whose trees do not use weightedConfidence or aggregateNodes, dictionaries, histories of calls, iteration orders and rows", "why_tests_cant": "A test compares two nestings on a few rows; that no row tells them apart, at any depth, needs an argument about how chains pass rows on.", "anchors": ["evaluation/mining.go:evaluateMultipleModelChain", "evaluation/mining.go:evaluateMultipleModelSelectFirst", "evaluation/mining.go:MiningModel.Evaluate", "evaluation/mining.go:MiningModel.Compile"]}
{"id": "C129", "title": "Splits that decide nothing can be leaves", "statement": "Where a node and all nodes below it predict the same classes with the same probabilities (or the same score), the document with a leaf there is accepted as well and answers alike, whatever the ids, record counts and confidences of the nodes removed; in any number of places and of trees of the document. This holds for the strategy none (or no strategy) with returnLastPrediction; under nullPrediction for rows that meet no unknown predicate on their way, and under the other strategies for rows that leave no predicate unknown. Under nullPrediction and defaultChild rows with missing values can tell the two documents apart.", "quantifier": "all documents whose simplified trees use no missing value strategy, dictionaries, histories of calls, iteration orders and rows (including rows with missing or unreadable values); all tree documents with a missing value strategy and rows as described", "why_tests_cant": "A test compares a tree and its simplification on a few rows; that no row, with or without missing values, tells them apart needs an argument about the descent.", "anchors": ["evaluation/tree.go:evaluateMissingValueStrategyNone", "evaluation/tree.go:TreeModel.Evaluate", "evaluation/tree.go:outputScoreDist"]}
{"id": "C130", "title": "The probabilities of multiclass regressions add up to one", "statement": "Under softmax or simplemax, when every class has an output field of its own and the exponentials (forms) are nonnegative with a positive sum that does not overflow, the n reported probabilities add up to 1 up to (2n+2) units of rounding. Without these conditions they do not: a form of 1000 makes its softmax probability NaN, and classes without an output field overwrite each other under the empty name.", "quantifier": "all regression documents with up to 2^51 tables, dictionaries, histories of calls, rows with all predictors present", "why_tests_cant": "A test sums up the probabilities of a few rows; a bound on the error for every number of classes and all scores needs an analysis of the roundings.", "anchors": ["evaluation/regression.go:EvaluateMulticlassClassification"]}
{"id": "C131", "title": "Node identifiers only tell siblings apart", "statement": "Trees whose nodes are identified differently, such that each defaultChild names the same children, are accepted and rejected alike and answer alike; identifiers may repeat in other parts of the tree. Under weightedConfidence with distinct siblings the answer is one of those of the original (siblings are visited in map order). Identifiers that are left out count as the same identifier: under defaultChild and weightedConfidence this changes answers, although PMML makes them optional.", "quantifier": "all documents with trees related by such renamings, dictionaries, histories of calls, iteration orders and rows", "why_tests_cant": "A test compares two numberings on a few rows; that no row and no repetition of an identifier elsewhere matters needs an argument about all evaluations.", "anchors": ["evaluation/tree.go:evaluateMissingValueStrategyDefaultChild", "evaluation/tree.go:evaluateMissingValueStrategyWeightedConfidence", "evaluation/tree.go:newNode"]}
{"id": "C132", "title": "Class names are only names", "statement": "A classification tree whose classes are renamed one to one, in its scores and in the data dictionary, is accepted as well and predicts the renamed class, with each probability under the renamed key, the same errors and the same row afterwards. A regression model whose classes are renamed, in its tables and outputs, answers exactly as before, alone or in an ensemble. Under aggregateNodes and weightedConfidence ties may be broken differently.", "quantifier": "all injective renamings that keep the empty name, trees of the other strategies whose target is not named like a probability, documents with regression models at any depth, dictionaries, histories of calls and rows", "why_tests_cant": "A test renames the classes of one tree; that no name is treated specially for any tree and row needs an argument about all comparisons of names.", "anchors": ["evaluation/tree.go:outputScoreDist", "evaluation/tree.go:pickBest", "evaluation/tree.go:TreeModel.Evaluate", "evaluation/tree.go:newNode", "evaluation/regression.go:EvaluateBinaryClassification", "evaluation/regression.go:EvaluateMulticlassClassification"]}
{"id": "C133", "title": "A prediction made without some inputs is final under nullPrediction", "statement": "Under nullPrediction a tree that predicts although inputs are missing predicts the same for every row that fills them in, if no predicate asks whether a field is missing and no derived field reads a field that is filled in. Under lastPrediction the prediction for the filled-in row comes from the node the incomplete row stopped at or from one below it. The same holds for ensembles of such trees.", "quantifier": "all tree documents, dictionaries, pairs of rows of which one extends the other, and histories of calls", "why_tests_cant": "A test fills in some values of one row; that no way of filling in the missing inputs changes the prediction is a statement about pairs of rows.", "anchors": ["evaluation/tree.go:evaluateMissingValueStrategyNullPrediction", "evaluation/tree.go:evaluateMissingValueStrategyLastPrediction", "evaluation/tree.go:evaluateCompoundPredicate", "evaluation/tree.go:evaluateSimplePredicate", "evaluation/mining.go:evaluateMultipleModelSum"]}
{"id": "C134", "title": "The order of declarations does not matter", "statement": "A document whose mining fields, output fields, targets or verification fields are listed in another order is accepted just the same and gives the same results, errors and row changes for every row, in ensembles and all their members, provided nothing is listed twice. So is one whose regression tables are listed in another order.", "quantifier": "all documents, permutations at every level of nesting, dictionaries, histories of calls and rows", "why_tests_cant": "A test shuffles one document; that no order is ever looked at needs an argument about every loop over declarations.", "anchors": ["evaluation/mining.go:evaluateMultipleModelSum", "evaluation/mining.go:MiningModel.Compile", "evaluation/regression.go:EvaluateBinaryClassification", "evaluation/regression.go:EvaluateMulticlassClassification", "evaluation/tree.go:TreeModel.Compile", "evaluation/evaluation.go:verifyModel"]}
{"id": "C135", "title": "A tree whose root is true predicts for every row", "statement": "A tree model whose root's predicate is true answers every row: without a strategy for missing values and under lastPrediction with the distribution of one of its own nodes, under aggregateNodes and weightedConfidence with some scores, if no node's distribution is empty. A classification then returns a row with a class and probabilities, a regression a number or the error of a score that is not one; never nil and never a panic. Under the first two the class is one the answering node lists, if every node has a class of positive probability.", "quantifier": "all trees, dictionaries, histories of calls and rows, whatever is missing, map iteration orders included", "why_tests_cant": "A test shows that some rows are answered; the claim is that no row, however incomplete, falls through the tree.", "anchors": ["evaluation/tree.go:node.evaluate", "evaluation/tree.go:evaluateMissingValueStrategyNone", "evaluation/tree.go:evaluateMissingValueStrategyLastPrediction", "evaluation/tree.go:evaluateMissingValueStrategyAggregateNodes", "evaluation/tree.go:evaluateMissingValueStrategyWeightedConfidence", "evaluation/tree.go:TreeModel.Evaluate"]}
{"id": "C136", "title": "A tree is the list of its rules", "statement": "Without a strategy for missing values, and under nullPrediction, a tree may be written flat: under its root one leaf for every other node, children before their parent, each with the conjunction of the predicates on the way to it. The flat document is accepted whenever the tree is, and every row gets the same result, error and changes from both, in any number of trees of an ensemble. So without a strategy the first rule that holds decides, and the root if none does. It holds unless returnNullPrediction silences inner nodes, and the other strategies tell the two apart.", "quantifier": "all documents with any number of trees, dictionaries, histories of calls and rows, missing values included", "why_tests_cant": "Tests compare a tree and its rules on some rows; which node answers depends on every predicate on every path, three-valued.", "anchors": ["evaluation/tree.go:evaluateMissingValueStrategyNone", "evaluation/tree.go:evaluateMissingValueStrategyNullPrediction", "evaluation/tree.go:evaluateCompoundPredicate", "evaluation/tree.go:newNode"]}
{"id": "C137", "title": "Models built earlier do not matter unless they derive a tested field", "statement": "All that NewModel takes from the TransformationDictionary it is given are the data types of the fields that the document's trees test and do not derive themselves: two dictionaries that give these fields the same types lead to the same error, or to evaluators that give every row the same result, error and changes. NewModel adds local derived fields to the dictionary, also for documents that it rejects, so the order in which models are built could matter: it does not, unless an earlier document derives a field that a later one tests. Then the later model may predict something else or be rejected.", "quantifier": "all documents, data dictionaries, transformation dictionaries, sequences of earlier documents (accepted or rejected, each with its own data dictionary), histories of calls and rows", "why_tests_cant": "Tests build one model per document. What is left behind in a shared dictionary shows only in the models built after it.", "anchors": ["evaluation/evaluation.go:NewModel", "evaluation/tree.go:Compile", "evaluation/mining.go:Compile", "evaluation/tree.go:NewTreeModel", "evaluation/regression.go:NewRegressionModel"]}
{"id": "C138", "title": "The benchmark measures each model file once", "statement": "If the benchmark program runs to its end, it has measured each file ending in .xml below its directory once, of files with the same name only the last one it walks to. It runs to its end if each of these files can be read, NewModel takes the first model in it and this model accepts rows of the six random inputs; in that case every row consists of six numbers not used before and is answered as by an evaluator that has just been built. A single bad file ends the run and leaves files unmeasured.", "quantifier": "all directories, files, XML documents, random numbers, orders of the map of files and numbers of iterations", "why_tests_cant": "The program is not tested; it is run on two files, in an order that changes from run to run.", "anchors": ["main/perftest.go:main", "evaluation/evaluation.go:NewModel"]}
{"id": "C139", "title": "The data types float and double mean the same", "statement": "Declaring a data field, a derived field (of the dictionary or of any model) or the default of a MapValues float instead of double, or with another data type that the evaluator does not know instead of one that it does not know, changes nothing: NewModel fails with the same error, or the evaluators give every row the same result, error and changes. No other two data types can be exchanged: for any two a tree with one test tells them apart. Constants are the exception: the only ones accepted are double, one declared float is an error for every row.", "quantifier": "all documents, data types, dictionaries, histories of calls and rows", "why_tests_cant": "Every place where a type is looked at must treat the two names alike; a test looks at one of them.", "anchors": ["evaluation/evaluation.go:getRawValue", "evaluation/tree.go:evaluateSimplePredicate", "evaluation/tree.go:compilePredicate", "evaluation/input.go:handleMapValuesExpression", "evaluation/input.go:handleConstantExpression"]}
{"id": "C140", "title": "The units of the inputs of a regression do not matter", "statement": "If inputs of a regression model are given in other units (each numerical field times its own factor, which may be negative for a scale that runs the other way) and the coefficients of the predictors are divided by the same factors, a regression, and a classification with other than two outputs, answers every row bit by bit as before, if the converted numbers are exact. Classifications with two outputs are the exception: they add the inputs up without coefficients, so another unit changes the answer.", "quantifier": "all regression documents, nonzero factors per field, rows, histories of calls and exact conversions", "why_tests_cant": "The factors are arbitrary real numbers and the claim is about rounding: products of converted operands must round alike.", "anchors": ["evaluation/regression.go:EvaluateRegression", "evaluation/regression.go:EvaluateMulticlassClassification", "evaluation/regression.go:EvaluateBinaryClassification"]}
{"id": "C141", "title": "A predictor with coefficient zero only has to be present", "statement": "In a regression, and in a classification with other than two outputs, predictors whose coefficient is zero can be left out of the tables: every row that has finite numbers for them gets bit by bit the same answer (unless an intercept is the negative zero). They cannot be left out for other rows: a missing field is an error and an infinite one makes NaN. Classifications with two outputs are the exception: they ignore coefficients.", "quantifier": "all regression documents with such predictors anywhere in their tables, rows and histories of calls", "why_tests_cant": "Zero times an input and the sum with it must be exact for all numbers; tests try a few.", "anchors": ["evaluation/regression.go:EvaluateRegression", "evaluation/regression.go:EvaluateMulticlassClassification", "evaluation/regression.go:EvaluateBinaryClassification"]}
{"id": "C142", "title": "Every value of a returned row has a known Go type", "statement": "Every value in a row returned by Evaluate is a float64, with one exception: the predicted class of a classification tree is a string, stored under the tree's target field, and it is the empty string or a class the tree or its target field lists. Which model answers depends on the document only: trees, regression models and the methods sum and average answer themselves, modelChain answers with its last segment and selectFirst with its first. So a document answered by anything but a classification tree returns float64 values only, under the names its outputs and targets list (score for a regression tree, and there a number written in the tree).", "quantifier": "all documents NewModel accepts, however deeply nested, rows, histories of calls and map iteration orders", "why_tests_cant": "A caller's type assertions must hold for every document and row; tests see a handful of documents.", "anchors": ["evaluation/tree.go:Evaluate", "evaluation/mining.go:Evaluate", "evaluation/regression.go:Evaluate", "evaluation/mining.go:evaluateMultipleModelChain", "evaluation/mining.go:evaluateMultipleModelSum"]}
{"id": "C143", "title": "Derived fields that nothing reads can be left out", "statement": "Local derived fields whose names no split, no predictor and no remaining derived field reads can be left out of a document, in trees and ensembles however nested: NewModel accepts or refuses it for the same reason, and every row that was answered gets the same answer. The caller's row differs afterwards only in the names left out. If the expressions left out cannot fail, rows that were refused are refused with the same error too. The proviso is needed: a field nothing reads is still computed, so it can fail the prediction, and it cannot be stored in a nil row.", "quantifier": "all documents, selections of unread derived fields, rows, histories of calls and map iteration orders", "why_tests_cant": "Leaving out a field changes the row, the types known to later models and the order of evaluation; no set of test rows shows that nothing depends on it.", "anchors": ["evaluation/tree.go:Evaluate", "evaluation/tree.go:Compile", "evaluation/mining.go:Compile", "evaluation/mining.go:Evaluate", "evaluation/input.go:HandleInput"]}
{"id": "C144", "title": "An else branch may be written as True", "statement": "The last child of a node may have the predicate True where it is true anyway unless an earlier sibling is, for instance as the second branch of a numeric split on rows that have a number there: the document is accepted and predicts the same. This is so without a strategy for missing values and under nullPrediction, where the first true child is entered as PMML says. It is false of lastPrediction, defaultChild, weightedConfidence and aggregateNodes: they enter the last true child, so that an else branch takes every row.", "quantifier": "all tree documents, else branches at any depth, rows, histories of calls and map iteration orders", "why_tests_cant": "Test trees have exclusive siblings, on which entering the first and the last true child is the same; the difference shows only for documents of other exporters.", "anchors": ["evaluation/tree.go:evaluateMissingValueStrategyNone", "evaluation/tree.go:evaluateMissingValueStrategyNullPrediction", "evaluation/tree.go:evaluateMissingValueStrategyLastPrediction", "evaluation/tree.go:evaluateMissingValueStrategyDefaultChild", "evaluation/tree.go:evaluateMissingValueStrategyWeightedConfidence", "evaluation/tree.go:evaluateMissingValueStrategyAggregateNodes"]}
{"id": "C145", "title": "A missing field counts as its replacement", "statement": "A mining field with a missingValueReplacement makes a row without that field, or with nil there, the row with the replacement filled in: both get the same answer. This is so for ensembles. It is false of trees and regression models, alone or as members of an ensemble: their replacements have no effect at all, so a tree treats the field as unknown and a regression model rejects the row.", "quantifier": "all documents, replacements at any depth, rows, histories of calls and map iteration orders", "why_tests_cant": "Tests evaluate complete rows; a replacement matters only for rows without the field, and that it is ignored in one kind of model shows only by comparing two rows, or two documents, for all inputs.", "anchors": ["evaluation/mining.go:imputeMissingValues", "evaluation/input.go:HandleInput", "evaluation/input.go:validate", "evaluation/tree.go:Evaluate", "evaluation/regression.go:EvaluateRegression"]}
{"id": "C146", "title": "Values the data dictionary does not list are treated as the mining schema says", "statement": "False of the code: a field marked returnInvalid with a value that the data dictionary does not list still gets a prediction, and asMissing does not make the row the one without the field. Exactly: invalidValueTreatment and outliers can be changed or removed in any model at any depth, and the values listed for fields that are not the target of a tree can be changed, without any effect on acceptance or answers.", "quantifier": "all documents, dictionaries, rows, histories of calls and map iteration orders", "why_tests_cant": "That a declaration is never consulted is a statement about pairs of documents and all rows; tests with valid rows pass either way.", "anchors": ["evaluation/input.go:validate", "evaluation/input.go:HandleInput", "evaluation/tree.go:Evaluate", "evaluation/mining.go:imputeMissingValues"]}
{"id": "C147", "title": "A node may hold its contents in a single child True", "statement": "Moving the score, distribution and children of a node into a single child with the predicate True changes no prediction, at any depth and whatever the node left above it says. This is so without a strategy for missing values and under nullPrediction, in ensembles as well. Under lastPrediction, defaultChild, weightedConfidence and aggregateNodes it is so for rows that leave no predicate unknown, and false otherwise: the extra child makes an unknown branch count as true, or a resolved one as unknown.", "quantifier": "all tree documents, wrapped nodes at any depth, rows, histories of calls and map iteration orders", "why_tests_cant": "Exporters differ in whether they write such nodes; the difference shows only on rows with missing fields, and only under some strategies, so no set of test rows settles it.", "anchors": ["evaluation/tree.go:evaluateMissingValueStrategyNone", "evaluation/tree.go:evaluateMissingValueStrategyNullPrediction", "evaluation/tree.go:evaluateMissingValueStrategyLastPrediction", "evaluation/tree.go:evaluateMissingValueStrategyDefaultChild", "evaluation/tree.go:evaluateMissingValueStrategyWeightedConfidence", "evaluation/tree.go:evaluateMissingValueStrategyAggregateNodes"]}
{"id": "C148", "title": "Neighbouring branches that say the same can be joined with or", "statement": "Two neighbouring children that differ only in identifier and predicate may be written as one whose predicate is the or of theirs, and the other way round, at any depth: the document is accepted and predicts the same. This is so for all rows without a strategy for missing values, in ensembles as well, and for rows that leave no predicate unknown under every other strategy. With unknown predicates it is false of the other five: an unknown branch beside a true one is not the unknown-or-true branch, which is true. The predicates have to be simple or compound ones, as True and False count as unknown inside or.", "quantifier": "all tree documents, joined branches at any depth, rows, histories of calls and map iteration orders", "why_tests_cant": "Exporters simplify trees this way; whether it is sound depends on how unknown results travel through six strategies, which no set of test rows settles.", "anchors": ["evaluation/tree.go:evaluateMissingValueStrategyNone", "evaluation/tree.go:evaluateMissingValueStrategyNullPrediction", "evaluation/tree.go:evaluateMissingValueStrategyLastPrediction", "evaluation/tree.go:evaluateMissingValueStrategyDefaultChild", "evaluation/tree.go:evaluateCompoundPredicate"]}
{"id": "C149", "title": "A member of an ensemble whose results nobody uses only has to succeed", "statement": "A member of a modelChain that is not the last one and whose outputs and written fields no later member reads can be left out: the smaller document is accepted, and every row is answered alike, errors included, unless the member itself fails, in which case the whole chain fails the way the member does. The same holds in a sum for a member that reports nothing the sum adds up, and under selectFirst for every member but the first, which is not even evaluated. In an average leaving out a member is noticed because the members are counted. Later members must not iterate over Go maps (weightedConfidence, aggregateNodes), since their random orders are their own.", "quantifier": "all mining documents, members at any position, non-nil rows (all rows under selectFirst), histories of calls and map iteration orders", "why_tests_cant": "It relates the answers of two different documents on every row, through writes into the caller's row and types that the member's derived fields would have given to later members.", "anchors": ["evaluation/mining.go:evaluateMultipleModelChain", "evaluation/mining.go:evaluateMultipleModelSum", "evaluation/mining.go:evaluateMultipleModelSelectFirst"]}
{"id": "C150", "title": "Derived fields can be declared by the ensemble instead of its members", "statement": "The derived fields a first member computes first may as well be declared by the ensemble, after its own; and what the ensemble has computed its members need not compute again, provided no derived field is computed from itself or a later one and nothing the members write (in a chain, nor return) is involved. So a forest whose trees all repeat the same derived fields is the forest that declares them once. This holds anywhere in the document, any number of times and in both directions: the same documents are accepted, and rows are answered and left alike, errors included. Fields that only a later member declares, or that are computed from themselves, cannot be moved.", "quantifier": "all mining documents related by such moves, dictionaries, histories of calls, iteration orders and rows (including nil rows and rows with missing values)", "why_tests_cant": "It relates two different documents on every row and at every depth of nesting; tests compare a few rows of a few documents and miss rows on which a derivation fails halfway.", "anchors": ["evaluation/input.go:HandleInput", "evaluation/mining.go:MiningModel.Evaluate", "evaluation/mining.go:MiningModel.Compile", "evaluation/tree.go:TreeModel.Evaluate"]}
{"id": "C151", "title": "The order in which nodes list their classes only decides ties", "statement": "A classification tree whose nodes list their ScoreDistributions in another order is accepted exactly if the original is, and reports the same probabilities and errors and leaves the same row for every row, under every missing value strategy; the predicted class is the same whenever one class is more probable than all others. It holds if no node lists a class twice and the record counts are whole numbers (or, except under aggregateNodes, confidences and probabilities are given). Among equally probable classes the first listed is predicted; fractional record counts are added up in the order listed, so that probabilities differ in the last digit; and a regression tree with ScoreDistributions predicts the first one.", "quantifier": "all classification trees, permutations at every node, strategies, dictionaries, histories of calls, iteration orders and rows", "why_tests_cant": "A test compares two orders on a few rows; that no strategy lets the order influence a probability needs an argument about rounding and about every path through the tree.", "anchors": ["evaluation/tree.go:newNode", "evaluation/tree.go:outputScoreDist", "evaluation/tree.go:pickBest", "evaluation/tree.go:evaluateMissingValueStrategyWeightedConfidence", "evaluation/tree.go:evaluateMissingValueStrategyAggregateNodes", "evaluation/tree.go:TreeModel.Evaluate"]}
{"id": "C152", "title": "A constant last member of a sum is a rescaleConstant", "statement": "In an ensemble with method sum that is not a classification, names each output once and has no targets, a last member that is a regression tree consisting of a root without condition, children and derived fields can be removed if its number is given as the rescaleConstant of every output instead, and the other way round. This holds in every sum of a document, at any depth and repeatedly: the rewritten document is accepted exactly if the original is, and gives bit for bit the same results, errors and final rows. A member that always predicts 0 can be left out wherever it stands, after regression trees and before members that do not go through a Go map. Other constants cannot be moved: it does not hold for members that are not last (sums are rounded in the order of the members), for averages (the member is counted), or for an output declared twice (the constant is added twice).", "quantifier": "all documents, dictionaries, sums in them, texts of the constant, strategies of the constant tree, histories of calls, iteration orders and rows", "why_tests_cant": "A test compares one pair of documents on a few rows; bit-for-bit equality for every sum, and for panics and errors of the other members, needs the argument about the order of floating-point additions in the code.", "anchors": ["evaluation/mining.go:evaluateMultipleModelSum", "evaluation/mining.go:evaluateMultipleModelAverage", "evaluation/mining.go:MiningModel.Compile", "evaluation/tree.go:TreeModel.Evaluate", "evaluation/tree.go:outputScoreDist"]}
{"id": "C153", "title": "Conditions tested on the way down need not be repeated", "statement": "In a tree without a strategy for missing values or with nullPrediction, an operand of a child's and may be left out if it is the condition of a node above it, or an operand of such a condition when that is an and; what remains may be written as its only operand, or as True if nothing remains. Such a document, with trees at any depth of ensembles, is accepted exactly if the original is and gives the same results, errors and final rows for every row. More generally, in a single tree every operand can be left out that is true in all rows in which the conditions above are: a wider bound on a number below a narrower one, for every float64 and every integer value, and isNotMissing below any test of the field other than isMissing. Under the other strategies the first rule holds for the rows in which no condition of the tree is unknown; with missing values the results can differ, as children are looked at also when the condition of their parent is unknown. A True operand cannot be left out, because inside a compound predicate it counts as unknown.", "quantifier": "all documents, dictionaries, places and numbers of repeated conditions, depths, histories of calls, iteration orders and rows", "why_tests_cant": "Tests compare two ways of writing one tree on a few rows; the claim covers every placement of conditions above and below and three-valued logic with missing values.", "anchors": ["evaluation/tree.go:evaluateMissingValueStrategyNone", "evaluation/tree.go:evaluateMissingValueStrategyNullPrediction", "evaluation/tree.go:evaluateMissingValueStrategyLastPrediction", "evaluation/tree.go:evaluateCompoundPredicate", "evaluation/tree.go:newNode", "evaluation/tree.go:compilePredicate"]}
{"id": "C154", "title": "Branches that no row can take can be removed", "statement": "In a tree without a strategy for missing values, branches can be removed whose condition is never true where the conditions of the nodes above are, and all branches after a sibling with the condition True; with nullPrediction the same holds for branches whose condition is false there. The document stays accepted and gives the same results, errors and final rows for every row. A branch is such a one if it bounds a number apart from a bound above it, for every float64 and every integer value; if it asks for a category other than the one asked for above; if it is an and with such an operand; and, without a strategy, if it is an and that contradicts itself. Under lastPrediction a removed branch can matter when values are missing, and under returnNullPrediction a node must keep a child.", "quantifier": "all trees, dictionaries, places and numbers of removed branches, bounds, histories of calls, iteration orders and rows", "why_tests_cant": "Whether a branch can be taken is a statement about all rows; tests only show that some rows do not take it.", "anchors": ["evaluation/tree.go:evaluateMissingValueStrategyNone", "evaluation/tree.go:evaluateMissingValueStrategyNullPrediction", "evaluation/tree.go:evaluateMissingValueStrategyLastPrediction", "evaluation/tree.go:evaluateSimplePredicate", "evaluation/tree.go:evaluateCompoundPredicate", "evaluation/tree.go:newNode"]}
{"id": "C155", "title": "Models that predict alike verify alike", "statement": "The verdict of Verify, with the error it returns, depends on the model only through the values Evaluate gives for the expected columns of the rows of the verification table. Two accepted documents of any kind with the same verification data, over any dictionaries, whose results agree in those values (or fail alike) get the same verdict, whatever was evaluated before. So every way of writing a document that does not change its predictions does not change its verdict, for instance leaving out repeated conditions (C153).", "quantifier": "all pairs of documents, dictionaries, verification tables, histories of calls and iteration orders", "why_tests_cant": "Tests verify one model against one table; the claim compares the verdicts of any two models on any table, the order in which columns are checked included.", "anchors": ["evaluation/evaluation.go:verifyModel", "evaluation/tree.go:Verify", "evaluation/mining.go:Verify", "evaluation/regression.go:Verify"]}
{"id": "C156", "title": "Exported boosted trees and forests compute their formula", "statement": "The documents in which boosted trees and forests are exported compute one formula exactly. A chain of a sum of trees and a logistic regression reading that sum, with two classes, predicts p for the first class and 1 - p for the second, where p is the intercept plus the logistic function of the trees' scores added from left to right starting at 0; the intercept is added outside the logistic function, and the coefficient and exponent of the predictor have no influence. The caller's row afterwards additionally holds the sum. A sum with one target adds its rescaleConstant after the scores. An average of classification trees gives for each declared output the sum of the trees' values divided by their number. The conditions of the segments have no influence, and neither do earlier calls.", "quantifier": "all such documents with any number of trees of any shape, dictionaries, rows, histories of calls, iteration orders and exponential functions", "why_tests_cant": "Tests compare a few exported files with tables of expected numbers up to a tolerance; the claim gives the exact float64 result of every such document.", "anchors": ["evaluation/mining.go:evaluateMultipleModelChain", "evaluation/regression.go:Evaluate"]}
{"id": "C157", "title": "Members of an ensemble can be exchanged for documents that answer alike", "statement": "A member of an ensemble, at any depth and under any method, can be exchanged for a document that NewModel accepts whenever it accepts the member, that leaves the same transformation dictionary behind and whose evaluator gives the same results, errors and final rows. The ensemble stays accepted, leaves the same transformation dictionary behind and gives the same results, errors and final rows for every row, and Verify comes to the same verdict; any number of members can be exchanged, and exchanged again. So every way of rewriting a document that keeps its answers can be used inside ensembles and combined with the others. Equal results alone are not enough: two members with the same result for every row can leave different derived fields in the row, and the predictions of the ensembles differ, or different fields in the dictionary, and one ensemble is rejected.", "quantifier": "all ensembles nested to any depth, members, dictionaries, rows, histories of calls and iteration orders", "why_tests_cant": "Tests evaluate given ensembles; the claim relates every ensemble to all the ensembles that arise from it by exchanging members.", "anchors": ["evaluation/mining.go:Compile", "evaluation/mining.go:Evaluate", "evaluation/mining.go:evaluateMultipleModelChain"]}
{"id": "C158", "title": "An average of a power of two of members is a rescaled sum", "statement": "An average of 1, 2, 4, 8, ... members (up to 2^53) can be written as the sum of the same members in which every output gets a further target with the rescaleFactor one over their number, and the other way round, wherever the average stands in the document. The document stays accepted, leaves the same transformation dictionary behind and gives the same results, to the last bit, the same errors and final rows for every row, overflow, NaN and numbers near 0 included. With three members the last digit can differ.", "quantifier": "all documents holding such averages at any depth, members of any kind, targets, dictionaries, rows, histories of calls and iteration orders", "why_tests_cant": "Tests compare a few predictions up to a tolerance; the claim is the equality of all float64 results.", "anchors": ["evaluation/mining.go:evaluateMultipleModelAverage", "evaluation/mining.go:evaluateMultipleModelSum"]}
{"id": "C159", "title": "The sign of the scores decides what a boosted classifier predicts", "statement": "For a boosted classifier (the documents of C156, intercept 0) both probabilities lie in [0,1]. If the scores of the trees add up to 0 or more, the first class is at least as probable as the second, and if they add up to 0 or less, at most as probable. Where every tree scores at least as high as for another row, the first probability is at least as large and the second at most. The first two need of math.Exp only that, except at NaN, it is not negative, at most 1 up to 0 and at least 1 from there; the comparison of rows also that it never falls.", "quantifier": "all such documents with any number of trees of any shape, scores, rows, histories of calls, iteration orders, and all such exponential functions", "why_tests_cant": "Tests compare some probabilities; that rounding in the sum, the exponential, the quotient and the difference never turns the decision or the order needs a proof over all scores.", "anchors": ["evaluation/mining.go:evaluateMultipleModelChain", "evaluation/regression.go:Evaluate"]}
