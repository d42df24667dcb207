(** Generated by tools/schema.py from models/elements.go, complexTypes.go and
    groups.go: what the structs of package models read, field by field.

    [Struct loop fields]: [loop] says that the type has its own UnmarshalXML (a
    loop over tokens that knows exactly the listed children), otherwise
    encoding/xml fills the fields by reflection.  Left out are fields that no
    decoding ever writes: unexported ones, fields of interface type outside the
    loops, and Extensions of PMML, InlineTable and Segment. *)
From Verif Require Import Base.

(** How a text becomes a basic value.  KYesNo, KRawFloat and KKeep are the
    attributes ChildParent.isRecursive (elements.go:919-926), Node.recordCount
    (3357-3366) and Apply.returnInvalid (360-363, with its default tag). *)
Inductive basic := KStr | KFloat | KInt | KUint | KBool | KYesNo | KRawFloat | KKeep (d : string).
Inductive mult := One | Opt | Many.
Inductive kind :=
| Attr (b : basic) (ptr : bool)      (* an attribute, or a pointer to one *)
| CharData | InnerXml                (* the text, the raw text *)
| Sub (m : mult) (s : string)        (* child elements: a struct, a pointer, a slice *)
| SubBasic (b : basic)               (* a child element holding a basic value *)
| Rows                               (* []Row, elements.go:5969 *)
| Group (many : bool) (g : string).  (* an interface or a slice of them, filled from the elements of a group *)
Record field := Field { f_name : string; f_kind : kind }.
Record struct := Struct { s_loop : bool; s_fields : list field }.
(** The Get functions of groups.go: the element names of a group; each name is
    also the name of the struct. *)
Definition go_groups : list (string * list string) :=
  [("ContinuousDistributionType", ["AnyDistribution"; "GaussianDistribution"; "PoissonDistribution"; "UniformDistribution"]) (* groups.go:20 *);
   ("EmbeddedModel", ["DecisionTree"; "Regression"]) (* groups.go:109 *);
   ("Expression", ["Aggregate"; "Apply"; "Constant"; "Discretize"; "FieldRef"; "Lag"; "MapValues"; "NormContinuous"; "NormDiscrete"; "TextIndex"]) (* groups.go:67 *);
   ("ModelElement", ["AssociationModel"; "BaselineModel"; "BayesianNetworkModel"; "ClusteringModel"; "GaussianProcessModel"; "GeneralRegressionModel"; "MiningModel"; "NaiveBayesModel"; "NearestNeighborModel"; "NeuralNetwork"; "RegressionModel"; "RuleSetModel"; "Scorecard"; "SequenceModel"; "SupportVectorMachineModel"; "TextModel"; "TimeSeriesModel"; "TreeModel"]) (* groups.go:184 *);
   ("Predicate", ["CompoundPredicate"; "False"; "SimplePredicate"; "SimpleSetPredicate"; "True"]) (* groups.go:251 *);
   ("Table", ["InlineTable"; "TableLocator"]) (* groups.go:315 *)].

Definition go_structs : list (string * struct) :=
  [("ARDSquaredExponentialKernel", Struct false [Field "description" (Attr KStr true);
      Field "gamma" (Attr KFloat true);
      Field "noiseVariance" (Attr KFloat true);
      Field "Extension" (Sub Many "Extension");
      Field "Lambda" (Sub Opt "Lambda")]) (* elements.go:33-40 *);
   ("ARIMA", Struct false []) (* elements.go:49-50 *);
   ("AbsoluteExponentialKernel", Struct false [Field "description" (Attr KStr true);
      Field "gamma" (Attr KFloat true);
      Field "noiseVariance" (Attr KFloat true);
      Field "Extension" (Sub Many "Extension");
      Field "Lambda" (Sub Opt "Lambda")]) (* elements.go:71-78 *);
   ("Aggregate", Struct false [Field "field" (Attr KStr false);
      Field "function" (Attr KStr false);
      Field "groupField" (Attr KStr false);
      Field "sqlWhere" (Attr KStr false);
      Field "Extension" (Sub Many "Extension")]) (* elements.go:124-131 *);
   ("Alternate", Struct true [Field "" (Group false "ContinuousDistributionType")]) (* elements.go:148-150, elements.go:152-180 *);
   ("Annotation", Struct false [Field "" CharData;
      Field "Extension" (Sub Many "Extension")]) (* elements.go:197-200 *);
   ("Anova", Struct false [Field "target" (Attr KStr false);
      Field "AnovaRow" (Sub Many "AnovaRow");
      Field "Extension" (Sub Many "Extension")]) (* elements.go:221-226 *);
   ("AnovaRow", Struct false [Field "degreesOfFreedom" (Attr KFloat false);
      Field "fValue" (Attr KFloat true);
      Field "meanOfSquares" (Attr KFloat true);
      Field "pValue" (Attr KFloat true);
      Field "sumOfSquares" (Attr KFloat false);
      Field "type" (Attr KStr false);
      Field "Extension" (Sub Many "Extension")]) (* elements.go:261-270 *);
   ("AntecedentSequence", Struct false [Field "SequenceReference" (Sub One "SequenceReference");
      Field "Time" (Sub Opt "Time");
      Field "Extension" (Sub Many "Extension")]) (* elements.go:283-283 *);
   ("AnyDistribution", Struct false [Field "mean" (Attr KFloat false);
      Field "variance" (Attr KFloat false);
      Field "Extension" (Sub Many "Extension")]) (* elements.go:296-301 *);
   ("Application", Struct false [Field "name" (Attr KStr false);
      Field "version" (Attr KStr false);
      Field "Extension" (Sub Many "Extension")]) (* elements.go:316-321 *);
   ("Apply", Struct true [Field "defaultValue" (Attr KStr true);
      Field "function" (Attr KStr false);
      Field "returnInvalid" (Attr (KKeep "returnInvalid") false);
      Field "mapMissingTo" (Attr KStr true);
      Field "Extension" (Sub Many "Extension");
      Field "" (Group true "Expression")]) (* elements.go:337-345, elements.go:349-423 *);
   ("Array", Struct false [Field "n" (Attr KInt true);
      Field "type" (Attr KStr false);
      Field "" InnerXml]) (* elements.go:428-428 *);
   ("ArrayType", Struct false [Field "n" (Attr KInt true);
      Field "type" (Attr KStr false);
      Field "" InnerXml]) (* complexTypes.go:32-41 *);
   ("AssociationModel", Struct false [Field "algorithmName" (Attr KStr false);
      Field "avgNumberOfItemsPerTA" (Attr KFloat false);
      Field "functionName" (Attr KStr false);
      Field "isScorable" (Attr KBool false);
      Field "lengthLimit" (Attr KInt false);
      Field "maxNumberOfItemsTA" (Attr KInt false);
      Field "minimumConfidence" (Attr KFloat false);
      Field "minimumSupport" (Attr KFloat false);
      Field "modelName" (Attr KStr false);
      Field "numberOfItems" (Attr KInt false);
      Field "numberOfItemsets" (Attr KInt false);
      Field "numberOfRules" (Attr KInt false);
      Field "numberOfTransactions" (Attr KInt false);
      Field "AssociationRule" (Sub Many "AssociationRule");
      Field "Item" (Sub Many "Item");
      Field "Itemset" (Sub Many "Itemset");
      Field "LocalTransformations" (Sub One "LocalTransformations");
      Field "MiningSchema" (Sub One "MiningSchema");
      Field "ModelStats" (Sub One "ModelStats");
      Field "ModelVerification" (Sub One "ModelVerification");
      Field "Output" (Sub One "Output");
      Field "Extension" (Sub Many "Extension")]) (* elements.go:461-484 *);
   ("AssociationRule", Struct false [Field "affinity" (Attr KFloat false);
      Field "antecedent" (Attr KStr false);
      Field "confidence" (Attr KFloat false);
      Field "consequent" (Attr KStr false);
      Field "id" (Attr KStr false);
      Field "leverage" (Attr KFloat false);
      Field "lift" (Attr KFloat false);
      Field "support" (Attr KFloat false);
      Field "Extension" (Sub Many "Extension")]) (* elements.go:505-515 *);
   ("Attribute", Struct false [Field "partialScore" (Attr KFloat false);
      Field "reasonCode" (Attr KStr false);
      Field "ComplexPartialScore" (Sub One "ComplexPartialScore");
      Field "Extension" (Sub Many "Extension")]) (* elements.go:530-536 *);
   ("BaseCumHazardTables", Struct false [Field "maxTime" (Attr KFloat false);
      Field "BaselineCell" (Sub Many "BaselineCell");
      Field "BaselineStratum" (Sub Many "BaselineStratum");
      Field "Extension" (Sub Many "Extension")]) (* elements.go:552-557 *);
   ("Baseline", Struct false []) (* elements.go:646-647 *);
   ("BaselineCell", Struct false [Field "cumHazard" (Attr KFloat false);
      Field "time" (SubBasic KFloat);
      Field "Extension" (Sub Many "Extension")]) (* elements.go:570-574 *);
   ("BaselineModel", Struct false [Field "algorithmName" (Attr KStr false);
      Field "functionName" (Attr KStr false);
      Field "isScorable" (Attr KBool false);
      Field "modelName" (Attr KStr false);
      Field "LocalTransformations" (Sub Opt "LocalTransformations");
      Field "MiningSchema" (Sub One "MiningSchema");
      Field "ModelExplanation" (Sub Opt "ModelExplanation");
      Field "ModelVerification" (Sub Opt "ModelVerification");
      Field "Targets" (Sub Opt "Targets");
      Field "Output" (Sub Opt "Output");
      Field "ModelStats" (Sub Opt "ModelStats");
      Field "Extension" (Sub Many "Extension")]) (* elements.go:598-611 *);
   ("BaselineStratum", Struct false [Field "label" (Attr KStr false);
      Field "maxTime" (Attr KFloat false);
      Field "value" (Attr KStr false);
      Field "BaselineCell" (Sub Many "BaselineCell");
      Field "Extension" (Sub Many "Extension")]) (* elements.go:628-634 *);
   ("BayesInput", Struct false [Field "Extension" (Sub Many "Extension")]) (* elements.go:666-668 *);
   ("BayesInputs", Struct false [Field "Extension" (Sub Many "Extension")]) (* elements.go:680-682 *);
   ("BayesOutput", Struct false [Field "Extension" (Sub Many "Extension")]) (* elements.go:695-697 *);
   ("BayesianNetworkModel", Struct false [Field "algorithmName" (Attr KStr false);
      Field "functionName" (Attr KStr false);
      Field "isScorable" (Attr KBool false);
      Field "modelName" (Attr KStr false);
      Field "BayesianNetworkNodes" (Sub One "BayesianNetworkNodes");
      Field "LocalTransformations" (Sub Opt "LocalTransformations");
      Field "MiningSchema" (Sub One "MiningSchema");
      Field "ModelExplanation" (Sub Opt "ModelExplanation");
      Field "ModelStats" (Sub Opt "ModelStats");
      Field "ModelVerification" (Sub Opt "ModelVerification");
      Field "Output" (Sub Opt "Output");
      Field "Targets" (Sub Opt "Targets");
      Field "Extension" (Sub Many "Extension")]) (* elements.go:721-735 *);
   ("BayesianNetworkNodes", Struct false [Field "Extension" (Sub Many "Extension")]) (* elements.go:752-754 *);
   ("BinarySimilarity", Struct false [Field "Extension" (Sub Many "Extension")]) (* elements.go:5885-5887 *);
   ("BlockIndicator", Struct false [Field "field" (Attr KStr false)]) (* elements.go:763-765 *);
   ("BoundaryValueMeans", Struct false [Field "Array" (Sub One "NumArray");
      Field "Extension" (Sub Many "Extension")]) (* elements.go:777-780 *);
   ("BoundaryValues", Struct false [Field "Array" (Sub One "NumArray");
      Field "Extension" (Sub Many "Extension")]) (* elements.go:792-795 *);
   ("CategoricalPredictor", Struct false [Field "coefficient" (Attr KFloat false);
      Field "fieldName" (Attr KStr false);
      Field "value" (Attr KStr false);
      Field "Extension" (Sub Many "Extension")]) (* elements.go:809-814 *);
   ("Categories", Struct false [Field "Extension" (Sub Many "Extension")]) (* elements.go:826-828 *);
   ("Category", Struct false [Field "Extension" (Sub Many "Extension")]) (* elements.go:840-842 *);
   ("Characteristic", Struct false [Field "Extension" (Sub Many "Extension")]) (* elements.go:857-859 *);
   ("Characteristics", Struct false [Field "Extension" (Sub Many "Extension")]) (* elements.go:871-873 *);
   ("Chebychev", Struct false [Field "Extension" (Sub Many "Extension")]) (* elements.go:5898-5900 *);
   ("ChildParent", Struct true [Field "childField" (Attr KStr false);
      Field "isRecursive" (Attr KYesNo false);
      Field "parentField" (Attr KStr false);
      Field "parentLevelField" (Attr KStr false);
      Field "" (Group false "Table");
      Field "Extension" (Sub Many "Extension");
      Field "FieldColumnPair" (Sub Many "FieldColumnPair")]) (* elements.go:900-909, elements.go:912-976 *);
   ("CityBlock", Struct false [Field "Extension" (Sub Many "Extension")]) (* elements.go:5911-5913 *);
   ("ClassLabels", Struct false [Field "Extension" (Sub Many "Extension")]) (* elements.go:988-990 *);
   ("Cluster", Struct false [Field "Extension" (Sub Many "Extension")]) (* elements.go:1008-1010 *);
   ("ClusteringField", Struct false [Field "Extension" (Sub Many "Extension")]) (* elements.go:1034-1036 *);
   ("ClusteringModel", Struct false [Field "Extension" (Sub Many "Extension")]) (* elements.go:1071-1073 *);
   ("ClusteringModelQuality", Struct false []) (* elements.go:1086-1087 *);
   ("Coefficient", Struct false [Field "Extension" (Sub Many "Extension")]) (* elements.go:1099-1101 *);
   ("Coefficients", Struct false [Field "Extension" (Sub Many "Extension")]) (* elements.go:1115-1117 *);
   ("ComparisonMeasure", Struct false [Field "Extension" (Sub Many "Extension")]) (* elements.go:1150-1152 *);
   ("Comparisons", Struct false [Field "Extension" (Sub Many "Extension")]) (* elements.go:1164-1166 *);
   ("ComplexPartialScore", Struct false [Field "Extension" (Sub Many "Extension")]) (* elements.go:1178-1180 *);
   ("CompoundPredicate", Struct true [Field "booleanOperator" (Attr KStr false);
      Field "Extension" (Sub Many "Extension");
      Field "" (Group true "Predicate")]) (* elements.go:1213-1218, elements.go:1223-1266 *);
   ("CompoundRule", Struct false [Field "Extension" (Sub Many "Extension")]) (* elements.go:1279-1281 *);
   ("Con", Struct false [Field "Extension" (Sub Many "Extension")]) (* elements.go:1294-1296 *);
   ("ConfusionMatrix", Struct false [Field "Extension" (Sub Many "Extension")]) (* elements.go:1309-1311 *);
   ("ConsequentSequence", Struct false [Field "Extension" (Sub Many "Extension")]) (* elements.go:1322-1324 *);
   ("Constant", Struct false [Field "dataType" (Attr KStr false);
      Field "" InnerXml]) (* elements.go:1337-1340 *);
   ("Constraints", Struct false [Field "Extension" (Sub Many "Extension")]) (* elements.go:1368-1370 *);
   ("ContStats", Struct false [Field "totalSquaresSum" (Attr KFloat false);
      Field "totalValuesSum" (Attr KFloat false);
      Field "Extension" (Sub Many "Extension");
      Field "Interval" (Sub Many "Interval");
      Field "Array" (Sub Many "Array")]) (* elements.go:1385-1392 *);
   ("ContinuousConditionalProbability", Struct false [Field "Extension" (Sub Many "Extension")]) (* elements.go:1406-1408 *);
   ("ContinuousDistribution", Struct false [Field "Extension" (Sub Many "Extension")]) (* elements.go:1425-1427 *);
   ("ContinuousNode", Struct false [Field "Extension" (Sub Many "Extension")]) (* elements.go:1445-1447 *);
   ("CorrelationFields", Struct false [Field "Extension" (Sub Many "Extension")]) (* elements.go:1459-1461 *);
   ("CorrelationMethods", Struct false [Field "Extension" (Sub Many "Extension")]) (* elements.go:1473-1475 *);
   ("CorrelationValues", Struct false [Field "Extension" (Sub Many "Extension")]) (* elements.go:1487-1489 *);
   ("Correlations", Struct false [Field "Extension" (Sub Many "Extension")]) (* elements.go:1503-1505 *);
   ("CountTable", Struct false [Field "sample" (Attr KFloat true);
      Field "FieldValue" (Sub Many "FieldValue");
      Field "FieldValueCount" (Sub Many "FieldValueCount");
      Field "Extension" (Sub Many "Extension")]) (* elements.go:1510-1510 *);
   ("CountTableType", Struct false [Field "sample" (Attr KFloat true);
      Field "FieldValue" (Sub Many "FieldValue");
      Field "FieldValueCount" (Sub Many "FieldValueCount");
      Field "Extension" (Sub Many "Extension")]) (* complexTypes.go:129-136 *);
   ("Counts", Struct false [Field "cardinality" (Attr KUint false);
      Field "invalidFreq" (Attr KFloat false);
      Field "missingFreq" (Attr KFloat false);
      Field "totalFreq" (Attr KFloat false);
      Field "Extension" (Sub Many "Extension")]) (* elements.go:1525-1532 *);
   ("Covariances", Struct false [Field "Extension" (Sub Many "Extension")]) (* elements.go:1544-1546 *);
   ("CovariateList", Struct false [Field "Extension" (Sub Many "Extension")]) (* elements.go:1558-1560 *);
   ("DataDictionary", Struct false [Field "numberOfFields" (Attr KUint false);
      Field "DataField" (Sub Many "DataField");
      Field "Extension" (Sub Many "Extension");
      Field "Taxonomy" (Sub Many "Taxonomy")]) (* elements.go:1574-1580 *);
   ("DataField", Struct false [Field "dataType" (Attr KStr false);
      Field "displayName" (Attr KStr false);
      Field "isCyclic" (Attr KBool false);
      Field "name" (Attr KStr false);
      Field "optype" (Attr KStr false);
      Field "taxonomy" (Attr KStr false);
      Field "Extension" (Sub Many "Extension");
      Field "Interval" (Sub Many "Interval");
      Field "Value" (Sub Many "Value")]) (* elements.go:1608-1619 *);
   ("Decision", Struct false [Field "Extension" (Sub Many "Extension")]) (* elements.go:1633-1635 *);
   ("DecisionTree", Struct false [Field "Extension" (Sub Many "Extension")]) (* elements.go:1666-1668 *);
   ("Decisions", Struct false [Field "Extension" (Sub Many "Extension")]) (* elements.go:1684-1686 *);
   ("DefineFunction", Struct true [Field "dataType" (Attr KStr false);
      Field "name" (Attr KStr false);
      Field "optype" (Attr KStr false);
      Field "Extension" (Sub Many "Extension");
      Field "ParameterField" (Sub Many "ParameterField");
      Field "" (Group false "Expression")]) (* elements.go:1702-1710, elements.go:1713-1788 *);
   ("Delimiter", Struct false [Field "Extension" (Sub Many "Extension")]) (* elements.go:1801-1803 *);
   ("DerivedField", Struct true [Field "dataType" (Attr KStr false);
      Field "displayName" (Attr KStr false);
      Field "name" (Attr KStr false);
      Field "optype" (Attr KStr false);
      Field "Extension" (Sub Many "Extension");
      Field "Value" (Sub Many "Value");
      Field "" (Group false "Expression")]) (* elements.go:1820-1829, elements.go:1832-1909 *);
   ("DiscrStats", Struct false [Field "modalValue" (Attr KStr false);
      Field "Array" (Sub Many "Array");
      Field "Extension" (Sub Many "Extension")]) (* elements.go:1922-1927 *);
   ("DiscreteConditionalProbability", Struct false [Field "Extension" (Sub Many "Extension")]) (* elements.go:1941-1943 *);
   ("DiscreteNode", Struct false [Field "Extension" (Sub Many "Extension")]) (* elements.go:1961-1963 *);
   ("Discretize", Struct false [Field "Extension" (Sub Many "Extension")]) (* elements.go:1979-1981 *);
   ("DiscretizeBin", Struct false [Field "Extension" (Sub Many "Extension")]) (* elements.go:1996-1998 *);
   ("DocumentTermMatrix", Struct false [Field "Extension" (Sub Many "Extension")]) (* elements.go:2010-2012 *);
   ("Euclidean", Struct false [Field "Extension" (Sub Many "Extension")]) (* elements.go:5924-5926 *);
   ("EventValues", Struct false [Field "Extension" (Sub Many "Extension")]) (* elements.go:2025-2027 *);
   ("ExponentialSmoothing", Struct false []) (* elements.go:2051-2052 *);
   ("Extension", Struct false [Field "extender" (Attr KStr true);
      Field "name" (Attr KStr true);
      Field "value" (Attr KStr true);
      Field "" InnerXml]) (* elements.go:2070-2075 *);
   ("FactorList", Struct false [Field "Extension" (Sub Many "Extension")]) (* elements.go:2087-2089 *);
   ("False", Struct false [Field "Extension" (Sub Many "Extension")]) (* elements.go:2100-2102 *);
   ("FieldColumnPair", Struct false [Field "column" (Attr KStr false);
      Field "field" (Attr KStr false);
      Field "Extension" (Sub Many "Extension")]) (* elements.go:2117-2121 *);
   ("FieldRef", Struct false [Field "field" (Attr KStr false);
      Field "mapMissingTo" (Attr KStr true);
      Field "Extension" (Sub Many "Extension")]) (* elements.go:2134-2138 *);
   ("FieldValue", Struct false [Field "Extension" (Sub Many "Extension")]) (* elements.go:2157-2159 *);
   ("FieldValueCount", Struct false [Field "count" (Attr KFloat false);
      Field "field" (Attr KStr false);
      Field "value" (Attr KStr false);
      Field "Extension" (Sub Many "Extension")]) (* elements.go:2173-2179 *);
   ("FollowSet", Struct false [Field "Delimiter" (Sub One "Delimiter");
      Field "SetReference" (Sub One "SetReference");
      Field "Time" (Sub Opt "Time")]) (* groups.go:130-134 *);
   ("FrequenciesType", Struct false [Field "Array" (Sub Many "NumArray")]) (* groups.go:143-145 *);
   ("GaussianDistribution", Struct false [Field "mean" (Attr KFloat false);
      Field "variance" (Attr KFloat false);
      Field "Extension" (Sub Many "Extension")]) (* elements.go:2192-2196 *);
   ("GaussianProcessModel", Struct false [Field "Extension" (Sub Many "Extension")]) (* elements.go:2230-2232 *);
   ("GeneralRegressionModel", Struct false [Field "Extension" (Sub Many "Extension")]) (* elements.go:2306-2308 *);
   ("GeneralizedExponentialKernel", Struct false [Field "Extension" (Sub Many "Extension")]) (* elements.go:2326-2328 *);
   ("Header", Struct false [Field "copyright" (Attr KStr false);
      Field "description" (Attr KStr false);
      Field "modelVersion" (Attr KStr false);
      Field "Annotation" (Sub Many "Annotation");
      Field "Application" (Sub Opt "Application");
      Field "Extension" (Sub Many "Extension");
      Field "Timestamp" (Sub Opt "Timestamp")]) (* elements.go:2345-2354 *);
   ("Indices", Struct false []) (* elements.go:2388-2389 *);
   ("InlineTable", Struct true [Field "row" Rows]) (* elements.go:2401-2404, elements.go:2408-2435 *);
   ("InstanceField", Struct false [Field "Extension" (Sub Many "Extension")]) (* elements.go:2448-2450 *);
   ("InstanceFields", Struct false [Field "Extension" (Sub Many "Extension")]) (* elements.go:2462-2464 *);
   ("IntArray", Struct false [Field "n" (Attr KInt true);
      Field "type" (Attr KStr false);
      Field "" InnerXml]) (* groups.go:154-154 *);
   ("IntegerEntries", Struct false []) (* elements.go:2363-2364 *);
   ("IntegerSparseArray", Struct false []) (* elements.go:2378-2379 *);
   ("Interval", Struct false [Field "closure" (Attr KStr false);
      Field "leftMargin" (Attr KFloat false);
      Field "rightMargin" (Attr KFloat false);
      Field "Extension" (Sub Many "Extension")]) (* elements.go:2496-2502 *);
   ("Item", Struct false [Field "Extension" (Sub Many "Extension")]) (* elements.go:2519-2521 *);
   ("ItemRef", Struct false [Field "Extension" (Sub Many "Extension")]) (* elements.go:2533-2535 *);
   ("Itemset", Struct false [Field "Extension" (Sub Many "Extension")]) (* elements.go:2550-2552 *);
   ("Jaccard", Struct false [Field "Extension" (Sub Many "Extension")]) (* elements.go:5937-5939 *);
   ("KNNInput", Struct false [Field "Extension" (Sub Many "Extension")]) (* elements.go:2566-2568 *);
   ("KNNInputs", Struct false [Field "Extension" (Sub Many "Extension")]) (* elements.go:2580-2582 *);
   ("KohonenMap", Struct false [Field "Extension" (Sub Many "Extension")]) (* elements.go:2596-2598 *);
   ("Lag", Struct false [Field "Extension" (Sub Many "Extension")]) (* elements.go:2612-2614 *);
   ("Lambda", Struct false [Field "Array" (Sub One "ArrayType");
      Field "Extension" (Sub Many "Extension")]) (* elements.go:2628-2631 *);
   ("Level", Struct false [Field "Extension" (Sub Many "Extension")]) (* elements.go:2641-2643 *);
   ("LiftData", Struct false [Field "Extension" (Sub Many "Extension")]) (* elements.go:2660-2662 *);
   ("LiftGraph", Struct false [Field "Extension" (Sub Many "Extension")]) (* elements.go:2677-2679 *);
   ("LinearKernelType", Struct false [Field "Extension" (Sub Many "Extension")]) (* elements.go:2691-2693 *);
   ("LinearNorm", Struct false [Field "Extension" (Sub Many "Extension")]) (* elements.go:2706-2708 *);
   ("LocalTransformations", Struct false [Field "DerivedField" (Sub Many "DerivedField");
      Field "Extension" (Sub Many "Extension")]) (* elements.go:2720-2723 *);
   ("LognormalDistributionForBN", Struct false [Field "Extension" (Sub Many "Extension")]) (* elements.go:2736-2738 *);
   ("Lower", Struct false [Field "Extension" (Sub Many "Extension")]) (* elements.go:2750-2752 *);
   ("MapValues", Struct false [Field "Extension" (Sub Many "Extension");
      Field "defaultValue" (Attr KStr true);
      Field "mapMissingTo" (Attr KStr true);
      Field "outputColumn" (Attr KStr false);
      Field "dataType" (Attr KStr false);
      Field "FieldColumnPair" (Sub Many "FieldColumnPair");
      Field "InlineTable" (Sub Many "InlineTable")]) (* elements.go:2772-2780 *);
   ("MatCell", Struct false []) (* elements.go:2829-2830 *);
   ("Matrix", Struct false []) (* elements.go:2855-2856 *);
   ("Mean", Struct false [Field "Extension" (Sub Many "Extension")]) (* elements.go:2868-2870 *);
   ("MiningBuildTask", Struct false [Field "Extension" (Sub Many "Extension")]) (* elements.go:2881-2883 *);
   ("MiningField", Struct false [Field "highValue" (Attr KFloat false);
      Field "importance" (Attr KFloat false);
      Field "invalidValueTreatment" (Attr KStr false);
      Field "lowValue" (Attr KFloat false);
      Field "missingValueReplacement" (Attr KStr true);
      Field "missingValueTreatment" (Attr KStr false);
      Field "name" (Attr KStr false);
      Field "optype" (Attr KStr false);
      Field "outliers" (Attr KStr false);
      Field "usageType" (Attr KStr false);
      Field "Extension" (Sub Many "Extension")]) (* elements.go:2904-2917 *);
   ("MiningModel", Struct false [Field "algorithmName" (Attr KStr true);
      Field "functionName" (Attr KStr false);
      Field "isScorable" (Attr KBool false);
      Field "modelName" (Attr KStr true);
      Field "ModelVerification" (Sub Opt "ModelVerification");
      Field "MiningSchema" (Sub One "MiningSchema");
      Field "LocalTransformations" (Sub One "LocalTransformations");
      Field "Output" (Sub One "Output");
      Field "Segmentation" (Sub One "Segmentation");
      Field "Targets" (Sub One "Targets");
      Field "Extension" (Sub Many "Extension")]) (* elements.go:2945-2959 *);
   ("MiningSchema", Struct false [Field "Extension" (Sub Many "Extension");
      Field "MiningField" (Sub Many "MiningField")]) (* elements.go:2973-2976 *);
   ("Minkowski", Struct false [Field "Extension" (Sub Many "Extension")]) (* elements.go:5951-5953 *);
   ("MissingValueWeights", Struct false [Field "Extension" (Sub Many "Extension")]) (* elements.go:2988-2990 *);
   ("ModelExplanation", Struct false [Field "Correlations" (Sub Opt "Correlations");
      Field "Extension" (Sub Many "Extension")]) (* elements.go:3006-3010 *);
   ("ModelLiftGraph", Struct false [Field "Extension" (Sub Many "Extension")]) (* elements.go:3022-3024 *);
   ("ModelStats", Struct false [Field "Extension" (Sub Many "Extension");
      Field "MultivariateStats" (Sub Many "MultivariateStats");
      Field "UnivariateStats" (Sub Many "UnivariateStats")]) (* elements.go:3037-3041 *);
   ("ModelVerification", Struct false [Field "fieldCount" (Attr KInt false);
      Field "recordCount" (Attr KInt false);
      Field "Extension" (Sub Many "Extension");
      Field "InlineTable" (Sub One "InlineTable");
      Field "VerificationFields" (Sub One "VerificationFields")]) (* elements.go:3056-3063 *);
   ("MultivariateStat", Struct false [Field "Extension" (Sub Many "Extension")]) (* elements.go:3090-3092 *);
   ("MultivariateStats", Struct false [Field "targetCategory" (Attr KStr false);
      Field "MultivariateStat" (Sub Many "MultivariateStat");
      Field "Extension" (Sub Many "Extension")]) (* elements.go:3105-3110 *);
   ("NaiveBayesModel", Struct false [Field "Extension" (Sub Many "Extension")]) (* elements.go:3136-3138 *);
   ("NearestNeighborModel", Struct false [Field "Extension" (Sub Many "Extension")]) (* elements.go:3171-3173 *);
   ("NeuralInput", Struct false [Field "Extension" (Sub Many "Extension")]) (* elements.go:3188-3190 *);
   ("NeuralInputs", Struct false [Field "Extension" (Sub Many "Extension")]) (* elements.go:3203-3205 *);
   ("NeuralLayer", Struct false [Field "Extension" (Sub Many "Extension")]) (* elements.go:3223-3225 *);
   ("NeuralNetwork", Struct false [Field "Extension" (Sub Many "Extension")]) (* elements.go:3257-3259 *);
   ("NeuralOutput", Struct false [Field "Extension" (Sub Many "Extension")]) (* elements.go:3274-3276 *);
   ("NeuralOutputs", Struct false [Field "Extension" (Sub Many "Extension")]) (* elements.go:3289-3291 *);
   ("Neuron", Struct false [Field "Extension" (Sub Many "Extension")]) (* elements.go:3307-3309 *);
   ("Node", Struct true [Field "defaultChild" (Attr KStr false);
      Field "id" (Attr KStr false);
      Field "recordCount" (Attr KRawFloat false);
      Field "score" (Attr KStr false);
      Field "" (Group false "EmbeddedModel");
      Field "Node" (Sub Many "Node");
      Field "Partition" (Sub Opt "Partition");
      Field "ScoreDistribution" (Sub Many "ScoreDistribution");
      Field "Extension" (Sub Many "Extension");
      Field "" (Group false "Predicate")]) (* elements.go:3333-3345, elements.go:3348-3428 *);
   ("NormContinuous", Struct false [Field "Extension" (Sub Many "Extension")]) (* elements.go:3443-3445 *);
   ("NormDiscrete", Struct false [Field "Extension" (Sub Many "Extension")]) (* elements.go:3461-3463 *);
   ("NormalDistributionForBN", Struct false [Field "Extension" (Sub Many "Extension")]) (* elements.go:3478-3480 *);
   ("NormalizedCountTable", Struct false [Field "sample" (Attr KFloat true);
      Field "FieldValue" (Sub Many "FieldValue");
      Field "FieldValueCount" (Sub Many "FieldValueCount");
      Field "Extension" (Sub Many "Extension")]) (* elements.go:3485-3485 *);
   ("NumArray", Struct false [Field "n" (Attr KInt true);
      Field "type" (Attr KStr false);
      Field "" InnerXml]) (* groups.go:234-234 *);
   ("NumericInfo", Struct false [Field "interQuartileRange" (Attr KFloat false);
      Field "maximum" (Attr KFloat false);
      Field "mean" (Attr KFloat false);
      Field "median" (Attr KFloat false);
      Field "minimum" (Attr KFloat false);
      Field "standardDeviation" (SubBasic KFloat);
      Field "Extension" (Sub Many "Extension");
      Field "Quantile" (Sub Many "Quantile")]) (* elements.go:3503-3513 *);
   ("NumericPredictor", Struct false [Field "name" (Attr KStr false);
      Field "coefficient" (Attr KFloat false);
      Field "exponent" (Attr KInt false);
      Field "Extension" (Sub Many "Extension")]) (* elements.go:3527-3533 *);
   ("OptimumLiftGraph", Struct false [Field "Extension" (Sub Many "Extension")]) (* elements.go:3545-3547 *);
   ("Output", Struct false [Field "Extension" (Sub Many "Extension");
      Field "OutputField" (Sub Many "OutputField")]) (* elements.go:3559-3562 *);
   ("OutputField", Struct false [Field "algorithm" (Attr KStr false);
      Field "dataType" (Attr KStr false);
      Field "displayName" (Attr KStr false);
      Field "feature" (Attr KStr false);
      Field "isMultiValued" (Attr KInt false);
      Field "name" (Attr KStr false);
      Field "opType" (Attr KStr false);
      Field "rank" (Attr KInt false);
      Field "rankBasis" (Attr KStr false);
      Field "rankOrder" (Attr KStr false);
      Field "ruleFeature" (Attr KStr false);
      Field "segmentId" (Attr KStr false);
      Field "targetField" (Attr KStr false);
      Field "value" (Attr KStr false);
      Field "Extension" (Sub Many "Extension")]) (* elements.go:3616-3632 *);
   ("PCell", Struct false [Field "Extension" (Sub Many "Extension")]) (* elements.go:3672-3674 *);
   ("PCovCell", Struct false [Field "Extension" (Sub Many "Extension")]) (* elements.go:3691-3693 *);
   ("PCovMatrix", Struct false [Field "Extension" (Sub Many "Extension")]) (* elements.go:3713-3715 *);
   ("PMML", Struct true [Field "version" (Attr KStr false);
      Field "DataDictionary" (Sub One "DataDictionary");
      Field "TransformationDictionary" (Sub One "TransformationDictionary");
      Field "Header" (Sub One "Header");
      Field "MiningBuildTask" (Sub Opt "MiningBuildTask");
      Field "" (Group true "ModelElement")]) (* elements.go:3734-3743, elements.go:3745-3800 *);
   ("PPCell", Struct false [Field "Extension" (Sub Many "Extension")]) (* elements.go:3815-3817 *);
   ("PPMatrix", Struct false [Field "Extension" (Sub Many "Extension")]) (* elements.go:3829-3831 *);
   ("PairCounts", Struct false [Field "Extension" (Sub Many "Extension")]) (* elements.go:3844-3846 *);
   ("ParamMatrix", Struct false [Field "Extension" (Sub Many "Extension")]) (* elements.go:3858-3860 *);
   ("Parameter", Struct false [Field "Extension" (Sub Many "Extension")]) (* elements.go:3874-3876 *);
   ("ParameterField", Struct false []) (* elements.go:3887-3888 *);
   ("ParameterList", Struct false [Field "Extension" (Sub Many "Extension")]) (* elements.go:3900-3902 *);
   ("ParentValue", Struct false [Field "Extension" (Sub Many "Extension")]) (* elements.go:3915-3917 *);
   ("Partition", Struct false [Field "Extension" (Sub Many "Extension")]) (* elements.go:3931-3933 *);
   ("PartitionFieldStats", Struct false [Field "Extension" (Sub Many "Extension")]) (* elements.go:3956-3958 *);
   ("PoissonDistribution", Struct false [Field "Extension" (Sub Many "Extension")]) (* elements.go:3970-3972 *);
   ("PolynomialKernelType", Struct false [Field "Extension" (Sub Many "Extension")]) (* elements.go:3989-3991 *);
   ("PredictiveModelQuality", Struct false [Field "Extension" (Sub Many "Extension")]) (* elements.go:4032-4034 *);
   ("Predictor", Struct false [Field "Extension" (Sub Many "Extension")]) (* elements.go:4049-4051 *);
   ("PredictorTerm", Struct false [Field "Extension" (Sub Many "Extension")]) (* elements.go:4065-4067 *);
   ("Quantile", Struct false [Field "quantileLimit" (Attr KFloat false);
      Field "quantileValue" (Attr KFloat false);
      Field "Extension" (Sub Many "Extension")]) (* elements.go:4080-4085 *);
   ("ROC", Struct false [Field "Extension" (Sub Many "Extension")]) (* elements.go:4126-4128 *);
   ("ROCGraph", Struct false [Field "Extension" (Sub Many "Extension")]) (* elements.go:4142-4144 *);
   ("RadialBasisKernel", Struct false [Field "Extension" (Sub Many "Extension")]) (* elements.go:4159-4161 *);
   ("RadialBasisKernelType", Struct false [Field "Extension" (Sub Many "Extension")]) (* elements.go:4174-4176 *);
   ("RandomLiftGraph", Struct false [Field "Extension" (Sub Many "Extension")]) (* elements.go:4188-4190 *);
   ("RealEntries", Struct false []) (* elements.go:4094-4095 *);
   ("RealSparseArray", Struct false []) (* elements.go:4109-4110 *);
   ("Regression", Struct false [Field "Extension" (Sub Many "Extension")]) (* elements.go:4211-4213 *);
   ("RegressionModel", Struct false [Field "algorithmName" (Attr KStr false);
      Field "functionName" (Attr KStr false);
      Field "isScorable" (Attr KBool false);
      Field "modelName" (Attr KStr false);
      Field "normalizationMethod" (Attr KStr false);
      Field "LocalTransformations" (Sub One "LocalTransformations");
      Field "MiningSchema" (Sub One "MiningSchema");
      Field "RegressionTable" (Sub Many "RegressionTable");
      Field "ModelExplanation" (Sub Opt "ModelExplanation");
      Field "ModelStats" (Sub Opt "ModelStats");
      Field "ModelVerification" (Sub Opt "ModelVerification");
      Field "Output" (Sub One "Output");
      Field "Targets" (Sub Opt "Targets");
      Field "Extension" (Sub Many "Extension")]) (* elements.go:4250-4267 *);
   ("RegressionTable", Struct false [Field "intercept" (Attr KFloat false);
      Field "targetCategory" (Attr KStr false);
      Field "NumericPredictor" (Sub Many "NumericPredictor");
      Field "Extension" (Sub Many "Extension")]) (* elements.go:4285-4290 *);
   ("ResultField", Struct false [Field "Extension" (Sub Many "Extension")]) (* elements.go:4307-4309 *);
   ("RuleSelectionMethod", Struct false [Field "Extension" (Sub Many "Extension")]) (* elements.go:4329-4331 *);
   ("RuleSet", Struct false [Field "Extension" (Sub Many "Extension")]) (* elements.go:4349-4351 *);
   ("RuleSetModel", Struct false [Field "Extension" (Sub Many "Extension")]) (* elements.go:4375-4377 *);
   ("ScoreDistribution", Struct false [Field "confidence" (Attr KFloat true);
      Field "probability" (Attr KFloat true);
      Field "recordCount" (Attr KFloat false);
      Field "value" (Attr KStr false);
      Field "Extension" (Sub Many "Extension")]) (* elements.go:4394-4400 *);
   ("Scorecard", Struct false [Field "Extension" (Sub Many "Extension")]) (* elements.go:4446-4448 *);
   ("SeasonalTrendDecomposition", Struct false []) (* elements.go:4455-4456 *);
   ("SeasonalityExpoSmooth", Struct false []) (* elements.go:4479-4480 *);
   ("Segment", Struct true [Field "id" (Attr KStr false);
      Field "" (Group true "Predicate");
      Field "" (Group true "ModelElement")]) (* elements.go:4495-4500, elements.go:4502-4546 *);
   ("Segmentation", Struct false [Field "multipleModelMethod" (Attr KStr false);
      Field "Segment" (Sub Many "Segment");
      Field "Extension" (Sub Many "Extension")]) (* elements.go:4559-4563 *);
   ("Sequence", Struct false [Field "Extension" (Sub Many "Extension")]) (* elements.go:4583-4585 *);
   ("SequenceGroup", Struct false [Field "SequenceReference" (Sub One "SequenceReference");
      Field "Time" (Sub Opt "Time");
      Field "Extension" (Sub Many "Extension")]) (* groups.go:290-294 *);
   ("SequenceModel", Struct false [Field "Extension" (Sub Many "Extension")]) (* elements.go:4616-4618 *);
   ("SequenceReference", Struct false [Field "Extension" (Sub Many "Extension")]) (* elements.go:4632-4634 *);
   ("SequenceRule", Struct false [Field "Extension" (Sub Many "Extension")]) (* elements.go:4656-4658 *);
   ("SetPredicate", Struct false [Field "Extension" (Sub Many "Extension")]) (* elements.go:4673-4675 *);
   ("SetReference", Struct false [Field "Extension" (Sub Many "Extension")]) (* elements.go:4687-4689 *);
   ("SigmoidKernelType", Struct false [Field "Extension" (Sub Many "Extension")]) (* elements.go:4703-4705 *);
   ("SimpleMatching", Struct false [Field "Extension" (Sub Many "Extension")]) (* elements.go:6007-6009 *);
   ("SimplePredicate", Struct false [Field "field" (Attr KStr false);
      Field "operator" (Attr KStr false);
      Field "value" (Attr KStr false);
      Field "Extension" (Sub Many "Extension")]) (* elements.go:4745-4752 *);
   ("SimpleRule", Struct false [Field "Extension" (Sub Many "Extension")]) (* elements.go:4773-4775 *);
   ("SimpleSetPredicate", Struct false [Field "booleanOperator" (Attr KStr false);
      Field "field" (Attr KStr false);
      Field "Array" (Sub One "Array");
      Field "Extension" (Sub Many "Extension")]) (* elements.go:4803-4809 *);
   ("SpectralAnalysis", Struct false []) (* elements.go:4816-4817 *);
   ("SquaredEuclidean", Struct false [Field "Extension" (Sub Many "Extension")]) (* elements.go:6020-6022 *);
   ("StringArray", Struct false [Field "n" (Attr KInt true);
      Field "type" (Attr KStr false);
      Field "" InnerXml]) (* groups.go:303-303 *);
   ("SupportVector", Struct false [Field "Extension" (Sub Many "Extension")]) (* elements.go:4829-4831 *);
   ("SupportVectorMachine", Struct false [Field "Extension" (Sub Many "Extension")]) (* elements.go:4847-4849 *);
   ("SupportVectorMachineModel", Struct false [Field "Extension" (Sub Many "Extension")]) (* elements.go:4886-4888 *);
   ("SupportVectors", Struct false [Field "Extension" (Sub Many "Extension")]) (* elements.go:4904-4906 *);
   ("TableLocator", Struct false [Field "Extension" (Sub Many "Extension")]) (* elements.go:4917-4919 *);
   ("Tanimoto", Struct false [Field "Extension" (Sub Many "Extension")]) (* elements.go:6033-6035 *);
   ("Target", Struct false [Field "castInteger" (Attr KStr false);
      Field "field" (Attr KStr false);
      Field "max" (Attr KFloat false);
      Field "min" (Attr KFloat false);
      Field "optype" (Attr KStr false);
      Field "rescaleConstant" (Attr KFloat true);
      Field "rescaleFactor" (Attr KFloat true);
      Field "Extension" (Sub Many "Extension");
      Field "TargetValue" (Sub Many "TargetValue")]) (* elements.go:4956-4967 *);
   ("TargetValue", Struct false [Field "Extension" (Sub Many "Extension")]) (* elements.go:4983-4985 *);
   ("TargetValueCount", Struct false [Field "Extension" (Sub Many "Extension")]) (* elements.go:4998-5000 *);
   ("TargetValueCounts", Struct false [Field "Extension" (Sub Many "Extension")]) (* elements.go:5012-5014 *);
   ("TargetValueStat", Struct false [Field "Extension" (Sub Many "Extension")]) (* elements.go:5027-5029 *);
   ("TargetValueStats", Struct false [Field "Extension" (Sub Many "Extension")]) (* elements.go:5041-5043 *);
   ("Targets", Struct false [Field "Extension" (Sub Many "Extension");
      Field "Target" (Sub Many "Target")]) (* elements.go:5055-5058 *);
   ("Taxonomy", Struct false [Field "name" (Attr KStr false);
      Field "ChildParent" (Sub Many "ChildParent");
      Field "Extension" (Sub Many "Extension")]) (* elements.go:5071-5076 *);
   ("TestDistributions", Struct false [Field "Extension" (Sub Many "Extension")]) (* elements.go:5095-5097 *);
   ("TextCorpus", Struct false [Field "Extension" (Sub Many "Extension")]) (* elements.go:5109-5111 *);
   ("TextDictionary", Struct false [Field "Extension" (Sub Many "Extension")]) (* elements.go:5124-5126 *);
   ("TextDocument", Struct false [Field "Extension" (Sub Many "Extension")]) (* elements.go:5141-5143 *);
   ("TextIndex", Struct false [Field "Extension" (Sub Many "Extension")]) (* elements.go:5179-5181 *);
   ("TextIndexNormalization", Struct false [Field "Extension" (Sub Many "Extension")]) (* elements.go:5206-5208 *);
   ("TextModel", Struct false [Field "Extension" (Sub Many "Extension")]) (* elements.go:5238-5240 *);
   ("TextModelNormalization", Struct false [Field "Extension" (Sub Many "Extension")]) (* elements.go:5282-5284 *);
   ("TextModelSimiliarity", Struct false [Field "Extension" (Sub Many "Extension")]) (* elements.go:5303-5305 *);
   ("Time", Struct false [Field "Extension" (Sub Many "Extension")]) (* elements.go:5320-5322 *);
   ("TimeAnchor", Struct false []) (* elements.go:5338-5339 *);
   ("TimeCycle", Struct false []) (* elements.go:5353-5354 *);
   ("TimeException", Struct false []) (* elements.go:5367-5368 *);
   ("TimeSeries", Struct false []) (* elements.go:5384-5385 *);
   ("TimeSeriesModel", Struct false [Field "Extension" (Sub Many "Extension")]) (* elements.go:5413-5415 *);
   ("TimeValue", Struct false []) (* elements.go:5432-5433 *);
   ("Timestamp", Struct false [Field "Extension" (Sub Many "Extension")]) (* elements.go:5444-5446 *);
   ("TrainingInstances", Struct false [Field "Extension" (Sub Many "Extension")]) (* elements.go:5465-5467 *);
   ("TransformationDictionary", Struct false [Field "DefineFunction" (Sub Many "DefineFunction");
      Field "DerivedField" (Sub Many "DerivedField");
      Field "Extension" (Sub Many "Extension")]) (* elements.go:5480-5484 *);
   ("TreeModel", Struct false [Field "algorithmName" (Attr KStr false);
      Field "functionName" (Attr KStr false);
      Field "isScorable" (Attr KBool false);
      Field "missingValuePenalty" (Attr KFloat false);
      Field "missingValueStrategy" (Attr KStr false);
      Field "modelName" (Attr KStr false);
      Field "noTrueChildStrategy" (Attr KStr false);
      Field "splitCharacteristic" (Attr KStr false);
      Field "Extension" (Sub Many "Extension");
      Field "LocalTransformations" (Sub One "LocalTransformations");
      Field "MiningSchema" (Sub One "MiningSchema");
      Field "ModelExplanation" (Sub Opt "ModelExplanation");
      Field "ModelStats" (Sub Opt "ModelStats");
      Field "ModelVerification" (Sub Opt "ModelVerification");
      Field "Node" (Sub One "Node");
      Field "Output" (Sub Opt "Output");
      Field "Targets" (Sub Opt "Targets")]) (* elements.go:5526-5545 *);
   ("TrendExpoSmooth", Struct false []) (* elements.go:5572-5573 *);
   ("TriangularDistributionForBN", Struct false [Field "Extension" (Sub Many "Extension")]) (* elements.go:5587-5589 *);
   ("True", Struct false [Field "Extension" (Sub Many "Extension")]) (* elements.go:5600-5602 *);
   ("UniformDistribution", Struct false [Field "Extension" (Sub Many "Extension")]) (* elements.go:5617-5619 *);
   ("UniformDistributionForBN", Struct false [Field "Extension" (Sub Many "Extension")]) (* elements.go:5634-5636 *);
   ("UnivariateStats", Struct false [Field "field" (Attr KStr false);
      Field "weighted" (Attr KBool false);
      Field "Anova" (Sub Opt "Anova");
      Field "ContStats" (Sub Opt "ContStats");
      Field "Counts" (Sub Opt "Counts");
      Field "DiscrStats" (Sub Opt "DiscrStats");
      Field "Extension" (Sub Many "Extension");
      Field "NumericInfo" (Sub Opt "NumericInfo")]) (* elements.go:5661-5671 *);
   ("Upper", Struct false [Field "Extension" (Sub Many "Extension")]) (* elements.go:5683-5685 *);
   ("Value", Struct false [Field "displayValue" (Attr KStr false);
      Field "valid" (Attr KStr false);
      Field "value" (Attr KStr false);
      Field "Extension" (Sub Many "Extension")]) (* elements.go:5715-5721 *);
   ("ValueProbability", Struct false [Field "Extension" (Sub Many "Extension")]) (* elements.go:5734-5736 *);
   ("Variance", Struct false [Field "Extension" (Sub Many "Extension")]) (* elements.go:5748-5750 *);
   ("VectorDictionary", Struct false [Field "Extension" (Sub Many "Extension")]) (* elements.go:5764-5766 *);
   ("VectorFields", Struct false [Field "Extension" (Sub Many "Extension")]) (* elements.go:5782-5784 *);
   ("VectorInstance", Struct false [Field "Extension" (Sub Many "Extension")]) (* elements.go:5800-5802 *);
   ("VerificationField", Struct false [Field "field" (Attr KStr false);
      Field "column" (Attr KStr false);
      Field "precision" (Attr KFloat true);
      Field "zeroThreshold" (Attr KFloat true);
      Field "Extension" (Sub Many "Extension")]) (* elements.go:5817-5823 *);
   ("VerificationFields", Struct false [Field "Extension" (Sub Many "Extension");
      Field "VerificationField" (Sub Many "VerificationField")]) (* elements.go:5835-5838 *);
   ("XCoordinates", Struct false [Field "Extension" (Sub Many "Extension")]) (* elements.go:5850-5852 *);
   ("YCoordinates", Struct false [Field "Extension" (Sub Many "Extension")]) (* elements.go:5864-5866 *)].

(** What the XML schema quoted above each struct declares: the attributes and
    the child elements (groups resolved) of the element. *)
Definition pmml_declares : list (string * (list string * list string)) :=
  [("ARDSquaredExponentialKernel", (["description"; "gamma"; "noiseVariance"], ["Extension"; "Lambda"]));
   ("AbsoluteExponentialKernel", (["description"; "gamma"; "noiseVariance"], ["Extension"; "Lambda"]));
   ("Aggregate", (["field"; "function"; "groupField"; "sqlWhere"], ["Extension"]));
   ("Alternate", ([], ["AnyDistribution"; "GaussianDistribution"; "PoissonDistribution"; "UniformDistribution"; "Extension"]));
   ("Annotation", ([], ["Extension"]));
   ("Anova", (["target"], ["AnovaRow"; "Extension"]));
   ("AnovaRow", (["degreesOfFreedom"; "fValue"; "meanOfSquares"; "pValue"; "sumOfSquares"; "type"], ["Extension"]));
   ("AntecedentSequence", ([], ["SequenceReference"; "Time"; "Extension"]));
   ("AnyDistribution", (["mean"; "variance"], ["Extension"]));
   ("Application", (["name"; "version"], ["Extension"]));
   ("Apply", (["defaultValue"; "function"; "invalidValueTreatment"; "mapMissingTo"], ["Extension"; "Aggregate"; "Apply"; "Constant"; "Discretize"; "FieldRef"; "Lag"; "MapValues"; "NormContinuous"; "NormDiscrete"; "TextIndex"]));
   ("ArrayType", (["n"; "type"], []));
   ("AssociationModel", (["algorithmName"; "avgNumberOfItemsPerTA"; "functionName"; "isScorable"; "lengthLimit"; "maxNumberOfItemsPerTA"; "minimumConfidence"; "minimumSupport"; "modelName"; "numberOfItems"; "numberOfItemsets"; "numberOfRules"; "numberOfTransactions"], ["AssociationRule"; "Extension"; "Item"; "Itemset"; "LocalTransformations"; "MiningSchema"; "ModelStats"; "ModelVerification"; "Output"]));
   ("AssociationRule", (["affinity"; "antecedent"; "confidence"; "consequent"; "id"; "leverage"; "lift"; "support"], ["Extension"]));
   ("Attribute", (["partialScore"; "reasonCode"], ["ComplexPartialScore"; "Extension"; "CompoundPredicate"; "False"; "SimplePredicate"; "SimpleSetPredicate"; "True"]));
   ("BaseCumHazardTables", (["maxTime"], ["BaselineCell"; "BaselineStratum"; "Extension"]));
   ("Baseline", ([], ["CountTable"; "FieldRef"; "NormalizedCountTable"; "AnyDistribution"; "GaussianDistribution"; "PoissonDistribution"; "UniformDistribution"; "Extension"]));
   ("BaselineCell", (["cumHazard"; "time"], ["Extension"]));
   ("BaselineModel", (["algorithmName"; "functionName"; "isScorable"; "modelName"], ["Extension"; "LocalTransformations"; "MiningSchema"; "ModelExplanation"; "ModelStats"; "ModelVerification"; "Output"; "Targets"; "TestDistributions"]));
   ("BaselineStratum", (["label"; "maxTime"; "value"], ["BaselineCell"; "Extension"]));
   ("BayesInput", (["fieldName"], ["TargetValueStats"; "DerivedField"; "PairCounts"; "Extension"]));
   ("BayesInputs", ([], ["BayesInput"; "Extension"]));
   ("BayesOutput", (["fieldName"], ["Extension"; "TargetValueCounts"]));
   ("BayesianNetworkModel", (["algorithmName"; "functionName"; "isScorable"; "modelName"], ["BayesianNetworkNodes"; "Extension"; "LocalTransformations"; "MiningSchema"; "ModelExplanation"; "ModelStats"; "ModelVerification"; "Output"; "Targets"]));
   ("BayesianNetworkNodes", ([], ["ContinuousNode"; "DiscreteNode"; "Extension"]));
   ("BinarySimilarity", (["c00-parameter"; "c01-parameter"; "c10-parameter"; "c11-parameter"; "d00-parameter"; "d01-parameter"; "d10-parameter"; "d11-parameter"], ["Extension"]));
   ("BlockIndicator", (["field"], []));
   ("BoundaryValueMeans", ([], ["Extension"; "Array"]));
   ("BoundaryValues", ([], ["Extension"; "Array"]));
   ("CategoricalPredictor", (["coefficient"; "name"; "value"], ["Extension"]));
   ("Categories", ([], ["Category"; "Extension"]));
   ("Category", (["value"], ["Extension"]));
   ("Characteristic", (["baselineScore"; "name"; "reasonCode"], ["Attribute"; "Extension"]));
   ("Characteristics", ([], ["Characteristic"; "Extension"]));
   ("Chebychev", ([], ["Extension"]));
   ("ChildParent", (["childField"; "isRecursive"; "parentField"; "parentLevelField"], ["InlineTable"; "TableLocator"; "Extension"; "FieldColumnPair"]));
   ("CityBlock", ([], ["Extension"]));
   ("ClassLabels", ([], ["Extension"; "Array"]));
   ("Cluster", (["id"; "name"; "size"], ["Covariances"; "Extension"; "KohonenMap"; "Partition"; "Array"]));
   ("ClusteringField", (["compareFunction"; "field"; "fieldWeight"; "isCenterField"; "similarityScale"], ["Comparisons"; "Extension"]));
   ("ClusteringModel", (["algorithmName"; "functionName"; "isScorable"; "modelClass"; "modelName"; "numberOfClusters"], ["Cluster"; "ClusteringField"; "ComparisonMeasure"; "Extension"; "LocalTransformations"; "MiningSchema"; "MissingValueWeights"; "ModelExplanation"; "ModelStats"; "ModelVerification"; "Output"]));
   ("ClusteringModelQuality", (["SSB"; "SSE"; "dataName"], []));
   ("Coefficient", (["value"], ["Extension"]));
   ("Coefficients", (["absoluteValue"; "numberOfCoefficients"], ["Coefficient"; "Extension"]));
   ("ComparisonMeasure", (["compareFunction"; "kind"; "maximum"; "minimum"], ["binarySimilarity"; "chebychev"; "cityBlock"; "euclidean"; "jaccard"; "minkowski"; "simpleMatching"; "squaredEuclidean"; "tanimoto"; "Extension"]));
   ("Comparisons", ([], ["Extension"; "Matrix"]));
   ("ComplexPartialScore", ([], ["Extension"; "Aggregate"; "Apply"; "Constant"; "Discretize"; "FieldRef"; "Lag"; "MapValues"; "NormContinuous"; "NormDiscrete"; "TextIndex"]));
   ("CompoundPredicate", (["booleanOperator"], ["Extension"; "CompoundPredicate"; "False"; "SimplePredicate"; "SimpleSetPredicate"; "True"]));
   ("CompoundRule", ([], ["Extension"; "CompoundRule"; "SimpleRule"; "CompoundPredicate"; "False"; "SimplePredicate"; "SimpleSetPredicate"; "True"]));
   ("Con", (["from"; "weight"], ["Extension"]));
   ("ConfusionMatrix", ([], ["ClassLabels"; "Extension"; "Matrix"]));
   ("ConsequentSequence", ([], ["SequenceReference"; "Time"; "Extension"]));
   ("Constant", (["dataType"], []));
   ("Constraints", (["maximumAntConsSeparationTime"; "maximumItemsetSeparationTime"; "maximumNumberOfAntecedentItems"; "maximumNumberOfConsequentItems"; "maximumNumberOfItems"; "maximumTotalSequenceTime"; "minimumAntConsSeparationTime"; "minimumConfidence"; "minimumItemsetSeparationTime"; "minimumLift"; "minimumNumberOfAntecedentItems"; "minimumNumberOfConsequentItems"; "minimumNumberOfItems"; "minimumSupport"; "minimumTotalSequenceTime"], ["Extension"]));
   ("ContStats", (["totalSquaresSum"; "totalValuesSum"], ["Extension"; "Interval"; "Array"]));
   ("ContinuousConditionalProbability", (["count"], ["ContinuousDistribution"; "Extension"; "ParentValue"]));
   ("ContinuousDistribution", ([], ["LognormalDistributionForBN"; "NormalDistributionForBN"; "TriangularDistributionForBN"; "UniformDistributionForBN"; "Extension"]));
   ("ContinuousNode", (["count"; "name"], ["ContinuousConditionalProbability"; "ContinuousDistribution"; "DerivedField"; "Extension"]));
   ("CorrelationFields", ([], ["Extension"; "Array"]));
   ("CorrelationMethods", ([], ["Extension"; "Matrix"]));
   ("CorrelationValues", ([], ["Extension"; "Matrix"]));
   ("Correlations", ([], ["CorrelationFields"; "CorrelationMethods"; "CorrelationValues"; "Extension"]));
   ("CountTableType", (["sample"], ["FieldValue"; "FieldValueCount"; "Extension"]));
   ("Counts", (["cardinality"; "invalidFreq"; "missingFreq"; "totalFreq"], ["Extension"]));
   ("Covariances", ([], ["Extension"; "Matrix"]));
   ("CovariateList", ([], ["Extension"; "Predictor"]));
   ("DataDictionary", (["numberOfFields"], ["DataField"; "Extension"; "Taxonomy"]));
   ("DataField", (["dataType"; "displayName"; "isCyclic"; "name"; "optype"; "taxonomy"], ["Extension"; "Interval"; "Value"]));
   ("Decision", (["description"; "displayValue"; "value"], ["Extension"]));
   ("DecisionTree", (["algorithmName"; "functionName"; "missingValuePenalty"; "missingValueStrategy"; "modelName"; "noTrueChildStrategy"; "splitCharacteristic"], ["Extension"; "LocalTransformations"; "ModelStats"; "Node"; "Output"; "ResultField"; "Targets"]));
   ("Decisions", (["businessProblem"; "description"], ["Decision"; "Extension"]));
   ("DefineFunction", (["dataType"; "name"; "optype"], ["Extension"; "ParameterField"; "Aggregate"; "Apply"; "Constant"; "Discretize"; "FieldRef"; "Lag"; "MapValues"; "NormContinuous"; "NormDiscrete"; "TextIndex"]));
   ("Delimiter", (["delimiter"; "gap"], ["Extension"]));
   ("DerivedField", (["dataType"; "displayName"; "name"; "optype"], ["Extension"; "Value"; "Aggregate"; "Apply"; "Constant"; "Discretize"; "FieldRef"; "Lag"; "MapValues"; "NormContinuous"; "NormDiscrete"; "TextIndex"]));
   ("DiscrStats", (["modalValue"], ["Array"; "Extension"]));
   ("DiscreteConditionalProbability", (["count"], ["Extension"; "ParentValue"; "ValueProbability"]));
   ("DiscreteNode", (["count"; "name"], ["DiscreteConditionalProbability"; "ValueProbability"; "DerivedField"; "Extension"]));
   ("Discretize", (["dataType"; "defaultValue"; "field"; "mapMissingTo"], ["DiscretizeBin"; "Extension"]));
   ("DiscretizeBin", (["binValue"], ["Extension"; "Interval"]));
   ("DocumentTermMatrix", ([], ["Extension"; "Matrix"]));
   ("Euclidean", ([], ["Extension"]));
   ("EventValues", ([], ["Extension"; "Interval"; "Value"]));
   ("ExponentialSmoothing", (["RMSE"; "transformation"], ["Level"; "Seasonality_ExpoSmooth"; "TimeValue"; "Trend_ExpoSmooth"]));
   ("Extension", (["extender"; "name"; "value"], []));
   ("FactorList", ([], ["Extension"; "Predictor"]));
   ("False", ([], ["Extension"]));
   ("FieldColumnPair", (["column"; "field"], ["Extension"]));
   ("FieldRef", (["field"; "mapMissingTo"], ["Extension"]));
   ("FieldValue", (["field"; "value"], ["FieldValue"; "FieldValueCount"; "Extension"]));
   ("FieldValueCount", (["count"; "field"; "value"], ["Extension"]));
   ("GaussianDistribution", (["mean"; "variance"], ["Extension"]));
   ("GaussianProcessModel", (["functionName"; "isScorable"; "modelName"; "optimizer"], ["Extension"; "LocalTransformations"; "MiningSchema"; "ModelExplanation"; "ModelStats"; "ModelVerification"; "Output"; "Targets"; "TrainingInstances"; "ARDSquaredExponentialKernel"; "AbsoluteExponentialKernel"; "GeneralizedExponentialKernel"; "RadialBasisKernel"]));
   ("GeneralRegressionModel", (["algorithmName"; "baselineStrataVariable"; "cumulativeLink"; "distParameter"; "distribution"; "endTimeVariable"; "functionName"; "isScorable"; "linkFunction"; "linkParameter"; "modelDF"; "modelName"; "modelType"; "offsetValue"; "offsetVariable"; "startTimeVariable"; "statusVariable"; "subjectIDVariable"; "targetReferenceCategory"; "targetVariableName"; "trialsValue"; "trialsVariable"], ["BaseCumHazardTables"; "CovariateList"; "EventValues"; "Extension"; "FactorList"; "LocalTransformations"; "MiningSchema"; "ModelExplanation"; "ModelStats"; "ModelVerification"; "Output"; "PCovMatrix"; "PPMatrix"; "ParamMatrix"; "ParameterList"; "Targets"]));
   ("GeneralizedExponentialKernel", (["degree"; "description"; "gamma"; "noiseVariance"], ["Extension"; "Lambda"]));
   ("Header", (["copyright"; "description"; "modelVersion"], ["Annotation"; "Application"; "Extension"; "Timestamp"]));
   ("Indices", ([], []));
   ("InlineTable", ([], ["Extension"; "row"]));
   ("InstanceField", (["column"; "field"], ["Extension"]));
   ("InstanceFields", ([], ["Extension"; "InstanceField"]));
   ("IntegerEntries", ([], []));
   ("IntegerSparseArray", (["defaultValue"; "n"], ["INT-Entries"; "Indices"]));
   ("Interval", (["closure"; "leftMargin"; "rightMargin"], ["Extension"]));
   ("Item", (["category"; "field"; "id"; "mappedValue"; "value"; "weight"], ["Extension"]));
   ("ItemRef", (["itemRef"], ["Extension"]));
   ("Itemset", (["id"; "numberOfItems"; "support"], ["Extension"; "ItemRef"]));
   ("Jaccard", ([], ["Extension"]));
   ("KNNInput", (["compareFunction"; "field"; "fieldWeight"], ["Extension"]));
   ("KNNInputs", ([], ["Extension"; "KNNInput"]));
   ("KohonenMap", (["coord1"; "coord2"; "coord3"], ["Extension"]));
   ("Lag", (["field"; "n"], ["BlockIndicator"; "Extension"]));
   ("Lambda", ([], ["Extension"]));
   ("Level", (["alpha"; "smoothedValue"], []));
   ("LiftData", (["rankingQuality"; "targetFieldDisplayValue"; "targetFieldValue"], ["Extension"; "ModelLiftGraph"; "OptimumLiftGraph"; "RandomLiftGraph"]));
   ("LiftGraph", ([], ["BoundaryValueMeans"; "BoundaryValues"; "Extension"; "XCoordinates"; "YCoordinates"]));
   ("LinearKernelType", (["description"], ["Extension"]));
   ("LinearNorm", (["norm"; "orig"], ["Extension"]));
   ("LocalTransformations", ([], ["DerivedField"; "Extension"]));
   ("LognormalDistributionForBN", ([], ["Extension"; "Mean"; "Variance"]));
   ("Lower", ([], ["Extension"; "Aggregate"; "Apply"; "Constant"; "Discretize"; "FieldRef"; "Lag"; "MapValues"; "NormContinuous"; "NormDiscrete"; "TextIndex"]));
   ("MapValues", (["dataType"; "defaultValue"; "mapMissingTo"; "outputColumn"], ["InlineTable"; "TableLocator"; "Extension"; "FieldColumnPair"]));
   ("MatCell", (["col"; "row"], []));
   ("Matrix", (["diagDefault"; "kind"; "nbCols"; "nbRows"; "offDiagDefault"], ["MatCell"; "Array"]));
   ("Mean", ([], ["Extension"; "Aggregate"; "Apply"; "Constant"; "Discretize"; "FieldRef"; "Lag"; "MapValues"; "NormContinuous"; "NormDiscrete"; "TextIndex"]));
   ("MiningBuildTask", ([], ["Extension"]));
   ("MiningField", (["highValue"; "importance"; "invalidValueTreatment"; "lowValue"; "missingValueReplacement"; "missingValueTreatment"; "name"; "optype"; "outliers"; "usageType"], ["Extension"]));
   ("MiningModel", (["algorithmName"; "functionName"; "isScorable"; "modelName"], ["DecisionTree"; "Regression"; "Extension"; "LocalTransformations"; "MiningSchema"; "ModelExplanation"; "ModelStats"; "ModelVerification"; "Output"; "Segmentation"; "Targets"]));
   ("MiningSchema", ([], ["Extension"; "MiningField"]));
   ("Minkowski", (["p-parameter"], ["Extension"]));
   ("MissingValueWeights", ([], ["Extension"; "Array"]));
   ("ModelExplanation", ([], ["ClusteringModelQuality"; "PredictiveModelQuality"; "Correlations"; "Extension"]));
   ("ModelLiftGraph", ([], ["Extension"; "LiftGraph"]));
   ("ModelStats", ([], ["Extension"; "MultivariateStats"; "UnivariateStats"]));
   ("ModelVerification", (["fieldCount"; "recordCount"], ["Extension"; "InlineTable"; "VerificationFields"]));
   ("MultivariateStat", (["category"; "chiSquareValue"; "confidenceLevel"; "confidenceLowerBound"; "confidenceUpperBound"; "dF"; "exponent"; "fStatistic"; "importance"; "isIntercept"; "name"; "pValueAlpha"; "pValueFinal"; "pValueInitial"; "stdError"; "tValue"], ["Extension"]));
   ("MultivariateStats", (["targetCategory"], ["Extension"; "MultivariateStat"]));
   ("NaiveBayesModel", (["algorithmName"; "functionName"; "isScorable"; "modelName"; "threshold"], ["BayesInputs"; "BayesOutput"; "Extension"; "LocalTransformations"; "MiningSchema"; "ModelExplanation"; "ModelStats"; "ModelVerification"; "Output"; "Targets"]));
   ("NearestNeighborModel", (["algorithmName"; "categoricalScoringMethod"; "continuousScoringMethod"; "functionName"; "instanceIdVariable"; "isScorable"; "modelName"; "numberOfNeighbors"; "threshold"], ["ComparisonMeasure"; "Extension"; "KNNInputs"; "LocalTransformations"; "MiningSchema"; "ModelExplanation"; "ModelStats"; "ModelVerification"; "Output"; "Targets"; "TrainingInstances"]));
   ("NeuralInput", (["id"], ["DerivedField"; "Extension"]));
   ("NeuralInputs", (["numberOfInputs"], ["Extension"; "NeuralInput"]));
   ("NeuralLayer", (["activationFunction"; "altitude"; "normalizationMethod"; "numberOfNeurons"; "threshold"; "width"], ["Extension"; "Neuron"]));
   ("NeuralNetwork", (["activationFunction"; "algorithmName"; "altitude"; "functionName"; "isScorable"; "modelName"; "normalizationMethod"; "numberOfLayers"; "threshold"; "width"], ["Extension"; "LocalTransformations"; "MiningSchema"; "ModelExplanation"; "ModelStats"; "ModelVerification"; "NeuralInputs"; "NeuralLayer"; "NeuralOutputs"; "Output"; "Targets"]));
   ("NeuralOutput", (["outputNeuron"], ["DerivedField"; "Extension"]));
   ("NeuralOutputs", (["numberOfOutputs"], ["Extension"; "NeuralOutput"]));
   ("Neuron", (["altitude"; "bias"; "id"; "width"], ["Con"; "Extension"]));
   ("Node", (["defaultChild"; "id"; "recordCount"; "score"], ["Node"; "Partition"; "ScoreDistribution"; "Extension"; "CompoundPredicate"; "False"; "SimplePredicate"; "SimpleSetPredicate"; "True"; "DecisionTree"; "Regression"]));
   ("NormContinuous", (["field"; "mapMissingTo"; "outliers"], ["Extension"; "LinearNorm"]));
   ("NormDiscrete", (["field"; "mapMissingTo"; "value"], ["Extension"]));
   ("NormalDistributionForBN", ([], ["Extension"; "Mean"; "Variance"]));
   ("NumericInfo", (["interQuartileRange"; "maximum"; "mean"; "median"; "minimum"; "standardDeviation"], ["Extension"; "Quantile"]));
   ("NumericPredictor", (["coefficient"; "exponent"; "name"], ["Extension"]));
   ("OptimumLiftGraph", ([], ["Extension"; "LiftGraph"]));
   ("Output", ([], ["Extension"; "OutputField"]));
   ("OutputField", (["algorithm"; "dataType"; "displayName"; "feature"; "isMultiValued"; "name"; "optype"; "rank"; "rankBasis"; "rankOrder"; "ruleFeature"; "segmentId"; "targetField"; "value"], ["Extension"; "Decisions"; "Aggregate"; "Apply"; "Constant"; "Discretize"; "FieldRef"; "Lag"; "MapValues"; "NormContinuous"; "NormDiscrete"; "TextIndex"]));
   ("PCell", (["beta"; "df"; "parameterName"; "targetCategory"], ["Extension"]));
   ("PCovCell", (["pCol"; "pRow"; "tCol"; "tRow"; "targetCategory"; "value"], ["Extension"]));
   ("PCovMatrix", (["type"], ["Extension"; "PCovCell"]));
   ("PMML", (["version"], ["DataDictionary"; "Extension"; "Header"; "MiningBuildTask"; "TransformationDictionary"; "AssociationModel"; "BaselineModel"; "BayesianNetworkModel"; "ClusteringModel"; "GaussianProcessModel"; "GeneralRegressionModel"; "MiningModel"; "NaiveBayesModel"; "NearestNeighborModel"; "NeuralNetwork"; "RegressionModel"; "RuleSetModel"; "Scorecard"; "SequenceModel"; "SupportVectorMachineModel"; "TextModel"; "TimeSeriesModel"; "TreeModel"]));
   ("PPCell", (["parameterName"; "predictorName"; "targetCategory"; "value"], ["Extension"]));
   ("PPMatrix", ([], ["Extension"; "PPCell"]));
   ("PairCounts", (["value"], ["Extension"; "TargetValueCounts"]));
   ("ParamMatrix", ([], ["Extension"; "PCell"]));
   ("Parameter", (["label"; "name"; "referencePoint"], ["Extension"]));
   ("ParameterField", (["dataType"; "name"; "optype"], []));
   ("ParameterList", ([], ["Extension"; "Parameter"]));
   ("ParentValue", (["parent"; "value"], ["Extension"]));
   ("Partition", (["name"; "size"], ["Extension"; "PartitionFieldStats"]));
   ("PartitionFieldStats", (["field"; "weighted"], ["Counts"; "Extension"; "NumericInfo"; "Array"]));
   ("PoissonDistribution", (["mean"], ["Extension"]));
   ("PolynomialKernelType", (["coef0"; "degree"; "description"; "gamma"], ["Extension"]));
   ("PredictiveModelQuality", (["AIC"; "AICc"; "BIC"; "adj-r-squared"; "dataName"; "dataUsage"; "degreesOfFreedom"; "fStatistic"; "meanAbsoluteError"; "meanError"; "meanSquaredError"; "numOfPredictors"; "numOfRecords"; "numOfRecordsWeighted"; "r-squared"; "rootMeanSquaredError"; "sumSquaredError"; "sumSquaredRegression"; "targetField"], ["ConfusionMatrix"; "Extension"; "LiftData"; "ROC"]));
   ("Predictor", (["contrastMatrixType"; "name"], ["Categories"; "Extension"; "Matrix"]));
   ("PredictorTerm", (["coefficient"; "name"], ["Extension"; "FieldRef"]));
   ("Quantile", (["quantileLimit"; "quantileValue"], ["Extension"]));
   ("ROC", (["negativeTargetFieldDisplayValue"; "negativeTargetFieldValue"; "positiveTargetFieldDisplayValue"; "positiveTargetFieldValue"], ["Extension"; "ROCGraph"]));
   ("ROCGraph", ([], ["BoundaryValues"; "Extension"; "XCoordinates"; "YCoordinates"]));
   ("RadialBasisKernel", (["description"; "gamma"; "lambda"; "noiseVariance"], ["Extension"]));
   ("RadialBasisKernelType", (["description"; "gamma"], ["Extension"]));
   ("RandomLiftGraph", ([], ["Extension"; "LiftGraph"]));
   ("RealEntries", ([], []));
   ("RealSparseArray", (["defaultValue"; "n"], ["Indices"; "REAL-Entries"]));
   ("Regression", (["algorithmName"; "functionName"; "modelName"; "normalizationMethod"], ["Extension"; "LocalTransformations"; "ModelStats"; "Output"; "RegressionTable"; "ResultField"; "Targets"]));
   ("RegressionModel", (["algorithmName"; "functionName"; "isScorable"; "modelName"; "modelType"; "normalizationMethod"; "targetFieldName"], ["Extension"; "LocalTransformations"; "MiningSchema"; "ModelExplanation"; "ModelStats"; "ModelVerification"; "Output"; "RegressionTable"; "Targets"]));
   ("RegressionTable", (["intercept"; "targetCategory"], ["CategoricalPredictor"; "Extension"; "NumericPredictor"; "PredictorTerm"]));
   ("ResultField", (["dataType"; "displayName"; "feature"; "name"; "optype"; "value"], ["Extension"]));
   ("RuleSelectionMethod", (["criterion"], ["Extension"]));
   ("RuleSet", (["defaultConfidence"; "defaultScore"; "nbCorrect"; "recordCount"], ["Extension"; "RuleSelectionMethod"; "ScoreDistribution"; "CompoundRule"; "SimpleRule"]));
   ("RuleSetModel", (["algorithmName"; "functionName"; "isScorable"; "modelName"], ["Extension"; "LocalTransformations"; "MiningSchema"; "ModelExplanation"; "ModelStats"; "ModelVerification"; "Output"; "RuleSet"; "Targets"]));
   ("ScoreDistribution", (["confidence"; "probability"; "recordCount"; "value"], ["Extension"]));
   ("Scorecard", (["algorithmName"; "baselineMethod"; "baselineScore"; "functionName"; "initialScore"; "isScorable"; "modelName"; "reasonCodeAlgorithm"; "useReasonCodes"], ["Characteristics"; "Extension"; "LocalTransformations"; "MiningSchema"; "ModelExplanation"; "ModelStats"; "ModelVerification"; "Output"; "Targets"]));
   ("SeasonalityExpoSmooth", (["delta"; "period"; "phase"; "type"; "unit"], []));
   ("Segment", (["id"; "weight"], ["Extension"; "CompoundPredicate"; "False"; "SimplePredicate"; "SimpleSetPredicate"; "True"; "AssociationModel"; "BaselineModel"; "BayesianNetworkModel"; "ClusteringModel"; "GaussianProcessModel"; "GeneralRegressionModel"; "MiningModel"; "NaiveBayesModel"; "NearestNeighborModel"; "NeuralNetwork"; "RegressionModel"; "RuleSetModel"; "Scorecard"; "SequenceModel"; "SupportVectorMachineModel"; "TextModel"; "TimeSeriesModel"; "TreeModel"]));
   ("Segmentation", (["multipleModelMethod"], ["Extension"; "Segment"]));
   ("Sequence", (["id"; "numberOfSets"; "occurrence"; "support"], ["Extension"; "SetReference"; "Time"; "Delimiter"]));
   ("SequenceModel", (["algorithmName"; "avgNumberOfItemsPerTransaction"; "avgNumberOfTAsPerTAGroup"; "functionName"; "isScorable"; "maxNumberOfItemsPerTransaction"; "maxNumberOfTAsPerTAGroup"; "modelName"; "numberOfTransactionGroups"; "numberOfTransactions"], ["Constraints"; "Extension"; "Item"; "Itemset"; "LocalTransformations"; "MiningSchema"; "ModelStats"; "Sequence"; "SequenceRule"; "SetPredicate"]));
   ("SequenceReference", (["seqId"], ["Extension"]));
   ("SequenceRule", (["confidence"; "id"; "lift"; "numberOfSets"; "occurrence"; "support"], ["AntecedentSequence"; "ConsequentSequence"; "Delimiter"; "Extension"; "Time"]));
   ("SetPredicate", (["field"; "id"; "operator"], ["Extension"; "Array"]));
   ("SetReference", (["setId"], ["Extension"]));
   ("SigmoidKernelType", (["coef0"; "description"; "gamma"], ["Extension"]));
   ("SimpleMatching", ([], ["Extension"]));
   ("SimplePredicate", (["field"; "operator"; "value"], ["Extension"]));
   ("SimpleRule", (["confidence"; "id"; "nbCorrect"; "recordCount"; "score"; "weight"], ["Extension"; "ScoreDistribution"; "CompoundPredicate"; "False"; "SimplePredicate"; "SimpleSetPredicate"; "True"]));
   ("SimpleSetPredicate", (["booleanOperator"; "field"], ["Array"; "Extension"]));
   ("SquaredEuclidean", ([], ["Extension"]));
   ("SupportVector", (["vectorId"], ["Extension"]));
   ("SupportVectorMachine", (["alternateTargetCategory"; "targetCategory"; "threshold"], ["Coefficients"; "Extension"; "SupportVectors"]));
   ("SupportVectorMachineModel", (["algorithmName"; "classificationMethod"; "functionName"; "isScorable"; "maxWins"; "modelName"; "svmRepresentation"; "threshold"], ["Extension"; "LocalTransformations"; "MiningSchema"; "ModelExplanation"; "ModelStats"; "ModelVerification"; "Output"; "SupportVectorMachine"; "Targets"; "VectorDictionary"; "LinearKernelType"; "PolynomialKernelType"; "RadialBasisKernelType"; "SigmoidKernelType"]));
   ("SupportVectors", (["numberOfAttributes"; "numberOfSupportVectors"], ["Extension"; "SupportVector"]));
   ("TableLocator", ([], ["Extension"]));
   ("Tanimoto", ([], ["Extension"]));
   ("Target", (["castInteger"; "field"; "max"; "min"; "optype"; "rescaleConstant"; "rescaleFactor"], ["Extension"; "TargetValue"]));
   ("TargetValue", (["defaultValue"; "displayValue"; "priorProbability"; "value"], ["Extension"; "Partition"]));
   ("TargetValueCount", (["count"; "value"], ["Extension"]));
   ("TargetValueCounts", ([], ["Extension"; "TargetValueCount"]));
   ("TargetValueStat", (["value"], ["Extension"; "AnyDistribution"; "GaussianDistribution"; "PoissonDistribution"; "UniformDistribution"]));
   ("TargetValueStats", ([], ["Extension"; "TargetValueStat"]));
   ("Targets", ([], ["Extension"; "Target"]));
   ("Taxonomy", (["name"], ["ChildParent"; "Extension"]));
   ("TestDistributions", (["field"; "normalizationScheme"; "resetValue"; "testStatistic"; "weightField"; "windowSize"], ["Alternate"; "Baseline"; "Extension"]));
   ("TextCorpus", ([], ["Extension"; "TextDocument"]));
   ("TextDictionary", ([], ["Extension"; "Taxonomy"; "Array"]));
   ("TextDocument", (["file"; "id"; "length"; "name"], ["Extension"]));
   ("TextIndex", (["countHits"; "isCaseSensitive"; "localTermWeights"; "maxLevenshteinDistance"; "textField"; "tokenize"; "wordSeparatorCharacterRE"], ["Extension"; "TextIndexNormalization"; "Aggregate"; "Apply"; "Constant"; "Discretize"; "FieldRef"; "Lag"; "MapValues"; "NormContinuous"; "NormDiscrete"; "TextIndex"]));
   ("TextIndexNormalization", (["inField"; "isCaseSensitive"; "maxLevenshteinDistance"; "outField"; "recursive"; "regexField"; "tokenize"; "wordSeparatorCharacterRE"], ["InlineTable"; "TableLocator"; "Extension"]));
   ("TextModel", (["algorithmName"; "functionName"; "isScorable"; "modelName"; "numberOfDocuments"; "numberOfTerms"], ["DocumentTermMatrix"; "Extension"; "LocalTransformations"; "MiningSchema"; "ModelExplanation"; "ModelStats"; "ModelVerification"; "Output"; "Targets"; "TextCorpus"; "TextDictionary"; "TextModelNormalization"; "TextModelSimiliarity"]));
   ("TextModelNormalization", (["documentNormalization"; "globalTermWeights"; "localTermWeights"], ["Extension"]));
   ("TextModelSimiliarity", (["similarityType"], ["Extension"]));
   ("Time", (["max"; "mean"; "min"; "standardDeviation"], ["Extension"]));
   ("TimeAnchor", (["displayName"; "offset"; "stepsize"; "type"], ["TimeCycle"; "TimeException"]));
   ("TimeCycle", (["displayName"; "length"; "type"], ["Array"]));
   ("TimeException", (["count"; "type"], ["Array"]));
   ("TimeSeries", (["endTime"; "interpolationMethod"; "startTime"; "usage"], ["TimeAnchor"; "TimeValue"]));
   ("TimeSeriesModel", (["algorithmName"; "bestFit"; "functionName"; "isScorable"; "modelName"], ["ARIMA"; "ExponentialSmoothing"; "Extension"; "LocalTransformations"; "MiningSchema"; "ModelExplanation"; "ModelStats"; "ModelVerification"; "Output"; "SeasonalTrendDecomposition"; "SpectralAnalysis"; "TimeSeries"]));
   ("TimeValue", (["index"; "standardError"; "time"; "value"], ["Timestamp"]));
   ("Timestamp", ([], ["Extension"]));
   ("TrainingInstances", (["fieldCount"; "isTransformed"; "recordCount"], ["InlineTable"; "TableLocator"; "Extension"; "InstanceFields"]));
   ("TransformationDictionary", ([], ["DefineFunction"; "DerivedField"; "Extension"]));
   ("TreeModel", (["algorithmName"; "functionName"; "isScorable"; "missingValuePenalty"; "missingValueStrategy"; "modelName"; "noTrueChildStrategy"; "splitCharacteristic"], ["Extension"; "LocalTransformations"; "MiningSchema"; "ModelExplanation"; "ModelStats"; "ModelVerification"; "Node"; "Output"; "Targets"]));
   ("TrendExpoSmooth", (["gamma"; "phi"; "smoothedValue"; "trend"], []));
   ("TriangularDistributionForBN", ([], ["Extension"; "Lower"; "Mean"; "Upper"]));
   ("True", ([], ["Extension"]));
   ("UniformDistribution", (["lower"; "upper"], ["Extension"]));
   ("UniformDistributionForBN", ([], ["Extension"; "Lower"; "Upper"]));
   ("UnivariateStats", (["field"; "weighted"], ["Anova"; "ContStats"; "Counts"; "DiscrStats"; "Extension"; "NumericInfo"]));
   ("Upper", ([], ["Extension"; "Aggregate"; "Apply"; "Constant"; "Discretize"; "FieldRef"; "Lag"; "MapValues"; "NormContinuous"; "NormDiscrete"; "TextIndex"]));
   ("Value", (["displayValue"; "property"; "value"], ["Extension"]));
   ("ValueProbability", (["probability"; "value"], ["Extension"]));
   ("Variance", ([], ["Extension"; "Aggregate"; "Apply"; "Constant"; "Discretize"; "FieldRef"; "Lag"; "MapValues"; "NormContinuous"; "NormDiscrete"; "TextIndex"]));
   ("VectorDictionary", (["numberOfVectors"], ["Extension"; "VectorFields"; "VectorInstance"]));
   ("VectorFields", (["numberOfFields"], ["CategoricalPredictor"; "FieldRef"; "Extension"]));
   ("VectorInstance", (["id"], ["REAL-SparseArray"; "Extension"]));
   ("VerificationField", (["column"; "field"; "precision"; "zeroThreshold"], ["Extension"]));
   ("VerificationFields", ([], ["Extension"; "VerificationField"]));
   ("XCoordinates", ([], ["Extension"; "Array"]));
   ("YCoordinates", ([], ["Extension"; "Array"]))].
