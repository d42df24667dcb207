(** Written by tools/xml2coq.py: the documents of the repository's own tests. *)
From Verif Require Import Base Xml.

(** evaluation/testdata/tree/simple_1.0.xml *)
Definition tree_10 : xml :=
  Elem "PMML" [("xmlns", "http://www.dmg.org/PMML-4_4"); ("data", "http://jpmml.org/jpmml-model/InlineTable"); ("version", "4.4")] "" [
   Elem "Header" [] "" [
    Elem "Application" [("name", "JPMML-SkLearn"); ("version", "1.6.18")] "" []; 
    Elem "Timestamp" [] "" [Chars "2021-06-02T23:12:42Z"]]; 
   Elem "MiningBuildTask" [] "" [
    Elem "Extension" [] "" [Chars "PMMLPipeline(steps=[('classifier', RandomForestClassifier(max_depth=2, n_estimators=3))])"]]; 
   Elem "DataDictionary" [] "" [
    Elem "DataField" [("name", "label"); ("optype", "categorical"); ("dataType", "string")] "" [
     Elem "Value" [("value", "fraud")] "" []; 
     Elem "Value" [("value", "good")] "" []]; 
    Elem "DataField" [("name", "b"); ("optype", "continuous"); ("dataType", "float")] "" []; 
    Elem "DataField" [("name", "c"); ("optype", "continuous"); ("dataType", "float")] "" []]; 
   Elem "TransformationDictionary" [] "" []; 
   Elem "MiningModel" [("functionName", "classification"); ("algorithmName", "sklearn.ensemble._forest.RandomForestClassifier")] "" [
    Elem "MiningSchema" [] "" [
     Elem "MiningField" [("name", "label"); ("usageType", "target")] "" []; 
     Elem "MiningField" [("name", "b")] "" []; 
     Elem "MiningField" [("name", "c")] "" []]; 
    Elem "Output" [] "" [
     Elem "OutputField" [("name", "probability(fraud)"); ("optype", "continuous"); ("dataType", "double"); ("feature", "probability"); ("value", "fraud")] "" []; 
     Elem "OutputField" [("name", "probability(good)"); ("optype", "continuous"); ("dataType", "double"); ("feature", "probability"); ("value", "good")] "" []]; 
    Elem "LocalTransformations" [] "" [
     Elem "DerivedField" [("name", "double(b)"); ("optype", "continuous"); ("dataType", "double")] "" [
      Elem "FieldRef" [("field", "b")] "" []]; 
     Elem "DerivedField" [("name", "double(c)"); ("optype", "continuous"); ("dataType", "double")] "" [
      Elem "FieldRef" [("field", "c")] "" []]]; 
    Elem "Segmentation" [("multipleModelMethod", "average")] "" [
     Elem "Segment" [("id", "1")] "" [
      Elem "True" [] "" []; 
      Elem "TreeModel" [("functionName", "classification"); ("splitCharacteristic", "binarySplit")] "" [
       Elem "MiningSchema" [] "" [
        Elem "MiningField" [("name", "double(b)")] "" []; 
        Elem "MiningField" [("name", "double(c)")] "" []]; 
       Elem "Node" [("id", "0")] "" [
        Elem "True" [] "" []; 
        Elem "Node" [("id", "1")] "" [
         Elem "SimplePredicate" [("field", "double(b)"); ("operator", "lessOrEqual"); ("value", "0.949999988079071")] "" []; 
         Elem "Node" [("id", "2"); ("score", "fraud"); ("recordCount", "1")] "" [
          Elem "SimplePredicate" [("field", "double(c)"); ("operator", "lessOrEqual"); ("value", "0.05000000074505806")] "" []; 
          Elem "ScoreDistribution" [("value", "fraud"); ("recordCount", "1")] "" []; 
          Elem "ScoreDistribution" [("value", "good"); ("recordCount", "0")] "" []]; 
         Elem "Node" [("id", "3"); ("score", "good"); ("recordCount", "16")] "" [
          Elem "SimplePredicate" [("field", "double(c)"); ("operator", "greaterThan"); ("value", "0.05000000074505806")] "" []; 
          Elem "ScoreDistribution" [("value", "fraud"); ("recordCount", "1")] "" []; 
          Elem "ScoreDistribution" [("value", "good"); ("recordCount", "15")] "" []]]; 
        Elem "Node" [("id", "4"); ("score", "fraud"); ("recordCount", "3")] "" [
         Elem "SimplePredicate" [("field", "double(b)"); ("operator", "greaterThan"); ("value", "0.949999988079071")] "" []; 
         Elem "ScoreDistribution" [("value", "fraud"); ("recordCount", "3")] "" []; 
         Elem "ScoreDistribution" [("value", "good"); ("recordCount", "0")] "" []]]]]; 
     Elem "Segment" [("id", "2")] "" [
      Elem "True" [] "" []; 
      Elem "TreeModel" [("functionName", "classification"); ("splitCharacteristic", "binarySplit")] "" [
       Elem "MiningSchema" [] "" [
        Elem "MiningField" [("name", "double(b)")] "" []]; 
       Elem "Node" [("id", "0")] "" [
        Elem "True" [] "" []; 
        Elem "Node" [("id", "1")] "" [
         Elem "SimplePredicate" [("field", "double(b)"); ("operator", "lessOrEqual"); ("value", "0.949999988079071")] "" []; 
         Elem "Node" [("id", "2"); ("score", "good"); ("recordCount", "10")] "" [
          Elem "SimplePredicate" [("field", "double(b)"); ("operator", "lessOrEqual"); ("value", "0.550000011920929")] "" []; 
          Elem "ScoreDistribution" [("value", "fraud"); ("recordCount", "2")] "" []; 
          Elem "ScoreDistribution" [("value", "good"); ("recordCount", "8")] "" []]; 
         Elem "Node" [("id", "3"); ("score", "good"); ("recordCount", "8")] "" [
          Elem "SimplePredicate" [("field", "double(b)"); ("operator", "greaterThan"); ("value", "0.550000011920929")] "" []; 
          Elem "ScoreDistribution" [("value", "fraud"); ("recordCount", "0")] "" []; 
          Elem "ScoreDistribution" [("value", "good"); ("recordCount", "8")] "" []]]; 
        Elem "Node" [("id", "4"); ("score", "fraud"); ("recordCount", "2")] "" [
         Elem "SimplePredicate" [("field", "double(b)"); ("operator", "greaterThan"); ("value", "0.949999988079071")] "" []; 
         Elem "ScoreDistribution" [("value", "fraud"); ("recordCount", "2")] "" []; 
         Elem "ScoreDistribution" [("value", "good"); ("recordCount", "0")] "" []]]]]; 
     Elem "Segment" [("id", "3")] "" [
      Elem "True" [] "" []; 
      Elem "TreeModel" [("functionName", "classification"); ("splitCharacteristic", "binarySplit")] "" [
       Elem "MiningSchema" [] "" [
        Elem "MiningField" [("name", "double(b)")] "" []; 
        Elem "MiningField" [("name", "double(c)")] "" []]; 
       Elem "Node" [("id", "0")] "" [
        Elem "True" [] "" []; 
        Elem "Node" [("id", "1")] "" [
         Elem "SimplePredicate" [("field", "double(b)"); ("operator", "lessOrEqual"); ("value", "0.949999988079071")] "" []; 
         Elem "Node" [("id", "2"); ("score", "fraud"); ("recordCount", "3")] "" [
          Elem "SimplePredicate" [("field", "double(c)"); ("operator", "lessOrEqual"); ("value", "0.05000000074505806")] "" []; 
          Elem "ScoreDistribution" [("value", "fraud"); ("recordCount", "2")] "" []; 
          Elem "ScoreDistribution" [("value", "good"); ("recordCount", "1")] "" []]; 
         Elem "Node" [("id", "3"); ("score", "good"); ("recordCount", "16")] "" [
          Elem "SimplePredicate" [("field", "double(c)"); ("operator", "greaterThan"); ("value", "0.05000000074505806")] "" []; 
          Elem "ScoreDistribution" [("value", "fraud"); ("recordCount", "1")] "" []; 
          Elem "ScoreDistribution" [("value", "good"); ("recordCount", "15")] "" []]]; 
        Elem "Node" [("id", "4"); ("score", "fraud"); ("recordCount", "1")] "" [
         Elem "SimplePredicate" [("field", "double(b)"); ("operator", "greaterThan"); ("value", "0.949999988079071")] "" []; 
         Elem "ScoreDistribution" [("value", "fraud"); ("recordCount", "1")] "" []; 
         Elem "ScoreDistribution" [("value", "good"); ("recordCount", "0")] "" []]]]]]; 
    Elem "ModelVerification" [("recordCount", "15")] "" [
     Elem "VerificationFields" [] "" [
      Elem "VerificationField" [("field", "b"); ("column", "data:b")] "" []; 
      Elem "VerificationField" [("field", "c"); ("column", "data:c")] "" []; 
      Elem "VerificationField" [("field", "probability(fraud)"); ("column", "data:probability_fraud"); ("precision", "1.0E-13"); ("zeroThreshold", "1.0E-13")] "" []; 
      Elem "VerificationField" [("field", "probability(good)"); ("column", "data:probability_good"); ("precision", "1.0E-13"); ("zeroThreshold", "1.0E-13")] "" []]; 
     Elem "InlineTable" [] "" [
      Elem "row" [] "" [
       Elem "b" [] "" [Chars "0.3"]; 
       Elem "c" [] "" [Chars "0.3"]; 
       Elem "probability_fraud" [] "" [Chars "0.10833333333333334"]; 
       Elem "probability_good" [] "" [Chars "0.8916666666666666"]]; 
      Elem "row" [] "" [
       Elem "b" [] "" [Chars "0.7"]; 
       Elem "c" [] "" [Chars "0.4"]; 
       Elem "probability_fraud" [] "" [Chars "0.041666666666666664"]; 
       Elem "probability_good" [] "" [Chars "0.9583333333333334"]]; 
      Elem "row" [] "" [
       Elem "b" [] "" [Chars "0.9"]; 
       Elem "c" [] "" [Chars "0.8"]; 
       Elem "probability_fraud" [] "" [Chars "0.041666666666666664"]; 
       Elem "probability_good" [] "" [Chars "0.9583333333333334"]]; 
      Elem "row" [] "" [
       Elem "b" [] "" [Chars "0.5"]; 
       Elem "c" [] "" [Chars "0.4"]; 
       Elem "probability_fraud" [] "" [Chars "0.10833333333333334"]; 
       Elem "probability_good" [] "" [Chars "0.8916666666666666"]]; 
      Elem "row" [] "" [
       Elem "b" [] "" [Chars "0.8"]; 
       Elem "c" [] "" [Chars "0.6"]; 
       Elem "probability_fraud" [] "" [Chars "0.041666666666666664"]; 
       Elem "probability_good" [] "" [Chars "0.9583333333333334"]]; 
      Elem "row" [] "" [
       Elem "b" [] "" [Chars "0.5"]; 
       Elem "c" [] "" [Chars "0.3"]; 
       Elem "probability_fraud" [] "" [Chars "0.10833333333333334"]; 
       Elem "probability_good" [] "" [Chars "0.8916666666666666"]]; 
      Elem "row" [] "" [
       Elem "b" [] "" [Chars "0.6"]; 
       Elem "c" [] "" [Chars "0.1"]; 
       Elem "probability_fraud" [] "" [Chars "0.041666666666666664"]; 
       Elem "probability_good" [] "" [Chars "0.9583333333333334"]]; 
      Elem "row" [] "" [
       Elem "b" [] "" [Chars "0.0"]; 
       Elem "c" [] "" [Chars "0.6"]; 
       Elem "probability_fraud" [] "" [Chars "0.10833333333333334"]; 
       Elem "probability_good" [] "" [Chars "0.8916666666666666"]]; 
      Elem "row" [] "" [
       Elem "b" [] "" [Chars "0.4"]; 
       Elem "c" [] "" [Chars "0.2"]; 
       Elem "probability_fraud" [] "" [Chars "0.10833333333333334"]; 
       Elem "probability_good" [] "" [Chars "0.8916666666666666"]]; 
      Elem "row" [] "" [
       Elem "b" [] "" [Chars "0.6"]; 
       Elem "c" [] "" [Chars "0.7"]; 
       Elem "probability_fraud" [] "" [Chars "0.041666666666666664"]; 
       Elem "probability_good" [] "" [Chars "0.9583333333333334"]]; 
      Elem "row" [] "" [
       Elem "b" [] "" [Chars "0.8"]; 
       Elem "c" [] "" [Chars "0.0"]; 
       Elem "probability_fraud" [] "" [Chars "0.5555555555555555"]; 
       Elem "probability_good" [] "" [Chars "0.4444444444444444"]]; 
      Elem "row" [] "" [
       Elem "b" [] "" [Chars "0.2"]; 
       Elem "c" [] "" [Chars "0.5"]; 
       Elem "probability_fraud" [] "" [Chars "0.10833333333333334"]; 
       Elem "probability_good" [] "" [Chars "0.8916666666666666"]]; 
      Elem "row" [] "" [
       Elem "b" [] "" [Chars "0.8"]; 
       Elem "c" [] "" [Chars "0.4"]; 
       Elem "probability_fraud" [] "" [Chars "0.041666666666666664"]; 
       Elem "probability_good" [] "" [Chars "0.9583333333333334"]]; 
      Elem "row" [] "" [
       Elem "b" [] "" [Chars "0.7"]; 
       Elem "c" [] "" [Chars "0.4"]; 
       Elem "probability_fraud" [] "" [Chars "0.041666666666666664"]; 
       Elem "probability_good" [] "" [Chars "0.9583333333333334"]]; 
      Elem "row" [] "" [
       Elem "b" [] "" [Chars "0.7"]; 
       Elem "c" [] "" [Chars "1.0"]; 
       Elem "probability_fraud" [] "" [Chars "0.041666666666666664"]; 
       Elem "probability_good" [] "" [Chars "0.9583333333333334"]]]]]].

(** evaluation/testdata/tree/simple_1.1.xml *)
Definition tree_11 : xml :=
  Elem "PMML" [("xmlns", "http://www.dmg.org/PMML-4_4"); ("data", "http://jpmml.org/jpmml-model/InlineTable"); ("version", "4.4")] "" [
   Elem "Header" [] "" [
    Elem "Application" [("name", "JPMML-SkLearn"); ("version", "1.6.18")] "" []; 
    Elem "Timestamp" [] "" [Chars "2021-06-03T02:36:54Z"]]; 
   Elem "MiningBuildTask" [] "" [
    Elem "Extension" [] "" [Chars "PMMLPipeline(steps=[('classifier', RandomForestClassifier(max_depth=2, n_estimators=3))])"]]; 
   Elem "DataDictionary" [] "" [
    Elem "DataField" [("name", "label"); ("optype", "categorical"); ("dataType", "string")] "" [
     Elem "Value" [("value", "fraud")] "" []; 
     Elem "Value" [("value", "good")] "" []]; 
    Elem "DataField" [("name", "a"); ("optype", "continuous"); ("dataType", "float")] "" []; 
    Elem "DataField" [("name", "b"); ("optype", "continuous"); ("dataType", "float")] "" []; 
    Elem "DataField" [("name", "c"); ("optype", "continuous"); ("dataType", "float")] "" []]; 
   Elem "TransformationDictionary" [] "" []; 
   Elem "MiningModel" [("functionName", "classification"); ("algorithmName", "sklearn.ensemble._forest.RandomForestClassifier")] "" [
    Elem "MiningSchema" [] "" [
     Elem "MiningField" [("name", "label"); ("usageType", "target")] "" []; 
     Elem "MiningField" [("name", "b")] "" []; 
     Elem "MiningField" [("name", "c")] "" []; 
     Elem "MiningField" [("name", "a")] "" []]; 
    Elem "Output" [] "" [
     Elem "OutputField" [("name", "probability(fraud)"); ("optype", "continuous"); ("dataType", "double"); ("feature", "probability"); ("value", "fraud")] "" []; 
     Elem "OutputField" [("name", "probability(good)"); ("optype", "continuous"); ("dataType", "double"); ("feature", "probability"); ("value", "good")] "" []]; 
    Elem "LocalTransformations" [] "" [
     Elem "DerivedField" [("name", "double(c)"); ("optype", "continuous"); ("dataType", "double")] "" [
      Elem "FieldRef" [("field", "c")] "" []]; 
     Elem "DerivedField" [("name", "double(a)"); ("optype", "continuous"); ("dataType", "double")] "" [
      Elem "FieldRef" [("field", "a")] "" []]]; 
    Elem "Segmentation" [("multipleModelMethod", "average")] "" [
     Elem "Segment" [("id", "1")] "" [
      Elem "True" [] "" []; 
      Elem "TreeModel" [("functionName", "classification"); ("splitCharacteristic", "binarySplit")] "" [
       Elem "MiningSchema" [] "" [
        Elem "MiningField" [("name", "double(c)")] "" []; 
        Elem "MiningField" [("name", "double(a)")] "" []]; 
       Elem "Node" [("id", "0")] "" [
        Elem "True" [] "" []; 
        Elem "Node" [("id", "1")] "" [
         Elem "SimplePredicate" [("field", "double(c)"); ("operator", "lessOrEqual"); ("value", "0.949999988079071")] "" []; 
         Elem "Node" [("id", "2"); ("score", "fraud"); ("recordCount", "7")] "" [
          Elem "SimplePredicate" [("field", "double(a)"); ("operator", "lessOrEqual"); ("value", "0.5000000149011612")] "" []; 
          Elem "ScoreDistribution" [("value", "fraud"); ("recordCount", "6")] "" []; 
          Elem "ScoreDistribution" [("value", "good"); ("recordCount", "1")] "" []]; 
         Elem "Node" [("id", "3"); ("score", "good"); ("recordCount", "9")] "" [
          Elem "SimplePredicate" [("field", "double(a)"); ("operator", "greaterThan"); ("value", "0.5000000149011612")] "" []; 
          Elem "ScoreDistribution" [("value", "fraud"); ("recordCount", "3")] "" []; 
          Elem "ScoreDistribution" [("value", "good"); ("recordCount", "6")] "" []]]; 
        Elem "Node" [("id", "4"); ("score", "good"); ("recordCount", "4")] "" [
         Elem "SimplePredicate" [("field", "double(c)"); ("operator", "greaterThan"); ("value", "0.949999988079071")] "" []; 
         Elem "ScoreDistribution" [("value", "fraud"); ("recordCount", "0")] "" []; 
         Elem "ScoreDistribution" [("value", "good"); ("recordCount", "4")] "" []]]]]; 
     Elem "Segment" [("id", "2")] "" [
      Elem "True" [] "" []; 
      Elem "TreeModel" [("functionName", "classification"); ("splitCharacteristic", "binarySplit")] "" [
       Elem "MiningSchema" [] "" [
        Elem "MiningField" [("name", "double(c)")] "" []; 
        Elem "MiningField" [("name", "double(a)")] "" []]; 
       Elem "Node" [("id", "0")] "" [
        Elem "True" [] "" []; 
        Elem "Node" [("id", "1")] "" [
         Elem "SimplePredicate" [("field", "double(a)"); ("operator", "lessOrEqual"); ("value", "0.5499999970197678")] "" []; 
         Elem "Node" [("id", "2"); ("score", "fraud"); ("recordCount", "1")] "" [
          Elem "SimplePredicate" [("field", "double(a)"); ("operator", "lessOrEqual"); ("value", "0.30000000447034836")] "" []; 
          Elem "ScoreDistribution" [("value", "fraud"); ("recordCount", "1")] "" []; 
          Elem "ScoreDistribution" [("value", "good"); ("recordCount", "0")] "" []]; 
         Elem "Node" [("id", "3"); ("score", "fraud"); ("recordCount", "10")] "" [
          Elem "SimplePredicate" [("field", "double(a)"); ("operator", "greaterThan"); ("value", "0.30000000447034836")] "" []; 
          Elem "ScoreDistribution" [("value", "fraud"); ("recordCount", "6")] "" []; 
          Elem "ScoreDistribution" [("value", "good"); ("recordCount", "4")] "" []]]; 
        Elem "Node" [("id", "4")] "" [
         Elem "SimplePredicate" [("field", "double(a)"); ("operator", "greaterThan"); ("value", "0.5499999970197678")] "" []; 
         Elem "Node" [("id", "5"); ("score", "good"); ("recordCount", "8")] "" [
          Elem "SimplePredicate" [("field", "double(c)"); ("operator", "lessOrEqual"); ("value", "0.6500000059604645")] "" []; 
          Elem "ScoreDistribution" [("value", "fraud"); ("recordCount", "1")] "" []; 
          Elem "ScoreDistribution" [("value", "good"); ("recordCount", "7")] "" []]; 
         Elem "Node" [("id", "6"); ("score", "fraud"); ("recordCount", "1")] "" [
          Elem "SimplePredicate" [("field", "double(c)"); ("operator", "greaterThan"); ("value", "0.6500000059604645")] "" []; 
          Elem "ScoreDistribution" [("value", "fraud"); ("recordCount", "1")] "" []; 
          Elem "ScoreDistribution" [("value", "good"); ("recordCount", "0")] "" []]]]]]; 
     Elem "Segment" [("id", "3")] "" [
      Elem "True" [] "" []; 
      Elem "TreeModel" [("functionName", "classification"); ("splitCharacteristic", "binarySplit")] "" [
       Elem "MiningSchema" [] "" [
        Elem "MiningField" [("name", "b")] "" []; 
        Elem "MiningField" [("name", "double(a)")] "" []]; 
       Elem "LocalTransformations" [] "" [
        Elem "DerivedField" [("name", "double(b)"); ("optype", "continuous"); ("dataType", "double")] "" [
         Elem "FieldRef" [("field", "b")] "" []]]; 
       Elem "Node" [("id", "0")] "" [
        Elem "True" [] "" []; 
        Elem "Node" [("id", "1")] "" [
         Elem "SimplePredicate" [("field", "double(b)"); ("operator", "lessOrEqual"); ("value", "0.8499999940395355")] "" []; 
         Elem "Node" [("id", "2"); ("score", "good"); ("recordCount", "11")] "" [
          Elem "SimplePredicate" [("field", "double(a)"); ("operator", "lessOrEqual"); ("value", "0.8499999940395355")] "" []; 
          Elem "ScoreDistribution" [("value", "fraud"); ("recordCount", "2")] "" []; 
          Elem "ScoreDistribution" [("value", "good"); ("recordCount", "9")] "" []]; 
         Elem "Node" [("id", "3"); ("score", "fraud"); ("recordCount", "6")] "" [
          Elem "SimplePredicate" [("field", "double(a)"); ("operator", "greaterThan"); ("value", "0.8499999940395355")] "" []; 
          Elem "ScoreDistribution" [("value", "fraud"); ("recordCount", "4")] "" []; 
          Elem "ScoreDistribution" [("value", "good"); ("recordCount", "2")] "" []]]; 
        Elem "Node" [("id", "4"); ("score", "fraud"); ("recordCount", "3")] "" [
         Elem "SimplePredicate" [("field", "double(b)"); ("operator", "greaterThan"); ("value", "0.8499999940395355")] "" []; 
         Elem "ScoreDistribution" [("value", "fraud"); ("recordCount", "3")] "" []; 
         Elem "ScoreDistribution" [("value", "good"); ("recordCount", "0")] "" []]]]]]; 
    Elem "ModelVerification" [("recordCount", "15")] "" [
     Elem "VerificationFields" [] "" [
      Elem "VerificationField" [("field", "a"); ("column", "data:a")] "" []; 
      Elem "VerificationField" [("field", "b"); ("column", "data:b")] "" []; 
      Elem "VerificationField" [("field", "c"); ("column", "data:c")] "" []; 
      Elem "VerificationField" [("field", "probability(fraud)"); ("column", "data:probability_fraud"); ("precision", "1.0E-13"); ("zeroThreshold", "1.0E-13")] "" []; 
      Elem "VerificationField" [("field", "probability(good)"); ("column", "data:probability_good"); ("precision", "1.0E-13"); ("zeroThreshold", "1.0E-13")] "" []]; 
     Elem "InlineTable" [] "" [
      Elem "row" [] "" [
       Elem "a" [] "" [Chars "0.8"]; 
       Elem "b" [] "" [Chars "0.3"]; 
       Elem "c" [] "" [Chars "0.3"]; 
       Elem "probability_fraud" [] "" [Chars "0.21338383838383837"]; 
       Elem "probability_good" [] "" [Chars "0.7866161616161617"]]; 
      Elem "row" [] "" [
       Elem "a" [] "" [Chars "0.7"]; 
       Elem "b" [] "" [Chars "0.4"]; 
       Elem "c" [] "" [Chars "0.5"]; 
       Elem "probability_fraud" [] "" [Chars "0.21338383838383837"]; 
       Elem "probability_good" [] "" [Chars "0.7866161616161617"]]; 
      Elem "row" [] "" [
       Elem "a" [] "" [Chars "0.6"]; 
       Elem "b" [] "" [Chars "0.2"]; 
       Elem "c" [] "" [Chars "0.5"]; 
       Elem "probability_fraud" [] "" [Chars "0.21338383838383837"]; 
       Elem "probability_good" [] "" [Chars "0.7866161616161617"]]; 
      Elem "row" [] "" [
       Elem "a" [] "" [Chars "0.6"]; 
       Elem "b" [] "" [Chars "0.9"]; 
       Elem "c" [] "" [Chars "0.0"]; 
       Elem "probability_fraud" [] "" [Chars "0.4861111111111111"]; 
       Elem "probability_good" [] "" [Chars "0.5138888888888888"]]; 
      Elem "row" [] "" [
       Elem "a" [] "" [Chars "0.9"]; 
       Elem "b" [] "" [Chars "1.0"]; 
       Elem "c" [] "" [Chars "0.0"]; 
       Elem "probability_fraud" [] "" [Chars "0.4861111111111111"]; 
       Elem "probability_good" [] "" [Chars "0.5138888888888888"]]; 
      Elem "row" [] "" [
       Elem "a" [] "" [Chars "0.5"]; 
       Elem "b" [] "" [Chars "0.9"]; 
       Elem "c" [] "" [Chars "0.6"]; 
       Elem "probability_fraud" [] "" [Chars "0.8190476190476191"]; 
       Elem "probability_good" [] "" [Chars "0.18095238095238098"]]; 
      Elem "row" [] "" [
       Elem "a" [] "" [Chars "0.0"]; 
       Elem "b" [] "" [Chars "1.0"]; 
       Elem "c" [] "" [Chars "1.0"]; 
       Elem "probability_fraud" [] "" [Chars "0.6666666666666666"]; 
       Elem "probability_good" [] "" [Chars "0.3333333333333333"]]; 
      Elem "row" [] "" [
       Elem "a" [] "" [Chars "1.0"]; 
       Elem "b" [] "" [Chars "0.2"]; 
       Elem "c" [] "" [Chars "1.0"]; 
       Elem "probability_fraud" [] "" [Chars "0.5555555555555555"]; 
       Elem "probability_good" [] "" [Chars "0.4444444444444444"]]; 
      Elem "row" [] "" [
       Elem "a" [] "" [Chars "0.7"]; 
       Elem "b" [] "" [Chars "0.0"]; 
       Elem "c" [] "" [Chars "0.9"]; 
       Elem "probability_fraud" [] "" [Chars "0.5050505050505051"]; 
       Elem "probability_good" [] "" [Chars "0.494949494949495"]]; 
      Elem "row" [] "" [
       Elem "a" [] "" [Chars "0.4"]; 
       Elem "b" [] "" [Chars "0.6"]; 
       Elem "c" [] "" [Chars "0.9"]; 
       Elem "probability_fraud" [] "" [Chars "0.5463203463203463"]; 
       Elem "probability_good" [] "" [Chars "0.4536796536796537"]]; 
      Elem "row" [] "" [
       Elem "a" [] "" [Chars "0.0"]; 
       Elem "b" [] "" [Chars "0.5"]; 
       Elem "c" [] "" [Chars "0.4"]; 
       Elem "probability_fraud" [] "" [Chars "0.6796536796536796"]; 
       Elem "probability_good" [] "" [Chars "0.3203463203463204"]]; 
      Elem "row" [] "" [
       Elem "a" [] "" [Chars "0.5"]; 
       Elem "b" [] "" [Chars "0.5"]; 
       Elem "c" [] "" [Chars "0.2"]; 
       Elem "probability_fraud" [] "" [Chars "0.5463203463203463"]; 
       Elem "probability_good" [] "" [Chars "0.4536796536796537"]]; 
      Elem "row" [] "" [
       Elem "a" [] "" [Chars "0.7"]; 
       Elem "b" [] "" [Chars "0.6"]; 
       Elem "c" [] "" [Chars "0.8"]; 
       Elem "probability_fraud" [] "" [Chars "0.5050505050505051"]; 
       Elem "probability_good" [] "" [Chars "0.494949494949495"]]; 
      Elem "row" [] "" [
       Elem "a" [] "" [Chars "0.9"]; 
       Elem "b" [] "" [Chars "0.4"]; 
       Elem "c" [] "" [Chars "0.8"]; 
       Elem "probability_fraud" [] "" [Chars "0.6666666666666666"]; 
       Elem "probability_good" [] "" [Chars "0.3333333333333333"]]; 
      Elem "row" [] "" [
       Elem "a" [] "" [Chars "0.9"]; 
       Elem "b" [] "" [Chars "0.9"]; 
       Elem "c" [] "" [Chars "0.1"]; 
       Elem "probability_fraud" [] "" [Chars "0.4861111111111111"]; 
       Elem "probability_good" [] "" [Chars "0.5138888888888888"]]]]]].

(** evaluation/testdata/tree/simple_1.2.xml *)
Definition tree_12 : xml :=
  Elem "PMML" [("xmlns", "http://www.dmg.org/PMML-4_4"); ("data", "http://jpmml.org/jpmml-model/InlineTable"); ("version", "4.4")] "" [
   Elem "Header" [] "" [
    Elem "Application" [("name", "JPMML-SkLearn"); ("version", "1.6.18")] "" []; 
    Elem "Timestamp" [] "" [Chars "2021-06-03T02:37:06Z"]]; 
   Elem "MiningBuildTask" [] "" [
    Elem "Extension" [] "" [Chars "PMMLPipeline(steps=[('classifier', RandomForestClassifier(max_depth=2, n_estimators=3))])"]]; 
   Elem "DataDictionary" [] "" [
    Elem "DataField" [("name", "label"); ("optype", "categorical"); ("dataType", "string")] "" [
     Elem "Value" [("value", "fraud")] "" []; 
     Elem "Value" [("value", "good")] "" []]; 
    Elem "DataField" [("name", "a"); ("optype", "continuous"); ("dataType", "float")] "" []; 
    Elem "DataField" [("name", "b"); ("optype", "continuous"); ("dataType", "float")] "" []; 
    Elem "DataField" [("name", "c"); ("optype", "continuous"); ("dataType", "float")] "" []]; 
   Elem "TransformationDictionary" [] "" []; 
   Elem "MiningModel" [("functionName", "classification"); ("algorithmName", "sklearn.ensemble._forest.RandomForestClassifier")] "" [
    Elem "MiningSchema" [] "" [
     Elem "MiningField" [("name", "label"); ("usageType", "target")] "" []; 
     Elem "MiningField" [("name", "c")] "" []; 
     Elem "MiningField" [("name", "a")] "" []; 
     Elem "MiningField" [("name", "b")] "" []]; 
    Elem "Output" [] "" [
     Elem "OutputField" [("name", "probability(fraud)"); ("optype", "continuous"); ("dataType", "double"); ("feature", "probability"); ("value", "fraud")] "" []; 
     Elem "OutputField" [("name", "probability(good)"); ("optype", "continuous"); ("dataType", "double"); ("feature", "probability"); ("value", "good")] "" []]; 
    Elem "LocalTransformations" [] "" [
     Elem "DerivedField" [("name", "double(c)"); ("optype", "continuous"); ("dataType", "double")] "" [
      Elem "FieldRef" [("field", "c")] "" []]; 
     Elem "DerivedField" [("name", "double(a)"); ("optype", "continuous"); ("dataType", "double")] "" [
      Elem "FieldRef" [("field", "a")] "" []]; 
     Elem "DerivedField" [("name", "double(b)"); ("optype", "continuous"); ("dataType", "double")] "" [
      Elem "FieldRef" [("field", "b")] "" []]]; 
    Elem "Segmentation" [("multipleModelMethod", "average")] "" [
     Elem "Segment" [("id", "1")] "" [
      Elem "True" [] "" []; 
      Elem "TreeModel" [("functionName", "classification"); ("splitCharacteristic", "binarySplit")] "" [
       Elem "MiningSchema" [] "" [
        Elem "MiningField" [("name", "double(c)")] "" []; 
        Elem "MiningField" [("name", "double(a)")] "" []]; 
       Elem "Node" [("id", "0")] "" [
        Elem "True" [] "" []; 
        Elem "Node" [("id", "1")] "" [
         Elem "SimplePredicate" [("field", "double(c)"); ("operator", "lessOrEqual"); ("value", "0.9000000059604645")] "" []; 
         Elem "Node" [("id", "2"); ("score", "good"); ("recordCount", "5")] "" [
          Elem "SimplePredicate" [("field", "double(a)"); ("operator", "lessOrEqual"); ("value", "0.2500000037252903")] "" []; 
          Elem "ScoreDistribution" [("value", "fraud"); ("recordCount", "0")] "" []; 
          Elem "ScoreDistribution" [("value", "good"); ("recordCount", "5")] "" []]; 
         Elem "Node" [("id", "3"); ("score", "fraud"); ("recordCount", "10")] "" [
          Elem "SimplePredicate" [("field", "double(a)"); ("operator", "greaterThan"); ("value", "0.2500000037252903")] "" []; 
          Elem "ScoreDistribution" [("value", "fraud"); ("recordCount", "6")] "" []; 
          Elem "ScoreDistribution" [("value", "good"); ("recordCount", "4")] "" []]]; 
        Elem "Node" [("id", "4"); ("score", "good"); ("recordCount", "5")] "" [
         Elem "SimplePredicate" [("field", "double(c)"); ("operator", "greaterThan"); ("value", "0.9000000059604645")] "" []; 
         Elem "ScoreDistribution" [("value", "fraud"); ("recordCount", "0")] "" []; 
         Elem "ScoreDistribution" [("value", "good"); ("recordCount", "5")] "" []]]]]; 
     Elem "Segment" [("id", "2")] "" [
      Elem "True" [] "" []; 
      Elem "TreeModel" [("functionName", "classification"); ("splitCharacteristic", "binarySplit")] "" [
       Elem "MiningSchema" [] "" [
        Elem "MiningField" [("name", "double(a)")] "" []; 
        Elem "MiningField" [("name", "double(b)")] "" []]; 
       Elem "Node" [("id", "0")] "" [
        Elem "True" [] "" []; 
        Elem "Node" [("id", "1"); ("score", "good"); ("recordCount", "7")] "" [
         Elem "SimplePredicate" [("field", "double(a)"); ("operator", "lessOrEqual"); ("value", "0.30000000447034836")] "" []; 
         Elem "ScoreDistribution" [("value", "fraud"); ("recordCount", "0")] "" []; 
         Elem "ScoreDistribution" [("value", "good"); ("recordCount", "7")] "" []]; 
        Elem "Node" [("id", "2")] "" [
         Elem "SimplePredicate" [("field", "double(a)"); ("operator", "greaterThan"); ("value", "0.30000000447034836")] "" []; 
         Elem "Node" [("id", "3"); ("score", "good"); ("recordCount", "1")] "" [
          Elem "SimplePredicate" [("field", "double(b)"); ("operator", "lessOrEqual"); ("value", "0.05000000074505806")] "" []; 
          Elem "ScoreDistribution" [("value", "fraud"); ("recordCount", "0")] "" []; 
          Elem "ScoreDistribution" [("value", "good"); ("recordCount", "1")] "" []]; 
         Elem "Node" [("id", "4"); ("score", "fraud"); ("recordCount", "12")] "" [
          Elem "SimplePredicate" [("field", "double(b)"); ("operator", "greaterThan"); ("value", "0.05000000074505806")] "" []; 
          Elem "ScoreDistribution" [("value", "fraud"); ("recordCount", "8")] "" []; 
          Elem "ScoreDistribution" [("value", "good"); ("recordCount", "4")] "" []]]]]]; 
     Elem "Segment" [("id", "3")] "" [
      Elem "True" [] "" []; 
      Elem "TreeModel" [("functionName", "classification"); ("splitCharacteristic", "binarySplit")] "" [
       Elem "MiningSchema" [] "" [
        Elem "MiningField" [("name", "double(c)")] "" []; 
        Elem "MiningField" [("name", "double(a)")] "" []; 
        Elem "MiningField" [("name", "double(b)")] "" []]; 
       Elem "Node" [("id", "0")] "" [
        Elem "True" [] "" []; 
        Elem "Node" [("id", "1")] "" [
         Elem "SimplePredicate" [("field", "double(c)"); ("operator", "lessOrEqual"); ("value", "0.6500000059604645")] "" []; 
         Elem "Node" [("id", "2"); ("score", "good"); ("recordCount", "2")] "" [
          Elem "SimplePredicate" [("field", "double(a)"); ("operator", "lessOrEqual"); ("value", "0.2500000037252903")] "" []; 
          Elem "ScoreDistribution" [("value", "fraud"); ("recordCount", "0")] "" []; 
          Elem "ScoreDistribution" [("value", "good"); ("recordCount", "2")] "" []]; 
         Elem "Node" [("id", "3"); ("score", "fraud"); ("recordCount", "9")] "" [
          Elem "SimplePredicate" [("field", "double(a)"); ("operator", "greaterThan"); ("value", "0.2500000037252903")] "" []; 
          Elem "ScoreDistribution" [("value", "fraud"); ("recordCount", "7")] "" []; 
          Elem "ScoreDistribution" [("value", "good"); ("recordCount", "2")] "" []]]; 
        Elem "Node" [("id", "4")] "" [
         Elem "SimplePredicate" [("field", "double(c)"); ("operator", "greaterThan"); ("value", "0.6500000059604645")] "" []; 
         Elem "Node" [("id", "5"); ("score", "good"); ("recordCount", "5")] "" [
          Elem "SimplePredicate" [("field", "double(b)"); ("operator", "lessOrEqual"); ("value", "0.4000000059604645")] "" []; 
          Elem "ScoreDistribution" [("value", "fraud"); ("recordCount", "0")] "" []; 
          Elem "ScoreDistribution" [("value", "good"); ("recordCount", "5")] "" []]; 
         Elem "Node" [("id", "6"); ("score", "fraud"); ("recordCount", "4")] "" [
          Elem "SimplePredicate" [("field", "double(b)"); ("operator", "greaterThan"); ("value", "0.4000000059604645")] "" []; 
          Elem "ScoreDistribution" [("value", "fraud"); ("recordCount", "2")] "" []; 
          Elem "ScoreDistribution" [("value", "good"); ("recordCount", "2")] "" []]]]]]]; 
    Elem "ModelVerification" [("recordCount", "15")] "" [
     Elem "VerificationFields" [] "" [
      Elem "VerificationField" [("field", "a"); ("column", "data:a")] "" []; 
      Elem "VerificationField" [("field", "b"); ("column", "data:b")] "" []; 
      Elem "VerificationField" [("field", "c"); ("column", "data:c")] "" []; 
      Elem "VerificationField" [("field", "probability(fraud)"); ("column", "data:probability_fraud"); ("precision", "1.0E-13"); ("zeroThreshold", "1.0E-13")] "" []; 
      Elem "VerificationField" [("field", "probability(good)"); ("column", "data:probability_good"); ("precision", "1.0E-13"); ("zeroThreshold", "1.0E-13")] "" []]; 
     Elem "InlineTable" [] "" [
      Elem "row" [] "" [
       Elem "a" [] "" [Chars "1.0"]; 
       Elem "b" [] "" [Chars "0.4"]; 
       Elem "c" [] "" [Chars "0.0"]; 
       Elem "probability_fraud" [] "" [Chars "0.6814814814814815"]; 
       Elem "probability_good" [] "" [Chars "0.31851851851851853"]]; 
      Elem "row" [] "" [
       Elem "a" [] "" [Chars "0.8"]; 
       Elem "b" [] "" [Chars "0.8"]; 
       Elem "c" [] "" [Chars "0.4"]; 
       Elem "probability_fraud" [] "" [Chars "0.6814814814814815"]; 
       Elem "probability_good" [] "" [Chars "0.31851851851851853"]]; 
      Elem "row" [] "" [
       Elem "a" [] "" [Chars "0.3"]; 
       Elem "b" [] "" [Chars "0.0"]; 
       Elem "c" [] "" [Chars "0.3"]; 
       Elem "probability_fraud" [] "" [Chars "0.45925925925925926"]; 
       Elem "probability_good" [] "" [Chars "0.5407407407407407"]]; 
      Elem "row" [] "" [
       Elem "a" [] "" [Chars "0.6"]; 
       Elem "b" [] "" [Chars "0.3"]; 
       Elem "c" [] "" [Chars "0.4"]; 
       Elem "probability_fraud" [] "" [Chars "0.6814814814814815"]; 
       Elem "probability_good" [] "" [Chars "0.31851851851851853"]]; 
      Elem "row" [] "" [
       Elem "a" [] "" [Chars "0.6"]; 
       Elem "b" [] "" [Chars "0.3"]; 
       Elem "c" [] "" [Chars "0.8"]; 
       Elem "probability_fraud" [] "" [Chars "0.4222222222222222"]; 
       Elem "probability_good" [] "" [Chars "0.5777777777777778"]]; 
      Elem "row" [] "" [
       Elem "a" [] "" [Chars "0.4"]; 
       Elem "b" [] "" [Chars "0.1"]; 
       Elem "c" [] "" [Chars "0.3"]; 
       Elem "probability_fraud" [] "" [Chars "0.6814814814814815"]; 
       Elem "probability_good" [] "" [Chars "0.31851851851851853"]]; 
      Elem "row" [] "" [
       Elem "a" [] "" [Chars "0.1"]; 
       Elem "b" [] "" [Chars "1.0"]; 
       Elem "c" [] "" [Chars "0.9"]; 
       Elem "probability_fraud" [] "" [Chars "0.16666666666666666"]; 
       Elem "probability_good" [] "" [Chars "0.8333333333333334"]]; 
      Elem "row" [] "" [
       Elem "a" [] "" [Chars "0.6"]; 
       Elem "b" [] "" [Chars "0.1"]; 
       Elem "c" [] "" [Chars "0.9"]; 
       Elem "probability_fraud" [] "" [Chars "0.4222222222222222"]; 
       Elem "probability_good" [] "" [Chars "0.5777777777777778"]]; 
      Elem "row" [] "" [
       Elem "a" [] "" [Chars "0.9"]; 
       Elem "b" [] "" [Chars "1.0"]; 
       Elem "c" [] "" [Chars "0.3"]; 
       Elem "probability_fraud" [] "" [Chars "0.6814814814814815"]; 
       Elem "probability_good" [] "" [Chars "0.31851851851851853"]]; 
      Elem "row" [] "" [
       Elem "a" [] "" [Chars "0.4"]; 
       Elem "b" [] "" [Chars "0.3"]; 
       Elem "c" [] "" [Chars "0.7"]; 
       Elem "probability_fraud" [] "" [Chars "0.4222222222222222"]; 
       Elem "probability_good" [] "" [Chars "0.5777777777777778"]]; 
      Elem "row" [] "" [
       Elem "a" [] "" [Chars "0.5"]; 
       Elem "b" [] "" [Chars "0.2"]; 
       Elem "c" [] "" [Chars "0.5"]; 
       Elem "probability_fraud" [] "" [Chars "0.6814814814814815"]; 
       Elem "probability_good" [] "" [Chars "0.31851851851851853"]]; 
      Elem "row" [] "" [
       Elem "a" [] "" [Chars "0.2"]; 
       Elem "b" [] "" [Chars "0.9"]; 
       Elem "c" [] "" [Chars "0.5"]; 
       Elem "probability_fraud" [] "" [Chars "0.0"]; 
       Elem "probability_good" [] "" [Chars "1.0"]]; 
      Elem "row" [] "" [
       Elem "a" [] "" [Chars "1.0"]; 
       Elem "b" [] "" [Chars "0.6"]; 
       Elem "c" [] "" [Chars "0.3"]; 
       Elem "probability_fraud" [] "" [Chars "0.6814814814814815"]; 
       Elem "probability_good" [] "" [Chars "0.31851851851851853"]]; 
      Elem "row" [] "" [
       Elem "a" [] "" [Chars "0.4"]; 
       Elem "b" [] "" [Chars "0.3"]; 
       Elem "c" [] "" [Chars "0.2"]; 
       Elem "probability_fraud" [] "" [Chars "0.6814814814814815"]; 
       Elem "probability_good" [] "" [Chars "0.31851851851851853"]]; 
      Elem "row" [] "" [
       Elem "a" [] "" [Chars "0.0"]; 
       Elem "b" [] "" [Chars "0.1"]; 
       Elem "c" [] "" [Chars "0.2"]; 
       Elem "probability_fraud" [] "" [Chars "0.0"]; 
       Elem "probability_good" [] "" [Chars "1.0"]]]]]].

(** evaluation/testdata/tree/simple_1.3.xml *)
Definition tree_13 : xml :=
  Elem "PMML" [("xmlns", "http://www.dmg.org/PMML-4_4"); ("data", "http://jpmml.org/jpmml-model/InlineTable"); ("version", "4.4")] "" [
   Elem "Header" [] "" [
    Elem "Application" [("name", "JPMML-SkLearn"); ("version", "1.6.18")] "" []; 
    Elem "Timestamp" [] "" [Chars "2021-06-03T02:37:15Z"]]; 
   Elem "MiningBuildTask" [] "" [
    Elem "Extension" [] "" [Chars "PMMLPipeline(steps=[('classifier', RandomForestClassifier(max_depth=2, n_estimators=3))])"]]; 
   Elem "DataDictionary" [] "" [
    Elem "DataField" [("name", "label"); ("optype", "categorical"); ("dataType", "string")] "" [
     Elem "Value" [("value", "fraud")] "" []; 
     Elem "Value" [("value", "good")] "" []]; 
    Elem "DataField" [("name", "a"); ("optype", "continuous"); ("dataType", "float")] "" []; 
    Elem "DataField" [("name", "b"); ("optype", "continuous"); ("dataType", "float")] "" []; 
    Elem "DataField" [("name", "c"); ("optype", "continuous"); ("dataType", "float")] "" []]; 
   Elem "TransformationDictionary" [] "" []; 
   Elem "MiningModel" [("functionName", "classification"); ("algorithmName", "sklearn.ensemble._forest.RandomForestClassifier")] "" [
    Elem "MiningSchema" [] "" [
     Elem "MiningField" [("name", "label"); ("usageType", "target")] "" []; 
     Elem "MiningField" [("name", "c")] "" []; 
     Elem "MiningField" [("name", "a")] "" []; 
     Elem "MiningField" [("name", "b")] "" []]; 
    Elem "Output" [] "" [
     Elem "OutputField" [("name", "probability(fraud)"); ("optype", "continuous"); ("dataType", "double"); ("feature", "probability"); ("value", "fraud")] "" []; 
     Elem "OutputField" [("name", "probability(good)"); ("optype", "continuous"); ("dataType", "double"); ("feature", "probability"); ("value", "good")] "" []]; 
    Elem "LocalTransformations" [] "" [
     Elem "DerivedField" [("name", "double(a)"); ("optype", "continuous"); ("dataType", "double")] "" [
      Elem "FieldRef" [("field", "a")] "" []]; 
     Elem "DerivedField" [("name", "double(b)"); ("optype", "continuous"); ("dataType", "double")] "" [
      Elem "FieldRef" [("field", "b")] "" []]]; 
    Elem "Segmentation" [("multipleModelMethod", "average")] "" [
     Elem "Segment" [("id", "1")] "" [
      Elem "True" [] "" []; 
      Elem "TreeModel" [("functionName", "classification"); ("splitCharacteristic", "binarySplit")] "" [
       Elem "MiningSchema" [] "" [
        Elem "MiningField" [("name", "double(a)")] "" []; 
        Elem "MiningField" [("name", "double(b)")] "" []]; 
       Elem "Node" [("id", "0")] "" [
        Elem "True" [] "" []; 
        Elem "Node" [("id", "1"); ("score", "fraud"); ("recordCount", "1")] "" [
         Elem "SimplePredicate" [("field", "double(a)"); ("operator", "lessOrEqual"); ("value", "0.2500000037252903")] "" []; 
         Elem "ScoreDistribution" [("value", "fraud"); ("recordCount", "1")] "" []; 
         Elem "ScoreDistribution" [("value", "good"); ("recordCount", "0")] "" []]; 
        Elem "Node" [("id", "2")] "" [
         Elem "SimplePredicate" [("field", "double(a)"); ("operator", "greaterThan"); ("value", "0.2500000037252903")] "" []; 
         Elem "Node" [("id", "3"); ("score", "good"); ("recordCount", "2")] "" [
          Elem "SimplePredicate" [("field", "double(b)"); ("operator", "lessOrEqual"); ("value", "0.05000000074505806")] "" []; 
          Elem "ScoreDistribution" [("value", "fraud"); ("recordCount", "0")] "" []; 
          Elem "ScoreDistribution" [("value", "good"); ("recordCount", "2")] "" []]; 
         Elem "Node" [("id", "4"); ("score", "fraud"); ("recordCount", "17")] "" [
          Elem "SimplePredicate" [("field", "double(b)"); ("operator", "greaterThan"); ("value", "0.05000000074505806")] "" []; 
          Elem "ScoreDistribution" [("value", "fraud"); ("recordCount", "14")] "" []; 
          Elem "ScoreDistribution" [("value", "good"); ("recordCount", "3")] "" []]]]]]; 
     Elem "Segment" [("id", "2")] "" [
      Elem "True" [] "" []; 
      Elem "TreeModel" [("functionName", "classification"); ("splitCharacteristic", "binarySplit")] "" [
       Elem "MiningSchema" [] "" [
        Elem "MiningField" [("name", "double(a)")] "" []; 
        Elem "MiningField" [("name", "double(b)")] "" []]; 
       Elem "Node" [("id", "0")] "" [
        Elem "True" [] "" []; 
        Elem "Node" [("id", "1")] "" [
         Elem "SimplePredicate" [("field", "double(b)"); ("operator", "lessOrEqual"); ("value", "0.6500000059604645")] "" []; 
         Elem "Node" [("id", "2"); ("score", "fraud"); ("recordCount", "12")] "" [
          Elem "SimplePredicate" [("field", "double(a)"); ("operator", "lessOrEqual"); ("value", "0.8499999940395355")] "" []; 
          Elem "ScoreDistribution" [("value", "fraud"); ("recordCount", "6")] "" []; 
          Elem "ScoreDistribution" [("value", "good"); ("recordCount", "6")] "" []]; 
         Elem "Node" [("id", "3"); ("score", "fraud"); ("recordCount", "3")] "" [
          Elem "SimplePredicate" [("field", "double(a)"); ("operator", "greaterThan"); ("value", "0.8499999940395355")] "" []; 
          Elem "ScoreDistribution" [("value", "fraud"); ("recordCount", "3")] "" []; 
          Elem "ScoreDistribution" [("value", "good"); ("recordCount", "0")] "" []]]; 
        Elem "Node" [("id", "4"); ("score", "fraud"); ("recordCount", "5")] "" [
         Elem "SimplePredicate" [("field", "double(b)"); ("operator", "greaterThan"); ("value", "0.6500000059604645")] "" []; 
         Elem "ScoreDistribution" [("value", "fraud"); ("recordCount", "5")] "" []; 
         Elem "ScoreDistribution" [("value", "good"); ("recordCount", "0")] "" []]]]]; 
     Elem "Segment" [("id", "3")] "" [
      Elem "True" [] "" []; 
      Elem "TreeModel" [("functionName", "classification"); ("splitCharacteristic", "binarySplit")] "" [
       Elem "MiningSchema" [] "" [
        Elem "MiningField" [("name", "c")] "" []; 
        Elem "MiningField" [("name", "double(a)")] "" []; 
        Elem "MiningField" [("name", "double(b)")] "" []]; 
       Elem "LocalTransformations" [] "" [
        Elem "DerivedField" [("name", "double(c)"); ("optype", "continuous"); ("dataType", "double")] "" [
         Elem "FieldRef" [("field", "c")] "" []]]; 
       Elem "Node" [("id", "0")] "" [
        Elem "True" [] "" []; 
        Elem "Node" [("id", "1")] "" [
         Elem "SimplePredicate" [("field", "double(c)"); ("operator", "lessOrEqual"); ("value", "0.15000000223517418")] "" []; 
         Elem "Node" [("id", "2"); ("score", "good"); ("recordCount", "2")] "" [
          Elem "SimplePredicate" [("field", "double(a)"); ("operator", "lessOrEqual"); ("value", "0.5000000149011612")] "" []; 
          Elem "ScoreDistribution" [("value", "fraud"); ("recordCount", "0")] "" []; 
          Elem "ScoreDistribution" [("value", "good"); ("recordCount", "2")] "" []]; 
         Elem "Node" [("id", "3"); ("score", "good"); ("recordCount", "3")] "" [
          Elem "SimplePredicate" [("field", "double(a)"); ("operator", "greaterThan"); ("value", "0.5000000149011612")] "" []; 
          Elem "ScoreDistribution" [("value", "fraud"); ("recordCount", "1")] "" []; 
          Elem "ScoreDistribution" [("value", "good"); ("recordCount", "2")] "" []]]; 
        Elem "Node" [("id", "4")] "" [
         Elem "SimplePredicate" [("field", "double(c)"); ("operator", "greaterThan"); ("value", "0.15000000223517418")] "" []; 
         Elem "Node" [("id", "5"); ("score", "fraud"); ("recordCount", "9")] "" [
          Elem "SimplePredicate" [("field", "double(b)"); ("operator", "lessOrEqual"); ("value", "0.3500000089406967")] "" []; 
          Elem "ScoreDistribution" [("value", "fraud"); ("recordCount", "9")] "" []; 
          Elem "ScoreDistribution" [("value", "good"); ("recordCount", "0")] "" []]; 
         Elem "Node" [("id", "6"); ("score", "fraud"); ("recordCount", "6")] "" [
          Elem "SimplePredicate" [("field", "double(b)"); ("operator", "greaterThan"); ("value", "0.3500000089406967")] "" []; 
          Elem "ScoreDistribution" [("value", "fraud"); ("recordCount", "5")] "" []; 
          Elem "ScoreDistribution" [("value", "good"); ("recordCount", "1")] "" []]]]]]]; 
    Elem "ModelVerification" [("recordCount", "15")] "" [
     Elem "VerificationFields" [] "" [
      Elem "VerificationField" [("field", "a"); ("column", "data:a")] "" []; 
      Elem "VerificationField" [("field", "b"); ("column", "data:b")] "" []; 
      Elem "VerificationField" [("field", "c"); ("column", "data:c")] "" []; 
      Elem "VerificationField" [("field", "probability(fraud)"); ("column", "data:probability_fraud"); ("precision", "1.0E-13"); ("zeroThreshold", "1.0E-13")] "" []; 
      Elem "VerificationField" [("field", "probability(good)"); ("column", "data:probability_good"); ("precision", "1.0E-13"); ("zeroThreshold", "1.0E-13")] "" []]; 
     Elem "InlineTable" [] "" [
      Elem "row" [] "" [
       Elem "a" [] "" [Chars "0.3"]; 
       Elem "b" [] "" [Chars "0.8"]; 
       Elem "c" [] "" [Chars "0.7"]; 
       Elem "probability_fraud" [] "" [Chars "0.8856209150326797"]; 
       Elem "probability_good" [] "" [Chars "0.11437908496732026"]]; 
      Elem "row" [] "" [
       Elem "a" [] "" [Chars "0.5"]; 
       Elem "b" [] "" [Chars "0.1"]; 
       Elem "c" [] "" [Chars "0.3"]; 
       Elem "probability_fraud" [] "" [Chars "0.7745098039215685"]; 
       Elem "probability_good" [] "" [Chars "0.22549019607843138"]]; 
      Elem "row" [] "" [
       Elem "a" [] "" [Chars "0.9"]; 
       Elem "b" [] "" [Chars "0.4"]; 
       Elem "c" [] "" [Chars "0.2"]; 
       Elem "probability_fraud" [] "" [Chars "0.8856209150326797"]; 
       Elem "probability_good" [] "" [Chars "0.11437908496732026"]]; 
      Elem "row" [] "" [
       Elem "a" [] "" [Chars "0.9"]; 
       Elem "b" [] "" [Chars "0.4"]; 
       Elem "c" [] "" [Chars "0.4"]; 
       Elem "probability_fraud" [] "" [Chars "0.8856209150326797"]; 
       Elem "probability_good" [] "" [Chars "0.11437908496732026"]]; 
      Elem "row" [] "" [
       Elem "a" [] "" [Chars "0.4"]; 
       Elem "b" [] "" [Chars "0.4"]; 
       Elem "c" [] "" [Chars "0.4"]; 
       Elem "probability_fraud" [] "" [Chars "0.7189542483660131"]; 
       Elem "probability_good" [] "" [Chars "0.28104575163398693"]]; 
      Elem "row" [] "" [
       Elem "a" [] "" [Chars "0.1"]; 
       Elem "b" [] "" [Chars "0.2"]; 
       Elem "c" [] "" [Chars "0.5"]; 
       Elem "probability_fraud" [] "" [Chars "0.8333333333333334"]; 
       Elem "probability_good" [] "" [Chars "0.16666666666666666"]]; 
      Elem "row" [] "" [
       Elem "a" [] "" [Chars "0.7"]; 
       Elem "b" [] "" [Chars "0.3"]; 
       Elem "c" [] "" [Chars "0.8"]; 
       Elem "probability_fraud" [] "" [Chars "0.7745098039215685"]; 
       Elem "probability_good" [] "" [Chars "0.22549019607843138"]]; 
      Elem "row" [] "" [
       Elem "a" [] "" [Chars "0.5"]; 
       Elem "b" [] "" [Chars "0.0"]; 
       Elem "c" [] "" [Chars "0.8"]; 
       Elem "probability_fraud" [] "" [Chars "0.5"]; 
       Elem "probability_good" [] "" [Chars "0.5"]]; 
      Elem "row" [] "" [
       Elem "a" [] "" [Chars "0.6"]; 
       Elem "b" [] "" [Chars "0.2"]; 
       Elem "c" [] "" [Chars "0.8"]; 
       Elem "probability_fraud" [] "" [Chars "0.7745098039215685"]; 
       Elem "probability_good" [] "" [Chars "0.22549019607843138"]]; 
      Elem "row" [] "" [
       Elem "a" [] "" [Chars "0.4"]; 
       Elem "b" [] "" [Chars "0.9"]; 
       Elem "c" [] "" [Chars "0.6"]; 
       Elem "probability_fraud" [] "" [Chars "0.8856209150326797"]; 
       Elem "probability_good" [] "" [Chars "0.11437908496732026"]]; 
      Elem "row" [] "" [
       Elem "a" [] "" [Chars "0.4"]; 
       Elem "b" [] "" [Chars "0.8"]; 
       Elem "c" [] "" [Chars "0.8"]; 
       Elem "probability_fraud" [] "" [Chars "0.8856209150326797"]; 
       Elem "probability_good" [] "" [Chars "0.11437908496732026"]]; 
      Elem "row" [] "" [
       Elem "a" [] "" [Chars "0.1"]; 
       Elem "b" [] "" [Chars "0.6"]; 
       Elem "c" [] "" [Chars "0.7"]; 
       Elem "probability_fraud" [] "" [Chars "0.7777777777777778"]; 
       Elem "probability_good" [] "" [Chars "0.2222222222222222"]]; 
      Elem "row" [] "" [
       Elem "a" [] "" [Chars "0.9"]; 
       Elem "b" [] "" [Chars "0.2"]; 
       Elem "c" [] "" [Chars "0.9"]; 
       Elem "probability_fraud" [] "" [Chars "0.9411764705882352"]; 
       Elem "probability_good" [] "" [Chars "0.05882352941176471"]]; 
      Elem "row" [] "" [
       Elem "a" [] "" [Chars "0.4"]; 
       Elem "b" [] "" [Chars "0.5"]; 
       Elem "c" [] "" [Chars "0.7"]; 
       Elem "probability_fraud" [] "" [Chars "0.7189542483660131"]; 
       Elem "probability_good" [] "" [Chars "0.28104575163398693"]]; 
      Elem "row" [] "" [
       Elem "a" [] "" [Chars "0.7"]; 
       Elem "b" [] "" [Chars "0.7"]; 
       Elem "c" [] "" [Chars "0.9"]; 
       Elem "probability_fraud" [] "" [Chars "0.8856209150326797"]; 
       Elem "probability_good" [] "" [Chars "0.11437908496732026"]]]]]].

(** evaluation/testdata/tree/simple_1.4.xml *)
Definition tree_14 : xml :=
  Elem "PMML" [("xmlns", "http://www.dmg.org/PMML-4_4"); ("data", "http://jpmml.org/jpmml-model/InlineTable"); ("version", "4.4")] "" [
   Elem "Header" [] "" [
    Elem "Application" [("name", "JPMML-SkLearn"); ("version", "1.6.18")] "" []; 
    Elem "Timestamp" [] "" [Chars "2021-06-03T02:37:21Z"]]; 
   Elem "MiningBuildTask" [] "" [
    Elem "Extension" [] "" [Chars "PMMLPipeline(steps=[('classifier', RandomForestClassifier(max_depth=2, n_estimators=3))])"]]; 
   Elem "DataDictionary" [] "" [
    Elem "DataField" [("name", "label"); ("optype", "categorical"); ("dataType", "string")] "" [
     Elem "Value" [("value", "fraud")] "" []; 
     Elem "Value" [("value", "good")] "" []]; 
    Elem "DataField" [("name", "a"); ("optype", "continuous"); ("dataType", "float")] "" []; 
    Elem "DataField" [("name", "b"); ("optype", "continuous"); ("dataType", "float")] "" []; 
    Elem "DataField" [("name", "c"); ("optype", "continuous"); ("dataType", "float")] "" []]; 
   Elem "TransformationDictionary" [] "" []; 
   Elem "MiningModel" [("functionName", "classification"); ("algorithmName", "sklearn.ensemble._forest.RandomForestClassifier")] "" [
    Elem "MiningSchema" [] "" [
     Elem "MiningField" [("name", "label"); ("usageType", "target")] "" []; 
     Elem "MiningField" [("name", "a")] "" []; 
     Elem "MiningField" [("name", "b")] "" []; 
     Elem "MiningField" [("name", "c")] "" []]; 
    Elem "Output" [] "" [
     Elem "OutputField" [("name", "probability(fraud)"); ("optype", "continuous"); ("dataType", "double"); ("feature", "probability"); ("value", "fraud")] "" []; 
     Elem "OutputField" [("name", "probability(good)"); ("optype", "continuous"); ("dataType", "double"); ("feature", "probability"); ("value", "good")] "" []]; 
    Elem "Segmentation" [("multipleModelMethod", "average")] "" [
     Elem "Segment" [("id", "1")] "" [
      Elem "True" [] "" []; 
      Elem "TreeModel" [("functionName", "classification"); ("splitCharacteristic", "binarySplit")] "" [
       Elem "MiningSchema" [] "" [
        Elem "MiningField" [("name", "b")] "" []]; 
       Elem "LocalTransformations" [] "" [
        Elem "DerivedField" [("name", "double(b)"); ("optype", "continuous"); ("dataType", "double")] "" [
         Elem "FieldRef" [("field", "b")] "" []]]; 
       Elem "Node" [("id", "0")] "" [
        Elem "True" [] "" []; 
        Elem "Node" [("id", "1")] "" [
         Elem "SimplePredicate" [("field", "double(b)"); ("operator", "lessOrEqual"); ("value", "0.8499999940395355")] "" []; 
         Elem "Node" [("id", "2"); ("score", "good"); ("recordCount", "11")] "" [
          Elem "SimplePredicate" [("field", "double(b)"); ("operator", "lessOrEqual"); ("value", "0.75")] "" []; 
          Elem "ScoreDistribution" [("value", "fraud"); ("recordCount", "5")] "" []; 
          Elem "ScoreDistribution" [("value", "good"); ("recordCount", "6")] "" []]; 
         Elem "Node" [("id", "3"); ("score", "fraud"); ("recordCount", "5")] "" [
          Elem "SimplePredicate" [("field", "double(b)"); ("operator", "greaterThan"); ("value", "0.75")] "" []; 
          Elem "ScoreDistribution" [("value", "fraud"); ("recordCount", "5")] "" []; 
          Elem "ScoreDistribution" [("value", "good"); ("recordCount", "0")] "" []]]; 
        Elem "Node" [("id", "4"); ("score", "good"); ("recordCount", "4")] "" [
         Elem "SimplePredicate" [("field", "double(b)"); ("operator", "greaterThan"); ("value", "0.8499999940395355")] "" []; 
         Elem "ScoreDistribution" [("value", "fraud"); ("recordCount", "0")] "" []; 
         Elem "ScoreDistribution" [("value", "good"); ("recordCount", "4")] "" []]]]]; 
     Elem "Segment" [("id", "2")] "" [
      Elem "True" [] "" []; 
      Elem "TreeModel" [("functionName", "classification"); ("splitCharacteristic", "binarySplit")] "" [
       Elem "MiningSchema" [] "" [
        Elem "MiningField" [("name", "a")] "" []]; 
       Elem "LocalTransformations" [] "" [
        Elem "DerivedField" [("name", "double(a)"); ("optype", "continuous"); ("dataType", "double")] "" [
         Elem "FieldRef" [("field", "a")] "" []]]; 
       Elem "Node" [("id", "0")] "" [
        Elem "True" [] "" []; 
        Elem "Node" [("id", "1"); ("score", "good"); ("recordCount", "4")] "" [
         Elem "SimplePredicate" [("field", "double(a)"); ("operator", "lessOrEqual"); ("value", "0.15000000223517418")] "" []; 
         Elem "ScoreDistribution" [("value", "fraud"); ("recordCount", "0")] "" []; 
         Elem "ScoreDistribution" [("value", "good"); ("recordCount", "4")] "" []]; 
        Elem "Node" [("id", "2")] "" [
         Elem "SimplePredicate" [("field", "double(a)"); ("operator", "greaterThan"); ("value", "0.15000000223517418")] "" []; 
         Elem "Node" [("id", "3"); ("score", "fraud"); ("recordCount", "4")] "" [
          Elem "SimplePredicate" [("field", "double(a)"); ("operator", "lessOrEqual"); ("value", "0.2500000074505806")] "" []; 
          Elem "ScoreDistribution" [("value", "fraud"); ("recordCount", "4")] "" []; 
          Elem "ScoreDistribution" [("value", "good"); ("recordCount", "0")] "" []]; 
         Elem "Node" [("id", "4"); ("score", "fraud"); ("recordCount", "12")] "" [
          Elem "SimplePredicate" [("field", "double(a)"); ("operator", "greaterThan"); ("value", "0.2500000074505806")] "" []; 
          Elem "ScoreDistribution" [("value", "fraud"); ("recordCount", "8")] "" []; 
          Elem "ScoreDistribution" [("value", "good"); ("recordCount", "4")] "" []]]]]]; 
     Elem "Segment" [("id", "3")] "" [
      Elem "True" [] "" []; 
      Elem "TreeModel" [("functionName", "classification"); ("splitCharacteristic", "binarySplit")] "" [
       Elem "MiningSchema" [] "" [
        Elem "MiningField" [("name", "c")] "" []]; 
       Elem "LocalTransformations" [] "" [
        Elem "DerivedField" [("name", "double(c)"); ("optype", "continuous"); ("dataType", "double")] "" [
         Elem "FieldRef" [("field", "c")] "" []]]; 
       Elem "Node" [("id", "0")] "" [
        Elem "True" [] "" []; 
        Elem "Node" [("id", "1"); ("score", "good"); ("recordCount", "3")] "" [
         Elem "SimplePredicate" [("field", "double(c)"); ("operator", "lessOrEqual"); ("value", "0.15000000223517418")] "" []; 
         Elem "ScoreDistribution" [("value", "fraud"); ("recordCount", "0")] "" []; 
         Elem "ScoreDistribution" [("value", "good"); ("recordCount", "3")] "" []]; 
        Elem "Node" [("id", "2")] "" [
         Elem "SimplePredicate" [("field", "double(c)"); ("operator", "greaterThan"); ("value", "0.15000000223517418")] "" []; 
         Elem "Node" [("id", "3"); ("score", "fraud"); ("recordCount", "14")] "" [
          Elem "SimplePredicate" [("field", "double(c)"); ("operator", "lessOrEqual"); ("value", "0.75")] "" []; 
          Elem "ScoreDistribution" [("value", "fraud"); ("recordCount", "10")] "" []; 
          Elem "ScoreDistribution" [("value", "good"); ("recordCount", "4")] "" []]; 
         Elem "Node" [("id", "4"); ("score", "good"); ("recordCount", "3")] "" [
          Elem "SimplePredicate" [("field", "double(c)"); ("operator", "greaterThan"); ("value", "0.75")] "" []; 
          Elem "ScoreDistribution" [("value", "fraud"); ("recordCount", "0")] "" []; 
          Elem "ScoreDistribution" [("value", "good"); ("recordCount", "3")] "" []]]]]]]; 
    Elem "ModelVerification" [("recordCount", "15")] "" [
     Elem "VerificationFields" [] "" [
      Elem "VerificationField" [("field", "a"); ("column", "data:a")] "" []; 
      Elem "VerificationField" [("field", "b"); ("column", "data:b")] "" []; 
      Elem "VerificationField" [("field", "c"); ("column", "data:c")] "" []; 
      Elem "VerificationField" [("field", "probability(fraud)"); ("column", "data:probability_fraud"); ("precision", "1.0E-13"); ("zeroThreshold", "1.0E-13")] "" []; 
      Elem "VerificationField" [("field", "probability(good)"); ("column", "data:probability_good"); ("precision", "1.0E-13"); ("zeroThreshold", "1.0E-13")] "" []]; 
     Elem "InlineTable" [] "" [
      Elem "row" [] "" [
       Elem "a" [] "" [Chars "0.3"]; 
       Elem "b" [] "" [Chars "0.2"]; 
       Elem "c" [] "" [Chars "0.0"]; 
       Elem "probability_fraud" [] "" [Chars "0.3737373737373737"]; 
       Elem "probability_good" [] "" [Chars "0.6262626262626262"]]; 
      Elem "row" [] "" [
       Elem "a" [] "" [Chars "0.1"]; 
       Elem "b" [] "" [Chars "0.4"]; 
       Elem "c" [] "" [Chars "1.0"]; 
       Elem "probability_fraud" [] "" [Chars "0.15151515151515152"]; 
       Elem "probability_good" [] "" [Chars "0.8484848484848485"]]; 
      Elem "row" [] "" [
       Elem "a" [] "" [Chars "0.8"]; 
       Elem "b" [] "" [Chars "0.7"]; 
       Elem "c" [] "" [Chars "1.0"]; 
       Elem "probability_fraud" [] "" [Chars "0.3737373737373737"]; 
       Elem "probability_good" [] "" [Chars "0.6262626262626262"]]; 
      Elem "row" [] "" [
       Elem "a" [] "" [Chars "0.4"]; 
       Elem "b" [] "" [Chars "0.9"]; 
       Elem "c" [] "" [Chars "0.2"]; 
       Elem "probability_fraud" [] "" [Chars "0.4603174603174603"]; 
       Elem "probability_good" [] "" [Chars "0.5396825396825397"]]; 
      Elem "row" [] "" [
       Elem "a" [] "" [Chars "0.4"]; 
       Elem "b" [] "" [Chars "1.0"]; 
       Elem "c" [] "" [Chars "0.4"]; 
       Elem "probability_fraud" [] "" [Chars "0.4603174603174603"]; 
       Elem "probability_good" [] "" [Chars "0.5396825396825397"]]; 
      Elem "row" [] "" [
       Elem "a" [] "" [Chars "0.5"]; 
       Elem "b" [] "" [Chars "1.0"]; 
       Elem "c" [] "" [Chars "1.0"]; 
       Elem "probability_fraud" [] "" [Chars "0.2222222222222222"]; 
       Elem "probability_good" [] "" [Chars "0.7777777777777777"]]; 
      Elem "row" [] "" [
       Elem "a" [] "" [Chars "0.9"]; 
       Elem "b" [] "" [Chars "0.7"]; 
       Elem "c" [] "" [Chars "0.1"]; 
       Elem "probability_fraud" [] "" [Chars "0.3737373737373737"]; 
       Elem "probability_good" [] "" [Chars "0.6262626262626262"]]; 
      Elem "row" [] "" [
       Elem "a" [] "" [Chars "1.0"]; 
       Elem "b" [] "" [Chars "0.6"]; 
       Elem "c" [] "" [Chars "0.5"]; 
       Elem "probability_fraud" [] "" [Chars "0.6118326118326118"]; 
       Elem "probability_good" [] "" [Chars "0.38816738816738816"]]; 
      Elem "row" [] "" [
       Elem "a" [] "" [Chars "0.3"]; 
       Elem "b" [] "" [Chars "0.2"]; 
       Elem "c" [] "" [Chars "0.4"]; 
       Elem "probability_fraud" [] "" [Chars "0.6118326118326118"]; 
       Elem "probability_good" [] "" [Chars "0.38816738816738816"]]; 
      Elem "row" [] "" [
       Elem "a" [] "" [Chars "0.6"]; 
       Elem "b" [] "" [Chars "0.8"]; 
       Elem "c" [] "" [Chars "0.6"]; 
       Elem "probability_fraud" [] "" [Chars "0.7936507936507936"]; 
       Elem "probability_good" [] "" [Chars "0.20634920634920637"]]; 
      Elem "row" [] "" [
       Elem "a" [] "" [Chars "0.1"]; 
       Elem "b" [] "" [Chars "0.1"]; 
       Elem "c" [] "" [Chars "0.6"]; 
       Elem "probability_fraud" [] "" [Chars "0.3896103896103896"]; 
       Elem "probability_good" [] "" [Chars "0.6103896103896104"]]; 
      Elem "row" [] "" [
       Elem "a" [] "" [Chars "0.5"]; 
       Elem "b" [] "" [Chars "0.1"]; 
       Elem "c" [] "" [Chars "0.9"]; 
       Elem "probability_fraud" [] "" [Chars "0.3737373737373737"]; 
       Elem "probability_good" [] "" [Chars "0.6262626262626262"]]; 
      Elem "row" [] "" [
       Elem "a" [] "" [Chars "0.8"]; 
       Elem "b" [] "" [Chars "0.7"]; 
       Elem "c" [] "" [Chars "1.0"]; 
       Elem "probability_fraud" [] "" [Chars "0.3737373737373737"]; 
       Elem "probability_good" [] "" [Chars "0.6262626262626262"]]; 
      Elem "row" [] "" [
       Elem "a" [] "" [Chars "0.3"]; 
       Elem "b" [] "" [Chars "1.0"]; 
       Elem "c" [] "" [Chars "0.6"]; 
       Elem "probability_fraud" [] "" [Chars "0.4603174603174603"]; 
       Elem "probability_good" [] "" [Chars "0.5396825396825397"]]; 
      Elem "row" [] "" [
       Elem "a" [] "" [Chars "0.5"]; 
       Elem "b" [] "" [Chars "0.0"]; 
       Elem "c" [] "" [Chars "0.3"]; 
       Elem "probability_fraud" [] "" [Chars "0.6118326118326118"]; 
       Elem "probability_good" [] "" [Chars "0.38816738816738816"]]]]]].

(** evaluation/testdata/tree/simple_1.5.xml *)
Definition tree_15 : xml :=
  Elem "PMML" [("xmlns", "http://www.dmg.org/PMML-4_4"); ("data", "http://jpmml.org/jpmml-model/InlineTable"); ("version", "4.4")] "" [
   Elem "Header" [] "" [
    Elem "Application" [("name", "JPMML-SkLearn"); ("version", "1.6.18")] "" []; 
    Elem "Timestamp" [] "" [Chars "2021-06-03T02:37:26Z"]]; 
   Elem "MiningBuildTask" [] "" [
    Elem "Extension" [] "" [Chars "PMMLPipeline(steps=[('classifier', RandomForestClassifier(max_depth=2, n_estimators=3))])"]]; 
   Elem "DataDictionary" [] "" [
    Elem "DataField" [("name", "label"); ("optype", "categorical"); ("dataType", "string")] "" [
     Elem "Value" [("value", "fraud")] "" []; 
     Elem "Value" [("value", "good")] "" []]; 
    Elem "DataField" [("name", "a"); ("optype", "continuous"); ("dataType", "float")] "" []; 
    Elem "DataField" [("name", "b"); ("optype", "continuous"); ("dataType", "float")] "" []; 
    Elem "DataField" [("name", "c"); ("optype", "continuous"); ("dataType", "float")] "" []]; 
   Elem "TransformationDictionary" [] "" []; 
   Elem "MiningModel" [("functionName", "classification"); ("algorithmName", "sklearn.ensemble._forest.RandomForestClassifier")] "" [
    Elem "MiningSchema" [] "" [
     Elem "MiningField" [("name", "label"); ("usageType", "target")] "" []; 
     Elem "MiningField" [("name", "c")] "" []; 
     Elem "MiningField" [("name", "b")] "" []; 
     Elem "MiningField" [("name", "a")] "" []]; 
    Elem "Output" [] "" [
     Elem "OutputField" [("name", "probability(fraud)"); ("optype", "continuous"); ("dataType", "double"); ("feature", "probability"); ("value", "fraud")] "" []; 
     Elem "OutputField" [("name", "probability(good)"); ("optype", "continuous"); ("dataType", "double"); ("feature", "probability"); ("value", "good")] "" []]; 
    Elem "LocalTransformations" [] "" [
     Elem "DerivedField" [("name", "double(c)"); ("optype", "continuous"); ("dataType", "double")] "" [
      Elem "FieldRef" [("field", "c")] "" []]; 
     Elem "DerivedField" [("name", "double(b)"); ("optype", "continuous"); ("dataType", "double")] "" [
      Elem "FieldRef" [("field", "b")] "" []]; 
     Elem "DerivedField" [("name", "double(a)"); ("optype", "continuous"); ("dataType", "double")] "" [
      Elem "FieldRef" [("field", "a")] "" []]]; 
    Elem "Segmentation" [("multipleModelMethod", "average")] "" [
     Elem "Segment" [("id", "1")] "" [
      Elem "True" [] "" []; 
      Elem "TreeModel" [("functionName", "classification"); ("splitCharacteristic", "binarySplit")] "" [
       Elem "MiningSchema" [] "" [
        Elem "MiningField" [("name", "double(c)")] "" []; 
        Elem "MiningField" [("name", "double(b)")] "" []; 
        Elem "MiningField" [("name", "double(a)")] "" []]; 
       Elem "Node" [("id", "0")] "" [
        Elem "True" [] "" []; 
        Elem "Node" [("id", "1")] "" [
         Elem "SimplePredicate" [("field", "double(c)"); ("operator", "lessOrEqual"); ("value", "0.3500000089406967")] "" []; 
         Elem "Node" [("id", "2"); ("score", "fraud"); ("recordCount", "3")] "" [
          Elem "SimplePredicate" [("field", "double(b)"); ("operator", "lessOrEqual"); ("value", "0.30000000447034836")] "" []; 
          Elem "ScoreDistribution" [("value", "fraud"); ("recordCount", "2")] "" []; 
          Elem "ScoreDistribution" [("value", "good"); ("recordCount", "1")] "" []]; 
         Elem "Node" [("id", "3"); ("score", "fraud"); ("recordCount", "3")] "" [
          Elem "SimplePredicate" [("field", "double(b)"); ("operator", "greaterThan"); ("value", "0.30000000447034836")] "" []; 
          Elem "ScoreDistribution" [("value", "fraud"); ("recordCount", "3")] "" []; 
          Elem "ScoreDistribution" [("value", "good"); ("recordCount", "0")] "" []]]; 
        Elem "Node" [("id", "4")] "" [
         Elem "SimplePredicate" [("field", "double(c)"); ("operator", "greaterThan"); ("value", "0.3500000089406967")] "" []; 
         Elem "Node" [("id", "5"); ("score", "fraud"); ("recordCount", "1")] "" [
          Elem "SimplePredicate" [("field", "double(a)"); ("operator", "lessOrEqual"); ("value", "0.15000000223517418")] "" []; 
          Elem "ScoreDistribution" [("value", "fraud"); ("recordCount", "1")] "" []; 
          Elem "ScoreDistribution" [("value", "good"); ("recordCount", "0")] "" []]; 
         Elem "Node" [("id", "6"); ("score", "good"); ("recordCount", "13")] "" [
          Elem "SimplePredicate" [("field", "double(a)"); ("operator", "greaterThan"); ("value", "0.15000000223517418")] "" []; 
          Elem "ScoreDistribution" [("value", "fraud"); ("recordCount", "3")] "" []; 
          Elem "ScoreDistribution" [("value", "good"); ("recordCount", "10")] "" []]]]]]; 
     Elem "Segment" [("id", "2")] "" [
      Elem "True" [] "" []; 
      Elem "TreeModel" [("functionName", "classification"); ("splitCharacteristic", "binarySplit")] "" [
       Elem "MiningSchema" [] "" [
        Elem "MiningField" [("name", "double(c)")] "" []; 
        Elem "MiningField" [("name", "double(a)")] "" []]; 
       Elem "Node" [("id", "0")] "" [
        Elem "True" [] "" []; 
        Elem "Node" [("id", "1"); ("score", "good"); ("recordCount", "9")] "" [
         Elem "SimplePredicate" [("field", "double(a)"); ("operator", "lessOrEqual"); ("value", "0.3500000089406967")] "" []; 
         Elem "ScoreDistribution" [("value", "fraud"); ("recordCount", "0")] "" []; 
         Elem "ScoreDistribution" [("value", "good"); ("recordCount", "9")] "" []]; 
        Elem "Node" [("id", "2")] "" [
         Elem "SimplePredicate" [("field", "double(a)"); ("operator", "greaterThan"); ("value", "0.3500000089406967")] "" []; 
         Elem "Node" [("id", "3"); ("score", "fraud"); ("recordCount", "4")] "" [
          Elem "SimplePredicate" [("field", "double(c)"); ("operator", "lessOrEqual"); ("value", "0.3500000089406967")] "" []; 
          Elem "ScoreDistribution" [("value", "fraud"); ("recordCount", "4")] "" []; 
          Elem "ScoreDistribution" [("value", "good"); ("recordCount", "0")] "" []]; 
         Elem "Node" [("id", "4"); ("score", "fraud"); ("recordCount", "7")] "" [
          Elem "SimplePredicate" [("field", "double(c)"); ("operator", "greaterThan"); ("value", "0.3500000089406967")] "" []; 
          Elem "ScoreDistribution" [("value", "fraud"); ("recordCount", "5")] "" []; 
          Elem "ScoreDistribution" [("value", "good"); ("recordCount", "2")] "" []]]]]]; 
     Elem "Segment" [("id", "3")] "" [
      Elem "True" [] "" []; 
      Elem "TreeModel" [("functionName", "classification"); ("splitCharacteristic", "binarySplit")] "" [
       Elem "MiningSchema" [] "" [
        Elem "MiningField" [("name", "double(c)")] "" []; 
        Elem "MiningField" [("name", "double(b)")] "" []]; 
       Elem "Node" [("id", "0")] "" [
        Elem "True" [] "" []; 
        Elem "Node" [("id", "1"); ("score", "good"); ("recordCount", "4")] "" [
         Elem "SimplePredicate" [("field", "double(b)"); ("operator", "lessOrEqual"); ("value", "0.15000000223517418")] "" []; 
         Elem "ScoreDistribution" [("value", "fraud"); ("recordCount", "0")] "" []; 
         Elem "ScoreDistribution" [("value", "good"); ("recordCount", "4")] "" []]; 
        Elem "Node" [("id", "2")] "" [
         Elem "SimplePredicate" [("field", "double(b)"); ("operator", "greaterThan"); ("value", "0.15000000223517418")] "" []; 
         Elem "Node" [("id", "3"); ("score", "fraud"); ("recordCount", "14")] "" [
          Elem "SimplePredicate" [("field", "double(c)"); ("operator", "lessOrEqual"); ("value", "0.949999988079071")] "" []; 
          Elem "ScoreDistribution" [("value", "fraud"); ("recordCount", "12")] "" []; 
          Elem "ScoreDistribution" [("value", "good"); ("recordCount", "2")] "" []]; 
         Elem "Node" [("id", "4"); ("score", "good"); ("recordCount", "2")] "" [
          Elem "SimplePredicate" [("field", "double(c)"); ("operator", "greaterThan"); ("value", "0.949999988079071")] "" []; 
          Elem "ScoreDistribution" [("value", "fraud"); ("recordCount", "0")] "" []; 
          Elem "ScoreDistribution" [("value", "good"); ("recordCount", "2")] "" []]]]]]]; 
    Elem "ModelVerification" [("recordCount", "15")] "" [
     Elem "VerificationFields" [] "" [
      Elem "VerificationField" [("field", "a"); ("column", "data:a")] "" []; 
      Elem "VerificationField" [("field", "b"); ("column", "data:b")] "" []; 
      Elem "VerificationField" [("field", "c"); ("column", "data:c")] "" []; 
      Elem "VerificationField" [("field", "probability(fraud)"); ("column", "data:probability_fraud"); ("precision", "1.0E-13"); ("zeroThreshold", "1.0E-13")] "" []; 
      Elem "VerificationField" [("field", "probability(good)"); ("column", "data:probability_good"); ("precision", "1.0E-13"); ("zeroThreshold", "1.0E-13")] "" []]; 
     Elem "InlineTable" [] "" [
      Elem "row" [] "" [
       Elem "a" [] "" [Chars "0.1"]; 
       Elem "b" [] "" [Chars "0.2"]; 
       Elem "c" [] "" [Chars "0.4"]; 
       Elem "probability_fraud" [] "" [Chars "0.6190476190476191"]; 
       Elem "probability_good" [] "" [Chars "0.38095238095238093"]]; 
      Elem "row" [] "" [
       Elem "a" [] "" [Chars "0.6"]; 
       Elem "b" [] "" [Chars "0.8"]; 
       Elem "c" [] "" [Chars "0.4"]; 
       Elem "probability_fraud" [] "" [Chars "0.6007326007326007"]; 
       Elem "probability_good" [] "" [Chars "0.39926739926739924"]]; 
      Elem "row" [] "" [
       Elem "a" [] "" [Chars "0.9"]; 
       Elem "b" [] "" [Chars "0.3"]; 
       Elem "c" [] "" [Chars "0.9"]; 
       Elem "probability_fraud" [] "" [Chars "0.6007326007326007"]; 
       Elem "probability_good" [] "" [Chars "0.39926739926739924"]]; 
      Elem "row" [] "" [
       Elem "a" [] "" [Chars "0.4"]; 
       Elem "b" [] "" [Chars "0.5"]; 
       Elem "c" [] "" [Chars "0.0"]; 
       Elem "probability_fraud" [] "" [Chars "0.9523809523809524"]; 
       Elem "probability_good" [] "" [Chars "0.047619047619047616"]]; 
      Elem "row" [] "" [
       Elem "a" [] "" [Chars "0.9"]; 
       Elem "b" [] "" [Chars "0.2"]; 
       Elem "c" [] "" [Chars "0.7"]; 
       Elem "probability_fraud" [] "" [Chars "0.6007326007326007"]; 
       Elem "probability_good" [] "" [Chars "0.39926739926739924"]]; 
      Elem "row" [] "" [
       Elem "a" [] "" [Chars "0.4"]; 
       Elem "b" [] "" [Chars "0.0"]; 
       Elem "c" [] "" [Chars "0.4"]; 
       Elem "probability_fraud" [] "" [Chars "0.315018315018315"]; 
       Elem "probability_good" [] "" [Chars "0.6849816849816849"]]; 
      Elem "row" [] "" [
       Elem "a" [] "" [Chars "0.4"]; 
       Elem "b" [] "" [Chars "0.1"]; 
       Elem "c" [] "" [Chars "0.2"]; 
       Elem "probability_fraud" [] "" [Chars "0.5555555555555555"]; 
       Elem "probability_good" [] "" [Chars "0.4444444444444444"]]; 
      Elem "row" [] "" [
       Elem "a" [] "" [Chars "0.2"]; 
       Elem "b" [] "" [Chars "0.1"]; 
       Elem "c" [] "" [Chars "1.0"]; 
       Elem "probability_fraud" [] "" [Chars "0.07692307692307693"]; 
       Elem "probability_good" [] "" [Chars "0.923076923076923"]]; 
      Elem "row" [] "" [
       Elem "a" [] "" [Chars "0.1"]; 
       Elem "b" [] "" [Chars "0.2"]; 
       Elem "c" [] "" [Chars "0.7"]; 
       Elem "probability_fraud" [] "" [Chars "0.6190476190476191"]; 
       Elem "probability_good" [] "" [Chars "0.38095238095238093"]]; 
      Elem "row" [] "" [
       Elem "a" [] "" [Chars "0.2"]; 
       Elem "b" [] "" [Chars "0.5"]; 
       Elem "c" [] "" [Chars "0.7"]; 
       Elem "probability_fraud" [] "" [Chars "0.3626373626373626"]; 
       Elem "probability_good" [] "" [Chars "0.6373626373626373"]]; 
      Elem "row" [] "" [
       Elem "a" [] "" [Chars "1.0"]; 
       Elem "b" [] "" [Chars "0.2"]; 
       Elem "c" [] "" [Chars "0.2"]; 
       Elem "probability_fraud" [] "" [Chars "0.8412698412698413"]; 
       Elem "probability_good" [] "" [Chars "0.15873015873015872"]]; 
      Elem "row" [] "" [
       Elem "a" [] "" [Chars "0.5"]; 
       Elem "b" [] "" [Chars "0.2"]; 
       Elem "c" [] "" [Chars "0.7"]; 
       Elem "probability_fraud" [] "" [Chars "0.6007326007326007"]; 
       Elem "probability_good" [] "" [Chars "0.39926739926739924"]]; 
      Elem "row" [] "" [
       Elem "a" [] "" [Chars "0.3"]; 
       Elem "b" [] "" [Chars "0.3"]; 
       Elem "c" [] "" [Chars "0.5"]; 
       Elem "probability_fraud" [] "" [Chars "0.3626373626373626"]; 
       Elem "probability_good" [] "" [Chars "0.6373626373626373"]]; 
      Elem "row" [] "" [
       Elem "a" [] "" [Chars "0.5"]; 
       Elem "b" [] "" [Chars "0.8"]; 
       Elem "c" [] "" [Chars "0.9"]; 
       Elem "probability_fraud" [] "" [Chars "0.6007326007326007"]; 
       Elem "probability_good" [] "" [Chars "0.39926739926739924"]]; 
      Elem "row" [] "" [
       Elem "a" [] "" [Chars "0.2"]; 
       Elem "b" [] "" [Chars "0.6"]; 
       Elem "c" [] "" [Chars "0.2"]; 
       Elem "probability_fraud" [] "" [Chars "0.6190476190476191"]; 
       Elem "probability_good" [] "" [Chars "0.38095238095238093"]]]]]].

(** evaluation/testdata/tree/simple_1.6.xml *)
Definition tree_16 : xml :=
  Elem "PMML" [("xmlns", "http://www.dmg.org/PMML-4_4"); ("data", "http://jpmml.org/jpmml-model/InlineTable"); ("version", "4.4")] "" [
   Elem "Header" [] "" [
    Elem "Application" [("name", "JPMML-SkLearn"); ("version", "1.6.18")] "" []; 
    Elem "Timestamp" [] "" [Chars "2021-06-03T02:37:30Z"]]; 
   Elem "MiningBuildTask" [] "" [
    Elem "Extension" [] "" [Chars "PMMLPipeline(steps=[('classifier', RandomForestClassifier(max_depth=2, n_estimators=3))])"]]; 
   Elem "DataDictionary" [] "" [
    Elem "DataField" [("name", "label"); ("optype", "categorical"); ("dataType", "string")] "" [
     Elem "Value" [("value", "fraud")] "" []; 
     Elem "Value" [("value", "good")] "" []]; 
    Elem "DataField" [("name", "a"); ("optype", "continuous"); ("dataType", "float")] "" []; 
    Elem "DataField" [("name", "b"); ("optype", "continuous"); ("dataType", "float")] "" []; 
    Elem "DataField" [("name", "c"); ("optype", "continuous"); ("dataType", "float")] "" []]; 
   Elem "TransformationDictionary" [] "" []; 
   Elem "MiningModel" [("functionName", "classification"); ("algorithmName", "sklearn.ensemble._forest.RandomForestClassifier")] "" [
    Elem "MiningSchema" [] "" [
     Elem "MiningField" [("name", "label"); ("usageType", "target")] "" []; 
     Elem "MiningField" [("name", "a")] "" []; 
     Elem "MiningField" [("name", "b")] "" []; 
     Elem "MiningField" [("name", "c")] "" []]; 
    Elem "Output" [] "" [
     Elem "OutputField" [("name", "probability(fraud)"); ("optype", "continuous"); ("dataType", "double"); ("feature", "probability"); ("value", "fraud")] "" []; 
     Elem "OutputField" [("name", "probability(good)"); ("optype", "continuous"); ("dataType", "double"); ("feature", "probability"); ("value", "good")] "" []]; 
    Elem "LocalTransformations" [] "" [
     Elem "DerivedField" [("name", "double(b)"); ("optype", "continuous"); ("dataType", "double")] "" [
      Elem "FieldRef" [("field", "b")] "" []]; 
     Elem "DerivedField" [("name", "double(c)"); ("optype", "continuous"); ("dataType", "double")] "" [
      Elem "FieldRef" [("field", "c")] "" []]]; 
    Elem "Segmentation" [("multipleModelMethod", "average")] "" [
     Elem "Segment" [("id", "1")] "" [
      Elem "True" [] "" []; 
      Elem "TreeModel" [("functionName", "classification"); ("splitCharacteristic", "binarySplit")] "" [
       Elem "MiningSchema" [] "" [
        Elem "MiningField" [("name", "a")] "" []; 
        Elem "MiningField" [("name", "double(b)")] "" []]; 
       Elem "LocalTransformations" [] "" [
        Elem "DerivedField" [("name", "double(a)"); ("optype", "continuous"); ("dataType", "double")] "" [
         Elem "FieldRef" [("field", "a")] "" []]]; 
       Elem "Node" [("id", "0")] "" [
        Elem "True" [] "" []; 
        Elem "Node" [("id", "1")] "" [
         Elem "SimplePredicate" [("field", "double(b)"); ("operator", "lessOrEqual"); ("value", "0.15000000223517418")] "" []; 
         Elem "Node" [("id", "2"); ("score", "fraud"); ("recordCount", "4")] "" [
          Elem "SimplePredicate" [("field", "double(a)"); ("operator", "lessOrEqual"); ("value", "0.350000012665987")] "" []; 
          Elem "ScoreDistribution" [("value", "fraud"); ("recordCount", "3")] "" []; 
          Elem "ScoreDistribution" [("value", "good"); ("recordCount", "1")] "" []]; 
         Elem "Node" [("id", "3"); ("score", "fraud"); ("recordCount", "2")] "" [
          Elem "SimplePredicate" [("field", "double(a)"); ("operator", "greaterThan"); ("value", "0.350000012665987")] "" []; 
          Elem "ScoreDistribution" [("value", "fraud"); ("recordCount", "2")] "" []; 
          Elem "ScoreDistribution" [("value", "good"); ("recordCount", "0")] "" []]]; 
        Elem "Node" [("id", "4")] "" [
         Elem "SimplePredicate" [("field", "double(b)"); ("operator", "greaterThan"); ("value", "0.15000000223517418")] "" []; 
         Elem "Node" [("id", "5"); ("score", "fraud"); ("recordCount", "13")] "" [
          Elem "SimplePredicate" [("field", "double(a)"); ("operator", "lessOrEqual"); ("value", "0.8499999940395355")] "" []; 
          Elem "ScoreDistribution" [("value", "fraud"); ("recordCount", "8")] "" []; 
          Elem "ScoreDistribution" [("value", "good"); ("recordCount", "5")] "" []]; 
         Elem "Node" [("id", "6"); ("score", "good"); ("recordCount", "1")] "" [
          Elem "SimplePredicate" [("field", "double(a)"); ("operator", "greaterThan"); ("value", "0.8499999940395355")] "" []; 
          Elem "ScoreDistribution" [("value", "fraud"); ("recordCount", "0")] "" []; 
          Elem "ScoreDistribution" [("value", "good"); ("recordCount", "1")] "" []]]]]]; 
     Elem "Segment" [("id", "2")] "" [
      Elem "True" [] "" []; 
      Elem "TreeModel" [("functionName", "classification"); ("splitCharacteristic", "binarySplit")] "" [
       Elem "MiningSchema" [] "" [
        Elem "MiningField" [("name", "double(c)")] "" []]; 
       Elem "Node" [("id", "0")] "" [
        Elem "True" [] "" []; 
        Elem "Node" [("id", "1")] "" [
         Elem "SimplePredicate" [("field", "double(c)"); ("operator", "lessOrEqual"); ("value", "0.75")] "" []; 
         Elem "Node" [("id", "2"); ("score", "fraud"); ("recordCount", "11")] "" [
          Elem "SimplePredicate" [("field", "double(c)"); ("operator", "lessOrEqual"); ("value", "0.3500000089406967")] "" []; 
          Elem "ScoreDistribution" [("value", "fraud"); ("recordCount", "11")] "" []; 
          Elem "ScoreDistribution" [("value", "good"); ("recordCount", "0")] "" []]; 
         Elem "Node" [("id", "3"); ("score", "fraud"); ("recordCount", "7")] "" [
          Elem "SimplePredicate" [("field", "double(c)"); ("operator", "greaterThan"); ("value", "0.3500000089406967")] "" []; 
          Elem "ScoreDistribution" [("value", "fraud"); ("recordCount", "5")] "" []; 
          Elem "ScoreDistribution" [("value", "good"); ("recordCount", "2")] "" []]]; 
        Elem "Node" [("id", "4"); ("score", "good"); ("recordCount", "2")] "" [
         Elem "SimplePredicate" [("field", "double(c)"); ("operator", "greaterThan"); ("value", "0.75")] "" []; 
         Elem "ScoreDistribution" [("value", "fraud"); ("recordCount", "0")] "" []; 
         Elem "ScoreDistribution" [("value", "good"); ("recordCount", "2")] "" []]]]]; 
     Elem "Segment" [("id", "3")] "" [
      Elem "True" [] "" []; 
      Elem "TreeModel" [("functionName", "classification"); ("splitCharacteristic", "binarySplit")] "" [
       Elem "MiningSchema" [] "" [
        Elem "MiningField" [("name", "double(b)")] "" []; 
        Elem "MiningField" [("name", "double(c)")] "" []]; 
       Elem "Node" [("id", "0")] "" [
        Elem "True" [] "" []; 
        Elem "Node" [("id", "1")] "" [
         Elem "SimplePredicate" [("field", "double(b)"); ("operator", "lessOrEqual"); ("value", "0.75")] "" []; 
         Elem "Node" [("id", "2"); ("score", "fraud"); ("recordCount", "2")] "" [
          Elem "SimplePredicate" [("field", "double(c)"); ("operator", "lessOrEqual"); ("value", "0.2500000037252903")] "" []; 
          Elem "ScoreDistribution" [("value", "fraud"); ("recordCount", "2")] "" []; 
          Elem "ScoreDistribution" [("value", "good"); ("recordCount", "0")] "" []]; 
         Elem "Node" [("id", "3"); ("score", "good"); ("recordCount", "13")] "" [
          Elem "SimplePredicate" [("field", "double(c)"); ("operator", "greaterThan"); ("value", "0.2500000037252903")] "" []; 
          Elem "ScoreDistribution" [("value", "fraud"); ("recordCount", "4")] "" []; 
          Elem "ScoreDistribution" [("value", "good"); ("recordCount", "9")] "" []]]; 
        Elem "Node" [("id", "4")] "" [
         Elem "SimplePredicate" [("field", "double(b)"); ("operator", "greaterThan"); ("value", "0.75")] "" []; 
         Elem "Node" [("id", "5"); ("score", "fraud"); ("recordCount", "4")] "" [
          Elem "SimplePredicate" [("field", "double(c)"); ("operator", "lessOrEqual"); ("value", "0.5000000074505806")] "" []; 
          Elem "ScoreDistribution" [("value", "fraud"); ("recordCount", "4")] "" []; 
          Elem "ScoreDistribution" [("value", "good"); ("recordCount", "0")] "" []]; 
         Elem "Node" [("id", "6"); ("score", "good"); ("recordCount", "1")] "" [
          Elem "SimplePredicate" [("field", "double(c)"); ("operator", "greaterThan"); ("value", "0.5000000074505806")] "" []; 
          Elem "ScoreDistribution" [("value", "fraud"); ("recordCount", "0")] "" []; 
          Elem "ScoreDistribution" [("value", "good"); ("recordCount", "1")] "" []]]]]]]; 
    Elem "ModelVerification" [("recordCount", "15")] "" [
     Elem "VerificationFields" [] "" [
      Elem "VerificationField" [("field", "a"); ("column", "data:a")] "" []; 
      Elem "VerificationField" [("field", "b"); ("column", "data:b")] "" []; 
      Elem "VerificationField" [("field", "c"); ("column", "data:c")] "" []; 
      Elem "VerificationField" [("field", "probability(fraud)"); ("column", "data:probability_fraud"); ("precision", "1.0E-13"); ("zeroThreshold", "1.0E-13")] "" []; 
      Elem "VerificationField" [("field", "probability(good)"); ("column", "data:probability_good"); ("precision", "1.0E-13"); ("zeroThreshold", "1.0E-13")] "" []]; 
     Elem "InlineTable" [] "" [
      Elem "row" [] "" [
       Elem "a" [] "" [Chars "0.1"]; 
       Elem "b" [] "" [Chars "0.7"]; 
       Elem "c" [] "" [Chars "0.1"]; 
       Elem "probability_fraud" [] "" [Chars "0.8717948717948718"]; 
       Elem "probability_good" [] "" [Chars "0.12820512820512822"]]; 
      Elem "row" [] "" [
       Elem "a" [] "" [Chars "0.7"]; 
       Elem "b" [] "" [Chars "0.8"]; 
       Elem "c" [] "" [Chars "0.9"]; 
       Elem "probability_fraud" [] "" [Chars "0.20512820512820515"]; 
       Elem "probability_good" [] "" [Chars "0.7948717948717948"]]; 
      Elem "row" [] "" [
       Elem "a" [] "" [Chars "0.9"]; 
       Elem "b" [] "" [Chars "0.2"]; 
       Elem "c" [] "" [Chars "0.9"]; 
       Elem "probability_fraud" [] "" [Chars "0.10256410256410257"]; 
       Elem "probability_good" [] "" [Chars "0.8974358974358975"]]; 
      Elem "row" [] "" [
       Elem "a" [] "" [Chars "0.1"]; 
       Elem "b" [] "" [Chars "0.3"]; 
       Elem "c" [] "" [Chars "0.1"]; 
       Elem "probability_fraud" [] "" [Chars "0.8717948717948718"]; 
       Elem "probability_good" [] "" [Chars "0.12820512820512822"]]; 
      Elem "row" [] "" [
       Elem "a" [] "" [Chars "0.2"]; 
       Elem "b" [] "" [Chars "0.5"]; 
       Elem "c" [] "" [Chars "0.4"]; 
       Elem "probability_fraud" [] "" [Chars "0.5457875457875458"]; 
       Elem "probability_good" [] "" [Chars "0.4542124542124542"]]; 
      Elem "row" [] "" [
       Elem "a" [] "" [Chars "0.1"]; 
       Elem "b" [] "" [Chars "0.2"]; 
       Elem "c" [] "" [Chars "0.8"]; 
       Elem "probability_fraud" [] "" [Chars "0.3076923076923077"]; 
       Elem "probability_good" [] "" [Chars "0.6923076923076922"]]; 
      Elem "row" [] "" [
       Elem "a" [] "" [Chars "0.8"]; 
       Elem "b" [] "" [Chars "0.9"]; 
       Elem "c" [] "" [Chars "0.9"]; 
       Elem "probability_fraud" [] "" [Chars "0.20512820512820515"]; 
       Elem "probability_good" [] "" [Chars "0.7948717948717948"]]; 
      Elem "row" [] "" [
       Elem "a" [] "" [Chars "0.4"]; 
       Elem "b" [] "" [Chars "0.3"]; 
       Elem "c" [] "" [Chars "0.7"]; 
       Elem "probability_fraud" [] "" [Chars "0.5457875457875458"]; 
       Elem "probability_good" [] "" [Chars "0.4542124542124542"]]; 
      Elem "row" [] "" [
       Elem "a" [] "" [Chars "0.6"]; 
       Elem "b" [] "" [Chars "0.4"]; 
       Elem "c" [] "" [Chars "0.7"]; 
       Elem "probability_fraud" [] "" [Chars "0.5457875457875458"]; 
       Elem "probability_good" [] "" [Chars "0.4542124542124542"]]; 
      Elem "row" [] "" [
       Elem "a" [] "" [Chars "0.8"]; 
       Elem "b" [] "" [Chars "0.4"]; 
       Elem "c" [] "" [Chars "0.4"]; 
       Elem "probability_fraud" [] "" [Chars "0.5457875457875458"]; 
       Elem "probability_good" [] "" [Chars "0.4542124542124542"]]; 
      Elem "row" [] "" [
       Elem "a" [] "" [Chars "0.3"]; 
       Elem "b" [] "" [Chars "0.7"]; 
       Elem "c" [] "" [Chars "0.6"]; 
       Elem "probability_fraud" [] "" [Chars "0.5457875457875458"]; 
       Elem "probability_good" [] "" [Chars "0.4542124542124542"]]; 
      Elem "row" [] "" [
       Elem "a" [] "" [Chars "0.5"]; 
       Elem "b" [] "" [Chars "0.6"]; 
       Elem "c" [] "" [Chars "0.5"]; 
       Elem "probability_fraud" [] "" [Chars "0.5457875457875458"]; 
       Elem "probability_good" [] "" [Chars "0.4542124542124542"]]; 
      Elem "row" [] "" [
       Elem "a" [] "" [Chars "0.4"]; 
       Elem "b" [] "" [Chars "0.3"]; 
       Elem "c" [] "" [Chars "0.5"]; 
       Elem "probability_fraud" [] "" [Chars "0.5457875457875458"]; 
       Elem "probability_good" [] "" [Chars "0.4542124542124542"]]; 
      Elem "row" [] "" [
       Elem "a" [] "" [Chars "0.4"]; 
       Elem "b" [] "" [Chars "0.5"]; 
       Elem "c" [] "" [Chars "0.3"]; 
       Elem "probability_fraud" [] "" [Chars "0.6410256410256411"]; 
       Elem "probability_good" [] "" [Chars "0.358974358974359"]]; 
      Elem "row" [] "" [
       Elem "a" [] "" [Chars "0.7"]; 
       Elem "b" [] "" [Chars "0.3"]; 
       Elem "c" [] "" [Chars "0.0"]; 
       Elem "probability_fraud" [] "" [Chars "0.8717948717948718"]; 
       Elem "probability_good" [] "" [Chars "0.12820512820512822"]]]]]].

(** evaluation/testdata/xgboost/xgboost.xml *)
Definition xgb : xml :=
  Elem "PMML" [("xmlns", "http://www.dmg.org/PMML-4_4"); ("data", "http://jpmml.org/jpmml-model/InlineTable"); ("version", "4.4")] "" [
   Elem "Header" [] "" [
    Elem "Application" [("name", "JPMML-SkLearn"); ("version", "1.6.18")] "" []; 
    Elem "Timestamp" [] "" [Chars "2021-06-02T13:50:38Z"]]; 
   Elem "MiningBuildTask" [] "" [
    Elem "Extension" [] "" [Chars "PMMLPipeline(steps=[('classifier', XGBClassifier(base_score=0.5, booster='gbtree', colsample_bylevel=1,
            colsample_bynode=1, colsample_bytree=1, gamma=0, gpu_id=-1,
            importance_type='gain', interaction_constraints='',
            learning_rate=0.300000012, max_delta_step=0, max_depth=2,
            min_child_weight=1, missing=nan, monotone_constraints='()',
            n_estimators=3, n_jobs=8, num_parallel_tree=1, random_state=0,
            reg_alpha=0, reg_lambda=1, scale_pos_weight=1, subsample=1,
            tree_method='exact', validate_parameters=1, verbosity=None))])"]]; 
   Elem "DataDictionary" [] "" [
    Elem "DataField" [("name", "label"); ("optype", "categorical"); ("dataType", "string")] "" [
     Elem "Value" [("value", "fraud")] "" []; 
     Elem "Value" [("value", "good")] "" []]; 
    Elem "DataField" [("name", "b"); ("optype", "continuous"); ("dataType", "float")] "" []; 
    Elem "DataField" [("name", "c"); ("optype", "continuous"); ("dataType", "float")] "" []]; 
   Elem "MiningModel" [("functionName", "classification"); ("algorithmName", "XGBoost (GBTree)"); ("x-mathContext", "float")] "" [
    Elem "MiningSchema" [] "" [
     Elem "MiningField" [("name", "label"); ("usageType", "target")] "" []; 
     Elem "MiningField" [("name", "b")] "" []; 
     Elem "MiningField" [("name", "c")] "" []]; 
    Elem "Segmentation" [("multipleModelMethod", "modelChain"); ("missingPredictionTreatment", "returnMissing")] "" [
     Elem "Segment" [("id", "1")] "" [
      Elem "True" [] "" []; 
      Elem "MiningModel" [("functionName", "regression"); ("x-mathContext", "float")] "" [
       Elem "MiningSchema" [] "" [
        Elem "MiningField" [("name", "b")] "" []; 
        Elem "MiningField" [("name", "c")] "" []]; 
       Elem "Output" [] "" [
        Elem "OutputField" [("name", "xgbValue"); ("optype", "continuous"); ("dataType", "float"); ("isFinalResult", "false")] "" []]; 
       Elem "Segmentation" [("multipleModelMethod", "sum")] "" [
        Elem "Segment" [("id", "1")] "" [
         Elem "True" [] "" []; 
         Elem "TreeModel" [("functionName", "regression"); ("missingValueStrategy", "defaultChild"); ("splitCharacteristic", "binarySplit"); ("x-mathContext", "float")] "" [
          Elem "MiningSchema" [] "" [
           Elem "MiningField" [("name", "b")] "" []]; 
          Elem "Node" [("id", "0"); ("defaultChild", "1")] "" [
           Elem "True" [] "" []; 
           Elem "Node" [("id", "1"); ("defaultChild", "3")] "" [
            Elem "SimplePredicate" [("field", "b"); ("operator", "lessThan"); ("value", "0.65")] "" []; 
            Elem "Node" [("id", "3"); ("score", "-0.06666667")] "" [
             Elem "SimplePredicate" [("field", "b"); ("operator", "lessThan"); ("value", "0.2")] "" []]; 
            Elem "Node" [("id", "4"); ("score", "-0.3")] "" [
             Elem "SimplePredicate" [("field", "b"); ("operator", "greaterOrEqual"); ("value", "0.2")] "" []]]; 
           Elem "Node" [("id", "2"); ("defaultChild", "5")] "" [
            Elem "SimplePredicate" [("field", "b"); ("operator", "greaterOrEqual"); ("value", "0.65")] "" []; 
            Elem "Node" [("id", "5"); ("score", "0.3")] "" [
             Elem "SimplePredicate" [("field", "b"); ("operator", "lessThan"); ("value", "0.75")] "" []]; 
            Elem "Node" [("id", "6"); ("score", "0.05454546")] "" [
             Elem "SimplePredicate" [("field", "b"); ("operator", "greaterOrEqual"); ("value", "0.75")] "" []]]]]]; 
        Elem "Segment" [("id", "2")] "" [
         Elem "True" [] "" []; 
         Elem "TreeModel" [("functionName", "regression"); ("missingValueStrategy", "defaultChild"); ("splitCharacteristic", "binarySplit"); ("x-mathContext", "float")] "" [
          Elem "MiningSchema" [] "" [
           Elem "MiningField" [("name", "b")] "" []; 
           Elem "MiningField" [("name", "c")] "" []]; 
          Elem "Node" [("id", "0"); ("defaultChild", "1")] "" [
           Elem "True" [] "" []; 
           Elem "Node" [("id", "1"); ("score", "-0.19702125")] "" [
            Elem "SimplePredicate" [("field", "b"); ("operator", "lessThan"); ("value", "0.65")] "" []]; 
           Elem "Node" [("id", "2"); ("defaultChild", "3")] "" [
            Elem "SimplePredicate" [("field", "b"); ("operator", "greaterOrEqual"); ("value", "0.65")] "" []; 
            Elem "Node" [("id", "3"); ("score", "0.20973434")] "" [
             Elem "SimplePredicate" [("field", "c"); ("operator", "lessThan"); ("value", "0.75")] "" []]; 
            Elem "Node" [("id", "4"); ("score", "0.049608637")] "" [
             Elem "SimplePredicate" [("field", "c"); ("operator", "greaterOrEqual"); ("value", "0.75")] "" []]]]]]; 
        Elem "Segment" [("id", "3")] "" [
         Elem "True" [] "" []; 
         Elem "TreeModel" [("functionName", "regression"); ("missingValueStrategy", "defaultChild"); ("splitCharacteristic", "binarySplit"); ("x-mathContext", "float")] "" [
          Elem "MiningSchema" [] "" [
           Elem "MiningField" [("name", "b")] "" []; 
           Elem "MiningField" [("name", "c")] "" []]; 
          Elem "Node" [("id", "0"); ("defaultChild", "1")] "" [
           Elem "True" [] "" []; 
           Elem "Node" [("id", "1"); ("score", "-0.15952669")] "" [
            Elem "SimplePredicate" [("field", "b"); ("operator", "lessThan"); ("value", "0.65")] "" []]; 
           Elem "Node" [("id", "2"); ("defaultChild", "3")] "" [
            Elem "SimplePredicate" [("field", "b"); ("operator", "greaterOrEqual"); ("value", "0.65")] "" []; 
            Elem "Node" [("id", "3"); ("score", "0.17563345")] "" [
             Elem "SimplePredicate" [("field", "c"); ("operator", "lessThan"); ("value", "0.75")] "" []]; 
            Elem "Node" [("id", "4"); ("score", "0.041443404")] "" [
             Elem "SimplePredicate" [("field", "c"); ("operator", "greaterOrEqual"); ("value", "0.75")] "" []]]]]]]]]; 
     Elem "Segment" [("id", "2")] "" [
      Elem "True" [] "" []; 
      Elem "RegressionModel" [("functionName", "classification"); ("normalizationMethod", "logit"); ("x-mathContext", "float")] "" [
       Elem "MiningSchema" [] "" [
        Elem "MiningField" [("name", "label"); ("usageType", "target")] "" []; 
        Elem "MiningField" [("name", "xgbValue")] "" []]; 
       Elem "Output" [] "" [
        Elem "OutputField" [("name", "probability(fraud)"); ("optype", "continuous"); ("dataType", "float"); ("feature", "probability"); ("value", "fraud")] "" []; 
        Elem "OutputField" [("name", "probability(good)"); ("optype", "continuous"); ("dataType", "float"); ("feature", "probability"); ("value", "good")] "" []]; 
       Elem "RegressionTable" [("intercept", "0.0"); ("targetCategory", "good")] "" [
        Elem "NumericPredictor" [("name", "xgbValue"); ("coefficient", "1.0")] "" []]; 
       Elem "RegressionTable" [("intercept", "0.0"); ("targetCategory", "fraud")] "" []]]]; 
    Elem "ModelVerification" [("recordCount", "15")] "" [
     Elem "VerificationFields" [] "" [
      Elem "VerificationField" [("field", "b"); ("column", "data:b")] "" []; 
      Elem "VerificationField" [("field", "c"); ("column", "data:c")] "" []; 
      Elem "VerificationField" [("field", "probability(fraud)"); ("column", "data:probability_fraud"); ("precision", "1.0E-13"); ("zeroThreshold", "1.0E-13")] "" []; 
      Elem "VerificationField" [("field", "probability(good)"); ("column", "data:probability_good"); ("precision", "1.0E-13"); ("zeroThreshold", "1.0E-13")] "" []]; 
     Elem "InlineTable" [] "" [
      Elem "row" [] "" [
       Elem "b" [] "" [Chars "0.6"]; 
       Elem "c" [] "" [Chars "0.8"]; 
       Elem "probability_fraud" [] "" [Chars "0.6584845"]; 
       Elem "probability_good" [] "" [Chars "0.34151548"]]; 
      Elem "row" [] "" [
       Elem "b" [] "" [Chars "0.7"]; 
       Elem "c" [] "" [Chars "0.8"]; 
       Elem "probability_fraud" [] "" [Chars "0.40346402"]; 
       Elem "probability_good" [] "" [Chars "0.596536"]]; 
      Elem "row" [] "" [
       Elem "b" [] "" [Chars "0.2"]; 
       Elem "c" [] "" [Chars "0.2"]; 
       Elem "probability_fraud" [] "" [Chars "0.6584845"]; 
       Elem "probability_good" [] "" [Chars "0.34151548"]]; 
      Elem "row" [] "" [
       Elem "b" [] "" [Chars "0.1"]; 
       Elem "c" [] "" [Chars "0.1"]; 
       Elem "probability_fraud" [] "" [Chars "0.6042522"]; 
       Elem "probability_good" [] "" [Chars "0.39574778"]]; 
      Elem "row" [] "" [
       Elem "b" [] "" [Chars "0.3"]; 
       Elem "c" [] "" [Chars "0.6"]; 
       Elem "probability_fraud" [] "" [Chars "0.6584845"]; 
       Elem "probability_good" [] "" [Chars "0.34151548"]]; 
      Elem "row" [] "" [
       Elem "b" [] "" [Chars "0.5"]; 
       Elem "c" [] "" [Chars "0.2"]; 
       Elem "probability_fraud" [] "" [Chars "0.6584845"]; 
       Elem "probability_good" [] "" [Chars "0.34151548"]]; 
      Elem "row" [] "" [
       Elem "b" [] "" [Chars "0.6"]; 
       Elem "c" [] "" [Chars "0.8"]; 
       Elem "probability_fraud" [] "" [Chars "0.6584845"]; 
       Elem "probability_good" [] "" [Chars "0.34151548"]]; 
      Elem "row" [] "" [
       Elem "b" [] "" [Chars "0.7"]; 
       Elem "c" [] "" [Chars "0.2"]; 
       Elem "probability_fraud" [] "" [Chars "0.3350643"]; 
       Elem "probability_good" [] "" [Chars "0.6649357"]]; 
      Elem "row" [] "" [
       Elem "b" [] "" [Chars "0.5"]; 
       Elem "c" [] "" [Chars "0.5"]; 
       Elem "probability_fraud" [] "" [Chars "0.6584845"]; 
       Elem "probability_good" [] "" [Chars "0.34151548"]]; 
      Elem "row" [] "" [
       Elem "b" [] "" [Chars "0.8"]; 
       Elem "c" [] "" [Chars "0.9"]; 
       Elem "probability_fraud" [] "" [Chars "0.46366477"]; 
       Elem "probability_good" [] "" [Chars "0.53633523"]]; 
      Elem "row" [] "" [
       Elem "b" [] "" [Chars "0.5"]; 
       Elem "c" [] "" [Chars "0.9"]; 
       Elem "probability_fraud" [] "" [Chars "0.6584845"]; 
       Elem "probability_good" [] "" [Chars "0.34151548"]]; 
      Elem "row" [] "" [
       Elem "b" [] "" [Chars "0.1"]; 
       Elem "c" [] "" [Chars "0.0"]; 
       Elem "probability_fraud" [] "" [Chars "0.6042522"]; 
       Elem "probability_good" [] "" [Chars "0.39574778"]]; 
      Elem "row" [] "" [
       Elem "b" [] "" [Chars "0.6"]; 
       Elem "c" [] "" [Chars "0.6"]; 
       Elem "probability_fraud" [] "" [Chars "0.6584845"]; 
       Elem "probability_good" [] "" [Chars "0.34151548"]]; 
      Elem "row" [] "" [
       Elem "b" [] "" [Chars "0.6"]; 
       Elem "c" [] "" [Chars "0.1"]; 
       Elem "probability_fraud" [] "" [Chars "0.6584845"]; 
       Elem "probability_good" [] "" [Chars "0.34151548"]]; 
      Elem "row" [] "" [
       Elem "b" [] "" [Chars "0.7"]; 
       Elem "c" [] "" [Chars "0.7"]; 
       Elem "probability_fraud" [] "" [Chars "0.3350643"]; 
       Elem "probability_good" [] "" [Chars "0.6649357"]]]]]].

(** evaluation/testdata/logreg/logreg_pca_1.0.xml *)
Definition logreg_pca : xml :=
  Elem "PMML" [("xmlns", "http://www.dmg.org/PMML-4_4"); ("data", "http://jpmml.org/jpmml-model/InlineTable"); ("version", "4.4")] "" [
   Elem "Header" [] "" [
    Elem "Application" [("name", "JPMML-SkLearn"); ("version", "1.6.18")] "" []; 
    Elem "Timestamp" [] "" [Chars "2021-06-10T01:13:05Z"]]; 
   Elem "MiningBuildTask" [] "" [
    Elem "Extension" [] "" [Chars "PMMLPipeline(steps=[('mapper', DataFrameMapper(drop_cols=[],
                features=[(['Sepal.Length', 'Sepal.Width', 'Petal.Length',
                            'Petal.Width'],
                           [ContinuousDomain(), SimpleImputer()])])),
       ('pca', PCA(n_components=3)),
       ('selector', SelectKBest(k=2)),
       ('classifier', LogisticRegression(multi_class='ovr'))])"]]; 
   Elem "DataDictionary" [] "" [
    Elem "DataField" [("name", "Species"); ("optype", "categorical"); ("dataType", "string")] "" [
     Elem "Value" [("value", "Setosa")] "" []; 
     Elem "Value" [("value", "Versicolor")] "" []; 
     Elem "Value" [("value", "Virginica")] "" []]; 
    Elem "DataField" [("name", "Sepal.Length"); ("optype", "continuous"); ("dataType", "double")] "" [
     Elem "Interval" [("closure", "closedClosed"); ("leftMargin", "4.3"); ("rightMargin", "7.9")] "" []]; 
    Elem "DataField" [("name", "Sepal.Width"); ("optype", "continuous"); ("dataType", "double")] "" [
     Elem "Interval" [("closure", "closedClosed"); ("leftMargin", "2.0"); ("rightMargin", "4.4")] "" []]; 
    Elem "DataField" [("name", "Petal.Length"); ("optype", "continuous"); ("dataType", "double")] "" [
     Elem "Interval" [("closure", "closedClosed"); ("leftMargin", "1.0"); ("rightMargin", "6.9")] "" []]; 
    Elem "DataField" [("name", "Petal.Width"); ("optype", "continuous"); ("dataType", "double")] "" [
     Elem "Interval" [("closure", "closedClosed"); ("leftMargin", "0.1"); ("rightMargin", "2.5")] "" []]]; 
   Elem "TransformationDictionary" [] "" []; 
   Elem "MiningModel" [("functionName", "classification"); ("algorithmName", "sklearn.linear_model._logistic.LogisticRegression")] "" [
    Elem "MiningSchema" [] "" [
     Elem "MiningField" [("name", "Species"); ("usageType", "target")] "" []; 
     Elem "MiningField" [("name", "Sepal.Length"); ("missingValueReplacement", "5.843333333333334"); ("missingValueTreatment", "asMean")] "" []; 
     Elem "MiningField" [("name", "Sepal.Width"); ("missingValueReplacement", "3.0573333333333337"); ("missingValueTreatment", "asMean")] "" []; 
     Elem "MiningField" [("name", "Petal.Length"); ("missingValueReplacement", "3.7580000000000005"); ("missingValueTreatment", "asMean")] "" []; 
     Elem "MiningField" [("name", "Petal.Width"); ("missingValueReplacement", "1.1993333333333336"); ("missingValueTreatment", "asMean")] "" []]; 
    Elem "ModelStats" [] "" [
     Elem "UnivariateStats" [("field", "Sepal.Length")] "" [
      Elem "Counts" [("totalFreq", "150"); ("missingFreq", "0"); ("invalidFreq", "0")] "" []; 
      Elem "NumericInfo" [("minimum", "4.3"); ("maximum", "7.9"); ("mean", "5.843333333333335"); ("standardDeviation", "0.8253012917851409"); ("median", "5.8"); ("interQuartileRange", "1.3000000000000007")] "" []]; 
     Elem "UnivariateStats" [("field", "Sepal.Width")] "" [
      Elem "Counts" [("totalFreq", "150"); ("missingFreq", "0"); ("invalidFreq", "0")] "" []; 
      Elem "NumericInfo" [("minimum", "2.0"); ("maximum", "4.4"); ("mean", "3.057333333333334"); ("standardDeviation", "0.43441096773549437"); ("median", "3.0"); ("interQuartileRange", "0.5")] "" []]; 
     Elem "UnivariateStats" [("field", "Petal.Length")] "" [
      Elem "Counts" [("totalFreq", "150"); ("missingFreq", "0"); ("invalidFreq", "0")] "" []; 
      Elem "NumericInfo" [("minimum", "1.0"); ("maximum", "6.9"); ("mean", "3.7580000000000027"); ("standardDeviation", "1.7594040657753032"); ("median", "4.35"); ("interQuartileRange", "3.4999999999999996")] "" []]; 
     Elem "UnivariateStats" [("field", "Petal.Width")] "" [
      Elem "Counts" [("totalFreq", "150"); ("missingFreq", "0"); ("invalidFreq", "0")] "" []; 
      Elem "NumericInfo" [("minimum", "0.1"); ("maximum", "2.5"); ("mean", "1.199333333333334"); ("standardDeviation", "0.7596926279021594"); ("median", "1.3"); ("interQuartileRange", "1.5")] "" []]]; 
    Elem "LocalTransformations" [] "" [
     Elem "DerivedField" [("name", "pca(Sepal.Length, Sepal.Width, Petal.Length, Petal.Width)[0]"); ("optype", "continuous"); ("dataType", "double")] "" [
      Elem "Apply" [("function", "sum")] "" [
       Elem "Apply" [("function", "*")] "" [
        Elem "Apply" [("function", "-")] "" [
         Elem "FieldRef" [("field", "Sepal.Length")] "" []; 
         Elem "Constant" [("dataType", "double")] "5.843333333333334" [Chars "5.843333333333334"]]; 
        Elem "Constant" [("dataType", "double")] "0.36138659178536847" [Chars "0.36138659178536847"]]; 
       Elem "Apply" [("function", "*")] "" [
        Elem "Apply" [("function", "-")] "" [
         Elem "FieldRef" [("field", "Sepal.Width")] "" []; 
         Elem "Constant" [("dataType", "double")] "3.0573333333333337" [Chars "3.0573333333333337"]]; 
        Elem "Constant" [("dataType", "double")] "-0.08452251406456857" [Chars "-0.08452251406456857"]]; 
       Elem "Apply" [("function", "*")] "" [
        Elem "Apply" [("function", "-")] "" [
         Elem "FieldRef" [("field", "Petal.Length")] "" []; 
         Elem "Constant" [("dataType", "double")] "3.7580000000000005" [Chars "3.7580000000000005"]]; 
        Elem "Constant" [("dataType", "double")] "0.8566706059498351" [Chars "0.8566706059498351"]]; 
       Elem "Apply" [("function", "*")] "" [
        Elem "Apply" [("function", "-")] "" [
         Elem "FieldRef" [("field", "Petal.Width")] "" []; 
         Elem "Constant" [("dataType", "double")] "1.1993333333333336" [Chars "1.1993333333333336"]]; 
        Elem "Constant" [("dataType", "double")] "0.3582891971515507" [Chars "0.3582891971515507"]]]]; 
     Elem "DerivedField" [("name", "pca(Sepal.Length, Sepal.Width, Petal.Length, Petal.Width)[1]"); ("optype", "continuous"); ("dataType", "double")] "" [
      Elem "Apply" [("function", "sum")] "" [
       Elem "Apply" [("function", "*")] "" [
        Elem "Apply" [("function", "-")] "" [
         Elem "FieldRef" [("field", "Sepal.Length")] "" []; 
         Elem "Constant" [("dataType", "double")] "5.843333333333334" [Chars "5.843333333333334"]]; 
        Elem "Constant" [("dataType", "double")] "0.6565887712868423" [Chars "0.6565887712868423"]]; 
       Elem "Apply" [("function", "*")] "" [
        Elem "Apply" [("function", "-")] "" [
         Elem "FieldRef" [("field", "Sepal.Width")] "" []; 
         Elem "Constant" [("dataType", "double")] "3.0573333333333337" [Chars "3.0573333333333337"]]; 
        Elem "Constant" [("dataType", "double")] "0.730161434785027" [Chars "0.730161434785027"]]; 
       Elem "Apply" [("function", "*")] "" [
        Elem "Apply" [("function", "-")] "" [
         Elem "FieldRef" [("field", "Petal.Length")] "" []; 
         Elem "Constant" [("dataType", "double")] "3.7580000000000005" [Chars "3.7580000000000005"]]; 
        Elem "Constant" [("dataType", "double")] "-0.17337266279585672" [Chars "-0.17337266279585672"]]; 
       Elem "Apply" [("function", "*")] "" [
        Elem "Apply" [("function", "-")] "" [
         Elem "FieldRef" [("field", "Petal.Width")] "" []; 
         Elem "Constant" [("dataType", "double")] "1.1993333333333336" [Chars "1.1993333333333336"]]; 
        Elem "Constant" [("dataType", "double")] "-0.07548101991746359" [Chars "-0.07548101991746359"]]]]]; 
    Elem "Segmentation" [("multipleModelMethod", "modelChain"); ("missingPredictionTreatment", "returnMissing")] "" [
     Elem "Segment" [("id", "1")] "" [
      Elem "True" [] "" []; 
      Elem "RegressionModel" [("functionName", "regression"); ("normalizationMethod", "logit")] "" [
       Elem "MiningSchema" [] "" [
        Elem "MiningField" [("name", "pca(Sepal.Length, Sepal.Width, Petal.Length, Petal.Width)[0]")] "" []; 
        Elem "MiningField" [("name", "pca(Sepal.Length, Sepal.Width, Petal.Length, Petal.Width)[1]")] "" []]; 
       Elem "Output" [] "" [
        Elem "OutputField" [("name", "decisionFunction(Setosa)"); ("optype", "continuous"); ("dataType", "double"); ("isFinalResult", "false")] "" []]; 
       Elem "RegressionTable" [("intercept", "-3.0635999764155963")] "" [
        Elem "NumericPredictor" [("name", "pca(Sepal.Length, Sepal.Width, Petal.Length, Petal.Width)[0]"); ("coefficient", "-2.5777270870220446")] "" []; 
        Elem "NumericPredictor" [("name", "pca(Sepal.Length, Sepal.Width, Petal.Length, Petal.Width)[1]"); ("coefficient", "0.8444880790599655")] "" []]]]; 
     Elem "Segment" [("id", "2")] "" [
      Elem "True" [] "" []; 
      Elem "RegressionModel" [("functionName", "regression"); ("normalizationMethod", "logit")] "" [
       Elem "MiningSchema" [] "" [
        Elem "MiningField" [("name", "pca(Sepal.Length, Sepal.Width, Petal.Length, Petal.Width)[0]")] "" []; 
        Elem "MiningField" [("name", "pca(Sepal.Length, Sepal.Width, Petal.Length, Petal.Width)[1]")] "" []]; 
       Elem "Output" [] "" [
        Elem "OutputField" [("name", "decisionFunction(Versicolor)"); ("optype", "continuous"); ("dataType", "double"); ("isFinalResult", "false")] "" []]; 
       Elem "RegressionTable" [("intercept", "-0.8378074191582999")] "" [
        Elem "NumericPredictor" [("name", "pca(Sepal.Length, Sepal.Width, Petal.Length, Petal.Width)[0]"); ("coefficient", "0.24642105454846297")] "" []; 
        Elem "NumericPredictor" [("name", "pca(Sepal.Length, Sepal.Width, Petal.Length, Petal.Width)[1]"); ("coefficient", "-1.6124723921769464")] "" []]]]; 
     Elem "Segment" [("id", "3")] "" [
      Elem "True" [] "" []; 
      Elem "RegressionModel" [("functionName", "regression"); ("normalizationMethod", "logit")] "" [
       Elem "MiningSchema" [] "" [
        Elem "MiningField" [("name", "pca(Sepal.Length, Sepal.Width, Petal.Length, Petal.Width)[0]")] "" []; 
        Elem "MiningField" [("name", "pca(Sepal.Length, Sepal.Width, Petal.Length, Petal.Width)[1]")] "" []]; 
       Elem "Output" [] "" [
        Elem "OutputField" [("name", "decisionFunction(Virginica)"); ("optype", "continuous"); ("dataType", "double"); ("isFinalResult", "false")] "" []]; 
       Elem "RegressionTable" [("intercept", "-4.557970932992468")] "" [
        Elem "NumericPredictor" [("name", "pca(Sepal.Length, Sepal.Width, Petal.Length, Petal.Width)[0]"); ("coefficient", "3.407144477780455")] "" []; 
        Elem "NumericPredictor" [("name", "pca(Sepal.Length, Sepal.Width, Petal.Length, Petal.Width)[1]"); ("coefficient", "-1.5276138854717904")] "" []]]]; 
     Elem "Segment" [("id", "4")] "" [
      Elem "True" [] "" []; 
      Elem "RegressionModel" [("functionName", "classification"); ("normalizationMethod", "simplemax")] "" [
       Elem "MiningSchema" [] "" [
        Elem "MiningField" [("name", "Species"); ("usageType", "target")] "" []; 
        Elem "MiningField" [("name", "decisionFunction(Setosa)")] "" []; 
        Elem "MiningField" [("name", "decisionFunction(Versicolor)")] "" []; 
        Elem "MiningField" [("name", "decisionFunction(Virginica)")] "" []]; 
       Elem "Output" [] "" [
        Elem "OutputField" [("name", "probability(Setosa)"); ("optype", "continuous"); ("dataType", "double"); ("feature", "probability"); ("value", "Setosa")] "" []; 
        Elem "OutputField" [("name", "probability(Versicolor)"); ("optype", "continuous"); ("dataType", "double"); ("feature", "probability"); ("value", "Versicolor")] "" []; 
        Elem "OutputField" [("name", "probability(Virginica)"); ("optype", "continuous"); ("dataType", "double"); ("feature", "probability"); ("value", "Virginica")] "" []]; 
       Elem "RegressionTable" [("intercept", "0.0"); ("targetCategory", "Setosa")] "" [
        Elem "NumericPredictor" [("name", "decisionFunction(Setosa)"); ("coefficient", "1.0")] "" []]; 
       Elem "RegressionTable" [("intercept", "0.0"); ("targetCategory", "Versicolor")] "" [
        Elem "NumericPredictor" [("name", "decisionFunction(Versicolor)"); ("coefficient", "1.0")] "" []]; 
       Elem "RegressionTable" [("intercept", "0.0"); ("targetCategory", "Virginica")] "" [
        Elem "NumericPredictor" [("name", "decisionFunction(Virginica)"); ("coefficient", "1.0")] "" []]]]]; 
    Elem "ModelVerification" [("recordCount", "15")] "" [
     Elem "VerificationFields" [] "" [
      Elem "VerificationField" [("field", "Petal.Length"); ("column", "data:Petal.Length")] "" []; 
      Elem "VerificationField" [("field", "Petal.Width"); ("column", "data:Petal.Width")] "" []; 
      Elem "VerificationField" [("field", "Sepal.Length"); ("column", "data:Sepal.Length")] "" []; 
      Elem "VerificationField" [("field", "Sepal.Width"); ("column", "data:Sepal.Width")] "" []; 
      Elem "VerificationField" [("field", "probability(Setosa)"); ("column", "data:probability_Setosa"); ("precision", "1.0E-13"); ("zeroThreshold", "1.0E-13")] "" []; 
      Elem "VerificationField" [("field", "probability(Versicolor)"); ("column", "data:probability_Versicolor"); ("precision", "1.0E-13"); ("zeroThreshold", "1.0E-13")] "" []; 
      Elem "VerificationField" [("field", "probability(Virginica)"); ("column", "data:probability_Virginica"); ("precision", "1.0E-13"); ("zeroThreshold", "1.0E-13")] "" []]; 
     Elem "InlineTable" [] "" [
      Elem "row" [] "" [
       Elem "Petal.Length" [] "" [Chars "1.1"]; 
       Elem "Petal.Width" [] "" [Chars "0.1"]; 
       Elem "Sepal.Length" [] "" [Chars "4.3"]; 
       Elem "Sepal.Width" [] "" [Chars "3.0"]; 
       Elem "probability_Setosa" [] "" [Chars "0.7628338533074022"]; 
       Elem "probability_Versicolor" [] "" [Chars "0.23716584785345848"]; 
       Elem "probability_Virginica" [] "" [Chars "2.9883913925158434E-7"]]; 
      Elem "row" [] "" [
       Elem "Petal.Length" [] "" [Chars "1.5"]; 
       Elem "Petal.Width" [] "" [Chars "0.4"]; 
       Elem "Sepal.Length" [] "" [Chars "5.7"]; 
       Elem "Sepal.Width" [] "" [Chars "4.4"]; 
       Elem "probability_Setosa" [] "" [Chars "0.973302328799294"]; 
       Elem "probability_Versicolor" [] "" [Chars "0.026697276057678392"]; 
       Elem "probability_Virginica" [] "" [Chars "3.951430276214334E-7"]]; 
      Elem "row" [] "" [
       Elem "Petal.Length" [] "" [Chars "6.7"]; 
       Elem "Petal.Width" [] "" [Chars "2.0"]; 
       Elem "Sepal.Length" [] "" [Chars "7.7"]; 
       Elem "Sepal.Width" [] "" [Chars "2.8"]; 
       Elem "probability_Setosa" [] "" [Chars "6.274746279971523E-6"]; 
       Elem "probability_Versicolor" [] "" [Chars "0.24710720077658194"]; 
       Elem "probability_Virginica" [] "" [Chars "0.7528865244771381"]]; 
      Elem "row" [] "" [
       Elem "Petal.Length" [] "" [Chars "1.6"]; 
       Elem "Petal.Width" [] "" [Chars "0.2"]; 
       Elem "Sepal.Length" [] "" [Chars "4.8"]; 
       Elem "Sepal.Width" [] "" [Chars "3.1"]; 
       Elem "probability_Setosa" [] "" [Chars "0.8006279651734419"]; 
       Elem "probability_Versicolor" [] "" [Chars "0.1993702781511943"]; 
       Elem "probability_Virginica" [] "" [Chars "1.7566753636635772E-6"]]; 
      Elem "row" [] "" [
       Elem "Petal.Length" [] "" [Chars "5.4"]; 
       Elem "Petal.Width" [] "" [Chars "2.1"]; 
       Elem "Sepal.Length" [] "" [Chars "6.9"]; 
       Elem "Sepal.Width" [] "" [Chars "3.1"]; 
       Elem "probability_Setosa" [] "" [Chars "2.3854974043837425E-4"]; 
       Elem "probability_Versicolor" [] "" [Chars "0.24338254425017025"]; 
       Elem "probability_Virginica" [] "" [Chars "0.7563789060093913"]]; 
      Elem "row" [] "" [
       Elem "Petal.Length" [] "" [Chars "5.8"]; 
       Elem "Petal.Width" [] "" [Chars "2.2"]; 
       Elem "Sepal.Length" [] "" [Chars "6.5"]; 
       Elem "Sepal.Width" [] "" [Chars "3.0"]; 
       Elem "probability_Setosa" [] "" [Chars "7.425556425206926E-5"]; 
       Elem "probability_Versicolor" [] "" [Chars "0.31747655105070927"]; 
       Elem "probability_Virginica" [] "" [Chars "0.6824491933850386"]]; 
      Elem "row" [] "" [
       Elem "Petal.Length" [] "" [Chars "3.9"]; 
       Elem "Petal.Width" [] "" [Chars "1.4"]; 
       Elem "Sepal.Length" [] "" [Chars "5.2"]; 
       Elem "Sepal.Width" [] "" [Chars "2.7"]; 
       Elem "probability_Setosa" [] "" [Chars "0.039773941734197675"]; 
       Elem "probability_Versicolor" [] "" [Chars "0.913369375448648"]; 
       Elem "probability_Virginica" [] "" [Chars "0.04685668281715421"]]; 
      Elem "row" [] "" [
       Elem "Petal.Length" [] "" [Chars "6.1"]; 
       Elem "Petal.Width" [] "" [Chars "2.3"]; 
       Elem "Sepal.Length" [] "" [Chars "7.7"]; 
       Elem "Sepal.Width" [] "" [Chars "3.0"]; 
       Elem "probability_Setosa" [] "" [Chars "2.4507011011959574E-5"]; 
       Elem "probability_Versicolor" [] "" [Chars "0.1904003332049974"]; 
       Elem "probability_Virginica" [] "" [Chars "0.8095751597839906"]]; 
      Elem "row" [] "" [
       Elem "Petal.Length" [] "" [Chars "1.9"]; 
       Elem "Petal.Width" [] "" [Chars "0.2"]; 
       Elem "Sepal.Length" [] "" [Chars "4.8"]; 
       Elem "Sepal.Width" [] "" [Chars "3.4"]; 
       Elem "probability_Setosa" [] "" [Chars "0.8230772439351483"]; 
       Elem "probability_Versicolor" [] "" [Chars "0.1769196197166965"]; 
       Elem "probability_Virginica" [] "" [Chars "3.1363481553246633E-6"]]; 
      Elem "row" [] "" [
       Elem "Petal.Length" [] "" [Chars "4.5"]; 
       Elem "Petal.Width" [] "" [Chars "1.3"]; 
       Elem "Sepal.Length" [] "" [Chars "5.7"]; 
       Elem "Sepal.Width" [] "" [Chars "2.8"]; 
       Elem "probability_Setosa" [] "" [Chars "0.009521350702852099"]; 
       Elem "probability_Versicolor" [] "" [Chars "0.7611711288236422"]; 
       Elem "probability_Virginica" [] "" [Chars "0.22930752047350567"]]; 
      Elem "row" [] "" [
       Elem "Petal.Length" [] "" [Chars "4.3"]; 
       Elem "Petal.Width" [] "" [Chars "1.3"]; 
       Elem "Sepal.Length" [] "" [Chars "6.2"]; 
       Elem "Sepal.Width" [] "" [Chars "2.9"]; 
       Elem "probability_Setosa" [] "" [Chars "0.02122793949482295"]; 
       Elem "probability_Versicolor" [] "" [Chars "0.781137126868092"]; 
       Elem "probability_Virginica" [] "" [Chars "0.1976349336370849"]]; 
      Elem "row" [] "" [
       Elem "Petal.Length" [] "" [Chars "1.4"]; 
       Elem "Petal.Width" [] "" [Chars "0.2"]; 
       Elem "Sepal.Length" [] "" [Chars "5.1"]; 
       Elem "Sepal.Width" [] "" [Chars "3.5"]; 
       Elem "probability_Setosa" [] "" [Chars "0.8931618320322028"]; 
       Elem "probability_Versicolor" [] "" [Chars "0.10683754454783587"]; 
       Elem "probability_Virginica" [] "" [Chars "6.234199612142775E-7"]]; 
      Elem "row" [] "" [
       Elem "Petal.Length" [] "" [Chars "5.6"]; 
       Elem "Petal.Width" [] "" [Chars "1.8"]; 
       Elem "Sepal.Length" [] "" [Chars "6.3"]; 
       Elem "Sepal.Width" [] "" [Chars "2.9"]; 
       Elem "probability_Setosa" [] "" [Chars "1.7740384237736824E-4"]; 
       Elem "probability_Versicolor" [] "" [Chars "0.3450371602684861"]; 
       Elem "probability_Virginica" [] "" [Chars "0.6547854358891366"]]; 
      Elem "row" [] "" [
       Elem "Petal.Length" [] "" [Chars "1.6"]; 
       Elem "Petal.Width" [] "" [Chars "0.6"]; 
       Elem "Sepal.Length" [] "" [Chars "5.0"]; 
       Elem "Sepal.Width" [] "" [Chars "3.5"]; 
       Elem "probability_Setosa" [] "" [Chars "0.8654419167752481"]; 
       Elem "probability_Versicolor" [] "" [Chars "0.13455613960362395"]; 
       Elem "probability_Virginica" [] "" [Chars "1.9436211281555164E-6"]]; 
      Elem "row" [] "" [
       Elem "Petal.Length" [] "" [Chars "1.5"]; 
       Elem "Petal.Width" [] "" [Chars "0.2"]; 
       Elem "Sepal.Length" [] "" [Chars "5.0"]; 
       Elem "Sepal.Width" [] "" [Chars "3.4"]; 
       Elem "probability_Setosa" [] "" [Chars "0.8684894127314193"]; 
       Elem "probability_Versicolor" [] "" [Chars "0.13150964505286003"]; 
       Elem "probability_Virginica" [] "" [Chars "9.42215720580238E-7"]]]]]].

(** evaluation/tree_test.go *)
Definition test_normal : xml :=
  Elem "PMML" [("xmlns", "http://www.dmg.org/PMML-4_3"); ("version", "4.3")] "" [
   Elem "Header" [("copyright", "www.dmg.org"); ("description", "A very small binary tree model to show structure.")] "" []; 
   Elem "DataDictionary" [("numberOfFields", "5")] "" [
    Elem "DataField" [("name", "temperature"); ("optype", "continuous"); ("dataType", "double")] "" []; 
    Elem "DataField" [("name", "humidity"); ("optype", "continuous"); ("dataType", "double")] "" []; 
    Elem "DataField" [("name", "windy"); ("optype", "categorical"); ("dataType", "string")] "" [
     Elem "Value" [("value", "true")] "" []; 
     Elem "Value" [("value", "false")] "" []]; 
    Elem "DataField" [("name", "outlook"); ("optype", "categorical"); ("dataType", "string")] "" [
     Elem "Value" [("value", "sunny")] "" []; 
     Elem "Value" [("value", "overcast")] "" []; 
     Elem "Value" [("value", "rain")] "" []]; 
    Elem "DataField" [("name", "whatIdo"); ("optype", "categorical"); ("dataType", "string")] "" [
     Elem "Value" [("value", "will play")] "" []; 
     Elem "Value" [("value", "may play")] "" []; 
     Elem "Value" [("value", "no play")] "" []]]; 
   Elem "TreeModel" [("modelName", "golfing"); ("functionName", "classification")] "" [
    Elem "MiningSchema" [] "" [
     Elem "MiningField" [("name", "temperature")] "" []; 
     Elem "MiningField" [("name", "humidity")] "" []; 
     Elem "MiningField" [("name", "windy")] "" []; 
     Elem "MiningField" [("name", "outlook")] "" []; 
     Elem "MiningField" [("name", "whatIdo"); ("usageType", "target")] "" []]; 
    Elem "Node" [("score", "will play")] "" [
     Elem "True" [] "" []; 
     Elem "Node" [("score", "will play")] "" [
      Elem "SimplePredicate" [("field", "outlook"); ("operator", "equal"); ("value", "sunny")] "" []; 
      Elem "Node" [("score", "will play")] "" [
       Elem "CompoundPredicate" [("booleanOperator", "and")] "" [
        Elem "SimplePredicate" [("field", "temperature"); ("operator", "lessThan"); ("value", "90")] "" []; 
        Elem "SimplePredicate" [("field", "temperature"); ("operator", "greaterThan"); ("value", "50")] "" []]; 
       Elem "Node" [("score", "will play")] "" [
        Elem "SimplePredicate" [("field", "humidity"); ("operator", "lessThan"); ("value", "80")] "" []]; 
       Elem "Node" [("score", "no play")] "" [
        Elem "SimplePredicate" [("field", "humidity"); ("operator", "greaterOrEqual"); ("value", "80")] "" []]]; 
      Elem "Node" [("score", "no play")] "" [
       Elem "CompoundPredicate" [("booleanOperator", "or")] "" [
        Elem "SimplePredicate" [("field", "temperature"); ("operator", "greaterOrEqual"); ("value", "90")] "" []; 
        Elem "SimplePredicate" [("field", "temperature"); ("operator", "lessOrEqual"); ("value", "50")] "" []]]]; 
     Elem "Node" [("score", "may play")] "" [
      Elem "CompoundPredicate" [("booleanOperator", "or")] "" [
       Elem "SimplePredicate" [("field", "outlook"); ("operator", "equal"); ("value", "overcast")] "" []; 
       Elem "SimplePredicate" [("field", "outlook"); ("operator", "equal"); ("value", "rain")] "" []]; 
      Elem "Node" [("score", "may play")] "" [
       Elem "CompoundPredicate" [("booleanOperator", "and")] "" [
        Elem "SimplePredicate" [("field", "temperature"); ("operator", "greaterThan"); ("value", "60")] "" []; 
        Elem "SimplePredicate" [("field", "temperature"); ("operator", "lessThan"); ("value", "100")] "" []; 
        Elem "SimplePredicate" [("field", "outlook"); ("operator", "equal"); ("value", "overcast")] "" []; 
        Elem "SimplePredicate" [("field", "humidity"); ("operator", "lessThan"); ("value", "70")] "" []; 
        Elem "SimplePredicate" [("field", "windy"); ("operator", "equal"); ("value", "false")] "" []]]; 
      Elem "Node" [("score", "no play")] "" [
       Elem "CompoundPredicate" [("booleanOperator", "and")] "" [
        Elem "SimplePredicate" [("field", "outlook"); ("operator", "equal"); ("value", "rain")] "" []; 
        Elem "SimplePredicate" [("field", "humidity"); ("operator", "lessThan"); ("value", "70")] "" []]]]]]].

(** evaluation/tree_test.go *)
Definition test_aggregateNodes : xml :=
  Elem "PMML" [("xmlns", "http://www.dmg.org/PMML-4_3"); ("version", "4.3")] "" [
   Elem "Header" [("copyright", "www.dmg.org"); ("description", "A very small tree model to demonstrate missing value handling and confidence calculation.")] "" []; 
   Elem "DataDictionary" [("numberOfFields", "4")] "" [
    Elem "DataField" [("name", "temperature"); ("optype", "continuous"); ("dataType", "double")] "" []; 
    Elem "DataField" [("name", "humidity"); ("optype", "continuous"); ("dataType", "double")] "" []; 
    Elem "DataField" [("name", "outlook"); ("optype", "categorical"); ("dataType", "string")] "" [
     Elem "Value" [("value", "sunny")] "" []; 
     Elem "Value" [("value", "overcast")] "" []; 
     Elem "Value" [("value", "rain")] "" []]; 
    Elem "DataField" [("name", "whatIdo"); ("optype", "categorical"); ("dataType", "string")] "" [
     Elem "Value" [("value", "will play")] "" []; 
     Elem "Value" [("value", "may play")] "" []; 
     Elem "Value" [("value", "no play")] "" []]]; 
   Elem "TreeModel" [("modelName", "golfing"); ("functionName", "classification"); ("missingValueStrategy", "aggregateNodes")] "" [
    Elem "MiningSchema" [] "" [
     Elem "MiningField" [("name", "temperature")] "" []; 
     Elem "MiningField" [("name", "humidity")] "" []; 
     Elem "MiningField" [("name", "outlook")] "" []; 
     Elem "MiningField" [("name", "whatIdo"); ("usageType", "target")] "" []]; 
    Elem "Node" [("id", "1"); ("score", "will play"); ("recordCount", "100"); ("defaultChild", "2")] "" [
     Elem "True" [] "" []; 
     Elem "ScoreDistribution" [("value", "will play"); ("recordCount", "60"); ("confidence", "0.6")] "" []; 
     Elem "ScoreDistribution" [("value", "may play"); ("recordCount", "30"); ("confidence", "0.3")] "" []; 
     Elem "ScoreDistribution" [("value", "no play"); ("recordCount", "10"); ("confidence", "0.1")] "" []; 
     Elem "Node" [("id", "2"); ("score", "will play"); ("recordCount", "50"); ("defaultChild", "3")] "" [
      Elem "SimplePredicate" [("field", "outlook"); ("operator", "equal"); ("value", "sunny")] "" []; 
      Elem "ScoreDistribution" [("value", "will play"); ("recordCount", "40"); ("confidence", "0.8")] "" []; 
      Elem "ScoreDistribution" [("value", "may play"); ("recordCount", "2"); ("confidence", "0.04")] "" []; 
      Elem "ScoreDistribution" [("value", "no play"); ("recordCount", "8"); ("confidence", "0.16")] "" []; 
      Elem "Node" [("id", "3"); ("score", "will play"); ("recordCount", "40")] "" [
       Elem "CompoundPredicate" [("booleanOperator", "surrogate")] "" [
        Elem "SimplePredicate" [("field", "temperature"); ("operator", "greaterOrEqual"); ("value", "50")] "" []; 
        Elem "SimplePredicate" [("field", "humidity"); ("operator", "lessThan"); ("value", "80")] "" []]; 
       Elem "ScoreDistribution" [("value", "will play"); ("recordCount", "36"); ("confidence", "0.9")] "" []; 
       Elem "ScoreDistribution" [("value", "may play"); ("recordCount", "2"); ("confidence", "0.05")] "" []; 
       Elem "ScoreDistribution" [("value", "no play"); ("recordCount", "2"); ("confidence", "0.05")] "" []]; 
      Elem "Node" [("id", "4"); ("score", "no play"); ("recordCount", "10")] "" [
       Elem "CompoundPredicate" [("booleanOperator", "surrogate")] "" [
        Elem "SimplePredicate" [("field", "temperature"); ("operator", "lessThan"); ("value", "50")] "" []; 
        Elem "SimplePredicate" [("field", "humidity"); ("operator", "greaterOrEqual"); ("value", "80")] "" []]; 
       Elem "ScoreDistribution" [("value", "will play"); ("recordCount", "4"); ("confidence", "0.4")] "" []; 
       Elem "ScoreDistribution" [("value", "may play"); ("recordCount", "0"); ("confidence", "0.0")] "" []; 
       Elem "ScoreDistribution" [("value", "no play"); ("recordCount", "6"); ("confidence", "0.6")] "" []]]; 
     Elem "Node" [("id", "5"); ("score", "may play"); ("recordCount", "50")] "" [
      Elem "CompoundPredicate" [("booleanOperator", "or")] "" [
       Elem "SimplePredicate" [("field", "outlook"); ("operator", "equal"); ("value", "overcast")] "" []; 
       Elem "SimplePredicate" [("field", "outlook"); ("operator", "equal"); ("value", "rain")] "" []]; 
      Elem "ScoreDistribution" [("value", "will play"); ("recordCount", "20"); ("confidence", "0.4")] "" []; 
      Elem "ScoreDistribution" [("value", "may play"); ("recordCount", "28"); ("confidence", "0.56")] "" []; 
      Elem "ScoreDistribution" [("value", "no play"); ("recordCount", "2"); ("confidence", "0.04")] "" []]]]].

(** evaluation/tree_test.go *)
Definition test_defaultChild : xml :=
  Elem "PMML" [("xmlns", "http://www.dmg.org/PMML-4_3"); ("version", "4.3")] "" [
   Elem "Header" [("copyright", "www.dmg.org"); ("description", "A very small tree model to demonstrate missing value handling and confidence calculation.")] "" []; 
   Elem "DataDictionary" [("numberOfFields", "4")] "" [
    Elem "DataField" [("name", "temperature"); ("optype", "continuous"); ("dataType", "double")] "" []; 
    Elem "DataField" [("name", "humidity"); ("optype", "continuous"); ("dataType", "double")] "" []; 
    Elem "DataField" [("name", "outlook"); ("optype", "categorical"); ("dataType", "string")] "" [
     Elem "Value" [("value", "sunny")] "" []; 
     Elem "Value" [("value", "overcast")] "" []; 
     Elem "Value" [("value", "rain")] "" []]; 
    Elem "DataField" [("name", "whatIdo"); ("optype", "categorical"); ("dataType", "string")] "" [
     Elem "Value" [("value", "will play")] "" []; 
     Elem "Value" [("value", "may play")] "" []; 
     Elem "Value" [("value", "no play")] "" []]]; 
   Elem "TreeModel" [("modelName", "golfing"); ("functionName", "classification"); ("missingValueStrategy", "defaultChild"); ("missingValuePenalty", "0.8")] "" [
    Elem "MiningSchema" [] "" [
     Elem "MiningField" [("name", "temperature")] "" []; 
     Elem "MiningField" [("name", "humidity")] "" []; 
     Elem "MiningField" [("name", "outlook")] "" []; 
     Elem "MiningField" [("name", "whatIdo"); ("usageType", "target")] "" []]; 
    Elem "Node" [("id", "1"); ("score", "will play"); ("recordCount", "100"); ("defaultChild", "2")] "" [
     Elem "True" [] "" []; 
     Elem "ScoreDistribution" [("value", "will play"); ("recordCount", "60"); ("confidence", "0.6")] "" []; 
     Elem "ScoreDistribution" [("value", "may play"); ("recordCount", "30"); ("confidence", "0.3")] "" []; 
     Elem "ScoreDistribution" [("value", "no play"); ("recordCount", "10"); ("confidence", "0.1")] "" []; 
     Elem "Node" [("id", "2"); ("score", "will play"); ("recordCount", "50"); ("defaultChild", "3")] "" [
      Elem "SimplePredicate" [("field", "outlook"); ("operator", "equal"); ("value", "sunny")] "" []; 
      Elem "ScoreDistribution" [("value", "will play"); ("recordCount", "40"); ("confidence", "0.8")] "" []; 
      Elem "ScoreDistribution" [("value", "may play"); ("recordCount", "2"); ("confidence", "0.04")] "" []; 
      Elem "ScoreDistribution" [("value", "no play"); ("recordCount", "8"); ("confidence", "0.16")] "" []; 
      Elem "Node" [("id", "3"); ("score", "will play"); ("recordCount", "40")] "" [
       Elem "CompoundPredicate" [("booleanOperator", "surrogate")] "" [
        Elem "SimplePredicate" [("field", "temperature"); ("operator", "greaterOrEqual"); ("value", "50")] "" []; 
        Elem "SimplePredicate" [("field", "humidity"); ("operator", "lessThan"); ("value", "80")] "" []]; 
       Elem "ScoreDistribution" [("value", "will play"); ("recordCount", "36"); ("confidence", "0.9")] "" []; 
       Elem "ScoreDistribution" [("value", "may play"); ("recordCount", "2"); ("confidence", "0.05")] "" []; 
       Elem "ScoreDistribution" [("value", "no play"); ("recordCount", "2"); ("confidence", "0.05")] "" []]; 
      Elem "Node" [("id", "4"); ("score", "no play"); ("recordCount", "10")] "" [
       Elem "CompoundPredicate" [("booleanOperator", "surrogate")] "" [
        Elem "SimplePredicate" [("field", "temperature"); ("operator", "lessThan"); ("value", "50")] "" []; 
        Elem "SimplePredicate" [("field", "humidity"); ("operator", "greaterOrEqual"); ("value", "80")] "" []]; 
       Elem "ScoreDistribution" [("value", "will play"); ("recordCount", "4"); ("confidence", "0.4")] "" []; 
       Elem "ScoreDistribution" [("value", "may play"); ("recordCount", "0"); ("confidence", "0.0")] "" []; 
       Elem "ScoreDistribution" [("value", "no play"); ("recordCount", "6"); ("confidence", "0.6")] "" []]]; 
     Elem "Node" [("id", "5"); ("score", "may play"); ("recordCount", "50")] "" [
      Elem "CompoundPredicate" [("booleanOperator", "or")] "" [
       Elem "SimplePredicate" [("field", "outlook"); ("operator", "equal"); ("value", "overcast")] "" []; 
       Elem "SimplePredicate" [("field", "outlook"); ("operator", "equal"); ("value", "rain")] "" []]; 
      Elem "ScoreDistribution" [("value", "will play"); ("recordCount", "20"); ("confidence", "0.4")] "" []; 
      Elem "ScoreDistribution" [("value", "may play"); ("recordCount", "28"); ("confidence", "0.56")] "" []; 
      Elem "ScoreDistribution" [("value", "no play"); ("recordCount", "2"); ("confidence", "0.04")] "" []]]]].

(** evaluation/tree_test.go *)
Definition test_lastPrediction : xml :=
  Elem "PMML" [("xmlns", "http://www.dmg.org/PMML-4_3"); ("version", "4.3")] "" [
   Elem "Header" [("copyright", "www.dmg.org"); ("description", "A very small tree model to demonstrate missing value handling and confidence calculation.")] "" []; 
   Elem "DataDictionary" [("numberOfFields", "4")] "" [
    Elem "DataField" [("name", "temperature"); ("optype", "continuous"); ("dataType", "double")] "" []; 
    Elem "DataField" [("name", "humidity"); ("optype", "continuous"); ("dataType", "double")] "" []; 
    Elem "DataField" [("name", "outlook"); ("optype", "categorical"); ("dataType", "string")] "" [
     Elem "Value" [("value", "sunny")] "" []; 
     Elem "Value" [("value", "overcast")] "" []; 
     Elem "Value" [("value", "rain")] "" []]; 
    Elem "DataField" [("name", "whatIdo"); ("optype", "categorical"); ("dataType", "string")] "" [
     Elem "Value" [("value", "will play")] "" []; 
     Elem "Value" [("value", "may play")] "" []; 
     Elem "Value" [("value", "no play")] "" []]]; 
   Elem "TreeModel" [("modelName", "golfing"); ("functionName", "classification"); ("missingValueStrategy", "lastPrediction")] "" [
    Elem "MiningSchema" [] "" [
     Elem "MiningField" [("name", "temperature")] "" []; 
     Elem "MiningField" [("name", "humidity")] "" []; 
     Elem "MiningField" [("name", "outlook")] "" []; 
     Elem "MiningField" [("name", "whatIdo"); ("usageType", "target")] "" []]; 
    Elem "Node" [("id", "1"); ("score", "will play"); ("recordCount", "100"); ("defaultChild", "2")] "" [
     Elem "True" [] "" []; 
     Elem "ScoreDistribution" [("value", "will play"); ("recordCount", "60"); ("confidence", "0.6")] "" []; 
     Elem "ScoreDistribution" [("value", "may play"); ("recordCount", "30"); ("confidence", "0.3")] "" []; 
     Elem "ScoreDistribution" [("value", "no play"); ("recordCount", "10"); ("confidence", "0.1")] "" []; 
     Elem "Node" [("id", "2"); ("score", "will play"); ("recordCount", "50"); ("defaultChild", "3")] "" [
      Elem "SimplePredicate" [("field", "outlook"); ("operator", "equal"); ("value", "sunny")] "" []; 
      Elem "ScoreDistribution" [("value", "will play"); ("recordCount", "40"); ("confidence", "0.8")] "" []; 
      Elem "ScoreDistribution" [("value", "may play"); ("recordCount", "2"); ("confidence", "0.04")] "" []; 
      Elem "ScoreDistribution" [("value", "no play"); ("recordCount", "8"); ("confidence", "0.16")] "" []; 
      Elem "Node" [("id", "3"); ("score", "will play"); ("recordCount", "40")] "" [
       Elem "CompoundPredicate" [("booleanOperator", "surrogate")] "" [
        Elem "SimplePredicate" [("field", "temperature"); ("operator", "greaterOrEqual"); ("value", "50")] "" []; 
        Elem "SimplePredicate" [("field", "humidity"); ("operator", "lessThan"); ("value", "80")] "" []]; 
       Elem "ScoreDistribution" [("value", "will play"); ("recordCount", "36"); ("confidence", "0.9")] "" []; 
       Elem "ScoreDistribution" [("value", "may play"); ("recordCount", "2"); ("confidence", "0.05")] "" []; 
       Elem "ScoreDistribution" [("value", "no play"); ("recordCount", "2"); ("confidence", "0.05")] "" []]; 
      Elem "Node" [("id", "4"); ("score", "no play"); ("recordCount", "10")] "" [
       Elem "CompoundPredicate" [("booleanOperator", "surrogate")] "" [
        Elem "SimplePredicate" [("field", "temperature"); ("operator", "lessThan"); ("value", "50")] "" []; 
        Elem "SimplePredicate" [("field", "humidity"); ("operator", "greaterOrEqual"); ("value", "80")] "" []]; 
       Elem "ScoreDistribution" [("value", "will play"); ("recordCount", "4"); ("confidence", "0.4")] "" []; 
       Elem "ScoreDistribution" [("value", "may play"); ("recordCount", "0"); ("confidence", "0.0")] "" []; 
       Elem "ScoreDistribution" [("value", "no play"); ("recordCount", "6"); ("confidence", "0.6")] "" []]]; 
     Elem "Node" [("id", "5"); ("score", "may play"); ("recordCount", "50")] "" [
      Elem "CompoundPredicate" [("booleanOperator", "or")] "" [
       Elem "SimplePredicate" [("field", "outlook"); ("operator", "equal"); ("value", "overcast")] "" []; 
       Elem "SimplePredicate" [("field", "outlook"); ("operator", "equal"); ("value", "rain")] "" []]; 
      Elem "ScoreDistribution" [("value", "will play"); ("recordCount", "20"); ("confidence", "0.4")] "" []; 
      Elem "ScoreDistribution" [("value", "may play"); ("recordCount", "28"); ("confidence", "0.56")] "" []; 
      Elem "ScoreDistribution" [("value", "no play"); ("recordCount", "2"); ("confidence", "0.04")] "" []]]]].

(** evaluation/tree_test.go *)
Definition test_nullPredictedValue : xml :=
  Elem "PMML" [("xmlns", "http://www.dmg.org/PMML-4_3"); ("version", "4.3")] "" [
   Elem "Header" [("copyright", "www.dmg.org"); ("description", "A very small tree model to demonstrate missing value handling and confidence calculation.")] "" []; 
   Elem "DataDictionary" [("numberOfFields", "4")] "" [
    Elem "DataField" [("name", "temperature"); ("optype", "continuous"); ("dataType", "double")] "" []; 
    Elem "DataField" [("name", "humidity"); ("optype", "continuous"); ("dataType", "double")] "" []; 
    Elem "DataField" [("name", "outlook"); ("optype", "categorical"); ("dataType", "string")] "" [
     Elem "Value" [("value", "sunny")] "" []; 
     Elem "Value" [("value", "overcast")] "" []; 
     Elem "Value" [("value", "rain")] "" []]; 
    Elem "DataField" [("name", "whatIdo"); ("optype", "categorical"); ("dataType", "string")] "" [
     Elem "Value" [("value", "will play")] "" []; 
     Elem "Value" [("value", "may play")] "" []; 
     Elem "Value" [("value", "no play")] "" []]]; 
   Elem "TreeModel" [("modelName", "golfing"); ("functionName", "classification"); ("missingValueStrategy", "nullPrediction")] "" [
    Elem "MiningSchema" [] "" [
     Elem "MiningField" [("name", "temperature")] "" []; 
     Elem "MiningField" [("name", "humidity")] "" []; 
     Elem "MiningField" [("name", "outlook")] "" []; 
     Elem "MiningField" [("name", "whatIdo"); ("usageType", "target")] "" []]; 
    Elem "Node" [("id", "1"); ("score", "will play"); ("recordCount", "100"); ("defaultChild", "2")] "" [
     Elem "True" [] "" []; 
     Elem "ScoreDistribution" [("value", "will play"); ("recordCount", "60"); ("confidence", "0.6")] "" []; 
     Elem "ScoreDistribution" [("value", "may play"); ("recordCount", "30"); ("confidence", "0.3")] "" []; 
     Elem "ScoreDistribution" [("value", "no play"); ("recordCount", "10"); ("confidence", "0.1")] "" []; 
     Elem "Node" [("id", "2"); ("score", "will play"); ("recordCount", "50"); ("defaultChild", "3")] "" [
      Elem "SimplePredicate" [("field", "outlook"); ("operator", "equal"); ("value", "sunny")] "" []; 
      Elem "ScoreDistribution" [("value", "will play"); ("recordCount", "40"); ("confidence", "0.8")] "" []; 
      Elem "ScoreDistribution" [("value", "may play"); ("recordCount", "2"); ("confidence", "0.04")] "" []; 
      Elem "ScoreDistribution" [("value", "no play"); ("recordCount", "8"); ("confidence", "0.16")] "" []; 
      Elem "Node" [("id", "3"); ("score", "will play"); ("recordCount", "40")] "" [
       Elem "CompoundPredicate" [("booleanOperator", "surrogate")] "" [
        Elem "SimplePredicate" [("field", "temperature"); ("operator", "greaterOrEqual"); ("value", "50")] "" []; 
        Elem "SimplePredicate" [("field", "humidity"); ("operator", "lessThan"); ("value", "80")] "" []]; 
       Elem "ScoreDistribution" [("value", "will play"); ("recordCount", "36"); ("confidence", "0.9")] "" []; 
       Elem "ScoreDistribution" [("value", "may play"); ("recordCount", "2"); ("confidence", "0.05")] "" []; 
       Elem "ScoreDistribution" [("value", "no play"); ("recordCount", "2"); ("confidence", "0.05")] "" []]; 
      Elem "Node" [("id", "4"); ("score", "no play"); ("recordCount", "10")] "" [
       Elem "CompoundPredicate" [("booleanOperator", "surrogate")] "" [
        Elem "SimplePredicate" [("field", "temperature"); ("operator", "lessThan"); ("value", "50")] "" []; 
        Elem "SimplePredicate" [("field", "humidity"); ("operator", "greaterOrEqual"); ("value", "80")] "" []]; 
       Elem "ScoreDistribution" [("value", "will play"); ("recordCount", "4"); ("confidence", "0.4")] "" []; 
       Elem "ScoreDistribution" [("value", "may play"); ("recordCount", "0"); ("confidence", "0.0")] "" []; 
       Elem "ScoreDistribution" [("value", "no play"); ("recordCount", "6"); ("confidence", "0.6")] "" []]]; 
     Elem "Node" [("id", "5"); ("score", "may play"); ("recordCount", "50")] "" [
      Elem "CompoundPredicate" [("booleanOperator", "or")] "" [
       Elem "SimplePredicate" [("field", "outlook"); ("operator", "equal"); ("value", "overcast")] "" []; 
       Elem "SimplePredicate" [("field", "outlook"); ("operator", "equal"); ("value", "rain")] "" []]; 
      Elem "ScoreDistribution" [("value", "will play"); ("recordCount", "20"); ("confidence", "0.4")] "" []; 
      Elem "ScoreDistribution" [("value", "may play"); ("recordCount", "28"); ("confidence", "0.56")] "" []; 
      Elem "ScoreDistribution" [("value", "no play"); ("recordCount", "2"); ("confidence", "0.04")] "" []]]]].

(** evaluation/tree_test.go *)
Definition test_missingValueStrategies : xml :=
  Elem "PMML" [("xmlns", "http://www.dmg.org/PMML-4_3"); ("version", "4.3")] "" [
   Elem "Header" [("copyright", "www.dmg.org"); ("description", "A very small tree model to demonstrate missing value handling and confidence calculation.")] "" []; 
   Elem "DataDictionary" [("numberOfFields", "4")] "" [
    Elem "DataField" [("name", "temperature"); ("optype", "continuous"); ("dataType", "double")] "" []; 
    Elem "DataField" [("name", "humidity"); ("optype", "continuous"); ("dataType", "double")] "" []; 
    Elem "DataField" [("name", "outlook"); ("optype", "categorical"); ("dataType", "string")] "" [
     Elem "Value" [("value", "sunny")] "" []; 
     Elem "Value" [("value", "overcast")] "" []; 
     Elem "Value" [("value", "rain")] "" []]; 
    Elem "DataField" [("name", "whatIdo"); ("optype", "categorical"); ("dataType", "string")] "" [
     Elem "Value" [("value", "will play")] "" []; 
     Elem "Value" [("value", "may play")] "" []; 
     Elem "Value" [("value", "no play")] "" []]]; 
   Elem "TreeModel" [("modelName", "golfing"); ("functionName", "classification"); ("missingValueStrategy", "weightedConfidence")] "" [
    Elem "MiningSchema" [] "" [
     Elem "MiningField" [("name", "temperature")] "" []; 
     Elem "MiningField" [("name", "humidity")] "" []; 
     Elem "MiningField" [("name", "outlook")] "" []; 
     Elem "MiningField" [("name", "whatIdo"); ("usageType", "target")] "" []]; 
    Elem "Node" [("id", "1"); ("score", "will play"); ("recordCount", "100"); ("defaultChild", "2")] "" [
     Elem "True" [] "" []; 
     Elem "ScoreDistribution" [("value", "will play"); ("recordCount", "60"); ("confidence", "0.6")] "" []; 
     Elem "ScoreDistribution" [("value", "may play"); ("recordCount", "30"); ("confidence", "0.3")] "" []; 
     Elem "ScoreDistribution" [("value", "no play"); ("recordCount", "10"); ("confidence", "0.1")] "" []; 
     Elem "Node" [("id", "2"); ("score", "will play"); ("recordCount", "50"); ("defaultChild", "3")] "" [
      Elem "SimplePredicate" [("field", "outlook"); ("operator", "equal"); ("value", "sunny")] "" []; 
      Elem "ScoreDistribution" [("value", "will play"); ("recordCount", "40"); ("confidence", "0.8")] "" []; 
      Elem "ScoreDistribution" [("value", "may play"); ("recordCount", "2"); ("confidence", "0.04")] "" []; 
      Elem "ScoreDistribution" [("value", "no play"); ("recordCount", "8"); ("confidence", "0.16")] "" []; 
      Elem "Node" [("id", "3"); ("score", "will play"); ("recordCount", "40")] "" [
       Elem "CompoundPredicate" [("booleanOperator", "surrogate")] "" [
        Elem "SimplePredicate" [("field", "temperature"); ("operator", "greaterOrEqual"); ("value", "50")] "" []; 
        Elem "SimplePredicate" [("field", "humidity"); ("operator", "lessThan"); ("value", "80")] "" []]; 
       Elem "ScoreDistribution" [("value", "will play"); ("recordCount", "36"); ("confidence", "0.9")] "" []; 
       Elem "ScoreDistribution" [("value", "may play"); ("recordCount", "2"); ("confidence", "0.05")] "" []; 
       Elem "ScoreDistribution" [("value", "no play"); ("recordCount", "2"); ("confidence", "0.05")] "" []]; 
      Elem "Node" [("id", "4"); ("score", "no play"); ("recordCount", "10")] "" [
       Elem "CompoundPredicate" [("booleanOperator", "surrogate")] "" [
        Elem "SimplePredicate" [("field", "temperature"); ("operator", "lessThan"); ("value", "50")] "" []; 
        Elem "SimplePredicate" [("field", "humidity"); ("operator", "greaterOrEqual"); ("value", "80")] "" []]; 
       Elem "ScoreDistribution" [("value", "will play"); ("recordCount", "4"); ("confidence", "0.4")] "" []; 
       Elem "ScoreDistribution" [("value", "may play"); ("recordCount", "0"); ("confidence", "0.0")] "" []; 
       Elem "ScoreDistribution" [("value", "no play"); ("recordCount", "6"); ("confidence", "0.6")] "" []]]; 
     Elem "Node" [("id", "5"); ("score", "may play"); ("recordCount", "50")] "" [
      Elem "CompoundPredicate" [("booleanOperator", "or")] "" [
       Elem "SimplePredicate" [("field", "outlook"); ("operator", "equal"); ("value", "overcast")] "" []; 
       Elem "SimplePredicate" [("field", "outlook"); ("operator", "equal"); ("value", "rain")] "" []]; 
      Elem "ScoreDistribution" [("value", "will play"); ("recordCount", "20"); ("confidence", "0.4")] "" []; 
      Elem "ScoreDistribution" [("value", "may play"); ("recordCount", "28"); ("confidence", "0.56")] "" []; 
      Elem "ScoreDistribution" [("value", "no play"); ("recordCount", "2"); ("confidence", "0.04")] "" []]]]].
