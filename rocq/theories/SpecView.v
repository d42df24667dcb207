(** What the evaluator reads of the decoded structs: the document of Doc.v as a
    projection of the structs of Reflect.v, field by field. *)
From Verif Require Import Base Strconv Xml Doc Decode Schema Reflect.

(** The field of a struct of type [s] called [key], or of the group [key]. *)
Definition label (f : field) : string :=
  match f_kind f with Group _ g => g | _ => f_name f end.

Definition pick {A} (d : A) (key : string) : list field → list A → A :=
  fix go fs vs := match fs, vs with
                  | f :: fs', v :: vs' => if label f =s key then v else go fs' vs'
                  | _, _ => d
                  end.

Definition fields (s : string) : list field := default [] (s_fields <$> go_struct s).

Definition get (s key : string) (vs : list value) : value := pick VNil key (fields s) vs.

Definition str (v : value) : string := match v with VStr s => s | _ => "" end.
Definition num (v : value) : f64 := match v with VNum f => f | _ => fzero end.
Definition int (v : value) : Z := match v with VInt z => z | _ => 0 end.
Definition opt {A} (as_ : value → A) (v : value) : option A :=
  match v with VSome w => Some (as_ w) | _ => None end.
Definition items (v : value) : list value := match v with VList l => l | _ => [] end.
Definition inside (v : value) : list value := match v with VStruct _ vs => vs | _ => [] end.
Definition row (v : value) : gmap string string := match v with VRow r => r | _ => ∅ end.

(** ** Expressions *)

Definition see_table (vs : list value) : list (gmap string string) :=
  map row (items (get "InlineTable" "row" vs)).

Definition see_pair (vs : list value) : string * string :=
  (str (get "FieldColumnPair" "field" vs), str (get "FieldColumnPair" "column" vs)).

Definition see_map (vs : list value) : expr :=
  XMap (map (λ v, see_pair (inside v)) (items (get "MapValues" "FieldColumnPair" vs)))
       (map (λ v, see_table (inside v)) (items (get "MapValues" "InlineTable" vs)))
       (opt str (get "MapValues" "defaultValue" vs)) (str (get "MapValues" "dataType" vs))
       (str (get "MapValues" "outputColumn" vs)) (opt str (get "MapValues" "mapMissingTo" vs)).

Fixpoint see_expr (v : value) : expr :=
  match v with
  | VStruct n vs =>
      if n =s "FieldRef" then
        XField (str (get "FieldRef" "field" vs)) (opt str (get "FieldRef" "mapMissingTo" vs))
      else if n =s "Constant" then XConst (str (get "Constant" "dataType" vs)) (str (get "Constant" "" vs))
      else if n =s "MapValues" then see_map vs
      else if n =s "Apply" then
        XApply (str (get "Apply" "function" vs)) (opt str (get "Apply" "defaultValue" vs))
          (opt str (get "Apply" "mapMissingTo" vs))
          (pick [] "Expression" (fields "Apply")
             (map (λ w, match w with
                        | VList l => map (λ u, match u with VSome e => see_expr e | _ => XOther "" end) l
                        | _ => []
                        end) vs))
      else XOther n
  | _ => XOther ""
  end.

Definition see_derived (vs : list value) : derived_field :=
  DerivedField (str (get "DerivedField" "name" vs)) (str (get "DerivedField" "optype" vs))
    (str (get "DerivedField" "dataType" vs))
    (match get "DerivedField" "Expression" vs with VSome e => see_expr e | _ => XOther "" end).

Definition see_local (vs : list value) : list derived_field :=
  map (λ v, see_derived (inside v)) (items (get "LocalTransformations" "DerivedField" vs)).
Definition see_tdict (vs : list value) : list derived_field :=
  map (λ v, see_derived (inside v)) (items (get "TransformationDictionary" "DerivedField" vs)).

(** ** Data dictionary *)

Definition see_data (vs : list value) : data_field :=
  DataField (str (get "DataField" "name" vs)) (str (get "DataField" "dataType" vs))
    (map (λ v, str (get "Value" "value" (inside v))) (items (get "DataField" "Value" vs))).
Definition see_dict (vs : list value) : list data_field :=
  map (λ v, see_data (inside v)) (items (get "DataDictionary" "DataField" vs)).

(** ** Schema, output, targets, verification *)

Definition see_mfield (vs : list value) : mining_field :=
  MiningField (str (get "MiningField" "name" vs)) (str (get "MiningField" "usageType" vs))
    (opt str (get "MiningField" "missingValueReplacement" vs))
    (str (get "MiningField" "outliers" vs)) (str (get "MiningField" "invalidValueTreatment" vs)).
Definition see_schema (vs : list value) : list mining_field :=
  map (λ v, see_mfield (inside v)) (items (get "MiningSchema" "MiningField" vs)).

Definition see_ofield (vs : list value) : output_field :=
  OutputField (str (get "OutputField" "name" vs)) (str (get "OutputField" "feature" vs))
    (str (get "OutputField" "value" vs)).
Definition see_output (vs : list value) : list output_field :=
  map (λ v, see_ofield (inside v)) (items (get "Output" "OutputField" vs)).

Definition see_target (vs : list value) : target :=
  Target (str (get "Target" "field" vs)) (opt num (get "Target" "rescaleFactor" vs))
    (opt num (get "Target" "rescaleConstant" vs)).
Definition see_targets (vs : list value) : list target :=
  map (λ v, see_target (inside v)) (items (get "Targets" "Target" vs)).

Definition see_vfield (vs : list value) : ver_field :=
  VerField (str (get "VerificationField" "field" vs)) (str (get "VerificationField" "column" vs))
    (opt num (get "VerificationField" "precision" vs)).
Definition see_vfields (vs : list value) : list ver_field :=
  map (λ v, see_vfield (inside v)) (items (get "VerificationFields" "VerificationField" vs)).
Definition see_verif (vs : list value) : verification :=
  Verification (see_vfields (inside (get "ModelVerification" "VerificationFields" vs)))
    (see_table (inside (get "ModelVerification" "InlineTable" vs))).
Definition see_verif_opt (v : value) : option verification := opt (λ w, see_verif (inside w)) v.

(** ** Predicates *)

Fixpoint see_pred (v : value) : predicate :=
  match v with
  | VStruct n vs =>
      if n =s "True" then PTrue
      else if n =s "False" then PFalse
      else if n =s "SimplePredicate" then
        PSimple (str (get "SimplePredicate" "field" vs)) (str (get "SimplePredicate" "operator" vs))
          (str (get "SimplePredicate" "value" vs)) GNil
      else if n =s "SimpleSetPredicate" then
        PSet (str (get "SimpleSetPredicate" "booleanOperator" vs)) (str (get "SimpleSetPredicate" "field" vs))
          [str (get "Array" "" (inside (get "SimpleSetPredicate" "Array" vs)))]
      else if n =s "CompoundPredicate" then
        PCompound (str (get "CompoundPredicate" "booleanOperator" vs))
          (pick [] "Predicate" (fields "CompoundPredicate")
             (map (λ w, match w with
                        | VList l => map (λ u, match u with VSome p => see_pred p | _ => PNone end) l
                        | _ => []
                        end) vs))
      else PNone
  | _ => PNone
  end.

(** ** Trees *)

Definition see_dist (vs : list value) : score_distribution :=
  ScoreDistribution (str (get "ScoreDistribution" "value" vs)) (num (get "ScoreDistribution" "recordCount" vs))
    (opt num (get "ScoreDistribution" "confidence" vs)) (opt num (get "ScoreDistribution" "probability" vs)).

Fixpoint see_node (v : value) : mnode :=
  match v with
  | VStruct _ vs =>
      MNode (str (get "Node" "id" vs)) (str (get "Node" "defaultChild" vs)) (str (get "Node" "score" vs))
        (num (get "Node" "recordCount" vs))
        (map (λ d, see_dist (inside d)) (items (get "Node" "ScoreDistribution" vs)))
        (pick [] "Node" (fields "Node")
           (map (λ w, match w with VList l => map see_node l | _ => [] end) vs))
        (match get "Node" "Predicate" vs with VSome p => see_pred p | _ => PNone end)
  | _ => zero_mnode
  end.

Definition see_tree (vs : list value) : tree_model :=
  TreeModel (str (get "TreeModel" "functionName" vs)) (str (get "TreeModel" "missingValueStrategy" vs))
    (num (get "TreeModel" "missingValuePenalty" vs)) (str (get "TreeModel" "noTrueChildStrategy" vs))
    (see_local (inside (get "TreeModel" "LocalTransformations" vs)))
    (see_schema (inside (get "TreeModel" "MiningSchema" vs)))
    (see_verif_opt (get "TreeModel" "ModelVerification" vs)) (see_node (get "TreeModel" "Node" vs)).

(** ** Regression *)

Definition see_predictor (vs : list value) : predictor :=
  Predictor (str (get "NumericPredictor" "name" vs)) (num (get "NumericPredictor" "coefficient" vs))
    (int (get "NumericPredictor" "exponent" vs)).
Definition see_rtable (vs : list value) : regr_table :=
  RegrTable (num (get "RegressionTable" "intercept" vs)) (str (get "RegressionTable" "targetCategory" vs))
    (map (λ v, see_predictor (inside v)) (items (get "RegressionTable" "NumericPredictor" vs))).

Definition see_regr (vs : list value) : regr_model :=
  RegrModel (str (get "RegressionModel" "functionName" vs)) (str (get "RegressionModel" "normalizationMethod" vs))
    (see_local (inside (get "RegressionModel" "LocalTransformations" vs)))
    (see_schema (inside (get "RegressionModel" "MiningSchema" vs)))
    (map (λ v, see_rtable (inside v)) (items (get "RegressionModel" "RegressionTable" vs)))
    (see_output (inside (get "RegressionModel" "Output" vs)))
    (see_verif_opt (get "RegressionModel" "ModelVerification" vs)).

(** ** Models *)

Definition see_header (vs : list value) : mining_header :=
  MiningHeader (str (get "MiningModel" "functionName" vs))
    (str (get "Segmentation" "multipleModelMethod" (inside (get "MiningModel" "Segmentation" vs))))
    (see_local (inside (get "MiningModel" "LocalTransformations" vs)))
    (see_schema (inside (get "MiningModel" "MiningSchema" vs)))
    (see_output (inside (get "MiningModel" "Output" vs)))
    (see_targets (inside (get "MiningModel" "Targets" vs)))
    (see_verif_opt (get "MiningModel" "ModelVerification" vs)).

Fixpoint see_model (v : value) : doc_model :=
  match v with
  | VStruct n vs =>
      if n =s "TreeModel" then DTree (see_tree vs)
      else if n =s "RegressionModel" then DRegr (see_regr vs)
      else if n =s "MiningModel" then
        DMining (see_header vs)
          (pick [] "Segmentation" (fields "MiningModel")
             (map (λ w, match w with
                        | VStruct _ vs1 =>
                            pick [] "Segment" (fields "Segmentation")
                              (map (λ u, match u with VList l => map see_segment l | _ => [] end) vs1)
                        | _ => []
                        end) vs))
      else DOther n
  | _ => DOther ""
  end
with see_segment (v : value) : segment doc_model :=
  match v with
  | VStruct _ vs =>
      Segment (str (get "Segment" "id" vs))
        (map (λ u, match u with VSome p => see_pred p | _ => PNone end) (items (get "Segment" "Predicate" vs)))
        (pick [] "ModelElement" (fields "Segment")
           (map (λ w, match w with
                      | VList l => map (λ u, match u with VSome m => see_model m | _ => DOther "" end) l
                      | _ => []
                      end) vs))
  | _ => Segment "" [] []
  end.

(** ** The document *)

Definition see_pmml (v : value) : pmml :=
  let vs := inside v in
  Pmml (str (get "PMML" "version" vs))
    (see_dict (inside (get "PMML" "DataDictionary" vs)))
    (see_tdict (inside (get "PMML" "TransformationDictionary" vs)))
    (map (λ u, match u with VSome m => see_model m | _ => DOther "" end) (items (get "PMML" "ModelElement" vs))).
