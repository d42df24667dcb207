(** The part of package models the evaluator reads: the parsed document.
    Enumerated types are Go strings (simpleTypes.go), kept as strings.
    Simplification: attributes and children the evaluator never reads
    (extensions, display names, statistics, ...) are omitted. *)
From Verif Require Import Base.

(** Expressions: models.Expression, groups.go:67-107; FieldRef elements.go:2134,
    Constant 1337, Apply 349, MapValues 2772, FieldColumnPair 2117, InlineTable
    2401, Row 5971.  [XOther] is every other expression element, and nil.
    The evaluator never reads [mmt] (mapMissingTo), Apply's [dflt]
    (defaultValue) and MapValues' [outcol] (outputColumn). *)
Inductive expr : Type :=
| XField (f : string) (mmt : option string)
| XConst (dt : string) (v : string)
| XApply (fn : string) (dflt mmt : option string) (args : list expr)
| XMap (pairs : list (string * string))            (* (field, column) *)
       (tables : list (list (gmap string string))) (* InlineTables, their rows *)
       (dflt : option string) (dt : string) (outcol : string) (mmt : option string)
| XOther (k : string).

(** DerivedField, elements.go:1832-1909. *)
Record derived_field : Type := DerivedField {
  df_name : string; df_optype : string; df_datatype : string; df_expr : expr }.

(** DataField with its Values, elements.go:1608, 5715. *)
Record data_field : Type := DataField {
  dd_name : string; dd_datatype : string; dd_values : list string }.

(** MiningField, elements.go:2904. *)
Record mining_field : Type := MiningField {
  mf_name : string; mf_usage : string; mf_replacement : option string;
  mf_outliers : string; mf_invalid : string }.

(** OutputField, elements.go:3616. *)
Record output_field : Type := OutputField {
  of_name : string; of_feature : string; of_value : string }.

(** Target, elements.go:4956. *)
Record target : Type := Target {
  tg_field : string; tg_factor : option f64; tg_constant : option f64 }.

(** VerificationField, elements.go:5817, and ModelVerification, 3056. *)
Record ver_field : Type := VerField {
  vf_field : string; vf_column : string; vf_precision : option f64 }.
Record verification : Type := Verification {
  vr_fields : list ver_field; vr_rows : list (gmap string string) }.

(** Predicates: models.Predicate, groups.go:251-313; SimplePredicate
    elements.go:4745, CompoundPredicate 1223, SimpleSetPredicate 4803, True,
    False.  [raw] is SimplePredicate.RawPredicateValue, GNil before compilation.
    [PNone] is a nil Predicate (a Node without predicate element). *)
Inductive predicate : Type :=
| PTrue
| PFalse
| PSimple (field op val : string) (raw : gov)
| PCompound (bop : string) (ps : list predicate)
| PSet (bop field : string) (arr : list string)
| PNone.

(** ScoreDistribution, elements.go:4394. *)
Record score_distribution : Type := ScoreDistribution {
  sd_value : string; sd_count : f64; sd_conf : option f64; sd_prob : option f64 }.

(** Node, elements.go:3333. *)
Inductive mnode : Type :=
| MNode (id default_child score : string) (count : f64)
        (dists : list score_distribution) (nodes : list mnode) (pred : predicate).

(** TreeModel, elements.go:5526. *)
Record tree_model : Type := TreeModel {
  tm_function : string; tm_strategy : string; tm_penalty : f64; tm_notrue : string;
  tm_lt : list derived_field; tm_schema : list mining_field;
  tm_verification : option verification; tm_node : mnode }.

(** NumericPredictor 3527, RegressionTable 4285, RegressionModel 4250. *)
Record predictor : Type := Predictor {
  np_name : string; np_coeff : f64; np_exponent : Z }.
Record regr_table : Type := RegrTable {
  rt_intercept : f64; rt_category : string; rt_predictors : list predictor }.
Record regr_model : Type := RegrModel {
  rm_function : string; rm_norm : string; rm_lt : list derived_field;
  rm_schema : list mining_field; rm_tables : list regr_table;
  rm_output : list output_field; rm_verification : option verification }.

(** MiningModel, elements.go:2945, without its segments. *)
Record mining_header : Type := MiningHeader {
  mm_function : string; mm_method : string; mm_lt : list derived_field;
  mm_schema : list mining_field; mm_output : list output_field;
  mm_targets : list target; mm_verification : option verification }.

(** Segment, elements.go:4495. *)
Record segment (M : Type) : Type := Segment {
  sg_id : string; sg_preds : list predicate; sg_models : list M }.
Arguments Segment {M}.
Arguments sg_id {M}.
Arguments sg_preds {M}.
Arguments sg_models {M}.

(** models.ModelElement, groups.go:184-249; [DOther] is every model element
    the evaluator does not support. *)
Inductive doc_model : Type :=
| DTree (t : tree_model)
| DMining (h : mining_header) (segs : list (segment doc_model))
| DRegr (r : regr_model)
| DOther (k : string).
