(** What Evaluate reads of a document: everything else is blanked here.  Written
    from the PMML elements, without the evaluator. *)
From Verif Require Import Base Doc.

(** Missing value attributes, Apply's default and the output column of MapValues
    go. *)
Fixpoint essential_expr (e : expr) : expr :=
  match e with
  | XField f _ => XField f None
  | XConst dt v => XConst dt v
  | XApply fn _ _ args => XApply fn None None (essential_expr <$> args)
  | XMap pairs tables dflt dt _ _ => XMap pairs tables dflt dt "" None
  | XOther _ => XOther ""
  end.

(** Of the operational type only continuous matters. *)
Definition essential_field (df : derived_field) : derived_field :=
  DerivedField (df_name df)
    (if bool_decide (df_optype df = "continuous") then "continuous" else "")
    (df_datatype df) (essential_expr (df_expr df)).

(** A set predicate may list anything. *)
Fixpoint essential_pred (p : predicate) : predicate :=
  match p with
  | PSimple f op v _ => PSimple f op v GNil
  | PCompound b ps => PCompound b (essential_pred <$> ps)
  | PSet _ _ _ => PSet "" "" []
  | p => p
  end.

(** Node identifiers, default children and confidences are read by some missing
    value strategies only. *)
Definition reads_ids (strategy : string) : bool :=
  bool_decide (strategy ∈ ["defaultChild"; "weightedConfidence"]).
Definition reads_default (strategy : string) : bool := bool_decide (strategy = "defaultChild").
Definition reads_confidence (strategy : string) : bool := bool_decide (strategy = "weightedConfidence").

Definition essential_dist (kc : bool) (s : score_distribution) : score_distribution :=
  ScoreDistribution (sd_value s) (sd_count s) (if kc then sd_conf s else None) (sd_prob s).

Fixpoint essential_node (ki kd kc : bool) (m : mnode) : mnode :=
  match m with
  | MNode id dc sc count ds ns p =>
      MNode (if ki then id else "") (if kd then dc else "") sc count
            (essential_dist kc <$> ds) (essential_node ki kd kc <$> ns) (essential_pred p)
  end.

Definition known_strategies : list string :=
  ["nullPrediction"; "aggregateNodes"; "weightedConfidence"; "defaultChild"; "lastPrediction"].

(** Of a tree's mining schema the last target is left. *)
Definition essential_schema (l : list mining_field) : list mining_field :=
  match last (filter (λ f, mf_usage f = "target") l) with
  | Some f => [MiningField (mf_name f) "target" None "" ""]
  | None => []
  end.

Definition essential_tree (t : tree_model) : tree_model :=
  let st := tm_strategy t in
  TreeModel (tm_function t)
    (if bool_decide (st ∈ known_strategies) then st else "none")
    (if reads_default st then tm_penalty t else S754_zero false)
    (if bool_decide (tm_notrue t = "returnNullPrediction") then "returnNullPrediction" else "")
    (essential_field <$> tm_lt t) (essential_schema (tm_schema t)) None
    (essential_node (reads_ids st) (reads_default st) (reads_confidence st) (tm_node t)).

(** Exponents, local transformations, the schema and output features of a
    regression model go. *)
Definition essential_table (t : regr_table) : regr_table :=
  RegrTable (rt_intercept t) (rt_category t)
    ((λ p, Predictor (np_name p) (np_coeff p) 1) <$> rt_predictors t).
Definition essential_regr (m : regr_model) : regr_model :=
  RegrModel (rm_function m) (rm_norm m) [] [] (essential_table <$> rm_tables m)
    ((λ o, OutputField (of_name o) "" (of_value o)) <$> rm_output m) None.

(** Of an ensemble's schema the replacement values are left, of its outputs the
    names and features. *)
Definition essential_header (h : mining_header) : mining_header :=
  MiningHeader (if bool_decide (mm_function h = "classification") then "classification" else "")
    (if bool_decide (mm_method h = "") then "sum" else mm_method h)
    (essential_field <$> mm_lt h)
    ((λ f, MiningField (mf_name f) "" (mf_replacement f) "" "")
       <$> filter (λ f, is_Some (mf_replacement f)) (mm_schema h))
    ((λ o, OutputField (of_name o) (of_feature o) "") <$> mm_output h) (mm_targets h) None.

(** Identifiers and predicates of segments go. *)
Fixpoint essence (d : doc_model) : doc_model :=
  match d with
  | DTree t => DTree (essential_tree t)
  | DMining h segs =>
      DMining (essential_header h)
        ((λ s, match s with Segment _ _ ms => Segment "" [] (essence <$> ms) end) <$> segs)
  | DRegr r => DRegr (essential_regr r)
  | DOther k => DOther k
  end.

(** Dictionaries that declare the same fields, whatever defines them. *)
Definition same_fields (a b : list derived_field) : Prop :=
  (λ df, (df_name df, df_datatype df)) <$> a = (λ df, (df_name df, df_datatype df)) <$> b.

(** Defaults of PMML written out where an attribute is empty. *)
Definition or_default (dflt s : string) : string := if bool_decide (s = "") then dflt else s.
Definition spelled_mining_field (f : mining_field) : mining_field :=
  MiningField (mf_name f) (or_default "active" (mf_usage f)) (mf_replacement f)
    (or_default "asIs" (mf_outliers f)) (or_default "returnInvalid" (mf_invalid f)).
Fixpoint spelled_out (d : doc_model) : doc_model :=
  match d with
  | DTree t =>
      DTree (TreeModel (tm_function t) (or_default "none" (tm_strategy t)) (tm_penalty t) (tm_notrue t)
               (tm_lt t) (spelled_mining_field <$> tm_schema t) (tm_verification t) (tm_node t))
  | DMining h segs =>
      DMining (MiningHeader (mm_function h) (mm_method h) (mm_lt h) (spelled_mining_field <$> mm_schema h)
                 (mm_output h) (mm_targets h) (mm_verification h))
        ((λ s, match s with Segment i p ms => Segment i p (spelled_out <$> ms) end) <$> segs)
  | DRegr r =>
      DRegr (RegrModel (rm_function r) (rm_norm r) (rm_lt r) (spelled_mining_field <$> rm_schema r)
               (rm_tables r) (rm_output r) (rm_verification r))
  | d => d
  end.
