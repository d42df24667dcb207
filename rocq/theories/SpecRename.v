(** The names of a document under a renaming, and the input fields a document
    needs.  Written from the document types, without the evaluator. *)
From Verif Require Import Base Doc SpecPred SpecExpr.

(** ** Fields a document needs from the row *)

(** derived fields are computed in order: what an expression reads counts unless
    an earlier derived field provides it *)
Fixpoint inputs_of (lt : list derived_field) : list string :=
  match lt with
  | [] => []
  | df :: lt' => expr_fields (df_expr df) ++ filter (λ f, f ≠ df_name df) (inputs_of lt')
  end.
Definition not_derived (lt : list derived_field) (l : list string) : list string :=
  filter (λ f, f ∉ map df_name lt) l.

Fixpoint node_reads (m : mnode) : list string :=
  match m with
  | MNode _ _ _ _ _ ns p => pred_fields p ++ concat (map node_reads ns)
  end.

Fixpoint doc_inputs (d : doc_model) : list string :=
  match d with
  | DTree t => inputs_of (tm_lt t) ++ not_derived (tm_lt t) (node_reads (tm_node t))
  | DRegr r => concat (map (λ t, map np_name (rt_predictors t)) (rm_tables r))
  | DMining h segs =>
      inputs_of (mm_lt h) ++ not_derived (mm_lt h)
        (concat (map (λ s, match s with Segment _ _ ms => concat (map doc_inputs ms) end) segs))
  | DOther _ => []
  end.

(** ** Renaming *)
Section rename.
  Context (ρ : string → string).

  Fixpoint ren_expr (e : expr) : expr :=
    match e with
    | XField f m => XField (ρ f) m
    | XConst dt v => XConst dt v
    | XApply fn d m args => XApply fn d m (ren_expr <$> args)
    | XMap pairs tables d dt o m => XMap ((λ p, (ρ p.1, p.2)) <$> pairs) tables d dt o m
    | XOther k => XOther k
    end.

  Definition ren_derived (df : derived_field) : derived_field :=
    DerivedField (ρ (df_name df)) (df_optype df) (df_datatype df) (ren_expr (df_expr df)).
  Definition ren_data (d : data_field) : data_field :=
    DataField (ρ (dd_name d)) (dd_datatype d) (dd_values d).
  Definition ren_mining_field (f : mining_field) : mining_field :=
    MiningField (ρ (mf_name f)) (mf_usage f) (mf_replacement f) (mf_outliers f) (mf_invalid f).
  Definition ren_output (o : output_field) : output_field :=
    OutputField (ρ (of_name o)) (of_feature o) (of_value o).
  Definition ren_target (t : target) : target :=
    Target (ρ (tg_field t)) (tg_factor t) (tg_constant t).

  Fixpoint ren_pred (p : predicate) : predicate :=
    match p with
    | PSimple f op v raw => PSimple (ρ f) op v raw
    | PCompound b ps => PCompound b (ren_pred <$> ps)
    | PSet b f arr => PSet b (ρ f) arr
    | p => p
    end.

  Fixpoint ren_mnode (m : mnode) : mnode :=
    match m with
    | MNode id dc sc c ds ns p => MNode id dc sc c ds (ren_mnode <$> ns) (ren_pred p)
    end.

  Definition ren_tree (t : tree_model) : tree_model :=
    TreeModel (tm_function t) (tm_strategy t) (tm_penalty t) (tm_notrue t)
      (ren_derived <$> tm_lt t) (ren_mining_field <$> tm_schema t) (tm_verification t)
      (ren_mnode (tm_node t)).

  Definition ren_table (t : regr_table) : regr_table :=
    RegrTable (rt_intercept t) (rt_category t)
      ((λ p, Predictor (ρ (np_name p)) (np_coeff p) (np_exponent p)) <$> rt_predictors t).
  Definition ren_regr (m : regr_model) : regr_model :=
    RegrModel (rm_function m) (rm_norm m) (ren_derived <$> rm_lt m) (ren_mining_field <$> rm_schema m)
      (ren_table <$> rm_tables m) (ren_output <$> rm_output m) (rm_verification m).

  Definition ren_header (h : mining_header) : mining_header :=
    MiningHeader (mm_function h) (mm_method h) (ren_derived <$> mm_lt h)
      (ren_mining_field <$> mm_schema h) (ren_output <$> mm_output h) (ren_target <$> mm_targets h)
      (mm_verification h).

  Fixpoint ren_doc (d : doc_model) : doc_model :=
    match d with
    | DTree t => DTree (ren_tree t)
    | DRegr r => DRegr (ren_regr r)
    | DMining h segs =>
        DMining (ren_header h)
          ((λ s, match s with Segment i ps ms => Segment i (ren_pred <$> ps) (ren_doc <$> ms) end) <$> segs)
    | DOther k => DOther k
    end.

  (** rows, and the field names inside errors *)
  Definition ren_row {A} (m : gmap string A) : gmap string A := kmap ρ m.
  Definition ren_err (e : err) : err :=
    match e with
    | EUnknownField f => EUnknownField (ρ f)
    | EMissingTerm f => EMissingTerm (ρ f)
    | e => e
    end.
  Definition ren_result (o : res datarow) : res datarow :=
    match o with
    | Ok r => Ok (ren_row <$> r)
    | Err e => Err (ren_err e)
    | Panic p => Panic p
    end.

  (** Names the evaluator invents itself stay: class probabilities, the score
      of a regression tree, and the empty name. *)
  Definition keeps_reserved : Prop :=
    ρ "" = "" ∧ ρ "score" = "score" ∧ ∀ c, ρ ("probability(" +:+ c +:+ ")") = "probability(" +:+ c +:+ ")".
End rename.
