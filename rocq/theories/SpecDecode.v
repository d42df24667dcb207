(** How a PMML writer lays out a document: the XML of each document part.
    Written from the PMML element and attribute names, independently of the
    decoder.  [F] prints numbers. *)
From stdpp Require Import pretty.
From Coq Require Import Ascii.
From Verif Require Import Base Doc Xml.

Definition opt_att (n : string) (o : option string) : list (string * string) :=
  match o with Some v => [(n, v)] | None => [] end.

(** Text between tags as it stands in the file: markup characters escaped. *)
Definition escape_char (c : Ascii.ascii) : string :=
  if Ascii.eqb c "&" then "&amp;" else if Ascii.eqb c "<" then "&lt;"
  else if Ascii.eqb c ">" then "&gt;" else String.String c "".
Fixpoint escape (s : string) : string :=
  match s with
  | EmptyString => ""
  | String.String c s' => escape_char c +:+ escape s'
  end.

(** An element holding text only. *)
Definition text_elem (n : string) (at_ : list (string * string)) (v : string) : xml :=
  Elem n at_ (escape v) [Chars v].

Section Writer.
  Context (F : f64 → string).

  Definition num_att (n : string) (o : option f64) : list (string * string) := opt_att n (F <$> o).

  Definition wr_row (r : gmap string string) : xml :=
    Elem "row" [] "" ((λ nv, text_elem nv.1 [] nv.2) <$> map_to_list r).
  Definition wr_table (t : list (gmap string string)) : xml := Elem "InlineTable" [] "" (wr_row <$> t).

  Fixpoint wr_expr (e : expr) : xml :=
    match e with
    | XField f mmt => Elem "FieldRef" (("field", f) :: opt_att "mapMissingTo" mmt) "" []
    | XConst dt v => text_elem "Constant" [("dataType", dt)] v
    | XApply fn d mmt args =>
        Elem "Apply" (("function", fn) :: opt_att "defaultValue" d ++ opt_att "mapMissingTo" mmt) ""
          (map wr_expr args)
    | XMap ps ts d dt oc mmt =>
        Elem "MapValues"
          (("outputColumn", oc) :: ("dataType", dt) :: opt_att "defaultValue" d ++ opt_att "mapMissingTo" mmt) ""
          (((λ p, Elem "FieldColumnPair" [("field", p.1); ("column", p.2)] "" []) <$> ps) ++ (wr_table <$> ts))
    | XOther k => Elem k [] "" []
    end.

  Definition wr_field (d : derived_field) : xml :=
    Elem "DerivedField" [("name", df_name d); ("optype", df_optype d); ("dataType", df_datatype d)] ""
      (match df_expr d with XOther "" => [] | e => [wr_expr e] end).

  Definition wr_data_field (d : data_field) : xml :=
    Elem "DataField" [("name", dd_name d); ("dataType", dd_datatype d)] ""
      ((λ v, Elem "Value" [("value", v)] "" []) <$> dd_values d).

  Definition wr_mfield (f : mining_field) : xml :=
    Elem "MiningField"
      (("name", mf_name f) :: ("usageType", mf_usage f) :: opt_att "missingValueReplacement" (mf_replacement f) ++
       [("outliers", mf_outliers f); ("invalidValueTreatment", mf_invalid f)]) "" [].

  Definition wr_out (o : output_field) : xml :=
    Elem "OutputField" [("name", of_name o); ("feature", of_feature o); ("value", of_value o)] "" [].

  Definition wr_target (t : target) : xml :=
    Elem "Target" (("field", tg_field t) :: num_att "rescaleConstant" (tg_constant t) ++
                   num_att "rescaleFactor" (tg_factor t)) "" [].

  Definition wr_vfield (f : ver_field) : xml :=
    Elem "VerificationField" (("field", vf_field f) :: ("column", vf_column f) ::
                              num_att "precision" (vf_precision f)) "" [].

  Definition wr_verif (o : option verification) : list xml :=
    match o with
    | None => []
    | Some v => [Elem "ModelVerification" [] ""
        [Elem "VerificationFields" [] "" (wr_vfield <$> vr_fields v); wr_table (vr_rows v)]]
    end.

  Fixpoint wr_pred (p : predicate) : xml :=
    match p with
    | PTrue => Elem "True" [] "" []
    | PFalse => Elem "False" [] "" []
    | PSimple f op v _ => Elem "SimplePredicate" [("field", f); ("operator", op); ("value", v)] "" []
    | PCompound b ps => Elem "CompoundPredicate" [("booleanOperator", b)] "" (map wr_pred ps)
    | PSet b f l => Elem "SimpleSetPredicate" [("booleanOperator", b); ("field", f)] ""
                      ((λ s, text_elem "Array" [("type", "string")] s) <$> l)
    | PNone => Chars ""
    end.

  Definition wr_dist (d : score_distribution) : xml :=
    Elem "ScoreDistribution" (("value", sd_value d) :: ("recordCount", F (sd_count d)) ::
       num_att "confidence" (sd_conf d) ++ num_att "probability" (sd_prob d)) "" [].

  Fixpoint wr_node (m : mnode) : xml :=
    match m with
    | MNode id dc sc ct ds ns p =>
        Elem "Node" [("id", id); ("score", sc); ("recordCount", F ct); ("defaultChild", dc)] ""
          (match p with PNone => [] | _ => [wr_pred p] end ++ (wr_dist <$> ds) ++ map wr_node ns)
    end.

  Definition wr_tree (m : tree_model) : xml :=
    Elem "TreeModel"
      [("functionName", tm_function m); ("missingValueStrategy", tm_strategy m);
       ("missingValuePenalty", F (tm_penalty m)); ("noTrueChildStrategy", tm_notrue m)] ""
      ([Elem "MiningSchema" [] "" (wr_mfield <$> tm_schema m);
        Elem "LocalTransformations" [] "" (wr_field <$> tm_lt m);
        wr_node (tm_node m)] ++ wr_verif (tm_verification m)).

  Definition wr_predictor (p : predictor) : xml :=
    Elem "NumericPredictor" [("name", np_name p); ("exponent", pretty (np_exponent p)); ("coefficient", F (np_coeff p))] "" [].
  Definition wr_regr_table (t : regr_table) : xml :=
    Elem "RegressionTable" [("intercept", F (rt_intercept t)); ("targetCategory", rt_category t)] ""
      (wr_predictor <$> rt_predictors t).

  Definition wr_regr (m : regr_model) : xml :=
    Elem "RegressionModel" [("functionName", rm_function m); ("normalizationMethod", rm_norm m)] ""
      ([Elem "MiningSchema" [] "" (wr_mfield <$> rm_schema m);
        Elem "Output" [] "" (wr_out <$> rm_output m);
        Elem "LocalTransformations" [] "" (wr_field <$> rm_lt m)] ++
       (wr_regr_table <$> rm_tables m) ++ wr_verif (rm_verification m)).

  Fixpoint wr_model (d : doc_model) : xml :=
    match d with
    | DTree t => wr_tree t
    | DRegr r => wr_regr r
    | DOther k => Elem k [] "" []
    | DMining h segs =>
        Elem "MiningModel" [("functionName", mm_function h)] ""
          ([Elem "MiningSchema" [] "" (wr_mfield <$> mm_schema h);
            Elem "Output" [] "" (wr_out <$> mm_output h);
            Elem "Targets" [] "" (wr_target <$> mm_targets h);
            Elem "LocalTransformations" [] "" (wr_field <$> mm_lt h);
            Elem "Segmentation" [("multipleModelMethod", mm_method h)] ""
              (map (λ s, match s with
                         | Segment id ps ms =>
                             Elem "Segment" [("id", id)] "" ((wr_pred <$> ps) ++ map wr_model ms)
                         end) segs)] ++
           wr_verif (mm_verification h))
    end.

  Definition wr_pmml (version : string) (dd : list data_field) (td : list derived_field)
      (ms : list doc_model) : xml :=
    Elem "PMML" [("version", version)] ""
      ([Elem "Header" [] "" [];
        Elem "DataDictionary" [("numberOfFields", pretty (Z.of_nat (length dd)))] "" (wr_data_field <$> dd);
        Elem "TransformationDictionary" [] "" (wr_field <$> td)] ++ (wr_model <$> ms)).
End Writer.

(** What a document must satisfy to be written faithfully: its numbers print
    and parse back, its constants and arrays need no escaping, and the elements
    the evaluator has no struct for are ones package models can read. *)
Section Writable.
  Context (F : f64 → string) (parse : string → option f64) (readable : string → xml → bool)
          (expr_name model_name : string → bool).

  Definition prints (f : f64) : Prop := F f ≠ "" ∧ trim_space (F f) = F f ∧ parse (F f) = Some f.
  Definition plain (s : string) : Prop := escape s = s.
  Definition oprints (o : option f64) : Prop := match o with Some f => prints f | None => True end.

  Fixpoint ok_expr (e : expr) : Prop :=
    match e with
    | XField _ _ | XMap _ _ _ _ _ _ => True
    | XConst _ v => plain v
    | XApply _ _ _ args => fold_right (λ a P, ok_expr a ∧ P) True args
    | XOther k => expr_name k = true ∧ readable k (Elem k [] "" []) = true
    end.
  Definition ok_field (d : derived_field) : Prop := df_expr d = XOther "" ∨ ok_expr (df_expr d).

  Fixpoint ok_pred (p : predicate) : Prop :=
    match p with
    | PTrue | PFalse => True
    | PSimple _ _ _ raw => raw = GNil
    | PCompound _ ps => fold_right (λ q P, ok_pred q ∧ P) True ps
    | PSet _ _ l => ∃ s, l = [s] ∧ plain s
    | PNone => False
    end.

  Definition ok_dist (d : score_distribution) : Prop :=
    prints (sd_count d) ∧ oprints (sd_conf d) ∧ oprints (sd_prob d).

  Fixpoint ok_node (m : mnode) : Prop :=
    match m with
    | MNode _ _ _ ct ds ns p =>
        prints ct ∧ Forall ok_dist ds ∧ (p = PNone ∨ ok_pred p) ∧
        fold_right (λ n P, ok_node n ∧ P) True ns
    end.

  Definition ok_target (t : target) : Prop := oprints (tg_factor t) ∧ oprints (tg_constant t).
  Definition ok_verif (o : option verification) : Prop :=
    match o with Some v => Forall (λ f, oprints (vf_precision f)) (vr_fields v) | None => True end.

  Definition ok_tree (m : tree_model) : Prop :=
    prints (tm_penalty m) ∧ Forall ok_field (tm_lt m) ∧ ok_node (tm_node m) ∧ ok_verif (tm_verification m).

  Definition ok_predictor (p : predictor) : Prop :=
    prints (np_coeff p) ∧ (- 2 ^ 63 <= np_exponent p < 2 ^ 63)%Z.
  Definition ok_table (t : regr_table) : Prop :=
    prints (rt_intercept t) ∧ Forall ok_predictor (rt_predictors t).
  Definition ok_regr (m : regr_model) : Prop :=
    Forall ok_field (rm_lt m) ∧ Forall ok_table (rm_tables m) ∧ ok_verif (rm_verification m).

  Fixpoint ok_model (d : doc_model) : Prop :=
    match d with
    | DTree t => ok_tree t
    | DRegr r => ok_regr r
    | DOther k => model_name k = true ∧ readable k (Elem k [] "" []) = true
    | DMining h segs =>
        Forall ok_field (mm_lt h) ∧ Forall ok_target (mm_targets h) ∧ ok_verif (mm_verification h) ∧
        fold_right (λ s P, (Forall ok_pred (sg_preds s) ∧
                            fold_right (λ m P, ok_model m ∧ P) True (sg_models s)) ∧ P) True segs
    end.

  Definition writable (dd : list data_field) (td : list derived_field) (ms : list doc_model) : Prop :=
    readable "Header" (Elem "Header" [] "" []) = true ∧
    (Z.of_nat (length dd) < 2 ^ 64)%Z ∧ Forall ok_field td ∧ Forall ok_model ms.
End Writable.

(** ** Two files for one document *)

(** The names that lead to what the evaluator reads. *)
Definition pmml_names : list string :=
  ["row"; "InlineTable"; "FieldRef"; "Constant"; "MapValues"; "FieldColumnPair"; "Apply"; "Aggregate";
   "Discretize"; "Lag"; "NormContinuous"; "NormDiscrete"; "TextIndex"; "DerivedField"; "Value";
   "DefineFunction"; "DataField"; "Interval"; "Taxonomy"; "MiningField"; "OutputField"; "Target";
   "TargetValue"; "VerificationField"; "VerificationFields"; "True"; "False"; "SimplePredicate";
   "SimpleSetPredicate"; "Array"; "CompoundPredicate"; "Node"; "ScoreDistribution"; "Partition";
   "DecisionTree"; "Regression"; "LocalTransformations"; "MiningSchema"; "ModelVerification"; "Output";
   "Targets"; "ModelExplanation"; "ModelStats"; "NumericPredictor"; "RegressionTable"; "Segmentation";
   "Segment"; "TreeModel"; "RegressionModel"; "MiningModel"; "AssociationModel"; "BaselineModel";
   "BayesianNetworkModel"; "ClusteringModel"; "GaussianProcessModel"; "GeneralRegressionModel";
   "NaiveBayesModel"; "NearestNeighborModel"; "NeuralNetwork"; "RuleSetModel"; "Scorecard";
   "SequenceModel"; "SupportVectorMachineModel"; "TextModel"; "TimeSeriesModel"; "Header";
   "MiningBuildTask"; "DataDictionary"; "TransformationDictionary"].

(** An element of any other name, Extension among them.  [more] are further
    names that have a meaning inside the structs the evaluator does not read. *)
Definition foreign (more : list string) (n : string) : Prop :=
  forallb (λ k, negb (n =s k)) (pmml_names ++ more) = true.

(** Parents that do not put up with a foreign child, or put up with Extension
    only. *)
Definition intolerant (parent child : string) : bool :=
  (parent =s "PMML") || (parent =s "Segment") || (parent =s "InlineTable") ||
  (parent =s "Alternate") ||
  (((parent =s "Apply") || (parent =s "CompoundPredicate") || (parent =s "DerivedField") ||
    (parent =s "Node") || (parent =s "DefineFunction") || (parent =s "ChildParent")) && negb (child =s "Extension")).

(** Attributes: the order is free and names that begin with x- are the
    vendor's own. *)
Definition own_attribute (n : string) : bool := negb (String.prefix "x-" n).
Definition same_attributes (a b : list (string * string)) : Prop :=
  NoDup ((filter (λ p, own_attribute p.1 = true) a).*1) ∧
  filter (λ p, own_attribute p.1 = true) a ≡ₚ filter (λ p, own_attribute p.1 = true) b.

Definition is_elem (x : xml) : bool := match x with Elem _ _ _ _ => true | Chars _ => false end.
(** the children without the text between them *)
Definition elements (ks : list xml) : list xml := filter (λ k, is_elem k = true) ks.
(** the cells of a row: names and texts *)
Definition cells (ks : list xml) : list (string * string) :=
  omap (λ k, match k with Elem n _ _ cs => Some (n, text_of cs) | Chars _ => None end) ks.

(** [rewritten more tame x y]: the file [y] is the file [x] with attributes in another
    order, other white space between elements, vendor attributes added or
    removed, and with some foreign elements removed; if [tame], only where the
    parent puts up with them. *)
Inductive rewritten (more : list string) (tame : bool) : xml → xml → Prop :=
| rw_row at1 at2 i1 i2 ks1 ks2 :
    cells ks1 = cells ks2 → rewritten more tame (Elem "row" at1 i1 ks1) (Elem "row" at2 i2 ks2)
| rw_elem n at1 at2 i1 i2 ks1 ks2 :
    n ≠ "row" → same_attributes at1 at2 → (n = "Constant" ∨ n = "Array" → i1 = i2) →
    rewritten_kids more tame n (elements ks1) (elements ks2) →
    rewritten more tame (Elem n at1 i1 ks1) (Elem n at2 i2 ks2)
with rewritten_kids (more : list string) (tame : bool) : string → list xml → list xml → Prop :=
| rk_nil p : rewritten_kids more tame p [] []
| rk_keep p k1 k2 l1 l2 :
    rewritten more tame k1 k2 → rewritten_kids more tame p l1 l2 → rewritten_kids more tame p (k1 :: l1) (k2 :: l2)
| rk_drop p n at_ i ks l1 l2 :
    foreign more n → (tame = true → intolerant p n = false) → rewritten_kids more tame p l1 l2 →
    rewritten_kids more tame p (Elem n at_ i ks :: l1) l2.

(** Two files for one document, whatever their roots are called. *)
Definition rewritten_root (more : list string) (tame : bool) (x y : xml) : Prop :=
  match x, y with
  | Elem _ at1 _ ks1, Elem _ at2 _ ks2 =>
      same_attributes at1 at2 ∧ rewritten_kids more tame "PMML" (elements ks1) (elements ks2)
  | _, _ => False
  end.

(** Well-formed XML: no attribute twice. *)
Fixpoint well_formed (x : xml) : Prop :=
  match x with
  | Chars _ => True
  | Elem _ at_ _ ks => NoDup at_.*1 ∧ fold_right (λ k P, well_formed k ∧ P) True ks
  end.

(** Every element called [p] gets one more child, in front of the others. *)
Definition an_extension : xml := Elem "Extension" [("name", "tool"); ("value", "1")] "" [].
Fixpoint add_extension (p : string) (x : xml) : xml :=
  match x with
  | Chars s => Chars s
  | Elem n at_ i ks =>
      Elem n at_ i ((if n =s p then [an_extension] else []) ++ map (add_extension p) ks)
  end.
