(** What the structs of package models hold after decoding, stated per field. *)
From Verif Require Import Base Strconv Xml Decode Schema Reflect.

(** The texts an attribute has in a start tag, the children of a name. *)
Definition texts (a : string) (at_ : list (string * string)) : list string :=
  (filter (λ p, p.1 = a) at_).*2.

Definition elem_name (k : xml) : option string :=
  match k with Elem n _ _ _ => Some n | Chars _ => None end.

Definition content (k : xml) : list xml :=
  match k with Elem _ _ _ cs => cs | Chars _ => [] end.

(** The struct a child element called [m] is decoded into. *)
Inductive child_type : field → string → string → Prop :=
| ct_sub a q s : child_type (Field a (Sub q s)) a s
| ct_group a q g m : m ∈ go_group g → child_type (Field a (Group q g)) m m.

(** The child elements that belong to a field. *)
Definition belongs (f : field) (k : xml) : Prop :=
  match elem_name k with
  | None => False
  | Some m => match f_kind f with
              | Sub _ _ | SubBasic _ | Rows => m = f_name f
              | Group _ g => m ∈ go_group g
              | _ => False
              end
  end.
Global Instance belongs_dec f k : Decision (belongs f k).
Proof. unfold belongs. destruct (elem_name k); [destruct (f_kind f)|]; apply _. Defined.

(** The value a text stands for. *)
Inductive denotes (E : Ext) : basic → string → value → Prop :=
| dn_str t : denotes E KStr t (VStr t)
| dn_float_empty : denotes E KFloat "" (VNum fzero)
| dn_float t f : t ≠ "" → ext_parse_float E (trim_space t) = Some f → denotes E KFloat t (VNum f)
| dn_int_empty : denotes E KInt "" (VInt 0)
| dn_int t z : t ≠ "" → parse_int (trim_space t) = Some z → denotes E KInt t (VInt z)
| dn_uint_empty : denotes E KUint "" (VInt 0)
| dn_uint t z : t ≠ "" → parse_uint (trim_space t) = Some z → denotes E KUint t (VInt z)
| dn_bool_empty : denotes E KBool "" (VBool false)
| dn_bool t b : t ≠ "" → parse_bool (trim_space t) = Some b → denotes E KBool t (VBool b)
| dn_yes : denotes E KYesNo "yes" (VBool true)
| dn_no : denotes E KYesNo "no" (VBool false)
| dn_raw_empty : denotes E KRawFloat "" (VNum fzero)
| dn_raw t f : t ≠ "" → ext_parse_float E t = Some f → denotes E KRawFloat t (VNum f)
| dn_keep_empty d : denotes E (KKeep d) "" (VStr d)
| dn_keep d t : t ≠ "" → denotes E (KKeep d) t (VStr t).

(** The zero value of a field. *)
Definition zero_of (b : basic) : value :=
  match b with
  | KStr => VStr ""
  | KFloat | KRawFloat => VNum fzero
  | KInt | KUint => VInt 0
  | KBool | KYesNo => VBool false
  | KKeep d => VStr d
  end.

(** [holds E f at_ ks inner v]: the field [f] of a struct decoded from a start
    tag with attributes [at_], content [ks] and raw text [inner] holds [v].
    [sub s k w]: the child [k] decodes to the struct [w] of type [s]. *)
Inductive holds (E : Ext) (sub : string → xml → value → Prop)
    (at_ : list (string * string)) (ks : list xml) (inner : string) : field → value → Prop :=
| hd_attr a b t v : texts a at_ = [t] → denotes E b t v →
    holds E sub at_ ks inner (Field a (Attr b false)) v
| hd_attr_none a b : texts a at_ = [] → holds E sub at_ ks inner (Field a (Attr b false)) (zero_of b)
| hd_ptr a b t v : texts a at_ = [t] → denotes E b t v →
    holds E sub at_ ks inner (Field a (Attr b true)) (VSome v)
| hd_ptr_none a b : texts a at_ = [] → holds E sub at_ ks inner (Field a (Attr b true)) VNil
| hd_text a : holds E sub at_ ks inner (Field a CharData) (VStr (text_of ks))
| hd_inner a : holds E sub at_ ks inner (Field a InnerXml) (VStr inner)
| hd_one a s k v : filter (belongs (Field a (Sub One s))) ks = [k] → sub s k v →
    holds E sub at_ ks inner (Field a (Sub One s)) v
| hd_one_none a s : filter (belongs (Field a (Sub One s))) ks = [] →
    holds E sub at_ ks inner (Field a (Sub One s)) (VStruct s (zero s))
| hd_opt a s k v : filter (belongs (Field a (Sub Opt s))) ks = [k] → sub s k v →
    holds E sub at_ ks inner (Field a (Sub Opt s)) (VSome v)
| hd_opt_none a s : filter (belongs (Field a (Sub Opt s))) ks = [] →
    holds E sub at_ ks inner (Field a (Sub Opt s)) VNil
| hd_many a s l : Forall2 (sub s) (filter (belongs (Field a (Sub Many s))) ks) l →
    holds E sub at_ ks inner (Field a (Sub Many s)) (VList l)
| hd_basic a b k v : filter (belongs (Field a (SubBasic b))) ks = [k] →
    denotes E b (text_of (content k)) v →
    holds E sub at_ ks inner (Field a (SubBasic b)) v
| hd_basic_none a b : filter (belongs (Field a (SubBasic b))) ks = [] →
    holds E sub at_ ks inner (Field a (SubBasic b)) (zero_of b)
| hd_rows a : holds E sub at_ ks inner (Field a Rows)
    (VList ((λ k, VRow (dec_row (content k) ∅)) <$> filter (belongs (Field a Rows)) ks))
| hd_group_one a g k m v : filter (belongs (Field a (Group false g))) ks = [k] → elem_name k = Some m →
    sub m k v → holds E sub at_ ks inner (Field a (Group false g)) (VSome v)
| hd_group_none a g : filter (belongs (Field a (Group false g))) ks = [] →
    holds E sub at_ ks inner (Field a (Group false g)) VNil
| hd_group_many a g l :
    Forall2 (λ k v, ∃ m w, elem_name k = Some m ∧ sub m k w ∧ v = VSome w)
      (filter (belongs (Field a (Group true g))) ks) l →
    holds E sub at_ ks inner (Field a (Group true g)) (VList l).

(** No attribute twice (as XML demands), no single element twice. *)
Definition single (f : field) (ks : list xml) : Prop :=
  match f_kind f with
  | Sub One _ | Sub Opt _ | SubBasic _ | Group false _ => length (filter (belongs f) ks) ≤ 1
  | _ => True
  end.

(** Texts that no value of the kind has. *)
Definition unreadable (E : Ext) (b : basic) (t : string) : Prop := ∀ v, ¬ denotes E b t v.

(** The elements that cannot be decoded into a struct of type [s]: some number
    or truth value in reach is malformed, or a hand-written loop meets an element
    it does not know. *)
Inductive malformed (E : Ext) : string → xml → Prop :=
| mf_attr s loop fs n at_ inner ks a b ptr t :
    go_struct s = Some (Struct loop fs) → Field a (Attr b ptr) ∈ fs → (a, t) ∈ at_ →
    unreadable E b t → malformed E s (Elem n at_ inner ks)
| mf_text s loop fs n at_ inner ks a b at' i' cs :
    go_struct s = Some (Struct loop fs) → Field a (SubBasic b) ∈ fs → Elem a at' i' cs ∈ ks →
    unreadable E b (text_of cs) → malformed E s (Elem n at_ inner ks)
| mf_unknown s fs n at_ inner ks k :
    go_struct s = Some (Struct true fs) → k ∈ ks → elem_name k ≠ None →
    (∀ f, f ∈ fs → ¬ belongs f k) → malformed E s (Elem n at_ inner ks)
| mf_child s loop fs n at_ inner ks f k m s' :
    go_struct s = Some (Struct loop fs) → f ∈ fs → k ∈ ks → elem_name k = Some m →
    child_type f m s' → malformed E s' k → malformed E s (Elem n at_ inner ks).

(** What PMML declares (the schema quoted in elements.go) and the structs lack. *)
Definition attr_kept (s a : string) : Prop :=
  ∃ loop fs b ptr, go_struct s = Some (Struct loop fs) ∧ Field a (Attr b ptr) ∈ fs.
Definition declares_attr (s a : string) : Prop :=
  ∃ ats els, (s, (ats, els)) ∈ pmml_declares ∧ a ∈ ats.
Definition declares_child (s m : string) : Prop :=
  ∃ ats els, (s, (ats, els)) ∈ pmml_declares ∧ m ∈ els.
Definition child_kept (s m : string) : Prop :=
  ∃ loop fs f, go_struct s = Some (Struct loop fs) ∧ f ∈ fs ∧ belongs f (Elem m [] "" []).

(** The structs some document can fail in: a number or a truth value, or a
    hand-written loop, in reach. *)
Definition checked (b : basic) : bool := match b with KStr | KKeep _ => false | _ => true end.
Inductive can_fail : string → Prop :=
| cf_attr s loop fs a b ptr : go_struct s = Some (Struct loop fs) → Field a (Attr b ptr) ∈ fs →
    checked b = true → can_fail s
| cf_text s loop fs a b : go_struct s = Some (Struct loop fs) → Field a (SubBasic b) ∈ fs →
    checked b = true → can_fail s
| cf_loop s fs : go_struct s = Some (Struct true fs) → can_fail s
| cf_child s loop fs f m s' : go_struct s = Some (Struct loop fs) → f ∈ fs → child_type f m s' →
    can_fail s' → can_fail s.

(** The structs the evaluator's view of a document is made of (SpecView.v), and
    what the schema quoted above them declares but they do not have. *)
Definition evaluated : list string :=
  ["Apply"; "Array"; "CompoundPredicate"; "Constant"; "DataDictionary"; "DataField"; "DerivedField"; "False";
   "FieldColumnPair"; "FieldRef"; "InlineTable"; "LocalTransformations"; "MapValues"; "MiningField"; "MiningModel";
   "MiningSchema"; "ModelVerification"; "Node"; "NumericPredictor"; "Output"; "OutputField"; "PMML";
   "RegressionModel"; "RegressionTable"; "ScoreDistribution"; "Segment"; "Segmentation"; "SimplePredicate";
   "SimpleSetPredicate"; "Target"; "Targets"; "TransformationDictionary"; "TreeModel"; "True"; "Value";
   "VerificationField"; "VerificationFields"].
Definition lost_attributes : list (string * string) :=
  [("Apply", "invalidValueTreatment"); ("OutputField", "optype"); ("RegressionModel", "modelType");
   ("RegressionModel", "targetFieldName"); ("Segment", "weight"); ("Value", "property")].
Definition lost_children : list (string * string) :=
  [("InlineTable", "Extension"); ("MapValues", "TableLocator");
   ("MiningModel", "DecisionTree"); ("MiningModel", "Regression"); ("MiningModel", "ModelExplanation");
   ("MiningModel", "ModelStats");
   ("OutputField", "Decisions"); ("OutputField", "Aggregate"); ("OutputField", "Apply"); ("OutputField", "Constant");
   ("OutputField", "Discretize"); ("OutputField", "FieldRef"); ("OutputField", "Lag"); ("OutputField", "MapValues");
   ("OutputField", "NormContinuous"); ("OutputField", "NormDiscrete"); ("OutputField", "TextIndex");
   ("PMML", "Extension"); ("RegressionTable", "CategoricalPredictor"); ("RegressionTable", "PredictorTerm");
   ("Segment", "Extension")].

(** Model elements without anything that could be malformed. *)
Definition unchecked_models : list string :=
  ["ClusteringModel"; "GaussianProcessModel"; "GeneralRegressionModel"; "NaiveBayesModel"; "NearestNeighborModel";
   "NeuralNetwork"; "RuleSetModel"; "Scorecard"; "SequenceModel"; "SupportVectorMachineModel"; "TextModel";
   "TimeSeriesModel"].
