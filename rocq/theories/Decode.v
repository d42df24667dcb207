(** Package models: from XML to the document the evaluator works on
    (xml.NewDecoder(r).Decode(&doc), as in evaluation_test.go:46-50 and
    main/perftest.go).  None is a non-nil error; error texts are dropped.

    Two kinds of decoding meet here.
    - Most structs are filled by encoding/xml through reflection: attributes,
      then children, matched by the names in the struct tags; a slice field is
      extended, any other field is decoded on top of what is there; everything
      unmatched is skipped.
    - Apply, CompoundPredicate, DerivedField, InlineTable, Node, PMML, Row and
      Segment have their own UnmarshalXML, a loop over tokens.  None of these
      loops skips an element it does not know: the loop goes on with the tokens
      inside it and returns nil at the latest at that element's end tag, and
      encoding/xml then fails because the element was not entirely consumed
      (Decoder.unmarshalInterface).  So an unknown child is an error; TokenLoop.v
      derives this from the token loop.

    Structs the evaluator never reads are not built; [U name x] says whether
    decoding the element [x] into the struct called [name] succeeds. *)
From Verif Require Import Base Strconv Doc Xml.

Definition unread : Type := string → xml → bool.

Definition check (b : bool) : option unit := if b then Some tt else None.

(** Extension, elements.go:2070-2075: three optional strings and the raw text,
    so decoding never fails.  True, False, Partition, DecisionTree, Regression
    and Value have no other kinds of field either. *)

(** ** Tables *)

(** Row.UnmarshalXML, elements.go:5971-5995: every child element is a cell; the
    last of equal names wins. *)
Definition dec_row (ks : list xml) (r : gmap string string) : gmap string string :=
  foldl (λ r k, match k with Elem n _ _ cs => <[n := text_of cs]> r | Chars _ => r end) r ks.

(** InlineTable.UnmarshalXML, elements.go:2408-2434: knows only row. *)
Definition dec_table (ks : list xml) (t : list (gmap string string))
    : option (list (gmap string string)) :=
  kids_fold (λ k t, match k with
                    | Elem n _ _ cs => if n =s "row" then Some (t ++ [dec_row cs ∅]) else None
                    | Chars _ => Some t
                    end) ks t.

(** ** Expressions *)

(** FieldRef, elements.go:2134-2138. *)
Definition ref_attr (n v : string) (e : string * option string) : option (string * option string) :=
  if n =s "field" then Some (v, e.2)
  else if n =s "mapMissingTo" then Some (e.1, Some v) else Some e.

(** Constant, elements.go:1337-1340. *)
Definition const_attr (n v : string) (dt : string) : option string :=
  if n =s "dataType" then Some v else Some dt.

(** FieldColumnPair, elements.go:2117-2121. *)
Definition pair_attr (n v : string) (p : string * string) : option (string * string) :=
  if n =s "field" then Some (v, p.2) else if n =s "column" then Some (p.1, v) else Some p.

(** MapValues, elements.go:2772-2780 (its UnmarshalXML is commented out). *)
Record map_values : Type := MapValues {
  mv_pairs : list (string * string); mv_tables : list (list (gmap string string));
  mv_dflt : option string; mv_dt : string; mv_outcol : string; mv_mmt : option string }.

Definition map_attr (n v : string) (m : map_values) : option map_values :=
  let 'MapValues ps ts d dt oc mmt := m in
  if n =s "defaultValue" then Some (MapValues ps ts (Some v) dt oc mmt)
  else if n =s "mapMissingTo" then Some (MapValues ps ts d dt oc (Some v))
  else if n =s "outputColumn" then Some (MapValues ps ts d dt v mmt)
  else if n =s "dataType" then Some (MapValues ps ts d v oc mmt)
  else Some m.

Definition map_kid (k : xml) (m : map_values) : option map_values :=
  let 'MapValues ps ts d dt oc mmt := m in
  match k with
  | Chars _ => Some m
  | Elem n at_ _ ks =>
      if n =s "FieldColumnPair" then
        p ← attrs_fold pair_attr at_ ("", ""); Some (MapValues (ps ++ [p]) ts d dt oc mmt)
      else if n =s "InlineTable" then
        t ← dec_table ks []; Some (MapValues ps (ts ++ [t]) d dt oc mmt)
      else Some m
  end.

Definition dec_map (at_ : list (string * string)) (ks : list xml) : option expr :=
  m ← attrs_fold map_attr at_ (MapValues [] [] None "" "" None);
  m' ← kids_fold map_kid ks m;
  Some (XMap (mv_pairs m') (mv_tables m') (mv_dflt m') (mv_dt m') (mv_outcol m') (mv_mmt m')).

(** the attributes of Apply, elements.go:353-368 *)
Definition apply_attr (n v : string) (a : option string * string * option string)
    : option (option string * string * option string) :=
  let '(d, fn, mmt) := a in
  if n =s "defaultValue" then Some (Some v, fn, mmt)
  else if n =s "function" then Some (d, v, mmt)
  else if n =s "mapMissingTo" then Some (d, fn, Some v)
  else Some a.

(** the expression elements the evaluator does not implement, groups.go:71-107 *)
Definition other_expr (n : string) : bool :=
  (n =s "Aggregate") || (n =s "Discretize") || (n =s "Lag") || (n =s "NormContinuous") ||
  (n =s "NormDiscrete") || (n =s "TextIndex").

(** One expression element: the switch of Apply.UnmarshalXML, elements.go:378-420,
    and of DerivedField.UnmarshalXML, 1863-1905.  The outer None: the name is
    not that of an expression. *)
Fixpoint dec_expr (E : Ext) (U : unread) (x : xml) {struct x} : option (option expr) :=
  match x with
  | Chars _ => None
  | Elem n at_ inner ks =>
      if n =s "FieldRef" then
        Some (a ← attrs_fold ref_attr at_ ("", None); Some (XField a.1 a.2))
      else if n =s "Constant" then
        Some (dt ← attrs_fold const_attr at_ ""; Some (XConst dt inner))
      else if n =s "MapValues" then Some (dec_map at_ ks)
      else if n =s "Apply" then
        (* Apply.UnmarshalXML, elements.go:349-425 *)
        Some (a ← attrs_fold apply_attr at_ (None, "", None);
              args ← kids_fold
                (λ k acc,
                   match k with
                   | Chars _ => Some acc
                   | Elem m _ _ _ =>
                       if m =s "Extension" then Some acc
                       else match dec_expr E U k with
                            | Some (Some e) => Some (acc ++ [e])
                            | _ => None
                            end
                   end) ks [];
              Some (XApply a.1.2 a.1.1 a.2 args))
      else if other_expr n then Some (_ ← check (U n x); Some (XOther n))
      else None
  end.

(** DerivedField.UnmarshalXML, elements.go:1832-1909; a second expression
    replaces the first.  A nil expression is [XOther ""]. *)
Definition field_attr (n v : string) (d : derived_field) : option derived_field :=
  let 'DerivedField nm op dt e := d in
  if n =s "dataType" then Some (DerivedField nm op v e)
  else if n =s "name" then Some (DerivedField v op dt e)
  else if n =s "optype" then Some (DerivedField nm v dt e)
  else Some d.

Definition field_kid (E : Ext) (U : unread) (k : xml) (d : derived_field) : option derived_field :=
  let 'DerivedField nm op dt e := d in
  match k with
  | Chars _ => Some d
  | Elem n _ _ _ =>
      if (n =s "Extension") || (n =s "Value") then Some d
      else match dec_expr E U k with
           | Some (Some e') => Some (DerivedField nm op dt e')
           | _ => None
           end
  end.

Definition dec_field (E : Ext) (U : unread) (at_ : list (string * string)) (ks : list xml)
    : option derived_field :=
  d ← attrs_fold field_attr at_ (DerivedField "" "" "" (XOther ""));
  kids_fold (field_kid E U) ks d.

(** LocalTransformations, elements.go:2720-2723. *)
Definition dec_local (E : Ext) (U : unread) (ks : list xml) (l : list derived_field)
    : option (list derived_field) :=
  kids_fold (λ k l, match k with
                    | Elem n at_ _ cs =>
                        if n =s "DerivedField" then d ← dec_field E U at_ cs; Some (l ++ [d])
                        else Some l
                    | Chars _ => Some l
                    end) ks l.

(** TransformationDictionary, elements.go:5480-5484. *)
Definition dec_tdict (E : Ext) (U : unread) (ks : list xml) (l : list derived_field)
    : option (list derived_field) :=
  kids_fold (λ k l, match k with
                    | Elem n at_ _ cs =>
                        if n =s "DerivedField" then d ← dec_field E U at_ cs; Some (l ++ [d])
                        else if n =s "DefineFunction" then _ ← check (U n k); Some l
                        else Some l
                    | Chars _ => Some l
                    end) ks l.

(** ** Data dictionary *)

(** Value, elements.go:5715-5721. *)
Definition value_attr (n v : string) (s : string) : option string :=
  if n =s "value" then Some v else Some s.

(** DataField, elements.go:1608-1619. *)
Definition data_attr (n v : string) (d : data_field) : option data_field :=
  let 'DataField nm dt vs := d in
  if n =s "dataType" then Some (DataField nm v vs)
  else if n =s "name" then Some (DataField v dt vs)
  else if n =s "isCyclic" then _ ← att_bool v; Some d
  else Some d.

Definition data_kid (U : unread) (k : xml) (d : data_field) : option data_field :=
  let 'DataField nm dt vs := d in
  match k with
  | Chars _ => Some d
  | Elem n at_ _ _ =>
      if n =s "Value" then v ← attrs_fold value_attr at_ ""; Some (DataField nm dt (vs ++ [v]))
      else if n =s "Interval" then _ ← check (U n k); Some d
      else Some d
  end.

Definition dec_data_field (U : unread) (at_ : list (string * string)) (ks : list xml)
    : option data_field :=
  d ← attrs_fold data_attr at_ (DataField "" "" []); kids_fold (data_kid U) ks d.

(** DataDictionary, elements.go:1574-1580. *)
Definition dict_attr (n v : string) (l : list data_field) : option (list data_field) :=
  if n =s "numberOfFields" then _ ← att_uint v; Some l else Some l.

Definition dict_kid (U : unread) (k : xml) (l : list data_field) : option (list data_field) :=
  match k with
  | Chars _ => Some l
  | Elem n at_ _ ks =>
      if n =s "DataField" then d ← dec_data_field U at_ ks; Some (l ++ [d])
      else if n =s "Taxonomy" then _ ← check (U n k); Some l
      else Some l
  end.

Definition dec_dict (U : unread) (at_ : list (string * string)) (ks : list xml) (l : list data_field)
    : option (list data_field) :=
  l1 ← attrs_fold dict_attr at_ l; kids_fold (dict_kid U) ks l1.

(** ** Schema, output, targets, verification *)

(** MiningField, elements.go:2904-2917. *)
Definition mfield_attr (E : Ext) (n v : string) (f : mining_field) : option mining_field :=
  let 'MiningField nm us rp ou iv := f in
  if n =s "name" then Some (MiningField v us rp ou iv)
  else if n =s "usageType" then Some (MiningField nm v rp ou iv)
  else if n =s "missingValueReplacement" then Some (MiningField nm us (Some v) ou iv)
  else if n =s "outliers" then Some (MiningField nm us rp v iv)
  else if n =s "invalidValueTreatment" then Some (MiningField nm us rp ou v)
  else if (n =s "highValue") || (n =s "importance") || (n =s "lowValue") then
    _ ← att_float E v; Some f
  else Some f.

(** A struct that holds a list of one kind of element and Extensions:
    MiningSchema 2973, Output 3559, Targets 5055, VerificationFields 5835. *)
Definition dec_list {A} (name : string) (dec : list (string * string) → list xml → option A)
    (ks : list xml) (l : list A) : option (list A) :=
  kids_fold (λ k l, match k with
                    | Elem n at_ _ cs => if n =s name then a ← dec at_ cs; Some (l ++ [a]) else Some l
                    | Chars _ => Some l
                    end) ks l.

Definition dec_mfield (E : Ext) (at_ : list (string * string)) (ks : list xml) : option mining_field :=
  attrs_fold (mfield_attr E) at_ (MiningField "" "" None "" "").
Definition dec_schema (E : Ext) := dec_list "MiningField" (dec_mfield E).

(** OutputField, elements.go:3616-3632. *)
Definition out_attr (n v : string) (o : output_field) : option output_field :=
  let 'OutputField nm ft vl := o in
  if n =s "name" then Some (OutputField v ft vl)
  else if n =s "feature" then Some (OutputField nm v vl)
  else if n =s "value" then Some (OutputField nm ft v)
  else if (n =s "isMultiValued") || (n =s "rank") then _ ← att_int v; Some o
  else Some o.
Definition dec_out_field (at_ : list (string * string)) (ks : list xml) : option output_field :=
  attrs_fold out_attr at_ (OutputField "" "" "").
Definition dec_output := dec_list "OutputField" dec_out_field.

(** Target, elements.go:4956-4967. *)
Definition target_attr (E : Ext) (n v : string) (t : target) : option target :=
  let 'Target fl fa co := t in
  if n =s "field" then Some (Target v fa co)
  else if n =s "rescaleFactor" then f ← att_float E v; Some (Target fl (Some f) co)
  else if n =s "rescaleConstant" then f ← att_float E v; Some (Target fl fa (Some f))
  else if (n =s "max") || (n =s "min") then _ ← att_float E v; Some t
  else Some t.
Definition dec_target (E : Ext) (U : unread) (at_ : list (string * string)) (ks : list xml)
    : option target :=
  t ← attrs_fold (target_attr E) at_ (Target "" None None);
  kids_fold (λ k t, match k with
                    | Elem n _ _ _ => if n =s "TargetValue" then _ ← check (U n k); Some t else Some t
                    | Chars _ => Some t
                    end) ks t.
Definition dec_targets (E : Ext) (U : unread) := dec_list "Target" (dec_target E U).

(** VerificationField, elements.go:5817-5823. *)
Definition vfield_attr (E : Ext) (n v : string) (f : ver_field) : option ver_field :=
  let 'VerField fl co pr := f in
  if n =s "field" then Some (VerField v co pr)
  else if n =s "column" then Some (VerField fl v pr)
  else if n =s "precision" then p ← att_float E v; Some (VerField fl co (Some p))
  else if n =s "zeroThreshold" then _ ← att_float E v; Some f
  else Some f.
Definition dec_vfield (E : Ext) (at_ : list (string * string)) (ks : list xml) : option ver_field :=
  attrs_fold (vfield_attr E) at_ (VerField "" "" None).

(** ModelVerification, elements.go:3056-3063; the field is a pointer in the
    models, allocated by the first such element. *)
Definition verif_attr (n v : string) (m : verification) : option verification :=
  if (n =s "fieldCount") || (n =s "recordCount") then _ ← att_int v; Some m else Some m.
Definition verif_kid (E : Ext) (k : xml) (m : verification) : option verification :=
  let 'Verification fs rs := m in
  match k with
  | Chars _ => Some m
  | Elem n _ _ ks =>
      if n =s "InlineTable" then rs' ← dec_table ks rs; Some (Verification fs rs')
      else if n =s "VerificationFields" then
        fs' ← dec_list "VerificationField" (dec_vfield E) ks fs; Some (Verification fs' rs)
      else Some m
  end.
Definition dec_verif (E : Ext) (at_ : list (string * string)) (ks : list xml) (o : option verification)
    : option (option verification) :=
  m ← attrs_fold verif_attr at_ (default (Verification [] []) o);
  m' ← kids_fold (verif_kid E) ks m; Some (Some m').

(** ** Predicates *)

(** SimplePredicate, elements.go:4745-4752; RawPredicateValue stays nil. *)
Definition simple_attr (n v : string) (p : string * string * string)
    : option (string * string * string) :=
  let '(f, op, vl) := p in
  if n =s "field" then Some (v, op, vl)
  else if n =s "operator" then Some (f, v, vl)
  else if n =s "value" then Some (f, op, v)
  else Some p.

(** SimpleSetPredicate, elements.go:4803-4809, with Array, complexTypes.go:32-41;
    the raw text of the array is kept as it is; without an Array element it is
    the text of the zero Array. *)
Definition set_attr (n v : string) (p : string * string) : option (string * string) :=
  if n =s "booleanOperator" then Some (v, p.2) else if n =s "field" then Some (p.1, v) else Some p.
Definition array_attr (n v : string) (a : unit) : option unit :=
  if n =s "n" then _ ← att_int v; Some a else Some a.
Definition set_kid (k : xml) (l : list string) : option (list string) :=
  match k with
  | Elem n at_ inner _ => if n =s "Array" then _ ← attrs_fold array_attr at_ tt; Some [inner] else Some l
  | Chars _ => Some l
  end.

Definition compound_attr (n v : string) (b : string) : option string :=
  if n =s "booleanOperator" then Some v else Some b.

(** One predicate element, GetPredicate, groups.go:270-285; the outer None: the
    name is not that of a predicate.  CompoundPredicate.UnmarshalXML is
    elements.go:1223-1266. *)
Fixpoint dec_pred (x : xml) {struct x} : option (option predicate) :=
  match x with
  | Chars _ => None
  | Elem n at_ _ ks =>
      if n =s "True" then Some (Some PTrue)
      else if n =s "False" then Some (Some PFalse)
      else if n =s "SimplePredicate" then
        Some (a ← attrs_fold simple_attr at_ ("", "", ""); Some (PSimple a.1.1 a.1.2 a.2 GNil))
      else if n =s "SimpleSetPredicate" then
        Some (a ← attrs_fold set_attr at_ ("", "");
              l ← kids_fold set_kid ks [""]; Some (PSet a.1 a.2 l))
      else if n =s "CompoundPredicate" then
        Some (b ← attrs_fold compound_attr at_ "";
              ps ← kids_fold
                (λ k acc,
                   match k with
                   | Chars _ => Some acc
                   | Elem m _ _ _ =>
                       if m =s "Extension" then Some acc
                       else match dec_pred k with
                            | Some (Some p) => Some (acc ++ [p])
                            | _ => None
                            end
                   end) ks [];
              Some (PCompound b ps))
      else None
  end.

(** ** Trees *)

(** ScoreDistribution, elements.go:4394-4400. *)
Definition dist_attr (E : Ext) (n v : string) (d : score_distribution) : option score_distribution :=
  let 'ScoreDistribution vl ct cf pr := d in
  if n =s "value" then Some (ScoreDistribution v ct cf pr)
  else if n =s "recordCount" then f ← att_float E v; Some (ScoreDistribution vl f cf pr)
  else if n =s "confidence" then f ← att_float E v; Some (ScoreDistribution vl ct (Some f) pr)
  else if n =s "probability" then f ← att_float E v; Some (ScoreDistribution vl ct cf (Some f))
  else Some d.
Definition dec_dist (E : Ext) (at_ : list (string * string)) : option score_distribution :=
  attrs_fold (dist_attr E) at_ (ScoreDistribution "" fzero None None).

Definition zero_mnode : mnode := MNode "" "" "" fzero [] [] PNone.

(** the attributes of Node, elements.go:3352-3371; recordCount is parsed here
    without trimming *)
Definition node_attr (E : Ext) (n v : string) (m : mnode) : option mnode :=
  let 'MNode id dc sc ct ds ns p := m in
  if n =s "defaultChild" then Some (MNode id v sc ct ds ns p)
  else if n =s "id" then Some (MNode v dc sc ct ds ns p)
  else if n =s "recordCount" then
    if v =s "" then Some m else f ← ext_parse_float E v; Some (MNode id dc sc f ds ns p)
  else if n =s "score" then Some (MNode id dc v ct ds ns p)
  else Some m.

(** Node.UnmarshalXML, elements.go:3348-3434, on top of a node (the root node
    of a TreeModel is decoded in place); embedded models and Partition are
    read and dropped. *)
Fixpoint dec_node (E : Ext) (x : xml) (m0 : mnode) {struct x} : option mnode :=
  match x with
  | Chars _ => None
  | Elem _ at_ _ ks =>
      m1 ← attrs_fold (node_attr E) at_ m0;
      kids_fold
        (λ k m,
           let 'MNode id dc sc ct ds ns p := m in
           match k with
           | Chars _ => Some m
           | Elem n kat _ _ =>
               if n =s "Extension" then Some m
               else if n =s "Node" then
                 c ← dec_node E k zero_mnode; Some (MNode id dc sc ct ds (ns ++ [c]) p)
               else if n =s "ScoreDistribution" then
                 d ← dec_dist E kat; Some (MNode id dc sc ct (ds ++ [d]) ns p)
               else if n =s "Partition" then Some m
               else match dec_pred k with
                    | Some (Some q) => Some (MNode id dc sc ct ds ns q)
                    | Some None => None
                    | None => if (n =s "DecisionTree") || (n =s "Regression") then Some m else None
                    end
           end) ks m1
  end.

(** TreeModel, elements.go:5526-5545.  No defaults are applied: an absent
    missingValuePenalty is 0. *)
Definition zero_tree : tree_model := TreeModel "" "" fzero "" [] [] None zero_mnode.

Definition tree_attr (E : Ext) (n v : string) (m : tree_model) : option tree_model :=
  let 'TreeModel fn st pe nt lt sc vr nd := m in
  if n =s "functionName" then Some (TreeModel v st pe nt lt sc vr nd)
  else if n =s "isScorable" then _ ← att_bool v; Some m
  else if n =s "missingValuePenalty" then f ← att_float E v; Some (TreeModel fn st f nt lt sc vr nd)
  else if n =s "missingValueStrategy" then Some (TreeModel fn v pe nt lt sc vr nd)
  else if n =s "noTrueChildStrategy" then Some (TreeModel fn st pe v lt sc vr nd)
  else Some m.

Definition tree_kid (E : Ext) (U : unread) (k : xml) (m : tree_model) : option tree_model :=
  let 'TreeModel fn st pe nt lt sc vr nd := m in
  match k with
  | Chars _ => Some m
  | Elem n at_ _ ks =>
      if n =s "LocalTransformations" then
        lt' ← dec_local E U ks lt; Some (TreeModel fn st pe nt lt' sc vr nd)
      else if n =s "MiningSchema" then
        sc' ← dec_schema E ks sc; Some (TreeModel fn st pe nt lt sc' vr nd)
      else if n =s "ModelVerification" then
        vr' ← dec_verif E at_ ks vr; Some (TreeModel fn st pe nt lt sc vr' nd)
      else if n =s "Node" then
        nd' ← dec_node E k nd; Some (TreeModel fn st pe nt lt sc vr nd')
      else if n =s "Output" then _ ← dec_output ks []; Some m
      else if n =s "Targets" then _ ← dec_targets E U ks []; Some m
      else if (n =s "ModelExplanation") || (n =s "ModelStats") then _ ← check (U n k); Some m
      else Some m
  end.

Definition dec_tree (E : Ext) (U : unread) (at_ : list (string * string)) (ks : list xml)
    : option tree_model :=
  m ← attrs_fold (tree_attr E) at_ zero_tree; kids_fold (tree_kid E U) ks m.

(** ** Regression *)

(** NumericPredictor, elements.go:3527-3533. *)
Definition pred_attr (E : Ext) (n v : string) (p : predictor) : option predictor :=
  let 'Predictor nm co ex := p in
  if n =s "name" then Some (Predictor v co ex)
  else if n =s "coefficient" then f ← att_float E v; Some (Predictor nm f ex)
  else if n =s "exponent" then z ← att_int v; Some (Predictor nm co z)
  else Some p.

(** RegressionTable, elements.go:4285-4290: CategoricalPredictor and
    PredictorTerm have no field here and are skipped. *)
Definition table_attr (E : Ext) (n v : string) (t : regr_table) : option regr_table :=
  let 'RegrTable ic tc ps := t in
  if n =s "intercept" then f ← att_float E v; Some (RegrTable f tc ps)
  else if n =s "targetCategory" then Some (RegrTable ic v ps)
  else Some t.

Definition table_kid (E : Ext) (k : xml) (t : regr_table) : option regr_table :=
  let 'RegrTable ic tc ps := t in
  match k with
  | Elem n at_ _ _ =>
      if n =s "NumericPredictor" then
        p ← attrs_fold (pred_attr E) at_ (Predictor "" fzero 0); Some (RegrTable ic tc (ps ++ [p]))
      else Some t
  | Chars _ => Some t
  end.

Definition dec_regr_table (E : Ext) (at_ : list (string * string)) (ks : list xml)
    : option regr_table :=
  t ← attrs_fold (table_attr E) at_ (RegrTable fzero "" []); kids_fold (table_kid E) ks t.

(** RegressionModel, elements.go:4250-4267. *)
Definition regr_attr (n v : string) (m : regr_model) : option regr_model :=
  let 'RegrModel fn nm lt sc ts os vr := m in
  if n =s "functionName" then Some (RegrModel v nm lt sc ts os vr)
  else if n =s "isScorable" then _ ← att_bool v; Some m
  else if n =s "normalizationMethod" then Some (RegrModel fn v lt sc ts os vr)
  else Some m.

Definition regr_kid (E : Ext) (U : unread) (k : xml) (m : regr_model) : option regr_model :=
  let 'RegrModel fn nm lt sc ts os vr := m in
  match k with
  | Chars _ => Some m
  | Elem n at_ _ ks =>
      if n =s "LocalTransformations" then
        lt' ← dec_local E U ks lt; Some (RegrModel fn nm lt' sc ts os vr)
      else if n =s "MiningSchema" then
        sc' ← dec_schema E ks sc; Some (RegrModel fn nm lt sc' ts os vr)
      else if n =s "RegressionTable" then
        t ← dec_regr_table E at_ ks; Some (RegrModel fn nm lt sc (ts ++ [t]) os vr)
      else if n =s "ModelVerification" then
        vr' ← dec_verif E at_ ks vr; Some (RegrModel fn nm lt sc ts os vr')
      else if n =s "Output" then
        os' ← dec_output ks os; Some (RegrModel fn nm lt sc ts os' vr)
      else if n =s "Targets" then _ ← dec_targets E U ks []; Some m
      else if (n =s "ModelExplanation") || (n =s "ModelStats") then _ ← check (U n k); Some m
      else Some m
  end.

Definition dec_regr (E : Ext) (U : unread) (at_ : list (string * string)) (ks : list xml)
    : option regr_model :=
  m ← attrs_fold regr_attr at_ (RegrModel "" "" [] [] [] [] None); kids_fold (regr_kid E U) ks m.

(** ** Models *)

(** the model elements the evaluator does not implement, groups.go:189-249 *)
Definition other_model (n : string) : bool :=
  (n =s "AssociationModel") || (n =s "BaselineModel") || (n =s "BayesianNetworkModel") ||
  (n =s "ClusteringModel") || (n =s "GaussianProcessModel") || (n =s "GeneralRegressionModel") ||
  (n =s "NaiveBayesModel") || (n =s "NearestNeighborModel") || (n =s "NeuralNetwork") ||
  (n =s "RuleSetModel") || (n =s "Scorecard") || (n =s "SequenceModel") ||
  (n =s "SupportVectorMachineModel") || (n =s "TextModel") || (n =s "TimeSeriesModel").

(** MiningModel, elements.go:2945-2959. *)
Definition zero_header : mining_header := MiningHeader "" "" [] [] [] [] None.

Definition mining_attr (n v : string) (h : mining_header) : option mining_header :=
  let 'MiningHeader fn me lt sc os ts vr := h in
  if n =s "functionName" then Some (MiningHeader v me lt sc os ts vr)
  else if n =s "isScorable" then _ ← att_bool v; Some h
  else Some h.

(** every child but Segmentation *)
Definition mining_kid (E : Ext) (U : unread) (n : string) (at_ : list (string * string))
    (ks : list xml) (h : mining_header) : option mining_header :=
  let 'MiningHeader fn me lt sc os ts vr := h in
  if n =s "ModelVerification" then
    vr' ← dec_verif E at_ ks vr; Some (MiningHeader fn me lt sc os ts vr')
  else if n =s "MiningSchema" then
    sc' ← dec_schema E ks sc; Some (MiningHeader fn me lt sc' os ts vr)
  else if n =s "LocalTransformations" then
    lt' ← dec_local E U ks lt; Some (MiningHeader fn me lt' sc os ts vr)
  else if n =s "Output" then
    os' ← dec_output ks os; Some (MiningHeader fn me lt sc os' ts vr)
  else if n =s "Targets" then
    ts' ← dec_targets E U ks ts; Some (MiningHeader fn me lt sc os ts' vr)
  else Some h.

(** Segmentation, elements.go:4559-4563 *)
Definition segmentation_attr (n v : string) (h : mining_header) : option mining_header :=
  let 'MiningHeader fn me lt sc os ts vr := h in
  if n =s "multipleModelMethod" then Some (MiningHeader fn v lt sc os ts vr) else Some h.

Definition segment_attr (n v : string) (s : string) : option string :=
  if n =s "id" then Some v else Some s.

(** One model element, GetModelElement, groups.go:189-249; the outer None: the
    name is not that of a model.  Segment.UnmarshalXML is elements.go:4502-4546:
    it knows predicates and models only, not Extension. *)
Fixpoint dec_model (E : Ext) (U : unread) (x : xml) {struct x} : option (option doc_model) :=
  match x with
  | Chars _ => None
  | Elem n at_ _ ks =>
      if n =s "TreeModel" then Some (DTree <$> dec_tree E U at_ ks)
      else if n =s "RegressionModel" then Some (DRegr <$> dec_regr E U at_ ks)
      else if n =s "MiningModel" then
        Some (h ← attrs_fold mining_attr at_ zero_header;
              hs ← kids_fold
                (λ k acc,
                   match k with
                   | Chars _ => Some acc
                   | Elem m kat _ kks =>
                       if m =s "Segmentation" then
                         h1 ← attrs_fold segmentation_attr kat acc.1;
                         segs1 ← kids_fold
                           (λ s l,
                              match s with
                              | Chars _ => Some l
                              | Elem m' sat _ sks =>
                                  if m' =s "Segment" then
                                    id ← attrs_fold segment_attr sat "";
                                    sg ← kids_fold
                                      (λ c sg,
                                         match c with
                                         | Chars _ => Some sg
                                         | Elem _ _ _ _ =>
                                             match dec_pred c with
                                             | Some (Some p) =>
                                                 Some (Segment (sg_id sg) (sg_preds sg ++ [p]) (sg_models sg))
                                             | Some None => None
                                             | None =>
                                                 match dec_model E U c with
                                                 | Some (Some d) =>
                                                     Some (Segment (sg_id sg) (sg_preds sg) (sg_models sg ++ [d]))
                                                 | _ => None
                                                 end
                                             end
                                         end) sks (Segment id [] []);
                                    Some (l ++ [sg])
                                  else Some l
                              end) kks acc.2;
                         Some (h1, segs1)
                       else
                         h1 ← mining_kid E U m kat kks acc.1; Some (h1, acc.2)
                   end) ks (h, []);
              Some (DMining hs.1 hs.2))
      else if other_model n then Some (_ ← check (U n x); Some (DOther n))
      else None
  end.

(** ** The document *)

(** PMML, elements.go:3734-3743; the Header and MiningBuildTask are not kept. *)
Record pmml : Type := Pmml {
  pm_version : string; pm_dd : list data_field; pm_td : list derived_field;
  pm_models : list doc_model }.

Definition pmml_attr (n v : string) (p : pmml) : option pmml :=
  let 'Pmml vs dd td ms := p in
  if n =s "version" then Some (Pmml v dd td ms) else Some p.

Definition pmml_kid (E : Ext) (U : unread) (k : xml) (p : pmml) : option pmml :=
  let 'Pmml vs dd td ms := p in
  match k with
  | Chars _ => Some p
  | Elem n at_ _ ks =>
      if (n =s "Header") || (n =s "MiningBuildTask") then _ ← check (U n k); Some p
      else if n =s "DataDictionary" then dd' ← dec_dict U at_ ks dd; Some (Pmml vs dd' td ms)
      else if n =s "TransformationDictionary" then
        td' ← dec_tdict E U ks td; Some (Pmml vs dd td' ms)
      else match dec_model E U k with
           | Some (Some m) => Some (Pmml vs dd td (ms ++ [m]))
           | _ => None
           end
  end.

(** PMML.UnmarshalXML, elements.go:3745-3804: knows no Extension either.  The
    name of the root element is not looked at. *)
Definition decode (E : Ext) (U : unread) (x : xml) : option pmml :=
  match x with
  | Chars _ => None
  | Elem _ at_ _ ks =>
      p ← attrs_fold pmml_attr at_ (Pmml "" [] [] []); kids_fold (pmml_kid E U) ks p
  end.
