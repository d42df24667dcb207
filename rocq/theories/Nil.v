(** NewModel with Go's nil values: nil dictionaries and documents among its
    arguments, and the interface value it returns.  Model.v leaves them out. *)
From Verif Require Import Base Value Doc Expr Pred Tree Regression Model.

(** The argument mdl of NewModel, evaluation.go:19: an interface that is nil,
    that holds a nil pointer of a supported type, or a document. *)
Inductive element : Type :=
| NoElement
| NilTree
| NilMining
| NilRegression
| Element (d : doc_model).

(** The Model NewModel returns: a nil interface, an interface holding a nil
    *TreeModel or *MiningModel, a *RegressionModel whose document is nil, or an
    evaluator. *)
Inductive model_value : Type :=
| VNil
| VNilTree
| VNilMining
| VNoDocument
| VModel (e : emodel).

Inductive go_panic : Type :=
| NilDereference
| OtherPanic (p : panic).

(** What a call of NewModel does. *)
Inductive made : Type :=
| Returned (m : model_value) (e : option err)
| Panicked (p : go_panic).

(** NewTreeModel, tree.go:369-387.  Compile dereferences the dictionaries at
    tree.go:685 and 689-693, whatever is in them.  evaluation.go:22 converts the
    nil pointer of tree.go:378 and 383 to an interface. *)
Definition go_new_tree (E : Ext) (dd : option (list data_field)) (td : option (list derived_field)) (m : tree_model)
    : made * option (list derived_field) :=
  match tree_validate (ETree_ false false (default [] dd) m ∅ zero_node ∅ "") with
  | (Err e, _) => (Returned VNilTree (Some e), td)
  | (Panic p, _) => (Panicked (OtherPanic p), td)
  | (Ok _, t1) =>
      match dd, td with
      | Some _, Some td0 =>
          match tree_compile E td0 t1 with
          | (Ok _, t2, td') => (Returned (VModel (ETree t2)) None, Some td')
          | (Err e, _, td') => (Returned VNilTree (Some e), Some td')
          | (Panic p, _, td') => (Panicked (OtherPanic p), Some td')
          end
      | _, _ => (Panicked NilDereference, td)
      end
  end.

(** The loop mining.go:99-112; [nm] is NewModel.  A segment model that comes
    without an error is appended, whatever it is. *)
Definition go_segments (nm : option (list derived_field) → doc_model → made * option (list derived_field))
    : option (list derived_field) → list model_value → list (segment doc_model) →
      (option err + go_panic) * list model_value * option (list derived_field) :=
  fix go td acc segs :=
    match segs with
    | [] => (inl None, acc, td)
    | Segment _ _ models :: segs' =>
        match models with
        | [d] =>
            match nm td d with
            | (Returned m None, td') => go td' (acc ++ [m]) segs'
            | (Returned _ (Some e), td') => (inl (Some e), acc, td')
            | (Panicked p, td') => (inr p, acc, td')
            end
        | _ => (inl (Some (ESegmentSize (length models))), acc, td)
        end
    end.

(** The evaluators among interface values. *)
Definition evaluators (l : list model_value) : list emodel :=
  omap (λ m, match m with VModel e => Some e | _ => None end) l.

(** NewModel, evaluation.go:19-30, on a document, with NewMiningModel,
    mining.go:26-43, and NewRegressionModel, regression.go:20-27, which reads
    neither dictionary.  MiningModel.Compile dereferences them at mining.go:87
    and 91-95. *)
Fixpoint go_new_document (E : Ext) (dd : option (list data_field)) (td : option (list derived_field)) (d : doc_model)
    {struct d} : made * option (list derived_field) :=
  match d with
  | DTree t => go_new_tree E dd td t
  | DMining h segs =>
      match mining_validate (mining_fresh (default [] dd) h segs) with
      | (Err e, _) => (Returned VNilMining (Some e), td)
      | (Panic p, _) => (Panicked (OtherPanic p), td)
      | (Ok _, m1) =>
          match dd, td with
          | Some _, Some td0 =>
              let '(m2, td1) := mining_prepare td0 m1 in
              match go_segments (go_new_document E dd) (Some td1) [] segs with
              | (inl None, sm, td2) =>
                  (Returned (VModel (EMining (add_round (length sm) (mining_compiled m2)) (evaluators sm))) None, td2)
              | (inl (Some e), _, td2) => (Returned VNilMining (Some e), td2)
              | (inr p, _, td2) => (Panicked p, td2)
              end
          | _, _ => (Panicked NilDereference, td)
          end
      end
  | DRegr r => (Returned (VModel (ERegr (ERegr_ r))) None, td)
  | DOther k => (Returned VNil (Some (EInvalidModelType k)), td)
  end.

(** NewModel, evaluation.go:19-30: a nil interface is of no known type ("<nil>" in
    the message); Validate dereferences a nil document at tree.go:390 and
    mining.go:50, NewRegressionModel does not. *)
Definition go_new_model (E : Ext) (dd : option (list data_field)) (td : option (list derived_field)) (v : element)
    : made * option (list derived_field) :=
  match v with
  | NoElement => (Returned VNil (Some (EInvalidModelType "<nil>")), td)
  | NilTree | NilMining => (Panicked NilDereference, td)
  | NilRegression => (Returned VNoDocument None, td)
  | Element d => go_new_document E dd td d
  end.

(** The method calls of the Model interface, evaluation.go:12-17. *)
Inductive method : Type := MVerify | MCompile | MValidate | MEvaluate.

(** Whether a method panics at its first step: a nil interface has no methods;
    each method of TreeModel and MiningModel reads its receiver (tree.go:390, 677,
    709, 715; mining.go:46, 50, 71, 225), each method of RegressionModel but
    Compile (regression.go:29-32) reads its document (35, 60, 100). *)
Definition panics_at_once (v : model_value) (m : method) : bool :=
  match v with
  | VNil | VNilTree | VNilMining => true
  | VNoDocument => match m with MCompile => false | _ => true end
  | VModel _ => false
  end.

(** ** The row returned beside an error

    Evaluate returns (DataRow, error); Model.v keeps the row of a nil error only. *)

(** EvaluateRegression, regression.go:92-123: out is the empty map made at 93. *)
Definition go_regression (E : Ext) (m : regr_model) (r : datarow) : datarow * option err :=
  match rm_tables m with
  | [tbl] =>
      match rm_output m with
      | [o] =>
          match linear_form E (rt_intercept tbl) (rt_predictors tbl) r with
          | Ok y =>
              match normalize E (rm_norm m) y with
              | Ok pred => (Some {[of_name o := GF64 pred]}, None)
              | Err e => (Some ∅, Some e)
              | Panic _ => (None, None)
              end
          | Err e => (None, Some e)
          | Panic _ => (None, None)
          end
      | os => (Some ∅, Some (EOutputCount (length os)))
      end
  | ts => (Some ∅, Some (ETableCount (length ts)))
  end.

(** The loop regression.go:134-144: the error comes with out or with nil. *)
Fixpoint go_binary_form (E : Ext) (method : string) (out : row) (pred : f64) (ps : list predictor) (r : datarow)
    : f64 + datarow * err :=
  match ps with
  | [] => inl pred
  | p :: ps' =>
      match dr_get r (np_name p) with
      | None => inr (None, EMissingTerm (np_name p))
      | Some v =>
          match normalize E method (val_float64 E v) with
          | Ok x => go_binary_form E method out (fadd pred x) ps' r
          | Err e => inr (Some out, e)
          | Panic _ => inl pred
          end
      end
  end.

(** EvaluateBinaryClassification, regression.go:125-159. *)
Fixpoint go_binary_tables (E : Ext) (m : regr_model) (r : datarow) (final : f64) (out : row) (ts : list regr_table)
    : datarow * option err :=
  match ts with
  | [] => (Some out, None)
  | t :: ts' =>
      match (if Nat.ltb 0 (length (rt_predictors t))
             then go_binary_form E (rm_norm m) out (rt_intercept t) (rt_predictors t) r
             else inl final) with
      | inr (o, e) => (o, Some e)
      | inl pred =>
          go_binary_tables E m r (fsub final pred)
            (foldl (λ out o, if rt_category t =s of_value o then <[of_name o := GF64 pred]> out else out)
                   out (rm_output m)) ts'
      end
  end.

(** The loop regression.go:186-203. *)
Fixpoint go_multi_out (E : Ext) (method : string) (ys : list f64) (out : row) (l : list (string * f64))
    : datarow * option err :=
  match l with
  | [] => (Some out, None)
  | (target, y) :: l' =>
      if method =s "softmax" then
        go_multi_out E method ys (<[target := GF64 (fdiv (ext_exp E y) (fsum (ext_exp E <$> ys)))]> out) l'
      else if method =s "simplemax" then
        go_multi_out E method ys (<[target := GF64 (fdiv y (fsum ys))]> out) l'
      else (Some out, Some (ENormalization method))
  end.

(** EvaluateMulticlassClassification, regression.go:161-205. *)
Definition go_multiclass (E : Ext) (m : regr_model) (r : datarow) : datarow * option err :=
  let targets := (λ t, default "" (out_fields (rm_output m) !! rt_category t)) <$> rm_tables m in
  match rmap (λ t, linear_form E (rt_intercept t) (rt_predictors t) r) (rm_tables m) with
  | Ok ys => go_multi_out E (rm_norm m) ys ∅ (zip targets ys)
  | Err e => (None, Some e)
  | Panic _ => (None, None)
  end.

(** RegressionModel.Evaluate, regression.go:81-90. *)
Definition go_regr_evaluate (E : Ext) (m : regr_model) (r : datarow) : datarow * option err :=
  if rm_function m =s "regression" then go_regression E m r
  else if (rm_function m =s "classification") && Nat.eqb (length (rm_output m)) 2
  then go_binary_tables E m r fone ∅ (rm_tables m)
  else if rm_function m =s "classification" then go_multiclass E m r
  else (None, Some (ERegressionFunction (rm_function m))).

(** Model.Evaluate: tree.go and mining.go return nil beside every error (tree.go:716,
    720, 725, 748; mining.go:123, 129, 142, 165, 203, 228, 232, 237, 242, 255). *)
Definition go_evaluate (E : Ext) (tk : ticket) (e : emodel) (r : datarow) : (datarow * option err) + panic :=
  match e with
  | ERegr x => inl (go_regr_evaluate E (er_model x) r)
  | _ =>
      match (evaluate E tk e r).1.1 with
      | Ok out => inl (out, None)
      | Err x => inl (None, Some x)
      | Panic p => inr p
      end
  end.
