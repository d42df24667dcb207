(** evaluation/regression.go. *)
From Verif Require Import Base Strconv Value Doc.

(** RegressionModel, regression.go:10-18; the flags validated and compiled are
    never read, dd and td are never read.  NewRegressionModel, 20-27, stores
    its arguments; Compile, 29-32, does nothing. *)
Record eregr : Type := ERegr_ { er_model : regr_model }.

(** RegressionModel.Validate, regression.go:34-59; the document is updated. *)
Definition regr_norm_ok (s : string) : bool :=
  (s =s "none") || (s =s "logit") || (s =s "softmax") || (s =s "exp") ||
  (s =s "cloglog") || (s =s "cauchit").

Definition regr_validate (x : eregr) : res unit * eregr :=
  let m := er_model x in
  let norm := if rm_norm m =s "" then "none" else rm_norm m in
  let x' := ERegr_ (RegrModel (rm_function m) norm (rm_lt m) (rm_schema m) (rm_tables m)
                              (rm_output m) (rm_verification m)) in
  if negb (regr_norm_ok norm) then (Err (ENormalization norm), x')
  else if negb (rm_function m =s "classification") then (Err (EMiningFunction (rm_function m)), x')
  else
    match List.find (λ o, negb (of_feature o =s "probability")) (rm_output m) with
    | Some o => (Err (EOutputFeature (of_feature o)), x')
    | None => (Ok tt, x')
    end.

(** normalize, regression.go:65-79.  Multiplication and addition at line 76 are
    taken as two rounded operations. *)
Definition normalize (E : Ext) (method : string) (t : f64) : res f64 :=
  if method =s "softmax" then Ok (fdiv fone (fadd fone (ext_exp E (fneg t))))
  else if method =s "logit" then Ok (fdiv fone (fadd fone (ext_exp E (fneg t))))
  else if method =s "exp" then Ok (ext_exp E t)
  else if method =s "cloglog" then Ok (fsub fone (ext_exp E (fneg (ext_exp E t))))
  else if method =s "cauchit" then Ok (fadd fhalf (fmul finvpi (ext_atan E t)))
  else Err (ENormalization method).

(** The loop regression.go:105-114 (and 173-183): intercept plus the products. *)
Fixpoint linear_form (E : Ext) (y : f64) (ps : list predictor) (r : datarow) : res f64 :=
  match ps with
  | [] => Ok y
  | p :: ps' =>
      match dr_get r (np_name p) with
      | None => Err (EMissingTerm (np_name p))
      | Some v => linear_form E (fadd y (fmul (np_coeff p) (val_float64 E v))) ps' r
      end
  end.

(** EvaluateRegression, regression.go:92-123.  The row returned next to a
    non-nil error is dropped. *)
Definition eval_regression (E : Ext) (m : regr_model) (r : datarow) : res datarow :=
  match rm_tables m with
  | [tbl] =>
      match rm_output m with
      | [o] =>
          y <-! linear_form E (rt_intercept tbl) (rt_predictors tbl) r;
          pred <-! normalize E (rm_norm m) y;
          Ok (Some {[of_name o := GF64 pred]})
      | os => Err (EOutputCount (length os))
      end
  | ts => Err (ETableCount (length ts))
  end.

(** The loop regression.go:134-144. *)
Fixpoint binary_form (E : Ext) (method : string) (pred : f64) (ps : list predictor)
    (r : datarow) : res f64 :=
  match ps with
  | [] => Ok pred
  | p :: ps' =>
      match dr_get r (np_name p) with
      | None => Err (EMissingTerm (np_name p))
      | Some v =>
          x <-! normalize E method (val_float64 E v);
          binary_form E method (fadd pred x) ps' r
      end
  end.

(** EvaluateBinaryClassification, regression.go:125-159. *)
Fixpoint binary_tables (E : Ext) (m : regr_model) (r : datarow) (final : f64) (out : row)
    (ts : list regr_table) : res datarow :=
  match ts with
  | [] => Ok (Some out)
  | t :: ts' =>
      pred <-! (if Nat.ltb 0 (length (rt_predictors t))
                then binary_form E (rm_norm m) (rt_intercept t) (rt_predictors t) r
                else Ok final);
      let final' := fsub final pred in
      let out' := foldl (λ out o, if rt_category t =s of_value o
                                  then <[of_name o := GF64 pred]> out else out)
                        out (rm_output m) in
      binary_tables E m r final' out' ts'
  end.

Definition eval_binary (E : Ext) (m : regr_model) (r : datarow) : res datarow :=
  binary_tables E m r fone ∅ (rm_tables m).

(** EvaluateMulticlassClassification, regression.go:161-205. *)
Definition out_fields (os : list output_field) : gmap string string :=
  foldl (λ m o, <[of_value o := of_name o]> m) ∅ os.

Definition fsum (l : list f64) : f64 := foldl fadd fzero l.

(** the loop 186-203 over the targets with their linear forms *)
Fixpoint multi_out (E : Ext) (method : string) (ys : list f64) (out : row)
    (l : list (string * f64)) : res datarow :=
  match l with
  | [] => Ok (Some out)
  | (target, y) :: l' =>
      if method =s "softmax" then
        multi_out E method ys (<[target := GF64 (fdiv (ext_exp E y) (fsum (ext_exp E <$> ys)))]> out) l'
      else if method =s "simplemax" then
        multi_out E method ys (<[target := GF64 (fdiv y (fsum ys))]> out) l'
      else Err (ENormalization method)
  end.

Definition eval_multiclass (E : Ext) (m : regr_model) (r : datarow) : res datarow :=
  let targets := (λ t, default "" (out_fields (rm_output m) !! rt_category t)) <$> rm_tables m in
  ys <-! rmap (λ t, linear_form E (rt_intercept t) (rt_predictors t) r) (rm_tables m);
  multi_out E (rm_norm m) ys ∅ (zip targets ys).

(** RegressionModel.Evaluate, regression.go:81-90. *)
Definition regr_evaluate (E : Ext) (m : regr_model) (r : datarow) : res datarow :=
  if rm_function m =s "regression" then eval_regression E m r
  else if (rm_function m =s "classification") && Nat.eqb (length (rm_output m)) 2
  then eval_binary E m r
  else if rm_function m =s "classification" then eval_multiclass E m r
  else Err (ERegressionFunction (rm_function m)).
