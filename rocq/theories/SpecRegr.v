(** Specification vocabulary for regression models (C52 - C60), written from the
    PMML text and the documents, not from the evaluator's procedures. *)
From Verif Require Import Base Strconv Value Doc.

(** A predictor of the table is in the row. *)
Definition present (r : datarow) (p : predictor) : Prop := is_Some (dr_get r (np_name p)).

(** The number a row gives to a predictor; irrelevant when absent. *)
Definition input_of (E : Ext) (r : datarow) (p : predictor) : f64 :=
  match dr_get r (np_name p) with Some v => val_float64 E v | None => fzero end.

(** intercept + sum of coefficient * input, rounded left to right *)
Definition affine (E : Ext) (r : datarow) (t : regr_table) : f64 :=
  foldl (λ y p, fadd y (fmul (np_coeff p) (input_of E r p))) (rt_intercept t) (rt_predictors t).

(** The inverse link functions of PMML for one linear form. *)
Definition link_table (E : Ext) : list (string * (f64 → f64)) :=
  [("logit",   λ y, fdiv fone (fadd fone (ext_exp E (fneg y))));
   ("softmax", λ y, fdiv fone (fadd fone (ext_exp E (fneg y))));
   ("exp",     λ y, ext_exp E y);
   ("cloglog", λ y, fsub fone (ext_exp E (fneg (ext_exp E y))));
   ("cauchit", λ y, fadd fhalf (fmul finvpi (ext_atan E y)))].
Definition link (E : Ext) (method : string) (g : f64 → f64) : Prop := (method, g) ∈ link_table E.
Definition linked (method : string) : Prop :=
  method ∈ ["logit"; "softmax"; "exp"; "cloglog"; "cauchit"].

(** The shares binary classification gives to the tables: a table with
    predictors gets its intercept plus the sum of its normalised inputs, a table
    without predictors gets what is left of 1. *)
Definition share (E : Ext) (g : f64 → f64) (r : datarow) (t : regr_table) : f64 :=
  foldl (λ y p, fadd y (g (input_of E r p))) (rt_intercept t) (rt_predictors t).
Inductive shares (E : Ext) (g : f64 → f64) (r : datarow) : f64 → list regr_table → list f64 → Prop :=
| sh_nil left : shares E g r left [] []
| sh_share left t ts p ps :
    rt_predictors t ≠ [] → p = share E g r t →
    shares E g r (fsub left p) ts ps → shares E g r left (t :: ts) (p :: ps)
| sh_rest left t ts ps :
    rt_predictors t = [] →
    shares E g r (fsub left left) ts ps → shares E g r left (t :: ts) (left :: ps).

(** The output field(s) a table writes in binary classification, and the one in
    multiclass classification: the last one declared for the category, or the
    empty name. *)
Definition names_of (os : list output_field) (t : regr_table) (k : string) : Prop :=
  ∃ o, o ∈ os ∧ of_value o = rt_category t ∧ of_name o = k.
Definition name_of (os : list output_field) (t : regr_table) (k : string) : Prop :=
  (∃ l1 o l2, os = l1 ++ o :: l2 ∧ of_value o = rt_category t ∧ of_name o = k ∧
     ∀ o', o' ∈ l2 → of_value o' ≠ rt_category t) ∨
  (k = "" ∧ ∀ o, o ∈ os → of_value o ≠ rt_category t).

(** [out] holds, for each key, the value of the last table that writes it. *)
Definition written_by (named : regr_table → string → Prop) (ts : list regr_table) (vs : list f64)
    (out : row) : Prop :=
  ∀ k v, out !! k = Some v ↔
    ∃ i t x, ts !! i = Some t ∧ vs !! i = Some x ∧ named t k ∧ v = GF64 x ∧
      ∀ j t', i < j → ts !! j = Some t' → ¬ named t' k.

(** Documents that differ at most in the exponents, or in the exponents and
    coefficients. *)
Definition same_but_exponent (p q : predictor) : Prop := np_name p = np_name q ∧ np_coeff p = np_coeff q.
Definition same_name (p q : predictor) : Prop := np_name p = np_name q.
Definition tables_up_to (R : predictor → predictor → Prop) (t u : regr_table) : Prop :=
  rt_intercept t = rt_intercept u ∧ rt_category t = rt_category u ∧
  Forall2 R (rt_predictors t) (rt_predictors u).
Definition regr_up_to (R : predictor → predictor → Prop) (m n : regr_model) : Prop :=
  rm_function m = rm_function n ∧ rm_norm m = rm_norm n ∧ rm_output m = rm_output n ∧
  Forall2 (tables_up_to R) (rm_tables m) (rm_tables n).
