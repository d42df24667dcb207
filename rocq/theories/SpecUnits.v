(** Inputs measured in other units (property C140). *)
From Coq Require Import Reals.
From Flocq Require Import Core.Core IEEE754.BinarySingleNaN.
From Verif Require Import Base Value Doc RealLib.
Local Open Scope R_scope.

(** A negative factor turns the sign, also that of zero. *)
Definition turned (s : R) (b : bool) : bool := if Rlt_dec s 0 then negb b else b.

(** [y] is the number [x] times [s], without rounding; nothing else if [s] is one. *)
Definition converts (s : R) (x y : f64) : Prop :=
  (s = 1 ∧ x = y) ∨
  (valid x ∧ valid y ∧ is_finite_SF x = true ∧ is_finite_SF y = true ∧
   sign_SF y = turned s (sign_SF x) ∧ SF2R radix2 y = s * SF2R radix2 x).

(** The coefficients of a predictor are per unit: one larger unit of the input, one smaller
    coefficient. *)
Definition table_converts (u : string → R) (t1 t2 : regr_table) : Prop :=
  rt_intercept t1 = rt_intercept t2 ∧ rt_category t1 = rt_category t2 ∧
  Forall2 (λ p1 p2, np_name p1 = np_name p2 ∧ converts (/ u (np_name p1)) (np_coeff p1) (np_coeff p2))
    (rt_predictors t1) (rt_predictors t2).
Definition model_converts (u : string → R) (m1 m2 : regr_model) : Prop :=
  rm_function m1 = rm_function m2 ∧ rm_norm m1 = rm_norm m2 ∧ rm_output m1 = rm_output m2 ∧
  Forall2 (table_converts u) (rm_tables m1) (rm_tables m2).
Definition row_converts (E : Ext) (u : string → R) (r1 r2 : datarow) : Prop :=
  ∀ f, match dr_get r1 f, dr_get r2 f with
       | Some v1, Some v2 => converts (u f) (val_float64 E v1) (val_float64 E v2)
       | None, None => True
       | _, _ => False
       end.
