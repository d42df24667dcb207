(** Predictors with coefficient zero (property C141). *)
From Flocq Require Import IEEE754.BinarySingleNaN.
From Verif Require Import Base Value Doc.

(** [k] is [l] without some of the elements with [P]. *)
Inductive without {A} (P : A → Prop) : list A → list A → Prop :=
  | without_nil : without P [] []
  | without_keep a l k : without P l k → without P (a :: l) (a :: k)
  | without_drop a l k : P a → without P l k → without P (a :: l) k.

(** Coefficient zero, and the row has a finite number for the field. *)
Definition weightless (E : Ext) (r : datarow) (p : predictor) : Prop :=
  (∃ s, np_coeff p = S754_zero s) ∧
  ∃ v, dr_get r (np_name p) = Some v ∧ is_finite_SF (val_float64 E v) = true.

Definition model_without (P : predictor → Prop) (m1 m2 : regr_model) : Prop :=
  rm_function m1 = rm_function m2 ∧ rm_norm m1 = rm_norm m2 ∧ rm_output m1 = rm_output m2 ∧
  Forall2 (λ t1 t2, rt_intercept t1 = rt_intercept t2 ∧ rt_category t1 = rt_category t2 ∧
    without P (rt_predictors t1) (rt_predictors t2)) (rm_tables m1) (rm_tables m2).
