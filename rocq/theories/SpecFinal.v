(** C133: predictions that missing values cannot change any more. *)
From Verif Require Import Base Strconv Value Doc SpecExpr.

(** [r2] is [r] with further fields filled in. *)
Definition completes (r r2 : datarow) : Prop :=
  ∀ f v, dr_get r f = Some v → dr_get r2 f = Some v.

(** The predicate says nothing about a field being missing: no isMissing, no
    surrogate, at any depth. *)
Fixpoint steady (p : predicate) : Prop :=
  match p with
  | PSimple _ op _ _ => op ≠ "isMissing"
  | PCompound b ps => b ≠ "surrogate" ∧ (fix all l := match l with [] => True | q :: l' => steady q ∧ all l' end) ps
  | PSet _ _ _ | PTrue | PFalse => True
  | PNone => True
  end.

(** The derived fields read no field that [r2] fills in. *)
Definition same_sources (lt : list derived_field) (r r2 : datarow) : Prop :=
  ∀ df f, df ∈ lt → f ∈ expr_fields (df_expr df) → dr_get r2 f = dr_get r f.
