(** Derived fields that nothing reads, and documents without them (C143). *)
From Verif Require Import Base Strconv Value Doc SpecPred SpecExpr SpecEquiv.

(** The fields a document's trees test and its regressions multiply. *)
Fixpoint consulted (d : doc_model) : list string :=
  match d with
  | DTree t => node_fields (tm_node t)
  | DRegr m => concat (map (λ t, map np_name (rt_predictors t)) (rm_tables m))
  | DMining _ segs => concat (map (λ s, match s with Segment _ _ ms => concat (map consulted ms) end) segs)
  | DOther _ => []
  end.

(** Some derived fields with names in [G] and expressions that satisfy [P] are left
    out; what is kept reads no name in [G]. *)
Inductive dropped (G : list string) (P : expr → Prop) : list derived_field → list derived_field → Prop :=
| dp_nil : dropped G P [] []
| dp_keep x l1 l2 : (∀ f, f ∈ expr_fields (df_expr x) → f ∉ G) → dropped G P l1 l2 → dropped G P (x :: l1) (x :: l2)
| dp_drop x l1 l2 : df_name x ∈ G → P (df_expr x) → dropped G P l1 l2 → dropped G P (x :: l1) l2.
