(** Verification data that differ in the precisions they ask for. *)
From Verif Require Import Base Doc SpecVerify SpecEssence.

(** The same columns for the same fields, an expected output where the other
    expects one. *)
Definition same_columns (l1 l2 : list ver_field) : Prop :=
  Forall2 (λ f g, vf_field f = vf_field g ∧ vf_column f = vf_column g ∧
                  (is_Some (vf_precision f) ↔ is_Some (vf_precision g))) l1 l2.

Definition same_tables (v1 v2 : option verification) : Prop :=
  match v1, v2 with
  | Some a, Some b => same_columns (vr_fields a) (vr_fields b) ∧ vr_rows a = vr_rows b
  | None, None => True
  | _, _ => False
  end.

(** A document stripped of all verification data, at every depth. *)
Fixpoint without_data (d : doc_model) : doc_model :=
  match d with
  | DTree t => DTree (TreeModel (tm_function t) (tm_strategy t) (tm_penalty t) (tm_notrue t) (tm_lt t) (tm_schema t)
                        None (tm_node t))
  | DMining h segs =>
      DMining (MiningHeader (mm_function h) (mm_method h) (mm_lt h) (mm_schema h) (mm_output h) (mm_targets h) None)
        ((λ s, match s with Segment i ps ms => Segment i ps (without_data <$> ms) end) <$> segs)
  | DRegr m => DRegr (RegrModel (rm_function m) (rm_norm m) (rm_lt m) (rm_schema m) (rm_tables m) (rm_output m) None)
  | DOther k => DOther k
  end.
