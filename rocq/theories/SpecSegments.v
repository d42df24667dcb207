(** Segments of an ensemble that leave each other alone. *)
From Verif Require Import Base Doc SpecModel SpecRename.

(** No segment needs a field from the row that an earlier segment may write. *)
Definition undisturbed (dd : list data_field) (segs : list (segment doc_model)) : Prop :=
  ∀ l1 s l2 s' d d' f, segs = l1 ++ s :: l2 → s' ∈ l1 →
    d ∈ sg_models s → d' ∈ sg_models s' → f ∈ doc_inputs d → f ∉ written_names dd d'.
