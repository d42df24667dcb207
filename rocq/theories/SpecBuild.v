(** When building evaluators writes to the document or the dictionaries. *)
From Verif Require Import Base Doc Pred Tree Regression Model SpecTree SpecConstruct ProofsWhole.

(** a predicate with a literal that is compiled *)
Inductive has_literal : predicate → Prop :=
| hl_simple f op v raw : has_literal (PSimple f op v raw)
| hl_compound b ps p : p ∈ ps → has_literal p → has_literal (PCompound b ps).

Definition tree_written (t : tree_model) : Prop :=
  tm_schema t ≠ [] ∨ ∃ m, m ∈ doc_nodes (tm_node t) ∧ has_literal (m_pred m).

(** NewModel on an accepted document writes into the document or the dictionaries:
    a derived field is registered, a mining field or a literal of a tree is filled in,
    or a missing method is replaced by sum. *)
Definition written_document (d : doc_model) : Prop :=
  doc_locals d ≠ [] ∨ (∃ t, t ∈ doc_trees d ∧ tree_written t) ∨ (∃ h, h ∈ doc_headers d ∧ mm_method h = "").
