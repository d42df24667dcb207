(** Members of an ensemble whose results nobody uses (C149). *)
From Verif Require Import Base Strconv Value Doc Expr Pred Tree Regression Model SpecExpr SpecConstruct ProofsWhole SpecModel SpecUnread.

(** Every field the document tests, multiplies or computes with. *)
Definition all_reads (d : doc_model) : list string :=
  consulted d ++ concat (map (λ x, expr_fields (df_expr x)) (doc_locals d)).
(** The members in [segs] read none of the names in [G]. *)
Definition unread (G : list string) (segs : list (segment doc_model)) : Prop :=
  ∀ s d f, s ∈ segs → d ∈ sg_models s → f ∈ all_reads d → f ∉ G.
(** No tree in [segs] goes through a Go map. *)
Definition ordered (segs : list (segment doc_model)) : Prop :=
  ∀ s d t, s ∈ segs → d ∈ sg_models s → t ∈ doc_trees d →
    tm_strategy t ≠ "weightedConfidence" ∧ tm_strategy t ≠ "aggregateNodes".
(** [o] is a failure of a model built from [d]. *)
Definition own_failure (E : Ext) (dd : list data_field) (d : doc_model) (o : res datarow) : Prop :=
  (∀ out, o ≠ Ok out) ∧
  ∃ td e td' tk m, new_model E dd td d = (Ok e, td') ∧ (evaluate E tk e (Some m)).1.1 = o.
