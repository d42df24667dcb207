(** Derived fields that are declared once for a whole ensemble (property C150). *)
From Verif Require Import Base Doc SpecExpr SpecConstruct SpecModel SpecDerive.

(** The model without its first derived fields [l]: a tree, or an ensemble that replaces
    no missing values. *)
Inductive hands_over (l : list derived_field) : doc_model → doc_model → Prop :=
| ho_tree t rest : tm_lt t = l ++ rest → hands_over l (DTree t) (DTree (tree_with_lt t rest))
| ho_mining g rest segs :
    mm_lt g = l ++ rest → Forall (λ f, mf_replacement f = None) (mm_schema g) →
    hands_over l (DMining g segs) (DMining (header_with_lt g rest) segs).

(** The fields the derived fields define or are computed from. *)
Definition involves (l : list derived_field) (f : string) : Prop :=
  f ∈ map df_name l ∨ Exists (λ df, f ∈ expr_fields (df_expr df)) l.

(** A member of an ensemble that computes [l] beforehand: it need not compute [l] once
    more.  Nothing it writes, nor in a chain what it returns, is involved in [l]. *)
Definition member_of (dd : list data_field) (l : list derived_field) (method : string) (d d' : doc_model) : Prop :=
  (d = d' ∨ hands_over l d d') ∧
  (∀ f, f ∈ written_names dd d' → ¬ involves l f) ∧
  (method = "modelChain" → ∀ f, f ∈ output_names dd d' → ¬ involves l f).

Inductive declared_above (dd : list data_field) : doc_model → doc_model → Prop :=
(** the ensemble computes what its first member computes first *)
| da_first h l i ps d d' segs :
    hands_over l d d' →
    declared_above dd (DMining h (Segment i ps [d] :: segs))
                      (DMining (header_with_lt h (mm_lt h ++ l)) (Segment i ps [d'] :: segs))
(** if it defines every field once, from fields not defined there or later, its members
    need not do so again *)
| da_again h a l segs1 segs2 :
    mm_lt h = a ++ l → well_ordered l →
    Forall2 (λ s1 s2, Forall2 (member_of dd l (mm_method h)) (sg_models s1) (sg_models s2)) segs1 segs2 →
    declared_above dd (DMining h segs1) (DMining h segs2)
(** anywhere in the document, any number of times, both ways *)
| da_inside h l1 i ps d d' l2 :
    declared_above dd d d' →
    declared_above dd (DMining h (l1 ++ Segment i ps [d] :: l2)) (DMining h (l1 ++ Segment i ps [d'] :: l2))
| da_refl d : declared_above dd d d
| da_sym d d' : declared_above dd d d' → declared_above dd d' d
| da_trans d d' d'' : declared_above dd d d' → declared_above dd d' d'' → declared_above dd d d''.
