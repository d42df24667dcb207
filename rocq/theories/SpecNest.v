(** When two documents nest the same models differently (property C128). *)
From Verif Require Import Base Doc SpecConstruct.

(** a mining model that only groups: it is valid, computes no fields and replaces no
    missing values *)
Definition only_groups (h : mining_header) : Prop :=
  mining_ok h ∧ mm_lt h = [] ∧ Forall (λ f, mf_replacement f = None) (mm_schema h).
(** a segment that always applies, with one model *)
Definition holds_just (s : segment doc_model) (d : doc_model) : Prop := sg_preds s = [PTrue] ∧ sg_models s = [d].

Inductive regrouped : doc_model → doc_model → Prop :=
(** a chain inside a chain or its segments in place of it *)
| rg_chain h l1 s g l2 inner :
    mm_method h = "modelChain" → holds_just s (DMining g inner) → mm_method g = "modelChain" → only_groups g →
    inner ≠ [] ∨ l2 ≠ [] →
    regrouped (DMining h (l1 ++ s :: l2)) (DMining h (l1 ++ inner ++ l2))
(** an ensemble of one member or that member *)
| rg_single g s d :
    mm_method g ∈ ["selectFirst"; "modelChain"] → only_groups g → holds_just s d →
    regrouped (DMining g [s]) d
(** anywhere in the document, any number of times, both ways *)
| rg_inside h l1 i ps d d' l2 :
    regrouped d d' → regrouped (DMining h (l1 ++ Segment i ps [d] :: l2)) (DMining h (l1 ++ Segment i ps [d'] :: l2))
| rg_refl d : regrouped d d
| rg_sym d d' : regrouped d d' → regrouped d' d
| rg_trans d d' d'' : regrouped d d' → regrouped d' d'' → regrouped d d''.
