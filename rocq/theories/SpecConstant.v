(** Sums of which a member always predicts the same number (C152). *)
From Verif Require Import Base Strconv Value Doc Expr Pred Tree Regression Model SpecConstruct.

(** A tree that predicts [c] for every row: its root has no condition and no
    children; the number is the first one of its score distributions, or, when it
    has none and the tree names no target, its score. *)
Inductive constant_tree (E : Ext) (c : f64) : tree_model → Prop :=
| ct_listed t id dc sc cnt d ds :
    tm_function t = "regression" → tm_lt t = [] → tm_node t = MNode id dc sc cnt (d :: ds) [] PTrue →
    ext_parse_float E (sd_value d) = Some c → constant_tree E c t
| ct_score t id dc sc cnt :
    tm_function t = "regression" → tm_lt t = [] → tm_node t = MNode id dc sc cnt [] [] PTrue →
    (∀ f, f ∈ tm_schema t → mf_usage f ≠ "target") →
    ext_parse_float E sc = Some c → constant_tree E c t.

(** [c] as the rescaleConstant of every output. *)
Definition with_constant (c : f64) (h : mining_header) : mining_header :=
  MiningHeader (mm_function h) (mm_method h) (mm_lt h) (mm_schema h) (mm_output h)
    ((λ o, Target (of_name o) None (Some c)) <$> mm_output h) (mm_verification h).

(** [d2] is [d1] after some sums gave up a constant last member for rescaleConstants. *)
Inductive constants_folded (E : Ext) : doc_model → doc_model → Prop :=
| cf_same d : constants_folded E d d
| cf_in h segs1 segs2 :
    Forall2 (λ s1 s2, Forall2 (constants_folded E) (sg_models s1) (sg_models s2)) segs1 segs2 →
    constants_folded E (DMining h segs1) (DMining h segs2)
| cf_here h segs s t c :
    mm_method h = "sum" ∨ mm_method h = "" → mm_function h ≠ "classification" → mm_targets h = [] →
    NoDup (map of_name (mm_output h)) →
    sg_models s = [DTree t] → constant_tree E c t →
    constants_folded E (DMining h (segs ++ [s])) (DMining (with_constant c h) segs).

(** [segs] holds regression trees. *)
Definition regression_trees (segs : list (segment doc_model)) : Prop :=
  ∀ s d, s ∈ segs → d ∈ sg_models s → ∃ t, d = DTree t ∧ tm_function t = "regression".
