(** The documents in which boosted trees and forests are exported (C156). *)
From Verif Require Import Base Strconv Value Doc Expr Pred Tree Regression Model.

(** Nothing is derived or replaced. *)
Definition plain_header (h : mining_header) : Prop := mm_lt h = [] ∧ ∀ f, f ∈ mm_schema h → mf_replacement f = None.

(** The segments hold the trees [ts]; their conditions may be anything. *)
Definition holds_trees (segs : list (segment doc_model)) (ts : list tree_model) : Prop :=
  Forall2 (λ s t, sg_models s = [DTree t]) segs ts.

(** A chain of a sum of trees, whose only output is [xv], and a logistic regression that reads [xv]:
    [pa] and [pb] are the outputs for the classes [ca] and [cb], [i] is the intercept for [ca]. *)
Inductive boosted_classifier (h1 : mining_header) (xv pa pb : string) (i : f64) (ts : list tree_model) : doc_model → Prop :=
| bc_doc h2 s1 s2 segs rm c n j ca cb oa ob :
    mm_method h1 = "modelChain" →
    sg_models s1 = [DMining h2 segs] → sg_models s2 = [DRegr rm] →
    plain_header h2 → mm_method h2 = "sum" ∨ mm_method h2 = "" → mm_function h2 = "regression" →
    map of_name (mm_output h2) = [xv] → mm_targets h2 = [] → holds_trees segs ts →
    rm_function rm = "classification" → rm_norm rm = "logit" →
    rm_tables rm = [RegrTable i ca [Predictor xv c n]; RegrTable j cb []] →
    rm_output rm = [oa; ob] ∨ rm_output rm = [ob; oa] →
    of_value oa = ca → of_value ob = cb → ca ≠ cb → of_name oa = pa → of_name ob = pb →
    boosted_classifier h1 xv pa pb i ts (DMining h1 [s1; s2]).

(** The trees, each built on its own, give the numbers [ss] for the row. *)
Definition scores (E : Ext) (dd : list data_field) (td : list derived_field) (ts : list tree_model) (m : row) (ss : list f64) : Prop :=
  Forall2 (λ t s, ∃ e, new_model E dd td (DTree t) = (Ok e, td) ∧
    ∀ tk, (evaluate E tk e (Some m)).1 = (Ok (Some {["score" := GF64 s]}), Some m)) ts ss.
(** The trees give the rows [os]. *)
Definition predictions (E : Ext) (dd : list data_field) (td : list derived_field) (ts : list tree_model) (m : row) (os : list row) : Prop :=
  Forall2 (λ t o, ∃ e, new_model E dd td (DTree t) = (Ok e, td) ∧
    ∀ tk, (evaluate E tk e (Some m)).1 = (Ok (Some o), Some m)) ts os.

(** Added up from left to right. *)
Definition added (ss : list f64) : f64 := foldl fadd fzero ss.
Definition logistic (E : Ext) (x : f64) : f64 := fdiv fone (fadd fone (ext_exp E (fneg x))).
