(** What a row returned by Evaluate may hold, read off the document alone (C142). *)
From Verif Require Import Base Strconv Value Doc Expr Pred Tree Regression Model SpecTree SpecModel.

(** [may_report E dd d k v]: Evaluate of a model built from [d] may return a row
    that holds [v] under the key [k].  Which model of an ensemble answers depends
    on its method only: average and sum (the default) answer themselves,
    modelChain lets its last segment answer, selectFirst its first. *)
Inductive may_report (E : Ext) (dd : list data_field) : doc_model → string → gov → Prop :=
| mr_class t c :
    tm_function t = "classification" → c = "" ∨ c ∈ tree_classes dd t →
    may_report E dd (DTree t) (target_field (tm_schema t)) (GStr c)
| mr_probability t c p :
    tm_function t = "classification" → c ∈ tree_classes dd t →
    may_report E dd (DTree t) ("probability(" +:+ c +:+ ")") (GF64 p)
| mr_score t s x :
    tm_function t ≠ "classification" → s ∈ tree_classes dd t → ext_parse_float E s = Some x →
    may_report E dd (DTree t) "score" (GF64 x)
| mr_regression m k x :
    k ∈ regr_output_names m → may_report E dd (DRegr m) k (GF64 x)
| mr_combined h segs k x :
    mm_method h ∈ [""; "average"; "sum"] → k ∈ header_output_names h →
    may_report E dd (DMining h segs) k (GF64 x)
| mr_last h segs s d k v :
    mm_method h = "modelChain" → last segs = Some s → sg_models s = [d] →
    may_report E dd d k v → may_report E dd (DMining h segs) k v
| mr_first h segs s d k v :
    mm_method h = "selectFirst" → head segs = Some s → sg_models s = [d] →
    may_report E dd d k v → may_report E dd (DMining h segs) k v.

(** The tree or regression model or combining ensemble that answers for [d]. *)
Inductive speaker : doc_model → doc_model → Prop :=
| sp_tree t : speaker (DTree t) (DTree t)
| sp_regression m : speaker (DRegr m) (DRegr m)
| sp_combined h segs :
    mm_method h ∈ [""; "average"; "sum"] → speaker (DMining h segs) (DMining h segs)
| sp_last h segs s d d' :
    mm_method h = "modelChain" → last segs = Some s → sg_models s = [d] →
    speaker d d' → speaker (DMining h segs) d'
| sp_first h segs s d d' :
    mm_method h = "selectFirst" → head segs = Some s → sg_models s = [d] →
    speaker d d' → speaker (DMining h segs) d'.
