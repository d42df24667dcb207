(** Why Evaluate may return an error. *)
From Verif Require Import Base Strconv Value Doc SpecTree.

(** The ways the value of an expression can be an error, on a row that has at least the
    fields of [m]: the faulty constant, mapping or application, however deep. *)
Inductive expr_fault (E : Ext) (m : row) : expr → err → Prop :=
| constant_type dt v : dt ≠ "double" → expr_fault E m (XConst dt v) (EConstType dt)
| constant_text v : ext_parse_float E v = None → expr_fault E m (XConst "double" v) (EParseFloat v)
| map_default pairs tables d dt oc mmt x :
    get_raw_value E dt d = Err x → expr_fault E m (XMap pairs tables (Some d) dt oc mmt) x
| map_input pairs tables dt oc mmt :
    (∀ f, (f, "data:input") ∈ pairs → m !! f = None) →
    expr_fault E m (XMap pairs tables None dt oc mmt) EMapValues
| unsupported k : expr_fault E m (XOther k) ETransformation
| unknown_function fn d mmt args :
    fn ∉ ["sum"; "+"; "-"; "*"; "/"; "isMissing"; "isNotMissing"; "if"] →
    expr_fault E m (XApply fn d mmt args) (EApplyFunction fn)
| argument_count fn n d mmt args :
    (fn, n) ∈ [("+", 2); ("-", 2); ("*", 2); ("/", 2); ("isMissing", 1); ("isNotMissing", 1); ("if", 3)] →
    length args ≠ n → expr_fault E m (XApply fn d mmt args) (EArity fn (length args))
| argument fn d mmt args a x :
    a ∈ args → expr_fault E m a x → expr_fault E m (XApply fn d mmt args) x.

(** The ways a regression model fails. *)
Inductive regr_fault (m : row) (g : regr_model) : err → Prop :=
| regr_missing tb p :
    tb ∈ rm_tables g → p ∈ rt_predictors tb → m !! np_name p = None →
    regr_fault m g (EMissingTerm (np_name p))
| regr_normalization :
    rm_norm g ∉ ["softmax"; "logit"; "exp"; "cloglog"; "cauchit"] →
    rm_function g = "regression" ∨ (rm_function g = "classification" ∧ length (rm_output g) = 2) →
    regr_fault m g (ENormalization (rm_norm g))
| regr_multiclass :
    rm_norm g ∉ ["softmax"; "simplemax"] → rm_function g = "classification" → length (rm_output g) ≠ 2 →
    regr_fault m g (ENormalization (rm_norm g))
| regr_tables :
    rm_function g = "regression" → length (rm_tables g) ≠ 1 → regr_fault m g (ETableCount (length (rm_tables g)))
| regr_outputs :
    rm_function g = "regression" → length (rm_output g) ≠ 1 → regr_fault m g (EOutputCount (length (rm_output g)))
| regr_function :
    rm_function g ∉ ["regression"; "classification"] → regr_fault m g (ERegressionFunction (rm_function g)).

(** The ways a document fails: a derived field of a tree or of an ensemble, a score of a
    regression tree that is no number, a regression model, selectFirst without segments; for
    an ensemble, those of its members, for selectFirst those of the first. *)
Inductive fault (E : Ext) (dd : list data_field) (m : row) : doc_model → err → Prop :=
| tree_input t f x : f ∈ tm_lt t → expr_fault E m (df_expr f) x → fault E dd m (DTree t) x
| tree_score t s :
    tm_function t = "regression" → s ∈ tree_classes dd t → ext_parse_float E s = None →
    fault E dd m (DTree t) (EParseFloat s)
| regression g x : regr_fault m g x → fault E dd m (DRegr g) x
| ensemble_input h segs f x :
    f ∈ mm_lt h → expr_fault E m (df_expr f) x → fault E dd m (DMining h segs) x
| ensemble_empty h : mm_method h = "selectFirst" → fault E dd m (DMining h []) ENoSegments
| first_member h s segs d x :
    sg_models s = [d] → fault E dd m d x → fault E dd m (DMining h (s :: segs)) x
| later_member h s s' segs d x :
    mm_method h ≠ "selectFirst" → s ∈ segs → sg_models s = [d] → fault E dd m d x →
    fault E dd m (DMining h (s' :: segs)) x.
