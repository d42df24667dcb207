(** Independent specification of which documents NewModel accepts. *)
From Verif Require Import Base Strconv Value Doc SpecPred.

(** All declarations in the order the evaluator sees them: the data dictionary,
    then the derived fields. *)
Definition declarations (dd : list data_field) (td : list derived_field)
    : list (string * string) :=
  map (λ d, (dd_name d, dd_datatype d)) dd ++ map (λ d, (df_name d, df_datatype d)) td.

(** The data type of a field: the last declaration counts. *)
Definition declared_as (dd : list data_field) (td : list derived_field) (f dt : string) : Prop :=
  ∃ l1 l2, declarations dd td = l1 ++ (f, dt) :: l2 ∧ f ∉ l2.*1.

(** The simple predicates of a tree, as (field, literal). *)
Fixpoint tree_simples (n : mnode) : list (string * string) :=
  match n with
  | MNode _ _ _ _ _ nodes p => concat (map tree_simples nodes) ++ pred_simples p
  end.

(** A tree the evaluator accepts, given the derived fields declared so far. *)
Definition tree_ok (E : Ext) (dd : list data_field) (td : list derived_field)
    (t : tree_model) : Prop :=
  (tm_function t = "classification" ∨ tm_function t = "regression") ∧
  ∀ f lit, (f, lit) ∈ tree_simples (tm_node t) →
    ∃ dt, declared_as dd (td ++ tm_lt t) f dt ∧ literal_ok E dt lit.

Definition mining_ok (h : mining_header) : Prop :=
  mm_method h ∈ [""; "average"; "sum"; "modelChain"; "selectFirst"] ∧
  ∀ o, o ∈ mm_output h → of_feature o = "" ∨ of_feature o = "probability".

(** [accepted td d td']: the document is accepted with derived fields [td]
    declared before it, and [td'] declared after it. *)
Inductive accepted (E : Ext) (dd : list data_field)
    : list derived_field → doc_model → list derived_field → Prop :=
| acc_tree td t : tree_ok E dd td t → accepted E dd td (DTree t) (td ++ tm_lt t)
| acc_regr td r : accepted E dd td (DRegr r) td
| acc_mining td h segs td' :
    mining_ok h → accepted_segments E dd (td ++ mm_lt h) segs td' →
    accepted E dd td (DMining h segs) td'
with accepted_segments (E : Ext) (dd : list data_field)
    : list derived_field → list (segment doc_model) → list derived_field → Prop :=
| acc_nil td : accepted_segments E dd td [] td
| acc_cons td s segs d td1 td2 :
    sg_models s = [d] → accepted E dd td d td1 → accepted_segments E dd td1 segs td2 →
    accepted_segments E dd td (s :: segs) td2.

(** Every LocalTransformations field of a document the evaluator registers, in
    pre-order.  (RegressionModel does not register its own.) *)
Fixpoint doc_locals (d : doc_model) : list derived_field :=
  match d with
  | DTree t => tm_lt t
  | DMining h segs =>
      mm_lt h ++ concat (map (λ s, concat (map doc_locals (sg_models s))) segs)
  | DRegr _ => []
  | DOther _ => []
  end.

(** Errors that report a wrong order of calls. *)
Definition lifecycle_error (e : err) : Prop := e = ENotValidated ∨ e = ENotCompiled.
