(** When evaluators built from one document do not disturb each other. *)
From Verif Require Import Base Doc Tree Regression Model SpecConstruct.

(** One type per field: no name is declared with two data types. *)
Definition one_type (l : list (string * string)) : Prop :=
  ∀ f a b, (f, a) ∈ l → (f, b) ∈ l → a = b.

(** Every declaration the evaluator of [d] sees. *)
Definition all_declared (dd : list data_field) (td : list derived_field) (d : doc_model)
    : list (string * string) := declarations dd (td ++ doc_locals d).

(** Two evaluators with the same tests in the same places. *)
Inductive same_tests : emodel → emodel → Prop :=
| st_tree t1 t2 : et_root t1 = et_root t2 → same_tests (ETree t1) (ETree t2)
| st_regr x1 x2 : same_tests (ERegr x1) (ERegr x2)
| st_mining h1 h2 sm1 sm2 : Forall2 same_tests sm1 sm2 → same_tests (EMining h1 sm1) (EMining h2 sm2).
