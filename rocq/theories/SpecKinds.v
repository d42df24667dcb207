(** Documents whose fields are declared with other data types of the same kind (property
    C139). *)
From Verif Require Import Base Doc Pred Tree Regression Model SpecDerive.

(** The data types that the evaluator knows; [float] and [double] are both read as 64-bit
    numbers. *)
Definition known_types : list string := ["boolean"; "double"; "float"; "integer"; "string"].
Definition real_types : list string := ["float"; "double"].

Definition same_kind (a b : string) : Prop :=
  a = b ∨ (a ∈ real_types ∧ b ∈ real_types) ∨ (a ∉ known_types ∧ b ∉ known_types).

(** The same expression with other types of the same kind for the defaults of its MapValues. *)
Inductive retyped_expr : expr → expr → Prop :=
| re_field f m : retyped_expr (XField f m) (XField f m)
| re_const dt v : retyped_expr (XConst dt v) (XConst dt v)
| re_other k : retyped_expr (XOther k) (XOther k)
| re_apply fn d m args1 args2 : Forall2 retyped_expr args1 args2 →
    retyped_expr (XApply fn d m args1) (XApply fn d m args2)
| re_map pairs tables d dt1 dt2 oc m : same_kind dt1 dt2 →
    retyped_expr (XMap pairs tables d dt1 oc m) (XMap pairs tables d dt2 oc m).

Definition retyped_derived (a b : derived_field) : Prop :=
  df_name a = df_name b ∧ df_optype a = df_optype b ∧
  same_kind (df_datatype a) (df_datatype b) ∧ retyped_expr (df_expr a) (df_expr b).

Definition retyped_data (a b : data_field) : Prop :=
  dd_name a = dd_name b ∧ dd_values a = dd_values b ∧ same_kind (dd_datatype a) (dd_datatype b).

(** The same model with local transformations declared in that way, at every depth. *)
Definition retyped : doc_model → doc_model → Prop := redefined (Forall2 retyped_derived).
