(** Independent specification of expressions and derived fields. *)
From Verif Require Import Base Strconv Value Doc.

(** The fields an expression refers to. *)
Fixpoint expr_fields (e : expr) : list string :=
  match e with
  | XField f _ => [f]
  | XConst _ _ => []
  | XApply _ _ _ args => concat (map expr_fields args)
  | XMap pairs _ _ _ _ _ => pairs.*1
  | XOther _ => []
  end.

(** The IEEE operation each binary function name stands for. *)
Definition arith_meaning (fn : string) : option (f64 → f64 → f64) :=
  if fn =s "+" then Some (SFadd 53 1024)
  else if fn =s "-" then Some (SFsub 53 1024)
  else if fn =s "*" then Some (SFmul 53 1024)
  else if fn =s "/" then Some (SFdiv 53 1024)
  else None.

(** A value that counts as missing for isMissing. *)
Definition missing (v : value) : Prop := v = GNil.
Global Instance missing_dec v : Decision (missing v).
Proof. unfold missing. destruct v; (left; done) || (right; done). Defined.

(** The input of MapValues: the value of the last present field paired with
    the column data:input. *)
Definition map_input (pairs : list (string * string)) (r : datarow) : option value :=
  last (omap (λ '(f, c), if c =s "data:input" then dr_get r f else None) pairs).

(** The last table row whose input is [s]. *)
Definition map_match (tables : list (list (gmap string string))) (s : string)
    : option (gmap string string) :=
  last (filter (λ rw, default "" (rw !! "input") = s) (concat tables)).

(** How a derived field stores the value of its expression. *)
Definition stored (E : Ext) (df : derived_field) (v : value) : value :=
  if df_optype df =s "continuous" then GF64 (val_float64 E v) else v.

(** Derived fields are defined once, and use only fields that are not derived
    later (or at the same place). *)
Fixpoint well_ordered (lt : list derived_field) : Prop :=
  match lt with
  | [] => True
  | df :: lt' =>
      df_name df ∉ map df_name lt' ∧
      df_name df ∉ expr_fields (df_expr df) ∧
      (∀ f, f ∈ expr_fields (df_expr df) → f ∉ map df_name lt') ∧
      well_ordered lt'
  end.
