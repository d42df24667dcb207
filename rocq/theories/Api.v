(** Histories of calls on one evaluator: the Model interface, evaluation.go:12-17. *)
From Verif Require Import Base Doc Tree Regression Model.

(** One method call; tickets fix the map iteration orders of that call. *)
Inductive call : Type :=
| CValidate
| CCompile
| CEvaluate (tk : ticket) (r : datarow)
| CVerify (tk : ticket).

(** The evaluator and the transformation dictionary it shares, after a call
    whose result the caller ignores (a panic counts as recovered). *)
Definition call_step (E : Ext) (s : emodel * list derived_field) (c : call)
    : emodel * list derived_field :=
  let '(e, td) := s in
  match c with
  | CValidate => ((model_validate e).2, td)
  | CCompile => match model_compile E td e with (_, e', td') => (e', td') end
  | CEvaluate tk r => ((evaluate E tk e r).2, td)
  | CVerify tk => ((model_verify E tk e).2, td)
  end.

Definition history (E : Ext) (calls : list call) (s : emodel * list derived_field)
    : emodel * list derived_field := foldl (call_step E) s calls.
