(** From a file to an answer, and defaults written into a file. *)
From Verif Require Import Base Doc Model Xml Decode.

(** Decode a document with one model, build the evaluator, evaluate a row; None
    is a document that cannot be read. *)
Definition file_answer (E : Ext) (U : unread) (x : xml) (tk : ticket) (r : datarow) : option (res datarow) :=
  match decode E U x with
  | Some p =>
      match pm_models p with
      | [d] => match new_model E (pm_dd p) (pm_td p) d with
               | (Ok e, _) => Some (evaluate E tk e r).1.1
               | (Err e, _) => Some (Err e)
               | (Panic p, _) => Some (Panic p)
               end
      | _ => None
      end
  | None => None
  end.

(** Write attribute [a] with its default [v] into every element [el] without it. *)
Fixpoint add_default (el a v : string) (x : xml) : xml :=
  match x with
  | Chars s => Chars s
  | Elem n at_ i ks =>
      Elem n (if bool_decide (n = el ∧ a ∉ at_.*1) then at_ ++ [(a, v)] else at_) i
           (add_default el a v <$> ks)
  end.
