(** The names a document tests and the types they have (property C137). *)
From Verif Require Import Base Doc Pred Tree Regression Model SpecPred ProofsPred SpecEquiv ProofsWhole.

Definition not_own (lt : list derived_field) (fs : list string) : list string :=
  filter (λ f, f ∉ map df_name lt) fs.

(** The fields that the predicates of the document's trees mention, except those that are
    derived by the tree itself or by an ensemble around it. *)
Fixpoint tested (d : doc_model) : list string :=
  match d with
  | DTree t => not_own (tm_lt t) (node_fields (tm_node t))
  | DMining h segs => not_own (mm_lt h)
      (concat (map (λ s, match s with Segment _ _ ms => concat (map tested ms) end) segs))
  | _ => []
  end.

(** The data type of a name: the last derived field of this name, or else the last data
    field. *)
Definition type_given (dd : list data_field) (td : list derived_field) (f : string) : option string :=
  match last (filter (λ x, df_name x = f) td) with
  | Some x => Some (df_datatype x)
  | None => dd_datatype <$> last (filter (λ x, dd_name x = f) dd)
  end.

(** NewModel had the same outcome: the same error, or evaluators whose answers to the same
    row are the same whatever was asked before. *)
Definition same_outcome (E : Ext) (o1 o2 : res emodel) : Prop :=
  match o1, o2 with
  | Ok e1, Ok e2 => ∀ calls1 calls2 tk r,
      (evaluate E tk (after E calls1 e1) r).1 = (evaluate E tk (after E calls2 e2) r).1
  | Err a, Err b => a = b
  | Panic a, Panic b => a = b
  | _, _ => False
  end.

(** The transformation dictionary after NewModel was called for some documents with it,
    accepted or not, each with its own data dictionary. *)
Definition left_by (E : Ext) (td : list derived_field) (builds : list (list data_field * doc_model)) :
    list derived_field :=
  foldl (λ td b, (new_model E b.1 td b.2).2) td builds.
