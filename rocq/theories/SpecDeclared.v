(** What documents declare about their inputs: replacements of missing values (property
    C145), allowed values and the treatment of others (property C146). *)
From Verif Require Import Base Doc SpecTree SpecModel SpecEquiv.

(** The document with [f] applied to the mining fields of its trees and regression
    models and [g] to those of its ensembles. *)
Fixpoint with_fields (f g : mining_field → mining_field) (d : doc_model) : doc_model :=
  match d with
  | DTree t => DTree (TreeModel (tm_function t) (tm_strategy t) (tm_penalty t) (tm_notrue t) (tm_lt t)
                        (f <$> tm_schema t) (tm_verification t) (tm_node t))
  | DRegr r => DRegr (RegrModel (rm_function r) (rm_norm r) (rm_lt r) (f <$> rm_schema r) (rm_tables r)
                        (rm_output r) (rm_verification r))
  | DMining h segs =>
      DMining (MiningHeader (mm_function h) (mm_method h) (mm_lt h) (g <$> mm_schema h) (mm_output h)
                 (mm_targets h) (mm_verification h))
        ((λ s, match s with Segment i ps ms => Segment i ps (with_fields f g <$> ms) end) <$> segs)
  | d => d
  end.

(** without the replacements of trees and regression models *)
Definition only_ensembles_replace : doc_model → doc_model := with_fields no_replacement id.

(** without invalidValueTreatment and outliers *)
Definition no_treatment (f : mining_field) : mining_field :=
  MiningField (mf_name f) (mf_usage f) (mf_replacement f) "" "".
Definition untreated : doc_model → doc_model := with_fields no_treatment no_treatment.

(** The target fields of the trees of a document. *)
Fixpoint targets (d : doc_model) : list string :=
  match d with
  | DTree t => mf_name <$> filter (λ f, mf_usage f = "target") (tm_schema t)
  | DMining _ segs => concat (map (λ s, match s with Segment _ _ ms => concat (map targets ms) end) segs)
  | _ => []
  end.

(** Dictionaries that differ only in the values listed for fields outside [l]. *)
Definition other_values (l : list string) : list data_field → list data_field → Prop :=
  Forall2 (λ a b, dd_name a = dd_name b ∧ dd_datatype a = dd_datatype b ∧
                  (dd_name a ∈ l → dd_values a = dd_values b)).

(** The field [f] has the value [v], which is not among those listed for it. *)
Definition not_listed (dd : list data_field) (m : gmap string gov) (f v : string) : Prop :=
  m !! f = Some (GStr v) ∧ target_values dd f ≠ [] ∧ v ∉ target_values dd f.
