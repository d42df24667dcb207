(** Other names for the classes of a tree (property C132). *)
From Verif Require Import Base Doc SpecTree SpecEquiv.

Definition relabel_dist (σ : string → string) (d : score_distribution) : score_distribution :=
  ScoreDistribution (σ (sd_value d)) (sd_count d) (sd_conf d) (sd_prob d).
Fixpoint relabel_node (σ : string → string) (m : mnode) : mnode :=
  match m with
  | MNode id dc sc c ds ns p => MNode id dc (σ sc) c (relabel_dist σ <$> ds) (relabel_node σ <$> ns) p
  end.
Definition relabel_tree (σ : string → string) (t : tree_model) : tree_model := with_node t (relabel_node σ (tm_node t)).

(** The classes of the field [tg] in the data dictionary. *)
Definition relabel_dictionary (σ : string → string) (tg : string) (dd : list data_field) : list data_field :=
  (λ f, if decide (dd_name f = tg) then DataField (dd_name f) (dd_datatype f) (σ <$> dd_values f) else f) <$> dd.

(** Two answers that differ by the names of the classes. *)
Definition probability_of (c : string) : string := "probability(" +:+ c +:+ ")".
Definition relabelled (σ : string → string) (tg : string) (out1 out2 : row) : Prop :=
  (∃ v, out1 !! tg = Some (GStr v) ∧ out2 !! tg = Some (GStr (σ v))) ∧
  ∀ k x, k ≠ tg → out2 !! k = Some x ↔ ∃ c, k = probability_of (σ c) ∧ out1 !! probability_of c = Some x.
Definition answers_relabelled (σ : string → string) (tg : string) (o1 o2 : res datarow) : Prop :=
  match o1, o2 with
  | Ok (Some out1), Ok (Some out2) => relabelled σ tg out1 out2
  | _, _ => o1 = o2 ∧ ∀ out, o1 ≠ Ok (Some out)
  end.

(** The classes of a regression model: the targetCategory of its tables and the values its
    output fields stand for. *)
Definition relabel_regr (σ : string → string) (m : regr_model) : regr_model :=
  RegrModel (rm_function m) (rm_norm m) (rm_lt m) (rm_schema m)
    ((λ t, RegrTable (rt_intercept t) (σ (rt_category t)) (rt_predictors t)) <$> rm_tables m)
    ((λ o, OutputField (of_name o) (of_feature o) (σ (of_value o))) <$> rm_output m) (rm_verification m).
(** Documents whose regression models name their classes differently, each in its own way. *)
Inductive regressions_relabelled : doc_model → doc_model → Prop :=
| rr_regr m σ : (∀ a b, σ a = σ b → a = b) → regressions_relabelled (DRegr m) (DRegr (relabel_regr σ m))
| rr_tree t : regressions_relabelled (DTree t) (DTree t)
| rr_other k : regressions_relabelled (DOther k) (DOther k)
| rr_mining h segs1 segs2 :
    Forall2 (λ s1 s2, Forall2 regressions_relabelled (sg_models s1) (sg_models s2)) segs1 segs2 →
    regressions_relabelled (DMining h segs1) (DMining h segs2).
