(** C134: documents that list the same declarations in another order. *)
From Verif Require Import Base Strconv Value Doc.

(** At most one mining field is the target. *)
Definition one_target (l : list mining_field) : Prop :=
  ∀ f g, f ∈ l → g ∈ l → mf_usage f = "target" → mf_usage g = "target" → f = g.

(** The same mining fields, none listed twice. *)
Definition same_schema (l1 l2 : list mining_field) : Prop :=
  Permutation l1 l2 ∧ NoDup (mf_name <$> l1) ∧ one_target l1.

(** The same output fields, no category twice. *)
Definition same_outputs (l1 l2 : list output_field) : Prop :=
  Permutation l1 l2 ∧ NoDup (of_value <$> l1).

(** The same targets, no field twice. *)
Definition same_targets (l1 l2 : list target) : Prop :=
  Permutation l1 l2 ∧ NoDup (tg_field <$> l1).

(** The same document with mining fields, output fields and targets listed in
    another order, in ensembles and in their members. *)
Inductive reordered : doc_model → doc_model → Prop :=
| ro_tree fn st pen notrue lt s1 s2 v n : same_schema s1 s2 →
    reordered (DTree (TreeModel fn st pen notrue lt s1 v n)) (DTree (TreeModel fn st pen notrue lt s2 v n))
| ro_regr fn norm lt s1 s2 ts o1 o2 v : Permutation s1 s2 → same_outputs o1 o2 →
    reordered (DRegr (RegrModel fn norm lt s1 ts o1 v)) (DRegr (RegrModel fn norm lt s2 ts o2 v))
| ro_other k : reordered (DOther k) (DOther k)
| ro_mining fn method lt s1 s2 o1 o2 t1 t2 v segs1 segs2 :
    same_schema s1 s2 → Permutation o1 o2 → same_targets t1 t2 →
    Forall2 (λ a b, Forall2 reordered (sg_models a) (sg_models b)) segs1 segs2 →
    reordered (DMining (MiningHeader fn method lt s1 o1 t1 v) segs1)
              (DMining (MiningHeader fn method lt s2 o2 t2 v) segs2).
