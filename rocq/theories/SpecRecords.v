(** Trees whose record counts are multiplied by a number. *)
From Coq Require Import Reals.
From Flocq Require Import Core.Core IEEE754.BinarySingleNaN.
From Verif Require Import Base Doc SpecTree SpecEquiv RealLib AccLib.
Local Open Scope R_scope.

(** [y] is [k] times the whole number [x]; both are exact. *)
Definition times (k : Z) (x y : f64) : Prop :=
  ∃ z, (0 <= z ∧ k * z <= 2 ^ 53)%Z ∧ x = f64_of_Z z ∧ y = f64_of_Z (k * z).

Definition more_dist (k : Z) (d1 d2 : score_distribution) : Prop :=
  sd_value d1 = sd_value d2 ∧ sd_conf d1 = sd_conf d2 ∧ sd_prob d1 = sd_prob d2 ∧ times k (sd_count d1) (sd_count d2).

(** Every recordCount, of nodes and of their distributions, is multiplied. *)
Inductive more_records (k : Z) : mnode → mnode → Prop :=
| mr_node id dc sc c1 c2 ds1 ds2 ns1 ns2 p :
    times k c1 c2 → Forall2 (more_dist k) ds1 ds2 → Forall2 (more_records k) ns1 ns2 →
    more_records k (MNode id dc sc c1 ds1 ns1 p) (MNode id dc sc c2 ds2 ns2 p).

(** All record counts of a tree, added up. *)
Definition tree_records (m : mnode) : R :=
  rsum (map (λ n, R64 (m_count n) + real_sum (map sd_count (m_dists n))) (doc_nodes m)).

(** Two trees that differ in their record counts.  The larger ones stay within the
    whole numbers a float64 holds; where counts are added up by class, the target's
    values are distinct. *)
Definition same_proportions (dd : list data_field) : tree_model → tree_model → Prop := λ t1 t2,
  ∃ k, (1 <= k)%Z ∧
  same_tree_but (λ t n1 n2, more_records k n1 n2 ∧ IZR k * tree_records n1 <= IZR (2 ^ 53) ∧
    (tm_strategy t = "aggregateNodes" → NoDup (target_values dd (target_field (tm_schema t))))) t1 t2.
