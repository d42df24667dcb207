(** Trees whose nodes list their classes in another order (property C151). *)
From Verif Require Import Base Doc SpecEquiv.

(** The shares of the classes do not depend on rounding: confidences and probabilities are
    written down, or the record counts are whole numbers a float64 can add up. *)
Definition exact_shares (ds : list score_distribution) : Prop :=
  (∀ d, d ∈ ds → is_Some (sd_conf d) ∧ is_Some (sd_prob d)) ∨
  ∃ zs : list Z, (∀ z, z ∈ zs → (0 <= z)%Z) ∧ (foldr Z.add 0 zs <= 2 ^ 53)%Z ∧ sd_count <$> ds = f64_of_Z <$> zs.

Inductive classes_reordered : mnode → mnode → Prop :=
| cr_node id dc sc c ds1 ds2 ns1 ns2 p :
    ds1 ≡ₚ ds2 → NoDup (sd_value <$> ds1) → exact_shares ds1 → Forall2 classes_reordered ns1 ns2 →
    classes_reordered (MNode id dc sc c ds1 ns1 p) (MNode id dc sc c ds2 ns2 p).
