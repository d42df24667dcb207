(** Averages written as sums (C158). *)
From Verif Require Import Base Strconv Value Doc Expr Pred Tree Regression Model SpecModel.

(** The sum of the same members, every output of which is multiplied by [f] after all. *)
Definition as_sum (f : f64) (ks : list string) (h : mining_header) : mining_header :=
  MiningHeader (mm_function h) "sum" (mm_lt h) (mm_schema h) (mm_output h)
    (mm_targets h ++ ((λ k, Target k (Some f) None) <$> ks)) (mm_verification h).

(** An average of [2^j] members, and their sum multiplied by [1 / 2^j]; [ks] are its outputs. *)
Inductive rescaled_average : doc_model → doc_model → Prop :=
| ra_doc h segs ks j :
    mm_method h = "average" → NoDup ks → (∀ k, k ∈ ks ↔ k ∈ header_output_names h) →
    Z.of_nat (length segs) = (2 ^ Z.of_nat j)%Z → j ≤ 53 →
    rescaled_average (DMining h segs) (DMining (as_sum (fdiv fone (f64_of_Z (Z.of_nat (length segs)))) ks h) segs).
