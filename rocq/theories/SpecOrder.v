(** What two runs of aggregateNodes may disagree about. *)
From Verif Require Import Base Doc SpecRecords.

(** Every record count, of nodes and of distributions, is a whole number. *)
Definition whole_records (m : mnode) : Prop := more_records 1 m m.

(** the key under which Evaluate reports the probability of a class *)
Definition probability_of (c : string) : string := "probability(" +:+ c +:+ ")".

(** The predicted class is reported with a larger probability than every other class. *)
Definition clear_winner (target : string) (out : row) : Prop :=
  ∃ c p, out !! target = Some (GStr c) ∧ out !! probability_of c = Some (GF64 p) ∧
    ∀ c' q, c' ≠ c → out !! probability_of c' = Some (GF64 q) → fltb q p = true.

(** The same outcome, up to the choice between equally probable classes. *)
Definition same_but_ties (target : string) (o1 o2 : res datarow) : Prop :=
  match o1, o2 with
  | Ok (Some a), Ok (Some b) =>
      (∀ k, k ≠ target → a !! k = b !! k) ∧ (is_Some (a !! target) ↔ is_Some (b !! target)) ∧
      (clear_winner target a → a = b)
  | _, _ => o1 = o2
  end.
