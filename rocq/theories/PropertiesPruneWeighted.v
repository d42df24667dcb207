(** Property C99 under weightedConfidence. *)
From Verif Require Import Base Strconv Value Doc Expr Pred Tree Regression Model Lib GoExt Samples
  SpecConstruct ProofsWhole ProofsSim SpecEquiv PropertiesEquiv ProofsPruneWeighted.

(** *** C99.  Under weightedConfidence the answer depends on the order in which Go visits
    maps.  A tree without some of the branches that are false on the row has the same
    possible answers: what the one returns for some order, the other returns for some order. *)
Theorem C99_weighted_partial : ∀ E dd td t n e1 td' r tk (D : string → mnode → Prop) calls1 calls2,
  new_model E dd td (DTree t) = (Ok e1, td') →
  (∀ dc m, D dc m → ∃ q, compile_predicate E (field_types dd td') (mn_pred m) = Ok q ∧
     run_test E (field_types dd td') q (handle_input E (tm_lt t) r).2 = Ok RF) →
  tm_strategy t = "weightedConfidence" → tm_notrue t ≠ "returnNullPrediction" →
  pruned D (tm_node t) n →
  ∃ e2, new_model E dd td (DTree (with_node t n)) = (Ok e2, td') ∧
    (∃ E', same_world E' E ∧
       (evaluate E tk (after E calls1 e1) r).1 = (evaluate E' tk (after E' calls2 e2) r).1) ∧
    (∃ E', same_world E' E ∧
       (evaluate E tk (after E calls2 e2) r).1 = (evaluate E' tk (after E' calls1 e1) r).1).
Proof.
  intros E dd td t n e1 td' r tk D calls1 calls2 H1 HD Hst Hnt Hp.
  destruct (tree_pruned_weighted E dd td t n e1 td' r D H1 HD Hst Hnt Hp) as (e2 & H2 & f & g & Hfg).
  exists e2. split; [done|]. split.
  - exists (reordered E tk g). split; [done|].
    rewrite (history_independent E dd td (DTree t) e1 td') by done.
    rewrite (history_independent (reordered E tk g) dd td (DTree (with_node t n)) e2 td')
      by (by rewrite (new_model_world (reordered E tk g) E)).
    apply Hfg; [done..|]. right. intros s. apply reordered_order.
  - exists (reordered E tk f). split; [done|].
    rewrite (history_independent E dd td (DTree (with_node t n)) e2 td') by done.
    rewrite (history_independent (reordered E tk f) dd td (DTree t) e1 td')
      by (by rewrite (new_model_world (reordered E tk f) E)).
    symmetry. apply Hfg; [done..|]. left. intros s. apply reordered_order.
Qed.
Print Assumptions C99_weighted_partial.

Definition damp (ns : list mnode) : tree_model :=
  TreeModel "classification" "weightedConfidence" fone "" [] [MF "play" "target"] None
    (MNode "1" "" "yes" (fl "10") [SD "yes" "6"; SD "no" "4"] ns PTrue).
Example C99_weighted_example :
  let sunny := Some {["outlook" := GStr "sunny"]} in
  let D (dc : string) (m : mnode) := m = shut ∨ m = rainy in
  pruned D (tm_node (damp [shut; dry; rainy])) (tm_node (damp [dry])) ∧
  (∀ dc m, D dc m → ∃ q, compile_predicate go_ext (field_types golf_dd []) (mn_pred m) = Ok q ∧
     run_test go_ext (field_types golf_dd []) q sunny = Ok RF) ∧
  dumped (run go_ext golf_dd (DTree (damp [shut; dry; rainy])) sunny) =
    Some (Ok (dump (Some {["play" := GStr "yes"; "probability(yes)" := GF64 fone; "probability(no)" := GF64 fzero]}))) ∧
  dumped (run go_ext golf_dd (DTree (damp [dry])) sunny) =
    dumped (run go_ext golf_dd (DTree (damp [shut; dry; rainy])) sunny).
Proof.
  split; [|split; [|split; by vm_compute]].
  - constructor. apply th_drop; [by left|]. apply th_keep; [constructor; constructor|]. apply th_drop; [by right|]. constructor.
  - intros dc m [->| ->].
    + exists PFalse. split; by vm_compute.
    + exists (PSimple "outlook" "equal" "rain" (GStr "rain")). split; by vm_compute.
Qed.
