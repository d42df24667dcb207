(** Property theorem about panics (more of C25). *)
From Verif Require Import Base Strconv Value Doc Expr Pred Tree Regression Model Lib SpecTree ProofsWhole ProofsSim ProofsPanic
  GoExt Samples.

(** *** C25: the only panics of an accepted model on a non-nil row are calls of a missing
    predicate, and indexing the empty scores of a regression tree; never a failed type
    assertion or a write to a nil map *)
Theorem C25_panic_causes : ∀ E dd td d e td' calls tk m p,
  new_model E dd td d = (Ok e, td') →
  (evaluate E tk (after E calls e) (Some m)).1.1 = Panic p →
  (p = PNilFunc ∧ ∃ t, t ∈ doc_trees d ∧ ¬ everywhere_doc (λ m, m_pred m ≠ PNone) (tm_node t)) ∨
  (p = PIndex ∧ ∃ t, t ∈ doc_trees d ∧ tm_function t = "regression" ∧
     ¬ (tm_strategy t ≠ "defaultChild" ∧ everywhere_doc (λ m, node_dist dd t m ≠ []) (tm_node t))).
Proof.
  intros E dd td d e td' calls tk m p Hn. rewrite (history_independent E dd td d e td' calls tk (Some m) Hn).
  destruct (evaluate E tk e (Some m)) as [[o r'] e'] eqn:He. simpl. intros ->.
  by apply (evaluate_panics E dd (doc_trees d) tk e m _ _ _ (new_model_steady E dd td d e td' Hn) He).
Qed.
Print Assumptions C25_panic_causes.

Example C25_causes_example :
  let bare := DTree (TreeModel "classification" "none" fone "returnLastPrediction" [] [MF "play" "target"] None
                (MNode "1" "" "yes" (fl "1") [SD "yes" "1"] [] PNone)) in
  let scoreless := DTree (TreeModel "regression" "none" fone "returnLastPrediction" [] [MF "area" "active"; MF "price" "target"] None
                (MNode "1" "" "100" (fl "2") [] [price_leaf "2" "50" "area" "lessThan" "60"] PTrue)) in
  (evaluate go_ext [] (built go_ext golf_dd bare) (Some ∅)).1.1 = Panic PNilFunc ∧
  (evaluate go_ext [] (built go_ext price_dd scoreless) (Some ∅)).1.1 = Panic PIndex ∧
  (evaluate go_ext [] (built go_ext price_dd (mining "regression" "sum" [] [OF "price" "" ""] [] [DTree price_tree; scoreless])) (Some ∅)).1.1 = Panic PIndex.
Proof. vm_compute. done. Qed.
