(** Subtrees that predict one thing, and leaves in their place (property C129). *)
From Verif Require Import Base Doc Tree SpecTree SpecEquiv.

(** What a node predicts: its classes with their probabilities, or its score.  Record
    counts, confidences and names do not belong to it. *)
Definition says (m : mnode) : list (string * option f64) :=
  if decide (m_dists m = []) then [(m_score m, None)]
  else (λ d, (sd_value d, Some (default (share (m_dists m) d) (sd_prob d)))) <$> m_dists m.

(** All nodes of the subtree predict the same, and have a predicate. *)
Definition one_opinion (m : mnode) : Prop :=
  ∀ c, c ∈ doc_nodes m → says c = says m ∧ m_pred c ≠ PNone.

(** Such subtrees have been replaced by leaves, at any depth. *)
Inductive collapsed : mnode → mnode → Prop :=
| co_leaf id dc sc c ds ns p :
    one_opinion (MNode id dc sc c ds ns p) → collapsed (MNode id dc sc c ds ns p) (MNode id dc sc c ds [] p)
| co_node id dc sc c ds ns1 ns2 p :
    Forall2 collapsed ns1 ns2 → collapsed (MNode id dc sc c ds ns1 p) (MNode id dc sc c ds ns2 p).

(** The strategy none, which is also meant by no strategy; without a true child the
    prediction is that of the node. *)
Definition plain_descent (t : tree_model) : Prop :=
  tm_strategy t ∉ ["nullPrediction"; "aggregateNodes"; "weightedConfidence"; "defaultChild"; "lastPrediction"] ∧
  tm_notrue t ≠ "returnNullPrediction".
Definition simplified : doc_model → doc_model → Prop :=
  rewritten (λ t1 t2, t1 = t2 ∨ same_tree_but (λ t n1 n2, plain_descent t ∧ collapsed n1 n2) t1 t2).
