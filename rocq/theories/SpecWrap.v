(** Nodes with a single child True (property C147). *)
From Verif Require Import Base Doc SpecTree SpecEquiv.

(** At any depth, the contents of nodes have been moved into a single child with the
    predicate True; what the node above it says is arbitrary. *)
Inductive wrapped : mnode → mnode → Prop :=
| wr_keep id dc sc c ds ns1 ns2 p :
    Forall2 wrapped ns1 ns2 → wrapped (MNode id dc sc c ds ns1 p) (MNode id dc sc c ds ns2 p)
| wr_wrap id dc sc c ds ns1 ns2 p id1 dc1 sc1 c1 ds1 id2 :
    Forall2 wrapped ns1 ns2 →
    wrapped (MNode id dc sc c ds ns1 p) (MNode id1 dc1 sc1 c1 ds1 [MNode id2 dc sc c ds ns2 PTrue] p).

(** The same for the trees of a document that have no strategy for missing values or
    nullPrediction. *)
Definition rewrapped : doc_model → doc_model → Prop :=
  rewritten (λ t1 t2, t1 = t2 ∨
    same_tree_but (λ t n1 n2,
      tm_strategy t ∉ ["aggregateNodes"; "weightedConfidence"; "defaultChild"; "lastPrediction"] ∧ wrapped n1 n2) t1 t2).
