(** Other identifiers for the nodes of trees (property C131). *)
From Verif Require Import Base Doc SpecEquiv.

(** The nodes have other identifiers, but every defaultChild names the same children. *)
Inductive reidentified : mnode → mnode → Prop :=
| ri_node id1 id2 dc1 dc2 sc c ds ns1 ns2 p :
    Forall2 (λ a b, reidentified a b ∧ (mn_id a = dc1 ↔ mn_id b = dc2)) ns1 ns2 →
    reidentified (MNode id1 dc1 sc c ds ns1 p) (MNode id2 dc2 sc c ds ns2 p).

Definition renumbered : doc_model → doc_model → Prop :=
  rewritten (λ t1 t2, t1 = t2 ∨
    same_tree_but (λ t n1 n2, tm_strategy t ≠ "weightedConfidence" ∧ reidentified n1 n2) t1 t2).

(** The identifiers left out, as PMML allows. *)
Fixpoint anonymous (m : mnode) : mnode :=
  match m with MNode _ dc sc c ds ns p => MNode "" dc sc c ds (anonymous <$> ns) p end.
