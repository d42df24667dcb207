(** Neighbouring branches that say the same (property C148). *)
From Verif Require Import Base Doc SpecTree SpecEquiv.

(** The node under another identifier and with another predicate. *)
Definition retested (id : string) (p : predicate) (m : mnode) : mnode :=
  match m with MNode _ dc sc c ds ns _ => MNode id dc sc c ds ns p end.

(** Simple and compound predicates. *)
Definition tests_fields (p : predicate) : Prop :=
  match p with PSimple _ _ _ _ | PCompound _ _ => True | _ => False end.

(** Two neighbours that differ in identifier and predicate only are one, with the
    predicates joined by or. *)
Inductive joined_list (R : mnode → mnode → Prop) : list mnode → list mnode → Prop :=
| jo_nil : joined_list R [] []
| jo_keep a b l1 l2 : R a b → joined_list R l1 l2 → joined_list R (a :: l1) (b :: l2)
| jo_join a b id q id' l1 l2 :
    R a b → tests_fields (m_pred a) → tests_fields q → joined_list R l1 l2 →
    joined_list R (a :: retested id q a :: l1) (retested id' (PCompound "or" [m_pred a; q]) b :: l2).

(** The same at any depth. *)
Inductive joined : mnode → mnode → Prop :=
| jo_node id dc sc c ds ns1 ns2 p :
    joined_list joined ns1 ns2 → joined (MNode id dc sc c ds ns1 p) (MNode id dc sc c ds ns2 p).

(** In the trees of a document that have no strategy for missing values. *)
Definition rejoined : doc_model → doc_model → Prop :=
  rewritten (λ t1 t2, t1 = t2 ∨
    same_tree_but (λ t n1 n2,
      tm_strategy t ∉ ["nullPrediction"; "aggregateNodes"; "weightedConfidence"; "defaultChild"; "lastPrediction"] ∧
      joined n1 n2) t1 t2).
