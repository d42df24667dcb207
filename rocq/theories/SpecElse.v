(** Siblings that are true together, and last children written as True (property C144). *)
From Verif Require Import Base Doc Pred Tree SpecTree.

(** Follow the last true child. *)
Inductive descend_late {N} (kids : N → list N) (truth : N → presult → Prop) : N → N → Prop :=
| late_stop n : (∀ c, c ∈ kids n → ¬ truth c RT) → descend_late kids truth n n
| late_step n l1 c l2 leaf :
    kids n = l1 ++ c :: l2 → (∀ c', c' ∈ l2 → ¬ truth c' RT) → truth c RT →
    descend_late kids truth c leaf → descend_late kids truth n leaf.

(** The node with the predicate True. *)
Definition otherwise (m : mnode) : mnode :=
  match m with MNode id dc sc c ds ns _ => MNode id dc sc c ds ns PTrue end.

(** The last child of nodes, at any depth, has been given the predicate True where it
    takes ([covers]) whatever its siblings leave. *)
Inductive with_else (covers : list mnode → mnode → Prop) : mnode → mnode → Prop :=
| we_keep id dc sc c ds ns1 ns2 p :
    Forall2 (with_else covers) ns1 ns2 →
    with_else covers (MNode id dc sc c ds ns1 p) (MNode id dc sc c ds ns2 p)
| we_else id dc sc c ds l1 k1 l2 k2 p :
    Forall2 (with_else covers) l1 l2 → with_else covers k1 k2 → covers l1 k1 →
    with_else covers (MNode id dc sc c ds (l1 ++ [k1]) p) (MNode id dc sc c ds (l2 ++ [otherwise k2]) p).

(** On a row: it is true when none of its siblings is. *)
Definition takes_the_rest (truth : mnode → presult → Prop) (l : list mnode) (c : mnode) : Prop :=
  (∀ c', c' ∈ l → ¬ truth c' RT) → truth c RT.

(** In the document: one sibling, tested against the same number from the other side;
    [P] restricts field and number. *)
Definition other_side (P : string → string → Prop) (l : list mnode) (c : mnode) : Prop :=
  ∃ k f lit raw1 raw2 op1 op2, P f lit ∧ l = [k] ∧ m_pred k = PSimple f op1 lit raw1 ∧ m_pred c = PSimple f op2 lit raw2 ∧
    ((op1 = "lessOrEqual" ∧ op2 = "greaterThan") ∨ (op1 = "lessThan" ∧ op2 = "greaterOrEqual")).
