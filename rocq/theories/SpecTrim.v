(** Conditions that were tested on the way down (C153). *)
From Verif Require Import Base Strconv Value Doc Pred SpecPred ProofsPred SpecEquiv.

(** [q] holds where [p] does: it is [p] itself, or an operand of an "and". *)
Inductive part_of : predicate → predicate → Prop :=
| po_self p : ¬ const_pred p → part_of p p
| po_operand ps p q : p ∈ ps → part_of p q → part_of (PCompound "and" ps) q.

(** A part of one of the conditions in [K]. *)
Definition certain (K : list predicate) (q : predicate) : Prop := ∃ p, p ∈ K ∧ part_of p q.

(** The condition is accepted, and true in the row. *)
Definition holds (E : Ext) (ft : gmap string string) (r : datarow) (p : predicate) : Prop :=
  ∃ c, compile_predicate E ft p = Ok c ∧ run_test E ft c r = Ok RT.

(** [q] is true in every row in which all of [K] are. *)
Definition implied (E : Ext) (ft : gmap string string) (K : list predicate) (q : predicate) : Prop :=
  ¬ const_pred q ∧
  ((∀ p, p ∈ K → ∃ c, compile_predicate E ft p = Ok c) → ∃ c, compile_predicate E ft q = Ok c) ∧
  ∀ r, (∀ p, p ∈ K → holds E ft r p) → holds E ft r q.

(** [p2] is [p1] without some of the operands in [C]; what remains of an "and"
    may be written as its only operand or, if nothing remains, as True. *)
Inductive trimmed_pred (C : predicate → Prop) : predicate → predicate → Prop :=
| tp_same p : trimmed_pred C p p
| tp_fewer ps qs : thinned eq C ps qs → trimmed_pred C (PCompound "and" ps) (PCompound "and" qs)
| tp_single ps q : thinned eq C ps [q] → ¬ const_pred q → trimmed_pred C (PCompound "and" ps) q
| tp_none ps : Forall C ps → trimmed_pred C (PCompound "and" ps) PTrue
| tp_known p : C p → trimmed_pred C p PTrue.

(** The same for the nodes of a tree; [K] are the conditions of the nodes above. *)
Inductive trimmed (C : list predicate → predicate → Prop) (K : list predicate) : mnode → mnode → Prop :=
| tr_node id dc sc c ds ns1 ns2 p1 p2 :
    trimmed_pred (C K) p1 p2 → Forall2 (trimmed C (p1 :: K)) ns1 ns2 →
    trimmed C K (MNode id dc sc c ds ns1 p1) (MNode id dc sc c ds ns2 p2).

(** Documents with trees in which children are only looked at when the condition
    of their parent is true. *)
Definition trimmed_trees : doc_model → doc_model → Prop :=
  rewritten (same_tree_but (λ t n1 n2,
    n1 = n2 ∨ tm_strategy t ∉ ["aggregateNodes"; "weightedConfidence"; "defaultChild"; "lastPrediction"] ∧ trimmed certain [] n1 n2)).

(** The bound [op2 b] follows from the bound [op1 a] on the same number; [le] and [lt]
    compare literals. *)
Inductive wider {A} (le lt : A → A → bool) (a b : A) : string → string → Prop :=
| wi_lt op : op ∈ ["lessThan"; "lessOrEqual"] → le a b = true → wider le lt a b "lessThan" op
| wi_le : le a b = true → wider le lt a b "lessOrEqual" "lessOrEqual"
| wi_le_lt : lt a b = true → wider le lt a b "lessOrEqual" "lessThan"
| wi_gt op : op ∈ ["greaterThan"; "greaterOrEqual"] → le b a = true → wider le lt a b "greaterThan" op
| wi_ge : le b a = true → wider le lt a b "greaterOrEqual" "greaterOrEqual"
| wi_ge_gt : lt b a = true → wider le lt a b "greaterOrEqual" "greaterThan".
