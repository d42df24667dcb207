(** A tree written as a list of rules (property C136). *)
From Verif Require Import Base Doc Tree SpecTree SpecEquiv.

(** All of the conditions on the way to a node.  True and False are taken out, as
    inside a compound predicate they mean something else (C10). *)
Definition is_true_pred (p : predicate) : bool := match p with PTrue => true | _ => false end.
Definition is_false_pred (p : predicate) : bool := match p with PFalse => true | _ => false end.
Definition all_of (ps : list predicate) : predicate :=
  if existsb is_false_pred ps then PFalse
  else match filter (λ p, is_true_pred p = false) ps with
       | [] => PTrue
       | [p] => p
       | qs => PCompound "and" qs
       end.

(** The rules of a node: those of its children, then its own.  [path] is the list of
    conditions above it. *)
Fixpoint rules (path : list predicate) (m : mnode) : list mnode :=
  match m with
  | MNode id dc sc c ds ns p =>
      concat (map (rules (path ++ [p])) ns) ++ [MNode id "" sc c ds [] (all_of (path ++ [p]))]
  end.

(** The tree with the rules as the children of the root. *)
Definition as_rules (m : mnode) : mnode :=
  match m with
  | MNode id dc sc c ds ns p => MNode id dc sc c ds (concat (map (rules []) ns)) p
  end.

(** Documents whose trees, any number of them, have been written as rules. *)
Definition first_match (t : tree_model) : Prop :=
  tm_strategy t ∉ ["aggregateNodes"; "weightedConfidence"; "defaultChild"; "lastPrediction"] ∧
  tm_notrue t ≠ "returnNullPrediction" ∧
  everywhere_doc (λ m, m_pred m ≠ PNone) (tm_node t).
Definition ruled : doc_model → doc_model → Prop :=
  rewritten (λ t1 t2, t1 = t2 ∨ same_tree_but (λ t n1 n2, first_match t ∧ n2 = as_rules n1) t1 t2).
