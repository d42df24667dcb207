(** How much a document can cost an Evaluate (property C127). *)
From Verif Require Import Base Doc Lib ProofsWhole Build Beside SpecBeside.

(** the simple predicates of a predicate, and of all nodes of a tree *)
Fixpoint simples (p : predicate) : nat :=
  match p with
  | PSimple _ _ _ _ => 1
  | PCompound _ ps => sum_list (map simples ps)
  | _ => 0
  end.
Fixpoint all_simples (m : mnode) : nat :=
  match m with MNode _ _ _ _ _ ns p => simples p + sum_list (map all_simples ns) end.

(** the nodes on the longest path, the children of the widest node, the longest
    predicate *)
Fixpoint levels (m : mnode) : nat := match m with MNode _ _ _ _ _ ns _ => S (max_list (map levels ns)) end.
Fixpoint widest (m : mnode) : nat := match m with MNode _ _ _ _ _ ns _ => length ns `max` max_list (map widest ns) end.
Fixpoint longest (m : mnode) : nat := match m with MNode _ _ _ _ _ ns p => simples p `max` max_list (map longest ns) end.

(** one path and the siblings of its nodes *)
Definition along_a_path (m : mnode) : nat := longest m * (1 + widest m * (levels m - 1)).
Definition tree_bound (t : tree_model) : nat :=
  if bool_decide (tm_strategy t ∈ ["aggregateNodes"; "weightedConfidence"; "defaultChild"; "lastPrediction"])
  then all_simples (tm_node t) else along_a_path (tm_node t).

Definition over_trees (f : tree_model → nat) (d : doc_model) : nat := sum_list (f <$> doc_trees d).

(** the comparisons with a literal in a run *)
Definition is_literal (x : place) : bool := match x with AtLiteral _ _ _ _ => true | _ => false end.
Definition comparisons (tr : list baccess) : nat := length (filter is_literal (b_place <$> tr)).
