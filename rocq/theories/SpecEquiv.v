(** Ways to write the same document differently: rearranged compound predicates,
    rearranged dictionaries, dropped branches. *)
From Verif Require Import Base Strconv Value Doc SpecPred ProofsPred.

(** ** Compound predicates *)

(** Two ways to write one condition.  True, False and absent predicates are not
    unwrapped, as inside a compound they mean something else (C10). *)
Inductive same_pred : predicate → predicate → Prop :=
| sp_refl p : same_pred p p
| sp_sym p q : same_pred p q → same_pred q p
| sp_trans p q s : same_pred p q → same_pred q s → same_pred p s
| sp_inside b l1 l2 p q : same_pred p q → same_pred (PCompound b (l1 ++ p :: l2)) (PCompound b (l1 ++ q :: l2))
| sp_order b l1 l2 : b ∈ ["and"; "or"; "xor"] → Permutation l1 l2 →
    same_pred (PCompound b l1) (PCompound b l2)
| sp_nest b l1 l2 l3 : b ∈ ["and"; "or"; "xor"; "surrogate"] →
    same_pred (PCompound b (l1 ++ PCompound b l2 :: l3)) (PCompound b (l1 ++ l2 ++ l3))
| sp_single b p : b ∈ ["and"; "or"; "xor"; "surrogate"] → ¬ const_pred p → same_pred (PCompound b [p]) p
| sp_twice b p l : b ∈ ["and"; "or"] → same_pred (PCompound b (p :: p :: l)) (PCompound b (p :: l)).

(** Two trees whose nodes differ only in the way their predicates are written. *)
Inductive same_nodes (P : predicate → predicate → Prop) : mnode → mnode → Prop :=
| sn_node id dc sc c ds ns1 ns2 p1 p2 :
    Forall2 (same_nodes P) ns1 ns2 → P p1 p2 →
    same_nodes P (MNode id dc sc c ds ns1 p1) (MNode id dc sc c ds ns2 p2).

Definition with_node (t : tree_model) (n : mnode) : tree_model :=
  TreeModel (tm_function t) (tm_strategy t) (tm_penalty t) (tm_notrue t) (tm_lt t) (tm_schema t)
            (tm_verification t) n.

(** [N] relates the root nodes of trees that agree otherwise *)
Inductive same_tree_but (N : tree_model → mnode → mnode → Prop) : tree_model → tree_model → Prop :=
| stb t n : N t (tm_node t) n → same_tree_but N t (with_node t n).

(** Two documents whose corresponding trees are related by [T]: all other models
    and the headers of ensembles are the same. *)
Inductive rewritten (T : tree_model → tree_model → Prop) : doc_model → doc_model → Prop :=
| rw_tree t1 t2 : T t1 t2 → rewritten T (DTree t1) (DTree t2)
| rw_regr m : rewritten T (DRegr m) (DRegr m)
| rw_other k : rewritten T (DOther k) (DOther k)
| rw_mining h segs1 segs2 :
    Forall2 (λ s1 s2, Forall2 (rewritten T) (sg_models s1) (sg_models s2)) segs1 segs2 →
    rewritten T (DMining h segs1) (DMining h segs2).

Definition rearranged : doc_model → doc_model → Prop :=
  rewritten (same_tree_but (λ _, same_nodes same_pred)).

(** ** Data dictionaries *)

(** What a data dictionary says about one name. *)
Definition entries (f : string) (dd : list data_field) : list data_field :=
  filter (λ x, dd_name x = f) dd.

Fixpoint node_fields (n : mnode) : list string :=
  match n with MNode _ _ _ _ _ ns p => pred_fields p ++ concat (map node_fields ns) end.

(** The names that matter: tested fields, and target fields of trees. *)
Fixpoint looked_up (d : doc_model) : list string :=
  match d with
  | DTree t => node_fields (tm_node t) ++ (mf_name <$> filter (λ f, mf_usage f = "target") (tm_schema t))
  | DMining _ segs => concat (map (λ s, match s with Segment _ _ ms => concat (map looked_up ms) end) segs)
  | _ => []
  end.

(** ** Dropped branches *)

(** [l2] is [l1] without some elements satisfying [D]; the others are related by [R]. *)
Inductive thinned {A} (R : A → A → Prop) (D : A → Prop) : list A → list A → Prop :=
| th_nil : thinned R D [] []
| th_keep a b l1 l2 : R a b → thinned R D l1 l2 → thinned R D (a :: l1) (b :: l2)
| th_drop a l1 l2 : D a → thinned R D l1 l2 → thinned R D (a :: l1) l2.

(** Some children have been dropped, at any depth; [D dc m]: the child [m] of a
    node with default child [dc] may be. *)
Inductive pruned (D : string → mnode → Prop) : mnode → mnode → Prop :=
| pr_node id dc sc c ds ns1 ns2 p :
    thinned (pruned D) (D dc) ns1 ns2 →
    pruned D (MNode id dc sc c ds ns1 p) (MNode id dc sc c ds ns2 p).

Definition mn_id (m : mnode) : string := match m with MNode id _ _ _ _ _ _ => id end.
Definition mn_pred (m : mnode) : predicate := match m with MNode _ _ _ _ _ _ p => p end.

(** The strategies under which a branch with a false predicate is not looked at. *)
Definition ignores_false (strategy : string) : Prop :=
  strategy ≠ "aggregateNodes" ∧ strategy ≠ "weightedConfidence".

(** Predicates that hold of no row; SimpleSetPredicate is among them (C10). *)
Definition never_holds (p : predicate) : Prop :=
  match p with PFalse | PSet _ _ _ => True | _ => False end.

(** Branches that are never entered have been dropped from the trees. *)
Definition cleared : doc_model → doc_model → Prop :=
  rewritten (λ t1 t2, t1 = t2 ∨
    same_tree_but (λ t n1 n2, ignores_false (tm_strategy t) ∧ tm_notrue t ≠ "returnNullPrediction" ∧
      pruned (λ dc m, never_holds (mn_pred m) ∧ (tm_strategy t = "defaultChild" → mn_id m ≠ dc)) n1 n2) t1 t2).
