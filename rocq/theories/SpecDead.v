(** Branches that no row can take (C154). *)
From Verif Require Import Base Strconv Value Doc Pred SpecPred ProofsPred SpecEquiv SpecTrim.

(** [q] is given and false in every row in which all of [K] are true; with [U] it may also be unknown. *)
Definition excluded (E : Ext) (ft : gmap string string) (U : bool) (K : list predicate) (q : predicate) : Prop :=
  q ≠ PNone ∧ ∀ r c v, (∀ p, p ∈ K → holds E ft r p) → compile_predicate E ft q = Ok c → run_test E ft c r = Ok v →
    v = RF ∨ U = true ∧ v = RU.

(** Trees from which branches are taken away whose condition is in [D], and branches that
    come after one with the condition True; [K] are the conditions above.  With [leaf] a node may
    lose all of its children. *)
Inductive lopped (D : list predicate → predicate → Prop) (leaf : bool) (K : list predicate) : mnode → mnode → Prop :=
| lo_node id dc sc c ds ns1 ns2 p :
    lopped_list D leaf (p :: K) ns1 ns2 → (leaf = false → ns2 = [] → ns1 = []) →
    lopped D leaf K (MNode id dc sc c ds ns1 p) (MNode id dc sc c ds ns2 p)
with lopped_list (D : list predicate → predicate → Prop) (leaf : bool) (K : list predicate) : list mnode → list mnode → Prop :=
| lo_nil : lopped_list D leaf K [] []
| lo_keep m1 m2 l1 l2 : lopped D leaf K m1 m2 → lopped_list D leaf K l1 l2 → lopped_list D leaf K (m1 :: l1) (m2 :: l2)
| lo_drop m l1 l2 : D K (mn_pred m) → lopped_list D leaf K l1 l2 → lopped_list D leaf K (m :: l1) l2
| lo_cut m1 m2 l : mn_pred m1 = PTrue → lopped D leaf K m1 m2 → lopped_list D leaf K (m1 :: l) [m2].

(** The bounds [op1 a] and [op2 b] on a number exclude each other. *)
Inductive apart {A} (le lt : A → A → bool) : A → string → A → string → Prop :=
| ap_lt a b op : op ∈ ["greaterThan"; "greaterOrEqual"] → le a b = true → apart le lt a "lessThan" b op
| ap_le_gt a b : le a b = true → apart le lt a "lessOrEqual" b "greaterThan"
| ap_le_ge a b : lt a b = true → apart le lt a "lessOrEqual" b "greaterOrEqual"
| ap_sym a op1 b op2 : apart le lt b op2 a op1 → apart le lt a op1 b op2.
