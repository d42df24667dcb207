(** Independent specification of tree evaluation: the descents the missing value
    strategies describe, as relations on trees of any node type. *)
From Verif Require Import Base Strconv Value Doc Pred Tree.

(** ** Descents *)

Section descent.
  Context {N : Type} (kids : N → list N) (truth : N → presult → Prop).

  (** A property of a node and all its descendants. *)
  Inductive everywhere_in (P : N → Prop) : N → Prop :=
  | everywhere_intro n : P n → Forall (everywhere_in P) (kids n) → everywhere_in P n.

  (** Strategy none: follow the first true child, unknown counts as false. *)
  Inductive descend_none : N → N → Prop :=
  | none_stop n :
      (∀ c, c ∈ kids n → ¬ truth c RT) → descend_none n n
  | none_step n l1 c l2 leaf :
      kids n = l1 ++ c :: l2 → (∀ c', c' ∈ l1 → ¬ truth c' RT) → truth c RT →
      descend_none c leaf → descend_none n leaf.

  (** Strategy nullPrediction: the same descent, every inspected child known. *)
  Inductive descend_null : N → N → Prop :=
  | null_stop n :
      (∀ c, c ∈ kids n → truth c RF) → descend_null n n
  | null_step n l1 c l2 leaf :
      kids n = l1 ++ c :: l2 → (∀ c', c' ∈ l1 → truth c' RF) → truth c RT →
      descend_null c leaf → descend_null n leaf.

  (** ... or an unknown child is inspected on the way. *)
  Inductive meets_unknown : N → Prop :=
  | null_here n l1 c l2 :
      kids n = l1 ++ c :: l2 → (∀ c', c' ∈ l1 → truth c' RF) → truth c RU →
      meets_unknown n
  | null_below n l1 c l2 :
      kids n = l1 ++ c :: l2 → (∀ c', c' ∈ l1 → truth c' RF) → truth c RT →
      meets_unknown c → meets_unknown n.

  (** Strategy lastPrediction (PMML): stop at the first node with an unknown
      child or without a true child. *)
  Inductive descend_last : N → N → Prop :=
  | last_unknown n c :
      c ∈ kids n → truth c RU → descend_last n n
  | last_stop n :
      (∀ c, c ∈ kids n → truth c RF) → descend_last n n
  | last_step n c leaf :
      (∀ c', c' ∈ kids n → ¬ truth c' RU) →
      c ∈ kids n → truth c RT → descend_last c leaf → descend_last n leaf.

  (** At most one child of the node is true. *)
  Definition single_true (n : N) : Prop :=
    ∀ l1 c l2 c', kids n = l1 ++ c :: l2 → truth c RT → c' ∈ l1 ++ l2 → ¬ truth c' RT.
End descent.

(** ** Nodes of the document *)

Definition m_id (m : mnode) : string := match m with MNode i _ _ _ _ _ _ => i end.
Definition m_default (m : mnode) : string := match m with MNode _ d _ _ _ _ _ => d end.
Definition m_score (m : mnode) : string := match m with MNode _ _ s _ _ _ _ => s end.
Definition m_count (m : mnode) : f64 := match m with MNode _ _ _ c _ _ _ => c end.
Definition m_dists (m : mnode) : list score_distribution :=
  match m with MNode _ _ _ _ ds _ _ => ds end.
Definition m_nodes (m : mnode) : list mnode := match m with MNode _ _ _ _ _ ns _ => ns end.
Definition m_pred (m : mnode) : predicate := match m with MNode _ _ _ _ _ _ p => p end.

(** The truth of a document node's predicate on a row, given the types of the
    declared fields.  What it means for each kind of predicate: C06 - C14. *)
Definition node_truth (E : Ext) (ft : fieldtypes) (r : datarow) (m : mnode) (v : presult) : Prop :=
  ∃ p, compile_predicate E ft (m_pred m) = Ok p ∧ run_test E ft p r = Ok v.

(** The target field: the last mining field of usage target, "" without one. *)
Definition target_field (schema : list mining_field) : string :=
  default "" (mf_name <$> last (filter (λ f, mf_usage f = "target") schema)).

(** The declared values of the target field. *)
Definition target_values (dd : list data_field) (target : string) : list string :=
  concat (dd_values <$> filter (λ d, dd_name d = target) dd).

(** The share of one distribution entry in the total record count. *)
Definition share (ds : list score_distribution) (d : score_distribution) : f64 :=
  SFdiv 53 1024 (sd_count d) (foldl (λ a d, SFadd 53 1024 a (sd_count d)) (S754_zero false) ds).

(** The scores a node stands for: its ScoreDistribution elements; without any,
    one entry per declared target value with all the weight on the node's score;
    without a target, the node's score alone.  Nothing for an inner node under
    returnNullPrediction. *)
Definition doc_dist (dd : list data_field) (target notrue : string) (m : mnode) : list score :=
  if decide (m_nodes m ≠ [] ∧ notrue = "returnNullPrediction") then []
  else if decide (m_dists m ≠ []) then
    (λ d, Score (sd_value d) (default (share (m_dists m) d) (sd_conf d))
                (default (share (m_dists m) d) (sd_prob d)) (sd_count d)) <$> m_dists m
  else if decide (target = "") then [Score (m_score m) fzero fzero (m_count m)]
  else (λ v, if decide (v = m_score m) then Score v fone fone (m_count m)
             else Score v fzero fzero fzero) <$> target_values dd target.

(** ** Reports *)

(** [best] is the first entry of the list that no other entry exceeds. *)
Definition is_argmax (best : score) (l : list score) : Prop :=
  ∃ l1 l2, l = l1 ++ best :: l2 ∧
    (∀ s, s ∈ l → SFltb (sc_prob best) (sc_prob s) = false) ∧
    (∀ s, s ∈ l1 → SFleb (sc_prob best) (sc_prob s) = false).

(** What a tree reports for a non-empty prediction (C22 - C24 describe it). *)
Definition class_row (target : string) (scores : list score) : row :=
  foldl (λ o s, <[prob_key (sc_value s) := GF64 (sc_prob s)]> o)
        {[target := GStr (sc_value (pick_best scores))]} scores.

Definition report (E : Ext) (fn target : string) (scores : list score) : res datarow :=
  if decide (fn = "classification") then Ok (Some (class_row target scores))
  else match scores with
       | [] => Panic PIndex
       | s :: _ =>
           match ext_parse_float E (sc_value s) with
           | Some f => Ok (Some {["score" := GF64 f]})
           | None => Err (EParseFloat (sc_value s))
           end
       end.

(** ** The same notions on compiled trees, used by the proofs *)

Definition verdict (E : Ext) (ft : fieldtypes) (r : datarow) (n : node) (v : presult) : Prop :=
  run_test E ft (n_test n) r = Ok v.

Notation everywhere := (everywhere_in n_children).
Notation everywhere_doc := (everywhere_in m_nodes).
Notation none_path E ft r := (descend_none n_children (verdict E ft r)).
Notation null_path E ft r := (descend_null n_children (verdict E ft r)).
Notation null_unknown E ft r := (meets_unknown n_children (verdict E ft r)).
Notation last_path E ft r := (descend_last n_children (verdict E ft r)).
Notation one_true E ft r := (single_true n_children (verdict E ft r)).

(** ** Classes of a tree document *)

(** A node and all its descendants. *)
Fixpoint doc_nodes (m : mnode) : list mnode :=
  match m with MNode _ _ _ _ _ ns _ => m :: concat (map doc_nodes ns) end.

(** Every class the tree can mention. *)
Definition tree_classes (dd : list data_field) (t : tree_model) : list string :=
  concat (map (λ m, sd_value <$> m_dists m) (doc_nodes (tm_node t))) ++
  target_values dd (target_field (tm_schema t)) ++
  (if decide (target_field (tm_schema t) = "") then m_score <$> doc_nodes (tm_node t) else []).

(** No node lists a class twice, and the target field declares no value twice. *)
Definition distinct_classes (dd : list data_field) (t : tree_model) : Prop :=
  (∀ m, m ∈ doc_nodes (tm_node t) → NoDup (sd_value <$> m_dists m)) ∧
  NoDup (target_values dd (target_field (tm_schema t))).

(** The sum of [f] over the scores of class [v], in list order. *)
Definition sum_over (f : score → f64) (v : string) (l : list score) : f64 :=
  foldl (λ acc s, SFadd 53 1024 acc (f s)) (S754_zero false) (filter (λ s, sc_value s = v) l).

(** The truth of a node's predicate in a tree document, its scores, and what
    Evaluate returns for a list of scores. *)
Definition doc_truth (E : Ext) (dd : list data_field) (td : list derived_field) (t : tree_model)
    (r : datarow) : mnode → presult → Prop :=
  node_truth E (field_types dd (td ++ tm_lt t)) r.
Definition node_dist (dd : list data_field) (t : tree_model) : mnode → list score :=
  doc_dist dd (target_field (tm_schema t)) (tm_notrue t).
Definition reported (E : Ext) (t : tree_model) (scores : list score) : res datarow :=
  report E (tm_function t) (target_field (tm_schema t)) scores.

(** ** Answers of subtrees

    Under lastPrediction, defaultChild, weightedConfidence and aggregateNodes
    every child of a node that is not false is asked first.  A child's answer is
    a list of scores together with true, false or unknown. *)

Notation answer_t := (list score * presult)%type.

(** The scores of the last true child. *)
Definition true_scores (rs : list answer_t) : list score :=
  default [] (fst <$> last (filter (λ x : answer_t, x.2 = RT) rs)).

Section subtree.
  Context (truth : mnode → presult → Prop) (dist : mnode → list score).
  (** the scores handed up by a false node, and the truth handed up by a node
      that takes over the scores of a true child *)
  Context (falses : mnode → list score → Prop) (trues : presult → presult).
  (** what a node does when the answer of some child is unknown *)
  Context (unknown : mnode → presult → list answer_t → answer_t → Prop).

  Inductive subtree_answer : mnode → answer_t → Prop :=
  | ans_false m s :
      truth m RF → falses m s → subtree_answer m (s, RF)
  | ans_unknown m w rs x :
      truth m w → w ≠ RF → length rs = length (m_nodes m) →
      (∀ i c y, m_nodes m !! i = Some c → rs !! i = Some y → subtree_answer c y) →
      (∃ y, y ∈ rs ∧ y.2 = RU) → unknown m w rs x → subtree_answer m x
  | ans_true m w rs :
      truth m w → w ≠ RF → length rs = length (m_nodes m) →
      (∀ i c y, m_nodes m !! i = Some c → rs !! i = Some y → subtree_answer c y) →
      (∀ y, y ∈ rs → y.2 ≠ RU) → true_scores rs ≠ [] →
      subtree_answer m (true_scores rs, trues w)
  | ans_stop m w rs :
      truth m w → w ≠ RF → length rs = length (m_nodes m) →
      (∀ i c y, m_nodes m !! i = Some c → rs !! i = Some y → subtree_answer c y) →
      (∀ y, y ∈ rs → y.2 ≠ RU) → true_scores rs = [] →
      subtree_answer m (dist m, w).
End subtree.

(** lastPrediction: the node's own scores. *)
Definition last_answer truth dist : mnode → answer_t → Prop :=
  subtree_answer truth dist (λ _ s, s = []) (λ _, RT) (λ m w _ x, x = (dist m, w)).

(** defaultChild: the penalised scores of the (last) child with the default id. *)
Definition penalised (penalty : f64) (s : score) : score :=
  Score (sc_value s) (SFmul 53 1024 (sc_conf s) penalty) (SFmul 53 1024 (sc_prob s) penalty) (sc_count s).
Definition default_answer truth dist (penalty : f64) : mnode → answer_t → Prop :=
  subtree_answer truth dist (λ _ s, s = []) (λ _, RT)
    (λ m _ rs x, x = match last (filter (λ p, m_id p.1 = m_default m) (zip (m_nodes m) rs)) with
                     | Some (_, (ds, _)) => (penalised penalty <$> ds, RT)
                     | None => ([], RU)
                     end).

(** weightedConfidence: the children that are not false, each weighted with its
    share of their record counts.  Floating-point addition is not associative,
    and the children are visited in some order [l]. *)
Definition weighted_scores (m : mnode) (rs : list answer_t) (out : list score) : Prop :=
  let live := filter (λ p, p.2.2 ≠ RF) (zip (m_nodes m) rs) in
  let total := foldl (λ acc p, SFadd 53 1024 acc (m_count p.1)) (S754_zero false) live in
  ∃ l, Permutation l live ∧ NoDup (sc_value <$> out) ∧
    let weighted f v :=
      foldl (λ acc ws, SFadd 53 1024 acc (SFmul 53 1024 (f ws.2) ws.1)) (S754_zero false)
        (filter (λ ws, sc_value ws.2 = v)
           (concat (map (λ p, (λ s, (SFdiv 53 1024 (m_count p.1) total, s)) <$> p.2.1) l))) in
    ∀ s, s ∈ out ↔ ∃ v, v ∈ sc_value <$> concat (map (λ p, p.2.1) l) ∧
      s = Score v (weighted sc_conf v) (weighted sc_prob v) (sum_over sc_count v (concat (map (λ p, p.2.1) l))).
Definition weighted_answer truth dist : mnode → answer_t → Prop :=
  subtree_answer truth dist (λ _ _, True) id (λ m _ rs x, weighted_scores m rs x.1 ∧ x.2 = RT).

(** aggregateNodes: the record counts of all children, false ones included. *)
Definition aggregate_scores (rs : list answer_t) (out : list score) : Prop :=
  let total := foldl (λ acc s, SFadd 53 1024 acc (sc_count s)) (S754_zero false) (concat rs.*1) in
  NoDup (sc_value <$> out) ∧
  ∀ s, s ∈ out ↔ ∃ v, v ∈ sc_value <$> concat rs.*1 ∧
    let count := sum_over sc_count v (concat rs.*1) in
    s = Score v (SFdiv 53 1024 count total) (SFdiv 53 1024 count total) count.
Definition aggregate_answer truth dist : mnode → answer_t → Prop :=
  subtree_answer truth dist (λ m s, s = dist m) id (λ _ _ rs x, aggregate_scores rs x.1 ∧ x.2 = RT).

(** What Evaluate returns for the answer of the root. *)
Definition final (E : Ext) (t : tree_model) (x : answer_t) : res datarow :=
  match x.2 with RT => reported E t x.1 | _ => Ok None end.
