(** Property theorems about tree models (C15 - C27).  The real-valued part of
    C26 is in PropertiesReal.v. *)
From Verif Require Import Base Strconv Value Doc Expr Pred Tree Regression Model Lib SpecPred ProofsPred
  SpecExpr ProofsExpr SpecConstruct ProofsConstruct SpecTree ProofsTree ProofsOutput ProofsEval ProofsDoc
  ProofsSafe ProofsWhole ProofsClass ProofsAnswer GoExt Samples.

(** every theorem below is about an evaluator NewModel returned, after any
    number of earlier Evaluate calls *)
Lemma tree_evaluator E dd td t e td' calls :
  new_model E dd td (DTree t) = (Ok e, td') →
  ∃ te, tree_of E dd td t te ∧ after E calls e = ETree te ∧
    ∀ tk r, (evaluate E tk (after E calls e) r).1 = (tree_evaluate E tk te r).1.
Proof.
  intros (te & -> & Ht)%new_model_tree_of. destruct (tree_after E dd td t te calls Ht) as (te' & Ha & Ht').
  exists te'. split; [done|]. split; [done|]. intros tk r. rewrite Ha. simpl.
  by destruct (tree_evaluate E tk te' r) as [[? ?] ?].
Qed.

(** deciding the truth of a node, for the examples *)
Definition truth_b (E : Ext) (dd : list data_field) (t : tree_model) (r : datarow) (m : mnode) : option presult :=
  match compile_predicate E (field_types dd (tm_lt t)) (m_pred m) with
  | Ok p => match run_test E (field_types dd (tm_lt t)) p r with Ok v => Some v | _ => None end
  | _ => None
  end.
Lemma truth_b_ok E dd t r m v :
  truth_b E dd t r m = Some v → ∀ w, doc_truth E dd [] t r m w ↔ w = v.
Proof.
  unfold truth_b, doc_truth, node_truth. simpl. destruct (compile_predicate _ _ _) as [p| |]; [|done..].
  destruct (run_test _ _ _ _) as [v'| |] eqn:Hr; [|done..]. intros [= ->] w. split.
  - intros (p' & [= <-] & H). congruence.
  - intros ->. eauto.
Qed.

Lemma descend_everywhere {N} (kids : N → list N) (truth : N → presult → Prop) (P : N → Prop) n leaf :
  everywhere_in kids P n → descend_none kids truth n leaf → P leaf.
Proof.
  intros He Hd. revert He. induction Hd as [n _|n l1 c l2 leaf Hk _ _ _ IH]; intros He; inversion He; subst; [done|].
  apply IH. rewrite Hk in *. by decompose_Forall.
Qed.

(** rows of the golf example: outlook, humidity and wind speed *)
Definition sunny : datarow :=
  Some {["outlook" := GStr "sunny"; "humidity" := GF64 (fl "70"); "kmh" := GF64 (fl "36")]}.
Definition sunny_nohum : datarow := Some {["outlook" := GStr "sunny"; "kmh" := GF64 (fl "36")]}.
Definition with_wind (r : datarow) : datarow := (handle_input go_ext golf_lt r).2.

Definition kid (m : mnode) (i : nat) : mnode := nth i (m_nodes m) m.
Definition golf_e (st : string) : emodel :=
  match new_model go_ext golf_dd [] (golf st) with (Ok e, _) => e | _ => ERegr (ERegr_ lin_model) end.
Lemma golf_built st :
  new_model go_ext golf_dd [] (DTree (golf_tree st "0.5")) = (Ok (golf_e st), golf_lt).
Proof. by vm_compute. Qed.
Lemma golf_preds : everywhere_doc (λ m, m_pred m ≠ PNone) golf_root.
Proof. repeat constructor; done. Qed.
Definition golf_out (c yes no : string) : res datarow :=
  Ok (Some {["play" := GStr c; "probability(yes)" := GF64 (fl yes); "probability(no)" := GF64 (fl no)]}).

(** *** C15: strategy none *)
Theorem C15_strategy_none : ∀ E dd td t e td' calls tk r r',
  new_model E dd td (DTree t) = (Ok e, td') →
  tm_strategy t ∉ ["nullPrediction"; "aggregateNodes"; "weightedConfidence"; "defaultChild"; "lastPrediction"] →
  everywhere_doc (λ m, m_pred m ≠ PNone) (tm_node t) →
  handle_input E (tm_lt t) r = (Ok tt, r') →
  let truth := doc_truth E dd td t r' in
  (truth (tm_node t) RT →
     (∃ leaf, descend_none m_nodes truth (tm_node t) leaf) ∧
     ∀ leaf, descend_none m_nodes truth (tm_node t) leaf →
       (evaluate E tk (after E calls e) r).1 = (reported E t (node_dist dd t leaf), r')) ∧
  (¬ truth (tm_node t) RT → (evaluate E tk (after E calls e) r).1 = (Ok None, r')).
Proof.
  intros E dd td t e td' calls tk r r' Hn Hst Hp Hi truth.
  destruct (tree_evaluator E dd td t e td' calls Hn) as (te & Ht & _ & ->).
  by apply (none_doc E dd td t te Ht).
Qed.
Print Assumptions C15_strategy_none.

(** humidity missing: node 2 is reached, its children are unknown *)
Example C15_example :
  descend_none m_nodes (doc_truth go_ext golf_dd [] (golf_tree "none" "0.5") (with_wind sunny_nohum))
    golf_root (kid golf_root 0) ∧
  dumped (run go_ext golf_dd (golf "none") sunny_nohum) =
    dumped (Some (golf_out "no" "0.4" "0.6", None)) ∧
  dumped (run go_ext golf_dd (golf "none") sunny) = dumped (Some (golf_out "yes" "1" "0", None)).
Proof.
  split; [|by vm_compute].
  eapply (none_step _ _ golf_root [] (kid golf_root 0) [kid golf_root 1]); [done|by intros c ?%elem_of_nil| |].
  - apply (truth_b_ok _ _ _ _ _ RT); by vm_compute.
  - apply none_stop. intros c Hc Ht.
    repeat (apply elem_of_cons in Hc as [->|Hc]); [..|by apply elem_of_nil in Hc];
      eapply (truth_b_ok _ _ _ _ _ RU) in Ht; by vm_compute.
Qed.

(** *** C16: nullPrediction *)
Theorem C16_null_prediction : ∀ E dd td t e td' calls tk r r',
  new_model E dd td (DTree t) = (Ok e, td') →
  tm_strategy t = "nullPrediction" →
  everywhere_doc (λ m, m_pred m ≠ PNone) (tm_node t) →
  handle_input E (tm_lt t) r = (Ok tt, r') →
  let truth := doc_truth E dd td t r' in
  (∀ leaf, truth (tm_node t) RT → descend_null m_nodes truth (tm_node t) leaf →
     (evaluate E tk (after E calls e) r).1 = (reported E t (node_dist dd t leaf), r')) ∧
  (¬ truth (tm_node t) RT ∨ meets_unknown m_nodes truth (tm_node t) →
     (evaluate E tk (after E calls e) r).1 = (Ok None, r')) ∧
  ((∃ leaf, descend_null m_nodes truth (tm_node t) leaf) ∨ meets_unknown m_nodes truth (tm_node t)).
Proof.
  intros E dd td t e td' calls tk r r' Hn Hst Hp Hi truth.
  destruct (tree_evaluator E dd td t e td' calls Hn) as (te & Ht & _ & ->).
  by apply (null_doc E dd td t te Ht).
Qed.
Print Assumptions C16_null_prediction.

Example C16_example :
  meets_unknown m_nodes (doc_truth go_ext golf_dd [] (golf_tree "nullPrediction" "0.5") (with_wind sunny_nohum))
    golf_root ∧
  dumped (run go_ext golf_dd (golf "nullPrediction") sunny_nohum) = Some (Ok None) ∧
  dumped (run go_ext golf_dd (golf "nullPrediction") sunny) = dumped (Some (golf_out "yes" "1" "0", None)).
Proof.
  split; [|by vm_compute].
  eapply (null_below _ _ golf_root [] (kid golf_root 0) [kid golf_root 1]); [done|by intros c ?%elem_of_nil| |].
  - apply (truth_b_ok _ _ _ _ _ RT); by vm_compute.
  - eapply (null_here _ _ _ [] (kid (kid golf_root 0) 0) [_]); [done|by intros c ?%elem_of_nil|].
    apply (truth_b_ok _ _ _ _ _ RU); by vm_compute.
Qed.

(** *** C17: lastPrediction *)

(** What holds: nodes with an unknown predicate are leaves, at most one child is
    true, and every node has scores.  Missing: unknown nodes with children, see
    the refutation below. *)
Theorem C17_last_prediction_partial : ∀ E dd td t e td' calls tk r r',
  new_model E dd td (DTree t) = (Ok e, td') →
  tm_strategy t = "lastPrediction" →
  everywhere_doc (λ m, m_pred m ≠ PNone) (tm_node t) →
  handle_input E (tm_lt t) r = (Ok tt, r') →
  let truth := doc_truth E dd td t r' in
  truth (tm_node t) RT →
  everywhere_doc (λ m, truth m RU → m_nodes m = []) (tm_node t) →
  everywhere_doc (single_true m_nodes truth) (tm_node t) →
  everywhere_doc (λ m, node_dist dd t m ≠ []) (tm_node t) →
  ∃ leaf, descend_last m_nodes truth (tm_node t) leaf ∧
    (evaluate E tk (after E calls e) r).1 = (reported E t (node_dist dd t leaf), r').
Proof.
  intros E dd td t e td' calls tk r r' Hn Hst Hp Hi truth H1 H2 H3 H4.
  destruct (tree_evaluator E dd td t e td' calls Hn) as (te & Ht & _ & ->).
  by apply (last_doc E dd td t te Ht).
Qed.
Print Assumptions C17_last_prediction_partial.

(** the hypotheses of the partial theorem hold on golf without humidity *)
Lemma single_pair {N} (kids : N → list N) (truth : N → presult → Prop) n a b :
  kids n = [a; b] → (truth a RT → ¬ truth b RT) → single_true kids truth n.
Proof.
  intros Hk Hab [|x [|y [|z l1]]] c l2 c' Heq Hc Hin; rewrite Hk in Heq; simplify_eq/=.
  - apply elem_of_list_singleton in Hin as ->. auto.
  - apply elem_of_list_singleton in Hin as ->. naive_solver.
Qed.
Lemma single_leaf {N} (kids : N → list N) (truth : N → presult → Prop) n :
  kids n = [] → single_true kids truth n.
Proof. intros Hk [|x l1] c l2 c' Heq; rewrite Hk in Heq; done. Qed.

Example C17_example :
  let t := golf_tree "lastPrediction" "0.5" in
  let truth := doc_truth go_ext golf_dd [] t (with_wind sunny_nohum) in
  everywhere_doc (λ m, truth m RU → m_nodes m = []) golf_root ∧
  everywhere_doc (single_true m_nodes truth) golf_root ∧
  everywhere_doc (λ m, node_dist golf_dd t m ≠ []) golf_root ∧
  dumped (run go_ext golf_dd (golf "lastPrediction") sunny_nohum) =
    dumped (Some (golf_out "no" "0.4" "0.6", None)).
Proof.
  intros t truth.
  assert (H1 : truth golf_root RU → False).
  { intros H. apply (truth_b_ok _ _ _ _ _ RT) in H; by vm_compute. }
  assert (H2 : truth (kid golf_root 0) RU → False).
  { intros H. apply (truth_b_ok _ _ _ _ _ RT) in H; by vm_compute. }
  assert (H3 : truth (kid golf_root 1) RT → False).
  { intros H. apply (truth_b_ok _ _ _ _ _ RF) in H; by vm_compute. }
  assert (H4 : truth (kid (kid golf_root 0) 0) RT → False).
  { intros H. apply (truth_b_ok _ _ _ _ _ RU) in H; by vm_compute. }
  split; [|split; [|split]].
  - constructor; [intros []%H1|]. constructor; [|by repeat constructor].
    constructor; [intros []%H2|]. by repeat constructor.
  - constructor; [eapply single_pair; [done|naive_solver]|].
    constructor; [constructor; [eapply single_pair; [done|naive_solver]|]|];
      repeat (constructor; [|constructor]); repeat constructor; by apply single_leaf.
  - repeat constructor; done.
  - by vm_compute.
Qed.

(** An unknown node with a true child is entered: the answer is the grandchild's. *)
Definition deep_root : mnode :=
  MNode "1" "" "root" (fl "2") [SD "root" "2"]
    [MNode "2" "" "mid" (fl "1") [SD "mid" "1"]
       [MNode "3" "" "deep" (fl "1") [SD "deep" "1"] [] PTrue] (SP "humidity" "lessThan" "75")] PTrue.
Definition deep_tree : tree_model :=
  TreeModel "classification" "lastPrediction" fone "returnLastPrediction" []
    [MF "humidity" "active"; MF "play" "target"] None deep_root.

Theorem C17_unknown_child_not_entered_refuted : ∃ E dd td t e td' tk r out,
  new_model E dd td (DTree t) = (Ok e, td') ∧
  tm_strategy t = "lastPrediction" ∧ tm_lt t = [] ∧
  everywhere_doc (λ m, m_pred m ≠ PNone) (tm_node t) ∧
  doc_truth E dd td t r (tm_node t) RT ∧
  everywhere_doc (single_true m_nodes (doc_truth E dd td t r)) (tm_node t) ∧
  everywhere_doc (λ m, node_dist dd t m ≠ []) (tm_node t) ∧
  (∀ leaf, descend_last m_nodes (doc_truth E dd td t r) (tm_node t) leaf → leaf = tm_node t) ∧
  (evaluate E tk e r).1.1 = Ok out ∧ Ok out ≠ reported E t (node_dist dd t (tm_node t)).
Proof.
  set (r := Some ∅ : datarow).
  assert (Hun : doc_truth go_ext golf_dd [] deep_tree r (kid deep_root 0) RU)
    by (apply (truth_b_ok _ _ _ _ _ RU); by vm_compute).
  exists go_ext, golf_dd, [], deep_tree, (built go_ext golf_dd (DTree deep_tree)),
    (new_model go_ext golf_dd [] (DTree deep_tree)).2, [], r,
    (Some {["play" := GStr "deep"; "probability(deep)" := GF64 fone]}).
  split; [apply built_ok; by vm_compute|]. do 2 (split; [done|]). split; [by repeat constructor|].
  split; [apply (truth_b_ok _ _ _ _ _ RT); by vm_compute|].
  split.
  { constructor.
    - intros [|x [|y l1]] c l2 c' Heq Hc Hin; simplify_eq/=. by apply elem_of_nil in Hin.
    - constructor; [|constructor]. constructor.
      + intros [|x [|y l1]] c l2 c' Heq Hc Hin; simplify_eq/=. by apply elem_of_nil in Hin.
      + constructor; [|constructor]. constructor; [by apply single_leaf|constructor]. }
  split; [repeat constructor; done|].
  split.
  { intros leaf Hl. inversion Hl as [| |? c ? Hno Hc]; subst; [done|done|].
    exfalso. apply (Hno (kid deep_root 0)); [by left|done]. }
  split.
  - apply run_out; by vm_compute.
  - by intros [= Heq].
Qed.
Print Assumptions C17_unknown_child_not_entered_refuted.

(** What the code does for every tree: the answer of the root under
    [last_answer], SpecTree.v. *)
Theorem C17_last_prediction_exact : ∀ E dd td t e td' calls tk r r',
  new_model E dd td (DTree t) = (Ok e, td') →
  tm_strategy t = "lastPrediction" →
  everywhere_doc (λ m, m_pred m ≠ PNone) (tm_node t) →
  handle_input E (tm_lt t) r = (Ok tt, r') →
  let answers := last_answer (doc_truth E dd td t r') (node_dist dd t) (tm_node t) in
  (∃ x, answers x) ∧
  ∀ x, answers x → (evaluate E tk (after E calls e) r).1 = (final E t x, r').
Proof.
  intros E dd td t e td' calls tk r r' Hn Hst Hp Hi answers.
  destruct (tree_evaluator E dd td t e td' calls Hn) as (te & Ht & _ & ->).
  by apply (last_exact E dd td t te Ht tk r r' Hi Hp).
Qed.
Print Assumptions C17_last_prediction_exact.

(** *** C18: defaultChild *)
Theorem C18_default_child : ∀ E dd td t e td' calls tk r r',
  new_model E dd td (DTree t) = (Ok e, td') →
  tm_strategy t = "defaultChild" →
  everywhere_doc (λ m, m_pred m ≠ PNone) (tm_node t) →
  handle_input E (tm_lt t) r = (Ok tt, r') →
  let answers := default_answer (doc_truth E dd td t r') (node_dist dd t) (tm_penalty t) (tm_node t) in
  (∃ x, answers x) ∧
  ∀ x, answers x → (evaluate E tk (after E calls e) r).1 = (final E t x, r').
Proof.
  intros E dd td t e td' calls tk r r' Hn Hst Hp Hi answers.
  destruct (tree_evaluator E dd td t e td' calls Hn) as (te & Ht & _ & ->).
  by apply (default_exact E dd td t te Ht tk r r' Hi Hp).
Qed.
Print Assumptions C18_default_child.

(** humidity missing: node 4 is the default child of node 2, penalty 0.5; and a
    node without a default child gives no prediction *)
Example C18_example :
  dumped (run go_ext golf_dd (golf "defaultChild") sunny_nohum) =
    dumped (Some (golf_out "yes" "0.5" "0", None)) ∧
  dumped (run go_ext golf_dd (golf "defaultChild") sunny) =
    dumped (Some (golf_out "yes" "1" "0", None)) ∧
  dumped (run go_ext golf_dd (golf "defaultChild") (Some {["kmh" := GF64 (fl "36")]})) =
    dumped (Some (golf_out "yes" "0.25" "0", None)).
Proof. by vm_compute. Qed.

(** *** C19: weightedConfidence *)
Theorem C19_weighted_confidence : ∀ E dd td t e td' calls tk r r',
  new_model E dd td (DTree t) = (Ok e, td') →
  tm_strategy t = "weightedConfidence" →
  everywhere_doc (λ m, m_pred m ≠ PNone) (tm_node t) →
  everywhere_doc (λ m, NoDup (m_id <$> m_nodes m)) (tm_node t) →
  handle_input E (tm_lt t) r = (Ok tt, r') →
  ∃ x, weighted_answer (doc_truth E dd td t r') (node_dist dd t) (tm_node t) x ∧
    (evaluate E tk (after E calls e) r).1 = (final E t x, r').
Proof.
  intros E dd td t e td' calls tk r r' Hn Hst Hp Hid Hi.
  destruct (tree_evaluator E dd td t e td' calls Hn) as (te & Ht & _ & ->).
  by apply (weighted_exact E dd td t te Ht tk r r' Hi Hp).
Qed.
Print Assumptions C19_weighted_confidence.

Example C19_example :
  everywhere_doc (λ m, NoDup (m_id <$> m_nodes m)) golf_root ∧
  dumped (run go_ext golf_dd (golf "weightedConfidence") sunny_nohum) =
    dumped (Some (golf_out "no" "0.4" "0.6", None)).
Proof.
  split; [|by vm_compute]. repeat constructor; simpl; set_solver.
Qed.

(** *** C20: aggregateNodes *)
Theorem C20_aggregate_nodes : ∀ E dd td t e td' calls tk r r',
  new_model E dd td (DTree t) = (Ok e, td') →
  tm_strategy t = "aggregateNodes" →
  everywhere_doc (λ m, m_pred m ≠ PNone) (tm_node t) →
  handle_input E (tm_lt t) r = (Ok tt, r') →
  ∃ x, aggregate_answer (doc_truth E dd td t r') (node_dist dd t) (tm_node t) x ∧
    (evaluate E tk (after E calls e) r).1 = (final E t x, r').
Proof.
  intros E dd td t e td' calls tk r r' Hn Hst Hp Hi.
  destruct (tree_evaluator E dd td t e td' calls Hn) as (te & Ht & _ & ->).
  by apply (aggregate_exact E dd td t te Ht tk r r' Hi Hp).
Qed.
Print Assumptions C20_aggregate_nodes.

(** humidity missing: 2 of 5 records below node 2; outlook missing and a strong
    wind: node 3 is unknown as well *)
Example C20_example :
  dumped (run go_ext golf_dd (golf "aggregateNodes") sunny_nohum) =
    dumped (Some (golf_out "no" "0.4" "0.6", None)) ∧
  dumped (run go_ext golf_dd (golf "aggregateNodes") (Some {["kmh" := GF64 (fl "36")]})) =
    option_map (λ o, Ok (dump o)) (Some (Some
      {["play" := GStr "yes"; "probability(yes)" := GF64 (fdiv (fl "9") (fl "14"));
        "probability(no)" := GF64 (fdiv (fl "5") (fl "14"))]})).
Proof. by vm_compute. Qed.

(** *** C21: the strategies agree when nothing is unknown *)
Theorem C21_strategies_agree : ∀ E dd td t e td' calls tk r r',
  new_model E dd td (DTree t) = (Ok e, td') →
  handle_input E (tm_lt t) r = (Ok tt, r') →
  let truth := doc_truth E dd td t r' in
  truth (tm_node t) RT →
  everywhere_doc (λ m, truth m RT ∨ truth m RF) (tm_node t) →
  everywhere_doc (single_true m_nodes truth) (tm_node t) →
  everywhere_doc (λ m, node_dist dd t m ≠ []) (tm_node t) →
  ∃ leaf, descend_none m_nodes truth (tm_node t) leaf ∧
    (evaluate E tk (after E calls e) r).1 = (reported E t (node_dist dd t leaf), r').
Proof.
  intros E dd td t e td' calls tk r r' Hn Hi truth H1 H2 H3 H4.
  destruct (tree_evaluator E dd td t e td' calls Hn) as (te & Ht & _ & ->).
  by apply (agree_doc E dd td t te tk r r' Ht Hi).
Qed.
Print Assumptions C21_strategies_agree.

Example C21_example : ∀ st,
  st ∈ ["none"; "lastPrediction"; "nullPrediction"; "defaultChild"; "weightedConfidence"; "aggregateNodes"] →
  dumped (run go_ext golf_dd (golf st) sunny) = dumped (Some (golf_out "yes" "1" "0", None)) ∧
  let truth := doc_truth go_ext golf_dd [] (golf_tree st "0.5") (with_wind sunny) in
  truth golf_root RT ∧ truth (kid golf_root 0) RT ∧ truth (kid golf_root 1) RF ∧
  truth (kid (kid golf_root 0) 0) RT ∧ truth (kid (kid golf_root 0) 1) RF.
Proof.
  intros st Hst.
  repeat (apply elem_of_cons in Hst as [->|Hst]); [..|by apply elem_of_nil in Hst].
  all: split; [by vm_compute|].
  all: repeat split; eapply truth_b_ok; by vm_compute.
Qed.

(** *** C22: the predicted class has the largest probability *)
Theorem C22_predicted_class_most_probable : ∀ E dd td t e td' calls tk r out,
  new_model E dd td (DTree t) = (Ok e, td') →
  tm_function t = "classification" → distinct_classes dd t →
  (∀ v, v ∈ tree_classes dd t → "probability(" +:+ v +:+ ")" ≠ target_field (tm_schema t)) →
  (evaluate E tk (after E calls e) r).1.1 = Ok (Some out) →
  (∃ v p, out !! ("probability(" +:+ v +:+ ")") = Some (GF64 p) ∧ SFltb (S754_zero false) p = true) →
  ∃ c q, out !! target_field (tm_schema t) = Some (GStr c) ∧
    out !! ("probability(" +:+ c +:+ ")") = Some (GF64 q) ∧
    ∀ v p, out !! ("probability(" +:+ v +:+ ")") = Some (GF64 p) → SFltb q p = false.
Proof.
  intros E dd td t e td' calls tk r out Hn Hf Hd Hk He Hpos.
  destruct (tree_evaluator E dd td t e td' calls Hn) as (te & Ht & _ & Hev). rewrite Hev in He.
  destruct (tree_evaluate E tk te r) as [[o r'] te'] eqn:Hte. simpl in He. subst o.
  destruct (report_classes E dd td t te tk r out r' te' Ht Hte) as (scores & [Hnd Hin] & Hr).
  unfold report in Hr. rewrite decide_True in Hr by done. injection Hr as <-.
  destruct (argmax_row (target_field (tm_schema t)) scores (Hnd Hd)) as [H1 H2].
  { intros s Hs. apply Hk, Hin. by apply elem_of_list_fmap_1. }
  destruct (H2 Hpos) as (q & Hq & Hmax). eauto.
Qed.
Print Assumptions C22_predicted_class_most_probable.

(** ... and among equally probable classes it is the first of the distribution *)
Theorem C22_first_among_equals : ∀ E t scores s,
  tm_function t = "classification" →
  (∀ s, s ∈ scores → "probability(" +:+ sc_value s +:+ ")" ≠ target_field (tm_schema t)) →
  s ∈ scores → SFltb (S754_zero false) (sc_prob s) = true →
  ∃ out best, reported E t scores = Ok (Some out) ∧
    out !! target_field (tm_schema t) = Some (GStr (sc_value best)) ∧ is_argmax best scores.
Proof.
  intros E t scores s Hf Hk Hs Hpos. unfold reported, report. rewrite decide_True by done.
  exists (class_row (target_field (tm_schema t)) scores), (pick_best scores). split; [done|].
  split; [by apply class_row_target|]. by eapply pick_best_argmax.
Qed.
Print Assumptions C22_first_among_equals.

Example C22_example :
  distinct_classes golf_dd (golf_tree "none" "0.5") ∧
  dumped (run go_ext golf_dd (golf "none") sunny_nohum) = dumped (Some (golf_out "no" "0.4" "0.6", None)) ∧
  (* a tie: the first class wins *)
  dumped (Some (reported go_ext (golf_tree "none" "0.5")
            [Score "yes" (fl "0.5") (fl "0.5") (fl "1"); Score "no" (fl "0.5") (fl "0.5") (fl "1")], None))
    = dumped (Some (golf_out "yes" "0.5" "0.5", None)).
Proof.
  split; [|by vm_compute]. split; [|by repeat constructor; set_solver].
  intros m Hm. simpl in Hm.
  repeat (apply elem_of_cons in Hm as [->|Hm]); [..|by apply elem_of_nil in Hm];
    simpl; repeat constructor; set_solver.
Qed.

(** *** C23: the keys of a classification output *)
Theorem C23_classification_keys : ∀ E dd td t e td' calls tk r out,
  new_model E dd td (DTree t) = (Ok e, td') →
  tm_function t = "classification" → distinct_classes dd t →
  (evaluate E tk (after E calls e) r).1.1 = Ok (Some out) →
  ∃ scores,
    NoDup (sc_value <$> scores) ∧ (∀ v, v ∈ sc_value <$> scores → v ∈ tree_classes dd t) ∧
    (∀ k, is_Some (out !! k) ↔
       k = target_field (tm_schema t) ∨ ∃ s, s ∈ scores ∧ k = "probability(" +:+ sc_value s +:+ ")") ∧
    (∀ s, s ∈ scores → out !! ("probability(" +:+ sc_value s +:+ ")") = Some (GF64 (sc_prob s))).
Proof.
  intros E dd td t e td' calls tk r out Hn Hf Hd He.
  destruct (tree_evaluator E dd td t e td' calls Hn) as (te & Ht & _ & Hev). rewrite Hev in He.
  destruct (tree_evaluate E tk te r) as [[o r'] te'] eqn:Hte. simpl in He. subst o.
  destruct (report_classes E dd td t te tk r out r' te' Ht Hte) as (scores & [Hnd Hin] & Hr).
  unfold report in Hr. rewrite decide_True in Hr by done. injection Hr as <-.
  exists scores. split; [by apply Hnd|]. split; [done|]. split; [apply class_row_keys|].
  intros s Hs. apply Hnd in Hd. by apply class_row_prob_nodup.
Qed.
Print Assumptions C23_classification_keys.

(** with strategy none the classes are those of the reached node *)
Theorem C23_keys_of_reached_node : ∀ E dd td t e td' calls tk r r' leaf,
  new_model E dd td (DTree t) = (Ok e, td') →
  tm_strategy t ∉ ["nullPrediction"; "aggregateNodes"; "weightedConfidence"; "defaultChild"; "lastPrediction"] →
  everywhere_doc (λ m, m_pred m ≠ PNone) (tm_node t) →
  handle_input E (tm_lt t) r = (Ok tt, r') →
  doc_truth E dd td t r' (tm_node t) RT →
  descend_none m_nodes (doc_truth E dd td t r') (tm_node t) leaf →
  tm_function t = "classification" → m_dists leaf ≠ [] →
  (m_nodes leaf = [] ∨ tm_notrue t ≠ "returnNullPrediction") →
  ∃ out, (evaluate E tk (after E calls e) r).1.1 = Ok (Some out) ∧
    ∀ k, is_Some (out !! k) ↔
      k = target_field (tm_schema t) ∨
      ∃ d, d ∈ m_dists leaf ∧ k = "probability(" +:+ sd_value d +:+ ")".
Proof.
  intros E dd td t e td' calls tk r r' leaf Hn Hst Hp Hi Hrt Hl Hf Hds Hnt.
  destruct (C15_strategy_none E dd td t e td' calls tk r r' Hn Hst Hp Hi) as [H _].
  rewrite (proj2 (H Hrt) leaf Hl). simpl. unfold reported, report. rewrite decide_True by done.
  eexists. split; [done|]. intros k. rewrite class_row_keys. unfold node_dist, doc_dist.
  rewrite decide_False by naive_solver. rewrite decide_True by done. split.
  - intros [->|(s & (d & -> & Hd)%elem_of_list_fmap & ->)]; [by left|]. right. exists d. done.
  - intros [->|(d & Hd & ->)]; [by left|]. right. eexists. split; [by apply elem_of_list_fmap_1|]. done.
Qed.
Print Assumptions C23_keys_of_reached_node.

Example C23_example :
  m_dists (kid golf_root 0) ≠ [] ∧
  dumped (run go_ext golf_dd (golf "none") sunny_nohum) = dumped (Some (golf_out "no" "0.4" "0.6", None)).
Proof. by vm_compute. Qed.

(** *** C24: the output of a regression tree *)

(** What holds: exactly one key, holding the parsed value of the first entry of
    the node's scores (see [doc_dist] for these). *)
Theorem C24_regression_output_partial : ∀ E dd td t e td' calls tk r out,
  new_model E dd td (DTree t) = (Ok e, td') →
  tm_function t = "regression" →
  (evaluate E tk (after E calls e) r).1.1 = Ok (Some out) →
  ∃ v f, v ∈ tree_classes dd t ∧ ext_parse_float E v = Some f ∧ out = {["score" := GF64 f]}.
Proof.
  intros E dd td t e td' calls tk r out Hn Hf He.
  destruct (tree_evaluator E dd td t e td' calls Hn) as (te & Ht & _ & Hev). rewrite Hev in He.
  destruct (tree_evaluate E tk te r) as [[o r'] te'] eqn:Hte. simpl in He. subst o.
  destruct (report_classes E dd td t te tk r out r' te' Ht Hte) as (scores & [Hnd Hin] & Hr).
  unfold report in Hr. rewrite decide_False in Hr by (by rewrite Hf).
  destruct scores as [|s scores]; [done|].
  destruct (ext_parse_float E (sc_value s)) as [f|] eqn:Hp; [|done]. injection Hr as <-.
  exists (sc_value s), f. split; [apply Hin; rewrite fmap_cons; by left|]. done.
Qed.
Print Assumptions C24_regression_output_partial.

(** the node's score, for a tree without target field and without
    ScoreDistribution at the reached node (strategy none) *)
Theorem C24_score_of_reached_node_partial : ∀ E dd td t e td' calls tk r r' leaf,
  new_model E dd td (DTree t) = (Ok e, td') →
  tm_strategy t ∉ ["nullPrediction"; "aggregateNodes"; "weightedConfidence"; "defaultChild"; "lastPrediction"] →
  everywhere_doc (λ m, m_pred m ≠ PNone) (tm_node t) →
  handle_input E (tm_lt t) r = (Ok tt, r') →
  doc_truth E dd td t r' (tm_node t) RT →
  descend_none m_nodes (doc_truth E dd td t r') (tm_node t) leaf →
  tm_function t = "regression" → target_field (tm_schema t) = "" → m_dists leaf = [] →
  (m_nodes leaf = [] ∨ tm_notrue t ≠ "returnNullPrediction") →
  (evaluate E tk (after E calls e) r).1.1 =
  match ext_parse_float E (m_score leaf) with
  | Some f => Ok (Some {["score" := GF64 f]})
  | None => Err (EParseFloat (m_score leaf))
  end.
Proof.
  intros E dd td t e td' calls tk r r' leaf Hn Hst Hp Hi Hrt Hl Hf Htg Hds Hnt.
  destruct (C15_strategy_none E dd td t e td' calls tk r r' Hn Hst Hp Hi) as [H _].
  rewrite (proj2 (H Hrt) leaf Hl). simpl. unfold reported, report, node_dist, doc_dist.
  rewrite decide_False by (by rewrite Hf). rewrite decide_False by naive_solver.
  rewrite decide_False by naive_solver. by rewrite Htg.
Qed.
Print Assumptions C24_score_of_reached_node_partial.

Definition bare_tree : tree_model :=
  TreeModel "regression" "none" fone "returnLastPrediction" [] [MF "area" "active"] None
    (MNode "1" "" "100" (fl "2") []
       [price_leaf "2" "50" "area" "lessThan" "60"; price_leaf "3" "n/a" "area" "greaterOrEqual" "60"] PTrue).
Example C24_example :
  dumped (run go_ext price_dd (DTree bare_tree) (Some {["area" := GF64 (fl "40")]})) =
    dumped (Some (Ok (Some {["score" := GF64 (fl "50")]}), None)) ∧
  dumped (run go_ext price_dd (DTree bare_tree) (Some {["area" := GF64 (fl "80")]})) =
    Some (Err (EParseFloat "n/a")) ∧
  dumped (run go_ext price_dd (DTree bare_tree) (Some ∅)) =
    dumped (Some (Ok (Some {["score" := GF64 (fl "100")]}), None)).
Proof. by vm_compute. Qed.

(** In general it is not the score of the reached node: a ScoreDistribution, or a
    value declared for the target field, comes first. *)
Theorem C24_score_of_reached_node_refuted : ∃ E dd td t e td' r leaf out f,
  new_model E dd td (DTree t) = (Ok e, td') ∧ tm_strategy t = "none" ∧ tm_lt t = [] ∧
  everywhere_doc (λ m, m_pred m ≠ PNone) (tm_node t) ∧
  tm_function t = "regression" ∧ doc_truth E dd td t r (tm_node t) RT ∧
  descend_none m_nodes (doc_truth E dd td t r) (tm_node t) leaf ∧ m_nodes leaf = [] ∧
  (evaluate E [] e r).1.1 = Ok (Some out) ∧
  ext_parse_float E (m_score leaf) = Some f ∧ out !! "score" ≠ Some (GF64 f).
Proof.
  exists go_ext, price_dd, [], price_tree, (built go_ext price_dd (DTree price_tree)),
    (new_model go_ext price_dd [] (DTree price_tree)).2, (Some {["area" := GF64 (fl "40")]}),
    (kid (tm_node price_tree) 0), {["score" := GF64 (fl "50.5")]}, (fl "50").
  split; [apply built_ok; by vm_compute|]. do 2 (split; [done|]). split; [by repeat constructor|].
  split; [done|]. split; [eapply truth_b_ok; by vm_compute|]. split.
  { eapply (none_step _ _ _ [] (kid (tm_node price_tree) 0)); [done|by intros c ?%elem_of_nil| |].
    - eapply truth_b_ok; by vm_compute.
    - apply none_stop. by intros c ?%elem_of_nil. }
  split; [done|]. split; [apply run_out; by vm_compute|]. split; [by vm_compute|].
  intros H. vm_compute in H. done.
Qed.
Print Assumptions C24_score_of_reached_node_refuted.

(** the same for declared target values: the first one is reported *)
Definition declared_dd : list data_field :=
  [DataField "area" "double" []; DataField "price" "double" ["1"; "50"; "200"]].
Definition declared_tree : tree_model :=
  TreeModel "regression" "none" fone "returnLastPrediction" [] [MF "area" "active"; MF "price" "target"] None
    (MNode "1" "" "100" (fl "2") []
       [price_leaf "2" "50" "area" "lessThan" "60"; price_leaf "3" "200" "area" "greaterOrEqual" "60"] PTrue).
Theorem C24_declared_value_first_refuted : ∃ E dd td t e td' r out,
  new_model E dd td (DTree t) = (Ok e, td') ∧ tm_function t = "regression" ∧
  (∀ m, m ∈ doc_nodes (tm_node t) → m_dists m = []) ∧
  (evaluate E [] e r).1.1 = Ok (Some out) ∧
  ∀ m f, m ∈ doc_nodes (tm_node t) → ext_parse_float E (m_score m) = Some f → out !! "score" ≠ Some (GF64 f).
Proof.
  exists go_ext, declared_dd, [], declared_tree, (built go_ext declared_dd (DTree declared_tree)),
    (new_model go_ext declared_dd [] (DTree declared_tree)).2, (Some {["area" := GF64 (fl "40")]}),
    {["score" := GF64 (fl "1")]}.
  split; [apply built_ok; by vm_compute|]. split; [done|].
  split.
  { intros m Hm. simpl in Hm.
    repeat (apply elem_of_cons in Hm as [->|Hm]); [..|by apply elem_of_nil in Hm]; done. }
  split; [apply run_out; by vm_compute|].
  intros m f Hm. simpl in Hm.
  repeat (apply elem_of_cons in Hm as [->|Hm]); [..|by apply elem_of_nil in Hm];
    intros Hf H; vm_compute in Hf; injection Hf as <-; vm_compute in H; done.
Qed.
Print Assumptions C24_declared_value_first_refuted.

(** *** C25: no panic *)

(** every accepted model, trees or not, provided the trees are [steady]: every
    node has a predicate, and regression trees have scores at every node and do
    not use default children *)
Theorem C25_no_panic_partial : ∀ E dd td d e td' calls tk m p,
  new_model E dd td d = (Ok e, td') →
  Forall (λ t,
    everywhere_doc (λ m, m_pred m ≠ PNone) (tm_node t) ∧
    (tm_function t = "regression" →
       tm_strategy t ≠ "defaultChild" ∧ everywhere_doc (λ m, node_dist dd t m ≠ []) (tm_node t)))
    (doc_trees d) →
  Forall (λ c : ticket * datarow, is_Some c.2) calls →
  (evaluate E tk (after E calls e) (Some m)).1.1 ≠ Panic p.
Proof.
  intros E dd td d e td' calls tk m p Hn Hs Hc H.
  destruct (evaluate E tk (after E calls e) (Some m)) as [[o r'] e'] eqn:He. simpl in H. subst o.
  by eapply whole_no_panic in He.
Qed.
Print Assumptions C25_no_panic_partial.

Example C25_example :
  doc_trees (golf "none") = [golf_tree "none" "0.5"] ∧
  everywhere_doc (λ m, m_pred m ≠ PNone) golf_root ∧
  option_map is_ok (option_map fst (run go_ext golf_dd (golf "none") (Some ∅))) = Some true ∧
  option_map is_ok (option_map fst (run go_ext golf_dd (golf "none")
    (Some {["humidity" := GStr "x"; "kmh" := GOther 1 None]}))) = Some true.
Proof. split; [done|]. split; [exact golf_preds|]. by vm_compute. Qed.

(** A regression tree with a target field that declares no values, and no
    ScoreDistribution: Evaluate panics on every row. *)
Definition scoreless_tree : tree_model :=
  TreeModel "regression" "none" fone "returnLastPrediction" [] [MF "area" "active"; MF "price" "target"] None
    (MNode "1" "" "100" (fl "2") [] [price_leaf "2" "50" "area" "lessThan" "60"] PTrue).
Theorem C25_regression_panics_refuted : ∃ E dd td t e td',
  new_model E dd td (DTree t) = (Ok e, td') ∧
  everywhere_doc (λ m, m_pred m ≠ PNone ∧ m_score m ≠ "") (tm_node t) ∧
  ∀ calls tk r, (evaluate E tk (after E calls e) r).1.1 = Panic PIndex.
Proof.
  exists go_ext, price_dd, [], scoreless_tree, (built go_ext price_dd (DTree scoreless_tree)),
    (new_model go_ext price_dd [] (DTree scoreless_tree)).2.
  assert (Hb : new_model go_ext price_dd [] (DTree scoreless_tree) =
    (Ok (built go_ext price_dd (DTree scoreless_tree)), (new_model go_ext price_dd [] (DTree scoreless_tree)).2))
    by (apply built_ok; by vm_compute).
  split; [exact Hb|]. split; [by repeat constructor|].
  intros calls tk r.
  assert (Hp : everywhere_doc (λ m, m_pred m ≠ PNone) (tm_node scoreless_tree)) by by repeat constructor.
  destruct (C15_strategy_none go_ext price_dd [] scoreless_tree _ _ calls tk r r Hb) as [H _];
    [set_solver|done|done|].
  destruct H as [[leaf Hl] H].
  { exists PTrue. by split. }
  rewrite (H leaf Hl). assert (node_dist price_dd scoreless_tree leaf = []) as ->; [|done].
  eapply (descend_everywhere m_nodes _ (λ m, node_dist price_dd scoreless_tree m = [])); [|exact Hl].
  by repeat constructor.
Qed.
Print Assumptions C25_regression_panics_refuted.

(** A node without predicate: Evaluate panics when it reaches the node. *)
Theorem C25_missing_predicate_panics_refuted : ∃ E dd td t e td' r,
  new_model E dd td (DTree t) = (Ok e, td') ∧ tm_function t = "classification" ∧
  is_Some r ∧ (evaluate E [] e r).1.1 = Panic PNilFunc.
Proof.
  set (t := TreeModel "classification" "none" fone "returnLastPrediction" [] [MF "play" "target"] None
              (MNode "1" "" "yes" (fl "1") [SD "yes" "1"] [] PNone)).
  exists go_ext, golf_dd, [], t, (built go_ext golf_dd (DTree t)), (new_model go_ext golf_dd [] (DTree t)).2, (Some ∅).
  split; [apply built_ok; by vm_compute|]. split; [done|]. split; [by eexists|].
  apply run_panic; by vm_compute.
Qed.
Print Assumptions C25_missing_predicate_panics_refuted.

(** A regression tree whose default child is false: its scores are empty. *)
Theorem C25_false_default_child_panics_refuted : ∃ E dd td t e td' r,
  new_model E dd td (DTree t) = (Ok e, td') ∧ tm_function t = "regression" ∧
  tm_strategy t = "defaultChild" ∧
  everywhere_doc (λ m, m_pred m ≠ PNone ∧ m_dists m ≠ []) (tm_node t) ∧
  is_Some r ∧ (evaluate E [] e r).1.1 = Panic PIndex.
Proof.
  set (t := TreeModel "regression" "defaultChild" fone "returnLastPrediction" []
              [MF "area" "active"; MF "rooms" "active"; MF "price" "target"] None
              (MNode "1" "2" "100" (fl "2") [SD "100" "1"]
                 [MNode "2" "" "50" (fl "1") [SD "50" "1"] [] (SP "area" "lessThan" "60");
                  MNode "3" "" "200" (fl "1") [SD "200" "1"] [] (SP "rooms" "greaterOrEqual" "3")] PTrue)).
  exists go_ext, price_dd, [], t, (built go_ext price_dd (DTree t)), (new_model go_ext price_dd [] (DTree t)).2,
    (Some {["area" := GF64 (fl "80")]}).
  split; [apply built_ok; by vm_compute|]. do 2 (split; [done|]). split; [by repeat constructor|].
  split; [by eexists|]. apply run_panic; by vm_compute.
Qed.
Print Assumptions C25_false_default_child_panics_refuted.

(** *** C26: default probabilities are shares of the record counts *)
Theorem C26_default_share : ∀ dd t m s,
  (m_nodes m = [] ∨ tm_notrue t ≠ "returnNullPrediction") → m_dists m ≠ [] →
  s ∈ node_dist dd t m ↔
  ∃ d, d ∈ m_dists m ∧ sc_value s = sd_value d ∧ sc_count s = sd_count d ∧
    let total := foldl (λ a d, SFadd 53 1024 a (sd_count d)) (S754_zero false) (m_dists m) in
    sc_prob s = match sd_prob d with Some p => p | None => SFdiv 53 1024 (sd_count d) total end ∧
    sc_conf s = match sd_conf d with Some p => p | None => SFdiv 53 1024 (sd_count d) total end.
Proof.
  intros dd t m s Hn Hd. unfold node_dist, doc_dist.
  rewrite decide_False by naive_solver. rewrite decide_True by done. rewrite elem_of_list_fmap. split.
  - intros (d & -> & Hin). exists d. simpl. split; [done|]. do 2 (split; [done|]).
    unfold share. by destruct (sd_prob d), (sd_conf d).
  - intros (d & Hin & H1 & H2 & H3 & H4). exists d. split; [|done]. destruct s. simpl in *. subst.
    unfold share. by destruct (sd_prob d), (sd_conf d).
Qed.
Print Assumptions C26_default_share.

(** together with C15 - C21 these are the scores Evaluate reports *)
Example C26_example :
  node_dist golf_dd (golf_tree "none" "0.5") (kid golf_root 0) =
    [Score "yes" (fl "0.4") (fl "0.4") (fl "2"); Score "no" (fl "0.6") (fl "0.6") (fl "3")].
Proof. by vm_compute. Qed.

(** *** C27: returnNullPrediction *)

(** What the code does when the descent of strategy none stops at an inner node:
    a classification reports the empty class, a regression panics. *)
Theorem C27_null_prediction_exact_partial : ∀ E dd td t e td' calls tk r r' leaf,
  new_model E dd td (DTree t) = (Ok e, td') →
  tm_strategy t ∉ ["nullPrediction"; "aggregateNodes"; "weightedConfidence"; "defaultChild"; "lastPrediction"] →
  everywhere_doc (λ m, m_pred m ≠ PNone) (tm_node t) →
  handle_input E (tm_lt t) r = (Ok tt, r') →
  tm_notrue t = "returnNullPrediction" →
  doc_truth E dd td t r' (tm_node t) RT →
  descend_none m_nodes (doc_truth E dd td t r') (tm_node t) leaf → m_nodes leaf ≠ [] →
  (evaluate E tk (after E calls e) r).1.1 =
    if decide (tm_function t = "classification") then Ok (Some {[target_field (tm_schema t) := GStr ""]})
    else Panic PIndex.
Proof.
  intros E dd td t e td' calls tk r r' leaf Hn Hst Hp Hi Hnt Hrt Hl Hk.
  destruct (C15_strategy_none E dd td t e td' calls tk r r' Hn Hst Hp Hi) as [H _].
  rewrite (proj2 (H Hrt) leaf Hl). simpl. unfold reported, report, node_dist, doc_dist.
  rewrite (decide_True (P := m_nodes leaf ≠ [] ∧ _)) by done. by case_decide.
Qed.
Print Assumptions C27_null_prediction_exact_partial.

Definition null_tree (fn : string) : tree_model :=
  TreeModel fn "none" fone "returnNullPrediction" [] [MF "humidity" "active"; MF "play" "target"] None
    (MNode "1" "" "yes" (fl "5") [SD "yes" "2"; SD "no" "3"]
       [MNode "4" "" "yes" (fl "2") [SD "yes" "2"; SD "no" "0"] [] (SP "humidity" "lessOrEqual" "75")] PTrue).
Theorem C27_no_prediction_refuted : ∃ E dd td t e td' r,
  new_model E dd td (DTree t) = (Ok e, td') ∧ tm_strategy t = "none" ∧ tm_lt t = [] ∧
  tm_notrue t = "returnNullPrediction" ∧
  descend_none m_nodes (doc_truth E dd td t r) (tm_node t) (tm_node t) ∧ m_nodes (tm_node t) ≠ [] ∧
  (evaluate E [] e r).1.1 = Ok (Some {["play" := GStr ""]}).
Proof.
  exists go_ext, golf_dd, [], (null_tree "classification"), (built go_ext golf_dd (DTree (null_tree "classification"))),
    (new_model go_ext golf_dd [] (DTree (null_tree "classification"))).2, (Some {["humidity" := GF64 (fl "90")]}).
  split; [apply built_ok; by vm_compute|]. do 3 (split; [done|]). split.
  { apply none_stop. intros c Hc H.
    repeat (apply elem_of_cons in Hc as [->|Hc]); [|by apply elem_of_nil in Hc].
    eapply (truth_b_ok _ _ _ _ _ RF) in H; by vm_compute. }
  split; [done|]. apply run_out; by vm_compute.
Qed.
Print Assumptions C27_no_prediction_refuted.

Example C27_example :
  dumped (run go_ext golf_dd (DTree (null_tree "regression")) (Some {["humidity" := GF64 (fl "90")]}))
    = Some (Panic PIndex).
Proof. by vm_compute. Qed.
