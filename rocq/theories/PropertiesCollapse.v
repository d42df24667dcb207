(** Property C129: splits that decide nothing. *)
From Verif Require Import Base Strconv Value Doc Expr Pred Tree Regression Model Lib ProofsWhole ProofsSim GoExt Samples
  SpecTree SpecEquiv PropertiesTree PropertiesEquiv ProofsEquiv SpecElse PropertiesElse ProofsWrap SpecCollapse ProofsCollapse ProofsIdle.

(** *** C129.  Where all nodes below a node predict what it predicts, the document may
    just as well have a leaf there, in any number of places and trees. *)
Theorem C129_leaf : ∀ E dd td d1 d2 e1 td' calls1 calls2,
  simplified d1 d2 → new_model E dd td d1 = (Ok e1, td') →
  ∃ e2, new_model E dd td d2 = (Ok e2, td') ∧
    ∀ tk r, (evaluate E tk (after E calls1 e1) r).1 = (evaluate E tk (after E calls2 e2) r).1.
Proof.
  intros E dd td d1 d2 e1 td' calls1 calls2 Hc H1.
  destruct (simplified_stands_in E dd d1 d2 Hc _ _ _ H1) as (e2 & H2 & He). exists e2. split; [done|]. intros tk r.
  by rewrite (history_independent _ _ _ _ _ _ _ _ _ H1), (history_independent _ _ _ _ _ _ _ _ _ H2).
Qed.
Print Assumptions C129_leaf.

(** A node for dry days, split by the wind for nothing: six records of one class, of
    which four with little wind. *)
Definition idle_split (st : string) : tree_model :=
  TreeModel "classification" st fone "returnLastPrediction" [] [MF "play" "target"] None
    (MNode "1" "" "no" (fl "10") [SD "yes" "4"; SD "no" "6"]
       [MNode "2" "" "yes" (fl "6") [SD "yes" "6"; SD "no" "0"]
          [MNode "3" "" "yes" (fl "4") [SD "yes" "4"; SD "no" "0"] [] (SP "kmh" "lessThan" "20");
           MNode "4" "" "yes" (fl "2") [SD "yes" "2"; SD "no" "0"] [] (SP "kmh" "greaterOrEqual" "20")]
          (SP "humidity" "lessThan" "75")] PTrue).
Definition idle_leaf : mnode :=
  MNode "1" "" "no" (fl "10") [SD "yes" "4"; SD "no" "6"]
    [MNode "2" "" "yes" (fl "6") [SD "yes" "6"; SD "no" "0"] [] (SP "humidity" "lessThan" "75")] PTrue.
Lemma idle_simplified : simplified (DTree (idle_split "none")) (DTree (with_node (idle_split "none") idle_leaf)).
Proof.
  constructor. right. constructor. split; [split; [simpl; set_solver|done]|].
  apply co_node. constructor; [|constructor]. apply co_leaf. intros c Hc. cbn [doc_nodes map concat app] in Hc.
  rewrite !elem_of_cons in Hc. destruct Hc as [->|[->|[->|Hc%elem_of_nil]]]; [..|done]; (split; [by vm_compute|done]).
Qed.
Definition windless : datarow := Some {["humidity" := GF64 (fl "70")]}.
Example C129_example :
  simplified (DTree (idle_split "none")) (DTree (with_node (idle_split "none") idle_leaf)) ∧
  map (λ d, dumped (run go_ext golf_dd d windless)) [DTree (idle_split "none"); DTree (with_node (idle_split "none") idle_leaf)] =
  replicate 2 (Some (Ok (dump (Some {["play" := GStr "yes"; "probability(yes)" := GF64 fone; "probability(no)" := GF64 fzero]})))).
Proof. split; [apply idle_simplified|by vm_compute]. Qed.

Definition with_strategy (st : string) (t : tree_model) : tree_model :=
  TreeModel (tm_function t) st (tm_penalty t) (tm_notrue t) (tm_lt t) (tm_schema t) (tm_verification t) (tm_node t).

(** The strategies for missing values look below the node and tell them apart. *)
Theorem C129_only_none : ∀ st, st ∈ ["nullPrediction"; "defaultChild"] →
  ∃ E dd t n r e1 e2 td1 td2,
    simplified (DTree t) (DTree (with_node t n)) ∧
    new_model E dd [] (DTree (with_strategy st t)) = (Ok e1, td1) ∧
    new_model E dd [] (DTree (with_strategy st (with_node t n))) = (Ok e2, td2) ∧
    (evaluate E [] e1 r).1.1 ≠ (evaluate E [] e2 r).1.1.
Proof.
  intros st Hst. exists go_ext, golf_dd, (idle_split "none"), idle_leaf, windless.
  destruct (told_apart go_ext golf_dd (DTree (with_strategy st (idle_split "none")))
    (DTree (with_strategy st (with_node (idle_split "none") idle_leaf))) windless) as (e1 & e2 & td1 & td2 & H1 & H2 & H3).
  1-3: rewrite !elem_of_cons in Hst; destruct Hst as [->|[->|Hst%elem_of_nil]]; [..|done]; by vm_compute.
  exists e1, e2, td1, td2. split; [apply idle_simplified|done].
Qed.
Print Assumptions C129_only_none.

(** They do so only where a predicate is unknown.  Under nullPrediction nothing changes
    for rows that meet no unknown predicate on their way, ... *)
Theorem C129_null : ∀ E dd td t n e td' calls1 calls2 tk r r',
  new_model E dd td (DTree t) = (Ok e, td') → collapsed (tm_node t) n →
  tm_strategy t = "nullPrediction" → tm_notrue t ≠ "returnNullPrediction" →
  everywhere_doc (λ m, m_pred m ≠ PNone) (tm_node t) →
  handle_input E (tm_lt t) r = (Ok tt, r') →
  ¬ meets_unknown m_nodes (doc_truth E dd td t r') (tm_node t) →
  ∃ e', new_model E dd td (DTree (with_node t n)) = (Ok e', td') ∧
    (evaluate E tk (after E calls1 e) r).1 = (evaluate E tk (after E calls2 e') r).1.
Proof.
  intros E dd td t n e td' calls1 calls2 tk r r' He Hco Hst Hnt Hp Hi Hu.
  destruct (collapsed_accepted _ _ _ _ _ _ _ Hnt Hco He) as [e' He']. exists e'. split; [done|].
  set (truth := doc_truth E dd td t r') in *.
  assert (∀ m1 m2 v, m_pred m1 = m_pred m2 → truth m1 v → truth m2 v) as Hpred.
  { intros m1 m2 v Hm. unfold truth, doc_truth, node_truth. by rewrite Hm. }
  destruct (C16_null_prediction E dd td t e td' calls1 tk r r' He Hst Hp Hi) as (Ha1 & Hb1 & [[l1 Hl1]|Hx]); [|done].
  destruct (C16_null_prediction E dd td (with_node t n) e' td' calls2 tk r r' He' Hst) as (Ha2 & Hb2 & _); [|done|].
  { eapply collapsed_everywhere; [|exact Hco|exact Hp]. by intros a b _ <-. }
  fold truth in Ha1, Hb1. change (doc_truth E dd td (with_node t n) r') with truth in Ha2, Hb2. simpl in Ha2, Hb2.
  destruct (collapsed_null truth Hpred _ _ _ Hco Hl1) as (l2 & Hl2 & Hs).
  pose proof (collapsed_pred _ _ Hco) as Hroot.
  assert (truth (tm_node t) RT ∨ ¬ truth (tm_node t) RT) as [Ht|Ht].
  { unfold truth, doc_truth, node_truth. destruct (compile_predicate E _ (m_pred (tm_node t))) as [q| |] eqn:Hq; [|right; by intros (? & ? & _)..].
    destruct (run_test E (field_types dd (td ++ tm_lt t)) q r') as [[| |]| |] eqn:Hv; [|by left; exists q| | |];
      right; intros (? & [= <-] & Hw); by rewrite Hv in Hw. }
  - rewrite (Ha1 l1), (Ha2 l2); [|by eapply Hpred|done..]. f_equal. by apply report_seen, seen_says.
  - rewrite Hb1, Hb2; [done| |by left]. left. intros H2. apply Ht. by eapply Hpred.
Qed.
Print Assumptions C129_null.

(** ... and under the other strategies nothing changes for rows that leave no predicate
    unknown. *)
Theorem C129_known : ∀ E dd td t n e td' calls1 calls2 tk r r',
  new_model E dd td (DTree t) = (Ok e, td') → collapsed (tm_node t) n →
  tm_strategy t ∈ ["aggregateNodes"; "weightedConfidence"; "defaultChild"; "lastPrediction"] →
  tm_notrue t ≠ "returnNullPrediction" →
  handle_input E (tm_lt t) r = (Ok tt, r') →
  let truth := doc_truth E dd td t r' in
  truth (tm_node t) RT →
  everywhere_doc (λ m, truth m RT ∨ truth m RF) (tm_node t) →
  everywhere_doc (λ m, node_dist dd t m ≠ []) (tm_node t) →
  ∃ e', new_model E dd td (DTree (with_node t n)) = (Ok e', td') ∧
    (evaluate E tk (after E calls1 e) r).1 = (evaluate E tk (after E calls2 e') r).1.
Proof.
  intros E dd td t n e td' calls1 calls2 tk r r' He Hco Hst Hnt Hi truth Hroot Hk Hd.
  destruct (collapsed_accepted _ _ _ _ _ _ _ Hnt Hco He) as [e' He']. exists e'. split; [done|].
  assert (∀ m1 m2 v, m_pred m1 = m_pred m2 → truth m1 v → truth m2 v) as Hpred.
  { intros m1 m2 v Hm. unfold truth, doc_truth, node_truth. by rewrite Hm. }
  destruct (C144_last_child E dd td t e td' calls1 tk r r' He Hst Hi Hroot Hk Hd) as (l1 & Hl1 & ->).
  destruct (C144_last_child E dd td (with_node t n) e' td' calls2 tk r r' He' Hst Hi) as (l2 & Hl2 & ->).
  - eapply Hpred; [|exact Hroot]. by apply collapsed_pred.
  - eapply collapsed_everywhere; [|exact Hco|exact Hk]. intros a b _ Hab [H|H]; [left|right]; by eapply Hpred.
  - eapply collapsed_everywhere; [|exact Hco|exact Hd]. intros a b Hab _. by apply (dist_said dd t).
  - destruct (collapsed_late truth Hpred _ _ _ Hco Hl1) as (l2' & Hl2' & Hs).
    assert (l2 = l2') as -> by (by eapply (late_fun truth)). f_equal. by apply report_seen, seen_says.
Qed.
Print Assumptions C129_known.

Definition windy_dry : datarow := Some {["humidity" := GF64 (fl "70"); "kmh" := GF64 (fl "30")]}.
Example C129_known_example : ∀ st, st ∈ ["aggregateNodes"; "weightedConfidence"; "defaultChild"; "lastPrediction"] →
  let t := idle_split st in let truth := doc_truth go_ext golf_dd [] t windy_dry in
  collapsed (tm_node t) idle_leaf ∧ truth (tm_node t) RT ∧ everywhere_doc (λ m, truth m RT ∨ truth m RF) (tm_node t) ∧
  everywhere_doc (λ m, node_dist golf_dd t m ≠ []) (tm_node t) ∧
  map (λ d, dumped (run go_ext golf_dd d windy_dry)) [DTree t; DTree (with_node t idle_leaf)] =
  replicate 2 (Some (Ok (dump (Some {["play" := GStr "yes"; "probability(yes)" := GF64 fone; "probability(no)" := GF64 fzero]})))).
Proof.
  intros st Hst t truth. split_and!.
  - apply co_node. constructor; [|constructor]. apply co_leaf. intros c Hc. cbn [doc_nodes map concat app] in Hc.
    rewrite !elem_of_cons in Hc. destruct Hc as [->|[->|[->|Hc%elem_of_nil]]]; [..|done]; (split; [by vm_compute|done]).
  - exists PTrue. split; reflexivity.
  - apply (everywhere_tested _ (λ m, match truth_b go_ext golf_dd t windy_dry m with Some RT | Some RF => true | _ => false end)); [|by vm_compute].
    intros m. destruct (truth_b go_ext golf_dd t windy_dry m) as [[| |]|] eqn:H; [done| | |done]; intros _; [left|right];
      by apply (truth_b_ok _ _ _ _ _ _ H).
  - apply (everywhere_tested _ (λ m, match node_dist golf_dd t m with [] => false | _ => true end)); [|by vm_compute].
    intros m. by destruct (node_dist golf_dd t m).
  - rewrite !elem_of_cons in Hst. subst t truth. destruct Hst as [->|[->|[->|[->|Hst%elem_of_nil]]]]; [..|done]; by vm_compute.
Qed.

(** a humid row without wind: the split is never looked at *)
Definition humid : datarow := Some {["humidity" := GF64 (fl "80")]}.
Example C129_null_example :
  let t := idle_split "nullPrediction" in
  collapsed (tm_node t) idle_leaf ∧ ¬ meets_unknown m_nodes (doc_truth go_ext golf_dd [] t humid) (tm_node t) ∧
  map (λ d, dumped (run go_ext golf_dd d humid)) [DTree t; DTree (with_node t idle_leaf)] =
  replicate 2 (Some (Ok (dump (Some {["play" := GStr "no"; "probability(yes)" := GF64 (fl "0.4"); "probability(no)" := GF64 (fl "0.6")]})))).
Proof.
  intros t. split_and!.
  - by apply (C129_known_example "aggregateNodes"); left.
  - assert (doc_truth go_ext golf_dd [] t humid (kid (tm_node t) 0) RF) as Hf by (apply (truth_b_ok _ _ _ _ _ RF); by vm_compute).
    intros H. inversion H as [? l1 c l2 Hk _ Hc|? l1 c l2 Hk _ Hc]; subst; cbn [tm_node t idle_split m_nodes] in Hk;
      (destruct l1 as [|x [|y l1]]; simplify_eq/=);
      destruct Hf as (p & Hp & Hv), Hc as (q & Hq & Hw); unfold kid in Hp; cbn [m_nodes nth] in Hp; rewrite Hp in Hq; injection Hq as <-; by rewrite Hv in Hw.
  - by vm_compute.
Qed.
