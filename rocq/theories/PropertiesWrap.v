(** Property C147: nodes with a single child True. *)
From Verif Require Import Base Strconv Value Doc Expr Pred Tree Regression Model Lib GoExt Samples SpecPred ProofsPred
  SpecTree ProofsTree ProofsOutput ProofsEval ProofsDoc ProofsSafe ProofsWhole ProofsSim ProofsAnswer SpecEquiv ProofsEquiv
  PropertiesTree PropertiesEquiv SpecElse ProofsElse PropertiesElse SpecWrap ProofsWrap.

(** Without a strategy for missing values and under nullPrediction: all rows. *)
Theorem C147_wrapped_partial : ∀ E dd td d1 d2 e1 td' calls1 calls2 tk r,
  rewrapped d1 d2 → new_model E dd td d1 = (Ok e1, td') →
  ∃ e2, new_model E dd td d2 = (Ok e2, td') ∧
    (evaluate E tk (after E calls1 e1) r).1 = (evaluate E tk (after E calls2 e2) r).1.
Proof.
  intros E dd td d1 d2 e1 td' calls1 calls2 tk r Hd H1.
  destruct (rewrapped_stands_in E dd d1 d2 Hd td e1 td' H1) as (e2 & H2 & He).
  exists e2. split; [done|].
  by rewrite (history_independent _ _ _ _ _ _ calls1 _ _ H1), (history_independent _ _ _ _ _ _ calls2 _ _ H2).
Qed.
Print Assumptions C147_wrapped_partial.

(** Under the other four: rows that leave no predicate unknown. *)
Theorem C147_known_partial : ∀ E dd td t n e td' calls1 calls2 tk r r',
  new_model E dd td (DTree t) = (Ok e, td') → wrapped (tm_node t) n →
  tm_strategy t ∈ ["aggregateNodes"; "weightedConfidence"; "defaultChild"; "lastPrediction"] →
  handle_input E (tm_lt t) r = (Ok tt, r') →
  let truth := doc_truth E dd td t r' in
  truth (tm_node t) RT →
  everywhere_doc (λ m, truth m RT ∨ truth m RF) (tm_node t) →
  everywhere_doc (λ m, node_dist dd t m ≠ []) (tm_node t) →
  everywhere_doc (λ m, node_dist dd t m ≠ []) n →
  ∃ e', new_model E dd td (DTree (with_node t n)) = (Ok e', td') ∧
    (evaluate E tk (after E calls1 e) r).1 = (evaluate E tk (after E calls2 e') r).1.
Proof.
  intros E dd td t n e td' calls1 calls2 tk r r' He Hw Hst Hi truth Hroot Hk Hd1 Hd2.
  destruct (wrapped_accepted _ _ _ _ _ _ _ Hw He) as [e' He']. exists e'. split; [done|].
  assert (∀ m1 m2 v, m_pred m1 = m_pred m2 → truth m1 v → truth m2 v) as Hpred.
  { intros m1 m2 v Hm. unfold truth, doc_truth, node_truth. by rewrite Hm. }
  assert (∀ m, m_pred m = PTrue → truth m RT) as HT.
  { intros m Hm. unfold truth, doc_truth, node_truth. rewrite Hm. by exists PTrue. }
  destruct (C144_last_child E dd td t e td' calls1 tk r r' He Hst Hi Hroot Hk Hd1) as (l1 & Hl1 & ->).
  destruct (C144_last_child E dd td (with_node t n) e' td' calls2 tk r r' He' Hst Hi) as (l2 & Hl2 & ->).
  - by eapply Hpred; [apply wrapped_pred|].
  - eapply (wrapped_everywhere _ (tm_node t) n); [..|done|done]; [|by intros; left; apply HT].
    intros a b Hab [H|H]; [left|right]; by eapply Hpred.
  - exact Hd2.
  - destruct (late_wrapped truth Hpred HT _ _ Hw _ Hl1) as (l2' & Hl2' & Hs).
    assert (l2 = l2') as -> by (by eapply (late_fun truth)). by rewrite (same_words_dist _ _ _ _ Hs).
Qed.
Print Assumptions C147_known_partial.

(** a branch whose test may be unknown, as it is and with its contents one level down *)
Definition breeze (ns : list mnode) : mnode :=
  MNode "2" "" "yes" (fl "5") [SD "yes" "4"; SD "no" "1"] ns (SP "outlook" "equal" "sunny").
Definition breeze_below (ns : list mnode) : mnode :=
  MNode "2" "" "yes" (fl "5") [SD "yes" "5"; SD "no" "5"]
    [MNode "6" "" "yes" (fl "5") [SD "yes" "4"; SD "no" "1"] ns PTrue] (SP "outlook" "equal" "sunny").
Definition gusts : list mnode := [MNode "4" "" "yes" (fl "2") [SD "yes" "2"; SD "no" "1"] [] (SP "kmh" "lessThan" "20")].
Definition breezy (st : string) (m : mnode) : tree_model :=
  TreeModel "classification" st fhalf "returnLastPrediction" [] [MF "play" "target"] None
    (MNode "1" "3" "yes" (fl "14") [SD "yes" "9"; SD "no" "5"]
       [m; MNode "3" "" "no" (fl "9") [SD "yes" "2"; SD "no" "7"] [] (SP "humidity" "greaterThan" "60")] PTrue).
Lemma breezy_wrapped st ns :
  wrapped (tm_node (breezy st (breeze ns))) (tm_node (breezy st (breeze_below ns))).
Proof.
  assert (∀ m, wrapped m m) as Hr.
  { intros m. induction m as [id dc sc c ds l p IH] using mnode_rect'. constructor. induction IH; by constructor. }
  apply wr_keep. constructor; [|constructor; [apply Hr|constructor]]. apply wr_wrap. clear -Hr. induction ns; by constructor.
Qed.

(** With unknown predicates these four predict differently: the child True makes an
    unknown branch a true one, or the other way round. *)
Theorem C147_wrapped_refuted : ∀ st, st ∈ ["aggregateNodes"; "weightedConfidence"; "defaultChild"; "lastPrediction"] →
  ∃ E dd t n r, tm_strategy t = st ∧ wrapped (tm_node t) n ∧
  ∃ e1 e2 td1 td2, new_model E dd [] (DTree t) = (Ok e1, td1) ∧ new_model E dd [] (DTree (with_node t n)) = (Ok e2, td2) ∧
    (evaluate E [] e1 r).1.1 ≠ (evaluate E [] e2 r).1.1.
Proof.
  intros st Hst. rewrite !elem_of_cons in Hst.
  set (ns := if (st =s "aggregateNodes") || (st =s "weightedConfidence") then gusts else []).
  exists go_ext, golf_dd, (breezy st (breeze ns)), (tm_node (breezy st (breeze_below ns))), (Some {["humidity" := GF64 (fl "70")]}).
  split; [done|]. split; [apply breezy_wrapped|]. subst ns.
  destruct Hst as [->|[->|[->|[->|Hst%elem_of_nil]]]]; [..|done]; apply told_apart; by vm_compute.
Qed.
Print Assumptions C147_wrapped_refuted.

Definition still : datarow := Some {["outlook" := GStr "sunny"; "humidity" := GF64 (fl "50"); "kmh" := GF64 (fl "30")]}.
Example C147_example :
  rewrapped (DTree (breezy "nullPrediction" (breeze gusts))) (DTree (breezy "nullPrediction" (breeze_below gusts))) ∧
  map (λ m, dumped (run go_ext golf_dd (DTree (breezy "nullPrediction" (m gusts))) still)) [breeze; breeze_below] =
    replicate 2 (Some (Ok (dump (Some {["play" := GStr "yes"; "probability(yes)" := GF64 (fl "0.8");
                                        "probability(no)" := GF64 (fl "0.2")]})))).
Proof.
  split; [|by vm_compute]. constructor. right.
  apply (stb _ (breezy "nullPrediction" (breeze gusts)) (tm_node (breezy "nullPrediction" (breeze_below gusts)))).
  split; [|apply breezy_wrapped]. cbn [tm_strategy breezy]. set_solver.
Qed.
Example C147_known_example : ∀ st, st ∈ ["aggregateNodes"; "weightedConfidence"; "defaultChild"; "lastPrediction"] →
  let t := breezy st (breeze gusts) in let n := tm_node (breezy st (breeze_below gusts)) in
  let truth := doc_truth go_ext golf_dd [] t still in
  wrapped (tm_node t) n ∧ truth (tm_node t) RT ∧ everywhere_doc (λ m, truth m RT ∨ truth m RF) (tm_node t) ∧
  everywhere_doc (λ m, node_dist golf_dd t m ≠ []) (tm_node t) ∧ everywhere_doc (λ m, node_dist golf_dd t m ≠ []) n ∧
  dumped (run go_ext golf_dd (DTree (with_node t n)) still) =
    Some (Ok (dump (Some {["play" := GStr "yes"; "probability(yes)" := GF64 (fl "0.8"); "probability(no)" := GF64 (fl "0.2")]}))).
Proof.
  intros st Hst t n truth. split_and!.
  - apply breezy_wrapped.
  - exists PTrue. split; reflexivity.
  - apply (everywhere_tested _ (λ m, match truth_b go_ext golf_dd t still m with Some RT | Some RF => true | _ => false end)); [|by vm_compute].
    intros m. destruct (truth_b go_ext golf_dd t still m) as [[| |]|] eqn:H; [done| | |done]; intros _; [left|right];
      by apply (truth_b_ok _ _ _ _ _ _ H).
  - apply (everywhere_tested _ (λ m, match node_dist golf_dd t m with [] => false | _ => true end)); [|by vm_compute].
    intros m. by destruct (node_dist golf_dd t m).
  - apply (everywhere_tested _ (λ m, match node_dist golf_dd t m with [] => false | _ => true end)); [|by vm_compute].
    intros m. by destruct (node_dist golf_dd t m).
  - rewrite !elem_of_cons in Hst. subst t n truth. destruct Hst as [->|[->|[->|[->|Hst%elem_of_nil]]]]; [..|done]; by vm_compute.
Qed.
