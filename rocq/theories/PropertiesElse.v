(** Property C144: else branches written as True, and siblings that are true together. *)
From Verif Require Import Base Strconv Value Doc Expr Pred Tree Regression Model Lib GoExt Samples SpecPred ProofsPred
  SpecExpr ProofsExpr SpecConstruct ProofsConstruct SpecTree ProofsTree ProofsOutput ProofsEval ProofsDoc ProofsSafe ProofsWhole
  ProofsClass ProofsAnswer SpecEquiv PropertiesPred PropertiesConstruct PropertiesTree PropertiesEquiv PropertiesShuffle SpecElse ProofsElse.

Lemma everywhere_tested (P : mnode → Prop) (f : mnode → bool) m :
  (∀ m, f m = true → P m) → forallb f (doc_nodes m) = true → everywhere_doc P m.
Proof.
  intros Hf Hm. apply everywhere_doc_nodes. intros x Hx. apply Hf. rewrite forallb_forall in Hm. by apply Hm, elem_of_list_In.
Qed.
Lemma everywhere_in_doc (P : mnode → Prop) m : everywhere_doc P m → ∀ x, x ∈ doc_nodes m → P x.
Proof.
  induction m as [id dc sc c ds ns pr IH] using mnode_rect'. intros H x Hx. inversion H as [? Hm Hk]; subst.
  cbn [doc_nodes] in Hx. apply elem_of_cons in Hx as [->|Hx]; [done|]. apply elem_of_concat_map in Hx as (k & Hkin & Hx).
  rewrite Forall_forall in IH, Hk. by apply (IH k Hkin); [apply Hk|].
Qed.
Lemma else_accepted E dd td t n cov e td' : with_else cov (tm_node t) n → new_model E dd td (DTree t) = (Ok e, td') →
  ∃ e', new_model E dd td (DTree (with_node t n)) = (Ok e', td').
Proof.
  intros Hn He. destruct (proj2 (C02_tree_compiles_iff E dd td (with_node t n))) as (e' & td2 & H).
  { destruct (proj1 (C02_tree_compiles_iff E dd td t) ltac:(eauto)) as [Hf Hs]. split; [done|]. intros f lit Hin. apply Hs.
    by eapply with_else_simples. }
  exists e'. rewrite H. apply C05_dictionary_after_success in H, He. by subst.
Qed.

(** *** C144.  Without a strategy for missing values and under nullPrediction, the last
    child of a node may have the predicate True where it is true anyway unless an
    earlier sibling is. *)
Theorem C144_otherwise_partial : ∀ E dd td t n e td' calls calls' tk r r',
  new_model E dd td (DTree t) = (Ok e, td') →
  tm_strategy t ∉ ["aggregateNodes"; "weightedConfidence"; "defaultChild"; "lastPrediction"] →
  everywhere_doc (λ m, m_pred m ≠ PNone) (tm_node t) →
  handle_input E (tm_lt t) r = (Ok tt, r') →
  with_else (takes_the_rest (doc_truth E dd td t r')) (tm_node t) n →
  ∃ e', new_model E dd td (DTree (with_node t n)) = (Ok e', td') ∧
    (evaluate E tk (after E calls e) r).1 = (evaluate E tk (after E calls' e') r).1.
Proof.
  intros E dd td t n e td' calls calls' tk r r' He Hst Hp Hi Hn.
  destruct (else_accepted _ _ _ _ _ _ _ _ Hn He) as [e' He']. exists e'. split; [done|].
  pose proof (with_else_nopred _ _ _ Hn Hp) as Hp'. pose proof (we_elsewise _ _ _ Hn) as Hx.
  assert (∀ v, doc_truth E dd td t r' (tm_node t) v ↔ doc_truth E dd td t r' n v) as Hroot by (intros v; by eapply with_else_truth).
  destruct (decide (tm_strategy t = "nullPrediction")) as [Hnull|Hnull].
  - destruct (C16_null_prediction E dd td t e td' calls tk r r' He Hnull Hp Hi) as (H1 & H2 & H3).
    destruct (C16_null_prediction E dd td (with_node t n) e' td' calls' tk r r' He' Hnull Hp' Hi) as (H1' & H2' & _).
    change (doc_truth E dd td (with_node t n) r') with (doc_truth E dd td t r') in *. cbn [with_node tm_node] in *.
    destruct (false_dec E (field_types dd (td ++ tm_lt t)) r' (tm_node t) RT) as [Ht|Ht].
    + destruct H3 as [[leaf Hl]|Hu].
      * rewrite (H1 leaf Ht Hl). destruct (null_else _ _ _ _ _ Hl n Hx) as (leaf' & Hl' & Hll).
        rewrite (H1' leaf'); [by rewrite (elsewise_dist _ dd t n _ _ Hll)|by apply Hroot|done].
      * rewrite H2, H2'; [done|right|by right]. by eapply unknown_else.
    + rewrite H2, H2'; [done|left|by left]. by rewrite <- Hroot.
  - assert (tm_strategy t ∉ ["nullPrediction"; "aggregateNodes"; "weightedConfidence"; "defaultChild"; "lastPrediction"]) as Hst'.
    { intros [H|H]%elem_of_cons; [by apply Hnull|by apply Hst]. }
    destruct (C15_strategy_none E dd td t e td' calls tk r r' He Hst' Hp Hi) as [H1 H2].
    destruct (C15_strategy_none E dd td (with_node t n) e' td' calls' tk r r' He' Hst' Hp' Hi) as [H1' H2'].
    change (doc_truth E dd td (with_node t n) r') with (doc_truth E dd td t r') in *. cbn [with_node tm_node] in *.
    destruct (false_dec E (field_types dd (td ++ tm_lt t)) r' (tm_node t) RT) as [Ht|Ht].
    + destruct (H1 Ht) as [[leaf Hl] Ha]. rewrite (Ha leaf Hl). destruct (none_else _ _ _ _ _ Hl n Hx) as (leaf' & Hl' & Hll).
      destruct H1' as [_ Ha']; [by apply Hroot|]. by rewrite (Ha' _ Hl'), (elsewise_dist _ dd t n _ _ Hll).
    + rewrite H2, H2'; [done| |done]. by rewrite <- Hroot.
Qed.
Print Assumptions C144_otherwise_partial.

(** So the second branch of a numeric split may be written as True, for rows that
    have a number (not NaN) in the fields split that way. *)
Theorem C144_split_partial : ∀ E dd td t n (G : list string) e td' calls calls' tk r,
  new_model E dd td (DTree t) = (Ok e, td') →
  tm_strategy t ∉ ["aggregateNodes"; "weightedConfidence"; "defaultChild"; "lastPrediction"] →
  everywhere_doc (λ m, m_pred m ≠ PNone) (tm_node t) →
  with_else (other_side (λ f lit, f ∈ G ∧ ext_parse_float E lit ≠ Some S754_nan ∧
    ∃ dt, field_types dd (td ++ tm_lt t) !! f = Some dt ∧ dt ∈ ["double"; "float"; "integer"])) (tm_node t) n →
  (∀ r' f, handle_input E (tm_lt t) r = (Ok tt, r') → f ∈ G → ∃ v, dr_get r' f = Some v ∧ val_float64 E v ≠ S754_nan) →
  ∃ e', new_model E dd td (DTree (with_node t n)) = (Ok e', td') ∧
    (evaluate E tk (after E calls e) r).1 = (evaluate E tk (after E calls' e') r).1.
Proof.
  intros E dd td t n G e td' calls calls' tk r He Hst Hp Hn Hr.
  destruct (handle_input E (tm_lt t) r) as [[[]|x|x] r'] eqn:Hi.
  2,3: destruct (else_accepted _ _ _ _ _ _ _ _ Hn He) as [e' He']; exists e'; split; [done|];
    apply (shuffled_failure E dd td t n e e' td'); [done..|by rewrite Hi].
  apply (C144_otherwise_partial E dd td t n e td' calls calls' tk r r' He Hst Hp Hi). eapply with_else_impl; [|exact Hn].
  intros l c Hl Hc (k & f & lit & raw1 & raw2 & op1 & op2 & (HG & Hlit & dt & Hft & Hdt) & -> & Hk & Hcp & Hops).
  destruct (tree_evaluator E dd td t e td' [] He) as (te & Ht & _).
  pose proof (everywhere_in_doc _ _ (all_truths E dd td t r' te Ht Hp)) as Hall.
  apply Forall_cons in Hl as [Hl _].
  destruct (Hall _ Hl) as (vk & pk & Hpk & Hvk). destruct (Hall _ Hc) as (vc & pc & Hpc & Hvc). rewrite Hk in Hpk. rewrite Hcp in Hpc.
  destruct (Hr r' f eq_refl HG) as (v & Hv & Hnan).
  intros Hnot. assert (¬ doc_truth E dd td t r' k RT) as Hno by (apply Hnot; left).
  destruct (C14_splits E _ dt f lit raw1 raw2 op1 op2 pk pc r' v Hpk Hpc Hops Hft Hdt Hv) as [[[H1 H2]|[H1 H2]]|(_ & [H|H] & _)];
    [destruct Hno; exists pk; by rewrite Hk|exists pc; by rewrite Hcp|done..].
Qed.
Print Assumptions C144_split_partial.

(** A tree that splits twice, with the second branch of both splits as comparisons and
    as True. *)
Definition else_tree (st : string) (p q : predicate) : tree_model :=
  TreeModel "classification" st fone "returnLastPrediction" [] [MF "play" "target"] None
    (MNode "1" "2" "no" (fl "10") []
       [MNode "2" "4" "yes" (fl "6") []
          [MNode "4" "" "yes" (fl "4") [] [] (SP "kmh" "lessThan" "20");
           MNode "5" "" "no" (fl "2") [] [] q] (SP "humidity" "lessOrEqual" "75");
        MNode "3" "" "no" (fl "4") [] [] p] PTrue).
Definition both_sides (st : string) : tree_model := else_tree st (SP "humidity" "greaterThan" "75") (SP "kmh" "greaterOrEqual" "20").
Definition or_else : mnode := tm_node (else_tree "" PTrue PTrue).
Lemma or_else_related (P : string → string → Prop) : P "kmh" "20" → P "humidity" "75" → ∀ st,
  with_else (other_side P) (tm_node (both_sides st)) or_else.
Proof.
  intros Hkmh Hhum st. cbn [both_sides else_tree tm_node or_else].
  set (a1 := MNode "4" "" "yes" (fl "4") [] [] (SP "kmh" "lessThan" "20")).
  apply (we_else _ "1" "2" "no" (fl "10") []
    [MNode "2" "4" "yes" (fl "6") [] [a1; MNode "5" "" "no" (fl "2") [] [] (SP "kmh" "greaterOrEqual" "20")] (SP "humidity" "lessOrEqual" "75")]
    (MNode "3" "" "no" (fl "4") [] [] (SP "humidity" "greaterThan" "75"))
    [MNode "2" "4" "yes" (fl "6") [] [a1; MNode "5" "" "no" (fl "2") [] [] PTrue] (SP "humidity" "lessOrEqual" "75")]
    (MNode "3" "" "no" (fl "4") [] [] (SP "humidity" "greaterThan" "75"))).
  - constructor; [|constructor].
    apply (we_else _ "2" "4" "yes" (fl "6") [] [a1] (MNode "5" "" "no" (fl "2") [] [] (SP "kmh" "greaterOrEqual" "20"))
      [a1] (MNode "5" "" "no" (fl "2") [] [] (SP "kmh" "greaterOrEqual" "20"))).
    + constructor; [|constructor]. by apply we_keep.
    + by apply we_keep.
    + exists a1, "kmh", "20", GNil, GNil, "lessThan", "greaterOrEqual". split_and!; [done..|]. by right.
  - by apply we_keep.
  - eexists _, "humidity", "75", GNil, GNil, "lessOrEqual", "greaterThan". split_and!; [done..|]. by left.
Qed.
Definition low_wind : datarow := Some {["humidity" := GF64 (fl "70"); "kmh" := GF64 (fl "12")]}.
Example C144_example :
  with_else (other_side (λ f lit, f ∈ ["kmh"; "humidity"] ∧ ext_parse_float go_ext lit ≠ Some S754_nan ∧
    ∃ dt, field_types golf_dd ([] ++ []) !! f = Some dt ∧ dt ∈ ["double"; "float"; "integer"])) (tm_node (both_sides "none")) or_else ∧
  (∀ f, f ∈ ["kmh"; "humidity"] → ∃ v, dr_get low_wind f = Some v ∧ val_float64 go_ext v ≠ S754_nan) ∧
  map (λ d, dumped (run go_ext golf_dd d low_wind))
    [DTree (both_sides "none"); DTree (with_node (both_sides "none") or_else);
     DTree (both_sides "nullPrediction"); DTree (with_node (both_sides "nullPrediction") or_else)] =
  replicate 4 (Some (Ok (dump (Some {["play" := GStr "yes"; "probability(yes)" := GF64 fone; "probability(no)" := GF64 fzero]})))).
Proof.
  split; [|split; [|by vm_compute]].
  - apply or_else_related; (split; [set_solver|split; [by vm_compute|]]).
    + exists "double". split; [by vm_compute|set_solver].
    + exists "double". split; [by vm_compute|set_solver].
  - intros f Hf. rewrite !elem_of_cons in Hf. destruct Hf as [->|[->|Hf%elem_of_nil]]; [..|done].
    + exists (GF64 (fl "12")). split; [done|by vm_compute].
    + exists (GF64 (fl "70")). split; [done|by vm_compute].
Qed.

(** The other four strategies go on through the last true child, not the first: on rows
    that leave no predicate unknown they give the prediction found that way. *)
Theorem C144_last_child : ∀ E dd td t e td' calls tk r r',
  new_model E dd td (DTree t) = (Ok e, td') →
  tm_strategy t ∈ ["aggregateNodes"; "weightedConfidence"; "defaultChild"; "lastPrediction"] →
  handle_input E (tm_lt t) r = (Ok tt, r') →
  let truth := doc_truth E dd td t r' in
  truth (tm_node t) RT →
  everywhere_doc (λ m, truth m RT ∨ truth m RF) (tm_node t) →
  everywhere_doc (λ m, node_dist dd t m ≠ []) (tm_node t) →
  ∃ leaf, descend_late m_nodes truth (tm_node t) leaf ∧
    (evaluate E tk (after E calls e) r).1 = (reported E t (node_dist dd t leaf), r').
Proof.
  intros E dd td t e td' calls tk r r' Hn Hst Hi truth H1 H2 H3.
  destruct (tree_evaluator E dd td t e td' calls Hn) as (te & Ht & _ & ->).
  by apply (late_doc E dd td t te tk r r' Ht Hi).
Qed.
Print Assumptions C144_last_child.

(** humidity 70 and a light wind: the first branches are true, the last ones taken *)
Example C144_last_example : ∀ st, st ∈ ["aggregateNodes"; "weightedConfidence"; "defaultChild"; "lastPrediction"] →
  let t := with_node (both_sides st) or_else in let truth := doc_truth go_ext golf_dd [] t low_wind in
  truth (tm_node t) RT ∧ everywhere_doc (λ m, truth m RT ∨ truth m RF) (tm_node t) ∧
  everywhere_doc (λ m, node_dist golf_dd t m ≠ []) (tm_node t) ∧
  dumped (run go_ext golf_dd (DTree t) low_wind) =
    Some (Ok (dump (Some {["play" := GStr "no"; "probability(yes)" := GF64 fzero; "probability(no)" := GF64 fone]}))).
Proof.
  intros st Hst t truth. split_and!.
  - exists PTrue. split; reflexivity.
  - apply (everywhere_tested _ (λ m, match truth_b go_ext golf_dd t low_wind m with Some RT | Some RF => true | _ => false end)); [|by vm_compute].
    intros m. destruct (truth_b go_ext golf_dd t low_wind m) as [[| |]|] eqn:H; [done| | |done]; intros _; [left|right];
      by apply (truth_b_ok _ _ _ _ _ _ H).
  - apply (everywhere_tested _ (λ m, match node_dist golf_dd t m with [] => false | _ => true end)); [|by vm_compute].
    intros m. by destruct (node_dist golf_dd t m).
  - rewrite !elem_of_cons in Hst. subst t truth. destruct Hst as [->|[->|[->|[->|Hst%elem_of_nil]]]]; [..|done]; by vm_compute.
Qed.

(** So under these strategies a last branch written as True takes every row. *)
Theorem C144_otherwise_refuted : ∀ st, st ∈ ["aggregateNodes"; "weightedConfidence"; "defaultChild"; "lastPrediction"] →
  ∃ E dd t n r e1 e2 td1 td2,
    tm_strategy t = st ∧ handle_input E (tm_lt t) r = (Ok tt, r) ∧
    with_else (takes_the_rest (doc_truth E dd [] t r)) (tm_node t) n ∧
    new_model E dd [] (DTree t) = (Ok e1, td1) ∧ new_model E dd [] (DTree (with_node t n)) = (Ok e2, td2) ∧
    (evaluate E [] e1 r).1.1 ≠ (evaluate E [] e2 r).1.1.
Proof.
  intros st Hst. exists go_ext, golf_dd, (both_sides st), or_else, low_wind.
  destruct (told_apart go_ext golf_dd (DTree (both_sides st)) (DTree (with_node (both_sides st) or_else)) low_wind)
    as (e1 & e2 & td1 & td2 & H1 & H2 & H3).
  1-3: rewrite !elem_of_cons in Hst; destruct Hst as [->|[->|[->|[->|Hst%elem_of_nil]]]]; [..|done]; by vm_compute.
  exists e1, e2, td1, td2. split; [done|]. split; [done|]. split; [|done].
  eapply with_else_impl; [|apply (or_else_related (λ f lit, (f, lit) ∈ [("kmh", "20"); ("humidity", "75")])); set_solver].
  intros l c _ _ (k & f & lit & raw1 & raw2 & op1 & op2 & HP & -> & Hk & Hc & Hops) Hnot.
  assert (¬ doc_truth go_ext golf_dd [] (both_sides st) low_wind k RT) as Hno by (apply Hnot; left).
  destruct (compile_predicate go_ext (field_types golf_dd []) (m_pred k)) as [pk| |] eqn:Hpk.
  2,3: exfalso; rewrite Hk in Hpk; revert Hpk; clear -HP; rewrite !elem_of_cons in HP;
    destruct HP as [[= -> ->]|[[= -> ->]|HP%elem_of_nil]]; [..|done]; by vm_compute.
  exfalso. apply Hno. exists pk. split; [exact Hpk|]. rewrite Hk in Hpk. clear -HP Hops Hpk. rewrite !elem_of_cons in HP.
  destruct HP as [[= -> ->]|[[= -> ->]|HP%elem_of_nil]]; [..|done]; destruct Hops as [[-> ->]|[-> ->]];
    vm_compute in Hpk; injection Hpk as <-; by vm_compute.
Qed.
Print Assumptions C144_otherwise_refuted.
