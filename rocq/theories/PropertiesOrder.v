(** Property C119: the strategies that range over maps. *)
From Coq Require Import Reals Lra.
From Flocq Require Import Core.Core IEEE754.BinarySingleNaN.
From Verif Require Import Base Strconv Value Doc Expr Pred Tree Regression Model Lib GoExt Samples SpecPred ProofsPred
  SpecTree ProofsTree SpecConstruct ProofsConstruct ProofsWhole ProofsSim SpecEquiv ProofsEquiv RealLib AccLib ForestLib SpecRecords ProofsRecords
  SpecOrder ProofsOrder PropertiesModel PropertiesRecords.
Local Open Scope R_scope.

(** *** aggregateNodes with whole record counts: only ties are random *)
Theorem C119_whole_records : ∀ E1 E2 dd td t e td' calls1 calls2 tk1 tk2 r,
  same_world E1 E2 → new_model E1 dd td (DTree t) = (Ok e, td') →
  tm_function t = "classification" → tm_strategy t = "aggregateNodes" →
  whole_records (tm_node t) → tree_records (tm_node t) <= IZR (2 ^ 53) →
  NoDup (target_values dd (target_field (tm_schema t))) →
  let x := evaluate E1 tk1 (after E1 calls1 e) r in
  let y := evaluate E2 tk2 (after E2 calls2 e) r in
  x.1.2 = y.1.2 ∧ same_but_ties (target_field (tm_schema t)) x.1.1 y.1.1.
Proof. intros. by eapply aggregate_order. Qed.
Print Assumptions C119_whole_records.

(** seven of ten records say yes after a missing value: a clear winner *)
Example C119_example :
  let t := grown_tree "aggregateNodes" 1 in
  whole_records (tm_node t) ∧ tree_records (tm_node t) <= IZR (2 ^ 53) ∧
  NoDup (target_values golf_dd (target_field (tm_schema t))) ∧
  dumped (run go_ext golf_dd (DTree t) (Some ∅)) =
    Some (Ok (dump (Some {["play" := GStr "yes"; "probability(yes)" := GF64 (fl "0.6"); "probability(no)" := GF64 (fl "0.4")]}))) ∧
  dumped (run go_ext_rev golf_dd (DTree t) (Some ∅)) = dumped (run go_ext golf_dd (DTree t) (Some ∅)) ∧
  clear_winner "play" {["play" := GStr "yes"; "probability(yes)" := GF64 (fl "0.6"); "probability(no)" := GF64 (fl "0.4")]}.
Proof.
  assert (∀ z, (0 <= z <= 10)%Z → times 1 (n_records 1 z) (n_records 1 z)) as Ht.
  { intros z Hz. exists z. split; [nia|]. unfold n_records. by rewrite Z.mul_1_l. }
  assert (∀ z, (0 <= z <= 10)%Z → R64 (n_records 1 z) = IZR z) as Hr.
  { intros z Hz. unfold n_records. rewrite of_Z_exact by lia. by rewrite Z.mul_1_l. }
  split; [|split; [|split; [|split; [by vm_compute|split; [by vm_compute|]]]]].
  - unfold whole_records. repeat (constructor || apply Ht || lia).
  - unfold tree_records, grown_tree, grown. cbn [tm_node doc_nodes map concat app m_count m_dists]. unfold real_sum, rsum. cbn [map foldr sd_count].
    rewrite !Hr by lia. change (2 ^ 53)%Z with 9007199254740992%Z. lra.
  - by vm_compute; repeat constructor; set_solver.
  - exists "yes", (fl "0.6"). split; [done|]. split; [done|]. intros c q Hc.
    destruct (decide (c = "no")) as [->|Hno]; [by intros [= <-]|].
    assert (∀ a, c ≠ a → probability_of c ≠ probability_of a) as Hinj.
    { intros a Ha Hb. apply Ha. by apply ProofsOutput.prob_key_inj. }
    change "probability(yes)" with (probability_of "yes"). change "probability(no)" with (probability_of "no").
    rewrite !lookup_insert_ne by (by apply not_eq_sym, Hinj || done). by rewrite lookup_singleton_ne by (by apply not_eq_sym, Hinj).
Qed.

(** *** Regression trees: the prediction itself is random *)
Definition area_tree (strategy : string) : tree_model :=
  TreeModel "regression" strategy fone "returnLastPrediction" []
    [MF "area" "active"; MF "price" "target"] None
    (MNode "1" "" "100" (fl "2") []
       [MNode "2" "" "50" (fl "1") [SD "50" "1"] [] (SP "area" "lessThan" "60");
        MNode "3" "" "200" (fl "1") [SD "200" "1"] [] (SP "area" "greaterOrEqual" "60")] PTrue).
Theorem C119_regression_refuted : ∀ strategy, strategy = "weightedConfidence" ∨ strategy = "aggregateNodes" →
  ∃ E1 E2 dd t e td' r out1 out2,
    same_world E1 E2 ∧ tm_strategy t = strategy ∧ tm_function t = "regression" ∧ new_model E1 dd [] (DTree t) = (Ok e, td') ∧
    (evaluate E1 [] e r).1.1 = Ok out1 ∧ (evaluate E2 [] e r).1.1 = Ok out2 ∧
    dr_get out1 "score" = Some (GF64 (fl "50")) ∧ dr_get out2 "score" = Some (GF64 (fl "200")).
Proof.
  intros st Hst. set (out c := Some {["score" := GF64 (fl c)]} : datarow).
  assert (∃ E1 E2, same_world E1 E2 ∧ is_ok (new_model E1 price_dd [] (DTree (area_tree st))).1 = true ∧
    is_ok (new_model E2 price_dd [] (DTree (area_tree st))).1 = true ∧
    built E1 price_dd (DTree (area_tree st)) = built E2 price_dd (DTree (area_tree st)) ∧
    dumped (run E1 price_dd (DTree (area_tree st)) (Some ∅)) = Some (Ok (dump (out "50"))) ∧
    dumped (run E2 price_dd (DTree (area_tree st)) (Some ∅)) = Some (Ok (dump (out "200"))))
    as (E1 & E2 & HE & H1 & H2 & Hbb & Ho1 & Ho2).
  { exists go_ext_rev, go_ext. split; [repeat split|]. destruct Hst as [-> | ->]; repeat apply conj; vm_compute; reflexivity. }
  exists E1, E2, price_dd, (area_tree st), (built E1 price_dd (DTree (area_tree st))),
    (new_model E1 price_dd [] (DTree (area_tree st))).2, (Some ∅), (out "50"), (out "200").
  split; [done|]. split; [done|]. split; [done|]. split; [by apply built_ok|].
  split; [by apply run_out|]. split; [rewrite Hbb; by apply run_out|]. done.
Qed.
Print Assumptions C119_regression_refuted.

(** *** Without a tie the last bits of the probabilities are random *)

(** weightedConfidence adds up three products in the order of the map; so does
    aggregateNodes with three fractional record counts on two levels. *)
Definition sums_tree (strategy : string) : tree_model :=
  TreeModel "classification" strategy fone "returnLastPrediction" []
    [MF "outlook" "active"; MF "play" "target"] None
    (if strategy =s "weightedConfidence" then
       MNode "1" "" "" (fl "3") []
         [MNode "2" "" "no" (fl "1") [SD "yes" "1"; SD "no" "9"] [] (SP "outlook" "equal" "sunny");
          MNode "3" "" "no" (fl "1") [SD "yes" "1"; SD "no" "9"] [] (SP "outlook" "equal" "rain");
          MNode "4" "" "no" (fl "1") [SD "yes" "4"; SD "no" "6"] [] (SP "outlook" "equal" "snow")] PTrue
     else
       MNode "1" "" "" (fl "3") []
         [MNode "2" "" "yes" (fl "0.3") [SD "yes" "0.3"] [] (SP "outlook" "equal" "sunny");
          MNode "3" "" "" fzero []
            [MNode "4" "" "yes" (fl "0.1") [SD "yes" "0.1"] [] (SP "outlook" "equal" "rain");
             MNode "5" "" "no" (fl "0.2") [SD "no" "0.2"] [] (SP "outlook" "equal" "snow")]
            (SP "outlook" "notEqual" "sunny")] PTrue).
Theorem C119_rounding_refuted : ∀ strategy, strategy = "weightedConfidence" ∨ strategy = "aggregateNodes" →
  ∃ E1 E2 dd t e td' r out1 out2 c p1 p2 q,
    same_world E1 E2 ∧ tm_strategy t = strategy ∧ tm_function t = "classification" ∧ new_model E1 dd [] (DTree t) = (Ok e, td') ∧
    (evaluate E1 [] e r).1.1 = Ok (Some out1) ∧ (evaluate E2 [] e r).1.1 = Ok (Some out2) ∧
    out1 !! "play" = Some (GStr c) ∧ out2 !! "play" = Some (GStr c) ∧
    out1 !! probability_of c = Some (GF64 p1) ∧ out2 !! probability_of c = Some (GF64 p2) ∧
    feqb p1 p2 = false ∧ fltb q p1 = true ∧ fltb q p2 = true ∧
    (∀ c' p, c' ≠ c → out1 !! probability_of c' = Some (GF64 p) ∨ out2 !! probability_of c' = Some (GF64 p) → fleb p q = true).
Proof.
  intros st Hst.
  set (out c y n := {["play" := GStr c; "probability(yes)" := GF64 (fl y); "probability(no)" := GF64 (fl n)]} : row).
  assert (∀ c y n c' p, c' ≠ "yes" → c' ≠ "no" → out c y n !! probability_of c' = Some (GF64 p) → False) as Hout.
  { intros c y n c' p Hy Hno. unfold out.
    assert (∀ a, c' ≠ a → probability_of a ≠ probability_of c') as Hinj.
    { intros a Ha Hb. apply Ha. by apply ProofsOutput.prob_key_inj. }
    change "probability(yes)" with (probability_of "yes"). change "probability(no)" with (probability_of "no").
    rewrite !lookup_insert_ne by (by apply Hinj || done). by rewrite lookup_singleton_ne by by apply Hinj. }
  assert (∀ E1 E2 c y1 n1 y2 n2, same_world E1 E2 → is_ok (new_model E1 golf_dd [] (DTree (sums_tree st))).1 = true →
    is_ok (new_model E2 golf_dd [] (DTree (sums_tree st))).1 = true →
    built E1 golf_dd (DTree (sums_tree st)) = built E2 golf_dd (DTree (sums_tree st)) →
    dumped (run E1 golf_dd (DTree (sums_tree st)) (Some ∅)) = Some (Ok (dump (Some (out c y1 n1)))) →
    dumped (run E2 golf_dd (DTree (sums_tree st)) (Some ∅)) = Some (Ok (dump (Some (out c y2 n2)))) →
    ∃ e td', new_model E1 golf_dd [] (DTree (sums_tree st)) = (Ok e, td') ∧
      (evaluate E1 [] e (Some ∅)).1.1 = Ok (Some (out c y1 n1)) ∧ (evaluate E2 [] e (Some ∅)).1.1 = Ok (Some (out c y2 n2))) as Hrun.
  { intros E1 E2 c y1 n1 y2 n2 HE H1 H2 Hbb Ho1 Ho2.
    exists (built E1 golf_dd (DTree (sums_tree st))), (new_model E1 golf_dd [] (DTree (sums_tree st))).2.
    split; [by apply built_ok|]. split; [by apply run_out|]. rewrite Hbb. by apply run_out. }
  assert (same_world go_ext go_ext_rev) as HE by repeat split.
  destruct Hst as [-> | ->].
  - destruct (Hrun go_ext go_ext_rev "no" "0.19999999999999998" "0.8" "0.2" "0.7999999999999999" HE) as (e & td' & H1 & H2 & H3);
      [vm_compute; reflexivity..|].
    exists go_ext, go_ext_rev, golf_dd, (sums_tree "weightedConfidence"), e, td', (Some ∅),
      (out "no" "0.19999999999999998" "0.8"), (out "no" "0.2" "0.7999999999999999"), "no", (fl "0.8"), (fl "0.7999999999999999"), (fl "0.2").
    split; [exact HE|]. split; [done|]. split; [done|]. split; [exact H1|]. split; [exact H2|]. split; [exact H3|].
    clear H1 H2 H3 Hrun. repeat (split; [vm_compute; reflexivity|]). intros c' p Hne H.
    destruct (decide (c' = "yes")) as [->|Hy]; [|by destruct H as [H%Hout|H%Hout]].
    destruct H as [H|H]; vm_compute in H; injection H as <-; vm_compute; reflexivity.
  - destruct (Hrun go_ext go_ext_rev "yes" "0.6666666666666667" "0.33333333333333337" "0.6666666666666666" "0.3333333333333333" HE) as (e & td' & H1 & H2 & H3);
      [vm_compute; reflexivity..|].
    exists go_ext, go_ext_rev, golf_dd, (sums_tree "aggregateNodes"), e, td', (Some ∅),
      (out "yes" "0.6666666666666667" "0.33333333333333337"), (out "yes" "0.6666666666666666" "0.3333333333333333"), "yes",
      (fl "0.6666666666666667"), (fl "0.6666666666666666"), (fl "0.4").
    split; [exact HE|]. split; [done|]. split; [done|]. split; [exact H1|]. split; [exact H2|]. split; [exact H3|].
    clear H1 H2 H3 Hrun. repeat (split; [vm_compute; reflexivity|]). intros c' p Hne H.
    destruct (decide (c' = "no")) as [->|Hy]; [|by destruct H as [H%Hout|H%Hout]].
    destruct H as [H|H]; vm_compute in H; injection H as <-; vm_compute; reflexivity.
Qed.
Print Assumptions C119_rounding_refuted.
