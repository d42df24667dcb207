(** Property C125 under weightedConfidence. *)
From Coq Require Import Reals Lra.
From Flocq Require Import Core.Core IEEE754.BinarySingleNaN Relative.
From Verif Require Import Base Strconv Value Doc Expr Pred Tree Regression Model Lib FloatLib SpecPred ProofsPred
  SpecExpr ProofsExpr SpecConstruct ProofsConstruct SpecTree ProofsTree ProofsOutput ProofsEval ProofsDoc
  ProofsSafe ProofsWhole ProofsClass ProofsAnswer SpecModel ProofsMining SpecRegr ProofsRegr ProofsValue ProofsSim ProofsHistory GoExt Samples RealLib
  AccLib ForestLib PropertiesTree PropertiesModel PropertiesRegr PropertiesSegments PropertiesAccuracy PropertiesForest PropertiesForestSum ProofsForestWeighted.
Local Open Scope R_scope.

(** The errors of such trees are small. *)
Lemma pow_u_le m : INR m * unit_roundoff <= / 2 → (1 + unit_roundoff) ^ m <= 1 + 2 * (INR m * unit_roundoff).
Proof.
  pose proof unit_pos as Hu. set (u := unit_roundoff) in *. clearbody u.
  induction m as [|m IH]; intros Hm; [simpl; lra|]. rewrite S_INR in Hm |- *. cbn [Rpow_def.pow].
  assert (0 <= INR m) as Hp by apply pos_INR. specialize (IH ltac:(nra)). set (q := (1 + u) ^ m) in *. set (x := INR m) in *. clearbody q x.
  assert ((1 + u) * q <= (1 + u) * (1 + 2 * (x * u))) by (apply Rmult_le_compat_l; lra). nra.
Qed.
Lemma depth_error_small n k d : (Z.of_nat ((n + 2) * d + 1) <= 2 ^ 50)%Z → (Z.of_nat (d * k * n) <= 2 ^ 50)%Z →
  depth_error n k d <= / 2.
Proof.
  intros H1 H2. unfold depth_error. apply IZR_le in H1, H2. rewrite <- INR_IZR_INZ in H1, H2.
  pose proof unit_pos as Hu. pose proof tiny_pos as Ht.
  assert (unit_roundoff * IZR (2 ^ 50) = / 8) as E1.
  { unfold unit_roundoff. change (IZR (2 ^ 50)) with (bpow radix2 50). rewrite Rmult_assoc, <- bpow_plus. change (bpow radix2 (-52 + 50)) with (/ 4). lra. }
  assert (tiny <= unit_roundoff) as E2.
  { unfold tiny, unit_roundoff. apply Rmult_le_compat_l; [lra|]. apply bpow_le. lia. }
  set (M := IZR (2 ^ 50)) in *. set (m := ((n + 2) * d + 1)%nat) in *.
  assert (INR m * unit_roundoff <= / 8) as Hm.
  { rewrite <- E1, (Rmult_comm unit_roundoff). apply Rmult_le_compat_r; lra. }
  pose proof (pow_u_le m ltac:(lra)) as Hp. pose proof (pow_u_ge1 m) as Hg.
  assert (0 <= INR (d * k * n) * tiny <= / 8) as Hk.
  { split; [apply Rmult_le_pos; [apply pos_INR|lra]|]. rewrite <- E1, (Rmult_comm unit_roundoff).
    apply Rmult_le_compat; [apply pos_INR|lra|done|done]. }
  set (a := (1 + unit_roundoff) ^ m) in *. set (b := INR (d * k * n) * tiny) in *. clearbody a b. nra.
Qed.

(** *** C125, weightedConfidence.  In trees with at most [n] children per node and [d]
    levels below the root every level adds its own roundings of the weights, the
    products and their sums. *)
Theorem C125_weighted_partial : ∀ E dd td t e td' calls tk r out cs n,
  new_model E dd td (DTree t) = (Ok e, td') → weighed_tree n t → classes_in cs t → NoDup cs →
  (Z.of_nat ((n + 2) * levels (tm_node t) + 1) <= 2 ^ 50)%Z → (Z.of_nat (levels (tm_node t) * length cs * n) <= 2 ^ 50)%Z →
  (evaluate E tk (after E calls e) r).1.1 = Ok (Some out) →
  Rabs (rsum (map (probability_of out) cs) - 1) <=
    (1 + unit_roundoff) ^ ((n + 2) * levels (tm_node t) + 1) * (1 + INR (levels (tm_node t) * length cs * n) * tiny) - 1.
Proof.
  intros E dd td t e td' calls tk r out cs n Hn (Hf & Hst & Hnt & Hp & Hc & Hmax & Hw) Hcl Hcs Hsm1 Hsm2 He.
  change (Rabs (rsum (map (probability_of out) cs) - 1) <= depth_error n (length cs) (levels (tm_node t))).
  destruct (ok_input _ _ _ _ _ _ _ _ _ _ Hn He) as [r' Hi].
  assert (everywhere_doc (λ m, NoDup (m_id <$> m_nodes m)) (tm_node t)) as Hid.
  { revert Hw. apply everywhere_in_mono. intros m (_ & ? & _). done. }
  destruct (C19_weighted_confidence E dd td t e td' calls tk r r' Hn Hst Hp Hid Hi) as (x & Hx & H2).
  rewrite H2 in He. unfold final in He. cbn [fst] in He. destruct (x.2) eqn:Hx2; try done.
  assert (everywhere_doc (few cs) (tm_node t)) as Hfew.
  { apply (few_everywhere cs (TreeModel "classification" "none" fone "" [] [] None (tm_node t))); [|exact Hcl].
    split; [done|]. split; [cbn; set_solver|]. done. }
  pose proof (weighted_answer_near cs n dd t _ Hcs Hnt _ _ Hx (everywhere_in_and _ _ _ _ Hfew Hw) (depth_error_small _ _ _ Hsm1 Hsm2)
    ltac:(by rewrite Hx2)) as (H3 & H4 & H5 & H6).
  unfold reported, report in He. rewrite decide_True in He by done. injection He as <-. by rewrite row_sum.
Qed.
Print Assumptions C125_weighted_partial.

(** humidity missing: 10/14 of (8/10, 2/10) and 4/14 of (1/4, 3/4) *)
Example C125_weighted_example :
  weighed_tree 2 (two_leaves "weightedConfidence") ∧ classes_in ["yes"; "no"] (two_leaves "weightedConfidence") ∧
  levels (tm_node (two_leaves "weightedConfidence")) = 1%nat ∧
  dumped (run go_ext golf_dd (DTree (two_leaves "weightedConfidence")) (Some ∅)) =
    dumped (Some (golf_out "yes" "0.6428571428571429" "0.35714285714285715", None)).
Proof.
  destruct (two_leaves_counting "none") as [(_ & _ & H1 & H2 & H3) H4]; [set_solver|].
  split; [|split; [exact H4|split; [done|by vm_compute]]].
  split; [done|]. split; [done|]. split; [done|]. split; [exact H1|]. split; [exact H2|]. split; [exact H3|].
  assert (whole (fl "10") 10 ∧ whole (fl "4") 4) as [W1 W2].
  { split; [replace (fl "10") with (f64_of_Z 10) by by vm_compute|replace (fl "4") with (f64_of_Z 4) by by vm_compute]; apply whole_of_Z; lia. }
  unfold two_leaves. cbn [tm_node]. constructor; cbn [m_nodes].
  - split; [done|]. split; [apply (bool_decide_unpack _); by vm_compute|]. cbn [m_nodes]. split.
    + apply Forall_cons_2; [by exists 10%Z|]. apply Forall_cons_2; [by exists 4%Z|]. apply Forall_nil_2.
    + rewrite !fmap_cons. cbn [m_count]. destruct W1 as (_ & _ & W1 & _), W2 as (_ & _ & W2 & _). unfold real_sum, rsum. cbn [map foldr].
      change (list_fmap mnode f64 m_count []) with (@nil f64). cbn [map foldr]. rewrite W1, W2, Rplus_0_r, <- plus_IZR. apply IZR_le. lia.
  - repeat (apply Forall_cons_2 || apply Forall_nil_2); (constructor; [|apply Forall_nil_2]); (split; [cbn; lia|]);
      (split; [apply NoDup_nil_2|]); (split; [apply Forall_nil_2|]); unfold real_sum, rsum; simpl; apply IZR_le; lia.
Qed.

(** Children with one id: the counts of both, the scores of one. *)
Theorem C125_same_ids_refuted : ∃ E dd t e td' r out a b,
  new_model E dd [] (DTree t) = (Ok e, td') ∧ tm_function t = "classification" ∧ tm_strategy t = "weightedConfidence" ∧
  (evaluate E [] e r).1.1 = Ok (Some out) ∧
  out !! "probability(yes)" = Some (GF64 a) ∧ out !! "probability(no)" = Some (GF64 b) ∧ fadd a b = fl "0.25".
Proof.
  pose (t := TreeModel "classification" "weightedConfidence" fone "returnLastPrediction" [] [MF "humidity" "active"; MF "play" "target"] None
    (MNode "1" "" "yes" (fl "16") [SD "yes" "9"; SD "no" "7"]
       [MNode "2" "" "yes" (fl "12") [SD "yes" "8"; SD "no" "4"] [] (SP "humidity" "lessOrEqual" "75");
        MNode "2" "" "no" (fl "4") [SD "yes" "1"; SD "no" "3"] [] (SP "humidity" "greaterThan" "75")] PTrue)).
  exists go_ext, golf_dd, t, (built go_ext golf_dd (DTree t)), (new_model go_ext golf_dd [] (DTree t)).2, (Some ∅).
  exists (class_row "play" [Score "yes" fzero (fl "0.0625") fzero; Score "no" fzero (fl "0.1875") fzero]), (fl "0.0625"), (fl "0.1875").
  split; [apply built_ok; by vm_compute|]. split; [done|]. split; [done|].
  split; [apply run_out; by vm_compute|]. split; [by vm_compute|]. split; by vm_compute.
Qed.
Print Assumptions C125_same_ids_refuted.

(** A true child without scores, because noTrueChildStrategy is returnNullPrediction,
    keeps its weight. *)
Theorem C125_empty_child_refuted : ∃ E dd t e td' r out a b,
  new_model E dd [] (DTree t) = (Ok e, td') ∧ tm_function t = "classification" ∧ tm_strategy t = "weightedConfidence" ∧
  (evaluate E [] e r).1.1 = Ok (Some out) ∧
  out !! "probability(yes)" = Some (GF64 a) ∧ out !! "probability(no)" = Some (GF64 b) ∧ fadd a b = fl "0.75".
Proof.
  pose (t := TreeModel "classification" "weightedConfidence" fone "returnNullPrediction" [] [MF "humidity" "active"; MF "play" "target"] None
    (MNode "1" "" "yes" (fl "16") [SD "yes" "9"; SD "no" "7"]
       [MNode "2" "" "yes" (fl "12") [SD "yes" "9"; SD "no" "3"] [] (SP "humidity" "lessOrEqual" "75");
        MNode "3" "" "no" (fl "4") [SD "yes" "1"; SD "no" "3"]
          [MNode "4" "" "no" (fl "4") [SD "yes" "1"; SD "no" "3"] [] PFalse] PTrue] PTrue)).
  exists go_ext, golf_dd, t, (built go_ext golf_dd (DTree t)), (new_model go_ext golf_dd [] (DTree t)).2, (Some ∅).
  exists (class_row "play" [Score "yes" fzero (fl "0.5625") fzero; Score "no" fzero (fl "0.1875") fzero]), (fl "0.5625"), (fl "0.1875").
  split; [apply built_ok; by vm_compute|]. split; [done|]. split; [done|].
  split; [apply run_out; by vm_compute|]. split; [by vm_compute|]. split; by vm_compute.
Qed.
Print Assumptions C125_empty_child_refuted.
