(** Properties C52 - C58 and C60: regression models. *)
From Verif Require Import Base Strconv Value Doc Expr Pred Tree Regression Model Lib GoExt Samples
  ProofsWhole SpecRegr ProofsRegr.

Lemma present_all r ps : forallb (λ p, if dr_get r (np_name p) then true else false) ps = true → Forall (present r) ps.
Proof.
  intros H. apply Forall_forall. intros p Hp. rewrite forallb_forall in H.
  specialize (H p (proj1 (elem_of_list_In _ _) Hp)). unfold present. simpl in H.
  destruct (dr_get r (np_name p)); [by eexists|done].
Qed.

(** *** C52: linear regression *)
Theorem C52_linear_regression : ∀ E dd td m e td' calls tk r t o,
  new_model E dd td (DRegr m) = (Ok e, td') → rm_function m = "regression" →
  rm_tables m = [t] → rm_output m = [o] → Forall (present r) (rt_predictors t) →
  (∀ g, link E (rm_norm m) g →
     (evaluate E tk (after E calls e) r).1 = (Ok (Some {[of_name o := GF64 (g (affine E r t))]}), r)) ∧
  (¬ linked (rm_norm m) →
     (evaluate E tk (after E calls e) r).1 = (Err (ENormalization (rm_norm m)), r)).
Proof.
  intros E dd td m e td' calls tk r t o Hn Hf Ht Ho Hp. rewrite (regr_run _ _ _ _ _ _ calls tk r Hn).
  unfold regr_evaluate. rewrite Hf. simpl. split.
  - intros g Hg. by rewrite (eval_regression_ok E m r t o g).
  - intros Hg. by rewrite (eval_regression_bad E m r t o).
Qed.
Print Assumptions C52_linear_regression.

Theorem C52_one_table_one_output : ∀ E dd td m e td' calls tk r,
  new_model E dd td (DRegr m) = (Ok e, td') → rm_function m = "regression" →
  (length (rm_tables m) ≠ 1 →
     (evaluate E tk (after E calls e) r).1 = (Err (ETableCount (length (rm_tables m))), r)) ∧
  (length (rm_tables m) = 1 → length (rm_output m) ≠ 1 →
     (evaluate E tk (after E calls e) r).1 = (Err (EOutputCount (length (rm_output m))), r)).
Proof.
  intros E dd td m e td' calls tk r Hn Hf. rewrite (regr_run _ _ _ _ _ _ calls tk r Hn).
  unfold regr_evaluate. rewrite Hf. simpl. unfold eval_regression. split.
  - by destruct (rm_tables m) as [|? [|? ?]].
  - destruct (rm_tables m) as [|? [|? ?]]; try done. intros _. by destruct (rm_output m) as [|? [|? ?]].
Qed.
Print Assumptions C52_one_table_one_output.

(** 10 + 2*0.5 + 5*(-2) = 1, cauchit: 0.5 + atan(1)/pi *)
Definition flat_row : datarow := Some {["area" := GF64 (fl "0.5"); "rooms" := GInt KInt (-2)%Z]}.
Definition cauchit_model : regr_model :=
  RegrModel "regression" "cauchit" [] [] (rm_tables lin_model) (rm_output lin_model) None.
Example C52_example :
  Forall (present flat_row) (concat (map rt_predictors (rm_tables cauchit_model))) ∧
  map (affine go_ext flat_row) (rm_tables cauchit_model) = [fl "1"] ∧
  linked (rm_norm cauchit_model) ∧
  dumped (run go_ext price_dd (DRegr cauchit_model) flat_row)
    = Some (Ok (dump (Some {["price" := GF64 (fadd fhalf (fmul finvpi (ext_atan go_ext (fl "1"))))]}))) ∧
  dumped (run go_ext price_dd (DRegr lin_model) flat_row) = Some (Err (ENormalization "none")).
Proof.
  split; [apply present_all; by vm_compute|]. split; [by vm_compute|].
  split; [unfold linked; simpl; set_solver|]. split; by vm_compute.
Qed.

(** *** C53: binary classification outputs are complementary *)
Theorem C53_complementary : ∀ E dd td m e td' calls tk r t1 t2 o1 o2 g,
  new_model E dd td (DRegr m) = (Ok e, td') → rm_function m = "classification" →
  rm_tables m = [t1; t2] → rt_predictors t1 ≠ [] → rt_predictors t2 = [] →
  rm_output m = [o1; o2] ∨ rm_output m = [o2; o1] →
  of_value o1 = rt_category t1 → of_value o2 = rt_category t2 →
  rt_category t1 ≠ rt_category t2 → of_name o1 ≠ of_name o2 →
  Forall (present r) (rt_predictors t1) → link E (rm_norm m) g →
  (evaluate E tk (after E calls e) r).1 =
    (Ok (Some {[of_name o1 := GF64 (share E g r t1); of_name o2 := GF64 (fsub fone (share E g r t1))]}), r).
Proof.
  intros E dd td m e td' calls tk r t1 t2 o1 o2 g Hn Hf Ht Hp1 Hp2 Ho Hv1 Hv2 Hc Hname Hp Hg.
  rewrite (regr_run _ _ _ _ _ _ calls tk r Hn). unfold regr_evaluate. rewrite Hf. simpl.
  assert (length (rm_output m) = 2) as -> by (by destruct Ho as [-> | ->]). simpl. f_equal.
  unfold eval_binary. rewrite Ht. cbn [binary_tables].
  assert (Nat.ltb 0 (length (rt_predictors t1)) = true) as ->.
  { destruct (rt_predictors t1); [done|]. apply Nat.ltb_lt. simpl. lia. }
  rewrite (binary_form_ok E _ g), Hp2 by done. cbn [rbind length Nat.ltb Nat.leb].
  apply String.eqb_neq in Hc as Hc1. rewrite String.eqb_sym in Hc1. apply String.eqb_neq in Hc as Hc2.
  fold (share E g r t1).
  destruct Ho as [-> | ->]; cbn [foldl]; rewrite Hv1, Hv2, !String.eqb_refl, Hc1, Hc2.
  - by rewrite insert_commute.
  - by rewrite insert_commute.
Qed.
Print Assumptions C53_complementary.

Definition yes_row : datarow := Some {["area" := GF64 (fl "0")]}.
Example C53_example :
  linked (rm_norm logit_model) ∧
  Forall (present yes_row) [Predictor "area" (fl "0.25") 1] ∧
  dumped (run go_ext price_dd (DRegr logit_model) yes_row)
    = Some (Ok (dump (Some {["p_yes" := GF64 (fl "1"); "p_no" := GF64 (fl "0")]}))).
Proof.
  split; [unfold linked; simpl; set_solver|]. split; [apply present_all; by vm_compute|by vm_compute].
Qed.

(** *** C54: multiclass classification *)
Theorem C54_softmax : ∀ E dd td m e td' calls tk r,
  new_model E dd td (DRegr m) = (Ok e, td') → rm_function m = "classification" → length (rm_output m) ≠ 2 →
  rm_norm m = "softmax" → Forall (λ t, Forall (present r) (rt_predictors t)) (rm_tables m) →
  ∃ out, (evaluate E tk (after E calls e) r).1 = (Ok (Some out), r) ∧
    written_by (name_of (rm_output m)) (rm_tables m)
      (map (λ t, fdiv (ext_exp E (affine E r t))
                      (foldl (λ s u, fadd s (ext_exp E (affine E r u))) fzero (rm_tables m))) (rm_tables m)) out.
Proof.
  intros E dd td m e td' calls tk r Hn Hf Hl Hm Hp. rewrite (regr_run _ _ _ _ _ _ calls tk r Hn).
  unfold regr_evaluate. rewrite Hf. simpl. apply Nat.eqb_neq in Hl as ->.
  destruct (proj1 (eval_multiclass_ok E m r Hp) Hm) as (out & -> & Hw). by exists out.
Qed.
Print Assumptions C54_softmax.

Theorem C54_simplemax : ∀ E dd td m e td' calls tk r,
  new_model E dd td (DRegr m) = (Ok e, td') → rm_function m = "classification" → length (rm_output m) ≠ 2 →
  rm_norm m = "simplemax" → Forall (λ t, Forall (present r) (rt_predictors t)) (rm_tables m) →
  ∃ out, (evaluate E tk (after E calls e) r).1 = (Ok (Some out), r) ∧
    written_by (name_of (rm_output m)) (rm_tables m)
      (map (λ t, fdiv (affine E r t) (foldl (λ s u, fadd s (affine E r u)) fzero (rm_tables m))) (rm_tables m)) out.
Proof.
  intros E dd td m e td' calls tk r Hn Hf Hl Hm Hp. rewrite (regr_run _ _ _ _ _ _ calls tk r Hn).
  unfold regr_evaluate. rewrite Hf. simpl. apply Nat.eqb_neq in Hl as ->.
  destruct (proj1 (proj2 (eval_multiclass_ok E m r Hp)) Hm) as (out & -> & Hw). by exists out.
Qed.
Print Assumptions C54_simplemax.

Theorem C54_other_normalisation : ∀ E dd td m e td' calls tk r,
  new_model E dd td (DRegr m) = (Ok e, td') → rm_function m = "classification" → length (rm_output m) ≠ 2 →
  rm_norm m ≠ "softmax" → rm_norm m ≠ "simplemax" → rm_tables m ≠ [] →
  Forall (λ t, Forall (present r) (rt_predictors t)) (rm_tables m) →
  (evaluate E tk (after E calls e) r).1 = (Err (ENormalization (rm_norm m)), r).
Proof.
  intros E dd td m e td' calls tk r Hn Hf Hl Hm1 Hm2 Ht Hp. rewrite (regr_run _ _ _ _ _ _ calls tk r Hn).
  unfold regr_evaluate. rewrite Hf. simpl. apply Nat.eqb_neq in Hl as ->.
  by rewrite (proj1 (proj2 (proj2 (eval_multiclass_ok E m r Hp)))).
Qed.
Print Assumptions C54_other_normalisation.

(** three classes, simplemax of 1, 1, 2; the third category has no output field
    and is reported under the empty name *)
Definition three_model (norm : string) : regr_model :=
  RegrModel "classification" norm [] []
    [RegrTable (fl "1") "a" []; RegrTable (fl "0") "b" [Predictor "area" (fl "2") 1]; RegrTable (fl "2") "c" []]
    [OF "p_a" "probability" "a"; OF "p_b" "probability" "b"; OF "p_d" "probability" "d"] None.
Definition half_row : datarow := Some {["area" := GF64 (fl "0.5")]}.
Example C54_example :
  Forall (λ t, Forall (present half_row) (rt_predictors t)) (rm_tables (three_model "simplemax")) ∧
  dumped (run go_ext price_dd (DRegr (three_model "simplemax")) half_row)
    = Some (Ok (dump (Some {["p_a" := GF64 (fl "0.25"); "p_b" := GF64 (fl "0.25"); "" := GF64 (fl "0.5")]}))) ∧
  dumped (run go_ext price_dd (DRegr (three_model "softmax")) half_row)
    = Some (Ok (dump (Some
        (let s := fadd (fadd (fadd fzero (ext_exp go_ext (fl "1"))) (ext_exp go_ext (fl "1"))) (ext_exp go_ext (fl "2")) in
         {["p_a" := GF64 (fdiv (ext_exp go_ext (fl "1")) s); "p_b" := GF64 (fdiv (ext_exp go_ext (fl "1")) s);
           "" := GF64 (fdiv (ext_exp go_ext (fl "2")) s)]})))) ∧
  dumped (run go_ext price_dd (DRegr (three_model "logit")) half_row) = Some (Err (ENormalization "logit")).
Proof.
  split; [repeat (apply Forall_cons_2; [apply present_all; by vm_compute|]); constructor|]. repeat apply conj; by vm_compute.
Qed.

(** *** C55: a missing predictor *)
Theorem C55_missing_predictor : ∀ E dd td m e td' calls tk r t p,
  new_model E dd td (DRegr m) = (Ok e, td') →
  t ∈ rm_tables m → p ∈ rt_predictors t → dr_get r (np_name p) = None →
  ∃ x, (evaluate E tk (after E calls e) r).1 = (Err x, r).
Proof.
  intros E dd td m e td' calls tk r t p Hn Ht Hp Hr. rewrite (regr_run _ _ _ _ _ _ calls tk r Hn).
  destruct (regr_missing E m r t p Ht Hp) as [x ->]; [|by exists x].
  unfold present. rewrite Hr. by intros [? ?].
Qed.
Print Assumptions C55_missing_predictor.

Theorem C55_error_names_it : ∀ E dd td m e td' calls tk r r' x,
  new_model E dd td (DRegr m) = (Ok e, td') →
  (evaluate E tk (after E calls e) r).1 = (Err (EMissingTerm x), r') →
  dr_get r x = None ∧ ∃ t p, t ∈ rm_tables m ∧ p ∈ rt_predictors t ∧ np_name p = x.
Proof.
  intros E dd td m e td' calls tk r r' x Hn. rewrite (regr_run _ _ _ _ _ _ calls tk r Hn). intros [= H _].
  destruct (regr_missing_reported E m r x H) as (t & p & Ht & Hp & <- & Hr). split; [|by exists t, p].
  unfold present in Hr. destruct (dr_get r (np_name p)); [|done]. destruct Hr. by eexists.
Qed.
Print Assumptions C55_error_names_it.

Example C55_example :
  dumped (run go_ext price_dd (DRegr cauchit_model) yes_row) = Some (Err (EMissingTerm "rooms")) ∧
  dumped (run go_ext price_dd (DRegr logit_model) None) = Some (Err (EMissingTerm "area")) ∧
  dumped (run go_ext price_dd (DRegr (three_model "softmax")) (Some ∅)) = Some (Err (EMissingTerm "area")).
Proof. by vm_compute. Qed.

(** *** C56: normalisation none *)
Theorem C56_none_rejected : ∀ E dd td m e td' calls tk r,
  new_model E dd td (DRegr m) = (Ok e, td') → rm_norm m = "none" ∨ rm_norm m = "" →
  Exists (λ t, rt_predictors t ≠ []) (rm_tables m) ∨ rm_function m = "regression" ∨
    (length (rm_output m) ≠ 2 ∧ rm_tables m ≠ []) →
  ∃ x, (evaluate E tk (after E calls e) r).1 = (Err x, r).
Proof.
  intros E dd td m e td' calls tk r Hn Hm Hc. rewrite (regr_run _ _ _ _ _ _ calls tk r Hn).
  assert (¬ linked (rm_norm m)) as Hl.
  { unfold linked. destruct Hm as [-> | ->]; rewrite !elem_of_cons, elem_of_nil; naive_solver. }
  cut (∃ x, regr_evaluate E m r = Err x). { intros [x ->]. by exists x. }
  destruct (tables_present_dec r (rm_tables m)) as [Hp|Hp].
  - unfold regr_evaluate. destruct (String.eqb_spec (rm_function m) "regression") as [Hf|Hf].
    + unfold eval_regression. destruct (rm_tables m) as [|t [|? ?]] eqn:Ht; [by eexists| |by eexists].
      destruct (rm_output m) as [|o [|? ?]] eqn:Ho; [by eexists| |by eexists].
      exists (ENormalization (rm_norm m)). inversion_clear Hp.
      rewrite linear_form_ok by done. cbn [rbind]. by rewrite normalize_unlinked.
    + destruct (_ =s "classification"); simpl; [|by eexists].
      destruct (Nat.eqb_spec (length (rm_output m)) 2) as [H2|H2].
      * destruct Hc as [Hc|[Hc|[Hc _]]]; [|done|done].
        destruct (binary_tables_err E m r fone (rm_tables m) ∅) as (x & Hx & _); [|by exists x].
        right. split; [done|]. intros Hall. apply Exists_exists in Hc as (t & Ht & Hc).
        rewrite Forall_forall in Hall. by apply Hc, Hall.
      * assert (rm_tables m ≠ []) as Hne.
        { destruct Hc as [Hc|[Hc|[_ Hc]]]; [|done|done]. intros H. rewrite H in Hc. by apply Exists_nil in Hc. }
        exists (ENormalization (rm_norm m)).
        apply (proj1 (proj2 (proj2 (eval_multiclass_ok E m r Hp)))); [..|done]; destruct Hm as [-> | ->]; done.
  - assert (∃ t p, t ∈ rm_tables m ∧ p ∈ rt_predictors t ∧ ¬ present r p) as (t & p & Ht & Hpp & Hr).
    { destruct (rmap_linear_missing E r _ Hp) as (t & p & ? & ? & ? & _). by exists t, p. }
    by eapply regr_missing.
Qed.
Print Assumptions C56_none_rejected.

Theorem C56_none_refuted : ∃ E dd m e td' r t o,
  new_model E dd [] (DRegr m) = (Ok e, td') ∧ rm_function m = "regression" ∧ rm_norm m = "none" ∧
  rm_tables m = [t] ∧ rm_output m = [o] ∧ Forall (present r) (rt_predictors t) ∧
  affine E r t = fl "1" ∧ (evaluate E [] e r).1.1 = Err (ENormalization "none").
Proof.
  exists go_ext, price_dd, lin_model, (built go_ext price_dd (DRegr lin_model)), [], flat_row. eexists _, _.
  split; [done|]. split; [done|]. split; [done|]. split; [done|]. split; [done|].
  split; [apply present_all; by vm_compute|]. split; by vm_compute.
Qed.
Print Assumptions C56_none_refuted.

(** *** C57: the procedure is chosen from the document (regression: C52,
    classification with another number of outputs than two: C54) *)
Theorem C57_binary : ∀ E dd td m e td' calls tk r g ps,
  new_model E dd td (DRegr m) = (Ok e, td') → rm_function m = "classification" → length (rm_output m) = 2 →
  Forall (λ t, Forall (present r) (rt_predictors t)) (rm_tables m) → link E (rm_norm m) g →
  shares E g r fone (rm_tables m) ps →
  ∃ out, (evaluate E tk (after E calls e) r).1 = (Ok (Some out), r) ∧
    written_by (names_of (rm_output m)) (rm_tables m) ps out.
Proof.
  intros E dd td m e td' calls tk r g ps Hn Hf Hl Hp Hg Hs. rewrite (regr_run _ _ _ _ _ _ calls tk r Hn).
  unfold regr_evaluate. rewrite Hf, Hl. simpl.
  destruct (binary_tables_ok E m r g fone _ _ ∅ Hg Hp Hs) as (out & Ho & Hw). exists out. split.
  - unfold eval_binary. by rewrite Ho.
  - apply writes_written_by; [apply names_of_dec|by eapply shares_length|done].
Qed.
Print Assumptions C57_binary.

Theorem C57_other_function : ∀ E dd td m e td' calls tk r,
  new_model E dd td (DRegr m) = (Ok e, td') →
  rm_function m ≠ "regression" → rm_function m ≠ "classification" →
  (evaluate E tk (after E calls e) r).1 = (Err (ERegressionFunction (rm_function m)), r).
Proof.
  intros E dd td m e td' calls tk r Hn H1 H2. rewrite (regr_run _ _ _ _ _ _ calls tk r Hn).
  unfold regr_evaluate. by apply String.eqb_neq in H1 as ->; apply String.eqb_neq in H2 as ->.
Qed.
Print Assumptions C57_other_function.

Example C57_example :
  dumped (run go_ext price_dd (DRegr (RegrModel "clustering" "logit" [] [] [] [] None)) yes_row)
    = Some (Err (ERegressionFunction "clustering")) ∧
  ∀ g, shares go_ext g yes_row fone (rm_tables logit_model)
    [fadd (fl "0.5") (g (fl "0")); fsub fone (fadd (fl "0.5") (g (fl "0")))].
Proof.
  split; [by vm_compute|]. intros g. simpl. eapply sh_share; [done|done|].
  apply sh_rest; [done|]. apply sh_nil.
Qed.

(** *** C58: locality *)
Theorem C58_locality : ∀ E dd td m e td' calls1 calls2 tk1 tk2 r1 r2,
  new_model E dd td (DRegr m) = (Ok e, td') →
  (∀ t p, t ∈ rm_tables m → p ∈ rt_predictors t → dr_get r1 (np_name p) = dr_get r2 (np_name p)) →
  (evaluate E tk1 (after E calls1 e) r1).1.1 = (evaluate E tk2 (after E calls2 e) r2).1.1 ∧
  (evaluate E tk1 (after E calls1 e) r1).1.2 = r1.
Proof.
  intros E dd td m e td' calls1 calls2 tk1 tk2 r1 r2 Hn Hr.
  rewrite (regr_run _ _ _ _ _ _ calls1 tk1 r1 Hn), (regr_run _ _ _ _ _ _ calls2 tk2 r2 Hn). split; [|done].
  apply regr_agree; [done..|]. apply Forall2_same_length_lookup_2; [done|]. intros i t u Ht Hu. simplify_eq.
  split; [done|]. split; [done|]. apply Forall2_same_length_lookup_2; [done|]. intros j p q Hp Hq. simplify_eq.
  split; [done|]. split; [done|]. apply (Hr t); by eapply elem_of_list_lookup_2.
Qed.
Print Assumptions C58_locality.

Example C58_example :
  let r1 : datarow := Some {["area" := GF64 (fl "0"); "junk" := GBool true]} in
  dumped (run go_ext price_dd (DRegr logit_model) r1) = dumped (run go_ext price_dd (DRegr logit_model) yes_row) ∧
  dumped (run go_ext price_dd (DRegr logit_model) half_row) ≠ dumped (run go_ext price_dd (DRegr logit_model) yes_row).
Proof. split; by vm_compute. Qed.

(** *** C60: coefficients and exponents *)
Theorem C60_exponent_ignored : ∀ E dd td m1 m2 e1 e2 td1 td2 calls1 calls2 tk1 tk2 r,
  new_model E dd td (DRegr m1) = (Ok e1, td1) → new_model E dd td (DRegr m2) = (Ok e2, td2) →
  regr_up_to same_but_exponent m1 m2 →
  (evaluate E tk1 (after E calls1 e1) r).1 = (evaluate E tk2 (after E calls2 e2) r).1.
Proof.
  intros E dd td m1 m2 e1 e2 td1 td2 calls1 calls2 tk1 tk2 r Hn1 Hn2 (Hf & Hm & Ho & Ht).
  rewrite (regr_run _ _ _ _ _ _ calls1 tk1 r Hn1), (regr_run _ _ _ _ _ _ calls2 tk2 r Hn2). f_equal.
  apply regr_agree; [done..|]. eapply Forall2_impl; [exact Ht|]. intros t u (? & ? & Hp). split; [done|]. split; [done|].
  eapply Forall2_impl; [exact Hp|]. intros p q [-> ->]. done.
Qed.
Print Assumptions C60_exponent_ignored.

Theorem C60_binary_coefficient_ignored : ∀ E dd td m1 m2 e1 e2 td1 td2 calls1 calls2 tk1 tk2 r,
  new_model E dd td (DRegr m1) = (Ok e1, td1) → new_model E dd td (DRegr m2) = (Ok e2, td2) →
  rm_function m1 = "classification" → length (rm_output m1) = 2 →
  regr_up_to same_name m1 m2 →
  (evaluate E tk1 (after E calls1 e1) r).1 = (evaluate E tk2 (after E calls2 e2) r).1.
Proof.
  intros E dd td m1 m2 e1 e2 td1 td2 calls1 calls2 tk1 tk2 r Hn1 Hn2 Hc Hl (Hf & Hm & Ho & Ht).
  rewrite (regr_run _ _ _ _ _ _ calls1 tk1 r Hn1), (regr_run _ _ _ _ _ _ calls2 tk2 r Hn2). f_equal.
  unfold regr_evaluate. rewrite <- Hf, <- Ho, Hc, Hl. simpl. unfold eval_binary.
  apply binary_tables_agree; [done..|]. eapply Forall2_impl; [exact Ht|]. intros t u (? & ? & Hp). split; [done|]. split; [done|].
  eapply Forall2_impl; [exact Hp|]. intros p q Hpq. by rewrite Hpq.
Qed.
Print Assumptions C60_binary_coefficient_ignored.

Definition with_predictors (f : predictor → predictor) (m : regr_model) : regr_model :=
  RegrModel (rm_function m) (rm_norm m) (rm_lt m) (rm_schema m)
    (map (λ t, RegrTable (rt_intercept t) (rt_category t) (map f (rt_predictors t))) (rm_tables m))
    (rm_output m) (rm_verification m).
Theorem C60_coefficient_refuted : ∃ E dd m r c out,
  rm_function m = "classification" ∧ rm_norm m = "logit" ∧
  let m0 := with_predictors (λ p, Predictor (np_name p) c (np_exponent p)) m in
  map (affine E r) (rm_tables m) ≠ map (affine E r) (rm_tables m0) ∧
  (∃ e td', new_model E dd [] (DRegr m) = (Ok e, td') ∧ (evaluate E [] e r).1.1 = Ok out) ∧
  (∃ e td', new_model E dd [] (DRegr m0) = (Ok e, td') ∧ (evaluate E [] e r).1.1 = Ok out).
Proof.
  exists go_ext, price_dd, logit_model, (Some {["area" := GF64 (fl "1")]}), (fl "-3").
  exists (match dumped (run go_ext price_dd (DRegr logit_model) (Some {["area" := GF64 (fl "1")]})) with
          | Some (Ok (Some l)) => Some (list_to_map l) | _ => None end).
  split; [done|]. split; [done|]. split; [by vm_compute|]. split.
  - exists (built go_ext price_dd (DRegr logit_model)), []. split; [done|]. apply run_out; by vm_compute.
  - exists (built go_ext price_dd (DRegr (with_predictors (λ p, Predictor (np_name p) (fl "-3") (np_exponent p)) logit_model))), [].
    split; [done|]. apply run_out; by vm_compute.
Qed.
Print Assumptions C60_coefficient_refuted.

Theorem C60_exponent_refuted : ∃ E dd m r n out,
  rm_function m = "regression" ∧ rm_norm m = "exp" ∧
  let m0 := with_predictors (λ p, Predictor (np_name p) (np_coeff p) n) m in
  map (λ t, map np_exponent (rt_predictors t)) (rm_tables m) = [[1%Z]] ∧ n = 2%Z ∧
  dr_get r "area" = Some (GF64 (fl "3")) ∧
  (∃ e td', new_model E dd [] (DRegr m) = (Ok e, td') ∧ (evaluate E [] e r).1.1 = Ok out) ∧
  (∃ e td', new_model E dd [] (DRegr m0) = (Ok e, td') ∧ (evaluate E [] e r).1.1 = Ok out).
Proof.
  set (m := RegrModel "regression" "exp" [] [] [RegrTable (fl "0") "" [Predictor "area" (fl "1") 1]] [OF "y" "" ""] None).
  set (r := Some {["area" := GF64 (fl "3")]} : datarow).
  exists go_ext, price_dd, m, r, 2%Z.
  exists (match dumped (run go_ext price_dd (DRegr m) r) with
          | Some (Ok (Some l)) => Some (list_to_map l) | _ => None end).
  split; [done|]. split; [done|]. split; [done|]. split; [done|]. split; [by vm_compute|]. split.
  - exists (built go_ext price_dd (DRegr m)), []. split; [done|]. apply run_out; by vm_compute.
  - exists (built go_ext price_dd (DRegr (with_predictors (λ p, Predictor (np_name p) (np_coeff p) 2) m))), [].
    split; [done|]. apply run_out; by vm_compute.
Qed.
Print Assumptions C60_exponent_refuted.
