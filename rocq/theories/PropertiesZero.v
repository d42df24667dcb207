(** Property C141: predictors with coefficient zero. *)
From Coq Require Import Reals.
From Flocq Require Import Core.Core IEEE754.BinarySingleNaN.
From Verif Require Import Base Strconv Value Doc Expr Pred Tree Regression Model Lib FloatLib RealLib SpecConstruct ProofsWhole ProofsSim
  GoExt Samples PropertiesEquiv SpecZero ProofsZero.

(** *** C141.  Predictors with coefficient zero can be left out for every row that has a
    finite number for them.  Numbers are float64, and no intercept is the negative zero. *)
Theorem C141_left_out : ∀ E dd1 dd2 td1 td2 m1 m2 e1 e2 td1' td2' calls1 calls2 tk1 tk2 r,
  model_without (weightless E r) m1 m2 →
  Forall (λ t, valid (rt_intercept t) ∧ rt_intercept t ≠ S754_zero true ∧ Forall (λ p, valid (np_coeff p)) (rt_predictors t)) (rm_tables m1) →
  (∀ f v, dr_get r f = Some v → valid (val_float64 E v)) →
  rm_function m1 ≠ "classification" ∨ length (rm_output m1) ≠ 2%nat →
  new_model E dd1 td1 (DRegr m1) = (Ok e1, td1') → new_model E dd2 td2 (DRegr m2) = (Ok e2, td2') →
  (evaluate E tk1 (after E calls1 e1) r).1 = (evaluate E tk2 (after E calls2 e2) r).1.
Proof.
  intros E dd1 dd2 td1 td2 m1 m2 e1 e2 td1' td2' calls1 calls2 tk1 tk2 r Hm Hv Hr Hb H1 H2.
  rewrite (history_independent _ _ _ _ _ _ _ _ _ H1), (history_independent _ _ _ _ _ _ _ _ _ H2).
  cbn [new_model] in H1, H2. injection H1 as <- _. injection H2 as <- _. cbn [evaluate fst er_model].
  f_equal. by apply regression_without.
Qed.
Print Assumptions C141_left_out.

Definition idle (c : string) : regr_model :=
  RegrModel "regression" "exp" [] [] [RegrTable (fl "-0.5") "" [Predictor "rooms" (fl c) 1; Predictor "area" (fl "0.25") 1]] [OF "y" "" ""] None.
Definition unidle : regr_model :=
  RegrModel "regression" "exp" [] [] [RegrTable (fl "-0.5") "" [Predictor "area" (fl "0.25") 1]] [OF "y" "" ""] None.
Definition flat (v : gov) : datarow := Some {["rooms" := v; "area" := GInt KInt 2%Z]}.
Example C141_example :
  model_without (weightless go_ext (flat (GF64 (fl "-7")))) (idle "0") unidle ∧
  Forall (λ t, valid (rt_intercept t) ∧ rt_intercept t ≠ S754_zero true ∧ Forall (λ p, valid (np_coeff p)) (rt_predictors t)) (rm_tables (idle "0")) ∧
  (∀ f v, dr_get (flat (GF64 (fl "-7"))) f = Some v → valid (val_float64 go_ext v)) ∧
  dumped (run go_ext price_dd (DRegr (idle "0")) (flat (GF64 (fl "-7")))) = Some (Ok (Some [("y", GF64 (fl "1"))])).
Proof.
  split; [|split; [|split; [|by vm_compute]]].
  - split; [done|]. split; [done|]. split; [done|]. constructor; [|constructor]. split; [done|]. split; [done|].
    apply without_drop; [|apply without_keep, without_nil]. split; [by exists false|]. exists (GF64 (fl "-7")). split; [done|by vm_compute].
  - apply Forall_cons_2; [|apply Forall_nil_2]. cbn [rt_intercept rt_predictors]. split; [by vm_compute|]. split; [by vm_compute|].
    apply Forall_cons_2; [by vm_compute|]. apply Forall_cons_2; [by vm_compute|]. apply Forall_nil_2.
  - intros f v. unfold dr_get, flat. destruct (decide (f = "rooms")) as [->|]; [rewrite lookup_insert; intros [= <-]; by vm_compute|].
    rewrite lookup_insert_ne by done. intros [<- <-]%lookup_singleton_Some. by vm_compute.
Qed.

(** The field must be there, though. *)
Theorem C141_must_be_there : ∃ E dd e1 e2 td1 td2 r,
  new_model E dd [] (DRegr (idle "0")) = (Ok e1, td1) ∧ new_model E dd [] (DRegr unidle) = (Ok e2, td2) ∧
  dr_get r "rooms" = None ∧ (∃ x, (evaluate E [] e1 r).1.1 = Err x) ∧
  (evaluate E [] e2 r).1.1 = Ok (Some {["y" := GF64 (fl "1")]}).
Proof.
  exists go_ext, price_dd, (built go_ext price_dd (DRegr (idle "0"))), (built go_ext price_dd (DRegr unidle)), [], [], (Some {["area" := GInt KInt 2%Z]}).
  split; [by vm_compute|]. split; [by vm_compute|]. split; [done|]. split; [eexists; by vm_compute|].
  apply run_out; by vm_compute.
Qed.
Print Assumptions C141_must_be_there.

(** And it must be finite: the infinity makes NaN. *)
Theorem C141_must_be_finite : ∃ E dd e1 e2 td1 td2 r,
  new_model E dd [] (DRegr (idle "0")) = (Ok e1, td1) ∧ new_model E dd [] (DRegr unidle) = (Ok e2, td2) ∧
  dr_get r "rooms" = Some (GF64 (S754_infinity false)) ∧
  (evaluate E [] e1 r).1.1 = Ok (Some {["y" := GF64 S754_nan]}) ∧
  (evaluate E [] e2 r).1.1 = Ok (Some {["y" := GF64 (fl "1")]}).
Proof.
  exists go_ext, price_dd, (built go_ext price_dd (DRegr (idle "0"))), (built go_ext price_dd (DRegr unidle)), [], [], (flat (GF64 (S754_infinity false))).
  split; [by vm_compute|]. split; [by vm_compute|]. split; [done|]. split; apply run_out; by vm_compute.
Qed.
Print Assumptions C141_must_be_finite.

(** Classifications with two outputs add the input up whatever its coefficient is (C60). *)
Theorem C141_two_outputs : ∃ E dd m1 m2 r e1 e2 td1 td2,
  model_without (weightless E r) m1 m2 ∧ length (rm_output m1) = 2%nat ∧
  new_model E dd [] (DRegr m1) = (Ok e1, td1) ∧ new_model E dd [] (DRegr m2) = (Ok e2, td2) ∧
  (evaluate E [] e1 r).1.1 ≠ (evaluate E [] e2 r).1.1.
Proof.
  pose (m ps := RegrModel "classification" "logit" [] []
    [RegrTable (fl "0.5") "yes" ps; RegrTable (fl "0") "no" []] [OF "p" "" "yes"; OF "q" "" "no"] None).
  pose (ps := [Predictor "rooms" (fl "0") 1]).
  exists go_ext, price_dd, (m ps), (m []), (flat (GF64 (fl "-7"))), (ERegr (ERegr_ (m ps))), (ERegr (ERegr_ (m []))), [], [].
  split.
  { split; [done|]. split; [done|]. split; [done|].
    constructor; [|constructor; [|constructor]]; (split; [done|]; split; [done|]); [|apply without_nil].
    apply without_drop; [|apply without_nil]. split; [by exists false|]. exists (GF64 (fl "-7")). split; [done|by vm_compute]. }
  split; [done|]. split; [done|]. split; [done|].
  assert (dumped (Some (evaluate go_ext [] (ERegr (ERegr_ (m ps))) (flat (GF64 (fl "-7")))).1) ≠
          dumped (Some (evaluate go_ext [] (ERegr (ERegr_ (m []))) (flat (GF64 (fl "-7")))).1)) as Hne by by vm_compute.
  intros Heq. apply Hne. cbn [evaluate fst] in *. by rewrite Heq.
Qed.
Print Assumptions C141_two_outputs.
