(** Property C140: the units of the inputs of a regression model. *)
From Coq Require Import Reals Lra.
From Flocq Require Import Core.Core IEEE754.BinarySingleNaN.
From Verif Require Import Base Strconv Value Doc Expr Pred Tree Regression Model Lib FloatLib RealLib SpecConstruct ProofsWhole ProofsSim
  GoExt Samples PropertiesEquiv SpecUnits ProofsUnits.
Local Open Scope R_scope.

(** *** C140.  When inputs are given in other units and the coefficients are converted with
    them, regressions and classifications with other than two outputs answer bit by bit the
    same, if the conversions are exact. *)
Theorem C140_units : ∀ E dd1 dd2 td1 td2 u m1 m2 e1 e2 td1' td2' calls1 calls2 tk1 tk2 r1 r2,
  (∀ f, u f ≠ 0) → model_converts u m1 m2 → row_converts E u r1 r2 →
  rm_function m1 ≠ "classification" ∨ length (rm_output m1) ≠ 2%nat →
  new_model E dd1 td1 (DRegr m1) = (Ok e1, td1') → new_model E dd2 td2 (DRegr m2) = (Ok e2, td2') →
  (evaluate E tk1 (after E calls1 e1) r1).1.1 = (evaluate E tk2 (after E calls2 e2) r2).1.1.
Proof.
  intros E dd1 dd2 td1 td2 u m1 m2 e1 e2 td1' td2' calls1 calls2 tk1 tk2 r1 r2 Hu Hm Hr Hb H1 H2.
  rewrite (history_independent _ _ _ _ _ _ _ _ _ H1), (history_independent _ _ _ _ _ _ _ _ _ H2).
  cbn [new_model] in H1, H2. injection H1 as <- _. injection H2 as <- _. cbn [evaluate fst er_model].
  by eapply regression_same.
Qed.
Print Assumptions C140_units.

(** kilograms and grams, and a scale that runs backwards *)
Definition whole_times (k : Z) (x y : f64) : bool :=
  match x, y with
  | S754_finite s m e, S754_finite s' m' e' =>
      let e0 := Z.min e e' in
      Bool.eqb s' (xorb (k <? 0)%Z s) && (Zpos m' * 2 ^ (e' - e0) =? Z.abs k * (Zpos m * 2 ^ (e - e0)))%Z &&
      valid_binary 53 1024 x && valid_binary 53 1024 y
  | _, _ => false
  end.
Lemma turned_whole k b : turned (IZR k) b = xorb (k <? 0)%Z b.
Proof.
  unfold turned. destruct (Rlt_dec (IZR k) 0) as [H|H], (Z.ltb_spec k 0) as [Hk|Hk]; try by destruct b.
  - apply lt_IZR in H. lia.
  - destruct H. by apply IZR_lt.
Qed.
Lemma turned_inv s b : turned (/ s) b = turned s b.
Proof.
  unfold turned. destruct (Rlt_dec (/ s) 0) as [H|H], (Rlt_dec s 0) as [H2|H2]; try done.
  - destruct H2. apply Rinv_lt_0_compat in H. by rewrite Rinv_inv in H.
  - destruct H. by apply Rinv_lt_0_compat.
Qed.
Lemma whole_times_R k x y : whole_times k x y = true → converts (IZR k) x y.
Proof.
  intros H. right. revert H. destruct x as [| | |s m e], y as [| | |s' m' e']; try done. cbn [whole_times].
  rewrite !andb_true_iff, Z.eqb_eq. intros [[[Hs Hm] Vx] Vy]. apply Bool.eqb_prop in Hs.
  split; [done|]. split; [done|]. split; [done|]. split; [done|]. split; [by rewrite turned_whole|].
  cbn [SF2R]. rewrite (F2R_change_exp radix2 (Z.min e e') (cond_Zopp s' (Zpos m')) e') by lia.
  rewrite (F2R_change_exp radix2 (Z.min e e') (cond_Zopp s (Zpos m)) e) by lia.
  unfold F2R. cbn [Fnum Fexp]. rewrite <- Rmult_assoc, <- mult_IZR. f_equal. f_equal. simpl radix_val.
  assert (∀ b p q, cond_Zopp b (Zpos p) * q = cond_Zopp b (Zpos p * q))%Z as Hc.
  { intros [] p q; cbn [cond_Zopp]; [|done]. lia. }
  rewrite !Hc, Hm, Hs. destruct (Z.ltb_spec k 0); destruct s; cbn [xorb negb cond_Zopp]; [rewrite Z.abs_neq by lia|rewrite Z.abs_neq by lia|rewrite Z.abs_eq by lia|rewrite Z.abs_eq by lia]; lia.
Qed.
Lemma whole_part k x y : (k ≠ 0)%Z → whole_times k x y = true → converts (/ IZR k) y x.
Proof.
  intros Hk H. assert (IZR k ≠ 0) as Hk' by by apply not_0_IZR. pose proof H as Hs.
  apply whole_times_R in H as [[Hk1 ->]|(V1 & V2 & F1 & F2 & S & HR)].
  - left. split; [|done]. rewrite Hk1. lra.
  - right. split; [done|]. split; [done|]. split; [done|]. split; [done|]. split.
    + rewrite turned_inv, S. unfold turned. destruct (Rlt_dec _ _); [by rewrite negb_involutive|done].
    + rewrite HR. by field.
Qed.

Definition weighed (c : string) : regr_model :=
  RegrModel "regression" "exp" [] [] [RegrTable (fl "-749") "" [Predictor "weight" (fl c) 1; Predictor "rooms" (fl "-0.5") 1]] [OF "y" "" ""] None.
Definition scales : string → R := λ f, if decide (f = "weight") then 1000 else 1.
Definition weights (v : gov) : datarow := Some {["weight" := v; "rooms" := GInt KInt 2%Z]}.
Example C140_example :
  (∀ f, scales f ≠ 0) ∧ model_converts scales (weighed "250") (weighed "0.25") ∧
  row_converts go_ext scales (weights (GF64 (fl "3"))) (weights (GInt KInt 3000%Z)) ∧
  dumped (run go_ext price_dd (DRegr (weighed "250")) (weights (GF64 (fl "3")))) = Some (Ok (Some [("y", GF64 fone)])) ∧
  dumped (run go_ext price_dd (DRegr (weighed "0.25")) (weights (GInt KInt 3000%Z))) = Some (Ok (Some [("y", GF64 fone)])).
Proof.
  split; [|split; [|split; [|split; by vm_compute]]].
  - intros f. unfold scales. destruct (decide _); lra.
  - split; [done|]. split; [done|]. split; [done|]. constructor; [|constructor]. split; [done|]. split; [done|].
    constructor; [|constructor; [|constructor]].
    + split; [done|]. change (scales (np_name _)) with 1000. apply (whole_part 1000); [done|by vm_compute].
    + split; [done|]. left. split; [|done]. change (/ 1 = 1). lra.
  - intros f. unfold weights, dr_get.
    destruct (decide (f = "weight")) as [->|Hw].
    { rewrite !lookup_insert. change (scales "weight") with 1000. apply (whole_times_R 1000). by vm_compute. }
    rewrite !lookup_insert_ne by done. destruct (decide (f = "rooms")) as [->|Hr].
    { rewrite !lookup_singleton. left. split; [|done]. done. }
    by rewrite !lookup_singleton_ne.
Qed.

(** losses instead of gains: the factor is -1 *)
Definition turned_scale : string → R := λ f, if decide (f = "weight") then -1 else 1.
Example C140_backwards :
  (∀ f, turned_scale f ≠ 0) ∧ model_converts turned_scale (weighed "250") (weighed "-250") ∧
  row_converts go_ext turned_scale (weights (GF64 (fl "3"))) (weights (GInt KInt (-3)%Z)) ∧
  dumped (run go_ext price_dd (DRegr (weighed "-250")) (weights (GInt KInt (-3)%Z))) = Some (Ok (Some [("y", GF64 fone)])).
Proof.
  split; [|split; [|split; [|by vm_compute]]].
  - intros f. unfold turned_scale. destruct (decide _); lra.
  - split; [done|]. split; [done|]. split; [done|]. constructor; [|constructor]. split; [done|]. split; [done|].
    constructor; [|constructor; [|constructor]].
    + split; [done|]. change (turned_scale (np_name _)) with (IZR (-1)). apply whole_part; [done|by vm_compute].
    + split; [done|]. left. split; [|done]. change (/ 1 = 1). lra.
  - intros f. unfold weights, dr_get.
    destruct (decide (f = "weight")) as [->|Hw].
    { rewrite !lookup_insert. change (turned_scale "weight") with (IZR (-1)). apply whole_times_R. by vm_compute. }
    rewrite !lookup_insert_ne by done. destruct (decide (f = "rooms")) as [->|Hr].
    { rewrite !lookup_singleton. left. split; [|done]. done. }
    by rewrite !lookup_singleton_ne.
Qed.

(** Classifications with two outputs add up the inputs without their coefficients (C60), so
    they are not the same in other units. *)
Theorem C140_two_outputs : ∃ E dd u m1 m2 r1 r2 e1 e2 td1 td2,
  (∀ f, u f ≠ 0) ∧ model_converts u m1 m2 ∧ row_converts E u r1 r2 ∧ length (rm_output m1) = 2%nat ∧
  new_model E dd [] (DRegr m1) = (Ok e1, td1) ∧ new_model E dd [] (DRegr m2) = (Ok e2, td2) ∧
  (evaluate E [] e1 r1).1.1 ≠ (evaluate E [] e2 r2).1.1.
Proof.
  pose (m c := RegrModel "classification" "logit" [] []
    [RegrTable (fl "0.5") "yes" [Predictor "weight" (fl c) 1]; RegrTable (fl "0") "no" []] [OF "p" "" "yes"; OF "q" "" "no"] None).
  pose (r v := Some {["weight" := GF64 (fl v)]} : datarow).
  exists go_ext, price_dd, scales, (m "250"), (m "0.25"), (r "0.5"), (r "500"), (ERegr (ERegr_ (m "250"))), (ERegr (ERegr_ (m "0.25"))), [], [].
  split; [by apply C140_example|]. split.
  { split; [done|]. split; [done|]. split; [done|]. constructor; [|constructor; [|constructor]]; (split; [done|]; split; [done|]); constructor; [|constructor].
    split; [done|]. change (scales (np_name _)) with 1000. apply (whole_part 1000); [done|by vm_compute]. }
  split.
  { intros f. unfold r, dr_get. destruct (decide (f = "weight")) as [->|Hw].
    - rewrite !lookup_singleton. change (scales "weight") with 1000. apply (whole_times_R 1000). by vm_compute.
    - by rewrite !lookup_singleton_ne. }
  split; [done|]. split; [done|]. split; [done|].
  assert (dumped (Some (evaluate go_ext [] (ERegr (ERegr_ (m "250"))) (r "0.5")).1) ≠
          dumped (Some (evaluate go_ext [] (ERegr (ERegr_ (m "0.25"))) (r "500")).1)) as Hne by by vm_compute.
  intros Heq. apply Hne. cbn [evaluate fst] in *. by rewrite Heq.
Qed.
Print Assumptions C140_two_outputs.
