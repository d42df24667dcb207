(** Property C117: tests against decimal literals are tests of the decimals. *)
From Coq Require Import Reals Lra.
From Flocq Require Import Core.Core IEEE754.BinarySingleNaN.
From Verif Require Import Base Strconv Value Doc Pred Lib GoExt Samples SpecPred ProofsPred RealLib AccLib
  PropertiesInputs SpecDecimal ProofsDecimal.
Local Open Scope R_scope.

(** *** C117: split points are the decimals the document shows *)

(** the decimal in the row and the literal have at most fifteen significant digits *)
Theorem C117_decimals : ∀ E ft f op lit n raw p r v dt,
  correctly_rounds E → decimal_ok n → decimal_ok lit →
  fifteen_digits (decimal_value n) → fifteen_digits (decimal_value lit) →
  ordinary (decimal_value n) → ordinary (decimal_value lit) →
  compile_predicate E ft (PSimple f op (decimal_text lit) raw) = Ok p →
  ft !! f = Some dt → dt = "double" ∨ dt = "float" → op ∈ order_ops →
  dr_get r f = Some v → holds_decimal E v n →
  (run_test E ft p r = Ok RT ∧ real_order op (decimal_value n) (decimal_value lit)) ∨
  (run_test E ft p r = Ok RF ∧ ¬ real_order op (decimal_value n) (decimal_value lit)).
Proof.
  intros E ft f op lit n raw p r v dt HE Hn Hlit Fn Fl On Ol Hc Hft Hdt Hop Hr Hv.
  destruct (compared E lit n v HE Hn Hlit (ordinary_bound _ On) (ordinary_bound _ Ol) Hv) as (c & Hpc & Hcmp).
  rewrite (numeric_order E ft f op _ raw p r v dt c Hc Hft Hdt Hpc Hr Hop), Hcmp.
  rewrite short_compare by done. pose proof (order_holds_real op (decimal_value n) (decimal_value lit) Hop) as H.
  destruct (order_holds op _); [left|right]; split; naive_solver.
Qed.
Print Assumptions C117_decimals.

(** with more digits a test may miss a difference but never turns one around *)
Theorem C117_never_reversed : ∀ E ft f lit n raw p r v dt op,
  correctly_rounds E → decimal_ok n → decimal_ok lit →
  Rabs (decimal_value n) <= ten 308 → Rabs (decimal_value lit) <= ten 308 →
  compile_predicate E ft (PSimple f op (decimal_text lit) raw) = Ok p →
  ft !! f = Some dt → dt = "double" ∨ dt = "float" →
  dr_get r f = Some v → holds_decimal E v n →
  (op = "lessOrEqual" ∧ decimal_value n <= decimal_value lit ∨
   op = "greaterOrEqual" ∧ decimal_value n >= decimal_value lit → run_test E ft p r = Ok RT) ∧
  (op = "lessThan" ∧ decimal_value n >= decimal_value lit ∨
   op = "greaterThan" ∧ decimal_value n <= decimal_value lit → run_test E ft p r = Ok RF).
Proof.
  intros E ft f lit n raw p r v dt op HE Hn Hlit Bn Bl Hc Hft Hdt Hr Hv.
  destruct (compared E lit n v HE Hn Hlit Bn Bl Hv) as (c & Hpc & Hcmp).
  split; intros [[-> Ho]|[-> Ho]];
    (rewrite (numeric_order E ft f _ _ raw p r v dt c Hc Hft Hdt Hpc Hr) by (unfold order_ops; set_solver));
    rewrite Hcmp; destruct (Rcompare_spec (round64 (decimal_value n)) (round64 (decimal_value lit))) as [H|H|H]; try done; exfalso.
  - pose proof (round_mono _ _ Ho). lra.
  - apply Rge_le in Ho. pose proof (round_mono _ _ Ho). lra.
  - apply Rge_le in Ho. pose proof (round_mono _ _ Ho). lra.
  - pose proof (round_mono _ _ Ho). lra.
Qed.
Print Assumptions C117_never_reversed.

(** any float64 in the row, however it was computed, is compared with the exact decimal
    unless it is the float64 nearest to the literal *)
Theorem C117_floats : ∀ E ft f op lit raw p r x dt,
  correctly_rounds E → decimal_ok lit → Rabs (decimal_value lit) <= ten 308 →
  compile_predicate E ft (PSimple f op (decimal_text lit) raw) = Ok p →
  ft !! f = Some dt → dt = "double" ∨ dt = "float" → op ∈ order_ops →
  dr_get r f = Some (GF64 x) → valid x → is_finite_SF x = true →
  SF2R radix2 x ≠ round64 (decimal_value lit) →
  (run_test E ft p r = Ok RT ∧ real_order op (SF2R radix2 x) (decimal_value lit)) ∨
  (run_test E ft p r = Ok RF ∧ ¬ real_order op (SF2R radix2 x) (decimal_value lit)).
Proof.
  intros E ft f op lit raw p r x dt HE Hlit Bl Hc Hft Hdt Hop Hr Hx Hfx Hne.
  destruct (HE lit Hlit Bl) as (c & Hpc & Hvc & Hfc & HRc).
  rewrite (numeric_order E ft f op _ raw p r (GF64 x) dt c Hc Hft Hdt Hpc Hr Hop).
  change (val_float64 E (GF64 x)) with x. rewrite SFcompare_R, HRc by done.
  assert (Rcompare (R64 x) (round64 (decimal_value lit)) = Rcompare (R64 x) (decimal_value lit)) as ->.
  { assert (round64 (R64 x) = R64 x) as Hrx by (apply round_generic; [apply valid_rnd_round_mode|by apply valid_format]).
    destruct (Rcompare_spec (R64 x) (decimal_value lit)) as [H|H|H].
    - apply Rcompare_Lt. pose proof (round_mono (R64 x) (decimal_value lit)) as Hm. rewrite Hrx in Hm. lra.
    - exfalso. apply Hne. by rewrite <- H.
    - apply Rcompare_Gt. pose proof (round_mono (decimal_value lit) (R64 x)) as Hm. rewrite Hrx in Hm. lra. }
  pose proof (order_holds_real op (R64 x) (decimal_value lit) Hop) as H.
  destruct (order_holds op _); [left|right]; split; naive_solver.
Qed.
Print Assumptions C117_floats.

(** equal is equality of the decimals, for the float64 read from one *)
Theorem C117_equal : ∀ E ft f lit n raw p r x dt,
  correctly_rounds E → decimal_ok n → decimal_ok lit →
  fifteen_digits (decimal_value n) → fifteen_digits (decimal_value lit) →
  ordinary (decimal_value n) → ordinary (decimal_value lit) →
  compile_predicate E ft (PSimple f "equal" (decimal_text lit) raw) = Ok p →
  ft !! f = Some dt → dt = "double" ∨ dt = "float" →
  dr_get r f = Some (GF64 x) → ext_parse_float E (decimal_text n) = Some x →
  run_test E ft p r = Ok RT ↔ decimal_value n = decimal_value lit.
Proof.
  intros E ft f lit n raw p r x dt HE Hn Hlit Fn Fl On Ol Hc Hft Hdt Hr Hx.
  destruct (compared E lit n (GF64 x) HE Hn Hlit (ordinary_bound _ On) (ordinary_bound _ Ol)) as (c & Hpc & Hcmp).
  { right. by exists x. }
  rewrite (C96_equal_exact E ft f _ raw p r dt (GF64 x) Hc Hft Hr). change (val_float64 E (GF64 x)) with x in Hcmp.
  rewrite short_compare in Hcmp by done. split.
  - intros (_ & y & Hy & He). rewrite Hpc in Hy. injection Hy as <-. rewrite Hcmp in He. injection He as He. by apply Rcompare_Eq_inv.
  - intros He. split; [done|]. exists c. split; [done|]. rewrite Hcmp. f_equal. by apply Rcompare_Eq.
Qed.
Print Assumptions C117_equal.

(** the library's parser is assumed to round correctly; the one the examples use does *)
Definition dec_01 : decimal := Decimal None [0%nat] (Some [1%nat]) None.          (* 0.1 *)
Definition dec_01e : decimal := Decimal (Some false) [1%nat; 0%nat] None (Some (true, -2)%Z). (* +10E-2 *)
Example C117_example :
  correctly_rounds go_ext ∧ decimal_text dec_01 = "0.1" ∧ decimal_text dec_01e = "+10E-2" ∧
  decimal_ok dec_01 ∧ decimal_ok dec_01e ∧ decimal_value dec_01 = decimal_value dec_01e ∧
  fifteen_digits (decimal_value dec_01) ∧ ordinary (decimal_value dec_01) ∧
  (p <-! compile_predicate go_ext {["x" := "double"]} (SP "x" "lessOrEqual" "0.1");
   run_test go_ext {["x" := "double"]} p (Some {["x" := GStr "+10E-2"]})) = Ok RT ∧
  (p <-! compile_predicate go_ext {["x" := "double"]} (SP "x" "lessThan" "0.1");
   run_test go_ext {["x" := "double"]} p (Some {["x" := GStr "0.0999999999999999"]})) = Ok RT.
Proof.
  assert (decimal_value dec_01 = 1 * ten (-1)) as Hv.
  { unfold decimal_value, dec_01, digits_number, de_digits; simpl. done. }
  split; [exact go_rounds|]. split; [by vm_compute|]. split; [by vm_compute|].
  split; [by repeat constructor|]. split; [by repeat constructor|].
  split.
  { assert (decimal_value dec_01e = 10 * ten (-2)) as -> by done. rewrite Hv.
    change (-1)%Z with (1 + -2)%Z. rewrite ten_plus, (ten_Z 1) by done. change (IZR (10 ^ 1)) with 10. lra. }
  split; [exists 1%Z, (-1)%Z; by rewrite Hv|]. split.
  { right. rewrite Hv, Rmult_1_l, Rabs_pos_eq by (pose proof (ten_pos (-1)); lra).
    split; apply bpow_le; done. }
  split; by vm_compute.
Qed.

(** Sixteen digits are too many: a number above the split is not above it. *)
Theorem C117_sixteen_digits_refuted : ∃ E ft f lit n p r,
  correctly_rounds E ∧ decimal_ok n ∧ decimal_ok lit ∧
  decimal_text lit = "9007199254740992" ∧ decimal_text n = "9007199254740993" ∧
  decimal_value n > decimal_value lit ∧ ft !! f = Some "double" ∧
  compile_predicate E ft (PSimple f "greaterThan" (decimal_text lit) GNil) = Ok p ∧
  dr_get r f = Some (GStr (decimal_text n)) ∧ run_test E ft p r = Ok RF.
Proof.
  exists go_ext, {["x" := "double"]}, "x", (Decimal None [9;0;0;7;1;9;9;2;5;4;7;4;0;9;9;2]%nat None None),
    (Decimal None [9;0;0;7;1;9;9;2;5;4;7;4;0;9;9;3]%nat None None).
  eexists (PSimple "x" "greaterThan" "9007199254740992" (GF64 _)), (Some {["x" := GStr "9007199254740993"]}).
  split; [exact go_rounds|]. split; [by repeat constructor|]. split; [by repeat constructor|].
  split; [by vm_compute|]. split; [by vm_compute|]. split.
  { match goal with |- ?a > ?b => change a with (9007199254740993 * ten 0); change b with (9007199254740992 * ten 0) end.
    pose proof (ten_pos 0). lra. }
  split; [done|]. split; [by vm_compute|]. split; [by vm_compute|]. by vm_compute.
Qed.
Print Assumptions C117_sixteen_digits_refuted.

(** A float32 in the row is not the decimal it was read from: 0.1 is above 0.1. *)
Theorem C117_float32_refuted : ∃ E ft f lit p r x,
  correctly_rounds E ∧ decimal_ok lit ∧ decimal_text lit = "0.1" ∧
  x = SFdiv 24 128 (S754_finite false 1 0) (S754_finite false 10 0) ∧ ft !! f = Some "double" ∧
  compile_predicate E ft (PSimple f "lessOrEqual" (decimal_text lit) GNil) = Ok p ∧
  dr_get r f = Some (GF32 x) ∧ run_test E ft p r = Ok RF.
Proof.
  exists go_ext, {["x" := "double"]}, "x", dec_01.
  eexists (PSimple "x" "lessOrEqual" "0.1" (GF64 _)), (Some {["x" := GF32 (S754_finite false 13421773 (-27))]}), _.
  split; [exact go_rounds|]. split; [by repeat constructor|]. split; [by vm_compute|]. split; [done|].
  split; [done|]. split; [by vm_compute|]. split; by vm_compute.
Qed.
Print Assumptions C117_float32_refuted.
