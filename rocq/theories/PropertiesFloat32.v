(** C118: the Float32 accessor of Value. *)
From Coq Require Import Reals Lra.
From Flocq Require Import Core.Core IEEE754.BinarySingleNaN.
From Verif Require Import Base Strconv Value FloatLib RealLib ProofsValue ProofsFloat32 GoExt Samples.

(** halfway between the largest float32 and 2^128: from here on the nearest
    float32 is infinite *)
Notation out_of_float32 x := (IZR (2 ^ 128 - 2 ^ 103) <= Rabs (SF2R radix2 x))%R.

(** *** Float32 of a float64 is the nearest float32 *)
Theorem C118_float64 : ∀ x, valid x → is_finite_SF x = true → ¬ out_of_float32 x →
  valid32 (val_float32 (GF64 x)) ∧ is_finite_SF (val_float32 (GF64 x)) = true ∧
  ∀ g, valid32 g → is_finite_SF g = true →
    (Rabs (SF2R radix2 (val_float32 (GF64 x)) - SF2R radix2 x) <= Rabs (SF2R radix2 g - SF2R radix2 x))%R.
Proof.
  intros x Hv Hf Hs. apply Rnot_le_lt in Hs. cbn [val_float32]. destruct x as [s|s| |s m e]; try done.
  - split; [done|]. split; [done|]. intros g _ _. simpl. rewrite Rminus_0_r, Rabs_R0. apply Rabs_pos.
  - destruct (narrow_finite s m e Hs) as (H1 & H2 & H3). split; [done|]. split; [done|].
    intros g Hg _. rewrite H3. apply round32_nearest. by apply valid32_format.
Qed.
Print Assumptions C118_float64.

Theorem C118_overflow : ∀ x, valid x → is_finite_SF x = true → out_of_float32 x →
  val_float32 (GF64 x) = S754_infinity (fltb x fzero).
Proof.
  intros x Hv Hf Hs. cbn [val_float32]. destruct x as [s|s| |s m e]; try done.
  - exfalso. simpl in Hs. rewrite Rabs_R0 in Hs. apply (le_IZR _ 0) in Hs. by vm_compute in Hs.
  - unfold f64_to_f32. rewrite normalize32_large by exact Hs. f_equal.
    destruct s; simpl.
    + apply Rlt_bool_true. by apply F2R_lt_0.
    + apply Rlt_bool_false. by apply F2R_ge_0.
Qed.
Print Assumptions C118_overflow.

(** *** Float64 of a float32 is the same number, and Float32 gives it back *)
Theorem C118_round_trip : ∀ E x, valid32 x →
  val_float32 (GF32 x) = x ∧ val_float32 (GF64 (val_float64 E (GF32 x))) = x.
Proof. intros E x Hv. split; [done|]. by apply narrow_widen. Qed.
Print Assumptions C118_round_trip.

Theorem C118_widening : ∀ E x, valid32 x → is_finite_SF x = true →
  is_finite_SF (val_float64 E (GF32 x)) = true ∧
  SF2R radix2 (val_float64 E (GF32 x)) = SF2R radix2 x.
Proof. intros E x Hv Hf. destruct x as [s|s| |s m e]; try done. by destruct (widen_finite s m e Hv). Qed.
Print Assumptions C118_widening.

(** *** Float32 of an integer is the nearest float32 *)
Theorem C118_integer : ∀ k z g, (- 2 ^ 63 ≤ z < 2 ^ 63)%Z → valid32 g → is_finite_SF g = true →
  is_finite_SF (val_float32 (GInt k z)) = true ∧
  (Rabs (SF2R radix2 (val_float32 (GInt k z)) - IZR z) <= Rabs (SF2R radix2 g - IZR z))%R.
Proof.
  intros k z g Hz Hv Hf. change (val_float32 (GInt k z)) with (f32_of_Z (wrap64 z)).
  rewrite wrap64_small by done. unfold f32_of_Z.
  assert (HF : F2R (Float radix2 z 0) = IZR z) by (unfold F2R; simpl; lra).
  destruct (normalize32_fits z 0 false) as (_ & H1 & H2).
  - rewrite HF, <- abs_IZR. apply IZR_lt. unfold f32_limit. lia.
  - split; [done|]. rewrite H2, HF. apply round32_nearest. by apply valid32_format.
Qed.
Print Assumptions C118_integer.

(** *** Everything else is 0: unlike Float64, Float32 does not read strings *)
Theorem C118_otherwise_zero : ∀ v,
  (∀ x, v ≠ GF64 x) → (∀ x, v ≠ GF32 x) → (∀ k z, v ≠ GInt k z) → val_float32 v = S754_zero false.
Proof. intros v H1 H2 H3. destruct v; try done; exfalso; naive_solver. Qed.
Print Assumptions C118_otherwise_zero.

(** So Float32 is not Float64 rounded: not on strings, and not on integers that
    Float64 already has to round. *)
Theorem C118_rounded_float64_refuted :
  (∃ E s, val_float32 (GStr s) ≠ f64_to_f32 (val_float64 E (GStr s))) ∧
  (∃ E k z, (0 ≤ z < 2 ^ 63)%Z ∧ val_float32 (GInt k z) ≠ f64_to_f32 (val_float64 E (GInt k z))).
Proof.
  split.
  - exists go_ext, "1". by vm_compute.
  - exists go_ext, KInt64, (2 ^ 62 + 2 ^ 38 + 1)%Z. split; [lia|]. by vm_compute.
Qed.
Print Assumptions C118_rounded_float64_refuted.

(** 0.1 is not a float32; 1e39 is out of range; 16777217 = 2^24 + 1 becomes 2^24 *)
Example C118_example :
  valid (fl "0.1") ∧ val_float32 (GF64 (fl "0.1")) = S754_finite false 13421773 (-27) ∧
  val_float32 (GF64 (fl "-1e39")) = S754_infinity true ∧
  valid32 (S754_finite false 13421773 (-27)) ∧
  val_float64 go_ext (GF32 (S754_finite false 13421773 (-27))) = fl "0.10000000149011612" ∧
  val_float32 (GInt KUint32 16777217) = f32_of_Z 16777216 ∧
  val_float32 (GStr "2.5") = S754_zero false ∧ val_float64 go_ext (GStr "2.5") = fl "2.5".
Proof. repeat split; by vm_compute. Qed.
