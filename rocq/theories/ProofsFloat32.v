(** float32 as real numbers, and the conversions to and from float64. *)
From Coq Require Import Reals Lra.
From Flocq Require Import Core.Core IEEE754.BinarySingleNaN.
From Verif Require Import Base FloatLib RealLib.
Local Open Scope Z_scope.

Global Instance prec24 : Prec_gt_0 24 := eq_refl.
Global Instance emax128 : Prec_lt_emax 24 128 := eq_refl.
Notation b32 := (binary_float 24 128).
(** every float32 is one of these *)
Definition valid32 (x : f32) : Prop := valid_binary 24 128 x = true.
Notation fexp32 := (SpecFloat.fexp 24 128).
Notation round32 := (round radix2 fexp32 (round_mode mode_NE)).
Global Instance fexp32_valid : Valid_exp fexp32 := fexp_correct 24 128 eq_refl.

Lemma round_aux_equiv32 sx mx ex lx :
  SpecFloat.binary_round_aux 24 128 sx mx ex lx = BinarySingleNaN.binary_round_aux 24 128 mode_NE sx mx ex lx.
Proof.
  unfold SpecFloat.binary_round_aux, BinarySingleNaN.binary_round_aux.
  destruct (shr_fexp _ _ _ _ _) as [mrs' e']. cbn -[choice_mode round_nearest_even shr_fexp].
  rewrite (nearest_even_equiv sx). reflexivity.
Qed.
Lemma normalize_equiv32 m e sz :
  SpecFloat.binary_normalize 24 128 m e sz
  = B2SF (BinarySingleNaN.binary_normalize 24 128 prec24 emax128 mode_NE m e sz).
Proof.
  destruct m as [|p|p]; simpl; [done| |]; rewrite B2SF_SF2B;
    unfold SpecFloat.binary_round, BinarySingleNaN.binary_round, shl_align_fexp;
    destruct (SpecFloat.shl_align _ _ _) as [mz ez]; apply round_aux_equiv32.
Qed.

(** halfway between the largest float32 and 2^128 *)
Definition f32_limit : Z := 2 ^ 128 - 2 ^ 103.
Definition f32_max : Z := 2 ^ 128 - 2 ^ 104.

Lemma max_format : generic_format radix2 fexp32 (IZR f32_max).
Proof.
  assert (IZR f32_max = F2R (Float radix2 (2 ^ 24 - 1) 104)) as ->.
  { unfold F2R. simpl Fnum. simpl Fexp. change (bpow radix2 104) with (IZR (2 ^ 104)). rewrite <- mult_IZR. by f_equal. }
  apply generic_format_F2R. intros _. unfold cexp. rewrite (mag_unique radix2 _ 128); [by vm_compute|].
  rewrite <- F2R_Zabs. unfold F2R. simpl Fnum. simpl Fexp. change (bpow radix2 104) with (IZR (2 ^ 104)).
  rewrite <- mult_IZR. change (bpow radix2 128) with (IZR (2 ^ 128)). change (bpow radix2 (128 - 1)) with (IZR (2 ^ 127)).
  split; [apply IZR_le|apply IZR_lt]; by vm_compute.
Qed.

Lemma round32_nearest x g : generic_format radix2 fexp32 g →
  (Rabs (round32 x - x) <= Rabs (g - x))%R.
Proof. intros Hg. pose proof (round_N_pt radix2 fexp32 (λ x, negb (Z.even x)) x) as [_ H]. by apply H. Qed.

Lemma round32_abs x : round32 (Rabs x) = Rabs (round32 x).
Proof. apply (round_NE_abs radix2 fexp32). Qed.

Lemma fits x : (Rabs x < IZR f32_limit)%R → (Rabs (round32 x) < bpow radix2 128)%R.
Proof.
  rewrite <- round32_abs. generalize (Rabs_pos x). generalize (Rabs x). clear x. intros x H0 H.
  destruct (Rle_dec x (IZR f32_max)) as [Hm|Hm].
  - apply (Rle_lt_trans _ (IZR f32_max)).
    + apply round_le_generic; [apply fexp32_valid|apply valid_rnd_round_mode|apply max_format|done].
    + change (bpow radix2 128) with (IZR (2 ^ 128)). apply IZR_lt. by vm_compute.
  - apply Rnot_le_lt in Hm. pose proof (round32_nearest x _ max_format) as Hn.
    apply Rnot_le_lt. intros Hb.
    change (bpow radix2 128) with (IZR (2 ^ 128)) in *.
    assert (IZR f32_limit = (IZR (2 ^ 128) - IZR (2 ^ 103))%R) as He by (unfold f32_limit; apply minus_IZR).
    assert (IZR f32_max = (IZR (2 ^ 128) - 2 * IZR (2 ^ 103))%R) as He2.
    { unfold f32_max. rewrite minus_IZR. change (2 ^ 104) with (2 * 2 ^ 103). by rewrite mult_IZR. }
    assert (0 < IZR (2 ^ 103))%R by (by apply IZR_lt).
    rewrite (Rabs_pos_eq (round32 x - x)) in Hn by lra. rewrite (Rabs_left (IZR f32_max - x)) in Hn by lra. lra.
Qed.

Lemma limit_rounds_up : (bpow radix2 128 <= round32 (IZR f32_limit))%R.
Proof.
  apply Rnot_lt_le. intros Hlt.
  pose proof (binary_normalize_correct 24 128 prec24 emax128 mode_NE (2 ^ 25 - 1) 103 false) as H. cbv zeta in H.
  assert (F2R (Float radix2 (2 ^ 25 - 1) 103) = IZR f32_limit) as HF.
  { unfold F2R. simpl Fnum. simpl Fexp. change (bpow radix2 103) with (IZR (2 ^ 103)). rewrite <- mult_IZR. by f_equal. }
  rewrite HF in H. rewrite Rlt_bool_true in H.
  - destruct H as (_ & H & _). rewrite <- is_finite_SF_B2SF, <- normalize_equiv32 in H. by vm_compute in H.
  - rewrite Rabs_pos_eq; [done|]. apply (Rle_trans _ (round32 0)); [rewrite round_0 by apply valid_rnd_round_mode; lra|].
    apply round_le; [apply fexp32_valid|apply valid_rnd_round_mode|]. by apply IZR_le.
Qed.
Lemma too_large x : (IZR f32_limit <= Rabs x)%R → (bpow radix2 128 <= Rabs (round32 x))%R.
Proof.
  intros H. rewrite <- round32_abs. eapply Rle_trans; [exact limit_rounds_up|].
  apply round_le; [apply fexp32_valid|apply valid_rnd_round_mode|done].
Qed.

(** rounding m * 2^e into float32 *)
Lemma normalize32_fits m e s : (Rabs (F2R (Float radix2 m e)) < IZR f32_limit)%R →
  valid32 (SpecFloat.binary_normalize 24 128 m e s) ∧
  is_finite_SF (SpecFloat.binary_normalize 24 128 m e s) = true ∧
  SF2R radix2 (SpecFloat.binary_normalize 24 128 m e s) = round32 (F2R (Float radix2 m e)).
Proof.
  intros H. rewrite normalize_equiv32. split; [apply valid_binary_B2SF|].
  pose proof (binary_normalize_correct 24 128 prec24 emax128 mode_NE m e s) as Hc. cbv zeta in Hc.
  rewrite Rlt_bool_true in Hc by (by apply fits). destruct Hc as (HR & HF & _).
  by rewrite SF2R_B2SF, is_finite_SF_B2SF.
Qed.
Lemma normalize32_large m e s : (IZR f32_limit <= Rabs (F2R (Float radix2 m e)))%R →
  SpecFloat.binary_normalize 24 128 m e s = S754_infinity (Rlt_bool (F2R (Float radix2 m e)) 0).
Proof.
  intros H. rewrite normalize_equiv32.
  pose proof (binary_normalize_correct 24 128 prec24 emax128 mode_NE m e s) as Hc. cbv zeta in Hc.
  rewrite Rlt_bool_false in Hc by (by apply too_large). by rewrite Hc.
Qed.

Lemma valid32_b x : valid32 x → ∃ b : b32, x = B2SF b.
Proof. intros H. exists (SF2B x H). by rewrite B2SF_SF2B. Qed.
Lemma valid32_format g : valid32 g → generic_format radix2 fexp32 (SF2R radix2 g).
Proof. intros [b ->]%valid32_b. rewrite SF2R_B2SF. apply generic_format_B2R. Qed.

(** float32 to float64 *)
Lemma fexp_le e : fexp64 e <= fexp32 e.
Proof. unfold SpecFloat.fexp, SpecFloat.emin. lia. Qed.
Lemma widen_finite s m e : valid32 (S754_finite s m e) →
  valid (f32_to_f64 (S754_finite s m e)) ∧
  is_finite_SF (f32_to_f64 (S754_finite s m e)) = true ∧
  SF2R radix2 (f32_to_f64 (S754_finite s m e)) = SF2R radix2 (S754_finite s m e).
Proof.
  intros Hv. unfold f32_to_f64. rewrite normalize_equiv. split; [apply valid_binary_B2SF|].
  pose proof (binary_normalize_correct 53 1024 prec53 emax1024 mode_NE (cond_Zopp s (Z.pos m)) e s) as Hc. cbv zeta in Hc.
  pose proof (valid32_format _ Hv) as Hf. cbn [SF2R] in Hf.
  assert (Hg : generic_format radix2 fexp64 (F2R (Float radix2 (cond_Zopp s (Z.pos m)) e))).
  { eapply generic_inclusion_mag; [|exact Hf]. intros _. apply fexp_le. }
  rewrite round_generic in Hc; [|apply valid_rnd_round_mode|exact Hg].
  destruct (valid32_b _ Hv) as [b Hb].
  rewrite Rlt_bool_true in Hc.
  - destruct Hc as (HR & HF & _). rewrite SF2R_B2SF, is_finite_SF_B2SF. split; done.
  - eapply Rlt_trans; [|apply (bpow_lt radix2 128); done].
    pose proof (abs_B2R_lt_emax 24 128 b) as Hlt. by rewrite <- SF2R_B2SF, <- Hb in Hlt.
Qed.

Lemma strict_eq (x y : f32) : valid32 x → valid32 y → is_finite_SF x = true → is_finite_SF y = true →
  SF2R radix2 x = SF2R radix2 y → SF2R radix2 x ≠ 0%R → x = y.
Proof.
  intros [b ->]%valid32_b [c ->]%valid32_b Hx Hy He Hn.
  rewrite !SF2R_B2SF in *. rewrite !is_finite_SF_B2SF in *. f_equal. apply B2R_inj; [| |done].
  - destruct b; try done; exfalso; by apply Hn.
  - rewrite He in Hn. destruct c; try done; exfalso; by apply Hn.
Qed.
Lemma narrow_finite s m e : (Rabs (SF2R radix2 (S754_finite s m e)) < IZR f32_limit)%R →
  valid32 (f64_to_f32 (S754_finite s m e)) ∧
  is_finite_SF (f64_to_f32 (S754_finite s m e)) = true ∧
  SF2R radix2 (f64_to_f32 (S754_finite s m e)) = round32 (SF2R radix2 (S754_finite s m e)).
Proof. apply normalize32_fits. Qed.
Lemma valid32_small x : valid32 x → (Rabs (SF2R radix2 x) < IZR f32_limit)%R.
Proof.
  intros [b ->]%valid32_b. rewrite SF2R_B2SF.
  apply (Rle_lt_trans _ (IZR f32_max)).
  - pose proof (abs_B2R_le_emax_minus_prec 24 128 eq_refl b) as H. eapply Rle_trans; [exact H|].
    change (bpow radix2 128) with (IZR (2 ^ 128)). change (bpow radix2 (128 - 24)) with (IZR (2 ^ 104)).
    rewrite <- minus_IZR. apply IZR_le. by vm_compute.
  - apply IZR_lt. by vm_compute.
Qed.
Lemma narrow_widen x : valid32 x → f64_to_f32 (f32_to_f64 x) = x.
Proof.
  intros Hv. destruct x as [s|s| |s m e]; try done.
  destruct (widen_finite s m e Hv) as (Hw & Hf & HR).
  assert (Hnz : SF2R radix2 (S754_finite s m e) ≠ 0%R).
  { cbn [SF2R]. apply F2R_neq_0. by destruct s. }
  destruct (f32_to_f64 (S754_finite s m e)) as [s'|s'| |s' m' e'] eqn:E1; try done.
  pose proof (valid32_small _ Hv) as Hs. rewrite <- HR in Hs.
  destruct (narrow_finite s' m' e' Hs) as (Hv2 & Hf2 & HR2).
  rewrite HR, round_generic in HR2; [|apply valid_rnd_round_mode|by apply valid32_format].
  apply strict_eq; try done. by rewrite HR2.
Qed.
