(** Probabilities of boosted classifiers (C159). *)
From Coq Require Import Reals Lra.
From Flocq Require Import Core.Core IEEE754.BinarySingleNaN.
From Verif Require Import Base Strconv Value Doc Expr Pred Tree Regression Model Lib FloatLib RealLib AccLib ForestLib SpecBoosted.
Local Open Scope R_scope.

(** 1 - p *)
Lemma rest_R p : valid p → in_unit p → fin (fsub fone p) ∧ R64 (fsub fone p) = round64 (1 - R64 p) ∧ 0 <= round64 (1 - R64 p) <= 1.
Proof.
  intros Vp (Fp & P0 & P1)%unit_R; [|done].
  assert (0 <= round64 (1 - R64 p) <= 1) as Hr.
  { split.
    - rewrite <- (round_0 radix2 fexp64 (round_mode mode_NE)). apply round_mono. lra.
    - replace 1 with (round64 1) at 2; [apply round_mono; lra|]. rewrite <- R64_one. rewrite b1_eq, SF2R_B2SF. apply round_generic, generic_format_B2R. apply valid_rnd_round_mode. }
  revert Fp P0 P1 Hr. destruct (valid_b _ Vp) as [a ->]. rewrite b1_eq, fsub_B, !is_finite_SF_B2SF, !SF2R_B2SF. intros Fp P0 P1 Hr.
  pose proof (Bminus_correct 53 1024 prec53 emax1024 mode_NE Bone a eq_refl Fp) as H.
  rewrite Bone_correct in H. rewrite Rlt_bool_true in H; [by destruct H as (H1 & H2 & _)|].
  rewrite Rabs_pos_eq by lra. apply (Rle_lt_trans _ 1); [lra|]. change 1 with (bpow radix2 0). by apply bpow_lt.
Qed.
Lemma rest_unit p : valid p → in_unit p → in_unit (fsub fone p).
Proof. intros Vp Up. destruct (rest_R p Vp Up) as (F & R & H). apply unit_R; [by apply fsub_valid|]. split; [done|]. by rewrite R. Qed.
Lemma rest_anti p p' : valid p → valid p' → in_unit p → in_unit p' → fleb p p' = true → fleb (fsub fone p') (fsub fone p) = true.
Proof.
  intros V V' U U' Hle. destruct (rest_R p V U) as (F & R & _), (rest_R p' V' U') as (F' & R' & _).
  apply fle_R; [by apply fsub_valid..|done|done|]. rewrite R, R'. apply round_mono.
  apply unit_R in U as [Fp _], U' as [Fp' _]; [|done..]. apply fle_R in Hle; [|done..]. lra.
Qed.

(** 0 + p *)
Lemma zero_left p : valid p → valid (fadd fzero p) ∧ (∀ x, fleb x (fadd fzero p) = fleb x p) ∧ (∀ x, fleb (fadd fzero p) x = fleb p x) ∧
  fsub fone (fadd fzero p) = fsub fone p.
Proof. intros V. split; [by apply fadd_valid|]. destruct p as [[]|[]| |[] ? ?]; (split; [|split]); try done; by intros [[]|[]| |[] ? ?]. Qed.

Lemma added_valid l : Forall valid l → valid (added l).
Proof.
  unfold added. assert (valid fzero) as Hz by done. revert Hz. generalize fzero. induction l as [|x l IH]; intros a Ha Hl; [done|].
  apply Forall_cons in Hl as [Hx Hl]. cbn [foldl]. apply IH; [by apply fadd_valid|done].
Qed.
