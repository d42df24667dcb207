(** The model's floats as real numbers, through Flocq's IEEE754.BinarySingleNaN.
    Everything here depends on the axioms of Coq's Reals. *)
From Coq Require Import Reals Lra.
From Flocq Require Import Core.Core IEEE754.BinarySingleNaN.
From Verif Require Import Base FloatLib.
Local Open Scope Z_scope.

Global Instance prec53 : Prec_gt_0 53 := eq_refl.
Global Instance emax1024 : Prec_lt_emax 53 1024 := eq_refl.

Notation b64 := (binary_float 53 1024).
(** every float64 is one of these *)
Definition valid (x : f64) : Prop := valid_binary 53 1024 x = true.
Notation fexp64 := (SpecFloat.fexp 53 1024).
Notation round64 := (round radix2 fexp64 (round_mode mode_NE)).

Global Instance fexp64_valid : Valid_exp fexp64 := fexp_correct 53 1024 eq_refl.

Lemma valid_b x : valid x → ∃ b : b64, x = B2SF b.
Proof. intros H. exists (SF2B x H). by rewrite B2SF_SF2B. Qed.
Lemma valid_B2SF (b : b64) : valid (B2SF b).
Proof. apply valid_binary_B2SF. Qed.

Lemma nearest_even_equiv s m l : round_nearest_even m l = choice_mode mode_NE s m l.
Proof.
  destruct l as [|[]]; try reflexivity. simpl. unfold Round.cond_incr. by destruct (Z.even m).
Qed.

Lemma round_aux_equiv sx mx ex lx :
  SpecFloat.binary_round_aux 53 1024 sx mx ex lx = BinarySingleNaN.binary_round_aux 53 1024 mode_NE sx mx ex lx.
Proof.
  unfold SpecFloat.binary_round_aux, BinarySingleNaN.binary_round_aux.
  destruct (shr_fexp _ _ _ _ _) as [mrs' e']. cbn -[choice_mode round_nearest_even shr_fexp].
  rewrite (nearest_even_equiv sx). reflexivity.
Qed.

Lemma normalize_equiv m e sz :
  SpecFloat.binary_normalize 53 1024 m e sz
  = B2SF (BinarySingleNaN.binary_normalize 53 1024 prec53 emax1024 mode_NE m e sz).
Proof.
  destruct m as [|p|p]; simpl; [done| |]; rewrite B2SF_SF2B;
    unfold SpecFloat.binary_round, BinarySingleNaN.binary_round, shl_align_fexp;
    destruct (SpecFloat.shl_align _ _ _) as [mz ez]; apply round_aux_equiv.
Qed.

Lemma fadd_B (x y : b64) : fadd (B2SF x) (B2SF y) = B2SF (Bplus mode_NE x y).
Proof.
  destruct x as [sx|sx| |sx mx ex Hx], y as [sy|sy| |sy my ey Hy]; simpl; try done;
    try (by destruct (Bool.eqb _ _)). apply normalize_equiv.
Qed.

Lemma fsub_B (x y : b64) : fsub (B2SF x) (B2SF y) = B2SF (Bminus mode_NE x y).
Proof.
  destruct x as [sx|sx| |sx mx ex Hx], y as [sy|sy| |sy my ey Hy]; simpl; try done;
    try (by destruct (Bool.eqb _ _)). unfold Zminus. rewrite <- cond_Zopp_negb. apply normalize_equiv.
Qed.

Lemma fmul_B (x y : b64) : fmul (B2SF x) (B2SF y) = B2SF (Bmult mode_NE x y).
Proof.
  destruct x as [sx|sx| |sx mx ex Hx], y as [sy|sy| |sy my ey Hy]; simpl; try done.
  rewrite B2SF_SF2B. apply round_aux_equiv.
Qed.

Lemma fdiv_B (x y : b64) : fdiv (B2SF x) (B2SF y) = B2SF (Bdiv mode_NE x y).
Proof.
  destruct x as [sx|sx| |sx mx ex Hx], y as [sy|sy| |sy my ey Hy]; simpl; try done.
  rewrite B2SF_SF2B. destruct (SFdiv_core_binary _ _ _ _ _ _) as [[mz ez] lz]. apply round_aux_equiv.
Qed.

Lemma fadd_valid x y : valid x → valid y → valid (fadd x y).
Proof. intros [a ->]%valid_b [b ->]%valid_b. rewrite fadd_B. apply valid_B2SF. Qed.
Lemma fsub_valid x y : valid x → valid y → valid (fsub x y).
Proof. intros [a ->]%valid_b [b ->]%valid_b. rewrite fsub_B. apply valid_B2SF. Qed.
Lemma fmul_valid x y : valid x → valid y → valid (fmul x y).
Proof. intros [a ->]%valid_b [b ->]%valid_b. rewrite fmul_B. apply valid_B2SF. Qed.
Lemma fdiv_valid x y : valid x → valid y → valid (fdiv x y).
Proof. intros [a ->]%valid_b [b ->]%valid_b. rewrite fdiv_B. apply valid_B2SF. Qed.
Lemma fneg_valid x : valid x → valid (fneg x).
Proof. by destruct x. Qed.
Lemma fabs_valid x : valid x → valid (fabs x).
Proof. by destruct x. Qed.
Lemma of_Z_valid z : valid (f64_of_Z z).
Proof. unfold f64_of_Z. rewrite normalize_equiv. apply valid_B2SF. Qed.

(** comparisons of finite floats are comparisons of reals *)
Lemma fleb_R (a b : b64) : is_finite a = true → is_finite b = true →
  fleb (B2SF a) (B2SF b) = Rle_bool (B2R a) (B2R b).
Proof. intros. by apply Bleb_correct. Qed.
Lemma fltb_R (a b : b64) : is_finite a = true → is_finite b = true →
  fltb (B2SF a) (B2SF b) = Rlt_bool (B2R a) (B2R b).
Proof. intros. by apply Bltb_correct. Qed.

Definition b0 : b64 := B754_zero false.
Lemma b0_eq : fzero = B2SF b0.
Proof. done. Qed.
Lemma b1_eq : fone = B2SF (Bone : b64).
Proof. by vm_compute. Qed.

(** a number that is not negative: finite and at least 0, or +Inf *)
Lemma nonneg_cases (b : b64) : fleb fzero (B2SF b) = true →
  (is_finite b = true ∧ (0 <= B2R b)%R) ∨ b = B754_infinity false.
Proof.
  destruct b as [s|[]| |s m e H]; intros Hle.
  - left. split; [done|]. simpl. lra.
  - done.
  - by right.
  - done.
  - left. split; [done|]. rewrite b0_eq, fleb_R in Hle by done. by apply Rle_bool_true_iff in Hle || (revert Hle; case Rle_bool_spec; done).
Qed.

Lemma nonneg_finite (b : b64) : is_finite b = true → (0 <= B2R b)%R → fleb fzero (B2SF b) = true.
Proof. intros Hf Hb. rewrite b0_eq, fleb_R by done. by apply Rle_bool_true. Qed.

Lemma le_inf (b : b64) : fleb fzero (B2SF b) = true → fleb (B2SF b) (S754_infinity false) = true.
Proof. by destruct b as [[]|[]| |[] m e H]. Qed.

Lemma sign_nonneg (b : b64) : (0 <= B2R b)%R → Bsign b = false ∨ B2R b = 0%R.
Proof.
  intros Hb. destruct b as [s|s| |[] m e He]; [by right|by right|by right| |by left].
  exfalso. revert Hb. apply Rlt_not_le. apply F2R_lt_0. simpl. lia.
Qed.

(** adding something not negative does not make a sum smaller *)
Lemma fadd_ge x y : valid x → valid y → fleb fzero x = true → fleb fzero y = true →
  fleb x (fadd x y) = true ∧ fleb y (fadd x y) = true.
Proof.
  intros [a ->]%valid_b [b ->]%valid_b Ha Hb.
  destruct (nonneg_cases a Ha) as [[Fa Ra]| ->].
  2: { destruct (nonneg_cases b Hb) as [[Fb Rb]| ->]; [|done]. split.
       - by destruct b.
       - replace (fadd (B2SF (B754_infinity false)) (B2SF b)) with (S754_infinity false) by (by destruct b). by apply le_inf. }
  destruct (nonneg_cases b Hb) as [[Fb Rb]| ->].
  2: { replace (fadd (B2SF a) (B2SF (B754_infinity false))) with (S754_infinity false) by (by destruct a).
       split; [by apply le_inf|done]. }
  rewrite fadd_B. pose proof (Bplus_correct 53 1024 prec53 emax1024 mode_NE a b Fa Fb) as H.
  revert H. case Rlt_bool_spec; intros Hov.
  - intros (HR & HF & _). rewrite !fleb_R by done. split; apply Rle_bool_true; rewrite HR.
    + apply round_ge_generic; [apply fexp64_valid|apply valid_rnd_round_mode|apply generic_format_B2R|lra].
    + apply round_ge_generic; [apply fexp64_valid|apply valid_rnd_round_mode|apply generic_format_B2R|lra].
  - intros (HS & Hsg). rewrite HS. unfold binary_overflow, overflow_to_inf.
    assert (Bsign a = false ∨ (B2R a = 0%R ∧ B2R b = 0%R)) as [Hs|[H1 H2]].
    { destruct (sign_nonneg a Ra) as [?|?]; [by left|]. rewrite Hsg.
      destruct (sign_nonneg b Rb) as [?|?]; [by left|by right]. }
    + rewrite Hs. split; by apply le_inf.
    + exfalso. revert Hov. rewrite H1, H2, Rplus_0_r, round_0, Rabs_R0 by apply valid_rnd_round_mode.
      apply Rlt_not_le, bpow_gt_0.
Qed.

(** a share of a whole *)
Lemma fdiv_unit x y : valid x → valid y → fleb fzero x = true → fleb x y = true →
  fltb fzero y = true → x ≠ S754_infinity false →
  fleb fzero (fdiv x y) = true ∧ fleb (fdiv x y) fone = true.
Proof.
  intros [a ->]%valid_b [b ->]%valid_b Ha Hab Hb Hinf.
  destruct (nonneg_cases a Ha) as [[Fa Ra]| ->]; [|done].
  assert (fleb fzero (B2SF b) = true) as Hb0 by (by destruct b as [[]|[]| |[] m e H]).
  destruct (nonneg_cases b Hb0) as [[Fb Rb]| ->].
  2: { by destruct a as [[]|[]| |[] m e H]. }
  rewrite fleb_R in Hab by done. rewrite b0_eq, fltb_R in Hb by done.
  assert (B2R a <= B2R b)%R as Hle by (revert Hab; by case Rle_bool_spec).
  assert (0 < B2R b)%R as Hlt by (revert Hb; by case Rlt_bool_spec).
  assert (0 <= B2R a / B2R b <= 1)%R as Hq.
  { split; [apply Rmult_le_pos; [lra|]; apply Rlt_le, Rinv_0_lt_compat; lra|]. apply (Rmult_le_reg_r (B2R b)); [done|].
    unfold Rdiv. rewrite Rmult_assoc, Rinv_l by lra. lra. }
  assert (0 <= round64 (B2R a / B2R b) <= 1)%R as Hr.
  { split.
    - apply round_ge_generic; [apply fexp64_valid|apply valid_rnd_round_mode|apply generic_format_0|lra].
    - apply round_le_generic; [apply fexp64_valid|apply valid_rnd_round_mode| |lra].
      rewrite <- (Bone_correct 53 1024 prec53 emax1024). apply generic_format_B2R. }
  rewrite fdiv_B. pose proof (Bdiv_correct 53 1024 prec53 emax1024 mode_NE a b) as H.
  rewrite Rlt_bool_true in H.
  2: { rewrite Rabs_pos_eq by lra. apply (Rle_lt_trans _ 1); [lra|]. apply (bpow_lt radix2 0 1024). done. }
  destruct H as (HR & HF & _); [lra|]. rewrite Fa in HF.
  rewrite b1_eq, b0_eq, !fleb_R by done. rewrite HR, Bone_correct. split; apply Rle_bool_true; [exact (proj1 Hr)|exact (proj2 Hr)].
Qed.

(** running sums of numbers that are not negative *)
Definition number (x : f64) : Prop := valid x ∧ fleb fzero x = true.

Lemma fleb_trans x y z : valid x → valid y → valid z → fleb x y = true → fleb y z = true → fleb x z = true.
Proof.
  intros [a ->]%valid_b [b ->]%valid_b [c ->]%valid_b Hab Hbc.
  destruct (is_finite a) eqn:Fa; [|by destruct a as [|[]| |], b as [|[]| |], c as [|[]| |]].
  destruct (is_finite c) eqn:Fc; [|by destruct a as [|[]| |], b as [|[]| |], c as [|[]| |]].
  destruct (is_finite b) eqn:Fb; [|by destruct a as [|[]| |], b as [|[]| |], c as [|[]| |]].
  rewrite fleb_R in * by done. revert Hab Hbc. case Rle_bool_spec; [|done]. case Rle_bool_spec; [|done].
  intros H1 H2 _ _. apply Rle_bool_true. by eapply Rle_trans.
Qed.

Lemma number_zero : number fzero.
Proof. done. Qed.
Lemma fleb_refl x : number x → fleb x x = true.
Proof.
  intros [[a ->]%valid_b H]. destruct (nonneg_cases a H) as [[Fa Ra]| ->]; [|done].
  rewrite fleb_R by done. by apply Rle_bool_true, Rle_refl.
Qed.
Lemma number_add x y : number x → number y → number (fadd x y).
Proof.
  intros [Vx Px] [Vy Py]. split; [by apply fadd_valid|].
  destruct (fadd_ge x y) as [H _]; [done..|]. eapply (fleb_trans _ x); [done|done|by apply fadd_valid|done|done].
Qed.

Lemma running_sum l : ∀ acc, number acc → Forall number l →
  number (foldl fadd acc l) ∧ fleb acc (foldl fadd acc l) = true ∧
  ∀ x, x ∈ l → fleb x (foldl fadd acc l) = true.
Proof.
  induction l as [|y l IH]; intros acc Ha Hl; simpl.
  - split; [done|]. split; [by apply fleb_refl|]. intros x H%elem_of_nil. done.
  - apply Forall_cons in Hl as [Hy Hl]. destruct (IH (fadd acc y)) as (H1 & H2 & H3); [by apply number_add|done|].
    destruct (fadd_ge acc y) as [G1 G2]; [apply Ha|apply Hy|apply Ha|apply Hy|].
    pose proof (number_add _ _ Ha Hy). split; [done|]. split.
    + eapply (fleb_trans _ (fadd acc y)); [apply Ha|apply H|apply H1|done|done].
    + intros x [->|Hx]%elem_of_cons; [|by apply H3].
      eapply (fleb_trans _ (fadd acc y)); [apply Hy|apply H|apply H1|done|done].
Qed.

Lemma foldl_sum_map {A} (f : A → f64) l acc :
  foldl (λ a d, fadd a (f d)) acc l = foldl fadd acc (f <$> l).
Proof. revert acc. induction l; intros acc; simpl; done. Qed.

(** each summand's share of a finite positive sum *)
Lemma share_unit {A} (f : A → f64) l x :
  Forall (λ d, number (f d)) l → x ∈ l →
  let total := foldl (λ a d, fadd a (f d)) fzero l in
  fltb fzero total = true → total ≠ S754_infinity false →
  fleb fzero (fdiv (f x) total) = true ∧ fleb (fdiv (f x) total) fone = true.
Proof.
  intros Hl Hx total. unfold total. rewrite foldl_sum_map. intros Hpos Hfin.
  assert (Forall number (f <$> l)) as Hn by by apply Forall_fmap.
  destruct (running_sum _ fzero number_zero Hn) as (H1 & _ & H3).
  assert (f x ∈ f <$> l) as Hin by by apply elem_of_list_fmap_1.
  rewrite Forall_forall in Hn. destruct (Hn _ Hin) as [Hv Hp].
  apply fdiv_unit; [done|apply H1|done|by apply H3|done|].
  intros Hf. specialize (H3 _ Hin). rewrite Hf in H3. destruct H1 as [V1 _].
  destruct (foldl fadd fzero (f <$> l)) as [|[]| |]; done.
Qed.

(** 1 / (1 + y) for a y that is not negative *)
Lemma logistic_unit y : number y →
  fleb fzero (fdiv fone (fadd fone y)) = true ∧ fleb (fdiv fone (fadd fone y)) fone = true.
Proof.
  intros [Vy Py]. assert (number fone) as [V1 P1] by (split; by vm_compute).
  destruct (fadd_ge fone y) as [G _]; [done..|].
  apply fdiv_unit; [done|by apply fadd_valid|done|done| |done].
  assert (valid (fadd fone y)) as [b Hb]%valid_b by by apply fadd_valid. rewrite Hb in *.
  destruct b as [s|[]| |s m e H]; try done. rewrite b0_eq, fltb_R by done. rewrite b1_eq, fleb_R in G by done.
  revert G. case Rle_bool_spec; [|done]. rewrite Bone_correct. intros G _. apply Rlt_bool_true. simpl B2R at 1. lra.
Qed.

(** float64(z) of a 64 bit integer *)
Lemma of_Z_round z : Z.abs z <= 2 ^ 64 →
  SF2R radix2 (f64_of_Z z) = round64 (IZR z) ∧ is_finite_SF (f64_of_Z z) = true.
Proof.
  intros Hz. unfold f64_of_Z. rewrite normalize_equiv.
  pose proof (binary_normalize_correct 53 1024 prec53 emax1024 mode_NE z 0 false) as H. cbv zeta in H.
  assert (F2R (Float radix2 z 0) = IZR z) as HF by (unfold F2R; simpl; lra). rewrite HF in H.
  rewrite Rlt_bool_true in H.
  - destruct H as (HR & HFin & _). rewrite SF2R_B2SF, is_finite_SF_B2SF. split; done.
  - apply (Rle_lt_trans _ (bpow radix2 64)); [|apply bpow_lt; done].
    apply abs_round_le_generic; [apply fexp64_valid|apply valid_rnd_round_mode| |].
    + apply generic_format_bpow. vm_compute. done.
    + rewrite <- abs_IZR. change (bpow radix2 64) with (IZR (2 ^ 64)). by apply IZR_le.
Qed.

Lemma of_Z_nearest z g : Z.abs z <= 2 ^ 64 → valid g → is_finite_SF g = true →
  (Rabs (SF2R radix2 (f64_of_Z z) - IZR z) <= Rabs (SF2R radix2 g - IZR z))%R.
Proof.
  intros Hz [b ->]%valid_b _. destruct (of_Z_round z Hz) as [-> _]. rewrite SF2R_B2SF.
  pose proof (round_N_pt radix2 fexp64 (λ x, negb (Z.even x)) (IZR z)) as [_ H].
  apply H. apply generic_format_B2R.
Qed.

Lemma of_Z_exact z : Z.abs z <= 2 ^ 53 → SF2R radix2 (f64_of_Z z) = IZR z.
Proof.
  intros Hz. destruct (of_Z_round z) as [-> _]; [lia|]. apply round_generic; [apply valid_rnd_round_mode|].
  destruct (decide (Z.abs z = 2 ^ 53)) as [He|He].
  - apply (generic_format_abs_inv). rewrite <- abs_IZR, He. change (IZR (2 ^ 53)) with (bpow radix2 53).
    apply generic_format_bpow. vm_compute. done.
  - assert (IZR z = F2R (Float radix2 z 0)) as -> by (unfold F2R; simpl; lra).
    apply generic_format_F2R. intros Hz0. unfold cexp.
    rewrite (mag_unique radix2 _ (Zdigits radix2 z)).
    2:{ replace (F2R (Float radix2 z 0)) with (IZR z) by (unfold F2R; simpl; lra).
        rewrite <- abs_IZR. destruct (Zdigits_correct radix2 z) as [H1 H2].
        pose proof (Zdigits_gt_0 radix2 z Hz0). rewrite <- !IZR_Zpower by lia. split; [by apply IZR_le|by apply IZR_lt]. }
    assert (Zdigits radix2 z <= 53) by (apply Zdigits_le_Zpower; simpl; lia).
    unfold SpecFloat.fexp, emin. simpl. lia.
Qed.

(** the complement of a probability *)
Lemma complement_unit x : valid x → fleb fzero x = true → fleb x fone = true →
  fleb fzero (fsub fone x) = true ∧ fleb (fsub fone x) fone = true.
Proof.
  intros [a ->]%valid_b H0 H1. destruct (nonneg_cases a H0) as [[Fa Ra]| ->]; [|done].
  rewrite b1_eq, fleb_R in H1 by done.
  assert (B2R a <= 1)%R as Hle by (revert H1; case Rle_bool_spec; rewrite ?Bone_correct; done).
  rewrite b1_eq, fsub_B. pose proof (Bminus_correct 53 1024 prec53 emax1024 mode_NE Bone a eq_refl Fa) as H.
  rewrite Bone_correct in H.
  assert (0 <= round64 (1 - B2R a) <= 1)%R as Hr.
  { split.
    - apply round_ge_generic; [apply fexp64_valid|apply valid_rnd_round_mode|apply generic_format_0|lra].
    - apply round_le_generic; [apply fexp64_valid|apply valid_rnd_round_mode| |lra].
      rewrite <- (Bone_correct 53 1024 prec53 emax1024). apply generic_format_B2R. }
  rewrite Rlt_bool_true in H.
  2: { rewrite Rabs_pos_eq by lra. apply (Rle_lt_trans _ 1); [lra|]. apply (bpow_lt radix2 0 1024). done. }
  destruct H as (HR & HF & _). rewrite b0_eq, !fleb_R by done. rewrite HR, Bone_correct.
  split; apply Rle_bool_true; [exact (proj1 Hr)|exact (proj2 Hr)].
Qed.
