(** Accuracy and monotonicity of float64 sums and products as real numbers. *)
From Coq Require Import Reals Lra.
From Flocq Require Import Core.Core IEEE754.BinarySingleNaN.
Require Import Flocq.Prop.Relative Flocq.Prop.Plus_error.
From Verif Require Import Base FloatLib RealLib.
Local Open Scope R_scope.

Notation R64 x := (SF2R radix2 x).
Notation fin x := (is_finite_SF x = true).

(** the unit roundoff 2^-53, and half the smallest positive float64 *)
Definition unit_roundoff : R := / 2 * bpow radix2 (-52).
Definition tiny : R := / 2 * bpow radix2 (-1074).

Lemma unit_pos : 0 < unit_roundoff.
Proof. unfold unit_roundoff. pose proof (bpow_gt_0 radix2 (-52)). lra. Qed.
Lemma tiny_pos : 0 < tiny.
Proof. unfold tiny. pose proof (bpow_gt_0 radix2 (-1074)). lra. Qed.

Lemma fin_b x : fin x → ∀ b : b64, x = B2SF b → is_finite b = true.
Proof. intros H b ->. by rewrite is_finite_SF_B2SF in H. Qed.

Lemma fadd_fin x y : valid x → valid y → fin (fadd x y) →
  fin x ∧ fin y ∧ R64 (fadd x y) = round64 (R64 x + R64 y).
Proof.
  intros [a ->]%valid_b [b ->]%valid_b. rewrite fadd_B, !is_finite_SF_B2SF, !SF2R_B2SF. intros H.
  assert (is_finite a = true) as Fa by (by destruct a as [|[]| |], b as [|[]| |]).
  assert (is_finite b = true) as Fb by (by destruct a as [|[]| |], b as [|[]| |]).
  split; [done|]. split; [done|].
  pose proof (Bplus_correct 53 1024 prec53 emax1024 mode_NE a b Fa Fb) as HP. revert HP.
  case Rlt_bool_spec; intros Hov; [by intros [HR _]|]. intros [HS _]. exfalso.
  revert H. rewrite <- is_finite_SF_B2SF, HS. by destruct (Bsign a).
Qed.

Lemma fmul_fin x y : valid x → valid y → fin (fmul x y) →
  fin x ∧ fin y ∧ R64 (fmul x y) = round64 (R64 x * R64 y).
Proof.
  intros [a ->]%valid_b [b ->]%valid_b. rewrite fmul_B, !is_finite_SF_B2SF, !SF2R_B2SF. intros H.
  assert (is_finite a = true) as Fa by (by destruct a as [|[]| |], b as [|[]| |]).
  assert (is_finite b = true) as Fb by (by destruct a as [|[]| |], b as [|[]| |]).
  split; [done|]. split; [done|].
  pose proof (Bmult_correct 53 1024 prec53 emax1024 mode_NE a b) as HP. revert HP.
  case Rlt_bool_spec; intros Hov; [by intros [HR _]|]. intros HS. exfalso.
  revert H. rewrite <- is_finite_SF_B2SF, HS. by destruct (xorb _ _).
Qed.

Lemma fdiv_fin x y : valid x → valid y → fin y → R64 y ≠ 0 → fin (fdiv x y) →
  fin x ∧ R64 (fdiv x y) = round64 (R64 x / R64 y).
Proof.
  intros [a ->]%valid_b [b ->]%valid_b. rewrite fdiv_B, !is_finite_SF_B2SF, !SF2R_B2SF. intros Fb Hb H.
  assert (is_finite a = true) as Fa by (by destruct a as [|[]| |], b as [|[]| |]).
  split; [done|].
  pose proof (Bdiv_correct 53 1024 prec53 emax1024 mode_NE a b Hb) as HP. revert HP.
  case Rlt_bool_spec; intros Hov; [by intros [HR _]|]. intros HS. exfalso.
  revert H. rewrite <- is_finite_SF_B2SF, HS. by destruct (xorb _ _).
Qed.

Lemma valid_format x : valid x → generic_format radix2 fexp64 (R64 x).
Proof. intros [a ->]%valid_b. rewrite SF2R_B2SF. apply generic_format_B2R. Qed.

(** one addition *)
Lemma fadd_error x y : valid x → valid y → fin (fadd x y) →
  Rabs (R64 (fadd x y) - (R64 x + R64 y)) <= unit_roundoff * Rabs (R64 x + R64 y).
Proof.
  intros Vx Vy H. destruct (fadd_fin x y Vx Vy H) as (_ & _ & ->).
  destruct (FLT_plus_error_N_ex radix2 (-1074) 53 (λ z, negb (Z.even z)) (R64 x) (R64 y)) as (e & He & Hr).
  { by apply (valid_format x). } { by apply (valid_format y). }
  change (round64 (R64 x + R64 y)) with
    (round radix2 (FLT_exp (-1074) 53) (Znearest (λ z, negb (Z.even z))) (R64 x + R64 y)).
  rewrite Hr. replace ((R64 x + R64 y) * (1 + e) - (R64 x + R64 y)) with (e * (R64 x + R64 y)) by ring.
  rewrite Rabs_mult. apply Rmult_le_compat_r; [apply Rabs_pos|].
  eapply Rle_trans; [exact He|]. change (u_ro radix2 53) with unit_roundoff.
  pose proof unit_pos. apply (Rmult_le_reg_r (1 + unit_roundoff)); [lra|].
  unfold Rdiv. rewrite Rmult_assoc, Rinv_l by lra. nra.
Qed.

(** any rounding *)
Lemma round_error z : Rabs (round64 z - z) <= unit_roundoff * Rabs z + tiny.
Proof.
  destruct (error_N_FLT radix2 (-1074) 53 eq_refl (λ z, negb (Z.even z)) z) as (e & eta & He & Ht & _ & Hr).
  change (round64 z) with (round radix2 (FLT_exp (-1074) 53) (Znearest (λ z, negb (Z.even z))) z).
  rewrite Hr. replace (z * (1 + e) + eta - z) with (e * z + eta) by ring.
  eapply Rle_trans; [apply Rabs_triang|]. rewrite Rabs_mult.
  apply Rplus_le_compat; [|exact Ht]. apply Rmult_le_compat_r; [apply Rabs_pos|exact He].
Qed.

(** *** sums *)
Definition rsum (l : list R) : R := foldr Rplus 0 l.
Definition real_sum (l : list f64) : R := rsum (map (λ x, R64 x) l).
Definition abs_sum (l : list f64) : R := rsum (map (λ x, Rabs (R64 x)) l).

Lemma abs_sum_pos l : 0 <= abs_sum l.
Proof. unfold abs_sum. induction l as [|x l IH]; simpl; [lra|]. pose proof (Rabs_pos (R64 x)). lra. Qed.

Lemma foldl_add_valid l : ∀ a, valid a → Forall valid l → valid (foldl fadd a l).
Proof. induction l as [|x l IH]; intros a Ha Hl; simpl; [done|]. apply Forall_cons in Hl as [Hx Hl]. apply IH; [by apply fadd_valid|done]. Qed.

Lemma foldl_add_fin l : ∀ a, valid a → Forall valid l → fin (foldl fadd a l) → fin a ∧ Forall (λ x, fin x) l.
Proof.
  induction l as [|x l IH]; intros a Ha Hl Hf; simpl in *; [done|]. apply Forall_cons in Hl as [Hx Hl].
  destruct (IH (fadd a x)) as [H1 H2]; [by apply fadd_valid|done|done|].
  destruct (fadd_fin a x) as (G1 & G2 & _); [done..|]. by split; [|constructor].
Qed.

Lemma pow_u_ge1 n : 1 <= (1 + unit_roundoff) ^ n.
Proof. pose proof unit_pos. apply pow_R1_Rle. lra. Qed.

Lemma sum_error l : ∀ a, valid a → Forall valid l → fin (foldl fadd a l) →
  Rabs (R64 (foldl fadd a l) - (R64 a + real_sum l))
    <= ((1 + unit_roundoff) ^ length l - 1) * (Rabs (R64 a) + abs_sum l).
Proof.
  induction l as [|x l IH]; intros a Ha Hl Hf.
  - simpl. unfold real_sum, abs_sum. simpl. rewrite Rplus_0_r, Rminus_diag_eq, Rabs_R0 by done. pose proof (Rabs_pos (R64 a)). lra.
  - apply Forall_cons in Hl as [Hx Hl]. cbn [foldl] in *.
    pose proof (foldl_add_fin l (fadd a x)) as Hs. destruct Hs as [Hs _]; [by apply fadd_valid|done|done|].
    pose proof (fadd_error a x Ha Hx Hs) as He.
    pose proof (IH (fadd a x) ltac:(by apply fadd_valid) Hl Hf) as Hi.
    unfold real_sum, abs_sum in *. cbn [map rsum foldr length]. fold (rsum (map (λ x, R64 x) l)) in *.
    fold (rsum (map (λ x, Rabs (R64 x)) l)) in *.
    set (S := rsum (map (λ x, R64 x) l)) in *. set (A := rsum (map (λ x, Rabs (R64 x)) l)) in *.
    assert (0 <= A) as HA by apply (abs_sum_pos l).
    set (y := R64 (fadd a x)) in *. set (u := unit_roundoff) in *. set (r := R64 (foldl fadd (fadd a x) l)) in *.
    set (ra := R64 a) in *. set (rx := R64 x) in *.
    assert (0 < u) by apply unit_pos. set (q := (1 + u) ^ length l) in *.
    assert (1 <= q) by apply (pow_u_ge1 (length l)).
    assert (Rabs (ra + rx) <= Rabs ra + Rabs rx) as Ht by apply Rabs_triang.
    assert (Rabs y <= (1 + u) * (Rabs ra + Rabs rx)) as Hy.
    { replace y with (ra + rx + (y - (ra + rx))) by ring. eapply Rle_trans; [apply Rabs_triang|]. nra. }
    replace (r - (ra + (rx + S))) with (r - (y + S) + (y - (ra + rx))) by ring.
    eapply Rle_trans; [apply Rabs_triang|].
    cbn [Rpow_def.pow]. fold q. pose proof (Rabs_pos ra). pose proof (Rabs_pos rx).
    apply (Rle_trans _ ((q - 1) * ((1 + u) * (Rabs ra + Rabs rx) + A) + u * (Rabs ra + Rabs rx))).
    2:{ assert (0 <= A * (u * q)) by (apply Rmult_le_pos; [lra|apply Rmult_le_pos; lra]). nra. }
    apply Rplus_le_compat; [|nra]. eapply Rle_trans; [exact Hi|]. apply Rmult_le_compat_l; lra.
Qed.

Lemma sum0_error l : Forall valid l → fin (foldl fadd fzero l) →
  Rabs (R64 (foldl fadd fzero l) - real_sum l) <= ((1 + unit_roundoff) ^ length l - 1) * abs_sum l.
Proof.
  intros Hl Hf. pose proof (sum_error l fzero eq_refl Hl Hf) as H. simpl (R64 fzero) in H.
  by rewrite Rplus_0_l, Rabs_R0, Rplus_0_l in H.
Qed.

Lemma rsum_perm l1 l2 : l1 ≡ₚ l2 → rsum l1 = rsum l2.
Proof. induction 1; simpl; lra. Qed.

(** *** affine forms *)
Definition terms (l : list (f64 * f64)) : R := rsum (map (λ p : f64 * f64, R64 p.1 * R64 p.2) l).
Definition abs_terms (l : list (f64 * f64)) : R := rsum (map (λ p : f64 * f64, Rabs (R64 p.1 * R64 p.2)) l).
Definition form (a : f64) (l : list (f64 * f64)) : f64 := foldl (λ y p, fadd y (fmul p.1 p.2)) a l.

Lemma abs_terms_pos l : 0 <= abs_terms l.
Proof. unfold abs_terms. induction l as [|x l IH]; cbn [map rsum foldr] in *; [lra|]. fold (rsum (map (λ p : f64 * f64, Rabs (R64 p.1 * R64 p.2)) l)). pose proof (Rabs_pos (R64 x.1 * R64 x.2)). lra. Qed.

Lemma form_valid l : ∀ a, valid a → Forall (λ p : f64 * f64, valid p.1 ∧ valid p.2) l → valid (form a l).
Proof.
  induction l as [|p l IH]; intros a Ha Hl; simpl; [done|]. apply Forall_cons in Hl as [[H1 H2] Hl].
  apply IH; [|done]. apply fadd_valid; [done|by apply fmul_valid].
Qed.

Lemma form_fin l : ∀ a, valid a → Forall (λ p : f64 * f64, valid p.1 ∧ valid p.2) l → fin (form a l) →
  fin a ∧ Forall (λ p : f64 * f64, fin (fmul p.1 p.2)) l.
Proof.
  induction l as [|p l IH]; intros a Ha Hl Hf; simpl in *; [done|]. apply Forall_cons in Hl as [[H1 H2] Hl].
  destruct (IH (fadd a (fmul p.1 p.2))) as [G1 G2]; [by apply fadd_valid; [|apply fmul_valid]|done|done|].
  destruct (fadd_fin a (fmul p.1 p.2)) as (G3 & G4 & _); [done|by apply fmul_valid|done|]. by split; [|constructor].
Qed.

Lemma form_error l : ∀ a, valid a → Forall (λ p : f64 * f64, valid p.1 ∧ valid p.2) l → fin (form a l) →
  Rabs (R64 (form a l) - (R64 a + terms l)) <=
    ((1 + unit_roundoff) ^ length l - 1) * Rabs (R64 a) +
    ((1 + unit_roundoff) ^ S (length l) - 1) * abs_terms l +
    INR (length l) * (1 + unit_roundoff) ^ length l * tiny.
Proof.
  induction l as [|p l IH]; intros a Ha Hl Hf.
  - unfold terms, abs_terms. simpl. rewrite Rplus_0_r, Rminus_diag_eq, Rabs_R0 by done. pose proof (Rabs_pos (R64 a)). lra.
  - apply Forall_cons in Hl as [[V1 V2] Hl]. unfold form in Hf |- *. cbn [foldl] in Hf |- *. fold (form (fadd a (fmul p.1 p.2)) l) in Hf |- *.
    assert (valid (fmul p.1 p.2)) as Vp by by apply fmul_valid.
    pose proof (form_fin l (fadd a (fmul p.1 p.2))) as Hs. destruct Hs as [Hs _]; [by apply fadd_valid|done|done|].
    pose proof (fadd_error _ _ Ha Vp Hs) as He.
    destruct (fadd_fin _ _ Ha Vp Hs) as (_ & Fp & _). destruct (fmul_fin _ _ V1 V2 Fp) as (_ & _ & Hmul).
    pose proof (round_error (R64 p.1 * R64 p.2)) as Hm. rewrite <- Hmul in Hm.
    pose proof (IH (fadd a (fmul p.1 p.2)) ltac:(by apply fadd_valid) Hl Hf) as Hi.
    unfold terms, abs_terms in *. cbn [map rsum foldr length]. fold (rsum (map (λ p : f64 * f64, R64 p.1 * R64 p.2) l)) in *.
    fold (rsum (map (λ p : f64 * f64, Rabs (R64 p.1 * R64 p.2)) l)) in *.
    set (S_ := rsum (map (λ p : f64 * f64, R64 p.1 * R64 p.2) l)) in *. set (A := rsum (map (λ p : f64 * f64, Rabs (R64 p.1 * R64 p.2)) l)) in *.
    assert (0 <= A) as HA by apply (abs_terms_pos l).
    rewrite S_INR. set (n := INR (length l)) in *. assert (0 <= n) by apply pos_INR.
    set (y := R64 (fadd a (fmul p.1 p.2))) in *. set (u := unit_roundoff) in *.
    set (r := R64 (form (fadd a (fmul p.1 p.2)) l)) in *.
    set (ra := R64 a) in *. set (rp := R64 (fmul p.1 p.2)) in *. set (t := R64 p.1 * R64 p.2) in *.
    assert (0 < u) by apply unit_pos. cbn [Rpow_def.pow] in *. set (q := (1 + u) ^ length l) in *.
    assert (1 <= q) by apply (pow_u_ge1 (length l)). pose proof tiny_pos as Htiny. set (w := tiny) in *.
    pose proof (Rabs_pos ra). pose proof (Rabs_pos t).
    assert (Rabs rp <= (1 + u) * Rabs t + w) as Hrp.
    { replace rp with (t + (rp - t)) by ring. eapply Rle_trans; [apply Rabs_triang|]. lra. }
    assert (Rabs (ra + rp) <= Rabs ra + Rabs rp) as Ht by apply Rabs_triang.
    assert (Rabs y <= (1 + u) * (Rabs ra + Rabs rp)) as Hy.
    { replace y with (ra + rp + (y - (ra + rp))) by ring. eapply Rle_trans; [apply Rabs_triang|]. nra. }
    replace (r - (ra + (t + S_))) with (r - (y + S_) + ((y - (ra + rp)) + (rp - t))) by ring.
    eapply Rle_trans; [apply Rabs_triang|].
    assert (Rabs (y - (ra + rp) + (rp - t)) <= u * (Rabs ra + ((1 + u) * Rabs t + w)) + (u * Rabs t + w)) as Herr.
    { eapply Rle_trans; [apply Rabs_triang|]. apply Rplus_le_compat; [|exact Hm]. eapply Rle_trans; [exact He|].
      apply Rmult_le_compat_l; lra. }
    assert (Rabs y <= (1 + u) * (Rabs ra + ((1 + u) * Rabs t + w))) as Hy2.
    { eapply Rle_trans; [exact Hy|]. apply Rmult_le_compat_l; lra. }
    assert ((q - 1) * Rabs y <= (q - 1) * ((1 + u) * (Rabs ra + ((1 + u) * Rabs t + w)))) as Hq by (apply Rmult_le_compat_l; lra).
    clearbody u q n w A S_ y r ra rp t.
    assert (0 <= u * (n * q * w)) as Hx1 by (repeat apply Rmult_le_pos; lra).
    assert (0 <= u * ((1 + u) * q * A)) as Hx2 by (repeat apply Rmult_le_pos; lra).
    nra.
Qed.

(** *** monotone rounding *)
Lemma round_mono x y : x <= y → round64 x <= round64 y.
Proof. intros H. apply round_le; [apply fexp64_valid|apply valid_rnd_round_mode|done]. Qed.

Lemma form_mono l : ∀ l' a a', valid a → valid a' →
  Forall (λ p : f64 * f64, valid p.1 ∧ valid p.2) l → Forall (λ p : f64 * f64, valid p.1 ∧ valid p.2) l' →
  fin (form a l) → fin (form a' l') → R64 a <= R64 a' →
  Forall2 (λ p p' : f64 * f64, R64 p.1 * R64 p.2 <= R64 p'.1 * R64 p'.2) l l' →
  R64 (form a l) <= R64 (form a' l').
Proof.
  induction l as [|p l IH]; intros l' a a' Ha Ha' Hl Hl' Hf Hf' Hle H2.
  - apply Forall2_nil_inv_l in H2 as ->. done.
  - apply Forall2_cons_inv_l in H2 as (p' & l2 & Hp & H2 & ->).
    apply Forall_cons in Hl as [[V1 V2] Hl]. apply Forall_cons in Hl' as [[V3 V4] Hl'].
    assert (valid (fmul p.1 p.2)) as Vp by by apply fmul_valid.
    assert (valid (fmul p'.1 p'.2)) as Vp' by by apply fmul_valid.
    unfold form in Hf, Hf' |- *. cbn [foldl] in *. fold (form (fadd a (fmul p.1 p.2)) l) in *. fold (form (fadd a' (fmul p'.1 p'.2)) l2) in *.
    destruct (form_fin l (fadd a (fmul p.1 p.2))) as [Hs _]; [by apply fadd_valid|done|done|].
    destruct (form_fin l2 (fadd a' (fmul p'.1 p'.2))) as [Hs' _]; [by apply fadd_valid|done|done|].
    assert (R64 (fadd a (fmul p.1 p.2)) <= R64 (fadd a' (fmul p'.1 p'.2))) as Hadd.
    { destruct (fadd_fin _ _ Ha Vp Hs) as (_ & Fp & R1). destruct (fadd_fin _ _ Ha' Vp' Hs') as (_ & Fp' & R2).
      rewrite R1, R2. apply round_mono, Rplus_le_compat; [done|].
      destruct (fmul_fin _ _ V1 V2 Fp) as (_ & _ & ->). destruct (fmul_fin _ _ V3 V4 Fp') as (_ & _ & ->).
      by apply round_mono. }
    apply IH; try done; by apply fadd_valid.
Qed.

(** a share of the same positive total *)
Lemma fdiv_mono x y z : valid x → valid y → valid z → fin z → 0 < R64 z → fin (fdiv x z) → fin (fdiv y z) →
  R64 x <= R64 y → R64 (fdiv x z) <= R64 (fdiv y z).
Proof.
  intros Vx Vy Vz Fz Pz H1 H2 Hle.
  destruct (fdiv_fin x z) as [_ ->]; [done..|lra|done|]. destruct (fdiv_fin y z) as [_ ->]; [done..|lra|done|].
  apply round_mono. unfold Rdiv. apply Rmult_le_compat_r; [|done]. apply Rlt_le, Rinv_0_lt_compat. done.
Qed.

(** *** averages *)
Lemma average_error l : Forall valid l → (0 < Z.of_nat (length l) <= 2 ^ 53)%Z →
  fin (foldl fadd fzero l) → fin (fdiv (foldl fadd fzero l) (f64_of_Z (Z.of_nat (length l)))) →
  Rabs (R64 (fdiv (foldl fadd fzero l) (f64_of_Z (Z.of_nat (length l)))) - real_sum l / INR (length l))
    <= ((1 + unit_roundoff) ^ S (length l) - 1) * (abs_sum l / INR (length l)) + tiny.
Proof.
  intros Hl Hn Hs Hd.
  pose proof (sum0_error l Hl Hs) as He. pose proof (foldl_add_valid l fzero eq_refl Hl) as Vs.
  assert (R64 (f64_of_Z (Z.of_nat (length l))) = INR (length l)) as Hln by (rewrite of_Z_exact by lia; by rewrite INR_IZR_INZ).
  destruct (of_Z_round (Z.of_nat (length l))) as [_ Fn]; [lia|].
  assert (0 < INR (length l)) as Hpos by (apply lt_0_INR; lia).
  destruct (fdiv_fin _ _ Vs (of_Z_valid _) Fn ltac:(rewrite Hln; lra) Hd) as [_ Hq]. rewrite Hln in Hq.
  pose proof (round_error (R64 (foldl fadd fzero l) / INR (length l))) as Hr. rewrite <- Hq in Hr.
  set (v := R64 (fdiv _ _)) in *. set (s := R64 (foldl fadd fzero l)) in *. set (S_ := real_sum l) in *.
  assert (0 <= abs_sum l) as HA by apply abs_sum_pos. set (A := abs_sum l) in *.
  set (n := INR (length l)) in *. cbn [Rpow_def.pow]. set (q := (1 + unit_roundoff) ^ length l) in *.
  assert (1 <= q) by apply pow_u_ge1. pose proof unit_pos. set (u := unit_roundoff) in *. set (w := tiny) in *.
  assert (Rabs S_ <= A) as HSA.
  { unfold S_, A, real_sum, abs_sum. clear. induction l as [|x l IH]; cbn [map rsum foldr]; [rewrite Rabs_R0; lra|].
    eapply Rle_trans; [apply Rabs_triang|]. fold (rsum (map (λ x, R64 x) l)). fold (rsum (map (λ x, Rabs (R64 x)) l)). lra. }
  assert (0 < / n) as Hin by by apply Rinv_0_lt_compat. unfold Rdiv in *. set (k := / n) in *.
  clearbody v s S_ A n q u w k.
  assert (Rabs s <= q * A) as Hsa.
  { replace s with (S_ + (s - S_)) by ring. eapply Rle_trans; [apply Rabs_triang|]. nra. }
  rewrite Rabs_mult, (Rabs_pos_eq k) in Hr by lra.
  replace (v - S_ * k) with ((v - s * k) + (s - S_) * k) by ring.
  eapply Rle_trans; [apply Rabs_triang|]. rewrite Rabs_mult, (Rabs_pos_eq k) by lra.
  assert (Rabs (s - S_) * k <= (q - 1) * A * k) by (apply Rmult_le_compat_r; lra).
  assert (u * (Rabs s * k) <= u * (q * A * k)) by (apply Rmult_le_compat_l; [lra|]; apply Rmult_le_compat_r; lra).
  nra.
Qed.

(** *** integer counts *)
Lemma counts_sum (zs : list Z) : ∀ a, (0 <= a)%Z → Forall (λ z, (0 <= z)%Z) zs → (a + foldr Z.add 0%Z zs <= 2 ^ 53)%Z →
  fin (foldl fadd (f64_of_Z a) (f64_of_Z <$> zs)) ∧
  R64 (foldl fadd (f64_of_Z a) (f64_of_Z <$> zs)) = IZR (a + foldr Z.add 0%Z zs) ∧
  valid (foldl fadd (f64_of_Z a) (f64_of_Z <$> zs)).
Proof.
  assert (∀ zs, Forall (λ z, (0 <= z)%Z) zs → (0 <= foldr Z.add 0%Z zs)%Z) as Hnn.
  { intros l. induction 1; simpl; lia. }
  assert (∀ a z, (0 <= a)%Z → (0 <= z)%Z → (a + z <= 2 ^ 53)%Z → ∀ x, valid x → fin x → R64 x = IZR a →
    fin (fadd x (f64_of_Z z)) ∧ R64 (fadd x (f64_of_Z z)) = IZR (a + z)) as Hone.
  { intros a z Ha Hz Haz x [bx Hx]%valid_b Fx Rx. destruct (valid_b _ (of_Z_valid z)) as [bz Hbz].
    pose proof (of_Z_exact z ltac:(lia)) as Rz. destruct (of_Z_round z ltac:(lia)) as [_ Fz].
    rewrite Hbz in *. subst x. rewrite is_finite_SF_B2SF, SF2R_B2SF in *.
    pose proof (Bplus_correct 53 1024 prec53 emax1024 mode_NE bx bz Fx Fz) as HP.
    rewrite Rx, Rz, <- plus_IZR in HP.
    assert (round64 (IZR (a + z)) = IZR (a + z)) as Hg.
    { apply round_generic; [apply valid_rnd_round_mode|]. rewrite <- (of_Z_exact (a + z)) by lia. apply valid_format, of_Z_valid. }
    rewrite Hg in HP. rewrite Rlt_bool_true in HP.
    - destruct HP as (HR & HF & _). rewrite fadd_B, is_finite_SF_B2SF, SF2R_B2SF. by split.
    - rewrite <- abs_IZR. apply (Rle_lt_trans _ (bpow radix2 53)).
      + change (bpow radix2 53) with (IZR (2 ^ 53)). apply IZR_le. lia.
      + apply bpow_lt. lia. }
  assert (∀ zs x a, valid x → fin x → R64 x = IZR a → (0 <= a)%Z → Forall (λ z, (0 <= z)%Z) zs → (a + foldr Z.add 0%Z zs <= 2 ^ 53)%Z →
    fin (foldl fadd x (f64_of_Z <$> zs)) ∧ R64 (foldl fadd x (f64_of_Z <$> zs)) = IZR (a + foldr Z.add 0%Z zs) ∧
    valid (foldl fadd x (f64_of_Z <$> zs))) as Hgen.
  { clear zs. induction zs as [|z zs IH]; intros x a Vx Fx Rx Ha Hz Hle.
    - cbn [foldr foldl fmap list_fmap] in *. by rewrite Z.add_0_r.
    - apply Forall_cons in Hz as [Hz Hzs]. cbn [foldr] in *. rewrite fmap_cons. cbn [foldl].
      pose proof (Hnn zs Hzs). destruct (Hone a z Ha Hz ltac:(lia) x Vx Fx Rx) as [F1 R1].
      rewrite Z.add_assoc. apply IH; [apply fadd_valid; [done|apply of_Z_valid]|done|done|lia|done|lia]. }
  intros a Ha Hz Hle. pose proof (Hnn zs Hz). apply Hgen; [apply of_Z_valid|apply of_Z_round; lia|by apply of_Z_exact; lia|done..].
Qed.

(** shares of integer counts add up to one within one unit roundoff *)
Lemma shares_sum (zs : list Z) : Forall (λ z, (0 <= z)%Z) zs → (0 < foldr Z.add 0%Z zs <= 2 ^ 53)%Z →
  let total := foldl fadd fzero (f64_of_Z <$> zs) in
  Rabs (real_sum ((λ z, fdiv (f64_of_Z z) total) <$> zs) - 1) <= unit_roundoff.
Proof.
  intros Hz Hle total. destruct (counts_sum zs 0 ltac:(lia) Hz ltac:(lia)) as (Ft & Rt & Vt).
  change (f64_of_Z 0) with fzero in *. fold total in Ft, Rt, Vt. rewrite Z.add_0_l in Rt.
  set (T := foldr Z.add 0%Z zs) in *. assert (0 < IZR T) as HT by (apply IZR_lt; lia).
  assert (∀ z, (0 <= z <= 2 ^ 53)%Z → Rabs (R64 (fdiv (f64_of_Z z) total) - IZR z / IZR T) <= unit_roundoff * (IZR z / IZR T)) as Hone.
  { intros z Hz0. pose proof (of_Z_exact z ltac:(lia)) as Rz. destruct (of_Z_round z ltac:(lia)) as [_ Fz].
    pose proof (of_Z_valid z) as Vz. destruct (valid_b _ Vz) as [a Ha]. destruct (valid_b _ Vt) as [b Hb].
    rewrite Ha, Hb in *. rewrite fdiv_B, is_finite_SF_B2SF, !SF2R_B2SF in *.
    pose proof (Bdiv_correct 53 1024 prec53 emax1024 mode_NE a b ltac:(lra)) as HD. rewrite Rz, Rt in HD.
    assert (0 <= IZR z / IZR T) as Hq by (apply Rmult_le_pos; [apply IZR_le; lia|apply Rlt_le, Rinv_0_lt_compat; lra]).
    assert (IZR z / IZR T <= bpow radix2 53) as Hq2.
    { apply (Rle_trans _ (IZR z / 1)).
      - unfold Rdiv. apply Rmult_le_compat_l; [apply IZR_le; lia|]. apply Rinv_le; [lra|]. apply IZR_le. lia.
      - unfold Rdiv. rewrite Rinv_1, Rmult_1_r. change (bpow radix2 53) with (IZR (2 ^ 53)). apply IZR_le. lia. }
    rewrite Rlt_bool_true in HD.
    2:{ apply (Rle_lt_trans _ (bpow radix2 53)); [|apply bpow_lt; lia].
        apply abs_round_le_generic; [apply fexp64_valid|apply valid_rnd_round_mode|apply generic_format_bpow; by vm_compute|].
        by rewrite Rabs_pos_eq. }
    destruct HD as (-> & _).
    destruct (decide (z = 0)%Z) as [->|Hnz].
    { replace (IZR 0 / IZR T) with 0 by (unfold Rdiv; rewrite Rmult_0_l; done).
      rewrite round_0 by apply valid_rnd_round_mode. rewrite Rminus_0_r, Rabs_R0. lra. }
    destruct (relative_error_N_FLT_ex radix2 (-1074) 53 eq_refl (λ z, negb (Z.even z)) (IZR z / IZR T)) as (e & He & Hr).
    { rewrite Rabs_pos_eq by done. apply (Rle_trans _ (bpow radix2 (-53))); [apply bpow_le; lia|].
      apply (Rle_trans _ (1 / IZR T)).
      - unfold Rdiv. rewrite Rmult_1_l. change (bpow radix2 (-53)) with (bpow radix2 (Z.opp 53)). rewrite bpow_opp. apply Rinv_le; [done|].
        change (bpow radix2 53) with (IZR (2 ^ 53)). apply IZR_le. lia.
      - unfold Rdiv. apply Rmult_le_compat_r; [apply Rlt_le, Rinv_0_lt_compat; lra|]. apply IZR_le. lia. }
    change (round64 (IZR z / IZR T)) with (round radix2 (FLT_exp (-1074) 53) (Znearest (λ z, negb (Z.even z))) (IZR z / IZR T)).
    rewrite Hr. replace (IZR z / IZR T * (1 + e) - IZR z / IZR T) with (e * (IZR z / IZR T)) by ring.
    rewrite Rabs_mult, (Rabs_pos_eq (IZR z / IZR T)) by done. apply Rmult_le_compat_r; [done|exact He]. }
  assert (∀ l, Forall (λ z, (0 <= z)%Z) l → (foldr Z.add 0%Z l <= 2 ^ 53)%Z →
    Rabs (real_sum ((λ z, fdiv (f64_of_Z z) total) <$> l) - IZR (foldr Z.add 0%Z l) / IZR T)
      <= unit_roundoff * (IZR (foldr Z.add 0%Z l) / IZR T)) as Hall.
  { induction l as [|z l IH]; intros Hl Hsum.
    - unfold real_sum. simpl. unfold Rdiv. rewrite Rmult_0_l, Rminus_0_r, Rabs_R0. lra.
    - apply Forall_cons in Hl as [Hz0 Hl]. cbn [foldr] in *.
      assert (0 <= foldr Z.add 0 l)%Z by (clear -Hl; induction Hl; simpl; lia).
      specialize (IH Hl ltac:(lia)). specialize (Hone z ltac:(lia)).
      rewrite fmap_cons. unfold real_sum in *. cbn [map rsum foldr].
      fold (rsum (map (λ x, R64 x) ((λ z, fdiv (f64_of_Z z) total) <$> l))).
      rewrite plus_IZR. set (s := rsum _) in *. set (v := R64 (fdiv (f64_of_Z z) total)) in *. unfold Rdiv in *. rewrite Rmult_plus_distr_r.
      set (p := IZR z * / IZR T) in *. set (q := IZR (foldr Z.add 0%Z l) * / IZR T) in *.
      replace (v + s - (p + q)) with ((v - p) + (s - q)) by ring. eapply Rle_trans; [apply Rabs_triang|]. lra. }
  specialize (Hall zs Hz ltac:(lia)). fold T in Hall. replace (IZR T / IZR T) with 1 in Hall by (field; lra).
  by rewrite Rmult_1_r in Hall.
Qed.

(** *** the logistic function *)
Lemma fle_R x y : valid x → valid y → fin x → fin y → fleb x y = true ↔ R64 x <= R64 y.
Proof.
  intros [a ->]%valid_b [b ->]%valid_b Fa Fb. rewrite is_finite_SF_B2SF in *. rewrite fleb_R, !SF2R_B2SF by done.
  by case Rle_bool_spec; intros H; [|split; [done|]; intros H2; exfalso; apply (Rlt_irrefl (B2R a)); apply (Rle_lt_trans _ (B2R b))].
Qed.

Lemma number_cases x : number x → (fin x ∧ 0 <= R64 x) ∨ x = S754_infinity false.
Proof.
  intros [[b ->]%valid_b H]. destruct (nonneg_cases b H) as [[F P]| ->]; [left|by right].
  by rewrite is_finite_SF_B2SF, SF2R_B2SF.
Qed.

Lemma fadd_one_mono x y : number x → number y → fleb x y = true →
  fleb (fadd fone x) (fadd fone y) = true.
Proof.
  intros Nx Ny Hle. assert (number fone) as N1 by (split; by vm_compute).
  pose proof (number_add _ _ N1 Nx) as Sx. pose proof (number_add _ _ N1 Ny) as Sy.
  destruct (number_cases _ Sy) as [[Fy _]|Ey].
  2:{ rewrite Ey. destruct Sx as [[b Hb]%valid_b Px]. rewrite Hb in *. by apply le_inf. }
  destruct (fadd_fin fone y) as (_ & F1 & R1); [done|apply Ny|done|].
  assert (fin x) as Fx.
  { destruct (number_cases _ Nx) as [[? _]| ->]; [done|]. by destruct y as [|[]| |]. }
  assert (R64 x <= R64 y) as HR by (apply fle_R; [apply Nx|apply Ny|done..]).
  destruct (number_cases _ Nx) as [[_ Px]|Ex]; [|by rewrite Ex in Fx].
  assert (R64 (fadd fone x) = round64 (R64 fone + R64 x) ∧ fin (fadd fone x)) as [R2 F2].
  { destruct Nx as [[a Ha]%valid_b _], Ny as [[b Hb]%valid_b _]. subst x y.
    rewrite b1_eq, fadd_B, is_finite_SF_B2SF, !SF2R_B2SF in *.
    pose proof (Bplus_correct 53 1024 prec53 emax1024 mode_NE Bone a eq_refl Fx) as HP.
    rewrite Rlt_bool_true in HP; [by destruct HP as (HR1 & HF1 & _)|].
    rewrite Rabs_pos_eq.
    - apply (Rle_lt_trans _ (round64 (B2R (Bone : b64) + B2R b))); [apply round_mono; lra|].
      rewrite <- R1. apply abs_B2R_lt_emax || (apply (Rle_lt_trans _ (Rabs (B2R (Bplus mode_NE Bone b)))); [apply Rle_abs|apply abs_B2R_lt_emax]).
    - apply round_ge_generic; [apply fexp64_valid|apply valid_rnd_round_mode|apply generic_format_0|].
      rewrite Bone_correct. lra. }
  apply fle_R; [apply Sx|apply Sy|done|done|]. rewrite R1, R2. apply round_mono. lra.
Qed.

Lemma logistic_mono x y : number x → number y → fleb x y = true →
  fleb (fdiv fone (fadd fone y)) (fdiv fone (fadd fone x)) = true.
Proof.
  intros Nx Ny Hle. assert (number fone) as N1 by (split; by vm_compute).
  pose proof (number_add _ _ N1 Nx) as Sx. pose proof (number_add _ _ N1 Ny) as Sy.
  pose proof (fadd_one_mono x y Nx Ny Hle) as Hs. pose proof (logistic_unit x Nx) as [H0 H1].
  pose proof (logistic_unit y Ny) as [G0 G1].
  destruct (number_cases _ Sy) as [[Fy _]|Ey]; [|by rewrite Ey].
  assert (fin (fadd fone x)) as Fx.
  { destruct (number_cases _ Sx) as [[? _]|Ex]; [done|]. rewrite Ex in Hs. by destruct (fadd fone y) as [|[]| |]. }
  assert (∀ z, number z → fin (fadd fone z) → 1 <= R64 (fadd fone z)) as Hge.
  { intros z Nz Fz. destruct (fadd_ge fone z) as [G _]; [done|apply Nz|done|apply Nz|].
    apply fle_R in G; [|done|apply fadd_valid; [done|apply Nz]|done|done].
    rewrite b1_eq, SF2R_B2SF, Bone_correct in G. by rewrite b1_eq. }
  assert (∀ z, number z → fleb fzero (fdiv fone (fadd fone z)) = true → fleb (fdiv fone (fadd fone z)) fone = true →
    fin (fdiv fone (fadd fone z))) as Hfin.
  { intros z Nz _ H. destruct (fdiv fone (fadd fone z)) as [|[]| |] eqn:Hd; try done.
    exfalso. assert (valid (fadd fone z)) as [b Hb]%valid_b by (apply fadd_valid; [done|apply Nz]).
    pose proof (logistic_unit z Nz) as [L _]. rewrite Hd in L. done. }
  pose proof (Hfin x Nx H0 H1) as F1. pose proof (Hfin y Ny G0 G1) as F2.
  destruct Sx as [Vx _], Sy as [Vy _]. pose proof (Hge x Nx Fx). pose proof (Hge y Ny Fy).
  apply fle_R; [by apply fdiv_valid|by apply fdiv_valid|done|done|].
  destruct (fdiv_fin fone (fadd fone y)) as [_ ->]; [done|done|done|lra|done|].
  destruct (fdiv_fin fone (fadd fone x)) as [_ ->]; [done|done|done|lra|done|].
  apply round_mono. rewrite b1_eq at 1 3. rewrite SF2R_B2SF, Bone_correct. unfold Rdiv. rewrite !Rmult_1_l.
  apply fle_R in Hs; [|done..]. apply Rinv_le; lra.
Qed.
