(** Lemmas for property C130: rounded shares of a rounded sum. *)
From Coq Require Import Reals Lra.
From Flocq Require Import Core.Core IEEE754.BinarySingleNaN.
From Verif Require Import Base Lib FloatLib Doc SpecRegr RealLib AccLib.
Local Open Scope R_scope.

Lemma pow_u_inv n : (1 + unit_roundoff) ^ n * (1 - INR n * unit_roundoff) <= 1.
Proof.
  pose proof unit_pos as Hu. set (u := unit_roundoff) in *. induction n as [|n IH]; [simpl; lra|].
  rewrite S_INR. cbn [Rpow_def.pow]. pose proof (pow_u_ge1 n) as Hq. fold u in Hq. pose proof (pos_INR n).
  set (q := (1 + u) ^ n) in *. set (k := INR n) in *.
  replace ((1 + u) * q * (1 - (k + 1) * u)) with (q * (1 - k * u) - q * (k + 1) * (u * u)) by ring.
  assert (0 <= q * (k + 1) * (u * u)); [|lra].
  apply Rmult_le_pos; [apply Rmult_le_pos; lra|]. apply Rmult_le_pos; lra.
Qed.

Lemma pow_u_linear n : INR n * unit_roundoff <= / 4 → (1 + unit_roundoff) ^ n - 1 <= 4 / 3 * (INR n * unit_roundoff).
Proof.
  intros Hn. pose proof (pow_u_inv n) as Hi. pose proof (pow_u_ge1 n). pose proof unit_pos. pose proof (pos_INR n).
  assert (0 <= INR n * unit_roundoff) by (apply Rmult_le_pos; lra).
  set (q := (1 + unit_roundoff) ^ n) in *. set (d := INR n * unit_roundoff) in *. clearbody q d. nra.
Qed.

Lemma abs_is_real l : Forall (λ x, 0 <= R64 x) l → abs_sum l = real_sum l.
Proof.
  induction 1 as [|x l Hx _ IH]; [done|]. unfold abs_sum, real_sum in *. cbn [map rsum foldr]. rewrite Rabs_pos_eq by done.
  unfold rsum in IH. by rewrite IH.
Qed.

Lemma div_pos x y : 0 <= x → 0 < y → 0 <= x / y.
Proof. intros Hx Hy%Rinv_0_lt_compat. apply Rmult_le_pos; lra. Qed.

Lemma unit_fin x : fleb fzero x = true → fleb x fone = true → fin x.
Proof. by destruct x as [|[]| |]. Qed.

Lemma quotients l s : 0 < R64 s → valid s → fin s →
  Forall (λ x, valid x ∧ 0 <= R64 x ∧ fin (fdiv x s)) l →
  Rabs (real_sum (map (λ x, fdiv x s) l) - real_sum l / R64 s) <= unit_roundoff * (real_sum l / R64 s) + INR (length l) * tiny.
Proof.
  intros Hs Vs Fs. induction 1 as [|x l (Vx & Px & Fx) _ IH].
  - unfold real_sum. simpl. unfold Rdiv. rewrite !Rmult_0_l, Rminus_0_r, Rabs_R0. lra.
  - cbn [length]. rewrite S_INR. unfold real_sum in *. cbn [map rsum foldr]. fold (rsum (map (λ x, R64 x) l)).
    fold (rsum (map (λ x, R64 x) (map (λ x, fdiv x s) l))).
    set (A := rsum (map (λ x, R64 x) (map (λ x, fdiv x s) l))) in *. set (B := rsum (map (λ x, R64 x) l)) in *.
    destruct (fdiv_fin x s Vx Vs Fs ltac:(lra) Fx) as [_ Hq]. pose proof (round_error (R64 x / R64 s)) as Hr.
    rewrite <- Hq in Hr. set (y := R64 (fdiv x s)) in *.
    assert (0 <= R64 x / R64 s) as Hp by (apply div_pos; lra). rewrite (Rabs_pos_eq _ Hp) in Hr.
    replace ((R64 x + B) / R64 s) with (R64 x / R64 s + B / R64 s) by (field; lra).
    replace (y + A - (R64 x / R64 s + B / R64 s)) with ((y - R64 x / R64 s) + (A - B / R64 s)) by ring.
    eapply Rle_trans; [apply Rabs_triang|]. lra.
Qed.

(** nonnegative numbers divided by their sum *)
Lemma shares_sum_one l : Forall number l → (Z.of_nat (length l) <= 2 ^ 51)%Z →
  fltb fzero (foldl fadd fzero l) = true → foldl fadd fzero l ≠ S754_infinity false →
  Rabs (real_sum (map (λ x, fdiv x (foldl fadd fzero l)) l) - 1) <= (2 * INR (length l) + 2) * unit_roundoff.
Proof.
  intros Hnum Hlen Hpos Hinf. pose proof (share_unit (λ x : f64, x) l) as Hsu.
  assert (number (foldl fadd fzero l)) as Nt.
  { rewrite <- (map_id l). apply running_sum; [apply number_zero|by rewrite map_id]. }
  destruct (number_cases _ Nt) as [[Ft Pt]|?]; [|done].
  assert (0 < R64 (foldl fadd fzero l)) as Rt.
  { set (s := foldl fadd fzero l) in *. clearbody s. destruct Nt as [[b Hb]%valid_b _]. rewrite Hb in *. rewrite is_finite_SF_B2SF in Ft.
    rewrite b0_eq, fltb_R in Hpos by done. rewrite SF2R_B2SF. revert Hpos. by case Rlt_bool_spec. }
  assert (Forall valid l) as Vl by (eapply Forall_impl; [exact Hnum|by intros x []]).
  destruct (foldl_add_fin l fzero eq_refl Vl Ft) as [_ Fl].
  assert (Forall (λ x, 0 <= R64 x) l) as Pl.
  { rewrite Forall_forall in *. intros x Hx. destruct (number_cases _ (Hnum x Hx)) as [[_ ?]|Hi]; [done|].
    specialize (Fl x Hx). by rewrite Hi in Fl. }
  pose proof (sum0_error l Vl Ft) as He. rewrite abs_is_real in He by done.
  pose proof (quotients l _ Rt (proj1 Nt) Ft) as Hq.
  assert (Forall (λ x, valid x ∧ 0 <= R64 x ∧ fin (fdiv x (foldl fadd fzero l))) l) as HH.
  { rewrite Forall_forall in *. intros x Hx. split; [by apply Vl|]. split; [by apply Pl|].
    destruct (Hsu x) as [A1 A2]; [by apply Forall_forall|done|done|done|]. by apply unit_fin. }
  specialize (Hq HH).
  assert (INR (length l) * unit_roundoff <= / 4) as Hn4.
  { rewrite INR_IZR_INZ. apply IZR_le in Hlen. unfold unit_roundoff.
    replace (bpow radix2 (-52)) with (/ 4503599627370496) by (vm_compute; lra).
    replace (IZR (2 ^ 51)) with 2251799813685248 in Hlen by (vm_compute; lra). lra. }
  pose proof (pow_u_linear _ Hn4) as Hg. pose proof (pow_u_ge1 (length l)) as Hg1.
  assert (INR (length l) * tiny <= / 2 * unit_roundoff) as Ht.
  { assert (tiny <= unit_roundoff * unit_roundoff * / 2).
    { unfold tiny, unit_roundoff. assert (bpow radix2 (-1074) <= bpow radix2 (-110)) as Hb by (apply bpow_le; lia).
      replace (bpow radix2 (-52)) with (bpow radix2 (-110) * bpow radix2 58) by (rewrite <- bpow_plus; done).
      replace (bpow radix2 58) with 288230376151711744 by (vm_compute; lra).
      assert (bpow radix2 (-110) = / 1298074214633706907132624082305024) as Hb2 by (vm_compute; lra). rewrite Hb2 in *. lra. }
    pose proof unit_pos. pose proof (pos_INR (length l)). nra. }
  pose proof unit_pos as Hu. pose proof (pos_INR (length l)) as Hk.
  set (P := real_sum (map _ l)) in *. set (T := real_sum l) in *. set (s := R64 (foldl fadd fzero l)) in *.
  set (g := (1 + unit_roundoff) ^ length l - 1) in *. set (u := unit_roundoff) in *. set (k := INR (length l)) in *. set (w := k * tiny) in *.
  assert (0 <= g) by (unfold g; lra). assert (g <= / 3) as Hg3 by lra.
  assert (0 <= T) as HT.
  { unfold T. rewrite <- abs_is_real by done. apply abs_sum_pos. }
  clearbody P T s g w k. clear Hg1.
  apply Rabs_le_inv in He. assert (T <= 3 / 2 * s) as HTs by nra.
  assert (0 < / s) as Hs' by by apply Rinv_0_lt_compat.
  assert (T / s <= 3 / 2) as Hts.
  { unfold Rdiv. apply Rle_trans with (3 / 2 * s * / s); [apply Rmult_le_compat_r; lra|]. right. field. lra. }
  assert (0 <= T / s) by (apply div_pos; lra).
  assert (Rabs (T / s - 1) <= g * (T / s)) as H1.
  { replace (T / s - 1) with ((T - s) * / s) by (field; lra). rewrite Rabs_mult, (Rabs_pos_eq (/ s)) by lra.
    unfold Rdiv. rewrite <- Rmult_assoc. apply Rmult_le_compat_r; [lra|]. apply Rabs_le. lra. }
  replace (P - 1) with ((P - T / s) + (T / s - 1)) by ring. eapply Rle_trans; [apply Rabs_triang|].
  set (z := T / s) in *. clearbody z. nra.
Qed.
