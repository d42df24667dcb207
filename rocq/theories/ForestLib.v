(** Float facts about ensembles: averages of numbers in [0,1], products in [0,1],
    neutral operations and exact quotients.  Uses Flocq, and so the axioms of the
    real numbers. *)
From Coq Require Import Reals Lra.
From Flocq Require Import Core.Core IEEE754.BinarySingleNaN.
From Flocq Require Plus_error.
From Verif Require Import Base RealLib AccLib.
Local Open Scope R_scope.

Definition in_unit (x : f64) : Prop := fleb fzero x = true ∧ fleb x fone = true.

Lemma R64_zero : R64 fzero = 0.
Proof. done. Qed.
Lemma R64_one : R64 fone = 1.
Proof. rewrite b1_eq, SF2R_B2SF. apply Bone_correct. Qed.

Lemma unit_R x : valid x → in_unit x ↔ fin x ∧ 0 <= R64 x <= 1.
Proof.
  intros V. split.
  - intros [H0 H1]. destruct (number_cases x (conj V H0)) as [[F P]| ->]; [|done].
    split; [done|]. split; [done|]. apply fle_R in H1; [|done..]. by rewrite R64_one in H1.
  - intros (F & H0 & H1). split; apply fle_R; try done. by rewrite R64_one.
Qed.

Lemma IZR_round z : (Z.abs z <= 2 ^ 53)%Z → round64 (IZR z) = IZR z.
Proof.
  intros Hz. apply round_generic; [apply valid_rnd_round_mode|]. rewrite <- (of_Z_exact z) by lia.
  apply valid_format, of_Z_valid.
Qed.

Lemma below_overflow r : 0 <= r <= IZR (2 ^ 53) → Rabs r < bpow radix2 1024.
Proof.
  intros Hr. rewrite Rabs_pos_eq by apply Hr. apply (Rle_lt_trans _ (bpow radix2 53)).
  - change (bpow radix2 53) with (IZR (2 ^ 53)). apply Hr.
  - apply bpow_lt. lia.
Qed.

Lemma round_between r a b : (Z.abs a <= 2 ^ 53)%Z → (Z.abs b <= 2 ^ 53)%Z → IZR a <= r <= IZR b →
  IZR a <= round64 r <= IZR b.
Proof.
  intros Ha Hb [H1 H2]. split.
  - rewrite <- (IZR_round a Ha) at 1. by apply round_mono.
  - rewrite <- (IZR_round b Hb). by apply round_mono.
Qed.

(** ** sums *)
Lemma fadd_small x y n : valid x → valid y → fin x → fin y → 0 <= R64 x → 0 <= R64 y →
  (0 <= n <= 2 ^ 53)%Z → R64 x + R64 y <= IZR n →
  fin (fadd x y) ∧ 0 <= R64 (fadd x y) <= IZR n.
Proof.
  intros [a ->]%valid_b [b ->]%valid_b. rewrite fadd_B, !is_finite_SF_B2SF, !SF2R_B2SF.
  intros Fa Fb Ha Hb Hn Hle.
  pose proof (Bplus_correct 53 1024 prec53 emax1024 mode_NE a b Fa Fb) as HP.
  pose proof (round_between (B2R a + B2R b) 0 n ltac:(lia) ltac:(lia) ltac:(split; [lra|done])) as Hr.
  rewrite Rlt_bool_true in HP.
  - destruct HP as (-> & -> & _). done.
  - apply below_overflow. split; [apply Hr|]. eapply Rle_trans; [apply Hr|]. apply IZR_le. lia.
Qed.

Lemma unit_sum l : ∀ a k, valid a → fin a → 0 <= R64 a <= IZR k → (0 <= k)%Z → Forall valid l → Forall in_unit l →
  (k + Z.of_nat (length l) <= 2 ^ 53)%Z →
  fin (foldl fadd a l) ∧ 0 <= R64 (foldl fadd a l) <= IZR (k + Z.of_nat (length l)).
Proof.
  induction l as [|x l IH]; intros a k Va Fa Ha Hk Vl Ul Hle.
  - cbn [foldl length]. by rewrite Z.add_0_r.
  - apply Forall_cons in Vl as [Vx Vl]. apply Forall_cons in Ul as [Ux Ul]. cbn [length] in Hle |- *.
    apply (unit_R x Vx) in Ux as (Fx & H0 & H1). cbn [foldl].
    destruct (fadd_small a x (k + 1)) as [F R]; [done..|apply Ha|done|lia|rewrite plus_IZR; lra|].
    replace (k + Z.of_nat (S (length l)))%Z with ((k + 1) + Z.of_nat (length l))%Z by lia.
    apply IH; [by apply fadd_valid|done|done|lia|done|done|lia].
Qed.

(** The average of at most [n] numbers in [0,1]. *)
Lemma average_unit l n : Forall valid l → Forall in_unit l → (length l <= n)%nat → (0 < Z.of_nat n <= 2 ^ 53)%Z →
  in_unit (fdiv (foldl fadd fzero l) (f64_of_Z (Z.of_nat n))).
Proof.
  intros Vl Ul Hl Hn. set (m := Z.of_nat n) in *.
  destruct (unit_sum l fzero 0 eq_refl eq_refl) as [Fs Rs]; [rewrite R64_zero; lra|lia|done|done|lia|].
  set (s := foldl fadd fzero l) in *. assert (valid s) as Vs by by apply foldl_add_valid.
  assert (R64 s <= IZR m) as Hsm by (eapply Rle_trans; [apply Rs|]; apply IZR_le; lia).
  pose proof (of_Z_exact m ltac:(lia)) as Rm. destruct (of_Z_round m ltac:(lia)) as [_ Fm].
  assert (0 < IZR m) as Hpos by (apply IZR_lt; lia).
  apply fdiv_unit.
  - done.
  - apply of_Z_valid.
  - apply fle_R; [done..|]. rewrite R64_zero. apply Rs.
  - apply fle_R; [done|apply of_Z_valid|done|done|]. by rewrite Rm.
  - destruct (valid_b _ (of_Z_valid m)) as [b Hb]. rewrite Hb in *. rewrite is_finite_SF_B2SF, SF2R_B2SF in *.
    rewrite b0_eq, fltb_R by done. apply Rlt_bool_true. by rewrite Rm.
  - intros ->. done.
Qed.

(** ** products *)
Lemma fmul_unit x y : valid x → valid y → in_unit x → in_unit y → in_unit (fmul x y).
Proof.
  intros Vx Vy (Fx & X0 & X1)%unit_R (Fy & Y0 & Y1)%unit_R; [|done..].
  apply unit_R; [by apply fmul_valid|]. revert Fx X0 X1 Fy Y0 Y1.
  destruct (valid_b _ Vx) as [a ->], (valid_b _ Vy) as [b ->]. rewrite fmul_B, !is_finite_SF_B2SF, !SF2R_B2SF.
  intros Fa A0 A1 Fb B0 B1. pose proof (Bmult_correct 53 1024 prec53 emax1024 mode_NE a b) as HP.
  assert (0 <= B2R a * B2R b <= 1) as Hp by nra.
  pose proof (round_between (B2R a * B2R b) 0 1 ltac:(lia) ltac:(lia) Hp) as Hr.
  rewrite Rlt_bool_true in HP.
  - destruct HP as (-> & -> & _). by rewrite Fa, Fb.
  - apply below_overflow. split; [apply Hr|]. eapply Rle_trans; [apply Hr|]. apply IZR_le. lia.
Qed.

(** and no larger than the factor *)
Lemma fmul_le x y : valid x → valid y → in_unit y → fin x → 0 <= R64 x → fleb (fmul x y) x = true.
Proof.
  intros Vx Vy (Fy & Y0 & Y1)%unit_R Fx X0; [|done].
  assert (0 <= R64 x * R64 y <= R64 x) as Hp by nra.
  assert (0 <= round64 (R64 x * R64 y) <= R64 x) as Hr.
  { split.
    - apply round_ge_generic; [apply fexp64_valid|apply valid_rnd_round_mode|apply generic_format_0|apply Hp].
    - apply round_le_generic; [apply fexp64_valid|apply valid_rnd_round_mode|by apply valid_format|apply Hp]. }
  assert (fin (fmul x y) ∧ R64 (fmul x y) = round64 (R64 x * R64 y)) as [F R].
  { clear Hp. revert Fx X0 Fy Y0 Y1 Hr. destruct (valid_b _ Vx) as [a ->], (valid_b _ Vy) as [b ->].
    rewrite fmul_B, !is_finite_SF_B2SF, !SF2R_B2SF. intros Fa A0 Fb B0 B1 Hr.
    pose proof (Bmult_correct 53 1024 prec53 emax1024 mode_NE a b) as HP. rewrite Rlt_bool_true in HP.
    - destruct HP as (-> & -> & _). by rewrite Fa, Fb.
    - rewrite Rabs_pos_eq by apply Hr. eapply Rle_lt_trans; [apply Hr|].
      eapply Rle_lt_trans; [apply Rle_abs|]. apply abs_B2R_lt_emax. }
  apply fle_R; [by apply fmul_valid|done|done|done|]. rewrite R. apply Hr.
Qed.

(** ** neutral operations *)
Lemma same_float (a b : b64) : is_finite a = true → is_finite b = true → B2R a = B2R b → Bsign a = Bsign b → a = b.
Proof. intros. by apply B2R_Bsign_inj. Qed.

Lemma fdiv_one x : valid x → fdiv x fone = x.
Proof.
  intros [a ->]%valid_b. destruct a as [s|s| |s m e He] eqn:Ha; [by destruct s..|done|]. rewrite <- Ha.
  assert (is_finite a = true) as Fa by by rewrite Ha.
  assert (is_nan a = false) as Na by by rewrite Ha.
  rewrite b1_eq, fdiv_B. f_equal.
  pose proof (Bdiv_correct 53 1024 prec53 emax1024 mode_NE a Bone) as HD.
  rewrite Bone_correct in HD. unfold Rdiv in HD. rewrite Rinv_1, Rmult_1_r in HD.
  rewrite round_generic in HD; [|apply valid_rnd_round_mode|apply generic_format_B2R].
  rewrite Rlt_bool_true in HD by apply abs_B2R_lt_emax.
  destruct HD as (HR & HF & HS); [lra|]. rewrite Fa in HF. apply same_float; [done..|].
  rewrite HS; [by destruct (Bsign a)|]. by destruct (Bdiv mode_NE a Bone).
Qed.

Lemma fmul_one x : valid x → fmul x fone = x.
Proof.
  intros [a ->]%valid_b. destruct a as [s|s| |s m e He] eqn:Ha; [by destruct s..|done|]. rewrite <- Ha.
  assert (is_finite a = true) as Fa by by rewrite Ha.
  rewrite b1_eq, fmul_B. f_equal.
  pose proof (Bmult_correct 53 1024 prec53 emax1024 mode_NE a Bone) as HD.
  rewrite Bone_correct, Rmult_1_r in HD.
  rewrite round_generic in HD; [|apply valid_rnd_round_mode|apply generic_format_B2R].
  rewrite Rlt_bool_true in HD by apply abs_B2R_lt_emax.
  destruct HD as (HR & HF & HS). rewrite Fa in HF. apply same_float; [done..|].
  rewrite HS; [by destruct (Bsign a)|]. by destruct (Bmult mode_NE a Bone).
Qed.

Lemma fadd_zero x : x ≠ S754_zero true → fadd x fzero = x.
Proof. by destruct x as [[]|[]| |[] ? ?]. Qed.

(** a sum is never -0, unless both summands are *)
Lemma fadd_not_minus_zero x y : valid x → valid y → x ≠ S754_zero true → fadd x y ≠ S754_zero true.
Proof.
  intros [a ->]%valid_b [b ->]%valid_b Hx. rewrite fadd_B.
  destruct (is_finite a) eqn:Fa; [|by destruct a as [|[]| |], b as [|[]| |]].
  destruct (is_finite b) eqn:Fb; [|by destruct a as [|[]| |], b as [|[]| |]].
  pose proof (Bplus_correct 53 1024 prec53 emax1024 mode_NE a b Fa Fb) as HP. intros Hz.
  assert (Bplus mode_NE a b = B754_zero true) as Hb.
  { destruct (Bplus mode_NE a b) as [[]| | |]; simpl in Hz; congruence. }
  rewrite Hb in HP. revert HP. case Rlt_bool_spec; intros Hov.
  - intros (HR & _ & HS).
    (* the exact sum is 0: a sum of two floats does not underflow to 0 *)
    assert (B2R a + B2R b = 0) as H0.
    { destruct (Req_dec (B2R a + B2R b) 0) as [|Hne]; [done|]. exfalso. symmetry in HR.
      apply (Plus_error.round_plus_neq_0 radix2 fexp64 (round_mode mode_NE) (B2R a) (B2R b)) in Hne;
        [done|apply generic_format_B2R..]. }
    rewrite H0 in HS. rewrite Rcompare_Eq in HS by done. simpl in HS.
    symmetry in HS. apply andb_true_iff in HS as [Sa Sb].
    assert (∀ c : b64, Bsign c = true → B2R c <= 0) as Hneg.
    { intros [[]|?| |[] ? ? ?]; simpl; intros; try done; try lra. apply Rlt_le, F2R_lt_0. simpl. lia. }
    pose proof (Hneg a Sa). pose proof (Hneg b Sb). assert (B2R a = 0) as Ra by lra.
    destruct a as [[]|?| |[] ? ? ?]; simpl in Sa, Fa, Ra; try done.
    revert Ra. apply Rlt_not_eq, F2R_lt_0. simpl. lia.
  - intros [HS _]. by destruct (Bsign a).
Qed.

(** ** whole numbers *)
Definition whole (x : f64) (z : Z) : Prop := valid x ∧ fin x ∧ R64 x = IZR z ∧ (0 <= z)%Z.

Notation zsum := (foldr Z.add 0%Z).

Lemma zsum_nonneg zs : Forall (λ z, (0 <= z)%Z) zs → (0 <= zsum zs)%Z.
Proof. induction 1; simpl; lia. Qed.
Lemma zsum_app a b : zsum (a ++ b) = (zsum a + zsum b)%Z.
Proof. induction a as [|z a IH]; cbn [app foldr]; lia. Qed.

Lemma whole_zero : whole fzero 0.
Proof. done. Qed.
Lemma whole_of_Z z : (0 <= z <= 2 ^ 53)%Z → whole (f64_of_Z z) z.
Proof.
  intros Hz. split; [apply of_Z_valid|]. split; [apply of_Z_round; lia|]. split; [apply of_Z_exact; lia|lia].
Qed.

Lemma whole_add x y a b : whole x a → whole y b → (a + b <= 2 ^ 53)%Z → whole (fadd x y) (a + b).
Proof.
  intros (Vx & Fx & Rx & Ha) (Vy & Fy & Ry & Hb) Hle.
  destruct (fadd_small x y (a + b)) as [F _]; [done..|rewrite Rx; by apply IZR_le|rewrite Ry; by apply IZR_le|lia|
    rewrite Rx, Ry, plus_IZR; lra|].
  split; [by apply fadd_valid|]. split; [done|]. split; [|lia].
  destruct (fadd_fin x y Vx Vy F) as (_ & _ & ->). rewrite Rx, Ry, <- plus_IZR. apply IZR_round. lia.
Qed.

Lemma whole_sum l zs : Forall2 whole l zs → ∀ x a, whole x a → (a + zsum zs <= 2 ^ 53)%Z →
  whole (foldl fadd x l) (a + zsum zs).
Proof.
  induction 1 as [|y z l zs Hy Hl IH]; intros x a Hx Hle; cbn [foldl foldr] in *; [by rewrite Z.add_0_r|].
  assert (0 <= zsum zs)%Z.
  { apply zsum_nonneg. clear -Hl. induction Hl as [|? ? ? ? (_&_&_&?)]; by constructor. }
  rewrite Z.add_assoc. destruct Hy as (Vy & Fy & Ry & Hz). apply IH; [|lia]. apply whole_add; [done|done|lia].
Qed.

(** a share of whole numbers *)
Lemma whole_share x y a b : whole x a → whole y b → (a <= b)%Z → (0 < b)%Z →
  valid (fdiv x y) ∧ in_unit (fdiv x y).
Proof.
  intros (Vx & Fx & Rx & Ha) (Vy & Fy & Ry & Hb) Hab Hpos. split; [by apply fdiv_valid|].
  assert (0 < R64 y) as Hy by (rewrite Ry; by apply IZR_lt).
  apply fdiv_unit; [done|done| | | |by intros ->].
  - apply fle_R; [done..|]. rewrite Rx. by apply IZR_le.
  - apply fle_R; [done..|]. rewrite Rx, Ry. by apply IZR_le.
  - destruct (valid_b _ Vy) as [c ->]. rewrite is_finite_SF_B2SF, SF2R_B2SF in *. rewrite b0_eq, fltb_R by done.
    by apply Rlt_bool_true.
Qed.

(** ** Monotony *)
Lemma sum_mono l l' : Forall2 (λ x y, valid x ∧ valid y ∧ fleb x y = true) l l' → ∀ a a', valid a → valid a' →
  fin (foldl fadd a l) → fin (foldl fadd a' l') → R64 a <= R64 a' → R64 (foldl fadd a l) <= R64 (foldl fadd a' l').
Proof.
  induction 1 as [|x y l l' (Vx & Vy & Hxy) Hl IH]; intros a a' Va Va' F F' Hle; [done|]. cbn [foldl] in *.
  assert (Forall valid l ∧ Forall valid l') as [Vl Vl'].
  { clear -Hl. induction Hl as [|? ? ? ? (? & ? & ?) _ []]; split; by constructor. }
  assert (valid (fadd a x)) as V1 by by apply fadd_valid. assert (valid (fadd a' y)) as V2 by by apply fadd_valid.
  destruct (foldl_add_fin l (fadd a x) V1 Vl F) as [F1 _]. destruct (foldl_add_fin l' (fadd a' y) V2 Vl' F') as [F2 _].
  apply IH; [done..|]. destruct (fadd_fin a x Va Vx F1) as (_ & Fx & ->), (fadd_fin a' y Va' Vy F2) as (_ & Fy & ->).
  apply fle_R in Hxy; [|done..]. apply round_mono. lra.
Qed.
Lemma fmul_mono x y f : valid x → valid y → valid f → fleb fzero f = true → fin (fmul x f) → fin (fmul y f) →
  R64 x <= R64 y → R64 (fmul x f) <= R64 (fmul y f).
Proof.
  intros Vx Vy Vf Hf F1 F2 Hxy. destruct (fmul_fin x f Vx Vf F1) as (_ & Ff & ->), (fmul_fin y f Vy Vf F2) as (_ & _ & ->).
  apply fle_R in Hf; [|done..]. rewrite R64_zero in Hf. apply round_mono. nra.
Qed.
Lemma fadd_mono x y c : valid x → valid y → valid c → fin (fadd x c) → fin (fadd y c) →
  R64 x <= R64 y → R64 (fadd x c) <= R64 (fadd y c).
Proof.
  intros Vx Vy Vc F1 F2 Hxy. destruct (fadd_fin x c Vx Vc F1) as (_ & _ & ->), (fadd_fin y c Vy Vc F2) as (_ & _ & ->).
  apply round_mono. lra.
Qed.
Lemma fdiv_count x n : valid x → (0 < n <= 2 ^ 53)%Z → fin (fdiv x (f64_of_Z n)) →
  fin x ∧ R64 (fdiv x (f64_of_Z n)) = round64 (R64 x / IZR n).
Proof.
  intros Vx Hn F. destruct (whole_of_Z n) as (Vn & Fn & Rn & _); [lia|].
  assert (0 < IZR n) as Hp by (apply IZR_lt; lia).
  destruct (fdiv_fin x _ Vx Vn Fn) as [? ->]; [rewrite Rn; lra|done|]. by rewrite Rn.
Qed.
Lemma fdiv_mono x y n : valid x → valid y → (0 < n <= 2 ^ 53)%Z →
  fin (fdiv x (f64_of_Z n)) → fin (fdiv y (f64_of_Z n)) →
  R64 x <= R64 y → R64 (fdiv x (f64_of_Z n)) <= R64 (fdiv y (f64_of_Z n)).
Proof.
  intros Vx Vy Hn F1 F2 Hxy. destruct (fdiv_count x n) as [_ ->]; [done..|]. destruct (fdiv_count y n) as [_ ->]; [done..|].
  apply round_mono. unfold Rdiv. apply Rmult_le_compat_r; [|done].
  apply Rlt_le, Rinv_0_lt_compat, IZR_lt. lia.
Qed.
