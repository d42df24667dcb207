(** Facts about the float operations that need no real numbers. *)
From Verif Require Import Base.

(** A number (not NaN) with the given sign. *)
Definition signed (s : bool) (x : f64) : Prop :=
  x = S754_zero s ∨ x = S754_infinity s ∨ ∃ m e, x = S754_finite s m e.

Lemma iter_pos_nonneg n r :
  (0 ≤ shr_m r)%Z → (0 ≤ shr_m (SpecFloat.iter_pos shr_1 n r))%Z.
Proof.
  assert (∀ r, (0 ≤ shr_m r → 0 ≤ shr_m (shr_1 r))%Z) as H1.
  { intros [[|[p|p|]|[p|p|]] a b]; simpl; lia. }
  revert r. induction n as [n IH|n IH|]; intros r Hr; simpl; auto.
Qed.
Lemma shr_fexp_nonneg m e l : (0 ≤ m)%Z → (0 ≤ shr_m (shr_fexp 53 1024 m e l).1)%Z.
Proof.
  intros Hm. unfold shr_fexp, shr.
  assert (0 ≤ shr_m (shr_record_of_loc m l))%Z as H by (by destruct l as [|[]]).
  destruct (fexp _ _ _ - e)%Z; simpl; [done| |done]. by apply iter_pos_nonneg.
Qed.
Lemma round_aux_signed s m e l : (0 ≤ m)%Z → signed s (binary_round_aux 53 1024 s m e l).
Proof.
  intros Hm. unfold binary_round_aux.
  pose proof (shr_fexp_nonneg m e l Hm) as H1. destruct (shr_fexp 53 1024 m e l) as [r1 e1]. simpl in H1.
  assert (0 ≤ round_nearest_even (shr_m r1) (loc_of_shr_record r1))%Z as H2.
  { unfold round_nearest_even. destruct (loc_of_shr_record r1) as [|[]]; try destruct (Z.even (shr_m r1)); lia. }
  pose proof (shr_fexp_nonneg _ e1 loc_Exact H2) as H3.
  destruct (shr_fexp 53 1024 _ e1 loc_Exact) as [r2 e2]. simpl in H3.
  destruct (shr_m r2) as [|p|p]; [by left| |lia]. destruct (Zle_bool _ _); [right; right; eauto|by right; left].
Qed.
Lemma round_signed s m e : signed s (binary_round 53 1024 s m e).
Proof. unfold binary_round. destruct (shl_align _ _ _). by apply round_aux_signed. Qed.
Lemma signed_not_nan s x : signed s x → x ≠ S754_nan.
Proof. intros [-> |[-> |(m & e & ->)]]; done. Qed.
Lemma normalize_not_nan m e s : binary_normalize 53 1024 m e s ≠ S754_nan.
Proof. unfold binary_normalize. destruct m; [done|eapply signed_not_nan, round_signed..]. Qed.

(** When a difference is NaN. *)
Lemma fsub_nan x y :
  fsub x y = S754_nan ↔ x = S754_nan ∨ y = S754_nan ∨ ∃ s, x = S754_infinity s ∧ y = S754_infinity s.
Proof.
  split.
  - unfold fsub, SFsub. destruct x as [s|s| |s m e], y as [s'|s'| |s' m' e']; try done; auto.
    + by destruct (Bool.eqb _ _).
    + destruct s, s'; simpl; try done; intros _; right; right; eauto.
    + intros H. by apply normalize_not_nan in H.
  - intros [-> |[-> |(s & -> & ->)]]; [done|by destruct x|by destruct s].
Qed.
Lemma fsub_self x : x ≠ S754_nan → (∀ s, x ≠ S754_infinity s) → ∃ s, fsub x x = S754_zero s.
Proof.
  unfold fsub, SFsub. destruct x as [s|s| |s m e]; intros H1 H2; [|by destruct (H2 s)|done|].
  - destruct s; simpl; eauto.
  - simpl. rewrite Z.min_id, Z.sub_diag. eauto.
Qed.

(** Products of numbers. *)
Lemma fmul_pos_signed m e s x : signed s x → signed s (fmul (S754_finite false m e) x).
Proof.
  unfold fmul, SFmul. intros [-> |[-> |(m' & e' & ->)]].
  - left. by destruct s.
  - right; left. by destruct s.
  - destruct s; simpl xorb; by apply round_aux_signed.
Qed.

(** Comparing with zero. *)
Lemma signed_lt_zero s x : signed s x → fltb x fzero = s ∨ x = S754_zero s.
Proof. intros [-> |[-> |(m & e & ->)]]; destruct s; auto. Qed.
Lemma signed_cases x : x = S754_nan ∨ ∃ s, signed s x.
Proof. destruct x as [s|s| |s m e]; [right; exists s; by left|right; exists s; by right; left|by left|right; exists s; right; right; eauto]. Qed.
Lemma not_lt_zero_signed x : signed false x → fltb x fzero = false.
Proof. intros [-> |[-> |(m & e & ->)]]; done. Qed.
