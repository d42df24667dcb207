(** Products do not depend on the unit (C140). *)
From Coq Require Import Reals Lra.
From Flocq Require Import Core.Core IEEE754.BinarySingleNaN.
From Verif Require Import Base Strconv Value Doc Expr Pred Tree Regression Model Lib FloatLib RealLib SpecUnits.
Local Open Scope R_scope.

Lemma product_same c1 c2 x1 x2 s : s ≠ 0 → converts (/ s) c1 c2 → converts s x1 x2 → fmul c1 x1 = fmul c2 x2.
Proof.
  intros Hs Hc Hx.
  assert (Hno : ∀ z y1 y2, z = 1 → (valid y1 ∧ valid y2 ∧ is_finite_SF y1 = true ∧ is_finite_SF y2 = true ∧
    sign_SF y2 = turned z (sign_SF y1) ∧ SF2R radix2 y2 = z * SF2R radix2 y1) → y1 = y2).
  { intros z y1 y2 -> ([a ->]%valid_b & [b ->]%valid_b & Fa & Fb & Hsg & HR). unfold turned in Hsg. destruct (Rlt_dec 1 0) as [Hlt|_]; [lra|]. rewrite !is_finite_SF_B2SF in *.
    f_equal. apply B2R_Bsign_inj; [done|done| |].
    - rewrite !SF2R_B2SF in HR. lra.
    - by destruct a, b. }
  destruct Hc as [[H1 ->]|Hc], Hx as [[H2 ->]|Hx]; [done|..].
  - assert (s = 1) as ->. { apply (Rmult_eq_reg_l (/ s)); [|lra]. rewrite Rinv_l by lra. lra. } by rewrite (Hno 1 x1 x2).
  - subst s. rewrite Rinv_1 in Hc. by rewrite (Hno 1 c1 c2).
  - destruct Hc as ([c ->]%valid_b & [c' ->]%valid_b & Fc & Fc' & Sc & Rc).
    destruct Hx as ([x ->]%valid_b & [x' ->]%valid_b & Fx & Fx' & Sx & Rx).
    rewrite !is_finite_SF_B2SF in *. rewrite !SF2R_B2SF in *. rewrite !fmul_B.
    assert (xorb (Bsign c') (Bsign x') = xorb (Bsign c) (Bsign x)) as Sp.
    { assert (∀ b : binary_float 53 1024, is_finite b = true → sign_SF (B2SF b) = Bsign b) as Hb by by intros [].
      rewrite !Hb in Sc, Sx by done. rewrite Sc, Sx. unfold turned. destruct (Rlt_dec (/ s) 0) as [H1|H1], (Rlt_dec s 0) as [H2|H2].
      - by destruct (Bsign c), (Bsign x).
      - destruct H2. destruct (Rtotal_order s 0) as [?|[?|H3]]; [done|done|]. apply Rinv_0_lt_compat in H3. lra.
      - destruct H1. by apply Rinv_lt_0_compat.
      - done. }
    assert (B2R c' * B2R x' = B2R c * B2R x) as Hp.
    { rewrite Rc, Rx. by field. }
    pose proof (Bmult_correct 53 1024 prec53 emax1024 mode_NE c x) as HP1.
    pose proof (Bmult_correct 53 1024 prec53 emax1024 mode_NE c' x') as HP2.
    rewrite Hp, Sp in HP2. revert HP1 HP2. case Rlt_bool_spec; intros Hov.
    + intros (R1 & F1 & S1) (R2 & F2 & S2). rewrite Fc, Fx in F1. rewrite Fc', Fx' in F2. simpl in F1, F2.
      f_equal. apply B2R_Bsign_inj; [done|done|congruence|].
      rewrite S1, S2; [done|..]; [by destruct (Bmult mode_NE c' x')|by destruct (Bmult mode_NE c x)].
    + intros -> ->. done.
Qed.

Lemma linear_same E u r1 r2 ps1 ps2 : (∀ f, u f ≠ 0) → row_converts E u r1 r2 →
  Forall2 (λ p1 p2, np_name p1 = np_name p2 ∧ converts (/ u (np_name p1)) (np_coeff p1) (np_coeff p2)) ps1 ps2 →
  ∀ y, linear_form E y ps1 r1 = linear_form E y ps2 r2.
Proof.
  intros Hu Hr. induction 1 as [|p1 p2 ps1 ps2 [Hn Hc] _ IH]; intros y; [done|]. cbn [linear_form].
  pose proof (Hr (np_name p1)) as Hf. rewrite <- Hn.
  destruct (dr_get r1 (np_name p1)) as [v1|], (dr_get r2 (np_name p1)) as [v2|]; try done.
  rewrite (product_same _ _ _ _ _ (Hu (np_name p1)) Hc Hf). apply IH.
Qed.

Lemma regression_same E u m1 m2 r1 r2 : (∀ f, u f ≠ 0) → model_converts u m1 m2 → row_converts E u r1 r2 →
  rm_function m1 ≠ "classification" ∨ length (rm_output m1) ≠ 2%nat →
  regr_evaluate E m1 r1 = regr_evaluate E m2 r2.
Proof.
  intros Hu (Hf & Hn & Ho & Ht) Hr Hb. unfold regr_evaluate. rewrite <- Hf, <- Ho.
  assert (Hl : ∀ t1 t2, table_converts u t1 t2 →
    linear_form E (rt_intercept t1) (rt_predictors t1) r1 = linear_form E (rt_intercept t2) (rt_predictors t2) r2).
  { intros t1 t2 (Hi & _ & Hp). rewrite Hi. by eapply linear_same. }
  destruct (_ =s "regression").
  { unfold eval_regression. rewrite <- Ho, <- Hn. destruct Ht as [|t1 t2 l1 l2 Ht Hl']; [done|].
    destruct Hl' as [|t3 t4 l1 l2 Ht' Hl']; [|cbn [length]; by rewrite (Forall2_length _ _ _ Hl')]. by rewrite (Hl _ _ Ht). }
  assert ((rm_function m1 =s "classification") && Nat.eqb (length (rm_output m1)) 2 = false) as ->.
  { destruct Hb as [Hb|Hb]; [by apply String.eqb_neq in Hb as ->|]. apply Nat.eqb_neq in Hb as ->. by rewrite andb_false_r. }
  destruct (_ =s "classification"); [|done]. unfold eval_multiclass. rewrite <- Ho, <- Hn.
  assert (rmap (λ t, linear_form E (rt_intercept t) (rt_predictors t) r1) (rm_tables m1) =
    rmap (λ t, linear_form E (rt_intercept t) (rt_predictors t) r2) (rm_tables m2)) as ->.
  { clear -Ht Hl. induction Ht as [|t1 t2 l1 l2 Ht _ IH]; [done|]. cbn [rmap]. by rewrite (Hl _ _ Ht), IH. }
  assert (((λ t, default "" (out_fields (rm_output m1) !! rt_category t)) <$> rm_tables m1) =
    ((λ t, default "" (out_fields (rm_output m1) !! rt_category t)) <$> rm_tables m2)) as ->; [|done].
  { clear -Ht. induction Ht as [|t1 t2 l1 l2 (_ & Hc & _) _ IH]; [done|]. rewrite !fmap_cons. by rewrite IH, Hc. }
Qed.
