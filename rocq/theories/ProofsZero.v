(** Terms that are zero (C141). *)
From Coq Require Import Reals.
From Flocq Require Import Core.Core IEEE754.BinarySingleNaN.
From Verif Require Import Base Strconv Value Doc Expr Pred Tree Regression Model Lib FloatLib RealLib AccLib ForestLib SpecZero.

Lemma zero_product s x : is_finite_SF x = true → ∃ s', fmul (S754_zero s) x = S754_zero s'.
Proof. destruct x as [z| | |z m e]; intros H; try done; by exists (xorb s z). Qed.

Lemma add_zero x s : x ≠ S754_zero true → fadd x (S754_zero s) = x.
Proof. by destruct x as [[]|[]| |[] ? ?], s. Qed.

Lemma linear_without E r ps1 ps2 : without (weightless E r) ps1 ps2 →
  Forall (λ p, valid (np_coeff p)) ps1 → (∀ f v, dr_get r f = Some v → valid (val_float64 E v)) →
  ∀ y, valid y → y ≠ S754_zero true → linear_form E y ps1 r = linear_form E y ps2 r.
Proof.
  intros Hw Hc Hr. induction Hw as [|p l k _ IH|p l k ((s & Hs) & v & Hv & Fv) _ IH]; intros y Vy Hy; [done|..];
    apply Forall_cons in Hc as [Vp Hc]; specialize (IH Hc); cbn [linear_form].
  - destruct (dr_get r (np_name p)) as [v|] eqn:Hv; [|done]. specialize (Hr _ _ Hv). apply IH.
    + apply fadd_valid; [done|by apply fmul_valid].
    + apply fadd_not_minus_zero; [done|by apply fmul_valid|done].
  - rewrite Hv, Hs. destruct (zero_product s _ Fv) as [s' ->]. rewrite add_zero by done. by apply IH.
Qed.

Lemma regression_without E m1 m2 r : model_without (weightless E r) m1 m2 →
  Forall (λ t, valid (rt_intercept t) ∧ rt_intercept t ≠ S754_zero true ∧ Forall (λ p, valid (np_coeff p)) (rt_predictors t)) (rm_tables m1) →
  (∀ f v, dr_get r f = Some v → valid (val_float64 E v)) →
  rm_function m1 ≠ "classification" ∨ length (rm_output m1) ≠ 2%nat →
  regr_evaluate E m1 r = regr_evaluate E m2 r.
Proof.
  intros (Hf & Hn & Ho & Ht) Hv Hr Hb. unfold regr_evaluate. rewrite <- Hf, <- Ho.
  assert (Hl : Forall2 (λ t1 t2, rt_category t1 = rt_category t2 ∧
    linear_form E (rt_intercept t1) (rt_predictors t1) r = linear_form E (rt_intercept t2) (rt_predictors t2) r) (rm_tables m1) (rm_tables m2)).
  { clear -Ht Hv Hr. induction Ht as [|t1 t2 l1 l2 (Hi & Hc & Hp) _ IH]; [constructor|]. apply Forall_cons in Hv as [(V1 & V2 & V3) Hv].
    constructor; [|by apply IH]. split; [done|]. rewrite <- Hi. by apply linear_without. }
  clear Ht Hv Hr. destruct (_ =s "regression").
  { unfold eval_regression. rewrite <- Ho, <- Hn. destruct Hl as [|t1 t2 l1 l2 [_ Ht] Hl']; [done|].
    destruct Hl' as [|t3 t4 l1 l2 Ht' Hl']; [|cbn [length]; by rewrite (Forall2_length _ _ _ Hl')]. by rewrite Ht. }
  assert ((rm_function m1 =s "classification") && Nat.eqb (length (rm_output m1)) 2 = false) as ->.
  { destruct Hb as [Hb|Hb]; [by apply String.eqb_neq in Hb as ->|]. apply Nat.eqb_neq in Hb as ->. by rewrite andb_false_r. }
  destruct (_ =s "classification"); [|done]. unfold eval_multiclass. rewrite <- Ho, <- Hn.
  assert (rmap (λ t, linear_form E (rt_intercept t) (rt_predictors t) r) (rm_tables m1) =
    rmap (λ t, linear_form E (rt_intercept t) (rt_predictors t) r) (rm_tables m2)) as ->.
  { clear -Hl. induction Hl as [|t1 t2 l1 l2 [_ Ht] _ IH]; [done|]. cbn [rmap]. by rewrite Ht, IH. }
  assert (((λ t, default "" (out_fields (rm_output m1) !! rt_category t)) <$> rm_tables m1) =
    ((λ t, default "" (out_fields (rm_output m1) !! rt_category t)) <$> rm_tables m2)) as ->; [|done].
  { clear -Hl. induction Hl as [|t1 t2 l1 l2 (Hc & _) _ IH]; [done|]. rewrite !fmap_cons. by rewrite IH, Hc. }
Qed.
