(** Decimal numerals as float64: what rounding keeps. *)
From Coq Require Import Ascii Reals Lra.
From stdpp Require Import pretty.
From Flocq Require Import Core.Core IEEE754.BinarySingleNaN.
Require Import Flocq.Prop.Relative.
From Verif Require Import Base Strconv Value Doc Pred Lib SpecPred ProofsPred FloatLib RealLib AccLib GoExt
  ProofsDecode SpecDecimal.
Local Open Scope R_scope.

(** ** Powers of ten *)
Notation radix10 := (Build_radix 10 eq_refl).
Lemma ten_pos k : 0 < ten k.
Proof. apply bpow_gt_0. Qed.
Lemma ten_plus a b : ten (a + b) = ten a * ten b.
Proof. apply bpow_plus. Qed.
Lemma ten_Z k : (0 <= k)%Z → ten k = IZR (10 ^ k).
Proof. intros H. unfold ten. symmetry. apply (IZR_Zpower radix10). done. Qed.
Lemma ten_neg k : (0 <= k)%Z → ten (- k) = / IZR (10 ^ k).
Proof. intros H. unfold ten. rewrite bpow_opp. f_equal. by apply ten_Z. Qed.
Lemma ten_low : bpow radix2 (-1022) <= ten (-307).
Proof.
  change (-307)%Z with (- (307))%Z. rewrite ten_neg by done. change (-1022)%Z with (- (1022))%Z.
  rewrite bpow_opp. rewrite <- (IZR_Zpower radix2) by done. apply Rinv_le; [by apply IZR_lt|]. apply IZR_le. by vm_compute.
Qed.
(** the largest float64 *)
Lemma round_ordinary x : Rabs x <= ten 308 → Rabs (round64 x) < bpow radix2 1024.
Proof.
  intros Hx. apply (Rle_lt_trans _ (F2R (Float radix2 (2 ^ 53 - 1) 971))).
  - apply abs_round_le_generic; [apply fexp64_valid|apply valid_rnd_round_mode| |].
    + apply generic_format_F2R. intros _. unfold cexp.
      rewrite (mag_unique radix2 _ 1024).
      2:{ rewrite <- F2R_Zabs. unfold F2R. simpl Fnum. simpl Fexp. change (bpow radix2 971) with (IZR (2 ^ 971)).
          rewrite <- mult_IZR. change (bpow radix2 1024) with (IZR (2 ^ 1024)). change (bpow radix2 (1024 - 1)) with (IZR (2 ^ 1023)).
          split; [apply IZR_le|apply IZR_lt]; by vm_compute. }
      by vm_compute.
    + eapply Rle_trans; [exact Hx|]. rewrite ten_Z by done. unfold F2R. simpl Fnum. simpl Fexp.
      change (bpow radix2 971) with (IZR (2 ^ 971)). rewrite <- mult_IZR. apply IZR_le. by vm_compute.
  - unfold F2R. simpl Fnum. simpl Fexp. change (bpow radix2 971) with (IZR (2 ^ 971)). rewrite <- mult_IZR.
    change (bpow radix2 1024) with (IZR (2 ^ 1024)). apply IZR_lt. by vm_compute.
Qed.
Lemma round_relative x : ordinary x → Rabs (round64 x - x) <= unit_roundoff * Rabs x.
Proof.
  intros [->|[Hx _]].
  - rewrite round_0 by apply valid_rnd_round_mode. rewrite Rminus_0_r, Rabs_R0. lra.
  - apply (relative_error_N_FLT radix2 (-1074) 53 eq_refl (λ z, negb (Z.even z)) x).
    eapply Rle_trans; [|exact Hx]. apply ten_low.
Qed.

(** ** Rounding keeps short decimals apart *)
Lemma grid_gap m1 k1 m2 k2 : IZR m1 * ten k1 < IZR m2 * ten k2 →
  ten (Z.min k1 k2) <= IZR m2 * ten k2 - IZR m1 * ten k1.
Proof.
  intros H. set (k := Z.min k1 k2) in *.
  assert (ten k1 = IZR (10 ^ (k1 - k)) * ten k) as H1.
  { rewrite <- ten_Z by lia. rewrite <- ten_plus. f_equal. lia. }
  assert (ten k2 = IZR (10 ^ (k2 - k)) * ten k) as H2.
  { rewrite <- ten_Z by lia. rewrite <- ten_plus. f_equal. lia. }
  rewrite H1, H2 in *. rewrite <- !Rmult_assoc, <- !mult_IZR in *.
  pose proof (ten_pos k) as Hk. apply Rmult_lt_reg_r in H; [|done]. apply lt_IZR in H.
  rewrite <- Rmult_minus_distr_r, <- minus_IZR.
  rewrite <- (Rmult_1_l (ten k)) at 1. apply Rmult_le_compat_r; [lra|]. apply IZR_le. lia.
Qed.
Lemma short_size m k : (Z.abs m < 10 ^ 15)%Z → Rabs (IZR m * ten k) <= IZR (10 ^ 15) * ten k.
Proof.
  intros H. pose proof (ten_pos k). rewrite Rabs_mult, (Rabs_pos_eq (ten k)) by lra.
  apply Rmult_le_compat_r; [lra|]. rewrite <- abs_IZR. apply IZR_le. lia.
Qed.
Lemma apart x y u : 0 < u → Rabs (round64 x - x) <= u * Rabs x → Rabs (round64 y - y) <= u * Rabs y →
  u * (Rabs x + Rabs y) < y - x → round64 x < round64 y.
Proof. intros Hu Hx Hy H. apply Rabs_le_inv in Hx, Hy. lra. Qed.
Lemma short_strict x y : fifteen_digits x → fifteen_digits y → ordinary x → ordinary y → x < y → round64 x < round64 y.
Proof.
  intros (m1 & k1 & Hm1 & Hx) (m2 & k2 & Hm2 & Hy) Ox Oy Hlt.
  apply (apart x y unit_roundoff unit_pos); [by apply round_relative..|].
  assert (Hg : ten (Z.min k1 k2) <= y - x) by (subst; by apply grid_gap).
  assert (Hs : Rmin (Rabs x) (Rabs y) <= IZR (10 ^ 15) * ten (Z.min k1 k2)).
  { destruct (Z.min_spec k1 k2) as [[? ->]|[? ->]].
    - eapply Rle_trans; [apply Rmin_l|]. subst x. by apply short_size.
    - eapply Rle_trans; [apply Rmin_r|]. subst y. by apply short_size. }
  assert (Ha : Rabs x + Rabs y <= 2 * Rmin (Rabs x) (Rabs y) + (y - x)).
  { unfold Rmin. destruct (Rle_dec _ _); unfold Rabs in *; repeat destruct (Rcase_abs _); lra. }
  pose proof (ten_pos (Z.min k1 k2)). pose proof unit_pos.
  apply (Rle_lt_trans _ (unit_roundoff * ((2 * IZR (10 ^ 15) + 1) * (y - x)))).
  - apply Rmult_le_compat_l; [lra|]. change (10 ^ 15)%Z with 1000000000000000%Z in *. nra.
  - rewrite <- Rmult_assoc. rewrite <- (Rmult_1_l (y - x)) at 2. apply Rmult_lt_compat_r; [lra|].
    unfold unit_roundoff. change (bpow radix2 (-52)) with (/ IZR (2 ^ 52)).
    change (2 ^ 52)%Z with 4503599627370496%Z. change (10 ^ 15)%Z with 1000000000000000%Z. lra.
Qed.
Lemma short_compare x y : fifteen_digits x → fifteen_digits y → ordinary x → ordinary y →
  Rcompare (round64 x) (round64 y) = Rcompare x y.
Proof.
  intros. destruct (Rcompare_spec x y) as [Hc|Hc|Hc]; [|subst y|].
  - apply Rcompare_Lt. by apply short_strict.
  - by apply Rcompare_Eq.
  - apply Rcompare_Gt. by apply short_strict.
Qed.

(** ** Comparing float64 is comparing real numbers *)
Lemma SFcompare_R x y : valid x → valid y → fin x → fin y → SFcompare x y = Some (Rcompare (R64 x) (R64 y)).
Proof.
  intros [a ->]%valid_b [b ->]%valid_b Ha Hb. rewrite is_finite_SF_B2SF in Ha, Hb. rewrite !SF2R_B2SF.
  by apply (Bcompare_correct 53 1024).
Qed.
Lemma order_holds_real op x y : op ∈ order_ops → order_holds op (Some (Rcompare x y)) = true ↔ real_order op x y.
Proof.
  intros H. unfold real_order. destruct (Rcompare_spec x y); destruct (order_op_cases op H) as [-> |[-> |[-> | ->]]];
    simpl; split; intros HH; try done; naive_solver lra.
Qed.

(** ** The parser the examples use rounds correctly *)
Definition tail_text (e : option (bool * Z)) : string :=
  match e with None => "" | Some (true, k) => "E" +:+ pretty k | Some (false, k) => "e" +:+ pretty k end.
Definition frac_text (f : option (list nat)) : string := match f with None => "" | Some l => "." +:+ digit_text l end.

Lemma digit_of_char d : (d < 10)%nat → digit_of (ascii_of_nat (48 + d)) = Some (Z.of_nat d).
Proof. intros H. do 10 (destruct d as [|d]; [done|]). lia. Qed.
Lemma digit_app c l s : String.String c l +:+ s = String.String c (l +:+ s).
Proof. done. Qed.
Lemma read_digits l : Forall (λ d, (d < 10)%nat) l → ∀ m f sd dot s,
  read_mantissa m f sd dot (digit_text l +:+ s) =
  read_mantissa (foldl (λ v d, 10 * v + Z.of_nat d)%Z m l)
    (if dot then f + Z.of_nat (length l) else f)%Z (sd || negb (bool_decide (l = []))) dot s.
Proof.
  induction 1 as [|d l Hd _ IH]; intros m f sd dot s.
  { simpl. rewrite orb_false_r. destruct dot; [|done]. by rewrite Z.add_0_r. }
  cbn [digit_text]. rewrite digit_app. cbn [read_mantissa]. rewrite digit_of_char by done. rewrite IH. cbn [foldl length].
  f_equal; [destruct dot; [lia|done]|]. by rewrite orb_true_r.
Qed.
Lemma read_tail e m f sd dot : read_mantissa m f sd dot (tail_text e) = (m, f, sd, tail_text e).
Proof. by destruct e as [[[] k]|]. Qed.
Lemma exponent_tail e : exponent_of (tail_text e) = Some (match e with Some (_, k) => k | None => 0%Z end).
Proof. destruct e as [[[] k]|]; [..|done]; apply signed_pretty. Qed.
Lemma read_body n s : decimal_ok n → s = digit_text (de_int n) +:+ frac_text (de_frac n) +:+ tail_text (de_exp n) →
  read_mantissa 0 0 false false s =
  (digits_number (de_digits n), Z.of_nat (length (default [] (de_frac n))), true, tail_text (de_exp n)).
Proof.
  intros [Hne Hall] ->. unfold de_digits, digits_number in *. apply Forall_app in Hall as [Hi Hf]. rewrite read_digits by done.
  destruct (de_frac n) as [l|]; cbn [frac_text default from_option id] in *.
  - change ("." +:+ digit_text l) with (String.String "."%char (digit_text l)). rewrite digit_app. cbn [read_mantissa digit_of].
    simpl (digit_of _). cbn [Ascii.eqb Bool.eqb]. simpl.
    rewrite read_digits by done. rewrite read_tail, foldl_app.
    assert (negb (bool_decide (de_int n = [])) || negb (bool_decide (l = [])) = true) as -> by by destruct (de_int n), l.
    by rewrite Z.add_0_l.
  - rewrite app_nil_r in *. change ("" +:+ tail_text (de_exp n)) with (tail_text (de_exp n)). rewrite read_tail. by destruct (de_int n).
Qed.

Lemma decimal_f64_rounds neg m e x : (0 <= m)%Z → x = IZR (cond_Zopp neg m) * ten e → Rabs x <= ten 308 →
  valid (decimal_f64 neg m e) ∧ fin (decimal_f64 neg m e) ∧ R64 (decimal_f64 neg m e) = round64 x.
Proof.
  intros Hm Hx Hb. destruct m as [|p|p]; [|clear Hm|lia].
  { assert (x = 0) as -> by (subst; destruct neg; apply Rmult_0_l). rewrite round_0 by apply valid_rnd_round_mode. done. }
  pose proof (round_ordinary x Hb) as Hr. unfold decimal_f64. destruct (Z.leb_spec 0 e) as [He|He].
  - rewrite normalize_equiv.
    pose proof (binary_normalize_correct 53 1024 prec53 emax1024 mode_NE (cond_Zopp neg (Zpos p * 10 ^ e)) 0 neg) as H. cbv zeta in H.
    assert (F2R (Float radix2 (cond_Zopp neg (Zpos p * 10 ^ e)) 0) = x) as HF.
    { subst x. unfold F2R. cbn [Fnum Fexp bpow]. rewrite Rmult_1_r, ten_Z by done. rewrite <- mult_IZR. f_equal.
      destruct neg; cbn [cond_Zopp]; lia. }
    rewrite HF in H. rewrite Rlt_bool_true in H by done. destruct H as (H1 & H2 & _).
    split; [apply valid_B2SF|]. by rewrite is_finite_SF_B2SF, SF2R_B2SF.
  - assert (0 < 10 ^ - e)%Z as Hp by (apply Z.pow_pos_nonneg; lia).
    destruct (10 ^ - e)%Z as [|q|q] eqn:Hq; [lia| |lia].
    pose proof (Bdiv_correct_aux 53 1024 prec53 emax1024 mode_NE neg p 0 false q 0) as H. cbv zeta in H.
    assert (F2R (Float radix2 (cond_Zopp neg (Zpos p)) 0) / F2R (Float radix2 (cond_Zopp false (Zpos q)) 0) = x) as HF.
    { subst x. unfold F2R. simpl Fexp. simpl (bpow _ 0). simpl Fnum. rewrite !Rmult_1_r.
      replace e with (- - e)%Z by lia. rewrite ten_neg by lia. rewrite Hq. done. }
    rewrite HF in H. rewrite Rlt_bool_true in H by done.
    unfold SFdiv. destruct (SFdiv_core_binary 53 1024 (Zpos p) 0 (Zpos q) 0) as [[mz ez] lz] eqn:Hc.
    rewrite round_aux_equiv. destruct H as (H1 & H2 & H3 & _). done.
Qed.

(** the first character of the digits *)
Lemma body_head n : decimal_ok n → ∃ c s, digit_text (de_int n) +:+ frac_text (de_frac n) +:+ tail_text (de_exp n) = String.String c s ∧
  lower c = c ∧ c ≠ "-"%char ∧ c ≠ "+"%char ∧ c ≠ "i"%char ∧ c ≠ "n"%char.
Proof.
  intros [Hne Hall]. unfold de_digits in *. apply Forall_app in Hall as [Hi Hf].
  destruct (de_int n) as [|d l].
  - destruct (de_frac n) as [l|]; [|done]. do 2 eexists. split; [done|]. done.
  - apply Forall_cons in Hi as [Hd _]. do 2 eexists. split; [done|]. do 10 (destruct d as [|d]; [done|]). lia.
Qed.
Lemma lower_head c s : lower_string (String.String c s) = String.String (lower c) (lower_string s).
Proof. done. Qed.
Lemma eqb_head c s c' s' : c ≠ c' → String.String c s =s String.String c' s' = false.
Proof. intros H. apply String.eqb_neq. congruence. Qed.
Lemma digits_nonneg l : ∀ v, (0 <= v)%Z → (0 <= foldl (λ v d, 10 * v + Z.of_nat d) v l)%Z.
Proof. induction l as [|d l IH]; intros v Hv; simpl; [done|]. apply IH. lia. Qed.
Lemma parse_unsigned_rounds neg n : decimal_ok n →
  let x := IZR (cond_Zopp neg (digits_number (de_digits n))) *
    ten (match de_exp n with Some (_, k) => k | None => 0 end - Z.of_nat (length (default [] (de_frac n)))) in
  Rabs x <= ten 308 →
  ∃ f, parse_unsigned neg (digit_text (de_int n) +:+ frac_text (de_frac n) +:+ tail_text (de_exp n)) = Some f ∧
    valid f ∧ fin f ∧ R64 f = round64 x.
Proof.
  intros Hn x Hx. destruct (body_head n Hn) as (c & s & Hs & Hl & _ & _ & Hi & _). unfold parse_unsigned. cbv zeta.
  rewrite (read_body n _ Hn eq_refl). rewrite Hs. rewrite lower_head, Hl, !eqb_head by done. simpl (false || _).
  cbn [negb]. rewrite exponent_tail.
  destruct (decimal_f64_rounds neg (digits_number (de_digits n)) _ x (digits_nonneg _ _ ltac:(done)) eq_refl Hx) as (H1 & H2 & H3).
  destruct (decimal_f64 neg _ _) eqn:Hd; try done; eexists; done.
Qed.
Lemma go_rounds : correctly_rounds go_ext.
Proof.
  intros n Hn Hx. change (ext_parse_float go_ext) with go_parse_float. unfold decimal_text, decimal_value in *.
  fold (frac_text (de_frac n)). fold (tail_text (de_exp n)).
  destruct (body_head n Hn) as (c & s & Hs & Hl & Hm & Hp & _ & Hnn).
  destruct (de_sign n) as [[]|].
  - destruct (parse_unsigned_rounds true n Hn Hx) as (f & Hf & H). exists f. split; [|done]. exact Hf.
  - destruct (parse_unsigned_rounds false n Hn Hx) as (f & Hf & H). exists f. split; [|done]. exact Hf.
  - destruct (parse_unsigned_rounds false n Hn Hx) as (f & Hf & H). exists f. split; [|done]. rewrite <- Hf.
    change ("" +:+ ?x) with x. rewrite Hs. unfold go_parse_float. rewrite lower_head, Hl, eqb_head by done.
    destruct (Ascii.eqb_spec c "-"), (Ascii.eqb_spec c "+"); done.
Qed.

(** ** A decimal in the row against a literal *)
Lemma ordinary_bound x : ordinary x → Rabs x <= ten 308.
Proof. intros [->|[_ H]]; [|done]. rewrite Rabs_R0. pose proof (ten_pos 308). lra. Qed.
Lemma compared E lit n v : correctly_rounds E → decimal_ok n → decimal_ok lit →
  Rabs (decimal_value n) <= ten 308 → Rabs (decimal_value lit) <= ten 308 → holds_decimal E v n →
  ∃ c, ext_parse_float E (decimal_text lit) = Some c ∧
    SFcompare (val_float64 E v) c = Some (Rcompare (round64 (decimal_value n)) (round64 (decimal_value lit))).
Proof.
  intros HE Hn Hlit Bn Bl Hv.
  destruct (HE lit Hlit Bl) as (c & Hc & Vc & Fc & Rc). destruct (HE n Hn Bn) as (x & Hx & Vx & Fx & Rx).
  exists c. split; [done|]. assert (val_float64 E v = x) as ->.
  { destruct Hv as [->|(x' & Hx' & ->)]; simpl; [by rewrite Hx|congruence]. }
  by rewrite SFcompare_R, Rc, Rx.
Qed.
