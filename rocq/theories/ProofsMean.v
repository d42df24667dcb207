(** Averages of a power of two of members (C158). *)
From Coq Require Import Reals Lra.
From Flocq Require Import Core.Core IEEE754.BinarySingleNaN.
From Verif Require Import Base Strconv Value Doc Expr Pred Tree Regression Model Lib FloatLib RealLib
  ProofsRange ProofsConstruct ProofsEval ProofsMining ProofsDoc ProofsWhole ProofsSim SpecEquiv ProofsEquiv ProofsPrune ProofsLabels SpecModel SpecExchange ProofsExchange SpecMean.

Local Open Scope R_scope.

(** ** Dividing by a power of two *)

Definition pow_ok (j : nat) : bool :=
  match f64_of_Z (2 ^ Z.of_nat j), fdiv fone (f64_of_Z (2 ^ Z.of_nat j)) with
  | S754_finite false m e, S754_finite false m' e' =>
      Pos.eqb m (2 ^ 52) && Z.eqb e (Z.of_nat j - 52) && Pos.eqb m' (2 ^ 52) && Z.eqb e' (- 52 - Z.of_nat j)
  | _, _ => false
  end.
Lemma pow_all : forallb pow_ok (seq 0 54) = true.
Proof. by vm_compute. Qed.
Lemma pow_floats j : (j <= 53)%nat →
  f64_of_Z (2 ^ Z.of_nat j) = S754_finite false (2 ^ 52) (Z.of_nat j - 52) ∧
  fdiv fone (f64_of_Z (2 ^ Z.of_nat j)) = S754_finite false (2 ^ 52) (- 52 - Z.of_nat j).
Proof.
  intros Hj. pose proof pow_all as H. rewrite forallb_forall in H. specialize (H j ltac:(apply in_seq; lia)).
  unfold pow_ok in H. destruct (f64_of_Z _) as [| | |[] m e]; try done. destruct (fdiv _ _) as [| | |[] m' e']; try done.
  apply andb_prop in H as [H H4]. apply andb_prop in H as [H H3]. apply andb_prop in H as [H1 H2].
  apply Pos.eqb_eq in H1 as ->. apply Z.eqb_eq in H2 as ->. apply Pos.eqb_eq in H3 as ->. by apply Z.eqb_eq in H4 as ->.
Qed.

(** Correctly rounded results of the same number are the same. *)
Lemma rounded_same (r : R) s z1 z2 :
  (valid z1 ∧ if Rlt_bool (Rabs (round64 r)) (bpow radix2 1024)
     then SF2R radix2 z1 = round64 r ∧ is_finite_SF z1 = true ∧ sign_SF z1 = s else z1 = binary_overflow 53 1024 mode_NE s) →
  (valid z2 ∧ if Rlt_bool (Rabs (round64 r)) (bpow radix2 1024)
     then SF2R radix2 z2 = round64 r ∧ is_finite_SF z2 = true ∧ sign_SF z2 = s else z2 = binary_overflow 53 1024 mode_NE s) →
  z1 = z2.
Proof.
  intros [[a ->]%valid_b H1] [[b ->]%valid_b H2]. destruct (Rlt_bool _ _); [|congruence].
  destruct H1 as (R1 & F1 & S1), H2 as (R2 & F2 & S2). f_equal. rewrite !is_finite_SF_B2SF in *. rewrite !SF2R_B2SF in *.
  apply B2R_Bsign_inj; [done|done|congruence|]. by destruct a, b; simpl in *; congruence.
Qed.

Lemma div_pow x j : (j <= 53)%nat → fdiv x (f64_of_Z (2 ^ Z.of_nat j)) = fmul x (fdiv fone (f64_of_Z (2 ^ Z.of_nat j))).
Proof.
  intros Hj. destruct (pow_floats j Hj) as [H1 H2]. rewrite H2, H1. clear H1 H2.
  destruct x as [s|s| |s m e]; [done..|]. unfold fdiv, fmul. cbn [SFdiv SFmul].
  set (r := F2R (Float radix2 (SpecFloat.cond_Zopp s (Z.pos m)) e) * bpow radix2 (- Z.of_nat j)).
  assert (F2R (Float radix2 (SpecFloat.cond_Zopp s (Z.pos m)) e) / F2R (Float radix2 (SpecFloat.cond_Zopp false (Z.pos (2 ^ 52))) (Z.of_nat j - 52)) = r) as Hd.
  { unfold r, Rdiv. f_equal. change (SpecFloat.cond_Zopp false (Z.pos (2 ^ 52))) with (2 ^ 52)%Z.
    unfold F2R. cbn [Fnum Fexp]. change (IZR (2 ^ 52)) with (IZR (Zpower radix2 52)). rewrite IZR_Zpower by done.
    rewrite <- bpow_plus, <- bpow_opp. f_equal. lia. }
  assert (Rlt_bool r 0 = s) as Hs.
  { unfold r. assert (0 < bpow radix2 (- Z.of_nat j)) as Hb by apply bpow_gt_0.
    destruct s; cbn [SpecFloat.cond_Zopp Z.opp].
    - apply Rlt_bool_true. apply Ropp_lt_cancel. rewrite Ropp_0, Ropp_mult_distr_l. apply Rmult_lt_0_compat; [|done].
      rewrite <- F2R_Zopp. by apply F2R_gt_0.
    - apply Rlt_bool_false. apply Rlt_le, Rmult_lt_0_compat; [|done]. by apply F2R_gt_0. }
  apply (rounded_same r s).
  - pose proof (Bdiv_correct_aux 53 1024 prec53 emax1024 mode_NE s m e false (2 ^ 52) (Z.of_nat j - 52)) as H. cbv zeta in H.
    rewrite Hd in H. rewrite xorb_false_r in *. destruct (SFdiv_core_binary _ _ _ _ _ _) as [[mz ez] lz].
    rewrite round_aux_equiv. exact H.
  - pose proof (binary_round_aux_correct 53 1024 prec53 emax1024 mode_NE r (m * 2 ^ 52) (e + (- 52 - Z.of_nat j)) SpecFloat.loc_Exact) as H.
    rewrite Hs in H. rewrite round_aux_equiv, xorb_false_r. apply H.
    + constructor. unfold r. rewrite Rabs_mult, (Rabs_pos_eq (bpow _ _)) by apply bpow_ge_0.
      rewrite <- F2R_Zabs. replace (Z.abs (SpecFloat.cond_Zopp s (Z.pos m))) with (Z.pos m) by (by destruct s).
      unfold F2R. cbn [Fnum Fexp]. rewrite Pos2Z.inj_mul, mult_IZR. change (IZR (Z.pos (2 ^ 52))) with (IZR (Zpower radix2 52)).
      rewrite IZR_Zpower by done. rewrite !Rmult_assoc, <- !bpow_plus. do 2 f_equal. lia.
    + assert (52 < Zdigits radix2 (Z.pos (m * 2 ^ 52)))%Z as Hdig.
      { apply Zdigits_gt_Zpower. rewrite Z.abs_eq by lia. change (Zpower radix2 52) with (Z.pos (2 ^ 52)). lia. }
      unfold SpecFloat.fexp. lia.
Qed.

(** ** Averages *)
Local Close Scope R_scope.

Lemma init_same outs t1 t2 : (∀ k, k ∈ map of_name outs ++ map tg_field t1 ↔ k ∈ map of_name outs ++ map tg_field t2) →
  score_init outs t1 = score_init outs t2.
Proof.
  intros H. apply map_eq. intros k. destruct (score_init outs t1 !! k) as [v|] eqn:H1, (score_init outs t2 !! k) as [w|] eqn:H2; [|exfalso|exfalso|done].
  - apply score_init_zero in H1 as ->. by apply score_init_zero in H2 as ->.
  - assert (is_Some (score_init outs t2 !! k)) as [? Hx]; [|by rewrite H2 in Hx]. apply score_init_keys, H, score_init_keys. eauto.
  - assert (is_Some (score_init outs t1 !! k)) as [? Hx]; [|by rewrite H1 in Hx]. apply score_init_keys, H, score_init_keys. eauto.
Qed.

Lemma filter_factor f ks k : NoDup ks →
  filter (λ t, tg_field t = k) ((λ k, Target k (Some f) None) <$> ks) = if decide (k ∈ ks) then [Target k (Some f) None] else [].
Proof.
  induction ks as [|a ks IH]; intros Hnd; [done|]. apply NoDup_cons in Hnd as [Ha Hnd]. rewrite fmap_cons, filter_cons. cbn [tg_field].
  specialize (IH Hnd). destruct (decide (a = k)) as [->|Hne].
  - rewrite IH, decide_False, decide_True by (done || by left). done.
  - rewrite IH. destruct (decide (k ∈ ks)); [by rewrite decide_True by (by right)|].
    rewrite decide_False; [done|]. intros [->|]%elem_of_cons; done.
Qed.

Lemma average_sum {M} E tk h1 h2 (ev : nat → M → datarow → outcome M) ks f sm r :
  mm_function (em_hdr h2) = mm_function (em_hdr h1) → em_outputs h2 = em_outputs h1 →
  em_targets h2 = em_targets h1 ++ ((λ k, Target k (Some f) None) <$> ks) →
  NoDup ks → (∀ k, k ∈ ks ↔ k ∈ map of_name (em_outputs h1) ++ map tg_field (em_targets h1)) →
  (∀ x, fdiv x (f64_of_Z (Z.of_nat (length (em_segs h1)))) = fmul x f) →
  (average_models E tk h1 ev sm r).1 = (sum_models E tk h2 ev sm r).1.
Proof.
  intros Hf Ho Ht Hnd Hks Hx. unfold average_models, sum_models. rewrite Hf, Ho.
  rewrite (init_same (em_outputs h1) (em_targets h2) (em_targets h1)).
  2: { intros k. rewrite Ht, map_app, app_assoc, elem_of_app, <- Hks.
       assert (map tg_field ((λ k, Target k (Some f) None) <$> ks) = ks) as ->; [|tauto].
       change (map tg_field ?l) with (tg_field <$> l). rewrite <- list_fmap_compose. by rewrite list_fmap_id. }
  destruct (sum_segments _ _ _ _ _ _ sm _) as [[[m|x|p] r1] s1] eqn:H1; [|done..]. cbn [fst]. do 2 f_equal.
  assert (∀ k, is_Some (m !! k) ↔ k ∈ ks) as Hk.
  { intros k'. by rewrite (sum_segments_keys _ _ _ _ _ _ _ _ _ _ _ H1), score_init_keys, Hks. }
  rewrite average_row_eq, !score_out_eq. apply map_eq. intros k. rewrite !lookup_fmap.
  rewrite !(ProofsMining.rescale_lookup).
  - rewrite Ht, filter_app, filter_factor by done. destruct (m !! k) as [v|] eqn:Hv; [|done]. cbn.
    rewrite decide_True by (apply Hk; by rewrite Hv). rewrite foldl_app. cbn. by rewrite Hx.
  - intros t. rewrite Ht. intros [Hi|Hi]%elem_of_app; apply Hk.
    + apply Hks, elem_of_app. right. by apply elem_of_list_fmap_1.
    + by apply elem_of_list_fmap in Hi as (? & -> & ?).
  - intros t Hi. apply Hk, Hks, elem_of_app. right. by apply elem_of_list_fmap_1.
Qed.

Lemma average_pair E dd td h segs f ks :
  mm_method h = "average" → NoDup ks → (∀ k, k ∈ ks ↔ k ∈ header_output_names h) →
  (∀ x, fdiv x (f64_of_Z (Z.of_nat (length segs))) = fmul x f) →
  match new_model E dd td (DMining h segs), new_model E dd td (DMining (as_sum f ks h) segs) with
  | (Ok e1, td1), (Ok e2, td2) => td1 = td2 ∧ ∀ tk r, (evaluate E tk e1 r).1 = (evaluate E tk e2 r).1
  | (Err x, td1), (Err y, td2) => x = y ∧ td1 = td2
  | (Panic x, td1), (Panic y, td2) => x = y ∧ td1 = td2
  | _, _ => False
  end.
Proof.
  intros Hm Hnd Hks Hx. rewrite !new_model_mining.
  assert (header_of h = h ∧ header_of (as_sum f ks h) = as_sum f ks h) as [Hh1 Hh2].
  { unfold header_of. by rewrite Hm. }
  rewrite Hh1, Hh2. change (mm_method (as_sum f ks h)) with "sum". rewrite Hm.
  cbn [method_ok String.eqb Ascii.eqb Bool.eqb orb negb].
  change (mm_output (as_sum f ks h)) with (mm_output h). change (mm_lt (as_sum f ks h)) with (mm_lt h).
  destruct (List.find _ _) as [o|]; [done|].
  destruct (compile_segments (new_model E dd) (td ++ mm_lt h) [] segs) as [[[[]|x|p] sm] td1]; [|done..].
  split; [done|]. intros tk r.
  rewrite !mining_evaluate_run by done. cbn [built_mining em_defaults em_hdr].
  change (mm_schema (as_sum f ks h)) with (mm_schema h). rewrite !header_of_lt. change (mm_lt (as_sum f ks h)) with (mm_lt h).
  destruct (impute _ _ _ _) as [r1|x|p]; [|done..]. destruct (handle_input _ _ _) as [[u'|x|p] r2]; [|done..].
  unfold run_method. cbn [built_mining em_hdr]. rewrite ?Hh1, ?Hh2. change (mm_method (as_sum f ks h)) with "sum". rewrite ?Hm.
  cbn [String.eqb Ascii.eqb Bool.eqb].
  pose proof (average_sum E tk (built_mining dd td h segs) (built_mining dd td (as_sum f ks h) segs)
    (λ i s r, evaluate E (5 :: i :: tk) s r) ks f sm r2) as Hsum. feed specialize Hsum.
  { cbn. by rewrite Hh1. } { done. } { done. } { done. } { done. } { done. }
  unfold wrap_row. destruct (average_models _ _ _ _ sm _) as [[o1 q1] s1], (sum_models _ _ _ _ sm _) as [[o2 q2] s2].
  simpl in Hsum. injection Hsum as -> ->. by destruct o2.
Qed.

Lemma average_answers E dd d1 d2 : rescaled_average d1 d2 → answers_for E dd d1 d2 ∧ answers_for E dd d2 d1.
Proof.
  intros [h segs ks j Hm Hnd Hks Hn Hj]. split; intros td e td' He;
    (pose proof (average_pair E dd td h segs (fdiv fone (f64_of_Z (Z.of_nat (length segs)))) ks Hm Hnd Hks) as Hp;
     feed specialize Hp; [intros x; rewrite Hn; by apply div_pow|]); rewrite He in Hp.
  - destruct (new_model E dd td (DMining (as_sum _ _ _) _)) as [[e2| |] td2]; try done. destruct Hp as [-> Hp]. eauto.
  - destruct (new_model E dd td (DMining h segs)) as [[e2| |] td2]; try done. destruct Hp as [-> Hp].
    exists e2. split; [done|]. intros tk r. symmetry. apply Hp.
Qed.

Lemma averages_answer E dd d1 d2 : rtsc (exchanged rescaled_average) d1 d2 → rtc (exchanged (answers_for E dd)) d1 d2.
Proof.
  intros H. induction H as [d|d1 d2 d3 H _ IH]; [apply rtc_refl|]. eapply rtc_l; [|exact IH]. destruct H as [H|H].
  - apply (exchanged_map _ (answers_for E dd) false) in H; [exact H|]. intros a b Hab. exact (proj1 (average_answers E dd _ _ Hab)).
  - apply (exchanged_map _ (answers_for E dd) true) in H; [exact H|]. intros a b Hab. exact (proj2 (average_answers E dd _ _ Hab)).
Qed.
