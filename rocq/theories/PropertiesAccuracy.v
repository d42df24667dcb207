(** Properties C78 - C83: how far rounding can move a prediction, and what it
    never does. *)
From Coq Require Import Reals Lra.
From Flocq Require Import Core.Core IEEE754.BinarySingleNaN.
From Verif Require Import Base Strconv Value Doc Expr Pred Tree Regression Model Lib FloatLib SpecPred ProofsPred
  SpecExpr ProofsExpr SpecConstruct ProofsConstruct SpecTree ProofsTree ProofsOutput ProofsEval ProofsDoc
  ProofsSafe ProofsWhole ProofsClass ProofsAnswer SpecModel ProofsMining SpecRegr ProofsRegr ProofsValue GoExt Samples RealLib
  AccLib PropertiesTree PropertiesModel PropertiesRegr.
Local Open Scope R_scope.

(** *** C78: the order of the segments of a sum *)

Lemma no_targets k l : k ∉ map tg_field l → filter (λ t, tg_field t = k) l = [].
Proof.
  induction l as [|t l IH]; intros Hk; [done|]. cbn [map] in Hk. apply not_elem_of_cons in Hk as [H1 H2].
  rewrite filter_cons_False by congruence. by apply IH.
Qed.

(** The score reported for an output without rescaling is within
    ((1 + 2^-53)^n - 1) * (|x1| + ... + |xn|) of the exact sum of the segments'
    scores, and within twice that of the float sum in any other order. *)
Theorem C78_sum_accuracy_partial : ∀ E dd td h segs e td' calls tk m m2 es outs m3 k,
  new_model E dd td (DMining h segs) = (Ok e, td') → mm_method h = "sum" ∨ mm_method h = "" →
  prepared E h m m2 → segment_models E dd (td ++ mm_lt h) segs es →
  seg_outputs E (seg_tickets tk 0 (length segs)) es m2 outs m3 →
  k ∈ map of_name (mm_output h) → k ∉ map tg_field (mm_targets h) →
  let xs := contributions E h k outs in
  Forall valid xs →
  ∃ out x, (evaluate E tk (after E calls e) (Some m)).1 = (Ok (Some out), Some m3) ∧ out !! k = Some (GF64 x) ∧
    (fin x →
       Rabs (R64 x - real_sum xs) <= ((1 + unit_roundoff) ^ length xs - 1) * abs_sum xs ∧
       ∀ ys, ys ≡ₚ xs → fin (foldl fadd fzero ys) →
         Rabs (R64 x - R64 (foldl fadd fzero ys)) <= 2 * (((1 + unit_roundoff) ^ length xs - 1) * abs_sum xs)).
Proof.
  intros E dd td h segs e td' calls tk m m2 es outs m3 k Hn Hm Hp Hs Ho Hk Hnt xs Hv.
  destruct (C48_sum E dd td h segs e td' calls tk m m2 es outs m3 Hn Hm Hp Hs Ho) as (out & He & Hout).
  exists out, (foldl fadd fzero xs). split; [done|]. split.
  { rewrite Hout, decide_True by (apply elem_of_app; by left). unfold sum_total.
    by rewrite no_targets. }
  intros Hf. pose proof (sum0_error xs Hv Hf) as He1. split; [done|]. intros ys Hys Hfy.
  assert (Forall valid ys) as Hvy by by rewrite Hys.
  pose proof (sum0_error ys Hvy Hfy) as He2.
  assert (real_sum ys = real_sum xs) as Hr by (apply rsum_perm; by rewrite Hys).
  assert (abs_sum ys = abs_sum xs) as Ha by (apply rsum_perm; by rewrite Hys).
  rewrite Hr, Ha, (Permutation_length Hys) in He2.
  replace (R64 (foldl fadd fzero xs) - R64 (foldl fadd fzero ys)) with
    ((R64 (foldl fadd fzero xs) - real_sum xs) + - (R64 (foldl fadd fzero ys) - real_sum xs)) by ring.
  eapply Rle_trans; [apply Rabs_triang|]. rewrite Rabs_Ropp. lra.
Qed.
Print Assumptions C78_sum_accuracy_partial.

(** a tree that always answers [s] *)
Definition always (s : string) : doc_model :=
  DTree (TreeModel "regression" "none" fone "" [] [] None (MNode "1" "" s (fl "1") [] [] PTrue)).
Definition total_of (method : string) (ss : list string) : doc_model :=
  mining "regression" method [] [OF "y" "" ""] [] (map always ss).

(** 10^16 + 1 - 10^16 is 0, 10^16 - 10^16 + 1 is 1 *)
Theorem C78_order_refuted : ∃ E dd h segs1 segs2 e1 td1 e2 td2 r,
  segs1 ≡ₚ segs2 ∧ mm_method h = "sum" ∧
  new_model E dd [] (DMining h segs1) = (Ok e1, td1) ∧ new_model E dd [] (DMining h segs2) = (Ok e2, td2) ∧
  (evaluate E [] e1 r).1.1 = Ok (Some {["y" := GF64 (fl "0")]}) ∧
  (evaluate E [] e2 r).1.1 = Ok (Some {["y" := GF64 (fl "1")]}).
Proof.
  set (d1 := total_of "sum" ["10000000000000000"; "1"; "-10000000000000000"]).
  set (d2 := total_of "sum" ["10000000000000000"; "-10000000000000000"; "1"]).
  exists go_ext, [], (MiningHeader "regression" "sum" [] [] [OF "y" "" ""] [] None),
    (map seg (map always ["10000000000000000"; "1"; "-10000000000000000"])),
    (map seg (map always ["10000000000000000"; "-10000000000000000"; "1"])).
  exists (built go_ext [] d1), (new_model go_ext [] [] d1).2, (built go_ext [] d2), (new_model go_ext [] [] d2).2, (Some ∅).
  split; [cbn [map]; apply perm_skip, perm_swap|]. split; [done|].
  split; [apply built_ok; by vm_compute|]. split; [apply built_ok; by vm_compute|].
  split; apply eval_out; by vm_compute.
Qed.
Print Assumptions C78_order_refuted.

Example C78_example :
  contributions go_ext (houses_header "sum") "other" [Some {["score" := GF64 (fl "50.5")]}; Some {["score" := GF64 (fl "50.5")]}]
    = [fl "50.5"; fl "50.5"] ∧
  Forall valid [fl "50.5"; fl "50.5"] ∧ fin (foldl fadd fzero [fl "50.5"; fl "50.5"]).
Proof. split; [by vm_compute|]. split; [repeat constructor; by vm_compute|by vm_compute]. Qed.

(** *** C79: averages *)

(** ten segments answering 0.1 average to less than 0.1 *)
Theorem C79_between_refuted : ∃ E dd h segs e td' r x,
  mm_method h = "average" ∧ new_model E dd [] (DMining h segs) = (Ok e, td') ∧
  Forall (λ s, sg_models s = [always "0.1"]) segs ∧
  (evaluate E [] e r).1.1 = Ok (Some {["y" := GF64 x]}) ∧ fltb x (fl "0.1") = true.
Proof.
  set (d := total_of "average" (replicate 10 "0.1")).
  exists go_ext, [], (MiningHeader "regression" "average" [] [] [OF "y" "" ""] [] None), (map seg (map always (replicate 10 "0.1"))).
  exists (built go_ext [] d), (new_model go_ext [] [] d).2, (Some ∅), (fl "0.09999999999999999").
  split; [done|]. split; [apply built_ok; by vm_compute|]. split; [by repeat constructor|].
  split; [apply eval_out; by vm_compute|by vm_compute].
Qed.
Print Assumptions C79_between_refuted.

Theorem C79_average_accuracy_partial : ∀ E dd td h segs e td' calls tk m m2 es outs m3 k,
  new_model E dd td (DMining h segs) = (Ok e, td') → mm_method h = "average" →
  prepared E h m m2 → segment_models E dd (td ++ mm_lt h) segs es →
  seg_outputs E (seg_tickets tk 0 (length segs)) es m2 outs m3 →
  k ∈ map of_name (mm_output h) → k ∉ map tg_field (mm_targets h) →
  let xs := contributions E h k outs in
  Forall valid xs → length xs = length segs → (0 < Z.of_nat (length segs) <= 2 ^ 53)%Z →
  ∃ out x, (evaluate E tk (after E calls e) (Some m)).1 = (Ok (Some out), Some m3) ∧ out !! k = Some (GF64 x) ∧
    (fin (foldl fadd fzero xs) → fin x →
       Rabs (R64 x - real_sum xs / INR (length xs)) <=
         ((1 + unit_roundoff) ^ S (length xs) - 1) * (abs_sum xs / INR (length xs)) + tiny).
Proof.
  intros E dd td h segs e td' calls tk m m2 es outs m3 k Hn Hm Hp Hs Ho Hk Hnt xs Hv Hlen Hpos.
  destruct (C49_average E dd td h segs e td' calls tk m m2 es outs m3 Hn Hm Hp Hs Ho) as (out & He & Hout).
  exists out, (fdiv (foldl fadd fzero xs) (f64_of_Z (Z.of_nat (length xs)))). split; [done|]. split.
  { rewrite Hout, decide_True by (apply elem_of_app; by left). unfold sum_total. rewrite Hlen.
    by rewrite no_targets. }
  intros Hf1 Hf2. apply average_error; [done|rewrite Hlen; done|done|done].
Qed.
Print Assumptions C79_average_accuracy_partial.

Example C79_example :
  Forall valid [fl "50.5"; fl "50.5"] ∧ fin (foldl fadd fzero [fl "50.5"; fl "50.5"]) ∧
  fin (fdiv (foldl fadd fzero [fl "50.5"; fl "50.5"]) (f64_of_Z 2)) ∧ "other" ∉ map tg_field (mm_targets (houses_header "average")).
Proof.
  split; [repeat constructor; by vm_compute|]. split; [by vm_compute|]. split; [by vm_compute|].
  simpl. intros [?|H%elem_of_nil]%elem_of_cons; done.
Qed.

(** *** C80: accuracy of a linear form *)
Definition inputs (E : Ext) (r : datarow) (t : regr_table) : list (f64 * f64) :=
  map (λ p, (np_coeff p, input_of E r p)) (rt_predictors t).
Definition good_inputs (E : Ext) (r : datarow) (t : regr_table) : Prop :=
  valid (rt_intercept t) ∧ Forall (λ p, valid (np_coeff p) ∧ valid (input_of E r p)) (rt_predictors t).

Lemma affine_form E r t : affine E r t = form (rt_intercept t) (inputs E r t).
Proof.
  unfold affine, form, inputs. generalize (rt_intercept t). induction (rt_predictors t) as [|p ps IH]; intros a; simpl; [done|apply IH].
Qed.
Lemma good_inputs_pairs E r t : good_inputs E r t → Forall (λ p : f64 * f64, valid p.1 ∧ valid p.2) (inputs E r t).
Proof. intros [_ H]. unfold inputs. apply Forall_map. exact H. Qed.

(** A regression model reports g(y) for a y within rounding distance of
    intercept + sum of coefficient * input: relative error 2^-53 for each of the
    operations, and half the smallest float64 for each product. *)
Theorem C80_linear_accuracy : ∀ E dd td m e td' calls tk r t o g,
  new_model E dd td (DRegr m) = (Ok e, td') → rm_function m = "regression" →
  rm_tables m = [t] → rm_output m = [o] → Forall (present r) (rt_predictors t) → link E (rm_norm m) g →
  good_inputs E r t →
  ∃ y, (evaluate E tk (after E calls e) r).1 = (Ok (Some {[of_name o := GF64 (g y)]}), r) ∧
    (fin y → let n := length (rt_predictors t) in
      Rabs (R64 y - (R64 (rt_intercept t) + terms (inputs E r t))) <=
        ((1 + unit_roundoff) ^ S n - 1) * (Rabs (R64 (rt_intercept t)) + abs_terms (inputs E r t)) +
        INR n * (1 + unit_roundoff) ^ n * tiny).
Proof.
  intros E dd td m e td' calls tk r t o g Hn Hf Ht Ho Hp Hg Hgood.
  destruct (C52_linear_regression E dd td m e td' calls tk r t o Hn Hf Ht Ho Hp) as [H _].
  exists (affine E r t). split; [by apply H|]. intros Hfin n. rewrite affine_form in *.
  pose proof (form_error _ _ (proj1 Hgood) (good_inputs_pairs _ _ _ Hgood) Hfin) as He.
  assert (length (inputs E r t) = n) as Hl by (unfold inputs; by rewrite map_length). rewrite Hl in He.
  eapply Rle_trans; [exact He|]. apply Rplus_le_compat_r. rewrite Rmult_plus_distr_l. apply Rplus_le_compat_r.
  apply Rmult_le_compat_r; [apply Rabs_pos|]. pose proof unit_pos. pose proof (pow_u_ge1 n).
  cbn [Rpow_def.pow]. nra.
Qed.
Print Assumptions C80_linear_accuracy.

Definition exp_lin : regr_model :=
  RegrModel "regression" "exp" [] [] (rm_tables lin_model) (rm_output lin_model) None.
Example C80_example :
  Forall (good_inputs go_ext flat_row) (rm_tables exp_lin) ∧ map (affine go_ext flat_row) (rm_tables exp_lin) = [fl "1"].
Proof. split; [|by vm_compute]. constructor; [|done]. split; [by vm_compute|]. repeat constructor; by vm_compute. Qed.

(** *** C81: raising a predictor *)

(** the inputs of [r'] are at least those of [r] where the coefficient is not
    negative, at most those of [r] where it is not positive *)
Definition raised (E : Ext) (r r' : datarow) (p : predictor) : Prop :=
  (fleb fzero (np_coeff p) = true ∧ fleb (input_of E r p) (input_of E r' p) = true) ∨
  (fleb (np_coeff p) fzero = true ∧ fleb (input_of E r' p) (input_of E r p) = true).
Definition monotone (f : f64 → f64) : Prop :=
  ∀ x y, valid x → valid y → fleb x y = true → fleb (f x) (f y) = true.

Lemma affine_monotone E r r' t : good_inputs E r t → good_inputs E r' t →
  Forall (raised E r r') (rt_predictors t) → fin (affine E r t) → fin (affine E r' t) →
  fleb (affine E r t) (affine E r' t) = true.
Proof.
  intros G G' Hr F F'. pose proof (good_inputs_pairs _ _ _ G) as GP. pose proof (good_inputs_pairs _ _ _ G') as GP'.
  assert (valid (affine E r t)) as V by (rewrite affine_form; apply form_valid; [apply G|done]).
  assert (valid (affine E r' t)) as V' by (rewrite affine_form; apply form_valid; [apply G'|done]).
  apply fle_R; [done..|]. rewrite !affine_form in *. apply form_mono; try done; [apply G|apply G|apply Rle_refl|].
  destruct (form_fin _ _ (proj1 G) GP F) as [_ FP]. destruct (form_fin _ _ (proj1 G') GP' F') as [_ FP'].
  destruct G as [_ G], G' as [_ G']. clear -Hr G G' FP FP'. unfold inputs in *.
  induction Hr as [|p ps Hp Hr IH]; simpl in *; [constructor|].
  apply Forall_cons in G as [[V1 V2] G]. apply Forall_cons in G' as [[_ V2'] G'].
  apply Forall_cons in FP as [F1 FP]. apply Forall_cons in FP' as [F1' FP'].
  constructor; [|by apply IH]. cbn [fst snd] in *.
  destruct (fmul_fin _ _ V1 V2 F1) as (Fc & Fx & _). destruct (fmul_fin _ _ V1 V2' F1') as (_ & Fx' & _).
  destruct Hp as [[Hc Hx]|[Hc Hx]]; apply fle_R in Hc; try done; apply fle_R in Hx; try done; simpl (R64 fzero) in Hc.
  - by apply Rmult_le_compat_l.
  - set (c := R64 (np_coeff p)) in *. nra.
Qed.

Theorem C81_monotone : ∀ E dd td m e td' calls tk r r' t o g,
  new_model E dd td (DRegr m) = (Ok e, td') → rm_function m = "regression" →
  rm_tables m = [t] → rm_output m = [o] → link E (rm_norm m) g → monotone g →
  Forall (present r) (rt_predictors t) → Forall (present r') (rt_predictors t) →
  good_inputs E r t → good_inputs E r' t → Forall (raised E r r') (rt_predictors t) →
  fin (affine E r t) → fin (affine E r' t) →
  ∃ x x', (evaluate E tk (after E calls e) r).1 = (Ok (Some {[of_name o := GF64 x]}), r) ∧
    (evaluate E tk (after E calls e) r').1 = (Ok (Some {[of_name o := GF64 x']}), r') ∧ fleb x x' = true.
Proof.
  intros E dd td m e td' calls tk r r' t o g Hn Hf Ht Ho Hg Hmono Hp Hp' G G' Hr F F'.
  destruct (C52_linear_regression E dd td m e td' calls tk r t o Hn Hf Ht Ho Hp) as [H _].
  destruct (C52_linear_regression E dd td m e td' calls tk r' t o Hn Hf Ht Ho Hp') as [H' _].
  exists (g (affine E r t)), (g (affine E r' t)). split; [by apply H|]. split; [by apply H'|]. apply Hmono.
  - rewrite affine_form. apply form_valid; [apply G|by apply good_inputs_pairs].
  - rewrite affine_form. apply form_valid; [apply G'|by apply good_inputs_pairs].
  - by apply affine_monotone.
Qed.
Print Assumptions C81_monotone.

(** The logistic link is monotone if math.Exp is; Exp(NaN) may be NaN. *)
Theorem C81_logistic_monotone : ∀ E,
  (∀ x, valid x → x ≠ S754_nan → number (ext_exp E x)) → monotone (ext_exp E) →
  monotone (λ y, fdiv fone (fadd fone (ext_exp E (fneg y)))).
Proof.
  intros E Hn He x y Hx Hy Hle. assert (x ≠ S754_nan ∧ y ≠ S754_nan) as [Nx Ny].
  { split; intros ->; [done|]. by destruct x as [[]|[]| |[] ? ?]. }
  apply logistic_mono; [apply Hn; [by apply fneg_valid|by destruct y]|apply Hn; [by apply fneg_valid|by destruct x]|]. clear Nx Ny.
  apply He; [by apply fneg_valid..|]. revert Hle. clear. unfold fneg, fleb, SFleb.
  destruct x as [[]|[]| |[] mx ex], y as [[]|[]| |[] my ey]; simpl; try done.
  all: rewrite (Z.compare_antisym ex ey); destruct (ex ?= ey)%Z; simpl; try done.
  all: change (Pos.compare_cont Eq ?a ?b) with (Pos.compare a b); rewrite (Pos.compare_antisym mx my); by destruct (Pos.compare mx my).
Qed.
Print Assumptions C81_logistic_monotone.

(** a step function in place of the exponential is monotone; NaN stays NaN *)
Definition step_ext : Ext :=
  {| ext_parse_float := ext_parse_float go_ext; ext_exp := λ x, if fleb fzero x then fone else if fleb x fzero then fzero else S754_nan;
     ext_atan := ext_atan go_ext; ext_order := ext_order go_ext; ext_order_perm := ext_order_perm go_ext;
     ext_fmt := ext_fmt go_ext; ext_parse_float_empty := ext_parse_float_empty go_ext |}.
Example C81_example :
  (∀ x, valid x → x ≠ S754_nan → number (ext_exp step_ext x)) ∧ monotone (ext_exp step_ext) ∧
  Forall (raised step_ext flat_row (Some {["area" := GF64 (fl "0.75"); "rooms" := GInt KInt 3%Z]}))
    (concat (map rt_predictors (rm_tables exp_lin))).
Proof.
  split; [|split].
  - intros x _ Hx. by destruct x as [[]|[]| |[] ? ?].
  - intros x y _ _ Hle. by destruct x as [[]|[]| |[] ? ?], y as [[]|[]| |[] ? ?].
  - repeat constructor; by vm_compute.
Qed.

(** *** C82: softmax keeps the order of the linear forms *)
Theorem C82_softmax_order : ∀ E dd td m e td' calls tk r i j ti tj ki kj,
  new_model E dd td (DRegr m) = (Ok e, td') → rm_function m = "classification" → length (rm_output m) ≠ 2%nat →
  rm_norm m = "softmax" → Forall (λ t, Forall (present r) (rt_predictors t)) (rm_tables m) →
  Forall (λ t, number (ext_exp E (affine E r t))) (rm_tables m) →
  let total := foldl (λ s u, fadd s (ext_exp E (affine E r u))) fzero (rm_tables m) in
  fltb fzero total = true → total ≠ S754_infinity false →
  rm_tables m !! i = Some ti → rm_tables m !! j = Some tj →
  name_of (rm_output m) ti ki → name_of (rm_output m) tj kj →
  (∀ n t, rm_tables m !! n = Some t → name_of (rm_output m) t ki → n = i) →
  (∀ n t, rm_tables m !! n = Some t → name_of (rm_output m) t kj → n = j) →
  fleb (ext_exp E (affine E r ti)) (ext_exp E (affine E r tj)) = true →
  ∃ out p q, (evaluate E tk (after E calls e) r).1 = (Ok (Some out), r) ∧
    out !! ki = Some (GF64 p) ∧ out !! kj = Some (GF64 q) ∧ fleb p q = true.
Proof.
  intros E dd td m e td' calls tk r i j ti tj ki kj Hn Hf Hl Hm Hp Hnum total Hpos Hfin Hi Hj Ki Kj Ui Uj Hle.
  destruct (C54_softmax E dd td m e td' calls tk r Hn Hf Hl Hm Hp) as (out & Ho & Hw).
  exists out, (fdiv (ext_exp E (affine E r ti)) total), (fdiv (ext_exp E (affine E r tj)) total).
  split; [done|]. split; [|split].
  - apply Hw. exists i, ti. eexists. split; [done|]. split; [by rewrite list_lookup_fmap, Hi|]. split; [done|]. split; [done|].
    intros n t Hlt Ht Hk. specialize (Ui _ _ Ht Hk). lia.
  - apply Hw. exists j, tj. eexists. split; [done|]. split; [by rewrite list_lookup_fmap, Hj|]. split; [done|]. split; [done|].
    intros n t Hlt Ht Hk. specialize (Uj _ _ Ht Hk). lia.
  - pose proof (share_unit (λ u, ext_exp E (affine E r u)) (rm_tables m) ti Hnum (elem_of_list_lookup_2 _ _ _ Hi) Hpos Hfin) as [A1 A2].
    pose proof (share_unit (λ u, ext_exp E (affine E r u)) (rm_tables m) tj Hnum (elem_of_list_lookup_2 _ _ _ Hj) Hpos Hfin) as [B1 B2].
    fold total in A1, A2, B1, B2.
    assert (∀ x, fleb fzero x = true → fleb x fone = true → fin x) as HF by (intros x ? ?; by destruct x as [|[]| |]).
    pose proof (HF _ A1 A2) as FA. pose proof (HF _ B1 B2) as FB.
    pose proof Hnum as Hnum'. rewrite Forall_forall in Hnum'.
    destruct (Hnum' ti (elem_of_list_lookup_2 _ _ _ Hi)) as [Vi Pi]. destruct (Hnum' tj (elem_of_list_lookup_2 _ _ _ Hj)) as [Vj Pj].
    assert (number total) as Nt.
    { unfold total. rewrite foldl_sum_map. apply running_sum; [apply number_zero|by apply Forall_fmap]. }
    destruct (number_cases _ Nt) as [[Ft Pt]|?]; [|done].
    assert (0 < R64 total) as Rt.
    { destruct Nt as [[b Hb]%valid_b _]. rewrite Hb in *. rewrite is_finite_SF_B2SF in Ft. rewrite b0_eq, fltb_R in Hpos by done.
      rewrite SF2R_B2SF. revert Hpos. by case Rlt_bool_spec. }
    destruct (fdiv_fin _ total Vi (proj1 Nt) Ft ltac:(lra) FA) as [Fi _].
    destruct (fdiv_fin _ total Vj (proj1 Nt) Ft ltac:(lra) FB) as [Fj _].
    apply fle_R; [apply fdiv_valid; [done|apply Nt]..|done|done|].
    apply fdiv_mono; [done|done|apply Nt|done|done|done|done|]. by apply fle_R.
Qed.
Print Assumptions C82_softmax_order.

(** classes a and c of the three-class model: e^1 and e^2 *)
Example C82_example :
  let m := three_model "softmax" in
  (∃ t, rm_tables m !! 0%nat = Some t ∧ name_of (rm_output m) t "p_a") ∧
  (∃ t, rm_tables m !! 2%nat = Some t ∧ name_of (rm_output m) t "") ∧
  Forall (λ t, number (ext_exp go_ext (affine go_ext half_row t))) (rm_tables m) ∧
  fleb (ext_exp go_ext (fl "1")) (ext_exp go_ext (fl "2")) = true.
Proof.
  split; [|split; [|split]].
  - eexists. split; [done|]. left. eexists [], _, [_; _]. split; [done|]. split; [done|]. split; [done|].
    intros o [->|[->|H%elem_of_nil]%elem_of_cons]%elem_of_cons; done.
  - eexists. split; [done|]. right. split; [done|].
    intros o [->|[->|[->|H%elem_of_nil]%elem_of_cons]%elem_of_cons]%elem_of_cons; done.
  - repeat constructor; by vm_compute.
  - by vm_compute.
Qed.

(** *** C83: class probabilities add up to one *)
Theorem C83_probabilities_sum : ∀ E dd td t e td' calls tk r r' leaf zs,
  new_model E dd td (DTree t) = (Ok e, td') →
  tm_strategy t ∉ ["nullPrediction"; "aggregateNodes"; "weightedConfidence"; "defaultChild"; "lastPrediction"] →
  everywhere_doc (λ m, m_pred m ≠ PNone) (tm_node t) →
  handle_input E (tm_lt t) r = (Ok tt, r') →
  doc_truth E dd td t r' (tm_node t) RT →
  descend_none m_nodes (doc_truth E dd td t r') (tm_node t) leaf →
  tm_function t = "classification" → m_dists leaf ≠ [] →
  (m_nodes leaf = [] ∨ tm_notrue t ≠ "returnNullPrediction") →
  NoDup (map sd_value (m_dists leaf)) →
  Forall (λ d, sd_prob d = None) (m_dists leaf) →
  map sd_count (m_dists leaf) = map f64_of_Z zs → Forall (λ z, (0 <= z)%Z) zs →
  (0 < foldr Z.add 0%Z zs <= 2 ^ 53)%Z →
  ∃ out ps, (evaluate E tk (after E calls e) r).1.1 = Ok (Some out) ∧
    Forall2 (λ d p, out !! ("probability(" +:+ sd_value d +:+ ")") = Some (GF64 p)) (m_dists leaf) ps ∧
    Rabs (real_sum ps - 1) <= unit_roundoff.
Proof.
  intros E dd td t e td' calls tk r r' leaf zs Hn Hst Hp Hi Hrt Hl Hf Hds Hnt Hnd Hprob Hcnt Hz Hsum.
  destruct (C15_strategy_none E dd td t e td' calls tk r r' Hn Hst Hp Hi) as [H _].
  rewrite (proj2 (H Hrt) leaf Hl). unfold reported, report. rewrite decide_True by done.
  set (total := foldl fadd fzero (f64_of_Z <$> zs)).
  exists (class_row (target_field (tm_schema t)) (node_dist dd t leaf)), ((λ z, fdiv (f64_of_Z z) total) <$> zs).
  split; [done|]. split; [|by apply shares_sum].
  assert (foldl (λ a d, fadd a (sd_count d)) fzero (m_dists leaf) = total) as Htot.
  { rewrite foldl_sum_map. unfold total. f_equal. exact Hcnt. }
  assert (node_dist dd t leaf = (λ d, Score (sd_value d) (default (fdiv (sd_count d) total) (sd_conf d)) (fdiv (sd_count d) total) (sd_count d)) <$> m_dists leaf) as ->.
  { unfold node_dist, doc_dist. rewrite decide_False by naive_solver. rewrite decide_True by done.
    apply list_fmap_ext. intros i d Hd.
    assert (SpecTree.share (m_dists leaf) d = fdiv (sd_count d) total) as -> by (rewrite <- Htot; reflexivity).
    rewrite Forall_forall in Hprob. by rewrite (Hprob d (elem_of_list_lookup_2 _ _ _ Hd)). }
  apply Forall2_same_length_lookup_2.
  { rewrite fmap_length. apply (f_equal length) in Hcnt. by rewrite !map_length in Hcnt. }
  intros i d p Hd Hzi. rewrite list_lookup_fmap in Hzi. destruct (zs !! i) as [z|] eqn:Hzz; [|done]. simpl in Hzi. injection Hzi as <-.
  assert (sd_count d = f64_of_Z z) as Hc.
  { apply (f_equal (.!! i)) in Hcnt. rewrite !list_lookup_fmap, Hd, Hzz in Hcnt. by injection Hcnt. }
  pose proof (take_drop_middle _ _ _ Hd) as Hsplit. rewrite <- Hsplit, fmap_app, fmap_cons. rewrite <- Hc.
  match goal with |- class_row _ (?l1 ++ ?s :: ?l2) !! _ = _ => apply (class_row_prob _ l1 s l2) end.
  intros s (d' & -> & Hin)%elem_of_list_fmap. simpl. intros Heq. rewrite <- Hsplit, map_app in Hnd. cbn [map] in Hnd.
  apply NoDup_app in Hnd as (_ & _ & Hnd). apply NoDup_cons in Hnd as [Hnin _]. apply Hnin.
  rewrite <- Heq. by apply elem_of_list_fmap_1.
Qed.
Print Assumptions C83_probabilities_sum.

Example C83_example :
  m_dists (kid golf_root 0) ≠ [] ∧ map sd_count (m_dists (kid golf_root 0)) = map f64_of_Z [2; 3]%Z ∧
  NoDup (map sd_value (m_dists (kid golf_root 0))) ∧ Forall (λ d, sd_prob d = None) (m_dists (kid golf_root 0)).
Proof.
  split; [done|]. split; [by vm_compute|]. split; [|by repeat constructor].
  apply (bool_decide_unpack _). by vm_compute.
Qed.
