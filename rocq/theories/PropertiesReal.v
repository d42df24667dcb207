(** Properties whose proofs go through the real numbers: the [0,1] parts of C26,
    C59, C65, C66 and the nearest float of C42. *)
From Coq Require Import Reals.
From Flocq Require Import Core.Core IEEE754.BinarySingleNaN.
From Verif Require Import Base Strconv Value Doc Expr Pred Tree Regression Model Lib FloatLib SpecPred ProofsPred
  SpecExpr ProofsExpr SpecConstruct ProofsConstruct SpecTree ProofsTree ProofsOutput ProofsEval ProofsDoc
  ProofsSafe ProofsWhole ProofsClass ProofsAnswer SpecRegr ProofsRegr ProofsValue GoExt Samples RealLib PropertiesTree PropertiesRegr.

(** 0 <= x <= 1 as Go compares floats; NaN is in no interval *)
Definition in_unit (x : f64) : Prop := fleb fzero x = true ∧ fleb x fone = true.

(** *** C26: default probabilities lie in [0,1] *)
Theorem C26_unit_interval : ∀ dd t m s,
  (m_nodes m = [] ∨ tm_notrue t ≠ "returnNullPrediction") → m_dists m ≠ [] →
  Forall (λ d, number (sd_count d)) (m_dists m) →
  let total := foldl (λ a d, SFadd 53 1024 a (sd_count d)) (S754_zero false) (m_dists m) in
  fltb fzero total = true → total ≠ S754_infinity false →
  s ∈ node_dist dd t m →
  ∃ d, d ∈ m_dists m ∧ sc_value s = sd_value d ∧
    (sd_prob d = None → in_unit (sc_prob s)) ∧ (sd_conf d = None → in_unit (sc_conf s)).
Proof.
  intros dd t m s Hn Hd Hnum total Hpos Hfin Hs.
  apply (C26_default_share dd t m s Hn Hd) in Hs as (d & Hin & Hv & _ & Hp & Hc).
  exists d. split; [done|]. split; [done|].
  pose proof (share_unit sd_count (m_dists m) d Hnum Hin Hpos Hfin) as Hu.
  split; [intros H; rewrite Hp, H; exact Hu|intros H; rewrite Hc, H; exact Hu].
Qed.
Print Assumptions C26_unit_interval.

(** counts 1e308, 7e307 and 3 of the smallest positive float *)
Definition odd_counts : list score_distribution := [SD "a" "1e308"; SD "b" "7e307"; SD "c" "1.5e-323"].
Example C26_unit_example :
  let total := foldl (λ a d, SFadd 53 1024 a (sd_count d)) (S754_zero false) odd_counts in
  Forall (λ d, number (sd_count d)) odd_counts ∧ fltb fzero total = true ∧ total ≠ S754_infinity false.
Proof. split; [repeat constructor; by vm_compute|]. split; by vm_compute. Qed.

(** *** C42: Float64 of an integer is the nearest float64 *)
Theorem C42_nearest_partial : ∀ E k z g, (- 2 ^ 63 ≤ z < 2 ^ 63)%Z → valid g → is_finite_SF g = true →
  is_finite_SF (val_float64 E (GInt k z)) = true ∧
  (Rabs (SF2R radix2 (val_float64 E (GInt k z)) - IZR z) <= Rabs (SF2R radix2 g - IZR z))%R.
Proof.
  intros E k z g Hz Hv Hf. change (val_float64 E (GInt k z)) with (f64_of_Z (wrap64 z)).
  rewrite wrap64_small by done. split; [apply of_Z_round; lia|apply of_Z_nearest; [lia|done..]].
Qed.
Print Assumptions C42_nearest_partial.

Theorem C42_exact_up_to_53_bits : ∀ E k z, (Z.abs z ≤ 2 ^ 53)%Z →
  SF2R radix2 (val_float64 E (GInt k z)) = IZR z.
Proof.
  intros E k z Hz. change (val_float64 E (GInt k z)) with (f64_of_Z (wrap64 z)).
  rewrite wrap64_small by lia. by apply of_Z_exact.
Qed.
Print Assumptions C42_exact_up_to_53_bits.

(** A uint64 of 2^63 or more goes through int64 first: the largest becomes -1. *)
Theorem C42_nearest_refuted : ∃ E z g, (0 ≤ z < 2 ^ 64)%Z ∧ valid g ∧ is_finite_SF g = true ∧
  (Rabs (SF2R radix2 g - IZR z) < Rabs (SF2R radix2 (val_float64 E (GInt KUint64 z)) - IZR z))%R.
Proof.
  exists go_ext, (2 ^ 64 - 1)%Z, (f64_of_Z (2 ^ 64)). split; [lia|]. split; [by vm_compute|]. split; [by vm_compute|].
  change (val_float64 go_ext (GInt KUint64 (2 ^ 64 - 1))) with (f64_of_Z (-1)).
  rewrite (of_Z_exact (-1)) by lia. destruct (of_Z_round (2 ^ 64)) as [-> _]; [lia|].
  rewrite round_generic; [|apply valid_rnd_round_mode|].
  - rewrite <- !minus_IZR, <- !abs_IZR. by apply IZR_lt.
  - change (IZR (2 ^ 64)) with (bpow radix2 64). apply generic_format_bpow. by vm_compute.
Qed.
Print Assumptions C42_nearest_refuted.

(** 2^53 + 1 is not a float64; it becomes 2^53 *)
Example C42_nearest_example :
  val_float64 go_ext (GInt KInt64 9007199254740993) = f64_of_Z 9007199254740992 ∧
  val_float64 go_ext (GInt KUint64 18446744073709551615) = f64_of_Z (-1) ∧
  valid (f64_of_Z 9007199254740992).
Proof. split; [by vm_compute|]. split; by vm_compute. Qed.

(** *** C59: logistic normalisation *)
Theorem C59_logistic_normalize : ∀ E method y,
  method ∈ ["logit"; "softmax"] → number (ext_exp E (fneg y)) →
  ∃ p, normalize E method y = Ok p ∧ in_unit p.
Proof.
  intros E method y Hm Hy. exists (fdiv fone (fadd fone (ext_exp E (fneg y)))).
  split; [|by apply logistic_unit].
  rewrite !elem_of_cons in Hm. destruct Hm as [->|[->|Hm%elem_of_nil]]; done.
Qed.
Print Assumptions C59_logistic_normalize.

(** what Evaluate of a logistic regression model reports *)
Theorem C59_logistic_regression : ∀ E dd td m e td' calls tk r t o,
  new_model E dd td (DRegr m) = (Ok e, td') → rm_function m = "regression" →
  rm_norm m ∈ ["logit"; "softmax"] →
  rm_tables m = [t] → rm_output m = [o] → Forall (present r) (rt_predictors t) →
  number (ext_exp E (fneg (affine E r t))) →
  ∃ p, (evaluate E tk (after E calls e) r).1 = (Ok (Some {[of_name o := GF64 p]}), r) ∧ in_unit p.
Proof.
  intros E dd td m e td' calls tk r t o Hn Hf Hm Ht Ho Hp Hexp.
  destruct (C52_linear_regression E dd td m e td' calls tk r t o Hn Hf Ht Ho Hp) as [H _].
  eexists. split; [apply (H (λ y, fdiv fone (fadd fone (ext_exp E (fneg y)))))|by apply logistic_unit].
  unfold link, link_table. rewrite !elem_of_cons in Hm. rewrite !elem_of_cons.
  destruct Hm as [->|[->|Hm%elem_of_nil]]; [by left|by right; left|done].
Qed.
Print Assumptions C59_logistic_regression.

(** with an exponential that over- and underflows *)
Example C59_example :
  Forall (λ y, number (ext_exp go_ext (fneg (fl y))) ) ["0"; "1"; "-3.5"; "0.001"] ∧
  number (S754_infinity false) ∧ in_unit (fdiv fone (fadd fone (S754_infinity false))) ∧
  number (ext_exp go_ext (fneg (affine go_ext half_row (RegrTable (fl "0") "b" [Predictor "area" (fl "2") 1])))).
Proof.
  split; [repeat constructor; by vm_compute|]. split; [split; by vm_compute|]. split; [split; by vm_compute|]. split; by vm_compute.
Qed.

(** *** C65: multiclass probabilities *)
Theorem C65_softmax_unit : ∀ E dd td m e td' calls tk r,
  new_model E dd td (DRegr m) = (Ok e, td') → rm_function m = "classification" → length (rm_output m) ≠ 2 →
  rm_norm m = "softmax" → Forall (λ t, Forall (present r) (rt_predictors t)) (rm_tables m) →
  Forall (λ t, number (ext_exp E (affine E r t))) (rm_tables m) →
  let total := foldl (λ s u, fadd s (ext_exp E (affine E r u))) fzero (rm_tables m) in
  fltb fzero total = true → total ≠ S754_infinity false →
  ∃ out, (evaluate E tk (after E calls e) r).1 = (Ok (Some out), r) ∧
    ∀ k v, out !! k = Some v → ∃ p, v = GF64 p ∧ in_unit p.
Proof.
  intros E dd td m e td' calls tk r Hn Hf Hl Hm Hp Hnum total Hpos Hfin.
  destruct (C54_softmax E dd td m e td' calls tk r Hn Hf Hl Hm Hp) as (out & Ho & Hw). exists out. split; [done|].
  intros k v (i & t & x & Hi & Hx & _ & -> & _)%Hw. exists x. split; [done|].
  rewrite list_lookup_fmap, Hi in Hx. simpl in Hx. injection Hx as <-.
  apply (share_unit (λ u, ext_exp E (affine E r u)) (rm_tables m) t Hnum); [by eapply elem_of_list_lookup_2|done|done].
Qed.
Print Assumptions C65_softmax_unit.

Theorem C65_simplemax_unit : ∀ E dd td m e td' calls tk r,
  new_model E dd td (DRegr m) = (Ok e, td') → rm_function m = "classification" → length (rm_output m) ≠ 2 →
  rm_norm m = "simplemax" → Forall (λ t, Forall (present r) (rt_predictors t)) (rm_tables m) →
  Forall (λ t, number (affine E r t)) (rm_tables m) →
  let total := foldl (λ s u, fadd s (affine E r u)) fzero (rm_tables m) in
  fltb fzero total = true → total ≠ S754_infinity false →
  ∃ out, (evaluate E tk (after E calls e) r).1 = (Ok (Some out), r) ∧
    ∀ k v, out !! k = Some v → ∃ p, v = GF64 p ∧ in_unit p.
Proof.
  intros E dd td m e td' calls tk r Hn Hf Hl Hm Hp Hnum total Hpos Hfin.
  destruct (C54_simplemax E dd td m e td' calls tk r Hn Hf Hl Hm Hp) as (out & Ho & Hw). exists out. split; [done|].
  intros k v (i & t & x & Hi & Hx & _ & -> & _)%Hw. exists x. split; [done|].
  rewrite list_lookup_fmap, Hi in Hx. simpl in Hx. injection Hx as <-.
  apply (share_unit (λ u, affine E r u) (rm_tables m) t Hnum); [by eapply elem_of_list_lookup_2|done|done].
Qed.
Print Assumptions C65_simplemax_unit.

Example C65_example :
  Forall (λ t, number (ext_exp go_ext (affine go_ext half_row t))) (rm_tables (three_model "softmax")) ∧
  Forall (λ t, number (affine go_ext half_row t)) (rm_tables (three_model "simplemax")) ∧
  let total := foldl (λ s u, fadd s (affine go_ext half_row u)) fzero (rm_tables (three_model "simplemax")) in
  fltb fzero total = true ∧ total ≠ S754_infinity false.
Proof.
  split; [repeat constructor; by vm_compute|]. split; [repeat constructor; by vm_compute|]. split; by vm_compute.
Qed.

(** *** C66: binary classification probabilities *)

(** True when the table has a single predictor and no intercept. *)
Theorem C66_one_predictor_unit_partial : ∀ E dd td m e td' calls tk r t1 t2 o1 o2 p,
  new_model E dd td (DRegr m) = (Ok e, td') → rm_function m = "classification" →
  rm_norm m ∈ ["logit"; "softmax"] →
  rm_tables m = [t1; t2] → rt_predictors t1 = [p] → rt_intercept t1 = fzero → rt_predictors t2 = [] →
  rm_output m = [o1; o2] ∨ rm_output m = [o2; o1] →
  of_value o1 = rt_category t1 → of_value o2 = rt_category t2 →
  rt_category t1 ≠ rt_category t2 → of_name o1 ≠ of_name o2 →
  present r p → number (ext_exp E (fneg (input_of E r p))) →
  ∃ x y, (evaluate E tk (after E calls e) r).1 = (Ok (Some {[of_name o1 := GF64 x; of_name o2 := GF64 y]}), r) ∧
    in_unit x ∧ in_unit y.
Proof.
  intros E dd td m e td' calls tk r t1 t2 o1 o2 p Hn Hf Hm Ht Hp1 Hi Hp2 Ho Hv1 Hv2 Hc Hnm Hp Hexp.
  assert (link E (rm_norm m) (λ y, fdiv fone (fadd fone (ext_exp E (fneg y))))) as Hlink.
  { unfold link, link_table. rewrite !elem_of_cons in Hm. rewrite !elem_of_cons.
    destruct Hm as [->|[->|Hm%elem_of_nil]]; [by left|by right; left|done]. }
  rewrite (C53_complementary E dd td m e td' calls tk r t1 t2 o1 o2 (λ y, fdiv fone (fadd fone (ext_exp E (fneg y)))) Hn Hf Ht);
    [|by rewrite Hp1|try done..]; [|by rewrite Hp1; repeat constructor].
  eexists _, _. split; [done|]. unfold SpecRegr.share. rewrite Hp1, Hi. cbn [foldl].
  pose proof (logistic_unit _ Hexp) as Hu.
  assert (valid (fdiv fone (fadd fone (ext_exp E (fneg (input_of E r p)))))) as Hv.
  { apply fdiv_valid; [done|]. apply fadd_valid; [done|apply Hexp]. }
  revert Hu Hv. generalize (fdiv fone (fadd fone (ext_exp E (fneg (input_of E r p))))) as u. intros u [H0 H1] Hv.
  assert (in_unit (fadd fzero u) ∧ valid (fadd fzero u)) as [Hz Hvz].
  { destruct u as [[]|[]| |s mm ee]; try done. }
  split; [done|]. destruct Hz as [Z0 Z1]. by apply complement_unit.
Qed.
Print Assumptions C66_one_predictor_unit_partial.

Definition bare_logit : regr_model :=
  RegrModel "classification" "logit" [] [MF "area" "active"; MF "ok" "target"]
    [RegrTable fzero "yes" [Predictor "area" (fl "0.25") 1]; RegrTable fzero "no" []]
    [OF "p_no" "probability" "no"; OF "p_yes" "probability" "yes"] None.
Example C66_example :
  is_ok (new_model go_ext price_dd [] (DRegr bare_logit)).1 = true ∧
  present yes_row (Predictor "area" (fl "0.25") 1) ∧
  number (ext_exp go_ext (fneg (input_of go_ext yes_row (Predictor "area" (fl "0.25") 1)))) ∧
  dumped (run go_ext price_dd (DRegr bare_logit) yes_row)
    = Some (Ok (dump (Some {["p_yes" := GF64 (fl "0.5"); "p_no" := GF64 (fl "0.5")]}))).
Proof.
  split; [by vm_compute|]. split; [|split; by vm_compute].
  assert (Forall (present yes_row) [Predictor "area" (fl "0.25") 1]) as H by (apply present_all; by vm_compute).
  by inversion H.
Qed.

(** Otherwise the intercept and the normalised inputs are summed after the
    normalisation, and the sum may leave [0,1] (and so does the complement). *)
Theorem C66_unit_refuted : ∃ E dd td m e td' tk r out,
  new_model E dd td (DRegr m) = (Ok e, td') ∧ rm_function m = "classification" ∧ rm_norm m = "logit" ∧
  Forall (λ t, Forall (λ p, number (ext_exp E (fneg (input_of E r p)))) (rt_predictors t)) (rm_tables m) ∧
  (evaluate E tk e r).1 = (Ok (Some out), r) ∧
  (∃ p, out !! "p_yes" = Some (GF64 p) ∧ fltb fone p = true) ∧
  ∃ p, out !! "p_no" = Some (GF64 p) ∧ fltb p fzero = true.
Proof.
  exists go_ext, price_dd, [], logit_model, (built go_ext price_dd (DRegr logit_model)), [], [], (Some {["area" := GF64 (fl "2")]}).
  exists (match dumped (run go_ext price_dd (DRegr logit_model) (Some {["area" := GF64 (fl "2")]})) with
          | Some (Ok (Some l)) => list_to_map l | _ => ∅ end).
  split; [done|]. split; [done|]. split; [done|].
  split; [repeat constructor; by vm_compute|]. split; [apply eval_ok; by vm_compute|].
  split.
  - exists (match dumped (run go_ext price_dd (DRegr logit_model) (Some {["area" := GF64 (fl "2")]})) with
            | Some (Ok (Some l)) => match (list_to_map l : row) !! "p_yes" with Some (GF64 x) => x | _ => fzero end | _ => fzero end).
    split; by vm_compute.
  - exists (match dumped (run go_ext price_dd (DRegr logit_model) (Some {["area" := GF64 (fl "2")]})) with
            | Some (Ok (Some l)) => match (list_to_map l : row) !! "p_no" with Some (GF64 x) => x | _ => fzero end | _ => fzero end).
    split; by vm_compute.
Qed.
Print Assumptions C66_unit_refuted.
