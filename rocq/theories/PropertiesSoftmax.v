(** Property C130: the probabilities of multiclass regressions add up to one. *)
From Coq Require Import Reals Lra.
From Flocq Require Import Core.Core IEEE754.BinarySingleNaN.
From Verif Require Import Base Strconv Value Doc Expr Pred Tree Regression Model Lib FloatLib ProofsWhole SpecRegr GoExt Samples RealLib
  AccLib PropertiesRegr PropertiesEquiv ProofsSoftmax.
Local Open Scope R_scope.

(** Every table writes a field of its own. *)
Definition own_names (os : list output_field) (ts : list regr_table) : Prop :=
  ∀ i j ti tj k, ts !! i = Some ti → ts !! j = Some tj → name_of os ti k → name_of os tj k → i = j.

(** [out] has a probability for each of the tables. *)
Definition reported (os : list output_field) (ts : list regr_table) (ps : list f64) (out : row) : Prop :=
  Forall2 (λ t p, ∃ k, name_of os t k ∧ out !! k = Some (GF64 p)) ts ps.

Lemma has_name os t : ∃ k, name_of os t k.
Proof.
  induction os as [|o os [k [(l1 & o' & l2 & -> & H1 & H2 & H3)|[-> H]]]].
  - exists "". right. split; [done|]. by intros o ?%elem_of_nil.
  - exists k. left. by exists (o :: l1), o', l2.
  - destruct (decide (of_value o = rt_category t)) as [Ho|Ho].
    + exists (of_name o). left. by exists [], o, os.
    + exists "". right. split; [done|]. by intros o' [->|?]%elem_of_cons; [|apply H].
Qed.

Lemma written_reported os ts (f : regr_table → f64) out :
  own_names os ts → written_by (name_of os) ts (map f ts) out → reported os ts (map f ts) out.
Proof.
  intros Hown Hw. apply Forall2_same_length_lookup. split; [by rewrite map_length|]. intros i t p Ht Hp.
  destruct (has_name os t) as [k Hk]. exists k. split; [done|]. apply Hw. exists i, t, p. split_and!; [done..|].
  intros j t' Hij Ht' Hk'. specialize (Hown _ _ _ _ _ Ht Ht' Hk Hk'). lia.
Qed.

(** *** C130 *)
Theorem C130_softmax : ∀ E dd td m e td' calls tk r,
  new_model E dd td (DRegr m) = (Ok e, td') → rm_function m = "classification" → length (rm_output m) ≠ 2%nat →
  rm_norm m = "softmax" → own_names (rm_output m) (rm_tables m) → (Z.of_nat (length (rm_tables m)) <= 2 ^ 51)%Z →
  Forall (λ t, Forall (present r) (rt_predictors t)) (rm_tables m) →
  Forall (λ t, number (ext_exp E (affine E r t))) (rm_tables m) →
  let total := foldl (λ s u, fadd s (ext_exp E (affine E r u))) fzero (rm_tables m) in
  fltb fzero total = true → total ≠ S754_infinity false →
  ∃ out ps, (evaluate E tk (after E calls e) r).1 = (Ok (Some out), r) ∧
    reported (rm_output m) (rm_tables m) ps out ∧
    Rabs (real_sum ps - 1) <= (2 * INR (length ps) + 2) * unit_roundoff.
Proof.
  intros E dd td m e td' calls tk r Hn Hf Hl Hm Hown Hlen Hp Hnum total Hpos Hfin.
  destruct (C54_softmax E dd td m e td' calls tk r Hn Hf Hl Hm Hp) as (out & Ho & Hw). fold total in Hw.
  eexists out, _. split; [done|]. split; [by eapply written_reported|].
  pose proof (shares_sum_one (map (λ t, ext_exp E (affine E r t)) (rm_tables m))) as H.
  rewrite map_length in *. rewrite <- (foldl_sum_map (λ t, ext_exp E (affine E r t))), map_map in H. fold total in H.
  apply H; [by apply Forall_fmap|done..].
Qed.
Print Assumptions C130_softmax.

Theorem C130_simplemax : ∀ E dd td m e td' calls tk r,
  new_model E dd td (DRegr m) = (Ok e, td') → rm_function m = "classification" → length (rm_output m) ≠ 2%nat →
  rm_norm m = "simplemax" → own_names (rm_output m) (rm_tables m) → (Z.of_nat (length (rm_tables m)) <= 2 ^ 51)%Z →
  Forall (λ t, Forall (present r) (rt_predictors t)) (rm_tables m) →
  Forall (λ t, number (affine E r t)) (rm_tables m) →
  let total := foldl (λ s u, fadd s (affine E r u)) fzero (rm_tables m) in
  fltb fzero total = true → total ≠ S754_infinity false →
  ∃ out ps, (evaluate E tk (after E calls e) r).1 = (Ok (Some out), r) ∧
    reported (rm_output m) (rm_tables m) ps out ∧
    Rabs (real_sum ps - 1) <= (2 * INR (length ps) + 2) * unit_roundoff.
Proof.
  intros E dd td m e td' calls tk r Hn Hf Hl Hm Hown Hlen Hp Hnum total Hpos Hfin.
  destruct (C54_simplemax E dd td m e td' calls tk r Hn Hf Hl Hm Hp) as (out & Ho & Hw). fold total in Hw.
  eexists out, _. split; [done|]. split; [by eapply written_reported|].
  pose proof (shares_sum_one (map (λ t, affine E r t) (rm_tables m))) as H.
  rewrite map_length in *. rewrite <- (foldl_sum_map (λ t, affine E r t)), map_map in H. fold total in H.
  apply H; [by apply Forall_fmap|done..].
Qed.
Print Assumptions C130_simplemax.

(** the three-class model: two named classes and one without an output field *)
Definition name_in (os : list output_field) (t : regr_table) : string :=
  match last (filter (λ o, of_value o = rt_category t) os) with Some o => of_name o | None => "" end.
Lemma name_in_only os t k : name_of os t k → k = name_in os t.
Proof.
  unfold name_in. intros [(l1 & o & l2 & -> & H1 & H2 & H3)|[-> H]].
  - rewrite filter_app, filter_cons, decide_True by done.
    assert (filter (λ o, of_value o = rt_category t) l2 = []) as ->.
    { clear -H3. induction l2 as [|o' l2 IH]; [done|]. rewrite filter_cons, decide_False; [apply IH; intros; apply H3; by right|apply H3; left]. }
    by rewrite last_snoc.
  - assert (filter (λ o, of_value o = rt_category t) os = []) as ->; [|done].
    induction os as [|o' l2 IH]; [done|]. rewrite filter_cons, decide_False; [apply IH; intros; apply H; by right|apply H; left].
Qed.
Lemma own_by_names os ts : NoDup (map (name_in os) ts) → own_names os ts.
Proof.
  intros Hnd i j ti tj k Hi Hj ->%name_in_only Hk%name_in_only. eapply NoDup_lookup; [exact Hnd|..].
  - by rewrite list_lookup_fmap, Hi.
  - rewrite list_lookup_fmap, Hj. simpl. by rewrite Hk.
Qed.
Example C130_example :
  let m := three_model "softmax" in
  own_names (rm_output m) (rm_tables m) ∧
  Forall (λ t, Forall (present half_row) (rt_predictors t)) (rm_tables m) ∧
  Forall (λ t, number (ext_exp go_ext (affine go_ext half_row t))) (rm_tables m) ∧
  (let total := foldl (λ s u, fadd s (ext_exp go_ext (affine go_ext half_row u))) fzero (rm_tables m) in
   fltb fzero total = true ∧ total ≠ S754_infinity false) ∧
  is_ok (new_model go_ext price_dd [] (DRegr m)).1 = true.
Proof.
  cbv zeta. split; [apply own_by_names; by apply (bool_decide_unpack _); vm_compute|].
  split; [repeat constructor; by eexists|]. split; [repeat constructor; by vm_compute|]. split; [split; by vm_compute|by vm_compute].
Qed.

(** Exponentials overflow: with a score of 1000 the probability of the class, in truth
    almost one, is not a number. *)
Definition far_model : regr_model :=
  RegrModel "classification" "softmax" [] []
    [RegrTable (fl "0") "a" [Predictor "area" (fl "1000") 1]; RegrTable (fl "0") "b" []; RegrTable (fl "0") "c" []]
    [OF "p_a" "probability" "a"; OF "p_b" "probability" "b"; OF "p_c" "probability" "c"] None.
Definition one_row : datarow := Some {["area" := GF64 fone]}.
Theorem C130_overflow_refuted : ∃ E dd m e td r out,
  new_model E dd [] (DRegr m) = (Ok e, td) ∧ rm_function m = "classification" ∧ length (rm_output m) ≠ 2%nat ∧
  rm_norm m = "softmax" ∧ own_names (rm_output m) (rm_tables m) ∧
  Forall (λ t, Forall (present r) (rt_predictors t)) (rm_tables m) ∧
  Forall (λ t, is_finite_SF (affine E r t) = true) (rm_tables m) ∧
  (evaluate E [] e r).1.1 = Ok (Some out) ∧ out !! "p_a" = Some (GF64 S754_nan) ∧ out !! "p_b" = Some (GF64 fzero).
Proof.
  exists go_ext, price_dd, far_model, (built go_ext price_dd (DRegr far_model)), (new_model go_ext price_dd [] (DRegr far_model)).2, one_row.
  exists ({["p_a" := GF64 S754_nan; "p_b" := GF64 fzero; "p_c" := GF64 fzero]}).
  split; [apply built_ok; by vm_compute|]. split; [done|]. split; [done|]. split; [done|].
  split; [apply own_by_names; by apply (bool_decide_unpack _); vm_compute|].
  split; [repeat constructor; by eexists|]. split; [repeat constructor; by vm_compute|].
  split; [apply run_out; by vm_compute|]. split; by vm_compute.
Qed.
Print Assumptions C130_overflow_refuted.

(** Classes without an output field of their own overwrite each other: what is
    reported adds up to three quarters. *)
Definition shared_model : regr_model :=
  RegrModel "classification" "simplemax" [] []
    [RegrTable (fl "2") "a" []; RegrTable (fl "1") "b" []; RegrTable (fl "1") "c" []] [OF "p_a" "probability" "a"] None.
Theorem C130_unnamed_refuted : ∃ E dd m e td r,
  new_model E dd [] (DRegr m) = (Ok e, td) ∧ rm_function m = "classification" ∧ length (rm_output m) ≠ 2%nat ∧
  rm_norm m = "simplemax" ∧ Forall (λ t, number (affine E r t)) (rm_tables m) ∧ length (rm_tables m) = 3%nat ∧
  (evaluate E [] e r).1.1 = Ok (Some {["p_a" := GF64 (fl "0.5"); "" := GF64 (fl "0.25")]}).
Proof.
  exists go_ext, price_dd, shared_model, (built go_ext price_dd (DRegr shared_model)), (new_model go_ext price_dd [] (DRegr shared_model)).2, one_row.
  split; [apply built_ok; by vm_compute|]. split; [done|]. split; [done|]. split; [done|].
  split; [repeat constructor; by vm_compute|]. split; [done|]. apply run_out; by vm_compute.
Qed.
Print Assumptions C130_unnamed_refuted.
