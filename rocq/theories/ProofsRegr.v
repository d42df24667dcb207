(** Lemmas about regression models. *)
From Verif Require Import Base Strconv Value Doc Expr Pred Tree Regression Model Lib ProofsWhole ProofsHistory SpecRegr.

Lemma regr_run E dd td m e td' calls tk r :
  new_model E dd td (DRegr m) = (Ok e, td') →
  (evaluate E tk (after E calls e) r).1 = (regr_evaluate E m r, r).
Proof. intros [= <- <-]. by rewrite regr_after. Qed.

Lemma linear_form_ok E y ps r :
  Forall (present r) ps →
  linear_form E y ps r = Ok (foldl (λ y p, fadd y (fmul (np_coeff p) (input_of E r p))) y ps).
Proof.
  intros H. revert y. induction H as [|p ps [v Hv] _ IH]; intros y; simpl; [done|].
  unfold input_of at 2. rewrite Hv. apply IH.
Qed.
Lemma linear_form_missing E y ps r :
  ¬ Forall (present r) ps →
  ∃ l1 p l2, ps = l1 ++ p :: l2 ∧ Forall (present r) l1 ∧ ¬ present r p ∧
    linear_form E y ps r = Err (EMissingTerm (np_name p)).
Proof.
  revert y. induction ps as [|p ps IH]; intros y H; [by destruct H|].
  destruct (dr_get r (np_name p)) as [v|] eqn:Hv.
  - assert (present r p) as Hp by (unfold present; rewrite Hv; eauto).
    destruct (IH (fadd y (fmul (np_coeff p) (val_float64 E v)))) as (l1 & q & l2 & -> & H1 & H2 & H3).
    { intros H'. apply H. by constructor. }
    exists (p :: l1), q, l2. split; [done|]. split; [by constructor|]. split; [done|]. simpl. by rewrite Hv.
  - exists [], p, ps. split; [done|]. split; [constructor|]. simpl. rewrite Hv. split; [|done].
    unfold present. rewrite Hv. by intros [? ?].
Qed.
Lemma present_dec r p : Decision (present r p).
Proof. unfold present. apply _. Qed.
Lemma all_present_dec r ps : Decision (Forall (present r) ps).
Proof. apply Forall_dec. intros p. apply present_dec. Qed.

Lemma tables_present_dec r ts : Decision (Forall (λ t, Forall (present r) (rt_predictors t)) ts).
Proof. apply Forall_dec. intros t. apply all_present_dec. Qed.
Lemma no_predictors_dec ts : Decision (Forall (λ t, rt_predictors t = []) ts).
Proof. apply Forall_dec. intros t. destruct (rt_predictors t); [by left|by right]. Qed.

Lemma normalize_link E method g : link E method g → ∀ y, normalize E method y = Ok (g y).
Proof.
  unfold link, link_table. intros H y.
  repeat (apply elem_of_cons in H as [[= -> ->]|H]; [done|]). by apply elem_of_nil in H.
Qed.
Lemma linked_iff E method : linked method ↔ ∃ g, link E method g.
Proof.
  unfold linked, link, link_table. split.
  - intros H. repeat (apply elem_of_cons in H as [->|H]; [eexists; rewrite !elem_of_cons; by eauto 10|]). by apply elem_of_nil in H.
  - intros [g H]. repeat (apply elem_of_cons in H as [[= -> ->]|H]; [set_solver|]). by apply elem_of_nil in H.
Qed.
Lemma normalize_unlinked E method y : ¬ linked method → normalize E method y = Err (ENormalization method).
Proof.
  unfold linked, normalize. intros H.
  destruct (String.eqb_spec method "softmax"); [set_solver|].
  destruct (String.eqb_spec method "logit"); [set_solver|].
  destruct (String.eqb_spec method "exp"); [set_solver|].
  destruct (String.eqb_spec method "cloglog"); [set_solver|].
  destruct (String.eqb_spec method "cauchit"); [set_solver|done].
Qed.
Lemma linked_dec method : Decision (linked method).
Proof. unfold linked. apply _. Qed.

(** ** linear regression *)
Lemma eval_regression_ok E m r t o g :
  rm_tables m = [t] → rm_output m = [o] → Forall (present r) (rt_predictors t) → link E (rm_norm m) g →
  eval_regression E m r = Ok (Some {[of_name o := GF64 (g (affine E r t))]}).
Proof.
  intros Ht Ho Hp Hg. unfold eval_regression. rewrite Ht, Ho, linear_form_ok by done. simpl.
  by rewrite (normalize_link _ _ _ Hg).
Qed.
Lemma eval_regression_bad E m r t o :
  rm_tables m = [t] → rm_output m = [o] → Forall (present r) (rt_predictors t) → ¬ linked (rm_norm m) →
  eval_regression E m r = Err (ENormalization (rm_norm m)).
Proof.
  intros Ht Ho Hp Hg. unfold eval_regression. rewrite Ht, Ho, linear_form_ok by done. simpl.
  by rewrite normalize_unlinked.
Qed.

(** ** binary classification *)
Lemma binary_form_ok E method g y ps r :
  link E method g → Forall (present r) ps →
  binary_form E method y ps r = Ok (foldl (λ y p, fadd y (g (input_of E r p))) y ps).
Proof.
  intros Hg H. revert y. induction H as [|p ps [v Hv] _ IH]; intros y; simpl; [done|].
  unfold input_of at 2. rewrite Hv, (normalize_link _ _ _ Hg). simpl. apply IH.
Qed.
Lemma binary_form_unlinked E method y ps r :
  ¬ linked method → ps ≠ [] → Forall (present r) ps → binary_form E method y ps r = Err (ENormalization method).
Proof.
  intros Hg Hn H. destruct H as [|p ps [v Hv] _]; [done|]. simpl. rewrite Hv. by rewrite normalize_unlinked.
Qed.
Lemma binary_form_missing E method y ps r :
  ¬ Forall (present r) ps → ∃ x, binary_form E method y ps r = Err x ∧
    (x = ENormalization method ∧ ¬ linked method ∨
     ∃ p, p ∈ ps ∧ ¬ present r p ∧ x = EMissingTerm (np_name p)).
Proof.
  revert y. induction ps as [|p ps IH]; intros y H; [by destruct H|]. simpl.
  destruct (dr_get r (np_name p)) as [v|] eqn:Hv.
  - assert (present r p) as Hp by (unfold present; rewrite Hv; eauto).
    destruct (linked_dec method) as [Hl|Hl].
    + apply (linked_iff E) in Hl as [g Hg]. rewrite (normalize_link _ _ _ Hg). simpl.
      destruct (IH (fadd y (g (val_float64 E v)))) as (x & H1 & H2).
      { intros H'. apply H. by constructor. }
      exists x. split; [done|]. destruct H2 as [[-> H2]|(q & ? & ? & ->)]; [by left|right].
      exists q. set_solver.
    + rewrite normalize_unlinked by done. eexists. split; [done|]. by left.
  - eexists. split; [done|]. right. exists p. split; [set_solver|]. split; [|done].
    unfold present. rewrite Hv. by intros [? ?].
Qed.

(** what one table writes *)
Definition binary_write (os : list output_field) (t : regr_table) (x : f64) (out : row) : row :=
  foldl (λ out o, if rt_category t =s of_value o then <[of_name o := GF64 x]> out else out) out os.
Lemma binary_write_lookup os t x out k :
  (names_of os t k → binary_write os t x out !! k = Some (GF64 x)) ∧
  (¬ names_of os t k → binary_write os t x out !! k = out !! k).
Proof.
  unfold binary_write. induction os as [|o os IH] using rev_ind.
  - split; [|done]. intros (o & Ho%elem_of_nil & _). done.
  - rewrite foldl_app. cbn [foldl]. destruct IH as [IH1 IH2].
    destruct (String.eqb_spec (rt_category t) (of_value o)) as [Heq|Hne].
    + destruct (decide (of_name o = k)) as [<-|Hk].
      * rewrite lookup_insert. split; [done|]. intros H. destruct H. exists o. set_solver.
      * rewrite lookup_insert_ne by done. split.
        -- intros (o' & Ho' & Hv & Hk'). apply IH1. exists o'. set_solver.
        -- intros H. apply IH2. intros (o' & ? & ? & ?). apply H. exists o'. set_solver.
    + split.
      * intros (o' & Ho' & Hv & Hk'). apply IH1. exists o'. set_solver.
      * intros H. apply IH2. intros (o' & ? & ? & ?). apply H. exists o'. set_solver.
Qed.
Lemma names_of_dec os t k : names_of os t k ∨ ¬ names_of os t k.
Proof.
  unfold names_of. induction os as [|o os [(o' & ? & ? & ?)|IH]].
  - right. by intros (o & ?%elem_of_nil & _).
  - left. exists o'. set_solver.
  - destruct (decide (of_value o = rt_category t ∧ of_name o = k)) as [[? ?]|Hn].
    + left. exists o. set_solver.
    + right. intros (o' & [->|?]%elem_of_cons & ? & ?); [by apply Hn|]. apply IH. by exists o'.
Qed.

(** later tables win, [out0] shows through where no table writes *)
Definition writes (named : regr_table → string → Prop) (ts : list regr_table) (vs : list f64)
    (out0 out : row) : Prop :=
  ∀ k, (∀ i t x, ts !! i = Some t → vs !! i = Some x → named t k →
          (∀ j t', i < j → ts !! j = Some t' → ¬ named t' k) → out !! k = Some (GF64 x)) ∧
       ((∀ t, t ∈ ts → ¬ named t k) → out !! k = out0 !! k).
Lemma writes_written_by (named : regr_table → string → Prop) ts vs out :
  (∀ t k, named t k ∨ ¬ named t k) → length vs = length ts →
  writes named ts vs ∅ out → written_by named ts vs out.
Proof.
  intros Hdec Hl H k v. destruct (H k) as [H1 H2]. clear H.
  assert ((∀ t, t ∈ ts → ¬ named t k) ∨
          ∃ i t, ts !! i = Some t ∧ named t k ∧ ∀ j t', i < j → ts !! j = Some t' → ¬ named t' k) as Hcase.
  { clear -Hdec. induction ts as [|t ts IH].
    - left. by intros t ?%elem_of_nil.
    - destruct IH as [IH|(i & t' & Hi & Ht & Hj)].
      + destruct (Hdec t k) as [Ht|Ht].
        * right. exists 0, t. split; [done|]. split; [done|]. intros [|j] t' Hj Htj; [lia|].
          apply IH. by eapply elem_of_list_lookup_2.
        * left. intros t' [->|?]%elem_of_cons; auto.
      + right. exists (S i), t'. split; [done|]. split; [done|]. intros [|j] t'' Hij Htj; [lia|].
        apply (Hj j); [lia|done]. }
  destruct Hcase as [Hnone|(i & t & Hi & Ht & Hj)].
  - rewrite H2, lookup_empty by done. split; [done|]. intros (i & t & x & Hi & _ & Ht & _).
    destruct (Hnone t); [by eapply elem_of_list_lookup_2|done].
  - assert (∃ x, vs !! i = Some x) as [x Hx].
    { apply lookup_lt_is_Some_2. rewrite Hl. by eapply lookup_lt_Some. }
    rewrite (H1 i t x) by done. split.
    + intros [= <-]. by exists i, t, x.
    + intros (i' & t' & x' & Hi' & Hx' & Ht' & -> & Hj').
      assert (i = i') as <-.
      { destruct (Nat.lt_trichotomy i i') as [Hlt|[Heq|Hlt]]; [|done|].
        - by destruct (Hj i' t' Hlt Hi').
        - by destruct (Hj' i t Hlt Hi). }
      by simplify_eq.
Qed.
Lemma writes_cons (named : regr_table → string → Prop) t ts x vs (out0 out1 out : row) :
  (∀ k, (named t k → out1 !! k = Some (GF64 x)) ∧ (¬ named t k → out1 !! k = out0 !! k)) →
  (∀ t k, named t k ∨ ¬ named t k) →
  writes named ts vs out1 out → writes named (t :: ts) (x :: vs) out0 out.
Proof.
  intros H1 Hdec H k. destruct (H k) as [Ha Hb]. destruct (H1 k) as [Hc Hd]. split.
  - intros [|i] t' x' Hi Hx Ht Hj; simpl in *; simplify_eq.
    + rewrite Hb, Hc; [done|done|]. intros t'' Ht''. apply elem_of_list_lookup in Ht'' as [j Hj'].
      apply (Hj (S j)); [lia|done].
    + apply (Ha i t'); [done|done|done|]. intros j t'' Hij Hj'. apply (Hj (S j)); [lia|done].
  - intros Hn. rewrite Hb, Hd; [done| |].
    + apply Hn. set_solver.
    + intros t' Ht'. apply Hn. set_solver.
Qed.
Lemma writes_nil named out : writes named [] [] out out.
Proof. intros k. by split. Qed.

Lemma shares_length E g r left ts ps : shares E g r left ts ps → length ps = length ts.
Proof. induction 1; simpl; congruence. Qed.
Lemma shares_exist E g r left ts : ∃ ps, shares E g r left ts ps.
Proof.
  revert left. induction ts as [|t ts IH]; intros left; [eexists; constructor|].
  destruct (rt_predictors t) as [|p l] eqn:Hp.
  - destruct (IH (fsub left left)) as [ps Hps]. eexists. by apply sh_rest.
  - destruct (IH (fsub left (share E g r t))) as [ps Hps]. eexists. eapply sh_share; [congruence|done|done].
Qed.
Lemma shares_fun E g r left ts ps qs : shares E g r left ts ps → shares E g r left ts qs → ps = qs.
Proof.
  intros H. revert qs. induction H as [|left t ts p ps Hn -> H IH|left t ts ps Hn H IH]; intros qs Hq;
    inversion Hq; simplify_eq; try done; f_equal; auto.
Qed.

Lemma binary_tables_ok E m r g left ts ps out0 :
  link E (rm_norm m) g → Forall (λ t, Forall (present r) (rt_predictors t)) ts →
  shares E g r left ts ps →
  ∃ out, binary_tables E m r left out0 ts = Ok (Some out) ∧ writes (names_of (rm_output m)) ts ps out0 out.
Proof.
  intros Hg Hp H. revert out0. induction H as [left|left t ts p ps Hn -> H IH|left t ts ps Hn H IH]; intros out0.
  - exists out0. split; [done|apply writes_nil].
  - inversion_clear Hp as [|? ? Hp1 Hp2].
    destruct (IH Hp2 (binary_write (rm_output m) t (share E g r t) out0)) as (out & Ho & Hw). exists out. split.
    + cbn [binary_tables]. assert (Nat.ltb 0 (length (rt_predictors t)) = true) as ->.
      { destruct (rt_predictors t); [done|]. apply Nat.ltb_lt. simpl. lia. }
      rewrite (binary_form_ok E _ g) by done. exact Ho.
    + eapply writes_cons; [apply binary_write_lookup|apply names_of_dec|done].
  - inversion_clear Hp as [|? ? Hp1 Hp2].
    destruct (IH Hp2 (binary_write (rm_output m) t left out0)) as (out & Ho & Hw). exists out. split.
    + cbn [binary_tables]. rewrite Hn. exact Ho.
    + eapply writes_cons; [apply binary_write_lookup|apply names_of_dec|done].
Qed.

Lemma binary_tables_no_predictors E m r left ts out0 :
  Forall (λ t, rt_predictors t = []) ts → ∃ out, binary_tables E m r left out0 ts = Ok (Some out).
Proof.
  intros H. revert left out0. induction H as [|t ts Ht _ IH]; intros left out0; [by eexists|].
  cbn [binary_tables]. rewrite Ht. apply IH.
Qed.

Lemma binary_tables_err E m r left ts out0 :
  ¬ Forall (λ t, Forall (present r) (rt_predictors t)) ts ∨
  (¬ linked (rm_norm m) ∧ ¬ Forall (λ t, rt_predictors t = []) ts) →
  ∃ x, binary_tables E m r left out0 ts = Err x ∧
    (x = ENormalization (rm_norm m) ∧ ¬ linked (rm_norm m) ∨
     ∃ t p, t ∈ ts ∧ p ∈ rt_predictors t ∧ ¬ present r p ∧ x = EMissingTerm (np_name p)).
Proof.
  revert left out0. induction ts as [|t ts IH]; intros left out0 H.
  { destruct H as [H|[_ H]]; by destruct H. }
  cbn [binary_tables].
  destruct (rt_predictors t) as [|p0 l0] eqn:Hp.
  - cbn -[binary_tables fsub]. edestruct IH as (x & Hx & Hd).
    { destruct H as [H|[Hl H]]; [left|right; split; [done|]]; intros H'; apply H; constructor; try done; by rewrite Hp. }
    exists x. split; [exact Hx|]. destruct Hd as [Hd|(t' & p & ? & ? & ? & ?)]; [by left|right].
    exists t', p. set_solver.
  - rewrite <- Hp. assert (Nat.ltb 0 (length (rt_predictors t)) = true) as -> by (by rewrite Hp).
    destruct (all_present_dec r (rt_predictors t)) as [Hall|Hnot].
    + destruct (linked_dec (rm_norm m)) as [Hl|Hl].
      * destruct H as [H|[? _]]; [|done]. pose proof Hl as Hl'. apply (linked_iff E) in Hl' as [g Hg].
        rewrite (binary_form_ok E _ g) by done. cbn [rbind]. edestruct IH as (x & Hx & Hd).
        { left. intros H'. apply H. by constructor. }
        exists x. split; [exact Hx|]. destruct Hd as [Hd|(t' & p & ? & ? & ? & ?)]; [by left|right].
        exists t', p. set_solver.
      * rewrite binary_form_unlinked by (try done; by rewrite Hp). eexists. split; [done|]. by left.
    + destruct (binary_form_missing E (rm_norm m) (rt_intercept t) (rt_predictors t) r Hnot) as (x & Hx & Hd).
      rewrite Hx. exists x. split; [done|]. destruct Hd as [[-> ?]|(p & ? & ? & ->)]; [by left|right].
      exists t, p. set_solver.
Qed.

(** ** multiclass classification *)
Lemma out_fields_name os t :
  name_of os t (default "" (out_fields os !! rt_category t)) ∧
  ∀ k, name_of os t k → k = default "" (out_fields os !! rt_category t).
Proof.
  assert (match out_fields os !! rt_category t with
          | Some n => ∃ l1 o l2, os = l1 ++ o :: l2 ∧ of_value o = rt_category t ∧ of_name o = n ∧
                        ∀ o', o' ∈ l2 → of_value o' ≠ rt_category t
          | None => ∀ o, o ∈ os → of_value o ≠ rt_category t end) as H.
  { induction os as [|o os IH] using rev_ind; [cbn; rewrite lookup_empty; by intros o ?%elem_of_nil|].
    unfold out_fields in *. rewrite foldl_app. cbn [foldl]. destruct (decide (of_value o = rt_category t)) as [Heq|Hne].
    - rewrite Heq, lookup_insert. exists os, o, []. repeat split; try done. by intros ? ?%elem_of_nil.
    - rewrite lookup_insert_ne by done. case_match.
      + destruct IH as (l1 & o' & l2 & -> & ? & ? & ?). exists l1, o', (l2 ++ [o]).
        rewrite <- app_assoc. repeat split; try done. set_solver.
      + set_solver. }
  case_match; simpl.
  - split; [by left|]. intros k [(l1 & o & l2 & Hos & Hv & Hk & Hl)|[_ Hno]].
    + destruct H as (l1' & o' & l2' & Hos' & Hv' & Hk' & Hl').
      assert (o = o') as <-; [|congruence]. rewrite Hos in Hos'. clear -Hos' Hv Hv' Hl Hl'.
      revert l1' Hos'. induction l1 as [|a l1 IH]; intros [|b l1'] [= ]; simplify_eq; try done.
      * destruct (Hl o'); [set_solver|done].
      * destruct (Hl' o); [set_solver|done].
      * by apply (IH l1').
    + destruct H as (l1' & o' & l2' & -> & Hv' & _). destruct (Hno o'); [set_solver|done].
  - split; [by right|]. intros k [(l1 & o & l2 & -> & Hv & Hk & Hl)|[? _]]; [|done].
    destruct (H o); [set_solver|done].
Qed.
Lemma name_of_dec os t k : name_of os t k ∨ ¬ name_of os t k.
Proof.
  destruct (out_fields_name os t) as [H1 H2].
  destruct (decide (k = default "" (out_fields os !! rt_category t))) as [->|Hn]; [by left|right].
  intros H. by apply Hn, H2.
Qed.

Lemma rmap_linear_ok E r ts :
  Forall (λ t, Forall (present r) (rt_predictors t)) ts →
  rmap (λ t, linear_form E (rt_intercept t) (rt_predictors t) r) ts = Ok (map (affine E r) ts).
Proof. induction 1 as [|t ts H _ IH]; [done|]. simpl. rewrite linear_form_ok by done. simpl. by rewrite IH. Qed.
Lemma rmap_linear_missing E r ts :
  ¬ Forall (λ t, Forall (present r) (rt_predictors t)) ts →
  ∃ t p, t ∈ ts ∧ p ∈ rt_predictors t ∧ ¬ present r p ∧
    rmap (λ t, linear_form E (rt_intercept t) (rt_predictors t) r) ts = Err (EMissingTerm (np_name p)).
Proof.
  induction ts as [|t ts IH]; intros H; [by destruct H|]. simpl.
  destruct (all_present_dec r (rt_predictors t)) as [Ha|Hn].
  - rewrite linear_form_ok by done. simpl. destruct IH as (t' & p & ? & ? & ? & Hr).
    { intros H'. apply H. by constructor. }
    rewrite Hr. exists t', p. set_solver.
  - destruct (linear_form_missing E (rt_intercept t) _ _ Hn) as (l1 & p & l2 & Hps & _ & Hp & ->).
    exists t, p. rewrite Hps. set_solver.
Qed.

Lemma multi_out_ok E method ys os ts vs f out0 :
  (∀ y, (method =s "softmax") = true → f y = fdiv (ext_exp E y) (fsum (ext_exp E <$> ys))) →
  (∀ y, (method =s "softmax") = false → f y = fdiv y (fsum ys)) →
  method = "softmax" ∨ method = "simplemax" → length vs = length ts →
  ∃ out, multi_out E method ys out0
           (zip ((λ t, default "" (out_fields os !! rt_category t)) <$> ts) vs) = Ok (Some out) ∧
    writes (name_of os) ts (map f vs) out0 out.
Proof.
  intros H1 H2 Hm. revert vs out0. induction ts as [|t ts IH]; intros [|y vs] out0 Hl; simplify_eq/=.
  - exists out0. split; [done|apply writes_nil].
  - set (n := default "" (out_fields os !! rt_category t)) in *.
    destruct (IH vs (<[n := GF64 (f y)]> out0)) as (out & Ho & Hw); [done|]. exists out. split.
    + destruct (method =s "softmax") eqn:Hs.
      * by rewrite <- (H1 y) by done.
      * destruct Hm as [-> | ->]; [done|]. simpl. by rewrite <- (H2 y) by done.
    + eapply writes_cons; [|apply name_of_dec|done]. intros k.
      destruct (out_fields_name os t) as [Ha Hb]. fold n in Ha, Hb. split.
      * intros ->%Hb. by rewrite lookup_insert.
      * intros Hk. destruct (decide (n = k)) as [<-|]; [done|]. by rewrite lookup_insert_ne.
Qed.

Lemma eval_multiclass_ok E m r :
  Forall (λ t, Forall (present r) (rt_predictors t)) (rm_tables m) →
  (rm_norm m = "softmax" →
   ∃ out, eval_multiclass E m r = Ok (Some out) ∧
     written_by (name_of (rm_output m)) (rm_tables m)
       (map (λ t, fdiv (ext_exp E (affine E r t))
                       (foldl (λ s u, fadd s (ext_exp E (affine E r u))) fzero (rm_tables m))) (rm_tables m)) out) ∧
  (rm_norm m = "simplemax" →
   ∃ out, eval_multiclass E m r = Ok (Some out) ∧
     written_by (name_of (rm_output m)) (rm_tables m)
       (map (λ t, fdiv (affine E r t) (foldl (λ s u, fadd s (affine E r u)) fzero (rm_tables m))) (rm_tables m)) out) ∧
  (rm_norm m ≠ "softmax" → rm_norm m ≠ "simplemax" → rm_tables m ≠ [] →
   eval_multiclass E m r = Err (ENormalization (rm_norm m))) ∧
  (rm_tables m = [] → eval_multiclass E m r = Ok (Some ∅)).
Proof.
  intros Hp. unfold eval_multiclass. rewrite rmap_linear_ok by done. cbn [rbind].
  set (ys := map (affine E r) (rm_tables m)).
  assert (∀ g, foldl (λ s u, fadd s (g (affine E r u))) fzero (rm_tables m) = fsum (g <$> ys)) as Hsum.
  { intros g. unfold fsum, ys. clear Hp ys. generalize fzero. induction (rm_tables m) as [|t ts IH]; intros z; [done|]. simpl. apply IH. }
  assert (∀ h : f64 → f64, map h ys = map (λ t, h (affine E r t)) (rm_tables m)) as Hmap
    by (intros h; apply map_map).
  repeat split.
  - intros Hm. edestruct (multi_out_ok E (rm_norm m) ys (rm_output m) (rm_tables m) ys
      (λ y, fdiv (ext_exp E y) (fsum (ext_exp E <$> ys))) ∅) as (out & Ho & Hw).
    { done. } { by rewrite Hm. } { by left. } { unfold ys. by rewrite map_length. }
    exists out. split; [exact Ho|]. apply writes_written_by; [apply name_of_dec|by rewrite map_length|].
    rewrite (Hsum (ext_exp E)). rewrite Hmap in Hw. exact Hw.
  - intros Hm. edestruct (multi_out_ok E (rm_norm m) ys (rm_output m) (rm_tables m) ys
      (λ y, fdiv y (fsum ys)) ∅) as (out & Ho & Hw).
    { by rewrite Hm. } { done. } { by right. } { unfold ys. by rewrite map_length. }
    exists out. split; [exact Ho|]. apply writes_written_by; [apply name_of_dec|by rewrite map_length|].
    pose proof (Hsum id) as Hid. cbn [id] in Hid. rewrite list_fmap_id in Hid. rewrite Hid. rewrite Hmap in Hw.
    exact Hw.
  - intros H1 H2 Hn. unfold ys. destruct (rm_tables m) as [|t ts]; [done|]. simpl.
    by apply String.eqb_neq in H1 as ->; apply String.eqb_neq in H2 as ->.
  - intros Ht. unfold ys. by rewrite Ht.
Qed.

(** ** all procedures *)
Lemma regr_missing E m r t p :
  t ∈ rm_tables m → p ∈ rt_predictors t → ¬ present r p → ∃ x, regr_evaluate E m r = Err x.
Proof.
  intros Ht Hp Hr.
  assert (¬ Forall (λ t, Forall (present r) (rt_predictors t)) (rm_tables m)) as Hn.
  { intros H. rewrite Forall_forall in H. specialize (H t Ht). rewrite Forall_forall in H. by apply Hr, H. }
  unfold regr_evaluate. destruct (_ =s _); [|destruct (_ && _); [|destruct (_ =s _)]]; [..|by eexists].
  - unfold eval_regression. destruct (rm_tables m) as [|t' [|? ?]]; [by eexists| |by eexists].
    apply elem_of_list_singleton in Ht as <-.
    destruct (rm_output m) as [|o [|? ?]]; [by eexists| |by eexists].
    destruct (linear_form_missing E (rt_intercept t) (rt_predictors t) r) as (l1 & q & l2 & _ & _ & _ & ->).
    { intros H. apply Hn. by constructor. }
    by eexists.
  - destruct (binary_tables_err E m r fone (rm_tables m) ∅) as (x & Hx & _); [by left|]. by exists x.
  - unfold eval_multiclass. destruct (rmap_linear_missing E r _ Hn) as (? & ? & _ & _ & _ & ->). by eexists.
Qed.

Lemma regr_missing_reported E m r x :
  regr_evaluate E m r = Err (EMissingTerm x) →
  ∃ t p, t ∈ rm_tables m ∧ p ∈ rt_predictors t ∧ np_name p = x ∧ ¬ present r p.
Proof.
  assert (∀ E method y z, normalize E method y ≠ Err (EMissingTerm z)) as Hnorm.
  { intros E' method y z. unfold normalize. by repeat case_match. }
  unfold regr_evaluate. destruct (_ =s _); [|destruct (_ && _); [|destruct (_ =s _)]]; [..|done].
  - unfold eval_regression. destruct (rm_tables m) as [|t [|? ?]]; [done| |done].
    destruct (rm_output m) as [|o [|? ?]]; [done| |done].
    destruct (all_present_dec r (rt_predictors t)) as [Ha|Hn].
    + rewrite linear_form_ok by done. cbn [rbind]. destruct (normalize _ _ _) eqn:Hno; simpl; try done.
      intros [= ->]. by destruct (Hnorm _ _ _ _ Hno).
    + destruct (linear_form_missing E (rt_intercept t) _ _ Hn) as (l1 & q & l2 & Hps & _ & Hq & ->).
      intros [= <-]. exists t, q. rewrite Hps. set_solver.
  - unfold eval_binary. destruct (tables_present_dec r (rm_tables m)) as [Ha|Hn].
    + destruct (linked_dec (rm_norm m)) as [Hl|Hl].
      * apply (linked_iff E) in Hl as [g Hg]. destruct (shares_exist E g r fone (rm_tables m)) as [ps Hs].
        destruct (binary_tables_ok E m r g fone _ _ ∅ Hg Ha Hs) as (out & -> & _). done.
      * destruct (no_predictors_dec (rm_tables m)) as [He|He].
        -- destruct (binary_tables_no_predictors E m r fone (rm_tables m) ∅ He) as (out & ->). done.
        -- destruct (binary_tables_err E m r fone (rm_tables m) ∅) as (y & -> & Hd); [by right|].
           intros [= ->]. destruct Hd as [[? _]|(t & p & ? & ? & ? & [= ->])]; [done|]. by exists t, p.
    + destruct (binary_tables_err E m r fone (rm_tables m) ∅) as (y & -> & Hd); [by left|].
      intros [= ->]. destruct Hd as [[? _]|(t & p & ? & ? & ? & [= ->])]; [done|]. by exists t, p.
  - unfold eval_multiclass. destruct (tables_present_dec r (rm_tables m)) as [Ha|Hn].
    + rewrite rmap_linear_ok by done. cbn [rbind]. generalize (zip ((λ t, default "" (out_fields (rm_output m) !! rt_category t)) <$> rm_tables m) (map (affine E r) (rm_tables m))).
      intros l. generalize (map (affine E r) (rm_tables m)). intros ys. generalize (∅ : row).
      induction l as [|[k y] l IH]; intros out; [done|]. simpl. destruct (_ =s _); [apply IH|]. destruct (_ =s _); [apply IH|done].
    + destruct (rmap_linear_missing E r _ Hn) as (t & p & ? & ? & ? & ->). intros [= <-]. by exists t, p.
Qed.

(** ** two runs *)
Section TwoRuns.
  Context (E : Ext) (r1 r2 : datarow).

  Lemma linear_form_agree y ps qs :
    Forall2 (λ p q, np_coeff p = np_coeff q ∧ np_name p = np_name q ∧ dr_get r1 (np_name p) = dr_get r2 (np_name q)) ps qs →
    linear_form E y ps r1 = linear_form E y qs r2.
  Proof using.
    intros H. revert y. induction H as [|p q ps qs (Hc & Hn & Hr) _ IH]; intros y; [done|]. simpl.
    rewrite Hr, Hn, Hc. by case_match.
  Qed.
  Lemma binary_form_agree method y ps qs :
    Forall2 (λ p q, np_name p = np_name q ∧ dr_get r1 (np_name p) = dr_get r2 (np_name q)) ps qs →
    binary_form E method y ps r1 = binary_form E method y qs r2.
  Proof using.
    intros H. revert y. induction H as [|p q ps qs (Hn & Hr) _ IH]; intros y; [done|]. simpl.
    rewrite Hr, Hn. case_match; [|done]. by destruct (normalize _ _ _); simpl.
  Qed.
  Lemma binary_tables_agree m1 m2 left ts us out :
    rm_norm m1 = rm_norm m2 → rm_output m1 = rm_output m2 →
    Forall2 (tables_up_to (λ p q, np_name p = np_name q ∧ dr_get r1 (np_name p) = dr_get r2 (np_name q))) ts us →
    binary_tables E m1 r1 left out ts = binary_tables E m2 r2 left out us.
  Proof using.
    intros Hn Ho H. revert left out. induction H as [|t u ts us (Hi & Hc & Hp) _ IH]; intros left out; [done|].
    cbn [binary_tables]. rewrite (Forall2_length _ _ _ Hp), Hi, Hn, Ho, Hc.
    rewrite (binary_form_agree _ _ _ _ Hp). destruct (if _ : bool then _ else _); cbn [rbind]; [apply IH|done..].
  Qed.
  Lemma multiclass_agree m1 m2 :
    rm_norm m1 = rm_norm m2 → rm_output m1 = rm_output m2 →
    Forall2 (tables_up_to (λ p q, np_coeff p = np_coeff q ∧ np_name p = np_name q ∧ dr_get r1 (np_name p) = dr_get r2 (np_name q)))
      (rm_tables m1) (rm_tables m2) →
    eval_multiclass E m1 r1 = eval_multiclass E m2 r2.
  Proof using.
    intros Hn Ho H. unfold eval_multiclass. rewrite Hn, Ho.
    assert (((λ t, default "" (out_fields (rm_output m2) !! rt_category t)) <$> rm_tables m1) =
            ((λ t, default "" (out_fields (rm_output m2) !! rt_category t)) <$> rm_tables m2)) as ->.
    { induction H as [|t u ts us (_ & Hc & _) _ IH]; [done|]. rewrite !fmap_cons. by rewrite Hc, IH. }
    assert (rmap (λ t, linear_form E (rt_intercept t) (rt_predictors t) r1) (rm_tables m1) =
            rmap (λ t, linear_form E (rt_intercept t) (rt_predictors t) r2) (rm_tables m2)) as ->; [|done].
    induction H as [|t u ts us (Hi & Hc & Hp) _ IH]; [done|]. simpl.
    rewrite Hi, (linear_form_agree _ _ _ Hp). destruct (linear_form _ _ _ _); [|done..]. simpl. by rewrite IH.
  Qed.
  Lemma eval_regression_agree m1 m2 :
    rm_norm m1 = rm_norm m2 → rm_output m1 = rm_output m2 →
    Forall2 (tables_up_to (λ p q, np_coeff p = np_coeff q ∧ np_name p = np_name q ∧ dr_get r1 (np_name p) = dr_get r2 (np_name q)))
      (rm_tables m1) (rm_tables m2) →
    eval_regression E m1 r1 = eval_regression E m2 r2.
  Proof using.
    intros Hn Ho H. unfold eval_regression. rewrite Hn, Ho.
    pose proof (Forall2_length _ _ _ H) as Hlen.
    destruct H as [|t u ts us (Hi & Hc & Hp) H]; [done|]. destruct H; [|simpl in *; congruence].
    destruct (rm_output m2) as [|? [|? ?]]; try done. by rewrite Hi, (linear_form_agree _ _ _ Hp).
  Qed.
  Lemma regr_agree m1 m2 :
    rm_function m1 = rm_function m2 → rm_norm m1 = rm_norm m2 → rm_output m1 = rm_output m2 →
    Forall2 (tables_up_to (λ p q, np_coeff p = np_coeff q ∧ np_name p = np_name q ∧ dr_get r1 (np_name p) = dr_get r2 (np_name q)))
      (rm_tables m1) (rm_tables m2) →
    regr_evaluate E m1 r1 = regr_evaluate E m2 r2.
  Proof using.
    intros Hf Hn Ho H. unfold regr_evaluate. rewrite Hf, Ho.
    rewrite (eval_regression_agree m1 m2), (multiclass_agree m1 m2) by done.
    unfold eval_binary. rewrite (binary_tables_agree m1 m2 fone _ (rm_tables m2)); [done..|].
    eapply Forall2_impl; [exact H|]. intros t u (? & ? & Hp). repeat split; try done.
    eapply Forall2_impl; [exact Hp|]. naive_solver.
  Qed.
End TwoRuns.
