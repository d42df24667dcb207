(** Property theorems about nil values and the values beside errors (C109 - C111). *)
From Verif Require Import Base Strconv Value Doc Expr Pred Tree Regression Model Nil Lib GoExt
  SpecConstruct ProofsConstruct Samples.

(** *** C109: a failed construction returns no model *)

(** The outcome of [new_model] as Go returns it. *)
Definition failed_value (d : doc_model) : model_value :=
  match d with DTree _ => VNilTree | DMining _ _ => VNilMining | DRegr _ | DOther _ => VNil end.
Definition as_made (d : doc_model) (x : res emodel) : made :=
  match x with
  | Ok e => Returned (VModel e) None
  | Err e => Returned (failed_value d) (Some e)
  | Panic p => Panicked (OtherPanic p)
  end.

Lemma evaluators_map es : evaluators (VModel <$> es) = es.
Proof. unfold evaluators. induction es as [|e es IH]; [done|]. cbn [fmap list_fmap omap list_omap]. by rewrite IH. Qed.

Lemma go_segments_some E dd segs :
  Forall (λ s, Forall (λ d, ∀ td, go_new_document E (Some dd) (Some td) d =
    (as_made d (new_model E dd td d).1, Some (new_model E dd td d).2)) (sg_models s)) segs →
  ∀ td acc, go_segments (go_new_document E (Some dd)) (Some td) (VModel <$> acc) segs =
    match compile_segments (new_model E dd) td acc segs with
    | (Ok _, sm, td') => (inl None, VModel <$> sm, Some td')
    | (Err e, sm, td') => (inl (Some e), VModel <$> sm, Some td')
    | (Panic p, sm, td') => (inr (OtherPanic p), VModel <$> sm, Some td')
    end.
Proof.
  induction 1 as [|[i ps ms] segs Hs Hl IH]; intros td acc; [done|]. cbn [go_segments compile_segments].
  destruct ms as [|d [|d' ms]]; [done| |done]. simpl in Hs. rewrite Forall_singleton in Hs. rewrite Hs.
  destruct (new_model E dd td d) as [[e|x|p] td']; simpl; [|done..].
  specialize (IH td' (acc ++ [e])). by rewrite fmap_app in IH.
Qed.

Lemma go_new_document_some E dd d : ∀ td,
  go_new_document E (Some dd) (Some td) d = (as_made d (new_model E dd td d).1, Some (new_model E dd td d).2).
Proof.
  induction d as [t|r|k|h segs IH] using doc_rect'; intros td.
  - cbn [go_new_document new_model]. unfold go_new_tree, new_tree_model. cbn [default].
    destruct (tree_validate _) as [[[]|x|p] t1]; [|done..].
    by destruct (tree_compile E td t1) as [[[[]|x|p] t2] td'].
  - done.
  - done.
  - cbn [go_new_document new_model default from_option]. unfold id.
    destruct (mining_validate _) as [[[]|x|p] m1]; [|done..].
    destruct (mining_prepare td m1) as [m2 td1].
    pose proof (go_segments_some E dd segs IH td1 []) as Hg. cbn [fmap list_fmap] in Hg. rewrite Hg.
    destruct (compile_segments (new_model E dd) td1 [] segs) as [[[[]|x|p] sm] td2]; [|done..].
    simpl. by rewrite evaluators_map, fmap_length.
Qed.

Theorem C109_exact : ∀ E dd td d,
  go_new_model E (Some dd) (Some td) (Element d) =
  (as_made d (new_model E dd td d).1, Some (new_model E dd td d).2).
Proof. intros E dd td d. apply go_new_document_some. Qed.
Print Assumptions C109_exact.

(** Without an error the value is an evaluator, unless the document is a nil
    *RegressionModel. *)
Lemma go_new_document_cases E dd td d : ∃ x td',
  go_new_document E dd td d = (as_made d x, td') ∨ go_new_document E dd td d = (Panicked NilDereference, td).
Proof.
  destruct dd as [dd|]; [destruct td as [td|]|].
  - eexists _, _. left. apply go_new_document_some.
  - destruct d as [t|h segs|r|k].
    + cbn [go_new_document]. unfold go_new_tree. destruct (tree_validate _) as [[[]|x|p] t1].
      * by exists (Panic PIndex), None; right.
      * by exists (Err x), None; left.
      * by exists (Panic p), None; left.
    + cbn [go_new_document]. destruct (mining_validate _) as [[[]|x|p] t1].
      * by exists (Panic PIndex), None; right.
      * by exists (Err x), None; left.
      * by exists (Panic p), None; left.
    + by exists (Ok (ERegr (ERegr_ r))), None; left.
    + by exists (Err (EInvalidModelType k)), None; left.
  - destruct d as [t|h segs|r|k].
    + cbn [go_new_document]. unfold go_new_tree. destruct (tree_validate _) as [[[]|x|p] t1].
      * by exists (Panic PIndex), None; right.
      * by exists (Err x), td; left.
      * by exists (Panic p), td; left.
    + cbn [go_new_document]. destruct (mining_validate _) as [[[]|x|p] t1].
      * by exists (Panic PIndex), None; right.
      * by exists (Err x), td; left.
      * by exists (Panic p), td; left.
    + by exists (Ok (ERegr (ERegr_ r))), td; left.
    + by exists (Err (EInvalidModelType k)), td; left.
Qed.

Theorem C109_usable : ∀ E dd td v m td',
  go_new_model E dd td v = (Returned m None, td') → v = NilRegression ∨ ∃ e, m = VModel e.
Proof.
  intros E dd td v m td'. destruct v as [| | | |d]; [done..|by left|]. intros H. right. revert H. cbn [go_new_model].
  destruct (go_new_document_cases E dd td d) as (x & td1 & [-> | ->]); [|done].
  destruct x as [e|x|p]; simpl; [|done..]. intros [= <- _]. by exists e.
Qed.
Print Assumptions C109_usable.

(** Without an error, a method call panics at once only for a nil *RegressionModel, whose
    Compile alone can be called. *)
Theorem C109_calls : ∀ E dd td v m td' call,
  go_new_model E dd td v = (Returned m None, td') → panics_at_once m call = true ↔ v = NilRegression ∧ call ≠ MCompile.
Proof.
  intros E dd td v m td' call H. destruct (C109_usable _ _ _ _ _ _ H) as [-> |[e ->]].
  - injection H as <- _. destruct call; naive_solver.
  - split; [done|]. intros [-> _]. done.
Qed.
Print Assumptions C109_calls.

(** Beside an error the value is useless: every method call panics. *)
Theorem C109_useless : ∀ E dd td v m x td' call,
  go_new_model E dd td v = (Returned m (Some x), td') → panics_at_once m call = true.
Proof.
  intros E dd td v m x td' call. destruct v as [| | | |d]; [by intros [= <- _ _]|done..|]. cbn [go_new_model].
  destruct (go_new_document_cases E dd td d) as (y & td1 & [-> | ->]); [|done].
  destruct y as [e|y|p]; simpl; [done| |done]. intros [= <- _ _]. by destruct d.
Qed.
Print Assumptions C109_useless.

(** It is nil exactly for values that are no supported document. *)
Theorem C109_nil_iff : ∀ E dd td v m x td',
  go_new_model E dd td v = (Returned m (Some x), td') →
  m = VNil ↔ v = NoElement ∨ ∃ k, v = Element (DOther k).
Proof.
  intros E dd td v m x td'. destruct v as [| | | |d]; [intros [= <- _ _]; naive_solver|done..|]. cbn [go_new_model].
  destruct d as [t|h segs|r|k].
  - destruct (go_new_document_cases E dd td (DTree t)) as (y & td1 & [-> | ->]); [|done].
    destruct y as [e|y|p]; simpl; [done| |done]. intros [= <- _ _]. naive_solver.
  - destruct (go_new_document_cases E dd td (DMining h segs)) as (y & td1 & [-> | ->]); [|done].
    destruct y as [e|y|p]; simpl; [done| |done]. intros [= <- _ _]. naive_solver.
  - done.
  - simpl. intros [= <- _ _]. naive_solver.
Qed.
Print Assumptions C109_nil_iff.

Theorem C109_nil_refuted : ∃ E dd td v m x td',
  go_new_model E dd td v = (Returned m (Some x), td') ∧ m ≠ VNil.
Proof.
  exists go_ext, (Some []), (Some []), (Element (mining "classification" "max" [] [] [] [])), VNilMining,
    (EMultipleModelMethod "max"), (Some []). split; [by vm_compute|done].
Qed.
Print Assumptions C109_nil_refuted.

Example C109_example :
  let tree fn := DTree (TreeModel fn "none" fone "" [] [] None (MNode "1" "" "a" fzero [] [] PTrue)) in
  (go_new_model go_ext (Some []) (Some []) (Element (tree "clustering"))).1 =
    Returned VNilTree (Some (EMiningFunction "clustering")) ∧
  (∃ e, (go_new_model go_ext (Some []) (Some []) (Element (tree "regression"))).1 = Returned (VModel e) None) ∧
  (go_new_model go_ext (Some []) (Some []) (Element (DOther "NaiveBayesModel"))).1 =
    Returned VNil (Some (EInvalidModelType "NaiveBayesModel")).
Proof. split; [done|]. split; [by eexists|done]. Qed.

(** *** C110: exactly when NewModel panics *)

(** The documents whose Validate succeeds, other than regression models. *)
Definition validates (d : doc_model) : Prop :=
  match d with
  | DTree t => tm_function t ∈ ["classification"; "regression"]
  | DMining h _ => mining_ok h
  | DRegr _ | DOther _ => False
  end.

Lemma tree_validate_ok dd t : (∃ t1, tree_validate (ETree_ false false dd t ∅ zero_node ∅ "") = (Ok tt, t1)) ↔ validates (DTree t).
Proof.
  simpl. unfold tree_validate. cbn [et_model].
  destruct (String.eqb_spec (tm_function t) "classification") as [->|H1]; simpl; [naive_solver set_solver|].
  destruct (String.eqb_spec (tm_function t) "regression") as [->|H2]; simpl; naive_solver set_solver.
Qed.
Lemma mining_validate_ok dd h segs : (∃ m1, mining_validate (mining_fresh dd h segs) = (Ok tt, m1)) ↔ validates (DMining h segs).
Proof.
  simpl. unfold mining_ok. unfold mining_validate. cbn [mining_fresh em_hdr em_validated].
  fold (header_of h). rewrite <- method_ok_iff, header_of_output, <- bad_feature_none.
  destruct (method_ok _); simpl; [|naive_solver]. destruct (List.find _ _); naive_solver.
Qed.

Theorem C110_panic_iff : ∀ E dd td v,
  (∃ p td', go_new_model E dd td v = (Panicked p, td')) ↔
  v = NilTree ∨ v = NilMining ∨ ((dd = None ∨ td = None) ∧ ∃ d, v = Element d ∧ validates d).
Proof.
  intros E dd td v. destruct v as [| | | |d].
  1,4: split; [intros (? & ? & ?); done|naive_solver].
  1,2: split; [naive_solver|intros _; by eexists _, _].
  cbn [go_new_model]. split.
  - intros (p & td' & H). right. right.
    destruct dd as [dd|], td as [td|].
    { rewrite go_new_document_some in H. destruct (new_model E dd td d) as [[e|x|q] td1] eqn:Hn; simpl in H; [done..|].
      by apply new_model_no_panic in Hn. }
    all: split; [naive_solver|]; exists d; split; [done|]; destruct d as [t|h segs|r|k]; [| |done|done]; cbn [go_new_document] in H.
    1,3,5: unfold go_new_tree in H; eapply tree_validate_ok; destruct (tree_validate _) as [[[]|x|q] t1] eqn:Ht;
      [by eexists|done|unfold tree_validate in Ht; by destruct (_ && _)].
    all: eapply mining_validate_ok; destruct (mining_validate _) as [[[]|x|q] t1] eqn:Ht;
      [by eexists|done|unfold mining_validate in Ht; destruct (negb _); [done|by destruct (List.find _ _)]].
  - intros [?|[?|(Hn & d' & [= <-] & Hv)]]; [done..|]. destruct d as [t|h segs|r|k]; [| |done|done].
    + apply (tree_validate_ok (default [] dd)) in Hv as [t1 Ht]. cbn [go_new_document]. unfold go_new_tree. rewrite Ht.
      destruct dd, td; [naive_solver|by eexists _, _..].
    + apply (mining_validate_ok (default [] dd) h segs) in Hv as [t1 Ht]. cbn [go_new_document]. rewrite Ht.
      destruct dd, td; [naive_solver|by eexists _, _..].
Qed.
Print Assumptions C110_panic_iff.

(** Without dictionaries only regression models can be built, and they are the
    same as with any. *)
Theorem C110_regression : ∀ E dd td r, go_new_model E dd td (Element (DRegr r)) = (Returned (VModel (ERegr (ERegr_ r))) None, td).
Proof. done. Qed.
Print Assumptions C110_regression.

Theorem C110_only_regression : ∀ E dd td v m td', dd = None ∨ td = None →
  go_new_model E dd td v = (Returned m None, td') →
  v = NilRegression ∨ ∃ r, v = Element (DRegr r).
Proof.
  intros E dd td v m td' Hn. destruct v as [| | | |d]; [done..|by left|]. intros H. right. cbn [go_new_model] in H.
  destruct d as [t|h segs|r|k]; [exfalso|exfalso|by eexists|done].
  - cbn [go_new_document] in H. unfold go_new_tree in H. destruct (tree_validate _) as [[[]|x|p] t1]; [|done..].
    destruct dd, td; naive_solver.
  - cbn [go_new_document] in H. destruct (mining_validate _) as [[[]|x|p] t1]; [|done..].
    destruct dd, td; naive_solver.
Qed.
Print Assumptions C110_only_regression.

Example C110_example :
  validates (golf "none") ∧ (go_new_model go_ext None (Some []) (Element (golf "none"))).1 = Panicked NilDereference ∧
  (go_new_model go_ext (Some golf_dd) None (Element (golf "none"))).1 = Panicked NilDereference ∧
  (go_new_model go_ext None None (Element (DRegr lin_model))).1 = Returned (VModel (ERegr (ERegr_ lin_model))) None.
Proof. split; [by left|]. done. Qed.


(** *** C111: the row beside an error *)
Definition as_res (x : datarow * option err) : res datarow :=
  match x with (o, None) => Ok o | (_, Some e) => Err e end.

Lemma normalize_no_panic E method t p : normalize E method t ≠ Panic p.
Proof. unfold normalize. repeat (destruct (_ =s _); [done|]). done. Qed.
Lemma linear_no_panic E ps r : ∀ y p, linear_form E y ps r ≠ Panic p.
Proof. induction ps as [|q ps IH]; intros y p; simpl; [done|]. destruct (dr_get r (np_name q)); [apply IH|done]. Qed.
Lemma rmap_linear_no_panic E r ts p :
  rmap (λ t, linear_form E (rt_intercept t) (rt_predictors t) r) ts ≠ Panic p.
Proof.
  induction ts as [|t ts IH]; simpl; [done|]. destruct (linear_form _ _ _ _) as [y|x|q] eqn:H; simpl; [|done|].
  - by destruct (rmap _ ts).
  - by apply linear_no_panic in H.
Qed.

Lemma go_regression_agrees E m r : as_res (go_regression E m r) = eval_regression E m r.
Proof.
  unfold go_regression, eval_regression. destruct (rm_tables m) as [|t [|]]; [done| |done].
  destruct (rm_output m) as [|o [|]]; [done| |done].
  destruct (linear_form _ _ _ _) as [y|x|p] eqn:Hl; simpl; [|done|by apply linear_no_panic in Hl].
  destruct (normalize _ _ _) as [y'|x|p] eqn:Hn; simpl; [done|done|by apply normalize_no_panic in Hn].
Qed.
Lemma go_binary_form_agrees E method out ps r : ∀ pred,
  match go_binary_form E method out pred ps r with inl y => Ok y | inr (_, e) => Err e end = binary_form E method pred ps r.
Proof.
  induction ps as [|p ps IH]; intros pred; simpl; [done|]. destruct (dr_get r (np_name p)) as [v|]; [|done].
  destruct (normalize _ _ _) as [y'|x|q] eqn:Hn; simpl; [apply IH|done|by apply normalize_no_panic in Hn].
Qed.
Lemma go_binary_agrees E m r ts : ∀ final out, as_res (go_binary_tables E m r final out ts) = binary_tables E m r final out ts.
Proof.
  induction ts as [|t ts IH]; intros final out; simpl; [done|].
  destruct (Nat.ltb 0 (length (rt_predictors t))); [|apply IH].
  rewrite <- (go_binary_form_agrees E (rm_norm m) out).
  destruct (go_binary_form _ _ _ _ _ _) as [y|[o x]]; simpl; [apply IH|done].
Qed.
Lemma go_multi_agrees E method ys l : ∀ out, as_res (go_multi_out E method ys out l) = multi_out E method ys out l.
Proof.
  induction l as [|[k y] l IH]; intros out; simpl; [done|]. destruct (_ =s _); [apply IH|]. destruct (_ =s _); [apply IH|done].
Qed.
Lemma go_regr_agrees E m r : as_res (go_regr_evaluate E m r) = regr_evaluate E m r.
Proof.
  unfold go_regr_evaluate, regr_evaluate. destruct (_ =s _); [apply go_regression_agrees|].
  destruct (_ && _); [apply go_binary_agrees|]. destruct (_ =s _); [|done].
  unfold go_multiclass, eval_multiclass. destruct (rmap _ _) as [ys|x|p] eqn:Hl; simpl; [apply go_multi_agrees|done|].
  by apply rmap_linear_no_panic in Hl.
Qed.

(** Rows and errors are those of [evaluate]. *)
Theorem C111_same_outcome : ∀ E tk e r,
  (evaluate E tk e r).1.1 = match go_evaluate E tk e r with inl x => as_res x | inr p => Panic p end.
Proof.
  intros E tk e r. destruct e as [t|h sm|x]; unfold go_evaluate.
  - by destruct ((evaluate E tk (ETree t) r).1.1).
  - by destruct ((evaluate E tk (EMining h sm) r).1.1).
  - simpl. symmetry. apply go_regr_agrees.
Qed.
Print Assumptions C111_same_outcome.

(** Trees and ensembles return nil beside an error, whatever an ensemble's
    members return. *)
Theorem C111_trees_and_ensembles : ∀ E dd td d e td' tk r o x,
  new_model E dd td d = (Ok e, td') → (∀ m, d ≠ DRegr m) →
  go_evaluate E tk e r = inl (o, Some x) → o = None.
Proof.
  intros E dd td d e td' tk r o x Hn Hd. destruct e as [t|h sm|y]; unfold go_evaluate.
  1,2: destruct ((evaluate E tk _ r).1.1); by intros [=].
  exfalso. destruct d as [t|h segs|m|k]; cbn [new_model] in Hn; [| |by eapply Hd|done].
  - by destruct (new_tree_model E dd td t) as [[?|?|?] ?].
  - destruct (mining_validate _) as [[[]|?|?] m1]; [|done..]. destruct (mining_prepare td m1).
    by destruct (compile_segments _ _ _ _) as [[[[]|?|?] ?] ?].
Qed.
Print Assumptions C111_trees_and_ensembles.

(** A regression model returns nil beside an error exactly when a predictor is
    missing or its function is unknown... *)
Lemma linear_error E ps r : ∀ y x, linear_form E y ps r = Err x → ∃ k, x = EMissingTerm k.
Proof.
  induction ps as [|q ps IH]; intros y x; simpl; [done|].
  destruct (dr_get r (np_name q)); [apply IH|]. intros [= <-]. by eexists.
Qed.
Lemma rmap_linear_error E r ts x :
  rmap (λ t, linear_form E (rt_intercept t) (rt_predictors t) r) ts = Err x → ∃ k, x = EMissingTerm k.
Proof.
  induction ts as [|t ts IH]; simpl; [done|]. destruct (linear_form _ _ _ _) as [y|z|q] eqn:H; simpl; [| |done].
  - destruct (rmap _ ts); simpl; [done| |done]. intros [= ->]. by apply IH.
  - intros [= <-]. by eapply linear_error.
Qed.
Lemma normalize_error E method t x : normalize E method t = Err x → x = ENormalization method.
Proof. unfold normalize. repeat (destruct (_ =s _); [done|]). by intros [= <-]. Qed.
Lemma binary_form_error E method out ps r : ∀ pred o x, go_binary_form E method out pred ps r = inr (o, x) →
  (o = None ∧ ∃ k, x = EMissingTerm k) ∨ (o = Some out ∧ x = ENormalization method).
Proof.
  induction ps as [|p ps IH]; intros pred o x; simpl; [done|]. destruct (dr_get r (np_name p)) as [v|].
  - destruct (normalize _ _ _) as [y|z|q] eqn:Hn; simpl; [apply IH| |done].
    intros [= <- <-]. right. split; [done|]. by eapply normalize_error.
  - intros [= <- <-]. left. split; [done|]. by eexists.
Qed.
Lemma binary_error E m r ts : ∀ final out o x, go_binary_tables E m r final out ts = (o, Some x) →
  (o = None ∧ ∃ k, x = EMissingTerm k) ∨ (is_Some o ∧ x = ENormalization (rm_norm m)).
Proof.
  induction ts as [|t ts IH]; intros final out o x; simpl; [done|].
  destruct (Nat.ltb _ _); [|apply IH].
  destruct (go_binary_form _ _ _ _ _ _) as [y|[o' x']] eqn:Hb; simpl; [apply IH|]. intros [= <- <-].
  destruct (binary_form_error _ _ _ _ _ _ _ _ Hb) as [?|[-> ?]]; [by left|right; by split; [eexists|]].
Qed.
Lemma multi_error E method ys l : ∀ out o x, go_multi_out E method ys out l = (o, Some x) → o = Some out ∧ x = ENormalization method.
Proof.
  induction l as [|[k y] l IH]; intros out o x; simpl; [done|].
  destruct (String.eqb_spec method "softmax") as [->|]; [|destruct (String.eqb_spec method "simplemax") as [->|]; [|by intros [= <- <-]]].
  all: clear IH; intros H; exfalso; revert H; generalize (<[k := GF64 (fdiv (ext_exp E y) (fsum (ext_exp E <$> ys)))]> out),
    (<[k := GF64 (fdiv y (fsum ys))]> out); induction l as [|[k' y'] l IH]; intros o1 o2; simpl; try done; eauto.
Qed.

Theorem C111_regression_nil_iff : ∀ E m r o x, go_regr_evaluate E m r = (o, Some x) →
  o = None ↔ (∃ k, x = EMissingTerm k) ∨ rm_function m ∉ ["regression"; "classification"].
Proof.
  intros E m r o x. unfold go_regr_evaluate.
  destruct (String.eqb_spec (rm_function m) "regression") as [Hf|Hf].
  { intros H. assert (rm_function m ∈ ["regression"; "classification"]) as Hin by (rewrite Hf; left).
    unfold go_regression in H. destruct (rm_tables m) as [|t [|]]; [naive_solver| |naive_solver].
    destruct (rm_output m) as [|w [|]]; [naive_solver| |naive_solver].
    destruct (linear_form _ _ _ _) as [y|z|p] eqn:Hl; [|apply linear_error in Hl; naive_solver|naive_solver].
    destruct (normalize _ _ _) as [y'|z|p] eqn:Hn; [naive_solver| |naive_solver].
    apply normalize_error in Hn as ->. injection H as <- <-. split; [done|]. naive_solver. }
  destruct (String.eqb_spec (rm_function m) "classification") as [Hc|Hc]; simpl.
  { assert (rm_function m ∈ ["regression"; "classification"]) as Hin by (rewrite Hc; right; left).
    destruct (Nat.eqb _ _); intros H.
    - apply binary_error in H as [[-> ?]|[[? ->] ->]]; split; [naive_solver..|done|]. intros [[? ?]|?]; done.
    - unfold go_multiclass in H. destruct (rmap _ _) as [ys|z|p] eqn:Hl; [|apply rmap_linear_error in Hl; naive_solver|naive_solver].
      apply multi_error in H as [-> ->]. split; [done|]. naive_solver. }
  intros [= <- <-]. split; [intros _|done]. right. set_solver.
Qed.
Print Assumptions C111_regression_nil_iff.

(** ... and with one exception the row is empty: a binary classifier. *)
Theorem C111_regression_empty : ∀ E m r o x, go_regr_evaluate E m r = (o, Some x) →
  rm_function m ≠ "classification" ∨ length (rm_output m) ≠ 2 → o = None ∨ o = Some ∅.
Proof.
  intros E m r o x H Hne. unfold go_regr_evaluate in H.
  destruct (String.eqb_spec (rm_function m) "regression") as [Hf|Hf].
  { unfold go_regression in H. destruct (rm_tables m) as [|t [|]]; [naive_solver| |naive_solver].
    destruct (rm_output m) as [|w [|]]; [naive_solver| |naive_solver].
    destruct (linear_form _ _ _ _); [|naive_solver..]. destruct (normalize _ _ _); naive_solver. }
  destruct (String.eqb_spec (rm_function m) "classification") as [Hc|Hc]; simpl in H; [|naive_solver].
  destruct (Nat.eqb_spec (length (rm_output m)) 2); [naive_solver|].
  unfold go_multiclass in H. destruct (rmap _ _); [|naive_solver..]. apply multi_error in H as [-> _]. by right.
Qed.
Print Assumptions C111_regression_empty.

(** A binary classifier whose second table cannot be normalised: the error comes
    with a probability for the first class. *)
Definition half_done : regr_model :=
  RegrModel "classification" "none" [] [MF "area" "active"; MF "play" "target"]
    [RegrTable (fl "0") "yes" []; RegrTable (fl "0.25") "no" [Predictor "area" (fl "1") 1]]
    [OF "probability(yes)" "probability" "yes"; OF "probability(no)" "probability" "no"] None.
Theorem C111_row_refuted : ∃ E dd d e td' r out x,
  new_model E dd [] d = (Ok e, td') ∧ go_evaluate E [] e r = inl (Some out, Some x) ∧
  out !! "probability(yes)" = Some (GF64 fone).
Proof.
  exists go_ext, [], (DRegr half_done), (ERegr (ERegr_ half_done)), [], (Some {["area" := GF64 (fl "3")]}),
    {["probability(yes)" := GF64 fone]}, (ENormalization "none"). split; [done|]. split; [by vm_compute|done].
Qed.
Print Assumptions C111_row_refuted.

Example C111_example :
  go_evaluate go_ext [] (ERegr (ERegr_ half_done)) (Some {["rooms" := GF64 (fl "3")]}) = inl (None, Some (EMissingTerm "area")) ∧
  go_evaluate go_ext [] (ERegr (ERegr_ (RegrModel "regression" "none" [] [] [] [] None))) (Some ∅) =
    inl (Some ∅, Some (ETableCount 0)) ∧
  go_evaluate go_ext [] (built go_ext price_dd (mining "regression" "selectFirst" [] [] [] [DRegr half_done]))
    (Some {["area" := GF64 (fl "3")]}) = inl (None, Some (ENormalization "none")).
Proof. by vm_compute. Qed.
