(** Proofs for C145 and C146. *)
From Verif Require Import Base Strconv Value Doc Expr Pred Tree Regression Model Lib SpecPred ProofsPred SpecTree SpecModel SpecEquiv
  ProofsEquiv SpecEssence ProofsEssence SpecDeclared.

(** ** Mining fields *)
Lemma essential_schema_map (f : mining_field → mining_field) l :
  (∀ x, mf_name (f x) = mf_name x) → (∀ x, mf_usage (f x) = mf_usage x) →
  essential_schema (f <$> l) = essential_schema l.
Proof.
  intros Hn Hu. unfold essential_schema.
  assert (filter (λ f, mf_usage f = "target") (f <$> l) = f <$> filter (λ f, mf_usage f = "target") l) as ->.
  { induction l as [|x l IH]; [done|]. rewrite fmap_cons, !filter_cons, Hu. case_decide; [rewrite fmap_cons; by f_equal|done]. }
  rewrite fmap_last. destruct (last _) as [x|]; [|done]. simpl. by rewrite Hn.
Qed.
Lemma with_fields_essence f g d :
  (∀ x, mf_name (f x) = mf_name x) → (∀ x, mf_usage (f x) = mf_usage x) →
  (∀ x, mf_name (g x) = mf_name x) → (∀ x, mf_replacement (g x) = mf_replacement x) →
  essence (with_fields f g d) = essence d.
Proof.
  intros Hf1 Hf2 Hg1 Hg2. induction d as [t|m|k|h segs IH] using doc_rect'; try done.
  - cbn [with_fields essence]. f_equal. unfold essential_tree.
    cbn [tm_function tm_strategy tm_penalty tm_notrue tm_lt tm_schema tm_verification tm_node]. by rewrite essential_schema_map.
  - cbn [with_fields essence]. f_equal.
    + unfold essential_header. cbn [mm_function mm_method mm_lt mm_schema mm_output mm_targets]. f_equal.
      induction (mm_schema h) as [|x l IHl]; [done|]. rewrite fmap_cons, !filter_cons, Hg2.
      case_decide; [|done]. rewrite !fmap_cons. rewrite Hg1, Hg2. by f_equal.
    + rewrite <- list_fmap_compose. apply fmap_ext_in. intros [i p ms] Hs. simpl. f_equal.
      rewrite Forall_forall in IH. specialize (IH _ Hs). simpl in IH.
      rewrite <- list_fmap_compose. apply fmap_ext_in. intros d Hd. rewrite Forall_forall in IH. by apply IH.
Qed.
Lemma only_ensembles_essence d : essence (only_ensembles_replace d) = essence d.
Proof. by apply with_fields_essence. Qed.
Lemma untreated_essence d : essence (untreated d) = essence d.
Proof. by apply with_fields_essence. Qed.

(** ** Values of the data dictionary *)
Lemma other_values_types l dd1 dd2 td : other_values l dd1 dd2 → field_types dd1 td = field_types dd2 td.
Proof.
  intros H. unfold field_types. f_equal. generalize (∅ : gmap string string).
  induction H as [|a b dd1 dd2 (H1 & H2 & _) _ IH]; intros m; [done|]. simpl. by rewrite H1, H2.
Qed.
Lemma other_values_target l dd1 dd2 f : other_values l dd1 dd2 → f ∈ l → target_values dd1 f = target_values dd2 f.
Proof.
  intros H Hf. unfold target_values. induction H as [|a b dd1 dd2 (H1 & H2 & H3) _ IH]; [done|].
  rewrite !filter_cons, <- H1. case_decide as Ha; [|done]. rewrite !fmap_cons. cbn [concat]. rewrite IH. f_equal. apply H3. by rewrite Ha.
Qed.
Lemma other_values_stands_in E dd1 dd2 d : other_values (targets d) dd1 dd2 → stands_in E dd1 dd2 d d.
Proof.
  intros Hd. set (F f := target_values dd1 f = target_values dd2 f).
  assert (∀ f, f ∈ targets d → F f) as Hf by (intros f; by eapply other_values_target).
  apply (rewritten_stands_in E dd1 dd2 (λ t1 t2, t1 = t2 ∧ ∀ f, f ∈ targets (DTree t1) → F f)).
  - intros t ? [<- Ht]. replace (DTree t) with (DTree (with_node t (tm_node t))) at 2 by by destruct t.
    eapply (tree_stands_in _ _ _ _ _ eq).
    + intros td p ? q <- Hc. exists q. by rewrite <- (other_values_types _ _ _ (td ++ tm_lt t) Hd).
    + intros Hne. apply Ht. cbn [targets]. by apply target_listed.
    + by apply (same_nodes_refl _ (λ _, True)).
  - clearbody F. clear Hd. revert Hf. induction d as [t|m|k|h segs IH] using doc_rect'; intros Hf; constructor; [done|].
    cbn [targets] in Hf. induction IH as [|[i ps ms] l Hs _ IHl]; constructor; cbn [map concat] in Hf.
    + assert (∀ f, f ∈ concat (map targets ms) → F f) as Hms by set_solver. simpl in Hs |- *. clear -Hs Hms.
      induction Hs as [|d ms Hd _ IHm]; constructor; simpl in Hms; [apply Hd|apply IHm]; set_solver.
    + apply IHl. set_solver.
Qed.
