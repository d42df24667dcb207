(** C134: the order of declarations. *)
From Verif Require Import Base Strconv Value Doc Expr Pred Tree Regression Model Lib SpecTree SpecEquiv SpecListed
  ProofsConstruct ProofsDoc ProofsEval ProofsSim ProofsEquiv ProofsWhole.

(** ** Folds over permuted lists *)

Lemma foldl_perm_nodup {A B K} (key : A → K) (f : B → A → B) l1 l2 :
  (∀ b x y, key x ≠ key y → f (f b x) y = f (f b y) x) →
  Permutation l1 l2 → NoDup (key <$> l1) → ∀ b, foldl f b l1 = foldl f b l2.
Proof.
  intros Hf Hp. induction Hp as [|x l1 l2 Hp IH|x y l|l1 l2 l3 H1 IH1 H2 IH2]; intros Hd b.
  - done.
  - simpl. apply IH. rewrite fmap_cons in Hd. by apply NoDup_cons in Hd as [_ ?].
  - simpl. rewrite Hf; [done|]. rewrite !fmap_cons in Hd. apply NoDup_cons in Hd as [Hd _]. set_solver.
  - rewrite IH1 by done. apply IH2. by rewrite <- H1.
Qed.

Lemma foldl_perm {A B} (f : B → A → B) l1 l2 :
  (∀ b x y, f (f b x) y = f (f b y) x) → Permutation l1 l2 → ∀ b, foldl f b l1 = foldl f b l2.
Proof.
  intros Hf Hp. induction Hp as [|x l1 l2 Hp IH|x y l|l1 l2 l3 H1 IH1 H2 IH2]; intros b; simpl; [done|done| |].
  - by rewrite Hf.
  - by rewrite IH1.
Qed.

(** ** Mining fields *)

Lemma same_target s1 s2 : same_schema s1 s2 → target_field s1 = target_field s2.
Proof.
  intros (Hp & Hn & Ho). unfold target_field. f_equal. f_equal.
  assert (Hf : Permutation (filter (λ f, mf_usage f = "target") s1) (filter (λ f, mf_usage f = "target") s2)) by by rewrite Hp.
  assert (H1 : ∀ f g, f ∈ filter (λ f, mf_usage f = "target") s1 → g ∈ filter (λ f, mf_usage f = "target") s1 → f = g).
  { intros f g [? ?]%elem_of_list_filter [? ?]%elem_of_list_filter. by apply Ho. }
  assert (H2 : NoDup (filter (λ f, mf_usage f = "target") s1)) by (apply NoDup_filter; by eapply NoDup_fmap_1).
  destruct (filter (λ f, mf_usage f = "target") s1) as [|a [|b l]].
  - by apply Permutation_nil in Hf as ->.
  - by apply Permutation_singleton_l in Hf as ->.
  - exfalso. apply NoDup_cons in H2 as [H2 _]. apply H2. rewrite (H1 a b); [left| |]; set_solver.
Qed.

Lemma same_defaults s1 s2 : same_schema s1 s2 → default_values s1 = default_values s2.
Proof.
  intros (Hp & Hn & _). unfold default_values. apply (foldl_perm_nodup mf_name); [|done|done].
  intros b x y Hxy. destruct (mf_replacement x), (mf_replacement y); try done. by rewrite insert_commute.
Qed.

(** ** Output fields and targets *)

Lemma same_score_init o1 o2 t1 t2 : Permutation o1 o2 → Permutation t1 t2 → score_init o1 t1 = score_init o2 t2.
Proof.
  intros Ho Ht. unfold score_init. rewrite (foldl_perm _ o1 o2); [apply foldl_perm; [|done]| |done].
  - intros b x y. destruct (decide (tg_field x = tg_field y)) as [->|Hne]; [done|]. by rewrite insert_commute.
  - intros b x y. destruct (decide (of_name x = of_name y)) as [->|Hne]; [done|]. by rewrite insert_commute.
Qed.

Lemma rescale_lookup m t k : rescale_step m t !! k =
  if decide (k = tg_field t) then
    match tg_factor t, tg_constant t with
    | None, None => m !! k
    | Some f, None => Some (fmul (default fzero (m !! k)) f)
    | None, Some c => Some (fadd (default fzero (m !! k)) c)
    | Some f, Some c => Some (fadd (fmul (default fzero (m !! k)) f) c)
    end
  else m !! k.
Proof.
  unfold rescale_step. case_decide as Hk.
  - subst k. destruct (tg_factor t), (tg_constant t); by rewrite ?lookup_insert.
  - destruct (tg_factor t), (tg_constant t); by rewrite ?lookup_insert_ne.
Qed.

Lemma same_rescale t1 t2 : same_targets t1 t2 → ∀ m, foldl rescale_step m t1 = foldl rescale_step m t2.
Proof.
  intros [Hp Hn]. apply (foldl_perm_nodup tg_field); [|done|done]. intros m x y Hxy. apply map_eq. intros k.
  rewrite !rescale_lookup. repeat case_decide; congruence.
Qed.

Lemma run_method_alike {M} E tk h1 h2 (ev : nat → M → datarow → outcome M) sm r :
  mm_method (em_hdr h1) = mm_method (em_hdr h2) → mm_function (em_hdr h1) = mm_function (em_hdr h2) →
  length (em_segs h1) = length (em_segs h2) →
  score_init (em_outputs h1) (em_targets h1) = score_init (em_outputs h2) (em_targets h2) →
  (∀ m, foldl rescale_step m (em_targets h1) = foldl rescale_step m (em_targets h2)) →
  run_method E tk h1 ev sm r = run_method E tk h2 ev sm r.
Proof.
  intros H1 H2 H3 H4 H5. unfold run_method, average_models, sum_models. rewrite H1, H2, H3, H4.
  by destruct (sum_segments _ _ _ _ _ _ _ _) as [[[]]]; rewrite ?H5.
Qed.

Lemma same_bad o1 o2 : Permutation o1 o2 → List.find bad_feature o1 = None → List.find bad_feature o2 = None.
Proof.
  intros Hp Hn. destruct (List.find bad_feature o2) as [o|] eqn:Ho; [|done].
  apply find_some in Ho as [Hin Hb]. exfalso. rewrite <- elem_of_list_In, <- Hp, elem_of_list_In in Hin.
  by rewrite (find_none _ _ Hn _ Hin) in Hb.
Qed.

Lemma same_out_fields o1 o2 : same_outputs o1 o2 → out_fields o1 = out_fields o2.
Proof.
  intros [Hp Hn]. apply (foldl_perm_nodup of_value); [|done|done]. intros b x y Hxy. by rewrite insert_commute.
Qed.

Lemma same_binary E m1 m2 r : rm_norm m1 = rm_norm m2 → Permutation (rm_output m1) (rm_output m2) → ∀ ts final out,
  binary_tables E m1 r final out ts = binary_tables E m2 r final out ts.
Proof.
  intros Hn Hp ts. induction ts as [|t ts IH]; intros final out; [done|]. cbn [binary_tables]. rewrite Hn.
  destruct (if Nat.ltb _ _ then _ else _) as [pred| |]; try done. cbn [rbind].
  rewrite (foldl_perm _ (rm_output m1) (rm_output m2)); [by apply IH| |done].
  intros b x y. destruct (_ =s of_value x) eqn:Hx; [|done]. destruct (_ =s of_value y); [|done].
  destruct (decide (of_name x = of_name y)) as [->|Hne]; [done|]. by rewrite insert_commute.
Qed.

Lemma same_regression E fn norm lt s1 s2 ts o1 o2 v r : same_outputs o1 o2 →
  regr_evaluate E (RegrModel fn norm lt s1 ts o1 v) r = regr_evaluate E (RegrModel fn norm lt s2 ts o2 v) r.
Proof.
  intros Ho. pose proof (proj1 Ho) as Hp. unfold regr_evaluate. cbn [rm_function rm_output].
  rewrite (Permutation_length Hp). destruct (fn =s "regression").
  { unfold eval_regression. cbn [rm_tables rm_output rm_norm]. destruct ts as [|t [|]]; try done.
    destruct o1 as [|a [|b o1]].
    - by apply Permutation_nil in Hp as ->.
    - apply Permutation_singleton_l in Hp. by subst.
    - apply Permutation_length in Hp. destruct o2 as [|? [|? o2]]; simpl in *; [lia|lia|]. by rewrite Hp. }
  destruct (fn =s "classification"); [|done]. simpl. destruct (Nat.eqb (length o2) 2).
  - by apply same_binary.
  - unfold eval_multiclass. cbn [rm_tables rm_output rm_norm]. by rewrite (same_out_fields _ _ Ho).
Qed.

(** ** Documents *)

Lemma reordered_stands_in E dd d1 d2 : reordered d1 d2 → stands_in E dd dd d1 d2.
Proof.
  revert d2. induction d1 as [t|m|k|h segs IH] using doc_rect'; intros d2 Hr; inversion Hr as
    [fn st pen notrue lt s1 s2 v n Hs|fn norm lt s1 s2 ts o1 o2 v Hs Ho| |fn me lt s1 s2 o1 o2 t1 t2 v sg1 segs2 Hs Ho Ht Hsegs]; subst.
  - intros td e1 td'. cbn [new_model]. unfold new_tree_model, tree_validate.
    cbn [et_model tm_function et_dd et_ft et_root et_outkeys et_target et_compiled].
    destruct (_ && _); [done|].
    unfold tree_compile. cbn [et_model tm_lt tm_schema tm_node et_dd et_target et_validated et_compiled et_outkeys et_root
      tm_function tm_strategy tm_penalty tm_notrue tm_verification].
    rewrite !mf_defaults_target, <- (same_target _ _ Hs).
    destruct (new_node E _ n) as [n1|x|p] eqn:H1; [|done..]. intros [= <- <-].
    eexists. split; [done|]. intros tk r. cbn [evaluate]. unfold tree_evaluate, tree_ctx, tree_output.
    cbn [et_validated et_compiled negb et_model tm_lt tm_strategy tm_schema et_root et_ft et_dd et_target tm_penalty tm_notrue tm_function et_outkeys].
    destruct (handle_input E lt r) as [[u|x|p] r']; [|done..].
    destruct (node_evaluate _ _ _ _ _ _) as [[s w]| |]; try done. destruct w; try done.
    destruct (_ =s "classification"); [by destruct (foldl _ _ _)|].
    destruct (_ =s "regression"); done.
  - intros td e1 td'. simpl. intros [= <- <-]. eexists. split; [done|]. intros tk r. simpl.
    by erewrite same_regression.
  - intros td e1 td'. done.
  - assert (Forall2 (λ s1 s2, Forall2 (stands_in E dd dd) (sg_models s1) (sg_models s2)) segs segs2) as Hss.
    { clear -IH Hsegs. induction Hsegs as [|a b l1 l2 Hs _ IHl]; [constructor|].
      apply Forall_cons in IH as [IH1 IH]. constructor; [|by apply IHl].
      clear -IH1 Hs. induction Hs as [|a' b' la lb Hab _ IHa]; [constructor|].
      apply Forall_cons in IH1 as [H1 IH1]. constructor; [by apply H1|by apply IHa]. }
    intros td e1 td'. rewrite !new_model_mining.
    assert (Hm : mm_method (header_of (MiningHeader fn me lt s1 o1 t1 v)) = mm_method (header_of (MiningHeader fn me lt s2 o2 t2 v))).
    { unfold header_of. cbn [mm_method]. by destruct (me =s ""). }
    rewrite <- Hm. destruct (negb _); [done|]. cbn [mm_output mm_lt].
    destruct (List.find _ o1) eqn:Hfind; [done|]. rewrite (same_bad _ _ Ho Hfind).
    destruct (compile_segments (new_model E dd) _ _ segs) as [[[[]|x|p] sm1] td1] eqn:Hc; try done.
    intros [= <- <-].
    destruct (segments_stand_in E dd dd segs segs2 Hss _ [] [] _ _ ltac:(constructor) Hc) as (sm2 & -> & He).
    eexists. split; [done|]. intros tk r. rewrite !mining_evaluate_run by done.
    cbn [built_mining em_defaults em_hdr mm_schema]. rewrite <- (same_defaults _ _ Hs).
    destruct (impute _ _ _ _) as [r1|x|p]; [|done..].
    assert (Hl : mm_lt (header_of (MiningHeader fn me lt s2 o2 t2 v)) = lt ∧ mm_lt (header_of (MiningHeader fn me lt s1 o1 t1 v)) = lt).
    { unfold header_of. cbn [mm_method]. by destruct (me =s ""). }
    destruct Hl as [-> ->]. destruct (handle_input _ _ _) as [[u'|x|p] r2]; [|done..].
    rewrite (run_method_alike E tk _ (built_mining dd td (MiningHeader fn me lt s2 o2 t2 v) segs2)).
    2:{ done. } 2:{ cbn. unfold header_of. cbn [mm_method]. by destruct (me =s ""). }
    2:{ cbn. by eapply Forall2_length. } 2:{ cbn. apply same_score_init; [done|apply Ht]. } 2:{ cbn. by apply same_rescale. }
    pose proof (run_method_sim E E (same_world_refl E)
        (λ e1 e2, ∀ tk r, (evaluate E tk e1 r).1 = (evaluate E tk e2 r).1) (λ _ _, True) (λ _ _ _, I)
        (λ i s r, evaluate E (5 :: i :: tk) s r) (λ i s r, evaluate E (5 :: i :: tk) s r)) as Hr'.
    feed specialize Hr'. { intros i e1 e2 r' He'. split; [apply He'|done]. }
    specialize (Hr' tk tk (built_mining dd td (MiningHeader fn me lt s2 o2 t2 v) segs2) sm1 sm2 r2 He) as [Hr' _].
    destruct (run_method _ _ _ _ sm1 _) as [[? ?] ?], (run_method _ _ _ _ sm2 _) as [[? ?] ?]. exact Hr'.
Qed.
