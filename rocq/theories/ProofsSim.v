(** Two runs side by side: evaluators that differ only in their key cache, and
    runs that differ only in map iteration orders. *)
From Verif Require Import Base Strconv Value Doc Expr Pred Tree Regression Model Lib
  SpecPred ProofsPred SpecExpr ProofsExpr SpecConstruct ProofsConstruct ProofsRange
  SpecTree ProofsTree ProofsOutput ProofsEval ProofsDoc ProofsSafe ProofsWhole.

(** ** Environments that agree on everything but iteration orders *)

Definition same_world (E1 E2 : Ext) : Prop :=
  (∀ s, ext_parse_float E1 s = ext_parse_float E2 s) ∧
  (∀ x, ext_exp E1 x = ext_exp E2 x) ∧ (∀ x, ext_atan E1 x = ext_atan E2 x) ∧
  (∀ v, ext_fmt E1 v = ext_fmt E2 v).

Lemma same_world_refl E : same_world E E.
Proof. done. Qed.

Section world.
  Context (E1 E2 : Ext) (HE : same_world E1 E2).
  Let Hpf := proj1 HE.
  Let Hexp := proj1 (proj2 HE).
  Let Hatan := proj1 (proj2 (proj2 HE)).
  Let Hfmt := proj2 (proj2 (proj2 HE)).

  Lemma val_float64_world v : val_float64 E1 v = val_float64 E2 v.
  Proof. destruct v; simpl; try done. by rewrite Hpf. Qed.

  Lemma val_string_world v : val_string E1 v = val_string E2 v.
  Proof. destruct v; simpl; try done; try apply Hfmt; by destruct str; try apply Hfmt. Qed.

  Lemma get_raw_value_world dt s : get_raw_value E1 dt s = get_raw_value E2 dt s.
  Proof. unfold get_raw_value. by rewrite Hpf. Qed.

  Lemma foldl_ext' {A B} (f g : A → B → A) (l : list B) a :
    (∀ a b, f a b = g a b) → foldl f a l = foldl g a l.
  Proof. intros H. revert a. induction l as [|b l IH]; intros a; simpl; [done|]. by rewrite H. Qed.

  Lemma handle_map_values_world a b c d r :
    handle_map_values E1 a b c d r = handle_map_values E2 a b c d r.
  Proof.
    unfold handle_map_values.
    rewrite (foldl_ext' _ (λ cols tbl, foldl (map_table_step E2) cols tbl)).
    - repeat case_match; try done. apply get_raw_value_world.
    - intros cols tbl. apply foldl_ext'. intros cols' rw. unfold map_table_step.
      by rewrite val_string_world.
  Qed.

  Lemma handle_expr_world e r : handle_expr E1 e r = handle_expr E2 e r.
  Proof.
    induction e as [f m|dt v|fn d m args IH|a b c d e f|k] using expr_rect'.
    - done.
    - simpl. unfold handle_constant. by rewrite Hpf.
    - destruct (decide (fn = "sum")) as [->|Hsum].
      { rewrite !handle_sum. generalize fzero.
        induction IH as [|a args Ha _ IHa]; intros s; simpl; [done|].
        rewrite Ha. destruct (handle_expr E2 a r); simpl; try done.
        rewrite val_float64_world. apply IHa. }
      destruct (arith_meaning fn) as [op|] eqn:Har.
      { rewrite !(handle_arith _ _ _ _ _ _ _ Har). destruct args as [|a [|b [|c args]]]; try done.
        apply Forall_cons in IH as [Ha IH]. apply Forall_cons in IH as [Hb _]. rewrite Ha, Hb.
        destruct (handle_expr E2 a r); simpl; try done. destruct (handle_expr E2 b r); simpl; try done.
        by rewrite !val_float64_world. }
      simpl. apply String.eqb_neq in Hsum as ->.
      assert (is_arith fn = false) as ->.
      { unfold arith_meaning in Har. unfold is_arith.
        repeat case_str_in Har; repeat case_str; done. }
      repeat case_str; try done.
      + destruct args as [|a [|b args]]; try done. apply Forall_cons in IH as [Ha _]. by rewrite Ha.
      + destruct args as [|a [|b args]]; try done. apply Forall_cons in IH as [Ha _]. by rewrite Ha.
      + destruct args as [|c [|a [|b [|? args]]]]; try done.
        apply Forall_cons in IH as [Hc IH]. apply Forall_cons in IH as [Ha IH].
        apply Forall_cons in IH as [Hb _]. rewrite Hc, Ha, Hb. done.
    - simpl. apply handle_map_values_world.
    - done.
  Qed.

  Lemma handle_input_world lt r : handle_input E1 lt r = handle_input E2 lt r.
  Proof.
    revert r. induction lt as [|df lt IH]; intros r; simpl; [done|].
    rewrite handle_expr_world. destruct (handle_expr E2 _ _); try done.
    rewrite val_float64_world. destruct (dr_set _ _ _); try done.
  Qed.

  Lemma ordering_world f g dt v raw : ordering E1 f g dt v raw = ordering E2 f g dt v raw.
  Proof. unfold ordering. by rewrite val_float64_world. Qed.

  Lemma eval_simple_world ft f op raw r : eval_simple E1 ft f op raw r = eval_simple E2 ft f op raw r.
  Proof. unfold eval_simple. repeat case_match; try done; apply ordering_world. Qed.

  Lemma compound_loop_ext ev1 ev2 b n l tc uc :
    Forall (λ p, ev1 p = ev2 p) l → compound_loop ev1 b n l tc uc = compound_loop ev2 b n l tc uc.
  Proof.
    intros H. revert tc uc. induction H as [|p l Hp _ IH]; intros tc uc; simpl; [done|].
    rewrite Hp. destruct (ev2 p) as [v| |]; simpl; try done. destruct (_ && _); [done|].
    destruct v; apply IH.
  Qed.

  Lemma eval_operand_world ft r p : eval_operand E1 ft r p = eval_operand E2 ft r p.
  Proof.
    induction p as [| |f op v raw|b ps IH|b f arr|] using predicate_rect'; simpl; try done.
    - apply eval_simple_world.
    - by apply compound_loop_ext.
  Qed.

  Lemma run_test_world ft p r : run_test E1 ft p r = run_test E2 ft p r.
  Proof.
    destruct p; simpl; try done; [apply eval_simple_world|]. unfold eval_compound.
    apply compound_loop_ext, Forall_forall. intros q _. apply eval_operand_world.
  Qed.

  Lemma compile_predicate_world ft p : compile_predicate E1 ft p = compile_predicate E2 ft p.
  Proof.
    induction p as [| |f op v raw|b ps IH|b f arr|] using predicate_rect'; simpl; try done.
    - case_match; [|done]. by rewrite get_raw_value_world.
    - by rewrite (rmap_ext _ _ _ IH).
  Qed.

  Lemma new_node_world ft m : new_node E1 ft m = new_node E2 ft m.
  Proof.
    induction m as [id dc sc c ds ns pr IH] using mnode_rect'. simpl.
    by rewrite (rmap_ext _ _ _ IH), compile_predicate_world.
  Qed.

  Lemma new_tree_model_world dd td t : new_tree_model E1 dd td t = new_tree_model E2 dd td t.
  Proof.
    unfold new_tree_model. destruct (tree_validate _) as [[u| |] te]; try done.
    unfold tree_compile. rewrite new_node_world. by destruct (new_node E2 _ _).
  Qed.

  Lemma compile_segments_ext nm1 nm2 td acc segs :
    Forall (λ s, Forall (λ d, ∀ td, nm1 td d = nm2 td d) (sg_models s)) segs →
    compile_segments nm1 td acc segs = compile_segments nm2 td acc segs.
  Proof.
    intros H. revert td acc. induction H as [|[i ps ms] segs Hs _ IH]; intros td acc; simpl; [done|].
    destruct ms as [|d [|? ?]]; try done. simpl in Hs. apply Forall_cons in Hs as [Hd _].
    rewrite Hd. destruct (nm2 td d) as [[| |] td1]; [apply IH|done..].
  Qed.

  Lemma new_model_world dd td d : new_model E1 dd td d = new_model E2 dd td d.
  Proof.
    revert td. induction d as [t|r|k|h segs IH] using doc_rect'; intros td.
    - simpl. by rewrite new_tree_model_world.
    - done.
    - done.
    - rewrite !new_model_mining. by rewrite (compile_segments_ext _ (new_model E2 dd) _ _ _ IH).
  Qed.

  Lemma first_true_ext {A} (f g : A → res (list score * presult)) d l :
    Forall (λ c, f c = g c) l → first_true f d l = first_true g d l.
  Proof.
    induction 1 as [|c l Hc _ IH]; simpl; [done|]. rewrite Hc.
    destruct (g c) as [[s v]| |]; simpl; try done. by destruct v.
  Qed.

  Lemma eval_none_world cx r n : eval_none E1 cx r n = eval_none E2 cx r n.
  Proof.
    induction n as [id dc cs ds t sc IH] using node_rect'. simpl. rewrite run_test_world.
    destruct (run_test E2 _ _ _) as [v| |]; simpl; try done. destruct v; try done.
    by apply first_true_ext.
  Qed.

  Lemma first_known_ext {A} (f g : A → res (list score * presult)) d l :
    Forall (λ c, f c = g c) l → first_known f d l = first_known g d l.
  Proof.
    induction 1 as [|c l Hc _ IH]; simpl; [done|]. rewrite Hc.
    destruct (g c) as [[s v]| |]; simpl; try done. by destruct v.
  Qed.

  Lemma eval_null_world cx r n : eval_null E1 cx r n = eval_null E2 cx r n.
  Proof.
    induction n as [id dc cs ds t sc IH] using node_rect'. simpl. rewrite run_test_world.
    destruct (run_test E2 _ _ _) as [v| |]; simpl; try done. destruct v; try done.
    by apply first_known_ext.
  Qed.

  Lemma eval_last_world cx r n : eval_last E1 cx r n = eval_last E2 cx r n.
  Proof.
    induction n as [id dc cs ds t sc IH] using node_rect'. simpl. rewrite run_test_world.
    by rewrite (rmap_ext _ _ _ IH).
  Qed.

  Lemma eval_default_world cx r n : eval_default E1 cx r n = eval_default E2 cx r n.
  Proof.
    induction n as [id dc cs ds t sc IH] using node_rect'. simpl. rewrite run_test_world.
    by rewrite (rmap_ext _ _ _ IH).
  Qed.

  Lemma normalize_world m x : normalize E1 m x = normalize E2 m x.
  Proof. unfold normalize. by rewrite !Hexp, Hatan. Qed.

  Lemma linear_form_world y ps r : linear_form E1 y ps r = linear_form E2 y ps r.
  Proof.
    revert y. induction ps as [|p ps IH]; intros y; simpl; [done|]. case_match; [|done].
    by rewrite val_float64_world.
  Qed.

  Lemma binary_form_world m y ps r : binary_form E1 m y ps r = binary_form E2 m y ps r.
  Proof.
    revert y. induction ps as [|p ps IH]; intros y; simpl; [done|]. case_match; [|done].
    rewrite val_float64_world, normalize_world. by destruct (normalize E2 _ _); simpl.
  Qed.

  Lemma regr_evaluate_world m r : regr_evaluate E1 m r = regr_evaluate E2 m r.
  Proof.
    unfold regr_evaluate.
    assert (eval_regression E1 m r = eval_regression E2 m r) as ->.
    { unfold eval_regression. repeat case_match; try done. rewrite linear_form_world.
      destruct (linear_form E2 _ _ _); simpl; try done. by rewrite normalize_world. }
    assert (eval_binary E1 m r = eval_binary E2 m r) as ->.
    { unfold eval_binary. generalize fone, (∅ : row). induction (rm_tables m) as [|t ts IH]; intros f out; simpl; [done|].
      rewrite binary_form_world. by destruct (if Nat.ltb _ _ then _ else _); simpl. }
    assert (eval_multiclass E1 m r = eval_multiclass E2 m r) as ->; [|done].
    unfold eval_multiclass.
    rewrite (rmap_ext _ (λ t, linear_form E2 (rt_intercept t) (rt_predictors t) r)).
    2:{ apply Forall_forall. intros t _. apply linear_form_world. }
    destruct (rmap _ _) as [ys| |]; simpl; try done.
    assert (∀ l out, multi_out E1 (rm_norm m) ys out l = multi_out E2 (rm_norm m) ys out l) as Hm; [|apply Hm].
    assert ((ext_exp E1 <$> ys) = (ext_exp E2 <$> ys)) as He.
    { apply list_fmap_ext. intros. apply Hexp. }
    induction l as [|[t y] l IH]; intros out; simpl; [done|]. by rewrite He, Hexp, !IH.
  Qed.

  (** the loops over maps do not depend on the order *)
  Lemma impute_world tk1 tk2 d r : impute E1 tk1 d r = impute E2 tk2 d r.
  Proof. destruct r; [by rewrite !impute_some|by rewrite !impute_none]. Qed.

  Lemma copy_into_world tk1 tk2 l r : copy_into E1 tk1 l r = copy_into E2 tk2 l r.
  Proof. destruct r; [by rewrite !copy_into_some|by rewrite !copy_into_none]. Qed.

  Lemma score_add_world tk1 tk2 cl out sm : score_add E1 tk1 cl out sm = score_add E2 tk2 cl out sm.
  Proof.
    rewrite !score_add_eq. apply map_eq. intros k. rewrite !map_lookup_imap.
    destruct (sm !! k); simpl; [|done]. unfold contribution.
    destruct (dr_get _ _); simpl; [|done]. by rewrite val_float64_world.
  Qed.

  Lemma score_out_world tk1 tk2 m : score_out E1 tk1 m = score_out E2 tk2 m.
  Proof. by rewrite !score_out_eq. Qed.

  Lemma average_row_world tk1 tk2 n out : average_row E1 tk1 n out = average_row E2 tk2 n out.
  Proof.
    rewrite !average_row_eq. apply map_fmap_ext. intros k v _. by rewrite val_float64_world.
  Qed.

  Lemma ver_input_world tk1 tk2 ins v : ver_input E1 tk1 ins v = ver_input E2 tk2 ins v.
  Proof. by rewrite !ver_input_eq. Qed.

  (** ** Methods, related pointwise *)
  Definition sim_out {X} (Q : X → X → Prop) (a b : res datarow * datarow * X) : Prop :=
    a.1 = b.1 ∧ Q a.2 b.2.

  Section methods.
    Context {M : Type} (R Q : M → M → Prop) (HRQ : ∀ a b, R a b → Q a b) (ev1 ev2 : nat → M → datarow → outcome M).
        Context (Hev : ∀ i s1 s2 r, R s1 s2 → sim_out Q (ev1 i s1 r) (ev2 i s2 r)).

    Let HF l1 l2 : Forall2 R l1 l2 → Forall2 Q l1 l2.
    Proof. intros H. by eapply Forall2_impl. Qed.

    Lemma select_first_sim sm1 sm2 r :
      Forall2 R sm1 sm2 → sim_out (Forall2 Q) (select_first (ev1 0) sm1 r) (select_first (ev2 0) sm2 r).
    Proof.
      intros [|s1 s2 l1 l2 Hs Hl]; simpl; [split; [done|by constructor]|].
      pose proof (Hev 0 s1 s2 r Hs) as [H1 H2].
      destruct (ev1 0 s1 r) as [[o1 r1] s1'], (ev2 0 s2 r) as [[o2 r2] s2']. simpl in *. simplify_eq.
      split; [done|]. by constructor; auto.
    Qed.

    Lemma chain_sim tk1 tk2 i lst sm1 sm2 r :
      Forall2 R sm1 sm2 →
      sim_out (Forall2 Q) (chain E1 tk1 ev1 i lst sm1 r) (chain E2 tk2 ev2 i lst sm2 r).
    Proof.
      intros H. revert i lst r. induction H as [|s1 s2 l1 l2 Hs Hl IH]; intros i lst r; simpl; [split; [done|by constructor]|].
      rewrite (copy_into_world _ (0 :: i :: tk2)). destruct (copy_into _ _ _ _) as [r1|x|p].
      2,3: split; [done|by constructor; auto].
      pose proof (Hev i s1 s2 r1 Hs) as [H1 H2].
      destruct (ev1 i s1 r1) as [[o1 r2] s1'], (ev2 i s2 r1) as [[o2 r2'] s2']. simpl in *. simplify_eq.
      destruct o2 as [out|x|p]; try (split; [done|constructor; auto; done]).
      specialize (IH (S i) out r2') as [H3 H4].
      destruct (chain E1 _ _ _ _ _ _) as [[o3 r3] sm3], (chain E2 _ _ _ _ _ _) as [[o4 r4] sm4].
      simpl in *. simplify_eq. split; [done|by constructor; auto].
    Qed.

    Lemma sum_segments_sim tk1 tk2 cl i scores sm1 sm2 r :
      Forall2 R sm1 sm2 →
      (sum_segments E1 tk1 cl ev1 i scores sm1 r).1 = (sum_segments E2 tk2 cl ev2 i scores sm2 r).1 ∧
      Forall2 Q (sum_segments E1 tk1 cl ev1 i scores sm1 r).2
                (sum_segments E2 tk2 cl ev2 i scores sm2 r).2.
    Proof.
      intros H. revert i scores r. induction H as [|s1 s2 l1 l2 Hs Hl IH]; intros i scores r; simpl; [split; [done|by constructor]|].
      pose proof (Hev i s1 s2 r Hs) as [H1 H2].
      destruct (ev1 i s1 r) as [[o1 r1] s1'], (ev2 i s2 r) as [[o2 r1'] s2']. simpl in *. simplify_eq.
      destruct o2 as [out|x|p]; try (split; [done|constructor; auto; done]).
      rewrite (score_add_world _ (1 :: i :: tk2)).
      specialize (IH (S i) (score_add E2 (1 :: i :: tk2) cl out scores) r1') as [H3 H4].
      destruct (sum_segments E1 _ _ _ _ _ _ _) as [[o3 r3] sm3], (sum_segments E2 _ _ _ _ _ _ _) as [[o4 r4] sm4].
      simpl in *. simplify_eq. split; [done|by constructor; auto].
    Qed.

    Lemma sum_models_sim tk1 tk2 h sm1 sm2 r :
      Forall2 R sm1 sm2 →
      (sum_models E1 tk1 h ev1 sm1 r).1 = (sum_models E2 tk2 h ev2 sm2 r).1 ∧
      Forall2 Q (sum_models E1 tk1 h ev1 sm1 r).2 (sum_models E2 tk2 h ev2 sm2 r).2.
    Proof.
      intros H. unfold sum_models.
      destruct (sum_segments_sim tk1 tk2 (mm_function (em_hdr h) =s "classification") 0
                  (score_init (em_outputs h) (em_targets h)) _ _ r H) as [H1 H2].
      destruct (sum_segments E1 _ _ _ _ _ _ _) as [[o1 r1] m1], (sum_segments E2 _ _ _ _ _ _ _) as [[o2 r2] m2].
      simpl in *. simplify_eq. destruct o2; simpl; try done.
      by rewrite (score_out_world _ (2 :: tk2)).
    Qed.

    Lemma run_method_sim tk1 tk2 h sm1 sm2 r :
      Forall2 R sm1 sm2 →
      sim_out (Forall2 Q) (run_method E1 tk1 h ev1 sm1 r) (run_method E2 tk2 h ev2 sm2 r).
    Proof.
      intros H. unfold run_method. destruct (sum_models_sim tk1 tk2 h _ _ r H) as [H1 H2].
      unfold average_models.
      destruct (sum_models E1 _ _ _ _ _) as [[o1 r1] m1], (sum_models E2 _ _ _ _ _) as [[o2 r2] m2].
      simpl in H1, H2. simplify_eq.
      destruct (_ =s "average").
      { rewrite ?(average_row_world _ (3 :: tk2)). destruct o2; (split; [|exact H2]); simpl; try done. by rewrite (average_row_world _ (3 :: tk2)), ?(Forall2_length _ _ _ H), ?(Forall2_length _ _ _ H2). }
      destruct (_ =s "sum"). { by destruct o2; (split; [|exact H2]). }
      destruct (_ =s "modelChain"); [by apply chain_sim|].
      destruct (_ =s "selectFirst"); [by apply select_first_sim|]. split; [done|by apply HF].
    Qed.
  End methods.

  (** ** Whole models *)
  Section models.
    Context (TS : etree → etree → Prop) (TK : ticket → ticket → Prop).
    Context (HTK : ∀ i tk1 tk2, TK tk1 tk2 → TK (5 :: i :: tk1) (5 :: i :: tk2)).
    Context (HTS : ∀ tk1 tk2 t1 t2 r, TK tk1 tk2 → TS t1 t2 →
      sim_out TS (tree_evaluate E1 tk1 t1 r) (tree_evaluate E2 tk2 t2 r)).

    Inductive msim : emodel → emodel → Prop :=
    | msim_tree t1 t2 : TS t1 t2 → msim (ETree t1) (ETree t2)
    | msim_regr x : msim (ERegr x) (ERegr x)
    | msim_mining h sm1 sm2 : Forall2 msim sm1 sm2 → msim (EMining h sm1) (EMining h sm2).

    Lemma evaluate_sim tk1 tk2 e1 e2 r :
      TK tk1 tk2 → msim e1 e2 → sim_out msim (evaluate E1 tk1 e1 r) (evaluate E2 tk2 e2 r).
    Proof.
      revert tk1 tk2 e2 r. induction e1 as [t|x|h sm IH] using emodel_rect';
        intros tk1 tk2 e2 r Htk He; inversion He as [? t2 Ht|?|? ? sm2 Hsm]; subst.
      - simpl. destruct (HTS tk1 tk2 t t2 r Htk Ht) as [H1 H2].
        destruct (tree_evaluate E1 _ _ _) as [[o1 r1] t1'], (tree_evaluate E2 _ _ _) as [[o2 r2] t2'].
        simpl in *. simplify_eq. split; [done|by constructor].
      - simpl. rewrite regr_evaluate_world. split; [done|constructor].
      - cbn [evaluate].
        destruct (negb (em_validated h)); [by split|]. destruct (negb (em_compiled h)); [by split|].
        rewrite (impute_world _ (4 :: tk2)). destruct (impute _ _ _ _); [|by split..].
        rewrite handle_input_world. destruct (handle_input _ _ _) as [[u|x|p] r2]; [|by split..].
        destruct (run_method_sim (λ a b, msim a b ∧ a ∈ sm) msim (λ a b H, proj1 H)
          (λ i s r, evaluate E1 (5 :: i :: tk1) s r) (λ i s r, evaluate E2 (5 :: i :: tk2) s r)
          ltac:(intros i s1 s2 r' [Hs Hin]; rewrite Forall_forall in IH; apply (IH _ Hin); auto)
          tk1 tk2 h sm sm2 r2) as [H1 H2].
        { clear -Hsm. apply Forall2_same_length_lookup. split; [by eapply Forall2_length|].
          intros i a b Ha Hb. split; [by eapply Forall2_lookup_lr|by eapply elem_of_list_lookup_2]. }
        destruct (run_method E1 _ _ _ _ _) as [[o1 r1] m1], (run_method E2 _ _ _ _ _) as [[o2 r3] m2].
        simpl in *. simplify_eq. split; [done|by constructor].
    Qed.
  End models.
End world.

(** ** Trees that differ only in their key cache *)

Definition same_tree (t1 t2 : etree) : Prop :=
  keys_ok (et_outkeys t1) ∧ keys_ok (et_outkeys t2) ∧
  et_validated t1 = et_validated t2 ∧ et_compiled t1 = et_compiled t2 ∧ et_dd t1 = et_dd t2 ∧
  et_model t1 = et_model t2 ∧ et_ft t1 = et_ft t2 ∧ et_root t1 = et_root t2 ∧
  et_target t1 = et_target t2.

Lemma tree_output_keys E t scores :
  keys_ok (et_outkeys t) → keys_ok (tree_output E t scores).2.
Proof.
  intros Hk. destruct (decide (tm_function (et_model t) = "classification")) as [Hf|Hf].
  - by apply tree_output_class.
  - unfold tree_output. apply String.eqb_neq in Hf as ->. by destruct (_ =s "regression").
Qed.

Lemma tree_output_same E1 E2 t1 t2 scores :
  same_world E1 E2 → same_tree t1 t2 → (tree_output E1 t1 scores).1 = (tree_output E2 t2 scores).1.
Proof.
  intros HE (Hk1 & Hk2 & Hv & Hc & Hdd & Hm & Hft & Hr & Htg).
  destruct (decide (tm_function (et_model t1) = "classification")) as [Hf|Hf].
  - destruct (tree_output_class E1 t1 scores Hk1 Hf) as [-> _].
    rewrite Hm in Hf. destruct (tree_output_class E2 t2 scores Hk2 Hf) as [-> _]. by rewrite Htg.
  - unfold tree_output. rewrite <- Hm. apply String.eqb_neq in Hf as ->.
    destruct (_ =s "regression"); [|done]. simpl. destruct scores; [done|]. by rewrite (proj1 HE).
Qed.

Lemma tree_evaluate_same E1 E2 tk1 tk2 t1 t2 r :
  same_world E1 E2 → same_tree t1 t2 →
  (∀ r', node_evaluate E1 (tree_ctx t1) (tm_strategy (et_model t1)) r' tk1 (et_root t1) =
         node_evaluate E2 (tree_ctx t1) (tm_strategy (et_model t1)) r' tk2 (et_root t1)) →
  sim_out same_tree (tree_evaluate E1 tk1 t1 r) (tree_evaluate E2 tk2 t2 r).
Proof.
  intros HE Ht Hn. pose proof Ht as (Hk1 & Hk2 & Hv & Hc & Hdd & Hm & Hft & Hr & Htg).
  unfold tree_evaluate. rewrite <- Hv, <- Hc, <- Hm, <- Hr.
  destruct (et_validated t1) eqn:Hv1; simpl; [|by split].
  destruct (et_compiled t1) eqn:Hc1; simpl; [|by split].
  rewrite (handle_input_world E1 E2 HE). destruct (handle_input _ _ _) as [[u|x|p] r']; [|by split..].
  rewrite Hn. replace (tree_ctx t2) with (tree_ctx t1)
    by (unfold tree_ctx; by rewrite Hft, Hdd, Hm, Htg).
  destruct (node_evaluate E2 _ _ _ _ _) as [[s [| |]]|x|p]; try by split.
  pose proof (tree_output_same E1 E2 t1 t2 s HE Ht) as Ho.
  pose proof (tree_output_keys E1 t1 s Hk1). pose proof (tree_output_keys E2 t2 s Hk2).
  destruct (tree_output E1 t1 s) as [o1 k1], (tree_output E2 t2 s) as [o2 k2]. simpl in *. subst.
  split; [done|]. done.
Qed.

Lemma tree_evaluate_step E tk t r :
  keys_ok (et_outkeys t) → same_tree t (tree_evaluate E tk t r).2.
Proof.
  intros Hk. assert (same_tree t t) as Ht by done. unfold tree_evaluate.
  destruct (negb _); [done|]. destruct (negb _); [done|].
  destruct (handle_input _ _ _) as [[u|x|p] r']; [|done..].
  destruct (node_evaluate E _ _ _ _ _) as [[s [| |]]|x|p]; try done.
  pose proof (tree_output_keys E t s Hk). by destruct (tree_output E t s) as [o1 k1].
Qed.

(** ** One model before and after a call *)
Section step.
  Context {M : Type} (E : Ext) (R : M → M → Prop) (HR : ∀ s, R s s) (ev : nat → M → datarow → outcome M).

  Lemma Forall2_refl_all (P : M → Prop) sm : (∀ s, P s → R s s) → Forall P sm → Forall2 R sm sm.
  Proof. intros H. induction 1; constructor; auto. Qed.

  Lemma run_method_step tk h sm r :
    Forall (λ s, ∀ i r, R s (ev i s r).2) sm →
    Forall2 R sm (run_method E tk h ev sm r).2.
  Proof.
    intros H.
    assert (∀ l, Forall2 R l l) as Hrefl by (intros l; induction l; by constructor).
    assert (∀ cl scores i r, Forall2 R sm (sum_segments E tk cl ev i scores sm r).2) as Hsum.
    { clear r. intros cl. induction H as [|s l Hs _ IH]; intros scores i r; simpl; [constructor|].
      specialize (Hs i r). destruct (ev i s r) as [[[out|x|p] r'] s']; simpl in *; try by constructor.
      specialize (IH (score_add E (1 :: i :: tk) cl out scores) (S i) r').
      destruct (sum_segments _ _ _ _ _ _ _ _) as [[? ?] ?]. by constructor. }
    assert (∀ h r, Forall2 R sm (sum_models E tk h ev sm r).2) as Hsm.
    { intros h' r'. unfold sum_models.
      specialize (Hsum (mm_function (em_hdr h') =s "classification") (score_init (em_outputs h') (em_targets h')) 0 r').
      destruct (sum_segments _ _ _ _ _ _ _ _) as [[[] ?] ?]; done. }
    unfold run_method. destruct (_ =s _).
    { unfold average_models. specialize (Hsm h r). by destruct (sum_models _ _ _ _ _ _) as [[[] ?] ?]. }
    destruct (_ =s _). { specialize (Hsm h r). by destruct (sum_models _ _ _ _ _ _) as [[[] ?] ?]. }
    destruct (_ =s _).
    { generalize (Some ∅ : datarow) as last. generalize 0 as i. clear Hsum Hsm. revert r.
      induction H as [|s l Hs _ IH]; intros r i last; simpl; [constructor|].
      destruct (copy_into _ _ _ _) as [r1|x|p]; simpl; try by constructor.
      specialize (Hs i r1). destruct (ev i s r1) as [[[out|x|p] r'] s']; simpl in *; try by constructor.
      specialize (IH r' (S i) out). destruct (chain _ _ _ _ _ _ _) as [[? ?] ?]. by constructor. }
    destruct (_ =s _); [|done]. destruct H as [|s l Hs Hl]; simpl; [constructor|].
    specialize (Hs 0 r). destruct (ev 0 s r) as [[o r'] s']. simpl in *. by constructor.
  Qed.
End step.

Lemma msim_impl (TS TS' : etree → etree → Prop) e1 e2 :
  (∀ t1 t2, TS t1 t2 → TS' t1 t2) → msim TS e1 e2 → msim TS' e1 e2.
Proof.
  intros HT. revert e2. induction e1 as [t|x|h sm IH] using emodel_rect'; intros e2 He;
    inversion He as [? t2 Ht|?|? ? sm2 Hsm]; subst; constructor; [by apply HT|].
  clear He. induction Hsm; constructor; apply Forall_cons in IH as [IH1 IH2]; auto.
Qed.

Lemma msim_trans (TS : etree → etree → Prop) e1 e2 e3 :
  (∀ a b c, TS a b → TS b c → TS a c) → msim TS e1 e2 → msim TS e2 e3 → msim TS e1 e3.
Proof.
  intros HT. revert e2 e3. induction e1 as [t|x|h sm IH] using emodel_rect'; intros e2 e3 H1 H2;
    inversion H1 as [? t2 Ht|?|? ? sm2 Hsm]; subst; inversion H2 as [? t3 Ht3|?|? ? sm3 Hsm3]; subst;
    constructor; [by eapply HT|].
  clear H1 H2. revert sm3 Hsm3. induction Hsm as [|a b l1 l2 Hab Hl IHl]; intros sm3 Hsm3;
    inversion Hsm3; subst; constructor; apply Forall_cons in IH as [IH1 IH2]; eauto.
Qed.

Lemma all_model_msim (PT : etree → Prop) PM PR (TS : etree → etree → Prop) e :
  (∀ t, PT t → TS t t) → all_model PT PM PR e → msim TS e e.
Proof.
  intros HT. induction e as [t|x|h sm IH] using emodel_rect'; intros He.
  - constructor. by apply HT.
  - constructor.
  - apply all_model_mining in He as [_ Hsm]. constructor.
    induction Hsm; constructor; apply Forall_cons in IH as [IH1 IH2]; auto.
Qed.

Lemma same_tree_trans a b c : same_tree a b → same_tree b c → same_tree a c.
Proof. unfold same_tree. intuition congruence. Qed.

Lemma evaluate_step E tk e r :
  msim same_tree e e → msim same_tree e (evaluate E tk e r).2.
Proof.
  revert tk r. induction e as [t|x|h sm IH] using emodel_rect'; intros tk r He.
  - inversion He as [? ? Ht| |]; subst. cbn [evaluate].
    pose proof (tree_evaluate_step E tk t r (proj1 Ht)) as Hs.
    destruct (tree_evaluate E tk t r) as [[o r'] t']. by constructor.
  - simpl. constructor.
  - inversion He as [| |? ? ? Hsm]; subst. cbn [evaluate].
    destruct (negb (em_validated h)); [done|]. destruct (negb (em_compiled h)); [done|].
    destruct (impute _ _ _ _) as [r1|x|p]; [|done..].
    destruct (handle_input _ _ _) as [[u|x|p] r2]; [|done..].
    pose proof (run_method_step E (λ a b, msim same_tree a a → msim same_tree a b)
      (λ s H, H) (λ i s r, evaluate E (5 :: i :: tk) s r) tk h sm r2) as Hrun.
    feed specialize Hrun.
    { rewrite Forall_forall in IH. apply Forall_forall. intros s Hin i r' Hs. by apply IH. }
    destruct (run_method _ _ _ _ _ _) as [[o r3] sm']. simpl in *. constructor.
    clear -Hsm Hrun. induction Hrun; inversion Hsm; subst; constructor; auto.
Qed.

Lemma after_step E calls e : msim same_tree e e → msim same_tree e (after E calls e).
Proof.
  intros He. unfold after. enough (∀ e', msim same_tree e e' → msim same_tree e' e' →
    msim same_tree e (foldl (λ e c, (evaluate E c.1 e c.2).2) e' calls)) as Hx by by apply Hx.
  induction calls as [|c calls IH]; intros e' H1 H2; [done|]. cbn [foldl].
  pose proof (evaluate_step E c.1 e' c.2 H2) as H3. apply IH.
  - eapply msim_trans; [apply same_tree_trans|done..].
  - pose proof (evaluate_sim E E (same_world_refl E) same_tree eq) as Hs. 
    eapply (msim_trans _ _ e'); [apply same_tree_trans| |done].
    clear -H3. revert H3. generalize (evaluate E c.1 e' c.2).2 as e1. revert e'.
    assert (∀ a b, same_tree a b → same_tree b a) as Hsym by (unfold same_tree; naive_solver).
    intros e'. induction e' as [t|x|h sm IH] using emodel_rect'; intros e2 He;
      inversion He as [? t2 Ht|?|? ? sm2 Hsm]; subst; constructor; [by apply Hsym|].
    clear He. induction Hsm; constructor; apply Forall_cons in IH as [IH1 IH2]; auto.
Qed.

Lemma new_model_msim E dd td d e td' :
  new_model E dd td d = (Ok e, td') → msim same_tree e e.
Proof.
  intros H%new_model_all. eapply all_model_msim; [|exact H].
  intros te (td1 & t & _ & Ht). destruct Ht as (Hv & Hc & Hk & _). done.
Qed.

(** C28 *)
Lemma history_independent E dd td d e td' calls tk r :
  new_model E dd td d = (Ok e, td') →
  (evaluate E tk (after E calls e) r).1 = (evaluate E tk e r).1.
Proof.
  intros H%new_model_msim. pose proof (after_step E calls e H) as Hs. symmetry.
  apply (evaluate_sim E E (same_world_refl E) same_tree eq); [naive_solver| |done|done].
  intros tk1 tk2 t1 t2 r' -> Ht. apply tree_evaluate_same; [done..|]. done.
Qed.

(** ** Iteration orders *)

Definition order_free (strategy : string) : Prop :=
  strategy ≠ "weightedConfidence" ∧ strategy ≠ "aggregateNodes".

Lemma node_evaluate_order_free E1 E2 tk1 tk2 cx st r n :
  same_world E1 E2 → order_free st → node_evaluate E1 cx st r tk1 n = node_evaluate E2 cx st r tk2 n.
Proof.
  intros HE [H1 H2]. unfold node_evaluate. apply String.eqb_neq in H1 as ->.
  apply String.eqb_neq in H2 as ->.
  rewrite (eval_null_world E1 E2 HE), (eval_default_world E1 E2 HE), (eval_last_world E1 E2 HE),
    (eval_none_world E1 E2 HE). done.
Qed.

Definition order_free_doc (d : doc_model) : Prop :=
  Forall (λ t, order_free (tm_strategy t)) (doc_trees d).

(** C30 *)
Lemma deterministic E1 E2 dd td d e td' calls1 calls2 tk1 tk2 r :
  same_world E1 E2 → order_free_doc d → new_model E1 dd td d = (Ok e, td') →
  new_model E2 dd td d = (Ok e, td') ∧
  (evaluate E1 tk1 (after E1 calls1 e) r).1 = (evaluate E2 tk2 (after E2 calls2 e) r).1.
Proof.
  intros HE Hd He. split; [by rewrite <- (new_model_world E1 E2 HE)|].
  rewrite (history_independent E1 dd td d e td') by done.
  rewrite (history_independent E2 dd td d e td') by (by rewrite <- (new_model_world E1 E2 HE)).
  assert (msim (λ a b, same_tree a b ∧ order_free (tm_strategy (et_model a))) e e) as Hm.
  { apply new_model_all in He. eapply all_model_msim; [|exact He].
    intros te (td1 & t & Ht & Hte). destruct Hte as (Hv & Hc & Hk & _ & _ & Hst & _). split; [done|].
    unfold order_free_doc in Hd. rewrite Forall_forall in Hd. specialize (Hd t Ht). by rewrite Hst. }
  eapply (evaluate_sim E1 E2 HE _ (λ _ _, True)); [done| |done|exact Hm].
  intros tk1' tk2' t1 t2 r' _ [Ht Ho].
  pose proof (tree_evaluate_same E1 E2 tk1' tk2' t1 t2 r' HE Ht) as [H1 H2].
  { intros. by apply node_evaluate_order_free. }
  split; [done|]. split; [done|].
  pose proof (tree_evaluate_step E1 tk1' t1 r' (proj1 Ht)) as Hs.
  unfold same_tree in Hs. destruct_and!. congruence.
Qed.
