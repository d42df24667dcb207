(** Data types of the same kind (C139). *)
From Verif Require Import Base Strconv Value Doc Expr Pred Tree Regression Model Lib
  SpecPred ProofsPred SpecExpr ProofsExpr SpecConstruct ProofsConstruct ProofsRange
  SpecTree ProofsTree ProofsOutput ProofsEval ProofsDoc ProofsSafe ProofsWhole ProofsSim
  SpecEssence ProofsEssence SpecEquiv ProofsEquiv SpecSegments ProofsSegments SpecEarlier ProofsEarlier
  SpecDerive ProofsDerive SpecKinds.

Lemma kind_raw E a b s : same_kind a b → get_raw_value E a s = get_raw_value E b s.
Proof.
  intros [->|[[Ha Hb]|[Ha Hb]]]; [done| |].
  - unfold real_types in *. rewrite !elem_of_cons, elem_of_nil in Ha, Hb. by destruct Ha as [->|[->|[]]], Hb as [->|[->|[]]].
  - unfold known_types in *. rewrite !not_elem_of_cons in Ha, Hb. unfold get_raw_value.
    destruct Ha as (?&?&?&?&?&_), Hb as (?&?&?&?&?&_).
    repeat (rewrite (proj2 (String.eqb_neq _ _)) by done). done.
Qed.

Lemma kind_ordering E cf cz a b v raw : same_kind a b → ordering E cf cz a v raw = ordering E cf cz b v raw.
Proof.
  intros [->|[[Ha Hb]|[Ha Hb]]]; [done| |].
  - unfold real_types in *. rewrite !elem_of_cons, elem_of_nil in Ha, Hb. by destruct Ha as [->|[->|[]]], Hb as [->|[->|[]]].
  - unfold known_types in *. rewrite !not_elem_of_cons in Ha, Hb. unfold ordering.
    destruct Ha as (?&?&?&?&?&_), Hb as (?&?&?&?&?&_).
    repeat (rewrite (proj2 (String.eqb_neq _ _)) by done). done.
Qed.

Lemma kind_expr E r e1 : ∀ e2, retyped_expr e1 e2 → handle_expr E e1 r = handle_expr E e2 r.
Proof.
  induction e1 as [f mmt|dt v|fn d mmt args IH|ps ts d dt oc mmt|k] using expr_rect'; intros e2 He; inversion He as [| | |? ? ? ? args2 Ha|? ? ? ? dt2 ? ? Hk]; subst; try done.
  - assert (Forall2 (λ a b, handle_expr E a r = handle_expr E b r) args args2) as Hf.
    { clear -IH Ha. induction Ha as [|a b la lb Hab _ IHl]; [constructor|]. apply Forall_cons in IH as [H1 IH].
      constructor; auto. }
    clear He Ha IH. cbn [handle_expr]. destruct (fn =s "sum").
    { generalize fzero. induction Hf as [|a b la lb Hab _ IHl]; intros s; [done|]. rewrite Hab.
      destruct (handle_expr E b r); [|done..]. simpl. apply IHl. }
    rewrite (Forall2_length _ _ _ Hf).
    destruct Hf as [|a b la lb Hab Hf]; [done|]. destruct Hf as [|a1 b1 la lb Hab1 Hf]; [by rewrite Hab|].
    destruct Hf as [|a2 b2 la lb Hab2 Hf]; [by rewrite Hab, Hab1|].
    destruct Hf as [|a3 b3 la lb Hab3 Hf]; [by rewrite Hab, Hab1, Hab2|]. done.
  - cbn [handle_expr]. unfold handle_map_values. destruct (_ !! "data:output"); [done|]. destruct d; [|done]. by apply kind_raw.
Qed.

Lemma kind_input E l1 l2 : Forall2 retyped_derived l1 l2 → ∀ r, handle_input E l1 r = handle_input E l2 r.
Proof.
  induction 1 as [|a b l1 l2 (Hn & Ho & _ & He) _ IH]; intros r; [done|]. cbn [handle_input].
  rewrite (kind_expr E r _ _ He), Hn, Ho. destruct (handle_expr E (df_expr b) r); [|done..].
  destruct (dr_set _ _ _); [|done..]. apply IH.
Qed.

Definition kinds (f1 f2 : fieldtypes) : Prop := ∀ f, option_Forall2 same_kind (f1 !! f) (f2 !! f).

Lemma kinds_insert f1 f2 n a b : same_kind a b → kinds f1 f2 → kinds (<[n := a]> f1) (<[n := b]> f2).
Proof.
  intros Ha Hk f. destruct (decide (f = n)) as [->|Hn].
  - rewrite !lookup_insert. by constructor.
  - by rewrite !lookup_insert_ne.
Qed.

Lemma kinds_types dd1 dd2 td1 td2 : Forall2 retyped_data dd1 dd2 → Forall2 retyped_derived td1 td2 →
  kinds (field_types dd1 td1) (field_types dd2 td2).
Proof.
  intros Hd Ht. unfold field_types.
  assert (H : ∀ m1 m2, kinds m1 m2 → kinds (foldl (λ ft df, <[dd_name df := dd_datatype df]> ft) m1 dd1)
    (foldl (λ ft df, <[dd_name df := dd_datatype df]> ft) m2 dd2)).
  { induction Hd as [|a b l1 l2 (Hn & _ & Hk) _ IH]; intros m1 m2 Hm; [done|]. cbn [foldl]. apply IH. rewrite Hn. by apply kinds_insert. }
  specialize (H ∅ ∅). feed specialize H. { intros f. rewrite !lookup_empty. constructor. }
  revert H. generalize (foldl (λ ft df, <[dd_name df := dd_datatype df]> ft) ∅ dd1 : fieldtypes),
    (foldl (λ ft df, <[dd_name df := dd_datatype df]> ft) ∅ dd2 : fieldtypes).
  induction Ht as [|a b l1 l2 (Hn & _ & Hk & _) _ IH]; intros m1 m2 Hm; [done|]. cbn [foldl]. apply IH. rewrite Hn. by apply kinds_insert.
Qed.

Lemma kinds_compile E f1 f2 p : kinds f1 f2 → compile_predicate E f1 p = compile_predicate E f2 p.
Proof.
  intros Hk. induction p as [| |f op v raw|b ps IH|b f a|] using predicate_rect'; simpl; try done.
  - destruct (Hk f) as [a b Hab|]; [|done]. by rewrite (kind_raw E a b).
  - by rewrite (rmap_ext _ _ _ IH).
Qed.

Lemma kinds_operand E f1 f2 r p : kinds f1 f2 → eval_operand E f1 r p = eval_operand E f2 r p.
Proof.
  intros Hk. induction p as [| |f op v raw|b ps Hps|b f a|] using predicate_rect'; simpl; try done.
  - unfold eval_simple. destruct (Hk f) as [a b Hab|]; [|done].
    destruct (is_nil raw); [done|]. destruct (dr_get r f); [|done].
    by rewrite !(kind_ordering E _ _ a b).
  - generalize (length ps) as n. intros n.
    enough (∀ tc uc, compound_loop (eval_operand E f1 r) b n ps tc uc =
                     compound_loop (eval_operand E f2 r) b n ps tc uc) as H by apply H.
    induction Hps as [|q l Hq _ IHl]; intros tc uc; simpl; [done|].
    rewrite Hq. destruct (eval_operand E f2 r q) as [w| |]; simpl; try done. destruct (_ && _); [done|].
    destruct w; apply IHl.
Qed.

Lemma kinds_test E f1 f2 r p : kinds f1 f2 → run_test E f1 p r = run_test E f2 p r.
Proof.
  intros Hk. destruct p as [| |f op v raw|b ps|b f a|]; try done.
  - by apply (kinds_operand E f1 f2 r (PSimple f op v raw)).
  - by apply (kinds_operand E f1 f2 r (PCompound b ps)).
Qed.

Lemma kinds_node E f1 f2 m : kinds f1 f2 → new_node E f1 m = new_node E f2 m.
Proof.
  intros Hk. induction m as [id dc sc c ds ns p IH] using mnode_rect'. cbn [new_node].
  rewrite (kinds_compile E f1 f2 p) by done. by rewrite (rmap_ext _ _ _ IH).
Qed.

Lemma kinds_agree E f1 f2 n : kinds f1 f2 → tests_agree E f1 f2 n n.
Proof.
  intros Hk. induction n as [id dc cs ds t sc IH] using node_rect'. constructor.
  - induction IH; constructor; auto.
  - intros r. by apply kinds_test.
Qed.

Lemma kinds_values dd1 dd2 t : Forall2 retyped_data dd1 dd2 → target_values dd1 t = target_values dd2 t.
Proof.
  unfold target_values. induction 1 as [|a b l1 l2 (Hn & Hv & _) _ IH]; [done|].
  rewrite !filter_cons, Hn. destruct (decide _); [|done]. rewrite !fmap_cons. simpl. by rewrite Hv, IH.
Qed.

Definition retyped_built (E : Ext) (x y : res emodel * list derived_field) : Prop :=
  match x.1, y.1 with
  | Ok e1, Ok e2 => Forall2 retyped_derived x.2 y.2 ∧ ∀ tk r, (evaluate E tk e1 r).1 = (evaluate E tk e2 r).1
  | Err a, Err b => a = b
  | Panic a, Panic b => a = b
  | _, _ => False
  end.

Section kinds.
  Context (E : Ext) (dd1 dd2 : list data_field) (Hdd : Forall2 retyped_data dd1 dd2).

  Lemma tree_kinds td1 td2 t lt : Forall2 retyped_derived td1 td2 → Forall2 retyped_derived (tm_lt t) lt →
    retyped_built E (new_model E dd1 td1 (DTree t)) (new_model E dd2 td2 (DTree (tree_with_lt t lt))).
  Proof.
    intros Htd Hlt. assert (Htl : Forall2 retyped_derived (td1 ++ tm_lt t) (td2 ++ lt)) by by apply Forall2_app.
    pose proof (kinds_types _ _ _ _ Hdd Htl) as Hk.
    unfold retyped_built. cbn [new_model]. unfold new_tree_model, tree_validate, tree_with_lt.
    cbn [et_model tm_function et_dd et_ft et_root et_outkeys et_target et_compiled].
    destruct (_ && _); [done|].
    unfold tree_compile. cbn [et_model tm_lt tm_schema tm_node et_dd et_target et_validated et_compiled et_outkeys et_root
      tm_function tm_strategy tm_penalty tm_notrue tm_verification].
    rewrite (kinds_node E _ _ (tm_node t) Hk). rewrite mf_defaults_target.
    destruct (new_node E _ (tm_node t)) as [n| |]; [|done..]. split; [done|].
    cbn [fst]. intros tk r. cbn [evaluate]. unfold tree_evaluate.
    cbn [et_validated et_compiled negb et_model tm_lt tm_strategy tm_schema et_root].
    rewrite (kind_input E _ _ Hlt). destruct (handle_input E lt r) as [[u|x|p] r']; [|done..].
    unfold tree_ctx. cbn [et_ft et_dd et_target et_model tm_penalty tm_notrue].
    pose proof (node_evaluate_agree E
      (Tctx (field_types dd1 (td1 ++ tm_lt t)) dd1 (target_field (tm_schema t)) (tm_penalty t) (tm_notrue t))
      (Tctx (field_types dd2 (td2 ++ lt)) dd2 (target_field (tm_schema t)) (tm_penalty t) (tm_notrue t))
      eq_refl) as Hev.
    feed specialize Hev.
    { intros. rewrite !output_dist_values. cbn [cx_notrue cx_target cx_dd]. rewrite H.
      by rewrite (kinds_values _ _ _ Hdd). }
    rewrite (Hev _ r' tk n n (kinds_agree _ _ _ _ Hk)). clear Hev.
    destruct (node_evaluate _ _ _ _ _ _) as [[s v]| |]; try done. destruct v; try done.
    unfold tree_output. cbn [et_model tm_function et_target et_outkeys].
    destruct (_ =s "classification"); [by destruct (foldl _ _ _)|].
    destruct (_ =s "regression"); [|done]. done.
  Qed.

  Lemma segments_kinds segs1 segs2 :
    Forall2 (λ s1 s2, Forall2 (λ d1 d2, ∀ td1 td2, Forall2 retyped_derived td1 td2 →
        retyped_built E (new_model E dd1 td1 d1) (new_model E dd2 td2 d2)) (sg_models s1) (sg_models s2)) segs1 segs2 →
    ∀ td1 td2 a1 a2, Forall2 retyped_derived td1 td2 →
    Forall2 (λ e1 e2, ∀ tk r, (evaluate E tk e1 r).1 = (evaluate E tk e2 r).1) a1 a2 →
    match compile_segments (new_model E dd1) td1 a1 segs1, compile_segments (new_model E dd2) td2 a2 segs2 with
    | (o1, s1, t1), (o2, s2, t2) =>
        o1 = o2 ∧ (o1 = Ok tt → Forall2 retyped_derived t1 t2 ∧
        Forall2 (λ e1 e2, ∀ tk r, (evaluate E tk e1 r).1 = (evaluate E tk e2 r).1) s1 s2)
    end.
  Proof.
    induction 1 as [|[i1 ps1 ms1] [i2 ps2 ms2] segs1 segs2 Hs _ IH]; intros td1 td2 a1 a2 Htd Ha; [by simpl|].
    cbn [compile_segments]. simpl in Hs.
    destruct Hs as [|d1 d2 ms1 ms2 Hd Hs]; [done|]. destruct Hs as [|d3 d4 ms1 ms2 Hd' Hs].
    - specialize (Hd td1 td2 Htd). unfold retyped_built in Hd.
      destruct (new_model E dd1 td1 d1) as [[e1|x|p] t1], (new_model E dd2 td2 d2) as [[e2|x'|p'] t2];
        simpl in Hd; try done; try (split; [congruence|done]).
      destruct Hd as [Hn Hd]. apply IH; [done|]. apply Forall2_app; [done|]. by constructor.
    - split; [|done]. cbn [length]. by rewrite (Forall2_length _ _ _ Hs).
  Qed.

  Lemma model_kinds d1 : ∀ d2, retyped d1 d2 → ∀ td1 td2, Forall2 retyped_derived td1 td2 →
    retyped_built E (new_model E dd1 td1 d1) (new_model E dd2 td2 d2).
  Proof.
    induction d1 as [t|m|k|h segs IH] using doc_rect'; intros d2 Hr td1 td2 Htd;
      inversion Hr as [t1 lt Ht| | |h' lt sg1 segs2 Hlt Hsegs]; subst.
    - by apply tree_kinds.
    - by split.
    - done.
    - assert (Forall2 (λ s1 s2, Forall2 (λ d1 d2, ∀ td1 td2, Forall2 retyped_derived td1 td2 →
        retyped_built E (new_model E dd1 td1 d1) (new_model E dd2 td2 d2)) (sg_models s1) (sg_models s2)) segs segs2) as Hs.
      { clear -IH Hsegs. induction Hsegs as [|s1 s2 l1 l2 Hs _ IHl]; [constructor|].
        apply Forall_cons in IH as [IH1 IH]. constructor; [|by apply IHl].
        clear -IH1 Hs. induction Hs as [|a b la lb Hab _ IHa]; [constructor|].
        apply Forall_cons in IH1 as [H1 IH1]. constructor; [by apply H1|by apply IHa]. }
      rewrite !new_model_mining.
      assert (mm_method (header_of (header_with_lt h lt)) = mm_method (header_of h)) as Hm by (unfold header_of, header_with_lt; simpl; by destruct (_ =s _)). rewrite Hm.
      cbn [header_with_lt mm_output]. fold (header_with_lt h lt).
      destruct (negb _); [done|]. destruct (List.find _ _); [done|].
      pose proof (segments_kinds segs segs2 Hs (td1 ++ mm_lt h) (td2 ++ mm_lt (header_with_lt h lt)) [] []) as Hc.
      feed specialize Hc. { by apply Forall2_app. } { constructor. }
      destruct (compile_segments _ _ _ segs) as [[o1 s1] t1], (compile_segments _ _ _ segs2) as [[o2 s2] t2].
      destruct Hc as [-> Hc]. destruct o2 as [[]|x|p]; [|done..]. destruct (Hc eq_refl) as [Hn Hf].
      split; [done|]. intros tk r. cbn [fst]. rewrite !mining_evaluate_run by done.
      cbn [built_mining em_defaults em_hdr header_with_lt mm_schema].
      destruct (impute _ _ _ _) as [r1|x|p]; [|done..].
      rewrite !header_of_lt. cbn [mm_lt]. rewrite (kind_input E _ _ Hlt).
      destruct (handle_input _ _ _) as [[u'|x|p] r2]; [|done..].
      match goal with |- context [run_method E tk ?x _ s2 _] =>
        assert (∀ ev : nat → emodel → datarow → outcome emodel, run_method E tk x ev s2 r2 = run_method E tk (built_mining dd1 td1 h segs) ev s2 r2) as -> end.
      { intros ev. apply run_method_header.
        - apply Hm.
        - cbn [built_mining em_segs]. symmetry. by eapply Forall2_length.
        - cbn [built_mining em_hdr]. by rewrite !header_of_function.
        - done.
        - done. }
      pose proof (run_method_sim E E (same_world_refl E)
          (λ e1 e2, ∀ tk r, (evaluate E tk e1 r).1 = (evaluate E tk e2 r).1) (λ _ _, True) (λ _ _ _, I)
          (λ i s r, evaluate E (5 :: i :: tk) s r) (λ i s r, evaluate E (5 :: i :: tk) s r)) as Hr'.
      feed specialize Hr'. { intros i e1 e2 r' He. split; [apply He|done]. }
      specialize (Hr' tk tk (built_mining dd1 td1 h segs) s1 s2 r2 Hf) as [Hr' _].
      destruct (run_method _ _ _ _ s1 _) as [[? ?] ?], (run_method _ _ _ _ s2 _) as [[? ?] ?]. exact Hr'.
  Qed.
End kinds.
