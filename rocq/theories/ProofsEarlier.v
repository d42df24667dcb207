(** Transformation dictionaries that give the tested fields the same types (C137). *)
From Verif Require Import Base Strconv Value Doc Expr Pred Tree Regression Model Lib
  SpecPred ProofsPred SpecExpr ProofsExpr SpecConstruct ProofsConstruct ProofsRange
  SpecTree ProofsTree ProofsOutput ProofsEval ProofsDoc ProofsSafe ProofsWhole ProofsSim
  SpecEssence ProofsEssence SpecEquiv ProofsEquiv SpecSegments ProofsSegments SpecEarlier.

Lemma type_given_types dd td f : field_types dd td !! f = type_given dd td f.
Proof.
  unfold field_types, type_given.
  assert (Hdd : (foldl (λ ft df, <[dd_name df := dd_datatype df]> ft) ∅ dd : gmap string string) !! f =
    dd_datatype <$> last (filter (λ x, dd_name x = f) dd)).
  { rewrite dictionary_type. unfold entries. by destruct (last _). }
  rewrite <- Hdd. clear Hdd.
  generalize (foldl (λ ft df, <[dd_name df := dd_datatype df]> ft) ∅ dd : gmap string string). intros m.
  induction td as [|x td IH] using rev_ind; [done|].
  rewrite foldl_app, filter_app, (filter_cons _ x []). cbn [foldl]. destruct (decide (df_name x = f)) as [<-|Hne].
  - by rewrite lookup_insert, filter_nil, last_snoc.
  - rewrite lookup_insert_ne by done. by rewrite filter_nil, app_nil_r.
Qed.

Lemma new_node_local E f1 f2 m : (∀ f, f ∈ node_fields m → f1 !! f = f2 !! f) → new_node E f1 m = new_node E f2 m.
Proof.
  induction m as [id dc sc c ds ns p IH] using mnode_rect'. intros Hf. cbn [node_fields] in Hf. cbn [new_node].
  rewrite (compile_local E f1 f2 p) by set_solver.
  assert (rmap (new_node E f1) ns = rmap (new_node E f2) ns) as ->; [|done].
  assert (Hns : ∀ f, f ∈ concat (map node_fields ns) → f1 !! f = f2 !! f) by set_solver. clear Hf.
  induction IH as [|m ns Hm _ IHn]; [done|]. cbn [rmap map concat] in *.
  rewrite Hm by set_solver. rewrite IHn by set_solver. done.
Qed.

(** accepted alike, with the same additions to the dictionary, and the same answers *)
Definition alike_built (E : Ext) (td1 td2 : list derived_field) (x y : res emodel * list derived_field) : Prop :=
  match x, y with
  | (Ok e1, t1), (Ok e2, t2) => (∃ l, t1 = td1 ++ l ∧ t2 = td2 ++ l) ∧ ∀ tk r, (evaluate E tk e1 r).1 = (evaluate E tk e2 r).1
  | (Err a, _), (Err b, _) => a = b
  | (Panic a, _), (Panic b, _) => a = b
  | _, _ => False
  end.

Section alike.
  Context (E : Ext) (dd : list data_field).
  Notation agree d td1 td2 := (∀ f, f ∈ tested d → field_types dd td1 !! f = field_types dd td2 !! f).

  Lemma types_snoc td1 td2 l fs : (∀ f, f ∈ not_own l fs → field_types dd td1 !! f = field_types dd td2 !! f) →
    ∀ f, f ∈ fs → field_types dd (td1 ++ l) !! f = field_types dd (td2 ++ l) !! f.
  Proof.
    intros H f Hf. apply types_app. destruct (decide (f ∈ map df_name l)) as [|Hn]; [by left|right].
    apply H. by apply elem_of_list_filter.
  Qed.

  Lemma tree_alike t td1 td2 : agree (DTree t) td1 td2 →
    alike_built E td1 td2 (new_model E dd td1 (DTree t)) (new_model E dd td2 (DTree t)).
  Proof.
    intros Ha. destruct (new_model E dd td1 (DTree t)) as [o1 t1] eqn:H1. destruct o1 as [e1|x|x].
    - pose proof (tree_agree E dd dd td1 td2 t (tm_node t) (λ p q, p = q ∧ ∀ f, f ∈ pred_fields p → f ∈ node_fields (tm_node t))) as Hag.
      feed specialize Hag.
      { intros p ? q [<- Hp] Hc. assert (∀ f, f ∈ pred_fields p →
          field_types dd (td1 ++ tm_lt t) !! f = field_types dd (td2 ++ tm_lt t) !! f) as Hft.
        { intros f Hf. by apply (types_snoc _ _ _ _ Ha), Hp. }
        exists q. split; [by rewrite <- (compile_local E _ _ p Hft)|]. intros r. apply run_test_local.
        intros f. rewrite (compile_keeps_fields _ _ _ _ Hc). apply Hft. }
      { done. }
      { by apply (same_nodes_refl _ (λ f, f ∈ node_fields (tm_node t))). }
      destruct (Hag _ _ H1) as (-> & e2 & H2 & He).
      replace (with_node t (tm_node t)) with t in H2 by by destruct t. rewrite H2. simpl. split; [|done]. by exists (tm_lt t).
    - revert H1. cbn [new_model]. unfold new_tree_model, tree_validate. cbn [et_model tm_function et_dd et_ft et_root et_outkeys et_target et_compiled].
      destruct (_ && _); [by intros [= <- <-]|].
      unfold tree_compile. cbn [et_model tm_lt tm_schema tm_node et_dd et_target et_validated et_compiled et_outkeys et_root].
      rewrite (new_node_local E (field_types dd (td2 ++ tm_lt t)) (field_types dd (td1 ++ tm_lt t))).
      2: { intros f Hf. symmetry. by apply (types_snoc _ _ _ _ Ha). }
      destruct (new_node E _ (tm_node t)); [done| |done]. by intros [= <- <-].
    - revert H1. cbn [new_model]. unfold new_tree_model, tree_validate. cbn [et_model tm_function et_dd et_ft et_root et_outkeys et_target et_compiled].
      destruct (_ && _); [done|].
      unfold tree_compile. cbn [et_model tm_lt tm_schema tm_node et_dd et_target et_validated et_compiled et_outkeys et_root].
      rewrite (new_node_local E (field_types dd (td2 ++ tm_lt t)) (field_types dd (td1 ++ tm_lt t))).
      2: { intros f Hf. symmetry. by apply (types_snoc _ _ _ _ Ha). }
      destruct (new_node E _ (tm_node t)); [done|done|]. by intros [= <- <-].
  Qed.

  Lemma model_alike d : ∀ td1 td2, agree d td1 td2 → alike_built E td1 td2 (new_model E dd td1 d) (new_model E dd td2 d).
  Proof.
    induction d as [t|m|k|h segs IH] using doc_rect'; intros td1 td2 Ha.
    - by apply tree_alike.
    - simpl. split; [|done]. exists []. by rewrite !app_nil_r.
    - done.
    - rewrite !new_model_mining. destruct (negb _); [done|]. destruct (List.find _ _); [done|].
      set (below segs := concat (map (λ s, match s with Segment _ _ ms => concat (map tested ms) end) segs)).
      assert (Hs : ∀ u1 u2 a1 a2, (∀ f, f ∈ below segs → field_types dd u1 !! f = field_types dd u2 !! f) →
        Forall2 (λ e1 e2, ∀ tk r, (evaluate E tk e1 r).1 = (evaluate E tk e2 r).1) a1 a2 →
        match compile_segments (new_model E dd) u1 a1 segs, compile_segments (new_model E dd) u2 a2 segs with
        | (Ok _, s1, t1), (Ok _, s2, t2) => (∃ l, t1 = u1 ++ l ∧ t2 = u2 ++ l) ∧
            Forall2 (λ e1 e2, ∀ tk r, (evaluate E tk e1 r).1 = (evaluate E tk e2 r).1) s1 s2
        | (Err a, _, _), (Err b, _, _) => a = b
        | (Panic a, _, _), (Panic b, _, _) => a = b
        | _, _ => False
        end).
      { clear Ha. induction IH as [|[i ps ms] segs Hs _ IHs]; intros u1 u2 a1 a2 Ha Hacc.
        { simpl. split; [|done]. exists []. by rewrite !app_nil_r. }
        cbn [compile_segments]. destruct ms as [|d [|d' ms]]; [done| |done].
        simpl in Hs. apply Forall_cons in Hs as [Hd _]. 
        specialize (Hd u1 u2). feed specialize Hd. { intros f Hf. apply Ha. unfold below. simpl. set_solver. }
        unfold alike_built in Hd.
        destruct (new_model E dd u1 d) as [[e1|x|x] t1], (new_model E dd u2 d) as [[e2|y|y] t2]; try done.
        destruct Hd as [(l & -> & ->) He].
        specialize (IHs (u1 ++ l) (u2 ++ l) (a1 ++ [e1]) (a2 ++ [e2])). feed specialize IHs.
        { intros f Hf. apply types_app. right. apply Ha. unfold below in *. simpl. set_solver. }
        { apply Forall2_app; [done|]. by constructor. }
        destruct (compile_segments _ (u1 ++ l) _ _) as [[[[]|x|x] s1] t1], (compile_segments _ (u2 ++ l) _ _) as [[[[]|y|y] s2] t2]; try done.
        destruct IHs as [(l' & -> & ->) Hf]. split; [|done]. exists (l ++ l'). by rewrite !app_assoc. }
      specialize (Hs (td1 ++ mm_lt h) (td2 ++ mm_lt h) [] []). feed specialize Hs; [|constructor|].
      { intros f Hf. by apply (types_snoc _ _ _ _ Ha). }
      destruct (compile_segments _ (td1 ++ _) _ _) as [[[[]|x|x] s1] t1], (compile_segments _ (td2 ++ _) _ _) as [[[[]|y|y] s2] t2]; try done.
      destruct Hs as [(l & -> & ->) He]. split.
      { exists (mm_lt h ++ l). by rewrite !app_assoc. }
      intros tk r. rewrite !mining_evaluate_run by done.
      cbn [built_mining em_defaults em_hdr]. destruct (impute _ _ _ _) as [r1|x|p]; [|done..].
      destruct (handle_input _ _ _) as [[u'|x|p] r2]; [|done..].
      rewrite (run_method_header E tk _ (built_mining dd td2 h segs)) by done.
      pose proof (run_method_sim E E (same_world_refl E)
          (λ e1 e2, ∀ tk r, (evaluate E tk e1 r).1 = (evaluate E tk e2 r).1) (λ _ _, True) (λ _ _ _, I)
          (λ i s r, evaluate E (5 :: i :: tk) s r) (λ i s r, evaluate E (5 :: i :: tk) s r)) as Hr'.
      feed specialize Hr'. { intros i e1 e2 r' He'. split; [apply He'|done]. }
      specialize (Hr' tk tk (built_mining dd td2 h segs) s1 s2 r2 He) as [Hr' _].
      destruct (run_method _ _ _ _ s1 _) as [[? ?] ?], (run_method _ _ _ _ s2 _) as [[? ?] ?]. exact Hr'.
  Qed.
End alike.
