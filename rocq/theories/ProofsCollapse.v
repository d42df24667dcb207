(** Proofs about subtrees that predict one thing. *)
From Verif Require Import Base Strconv Value Doc Expr Pred Tree Regression Model Lib
  SpecPred ProofsPred SpecExpr ProofsExpr SpecConstruct ProofsConstruct ProofsRange
  SpecTree ProofsTree ProofsOutput ProofsEval ProofsDoc ProofsSafe ProofsWhole ProofsSim
  SpecEssence ProofsEssence SpecEquiv ProofsEquiv ProofsPrune SpecCollapse.

(** the part of the scores Evaluate reports *)
Definition seen (l : list score) : list (string * f64) := (λ s, (sc_value s, sc_prob s)) <$> l.

Lemma pick_best_seen l1 : ∀ l2 a b, sc_value a = sc_value b → sc_prob a = sc_prob b → seen l1 = seen l2 →
  sc_value (foldl (λ best s, if fltb (sc_prob best) (sc_prob s) then s else best) a l1) =
  sc_value (foldl (λ best s, if fltb (sc_prob best) (sc_prob s) then s else best) b l2).
Proof.
  induction l1 as [|x l1 IH]; intros [|y l2] a b Ha Hb H; try done. unfold seen in H. rewrite !fmap_cons in H.
  injection H as Hv Hp H. cbn [foldl]. rewrite Hb, Hp. destruct (fltb _ _); by apply IH.
Qed.
Lemma out_steps_seen l1 : ∀ l2 acc, seen l1 = seen l2 → foldl out_step acc l1 = foldl out_step acc l2.
Proof.
  induction l1 as [|x l1 IH]; intros [|y l2] acc H; try done. unfold seen in H. rewrite !fmap_cons in H.
  injection H as Hv Hp H. cbn [foldl]. assert (out_step acc x = out_step acc y) as ->; [|by apply IH].
  unfold out_step. destruct acc as [out keys]. by rewrite Hv, Hp.
Qed.
Lemma tree_output_seen E t1 t2 l1 l2 :
  tm_function (et_model t1) = tm_function (et_model t2) → et_target t1 = et_target t2 → et_outkeys t1 = et_outkeys t2 →
  seen l1 = seen l2 → (tree_output E t1 l1).1 = (tree_output E t2 l2).1.
Proof.
  intros Hf Ht Hk Hl. unfold tree_output. rewrite Hf, Ht, Hk.
  destruct (_ =s "classification").
  { unfold pick_best. rewrite (pick_best_seen l1 l2 _ (Score "" fzero fzero fzero) eq_refl eq_refl Hl), (out_steps_seen l1 l2 _ Hl).
    by destruct (foldl out_step _ _). }
  destruct (_ =s "regression"); [|done]. simpl. destruct l1 as [|x l1], l2 as [|y l2]; try done.
  unfold seen in Hl. rewrite !fmap_cons in Hl. injection Hl as Hv _ _. by rewrite Hv.
Qed.

Lemma seen_says dd tg nt m1 m2 : nt ≠ "returnNullPrediction" → says m1 = says m2 →
  seen (doc_dist dd tg nt m1) = seen (doc_dist dd tg nt m2).
Proof.
  intros Hnt H. unfold doc_dist. rewrite !(decide_False (P := _ ∧ nt = _)) by naive_solver.
  unfold says in H. destruct (decide (m_dists m1 = [])) as [H1|H1], (decide (m_dists m2 = [])) as [H2|H2].
  - injection H as H. rewrite !(decide_False (P := _ ≠ [])) by (intros Hx; by apply Hx). destruct (decide (tg = "")); [simpl; by rewrite H|].
    unfold seen. rewrite <- !list_fmap_compose, H. apply list_fmap_ext. intros i v. simpl. by destruct (decide _).
  - by destruct (m_dists m2).
  - by destruct (m_dists m1).
  - rewrite !decide_True by done. unfold seen. rewrite <- !list_fmap_compose.
    apply (f_equal (fmap (λ x : string * option f64, (x.1, default fzero x.2)))) in H. rewrite <- !list_fmap_compose in H.
    exact H.
Qed.

(** ** Subtrees *)
Section subtree.
  Context (E : Ext) (cx : tctx) (r : datarow).
  Notation ft := (cx_ft cx).
  Context (Hnt : cx_notrue cx ≠ "returnNullPrediction").

  Definition alike_scores (a b : res (list score * presult)) : Prop :=
    match a, b with
    | Ok (s1, v1), Ok (s2, v2) => v1 = v2 ∧ seen s1 = seen s2
    | Err x, Err y => x = y
    | Panic x, Panic y => x = y
    | _, _ => False
    end.

  (** whichever node of the subtree is reached, its prediction is the same *)
  Lemma one_prediction w m : ∀ n, new_node E ft m = Ok n →
    (∀ c, c ∈ doc_nodes m → says c = says w ∧ m_pred c ≠ PNone) →
    ∃ s v, eval_none E cx r n = Ok (s, v) ∧ v ≠ RU ∧
      (v = RT → seen s = seen (doc_dist (cx_dd cx) (cx_target cx) (cx_notrue cx) w)).
  Proof.
    induction m as [id dc sc c ds ns p IH] using mnode_rect'. intros n Hn Hall.
    pose proof (output_dist_doc E ft cx _ _ Hn) as Hd. destruct (Hall _ ltac:(simpl; left)) as [Hs Hp]. simpl in Hp.
    revert Hn Hd. cbn [new_node].
    intros (cs & Hcs & (q & Hq & [= <-])%rbind_ok)%rbind_ok Hd. cbn [eval_none].
    destruct (run_test_total E ft r p q Hq Hp) as [v ->]. cbn [rbind].
    destruct v; [by eexists _, _| |by eexists _, _].
    assert (∀ d, ∃ s v, first_true (eval_none E cx r) (d, RT) cs = Ok (s, v) ∧ v = RT ∧
      (s = d ∨ seen s = seen (doc_dist (cx_dd cx) (cx_target cx) (cx_notrue cx) w))) as Hcases.
    { intros d. assert (∀ c, c ∈ concat (map doc_nodes ns) → says c = says w ∧ m_pred c ≠ PNone) as Hbelow.
      { intros c0 Hc0. apply Hall. cbn [doc_nodes]. by right. }
      clear -IH Hcs Hbelow. revert cs Hcs. induction ns as [|m ns IHns]; intros cs Hcs.
      - simpl in Hcs. injection Hcs as <-. eexists _, _. split; [done|]. split; [done|]. by left.
      - cbn [rmap] in Hcs. apply rbind_ok in Hcs as (x & Hx & (xs & Hxs & [= <-])%rbind_ok).
        apply Forall_cons in IH as [IHm IH]. cbn [map concat] in Hbelow. cbn [first_true].
        destruct (IHm x Hx) as (s & v & Hev & Hv & Hseen). { intros c Hc. apply Hbelow, elem_of_app. by left. }
        rewrite Hev. cbn [rbind]. destruct v; [done| |].
        + eexists _, _. split; [done|]. split; [done|]. right. by apply Hseen.
        + apply IHns; [done| |done]. intros c Hc. apply Hbelow, elem_of_app. by right. }
    match goal with |- context [output_dist cx ?n] => destruct (Hcases (output_dist cx n)) as (s & v & -> & -> & Hseen) end.
    eexists _, _. split; [done|]. split; [done|]. intros _. destruct Hseen as [-> |Hseen]; [|done].
    rewrite Hd. by apply seen_says.
  Qed.

  Lemma collapsed_nodes m1 : ∀ m2 n1, collapsed m1 m2 → new_node E ft m1 = Ok n1 →
    ∃ n2, new_node E ft m2 = Ok n2 ∧ alike_scores (eval_none E cx r n1) (eval_none E cx r n2).
  Proof.
    induction m1 as [id dc sc c ds ns p IH] using mnode_rect'. intros m2 n1 Hco Hn.
    inversion Hco as [? ? ? ? ? ? ? Hop|? ? ? ? ? ? ns2 ? Hns]; subst; clear Hco.
    - pose proof (one_prediction (MNode id dc sc c ds ns p) (MNode id dc sc c ds ns p) n1 Hn Hop) as (s & v & He & Hv & Hs).
      revert Hn He. cbn [new_node]. intros (cs & Hcs & (q & Hq & [= <-])%rbind_ok)%rbind_ok. rewrite Hq. cbn [rmap rbind].
      intros He. eexists. split; [done|]. rewrite He. revert He. cbn [eval_none].
      destruct (run_test E (cx_ft cx) q r) as [[| |]|x|y]; cbn [rbind]; [by intros [= <- <-]| |by intros [= <- <-]|done|done].
      cbn [first_true]. intros Hf. assert (v = RT) as ->.
      { clear -Hf. revert Hf. generalize (output_dist cx (Node id dc cs (convert_dists ds) q (Score sc fzero fzero c))) as d. intros d.
        induction cs as [|x cs IH]; cbn [first_true]; [by intros [= _ <-]|].
        destruct (eval_none E cx r x) as [[s' [| |]]| |]; cbn [rbind]; try done. by intros [= _ <-]. }
      split; [done|]. rewrite (Hs eq_refl).
      rewrite (output_dist_doc E ft cx (MNode id dc sc c ds [] p)) by (unfold compiled_to; cbn [new_node rmap rbind]; by rewrite Hq).
      by apply seen_says.
    - revert Hn. cbn [new_node]. intros (cs & Hcs & (q & Hq & [= <-])%rbind_ok)%rbind_ok. rewrite Hq.
      assert (∃ cs2, rmap (new_node E ft) ns2 = Ok cs2 ∧ ∀ d1 d2, seen d1 = seen d2 →
        alike_scores (first_true (eval_none E cx r) (d1, RT) cs) (first_true (eval_none E cx r) (d2, RT) cs2)) as (cs2 & Hcs2 & Hft2).
      { clear -IH Hns Hcs. revert cs Hcs. induction Hns as [|a b l1 l2 Hab _ IHl]; intros cs Hcs.
        - simpl in Hcs. injection Hcs as <-. exists []. by split.
        - apply Forall_cons in IH as [IHa IH]. cbn [rmap] in Hcs |- *.
          apply rbind_ok in Hcs as (x & Hx & (xs & Hxs & [= <-])%rbind_ok).
          destruct (IHa _ _ Hab Hx) as (y & -> & Hy). destruct (IHl IH _ Hxs) as (ys & -> & Hys).
          exists (y :: ys). split; [done|]. intros d1 d2 Hd. cbn [first_true].
          destruct (eval_none E cx r x) as [[s1 v1]| |], (eval_none E cx r y) as [[s2 v2]| |]; try done.
          destruct Hy as [-> Hs]. cbn [rbind]. destruct v2; try done; by apply Hys. }
      rewrite Hcs2. cbn [rbind]. eexists. split; [done|]. cbn [eval_none].
      destruct (run_test E (cx_ft cx) q r) as [[| |]|x|y]; cbn [rbind]; try done. apply Hft2.
      rewrite (output_dist_doc E ft cx (MNode id dc sc c ds ns p)) by (unfold compiled_to; cbn [new_node]; by rewrite Hcs; cbn [rbind]; rewrite Hq).
      rewrite (output_dist_doc E ft cx (MNode id dc sc c ds ns2 p)) by (unfold compiled_to; cbn [new_node]; by rewrite Hcs2; cbn [rbind]; rewrite Hq).
      by apply seen_says.
  Qed.
End subtree.

Lemma node_evaluate_plain E cx st r tk n :
  st ∉ ["nullPrediction"; "aggregateNodes"; "weightedConfidence"; "defaultChild"; "lastPrediction"] →
  node_evaluate E cx st r tk n = eval_none E cx r n.
Proof. intros H. unfold node_evaluate. repeat case_str; try done; exfalso; apply H; set_solver. Qed.

Lemma simplified_stands_in E dd d1 d2 : simplified d1 d2 → stands_in E dd dd d1 d2.
Proof.
  apply rewritten_stands_in. intros t1 t2 [<-|[t n [[Hst Hnt] Hco]]]; [apply stands_in_refl|].
  intros td e td'. cbn [new_model]. unfold new_tree_model, tree_validate, with_node.
  cbn [et_model tm_function et_dd et_ft et_root et_outkeys et_target et_compiled].
  destruct (_ && _); [done|].
  unfold tree_compile. cbn [et_model tm_lt tm_schema tm_node et_dd et_target et_validated et_compiled et_outkeys et_root
    tm_function tm_strategy tm_penalty tm_notrue tm_verification].
  destruct (new_node E _ (tm_node t)) as [n1|x|p] eqn:H1; [|done..]. intros [= <- <-].
  set (ft := field_types dd (td ++ tm_lt t)) in *. set (tg := target_of "" (mf_defaults <$> tm_schema t)).
  set (cx := Tctx ft dd tg (tm_penalty t) (tm_notrue t)).
  destruct (collapsed_nodes E cx None Hnt _ _ _ Hco H1) as (n2 & Hn2 & _). change (cx_ft cx) with ft in Hn2. rewrite Hn2.
  eexists. split; [done|]. intros tk r. cbn [evaluate]. unfold tree_evaluate.
  cbn [et_validated et_compiled negb et_model tm_lt tm_strategy tm_schema et_root].
  destruct (handle_input E (tm_lt t) r) as [[u|x|p] r0]; [|done..].
  unfold tree_ctx. cbn [et_ft et_dd et_target et_model tm_penalty tm_notrue]. fold cx.
  rewrite !node_evaluate_plain by done.
  destruct (collapsed_nodes E cx r0 Hnt _ _ _ Hco H1) as (n2' & Hn2' & Ha). change (cx_ft cx) with ft in Hn2'.
  rewrite Hn2 in Hn2'. injection Hn2' as <-.
  destruct (eval_none E cx r0 n1) as [[s1 v1]| |], (eval_none E cx r0 n2) as [[s2 v2]| |]; try done; try (simpl in Ha; by subst).
  destruct Ha as [-> Ha]. destruct v2; try done.
  match goal with |- context [tree_output E ?a s1] => match goal with |- context [tree_output E ?b s2] =>
    pose proof (tree_output_seen E a b s1 s2 eq_refl eq_refl eq_refl Ha) as Ho end end.
  destruct (tree_output E _ s1) as [o1 k1], (tree_output E _ s2) as [o2 k2]. simpl in *. by rewrite Ho.
Qed.
