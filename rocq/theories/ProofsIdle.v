(** Proofs about subtrees that predict one thing, under the strategies that go on through
    the last true child. *)
From Verif Require Import Base Strconv Value Doc Expr Pred Tree Regression Model Lib
  SpecPred ProofsPred SpecTree ProofsTree ProofsOutput ProofsEval ProofsDoc ProofsWhole SpecEquiv ProofsEquiv
  SpecElse ProofsElse ProofsWrap ProofsJoin SpecCollapse ProofsCollapse.

Lemma report_seen E fn tg l1 l2 : seen l1 = seen l2 → report E fn tg l1 = report E fn tg l2.
Proof.
  intros H. unfold report, class_row. destruct (decide _).
  - unfold pick_best. rewrite (pick_best_seen l1 l2 _ (Score "" fzero fzero fzero) eq_refl eq_refl H). do 2 f_equal.
    generalize ({[tg := GStr (sc_value (foldl (λ best s, if fltb (sc_prob best) (sc_prob s) then s else best) (Score "" fzero fzero fzero) l2))]} : row).
    revert l2 H. induction l1 as [|x l1 IH]; intros [|y l2] H a; try done. unfold seen in H. rewrite !fmap_cons in H.
    injection H as Hv Hp H. cbn [foldl]. rewrite Hv, Hp. by apply IH.
  - destruct l1 as [|x l1], l2 as [|y l2]; try done. unfold seen in H. rewrite !fmap_cons in H.
    injection H as Hv Hp H. by rewrite Hv.
Qed.

Lemma collapsed_accepted E dd td t n e td' : tm_notrue t ≠ "returnNullPrediction" →
  collapsed (tm_node t) n → new_model E dd td (DTree t) = (Ok e, td') → ∃ e', new_model E dd td (DTree (with_node t n)) = (Ok e', td').
Proof.
  intros Hnt Hj. cbn [new_model]. unfold new_tree_model, tree_validate, with_node.
  cbn [et_model tm_function et_dd et_ft et_root et_outkeys et_target et_compiled].
  destruct (_ && _); [done|].
  unfold tree_compile. cbn [et_model tm_lt tm_schema tm_node et_dd et_target et_validated et_compiled et_outkeys et_root
    tm_function tm_strategy tm_penalty tm_notrue tm_verification].
  destruct (new_node E _ (tm_node t)) as [n1|x|p] eqn:H1; [|done..]. intros [= <- <-].
  set (ft := field_types dd (td ++ tm_lt t)) in *.
  destruct (collapsed_nodes E (Tctx ft dd "" fzero (tm_notrue t)) None Hnt _ _ _ Hj H1) as (n2 & Hn2 & _).
  change (cx_ft (Tctx ft dd "" fzero (tm_notrue t))) with ft in Hn2. rewrite Hn2. eauto.
Qed.

Lemma collapsed_says m1 m2 : collapsed m1 m2 → says m1 = says m2.
Proof. by intros []. Qed.
Lemma collapsed_pred m1 m2 : collapsed m1 m2 → m_pred m1 = m_pred m2.
Proof. by intros []. Qed.

(** what holds of the nodes and depends on predicate and prediction only is kept *)
Lemma collapsed_everywhere (P : mnode → Prop) (HP : ∀ a b, says a = says b → m_pred a = m_pred b → P a → P b) m1 : ∀ m2,
  collapsed m1 m2 → everywhere_doc P m1 → everywhere_doc P m2.
Proof.
  induction m1 as [id dc sc c ds ns p IH] using mnode_rect'. intros m2 Hco He.
  inversion He as [? Hh Hk]; subst. inversion Hco as [? ? ? ? ? ? ? Hop|? ? ? ? ? ? ns2 ? Hns]; subst.
  - constructor; [by eapply HP, Hh|]. constructor.
  - constructor; [by eapply HP, Hh|]. simpl in *. rewrite Forall_forall in Hk. apply Forall_forall. intros b Hb. apply elem_of_list_lookup in Hb as [i Hb].
    destruct (Forall2_lookup_r _ _ _ _ _ Hns Hb) as (a & Ha & Hab). rewrite Forall_forall in IH.
    assert (a ∈ ns) by (by eapply elem_of_list_lookup_2). eapply IH; [|done|]; auto.
Qed.

Section late.
  Context (truth : mnode → presult → Prop).
  Context (Hpred : ∀ m1 m2 v, m_pred m1 = m_pred m2 → truth m1 v → truth m2 v).

  Lemma late_below m leaf : descend_late m_nodes truth m leaf → leaf ∈ doc_nodes m.
  Proof.
    induction 1 as [[id dc sc c ds ns p] _|[id dc sc c ds ns p] l1 k l2 leaf Hk _ _ _ IH]; [simpl; left|].
    cbn [doc_nodes]. right. simpl in Hk. subst ns. rewrite map_app, concat_app, elem_of_app. right. simpl. rewrite elem_of_app. by left.
  Qed.

  Lemma collapsed_late m1 : ∀ m2 l1, collapsed m1 m2 → descend_late m_nodes truth m1 l1 →
    ∃ l2, descend_late m_nodes truth m2 l2 ∧ says l1 = says l2.
  Proof.
    induction m1 as [id dc sc c ds ns p IH] using mnode_rect'. intros m2 leaf Hco Hd.
    inversion Hco as [? ? ? ? ? ? ? Hop|? ? ? ? ? ? ns2 ? Hns]; subst.
    - eexists. split; [apply late_stop; simpl; by intros ? ?%elem_of_nil|].
      destruct (Hop _ (late_below _ _ Hd)) as [-> _]. done.
    - inversion Hd as [? Hn|? l1 k l2 ? Hk Hl Hc Hd']; subst; simpl in *.
      + eexists. split; [apply late_stop; simpl|done]. intros b Hb Ht. apply elem_of_list_lookup in Hb as [i Hb].
        destruct (Forall2_lookup_r _ _ _ _ _ Hns Hb) as (a & Ha & Hab).
        apply (Hn a); [by eapply elem_of_list_lookup_2|]. eapply Hpred; [|exact Ht]. symmetry. by apply collapsed_pred.
      + subst ns. apply Forall2_app_inv_l in Hns as (a1 & a2 & H1 & H2 & ->).
        inversion H2 as [|? k' ? l2' Hkk Hll]; subst.
        rewrite Forall_forall in IH. destruct (IH k ltac:(set_solver) _ _ Hkk Hd') as (leaf' & Hd2 & Hs).
        exists leaf'. split; [|done]. eapply late_step; [done| | |done].
        * intros b Hb Ht. apply elem_of_list_lookup in Hb as [i Hb].
          destruct (Forall2_lookup_r _ _ _ _ _ Hll Hb) as (a & Ha & Hab).
          apply (Hl a); [by eapply elem_of_list_lookup_2|]. eapply Hpred; [|exact Ht]. symmetry. by apply collapsed_pred.
        * eapply Hpred; [|exact Hc]. by apply collapsed_pred.
  Qed.

  Lemma null_inside m leaf : descend_null m_nodes truth m leaf → leaf ∈ doc_nodes m.
  Proof.
    induction 1 as [[id dc sc c ds ns p] _|[id dc sc c ds ns p] l1 k l2 leaf Hk _ _ _ IH]; [simpl; left|].
    cbn [doc_nodes]. right. simpl in Hk. subst ns. rewrite map_app, concat_app, elem_of_app. right. simpl. rewrite elem_of_app. by left.
  Qed.

  Lemma collapsed_null m1 : ∀ m2 l1, collapsed m1 m2 → descend_null m_nodes truth m1 l1 →
    ∃ l2, descend_null m_nodes truth m2 l2 ∧ says l1 = says l2.
  Proof.
    induction m1 as [id dc sc c ds ns p IH] using mnode_rect'. intros m2 leaf Hco Hd.
    inversion Hco as [? ? ? ? ? ? ? Hop|? ? ? ? ? ? ns2 ? Hns]; subst.
    - eexists. split; [apply null_stop; simpl; by intros ? ?%elem_of_nil|].
      destruct (Hop _ (null_inside _ _ Hd)) as [-> _]. done.
    - inversion Hd as [? Hn|? l1 k l2 ? Hk Hl Hc Hd']; subst; simpl in *.
      + eexists. split; [apply null_stop; simpl|done]. intros b Hb. apply elem_of_list_lookup in Hb as [i Hb].
        destruct (Forall2_lookup_r _ _ _ _ _ Hns Hb) as (a & Ha & Hab).
        eapply Hpred; [|apply (Hn a); by eapply elem_of_list_lookup_2]. by apply collapsed_pred.
      + subst ns. apply Forall2_app_inv_l in Hns as (a1 & a2 & H1 & H2 & ->).
        inversion H2 as [|? k' ? l2' Hkk Hll]; subst.
        rewrite Forall_forall in IH. destruct (IH k ltac:(set_solver) _ _ Hkk Hd') as (leaf' & Hd2 & Hs).
        exists leaf'. split; [|done]. eapply null_step; [done| | |done].
        * intros b Hb. apply elem_of_list_lookup in Hb as [i Hb].
          destruct (Forall2_lookup_r _ _ _ _ _ H1 Hb) as (a & Ha & Hab).
          eapply Hpred; [|apply (Hl a); by eapply elem_of_list_lookup_2]. by apply collapsed_pred.
        * eapply Hpred; [|exact Hc]. by apply collapsed_pred.
  Qed.
End late.

Lemma dist_said dd t a b : tm_notrue t ≠ "returnNullPrediction" → says a = says b → node_dist dd t a ≠ [] → node_dist dd t b ≠ [].
Proof.
  intros Hnt Hs H Hb. unfold node_dist in *. pose proof (seen_says dd (target_field (tm_schema t)) _ _ _ Hnt Hs) as Hx. rewrite Hb in Hx.
  apply H. by apply fmap_nil_inv in Hx.
Qed.
