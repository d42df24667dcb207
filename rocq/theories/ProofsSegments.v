(** Segments that leave each other alone predict as they do on their own. *)
From Verif Require Import Base Strconv Value Doc Expr Pred Tree Regression Model Lib
  SpecPred ProofsPred SpecExpr ProofsExpr SpecConstruct ProofsConstruct ProofsRange
  SpecTree ProofsTree ProofsOutput ProofsEval ProofsDoc ProofsSafe ProofsWhole ProofsSim
  SpecEssence ProofsEssence SpecEquiv ProofsEquiv SpecModel SpecRename SpecSegments ProofsMining
  PropertiesModel PropertiesRename.

(** ** What NewModel takes from the transformation dictionary *)
Lemma types_app dd td1 td2 l f :
  f ∈ map df_name l ∨ field_types dd td1 !! f = field_types dd td2 !! f →
  field_types dd (td1 ++ l) !! f = field_types dd (td2 ++ l) !! f.
Proof.
  unfold field_types. rewrite !foldl_app.
  generalize (foldl (λ ft df, <[df_name df := df_datatype df]> ft)
    (foldl (λ ft df, <[dd_name df := dd_datatype df]> ft) ∅ dd) td1 : gmap string string).
  generalize (foldl (λ ft df, <[df_name df := df_datatype df]> ft)
    (foldl (λ ft df, <[dd_name df := dd_datatype df]> ft) ∅ dd) td2 : gmap string string).
  induction l as [|x l IH]; intros m2 m1 H; simpl.
  { destruct H as [H|H]; [by apply elem_of_nil in H|done]. }
  apply IH. destruct (decide (df_name x = f)) as [<-|Hne]; [right; by rewrite !lookup_insert|].
  rewrite !lookup_insert_ne by done. destruct H as [H|H]; [|by right].
  simpl in H. apply elem_of_cons in H as [->|H]; [done|by left].
Qed.

Lemma node_reads_fields n : node_reads n = node_fields n.
Proof. done. Qed.

Lemma td_agree E dd d : ∀ td1 td2 e1 td1',
  (∀ f, f ∈ doc_inputs d → field_types dd td1 !! f = field_types dd td2 !! f) →
  new_model E dd td1 d = (Ok e1, td1') →
  td1' = td1 ++ doc_locals d ∧
  ∃ e2, new_model E dd td2 d = (Ok e2, td2 ++ doc_locals d) ∧
        ∀ tk r, (evaluate E tk e1 r).1 = (evaluate E tk e2 r).1.
Proof.
  induction d as [t|m|k|h segs IH] using doc_rect'; intros td1 td2 e1 td1' Hf Hn.
  - replace (DTree t) with (DTree (with_node t (tm_node t))) by by destruct t.
    set (F f := field_types dd (td1 ++ tm_lt t) !! f = field_types dd (td2 ++ tm_lt t) !! f).
    apply (tree_agree E dd dd td1 td2 t (tm_node t) (λ p q, p = q ∧ ∀ f, f ∈ pred_fields p → F f)).
    + intros p ? q [<- Hp] Hc. exists q. split; [by rewrite <- (compile_local E _ _ p Hp)|].
      intros r. apply run_test_local. intros f. rewrite (compile_keeps_fields _ _ _ _ Hc). apply Hp.
    + done.
    + apply (same_nodes_refl _ F); [done|]. intros f Hfn. apply types_app.
      destruct (decide (f ∈ map df_name (tm_lt t))) as [|Hd]; [by left|right]. apply Hf. cbn [doc_inputs].
      apply elem_of_app. right. apply elem_of_list_filter. split; [done|]. by rewrite node_reads_fields.
    + done.
  - simpl in *. injection Hn as <- <-. split; [by rewrite app_nil_r|]. rewrite app_nil_r. eauto.
  - done.
  - revert Hn. rewrite new_model_mining. destruct (negb _) eqn:Hmeth; [done|].
    destruct (List.find _ _) eqn:Hfind; [done|].
    destruct (compile_segments (new_model E dd) _ _ _) as [[[[]|x|p] s1] t1] eqn:Hc; try done.
    intros [= <- <-].
    assert (∀ segs' a1 a2 td1 td2 s1 t1,
      Forall (λ s, Forall (λ d, ∀ td1 td2 e1 td1',
        (∀ f, f ∈ doc_inputs d → field_types dd td1 !! f = field_types dd td2 !! f) →
        new_model E dd td1 d = (Ok e1, td1') →
        td1' = td1 ++ doc_locals d ∧
        ∃ e2, new_model E dd td2 d = (Ok e2, td2 ++ doc_locals d) ∧
              ∀ tk r, (evaluate E tk e1 r).1 = (evaluate E tk e2 r).1) (sg_models s)) segs' →
      (∀ f, f ∈ concat (map (λ s, match s with Segment _ _ ms => concat (map doc_inputs ms) end) segs') →
         field_types dd td1 !! f = field_types dd td2 !! f) →
      Forall2 (λ e1 e2, ∀ tk r, (evaluate E tk e1 r).1 = (evaluate E tk e2 r).1) a1 a2 →
      compile_segments (new_model E dd) td1 a1 segs' = (Ok tt, s1, t1) →
      t1 = td1 ++ concat (map (λ s, concat (map doc_locals (sg_models s))) segs') ∧
      ∃ s2, compile_segments (new_model E dd) td2 a2 segs' =
          (Ok tt, s2, td2 ++ concat (map (λ s, concat (map doc_locals (sg_models s))) segs')) ∧
        Forall2 (λ e1 e2, ∀ tk r, (evaluate E tk e1 r).1 = (evaluate E tk e2 r).1) s1 s2) as Hsegs.
    { clear. intros segs a1 a2 td1 td2 s1 t1 IH. revert a1 a2 td1 td2 s1 t1.
      induction IH as [|[i ps ms] segs Hs _ IHl]; intros a1 a2 td1 td2 s1 t1 Hf Ha Hc.
      { simpl in *. injection Hc as <- <-. rewrite !app_nil_r. eauto. }
      cbn [compile_segments] in Hc |- *. simpl in Hs. destruct ms as [|d [|]]; [done| |done].
      destruct (new_model E dd td1 d) as [[e1|x|p] td1'] eqn:H1; try done.
      rewrite Forall_singleton in Hs. destruct (Hs td1 td2 e1 td1') as (-> & e2 & -> & He); [|done|].
      { intros f Hfd. apply Hf. simpl. set_solver. }
      assert (∀ f, f ∈ concat (map (λ s, match s with Segment _ _ ms => concat (map doc_inputs ms) end) segs) →
        field_types dd (td1 ++ doc_locals d) !! f = field_types dd (td2 ++ doc_locals d) !! f) as Hf'.
      { intros f Hfl. apply types_app. right. apply Hf. simpl. set_solver. }
      assert (Forall2 (λ e1 e2, ∀ tk r, (evaluate E tk e1 r).1 = (evaluate E tk e2 r).1) (a1 ++ [e1]) (a2 ++ [e2])) as Ha'.
      { apply Forall2_app; [done|]. by constructor. }
      destruct (IHl _ _ _ _ _ _ Hf' Ha' Hc) as (-> & s2 & -> & Hs2).
      split; [simpl; by rewrite app_nil_r, app_assoc|]. exists s2. split; [|done]. simpl. by rewrite app_nil_r, app_assoc. }
    destruct (Hsegs segs [] [] (td1 ++ mm_lt h) (td2 ++ mm_lt h) s1 t1 IH) as (-> & s2 & Hc2 & He); [|constructor|done|].
    { intros f Hfs. apply types_app. destruct (decide (f ∈ map df_name (mm_lt h))) as [|Hd]; [by left|right].
      apply Hf. cbn [doc_inputs]. apply elem_of_app. right. apply elem_of_list_filter. by split. }
    split; [cbn [doc_locals]; by rewrite app_assoc|].
    rewrite new_model_mining, Hmeth, Hfind, Hc2.
    eexists. split; [cbn [doc_locals]; by rewrite app_assoc|]. intros tk r. rewrite !mining_evaluate_run by done.
    cbn [built_mining em_defaults em_hdr]. destruct (impute _ _ _ _) as [r1|x|p]; [|done..].
    destruct (handle_input _ _ _) as [[u'|x|p] r2]; [|done..].
    rewrite (run_method_header E tk _ (built_mining dd td2 h segs)); [|done..].
    pose proof (run_method_sim E E (same_world_refl E)
        (λ e1 e2, ∀ tk r, (evaluate E tk e1 r).1 = (evaluate E tk e2 r).1) (λ _ _, True) (λ _ _ _, I)
        (λ i s r, evaluate E (5 :: i :: tk) s r) (λ i s r, evaluate E (5 :: i :: tk) s r)) as Hr'.
    feed specialize Hr'. { intros i e1 e2 r' He'. split; [apply He'|done]. }
    specialize (Hr' tk tk (built_mining dd td2 h segs) s1 s2 r2 He) as [Hr' _].
    destruct (run_method _ _ _ _ s1 _) as [[? ?] ?], (run_method _ _ _ _ s2 _) as [[? ?] ?]. exact Hr'.
Qed.

(** ** Segments next to each other *)
Section alone.
  Context (E : Ext) (dd : list data_field) (td : list derived_field).

  (** the segment's evaluator in the ensemble, and the one built without the others *)
  Definition pair (s : segment doc_model) (e a : emodel) : Prop :=
    ∃ d tdc td1 td2, sg_models s = [d] ∧ new_model E dd tdc d = (Ok e, td1) ∧
      new_model E dd td d = (Ok a, td2) ∧ ∀ tk r, (evaluate E tk e r).1 = (evaluate E tk a r).1.

  Definition needs (segs : list (segment doc_model)) (f : string) : Prop :=
    ∃ s d, s ∈ segs ∧ d ∈ sg_models s ∧ f ∈ doc_inputs d.

  Lemma concat_map_in {A B} (f : A → list B) l y : y ∈ concat (map f l) ↔ ∃ x, x ∈ l ∧ y ∈ f x.
  Proof.
    rewrite elem_of_list_In, in_concat. split.
    - intros (l' & (x & <- & Hx)%in_map_iff & Hy). exists x. by rewrite !elem_of_list_In.
    - intros (x & Hx & Hy). exists (f x). rewrite !elem_of_list_In in *. split; [by apply in_map|done].
  Qed.

  Lemma locals_in d x : x ∈ doc_locals d →
    (∃ t, t ∈ doc_trees d ∧ x ∈ tm_lt t) ∨ (∃ h, h ∈ doc_headers d ∧ x ∈ mm_lt h).
  Proof.
    induction d as [t|m|k|h segs IH] using doc_rect'; cbn [doc_locals doc_trees doc_headers].
    - left. exists t. split; [set_solver|done].
    - by intros ?%elem_of_nil.
    - by intros ?%elem_of_nil.
    - intros [H|(s & Hs & (d & Hd & Hx)%concat_map_in)%concat_map_in]%elem_of_app; [right; exists h; set_solver|].
      rewrite Forall_forall in IH. specialize (IH s Hs). rewrite Forall_forall in IH.
      destruct (IH d Hd Hx) as [(t & Ht & Hxt)|(h' & Hh & Hxh)].
      + left. exists t. split; [|done]. apply concat_map_in. exists s. split; [done|]. apply concat_map_in. eauto.
      + right. exists h'. split; [|done]. apply elem_of_cons. right. apply concat_map_in. exists s. split; [done|].
        apply concat_map_in. eauto.
  Qed.

  Lemma locals_written d f : f ∈ map df_name (doc_locals d) → f ∈ written_names dd d.
  Proof.
    intros (x & -> & Hx)%elem_of_list_fmap. unfold written_names.
    destruct (locals_in d x Hx) as [(t & Ht & Hxt)|(h & Hh & Hxh)].
    - apply elem_of_app. left. apply concat_map_in. exists t. split; [done|]. by apply elem_of_list_fmap_1.
    - apply elem_of_app. right. apply elem_of_app. left. apply concat_map_in. exists h. split; [done|].
      by apply elem_of_list_fmap_1.
  Qed.

  Lemma undisturbed_cons s segs : undisturbed dd (s :: segs) →
    undisturbed dd segs ∧
    ∀ d f, d ∈ sg_models s → needs segs f → f ∉ written_names dd d.
  Proof.
    intros Hu. split.
    - intros l1 s' l2 s'' d d' f -> Hs''. apply (Hu (s :: l1) s' l2 s''); [done|by right].
    - intros d f Hd (s' & d' & Hs' & Hd' & Hf). apply elem_of_list_split in Hs' as (l1 & l2 & ->).
      apply (Hu (s :: l1) s' l2 s d' d f); [done|by left|done..].
  Qed.

  Lemma types_untouched tdc l f : f ∉ map df_name l → field_types dd (tdc ++ l) !! f = field_types dd tdc !! f.
  Proof.
    unfold field_types. rewrite foldl_app.
    generalize (foldl (λ ft df, <[df_name df := df_datatype df]> ft)
      (foldl (λ ft df, <[dd_name df := dd_datatype df]> ft) ∅ dd) tdc : gmap string string).
    induction l as [|x l IH]; intros m H; simpl; [done|]. simpl in H. apply not_elem_of_cons in H as [H1 H2].
    rewrite IH by done. by rewrite lookup_insert_ne.
  Qed.

  Lemma alone_built segs : ∀ tdc es, segment_models E dd tdc segs es →
    (∀ f, needs segs f → field_types dd tdc !! f = field_types dd td !! f) → undisturbed dd segs →
    ∃ als, Forall3 pair segs es als.
  Proof.
    intros tdc es H. induction H as [tdc|tdc s segs d e es td1 Hd Hn H IH]; intros Ht Hu; [exists []; constructor|].
    apply undisturbed_cons in Hu as [Hu Hw].
    destruct (td_agree E dd d tdc td e td1) as (-> & a & Ha & He); [|done|].
    { intros f Hf. apply Ht. exists s, d. rewrite Hd. set_solver. }
    destruct IH as [als Hals]; [|done|].
    { intros f Hf. rewrite types_untouched.
      - apply Ht. destruct Hf as (s' & d' & Hs' & Hf). exists s', d'. split; [by right|done].
      - intros Hl%locals_written. apply (Hw d f); [rewrite Hd; set_solver|done..]. }
    exists (a :: als). constructor; [|done]. exists d, tdc, (tdc ++ doc_locals d), (td ++ doc_locals d). done.
  Qed.

  Lemma same_inputs s e a tk m1 m2 : pair s e a → (∀ f, needs [s] f → m1 !! f = m2 !! f) →
    (evaluate E tk e (Some m1)).1.1 = (evaluate E tk a (Some m2)).1.1.
  Proof.
    intros (d & tdc & td1 & td2 & Hd & He & _ & Hea) Hf. rewrite <- Hea.
    apply (C88_inputs E dd tdc d e td1 [] [] tk (Some m1) (Some m2) He); [done|].
    intros f Hfd. apply Hf. exists s, d. rewrite Hd. set_solver.
  Qed.

  Lemma alone_run segs es als : Forall3 pair segs es als → ∀ rest tks mc m outs,
    undisturbed dd (segs ++ rest) →
    (∀ f, needs (segs ++ rest) f → mc !! f = m !! f) →
    Forall3 (λ tk a out, (evaluate E tk a (Some m)).1.1 = Ok out) tks als outs →
    ∃ m', seg_outputs E tks es mc outs m' ∧ ∀ f, needs rest f → m' !! f = m !! f.
  Proof.
    induction 1 as [|s e a segs es als Hp H IH]; intros rest tks mc m outs Hu Hf Ho.
    { inversion Ho; subst. exists mc. split; [constructor|done]. }
    inversion Ho as [|tk ? out tks' ? outs' Hout Ho']; subst.
    simpl in Hu, Hf. apply undisturbed_cons in Hu as [Hu Hw].
    rewrite <- (same_inputs s e a tk mc m Hp) in Hout.
    2:{ intros f (s' & d & Hs%elem_of_list_singleton & Hd & Hfd). apply Hf. exists s', d. subst. set_solver. }
    destruct Hp as (d & tdc & td1 & td2 & Hd & He & _ & Hea).
    destruct (evaluate E tk e (Some mc)) as [[o r1] e1] eqn:Hev. simpl in Hout. subst o.
    pose proof (C29_row_frame E dd tdc d e td1 [] tk _ _ _ _ He Hev) as (Hfr & Hs & _).
    destruct (evaluate_some E dd tdc d e td1 tk mc He) as [m1 Hm1]. rewrite Hev in Hm1. simpl in Hm1. subst r1.
    destruct (IH rest tks' m1 m outs' Hu) as (m' & Hm' & Hr); [|done|].
    { intros f Hfn. rewrite <- Hf; [|destruct Hfn as (s' & d' & ? & ?); exists s', d'; split; [by right|done]].
      apply (Hfr f). apply Hw; [rewrite Hd; set_solver|done]. }
    exists m'. split; [|done]. eapply so_cons; [|done]. by rewrite Hev.
  Qed.
End alone.
