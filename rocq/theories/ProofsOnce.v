(** Proofs about derived fields declared once for an ensemble. *)
From Verif Require Import Base Strconv Value Doc Expr Pred Tree Regression Model Lib
  SpecPred ProofsPred SpecExpr ProofsExpr SpecConstruct ProofsConstruct ProofsRange
  SpecTree ProofsTree ProofsOutput ProofsEval ProofsDoc ProofsSafe ProofsWhole ProofsSim SpecModel ProofsFrame
  SpecEssence ProofsEssence SpecEquiv ProofsEquiv SpecDerive ProofsDerive ProofsNest SpecOnce.

(** ** Types *)
Lemma type_lookup l f : ∀ m1 m2, (f ∉ map df_name l → m1 !! f = m2 !! f) → (foldl type_step m1 l : fieldtypes) !! f = foldl type_step m2 l !! f.
Proof.
  induction l as [|df l IH]; intros m1 m2 H; simpl; [apply H, not_elem_of_nil|]. apply IH. intros Hf.
  destruct (decide (df_name df = f)) as [<-|Hne]; [by rewrite !lookup_insert|]. rewrite !lookup_insert_ne by done.
  apply H. simpl. rewrite not_elem_of_cons. naive_solver.
Qed.
Lemma type_untouched l f : ∀ m, f ∉ map df_name l → (foldl type_step m l : fieldtypes) !! f = m !! f.
Proof.
  induction l as [|df l IH]; intros m H; simpl; [done|]. simpl in H. apply not_elem_of_cons in H as [H1 H2].
  rewrite IH by done. by rewrite lookup_insert_ne.
Qed.
Definition absorbs (td l : list derived_field) : Prop := same_types (td ++ l) td.
Lemma absorbs_end a l : absorbs (a ++ l) l.
Proof.
  intros m. rewrite !foldl_app. apply map_eq. intros f. destruct (decide (f ∈ map df_name l)).
  - by apply type_lookup.
  - by apply type_untouched.
Qed.
Lemma absorbs_more td l k : absorbs td l → (∀ f, f ∈ map df_name k → f ∉ map df_name l) → absorbs (td ++ k) l.
Proof.
  intros H Hk m. specialize (H m). rewrite foldl_app in H. rewrite !foldl_app. apply map_eq. intros f.
  destruct (decide (f ∈ map df_name l)) as [Hf|Hf].
  - assert (f ∉ map df_name k) by naive_solver. rewrite (type_untouched k) by done. rewrite <- H at 2. by apply type_lookup.
  - by apply type_untouched.
Qed.

Lemma locals_written dd d df : df ∈ doc_locals d → df_name df ∈ written_names dd d.
Proof.
  assert (∀ d, df ∈ doc_locals d → (∃ t, t ∈ doc_trees d ∧ df ∈ tm_lt t) ∨ (∃ h, h ∈ doc_headers d ∧ df ∈ mm_lt h)) as H.
  { clear d. intros d. induction d as [t|m|k|h segs IH] using doc_rect'; cbn [doc_locals doc_trees doc_headers].
    - intros H. left. exists t. split; [|done]. by apply elem_of_list_here.
    - by intros ?%elem_of_nil.
    - by intros ?%elem_of_nil.
    - rewrite elem_of_app. intros [H|H]; [right; exists h; split; [left|done]|].
      apply elem_of_concat_map in H as (s & Hs & (d & Hd & Hl)%elem_of_concat_map).
      rewrite Forall_forall in IH. pose proof (IH s Hs) as IHs. rewrite Forall_forall in IHs.
      destruct (IHs d Hd Hl) as [(t & Ht & Hdf)|(h' & Ht & Hdf)].
      + left. exists t. split; [|done]. apply elem_of_concat_map. exists s. split; [done|]. apply elem_of_concat_map. eauto.
      + right. exists h'. split; [|done]. right. apply elem_of_concat_map. exists s. split; [done|]. apply elem_of_concat_map. eauto. }
  intros Hdf. unfold written_names. rewrite !elem_of_app. destruct (H d Hdf) as [(t & Ht & Hin)|(h & Hh & Hin)].
  - left. apply elem_of_concat_map. exists t. split; [done|]. by apply elem_of_list_fmap_1.
  - right. left. apply elem_of_concat_map. exists h. split; [done|]. by apply elem_of_list_fmap_1.
Qed.

(** ** Rows in which the derived fields have been computed *)
Definition computed (E : Ext) (l : list derived_field) (r : datarow) : Prop :=
  ∀ df, df ∈ l → ∃ v, handle_expr E (df_expr df) r = Ok v ∧ dr_get r (df_name df) = Some (stored E df v).
Lemma computed_again E l r : computed E l r → handle_input E l r = (Ok tt, r).
Proof.
  destruct r as [m|]; intros H; [by apply handle_input_fixed|].
  destruct l as [|df l]; [done|]. by destruct (H df ltac:(left)) as (v & _ & Hv).
Qed.
Lemma computed_now E l r r' : well_ordered l → handle_input E l r = (Ok tt, r') → computed E l r'.
Proof.
  intros Hw H. destruct r as [m|].
  - destruct (handle_input_solves _ _ _ _ Hw H) as (m' & -> & Hall). exact Hall.
  - destruct l as [|df l]; [by intros ? ?%elem_of_nil|]. simpl in H. by destruct (handle_expr E (df_expr df) None).
Qed.
Lemma computed_frame E l r r' : computed E l r → (∀ f, involves l f → dr_get r' f = dr_get r f) → computed E l r'.
Proof.
  intros H Hf df Hdf. destruct (H df Hdf) as (v & Hv & Hr). exists v. split.
  - rewrite <- Hv. apply handle_expr_local. intros f Hx. apply Hf. right. apply Exists_exists. eauto.
  - rewrite <- Hr. apply Hf. left. apply elem_of_list_fmap. eauto.
Qed.
Lemma computed_copy E l tk last r r' : computed E l r → (∀ k, is_Some (default ∅ last !! k) → ¬ involves l k) →
  copy_into E tk last r = Ok r' → computed E l r'.
Proof.
  intros H Hk Hc. eapply computed_frame; [exact H|]. intros f Hf. destruct r as [m|].
  - rewrite copy_into_some in Hc. injection Hc as <-. simpl. apply lookup_union_r. apply eq_None_not_Some. intros Hs. by eapply Hk.
  - rewrite copy_into_none in Hc. case_decide; [|done]. by injection Hc as <-.
Qed.

(** ** Members *)
Definition as_good (E : Ext) (x y : res emodel * list derived_field) : Prop :=
  match x.1, y.1 with
  | Ok e1, Ok e2 => same_types x.2 y.2 ∧ ∀ tk r, (evaluate E tk e1 r).1 = (evaluate E tk e2 r).1
  | Err a, Err b => a = b
  | Panic a, Panic b => a = b
  | _, _ => False
  end.
Definition input_first (E : Ext) (l : list derived_field) (f : datarow → res datarow * datarow) (r : datarow) : res datarow * datarow :=
  match handle_input E l r with
  | (Ok _, r1) => f r1
  | (Err e, r1) => (Err e, r1)
  | (Panic p, r1) => (Panic p, r1)
  end.
(** the first model answers like the second one on the row with [l] computed *)
Definition relieved (E : Ext) (l : list derived_field) (x y : res emodel * list derived_field) : Prop :=
  match x.1, y.1 with
  | Ok e1, Ok e2 => same_types x.2 y.2 ∧ ∀ tk r, (evaluate E tk e1 r).1 = input_first E l (λ r1, (evaluate E tk e2 r1).1) r
  | Err a, Err b => a = b
  | Panic a, Panic b => a = b
  | _, _ => False
  end.

Lemma redefined_id d : redefined eq d d.
Proof.
  induction d as [t|m|k|h segs IH] using doc_rect'.
  - assert (t = tree_with_lt t (tm_lt t)) as Ht by by destruct t. rewrite Ht at 2. by constructor.
  - constructor.
  - constructor.
  - assert (h = header_with_lt h (mm_lt h)) as Hh by by destruct h. rewrite Hh at 2. constructor; [done|].
    induction IH as [|s l Hs _ IHl]; constructor; [|done]. induction Hs; by constructor.
Qed.
Lemma types_only E dd d td1 td2 : same_types td1 td2 → as_good E (new_model E dd td1 d) (new_model E dd td2 d).
Proof.
  intros H. pose proof (redefined_no_different E dd eq ltac:(by intros l ? <-) d d (redefined_id d) td1 td2 H) as [H1 H2].
  unfold as_good. by destruct (new_model E dd td1 d) as [[?|?|?] ?], (new_model E dd td2 d) as [[?|?|?] ?].
Qed.

Lemma relieved_hand E dd l d d' td1 td2 : hands_over l d d' → same_types (td1 ++ l) td2 →
  relieved E l (new_model E dd td1 d) (new_model E dd td2 d').
Proof.
  intros [t rest Hlt|g rest segs Hlt Hrep] Htd.
  - unfold relieved. cbn [new_model]. unfold new_tree_model, tree_validate, tree_with_lt.
    cbn [et_model tm_function et_dd et_ft et_root et_outkeys et_target et_compiled].
    destruct (_ && _); [done|].
    unfold tree_compile. cbn [et_model tm_lt tm_schema tm_node et_dd et_target et_validated et_compiled et_outkeys et_root
      tm_function tm_strategy tm_penalty tm_notrue tm_verification].
    assert (same_types (td1 ++ tm_lt t) (td2 ++ rest)) as Hn. { rewrite Hlt, app_assoc. by apply same_types_app. }
    assert (field_types dd (td1 ++ tm_lt t) = field_types dd (td2 ++ rest)) as -> by apply Hn.
    destruct (new_node E _ (tm_node t)) as [n| |]; [|done..]. split; [done|].
    cbn [fst]. intros tk r. cbn [evaluate]. unfold tree_evaluate, input_first.
    cbn [et_validated et_compiled negb et_model tm_lt tm_strategy tm_schema et_root].
    rewrite Hlt, handle_input_app. destruct (handle_input E l r) as [[u|x|p] r1]; [|done..].
    destruct (handle_input E rest r1) as [[u'|x|p] r']; [|done..].
    unfold tree_ctx. cbn [et_ft et_dd et_target et_model tm_penalty tm_notrue].
    destruct (node_evaluate _ _ _ _ _ _) as [[s v]| |]; [|done..]. destruct v; try done.
    unfold tree_output. cbn [et_model et_target et_outkeys tm_function].
    repeat (destruct (_ =s _); [|]); try done.
    all: try by destruct (foldl _ _ _).
  - unfold relieved. rewrite !new_model_mining.
    assert (mm_method (header_of (header_with_lt g rest)) = mm_method (header_of g)) as Hm by (unfold header_of, header_with_lt; simpl; by destruct (_ =s _)).
    rewrite Hm. cbn [header_with_lt mm_output]. fold (header_with_lt g rest).
    destruct (negb _); [done|]. destruct (List.find _ _); [done|].
    assert (same_types (td1 ++ mm_lt g) (td2 ++ mm_lt (header_with_lt g rest))) as Hn. { simpl. rewrite Hlt, app_assoc. by apply same_types_app. }
    pose proof (segments_redefined E dd segs segs) as Hc. feed specialize Hc.
    { clear. induction segs as [|s segs IH]; constructor; [|done]. induction (sg_models s); constructor; [|done].
      intros td1 td2 H. by apply (redefined_no_different E dd eq ltac:(by intros ? ? <-) _ _ (redefined_id _)). }
    specialize (Hc _ _ [] [] Hn ltac:(constructor)).
    destruct (compile_segments _ (td1 ++ _) _ segs) as [[o1 s1] t1], (compile_segments _ (td2 ++ _) _ segs) as [[o2 s2] t2].
    destruct Hc as (-> & Hn' & Hc). destruct o2 as [u|x|p]; [|done..].
    split; [done|]. intros tk r. cbn [fst]. unfold input_first. rewrite mining_evaluate_run by done.
    cbn [built_mining em_defaults em_hdr]. rewrite (no_defaults g Hrep). unfold impute at 1. rewrite map_range_empty. cbn [foldl].
    rewrite header_of_lt, Hlt, handle_input_app.
    destruct (handle_input E l r) as [[u'|x|p] r1]; [|done..].
    rewrite mining_evaluate_run by done. cbn [built_mining em_defaults em_hdr].
    rewrite (no_defaults (header_with_lt g rest) Hrep). unfold impute. rewrite map_range_empty. cbn [foldl].
    rewrite header_of_lt. cbn [header_with_lt mm_lt].
    destruct (handle_input E rest r1) as [[u''|x|p] r2]; [|done..].
    match goal with |- context [run_method E tk ?x _ s2 _] =>
      assert (∀ ev : nat → emodel → datarow → outcome emodel, run_method E tk x ev s2 r2 = run_method E tk (built_mining dd td1 g segs) ev s2 r2) as -> end.
    { intros ev. apply run_method_header; [apply Hm|done| |done|done]. cbn [built_mining em_hdr]. by rewrite !header_of_function. }
    pose proof (run_method_sim E E (same_world_refl E)
        (λ e1 e2, ∀ tk r, (evaluate E tk e1 r).1 = (evaluate E tk e2 r).1) (λ _ _, True) (λ _ _ _, I)
        (λ i s r, evaluate E (5 :: i :: tk) s r) (λ i s r, evaluate E (5 :: i :: tk) s r)) as Hr'.
    feed specialize Hr'. { intros i e1 e2 r' He. split; [apply He|done]. }
    specialize (Hr' tk tk (built_mining dd td1 g segs) s1 s2 r2 Hc) as [Hr' _].
    destruct (run_method _ _ _ _ s1 _) as [[? ?] ?], (run_method _ _ _ _ s2 _) as [[? ?] ?]. exact Hr'.
Qed.

(** ** Ensembles whose rows have been completed *)
Section complete.
  Context (E : Ext) (l : list derived_field).

  Definition content (chained : Prop) (e1 e2 : emodel) : Prop := ∀ tk r, computed E l r →
    (evaluate E tk e1 r).1 = (evaluate E tk e2 r).1 ∧ computed E l (evaluate E tk e2 r).1.2 ∧
    (chained → ∀ out, (evaluate E tk e2 r).1.1 = Ok out → ∀ k, is_Some (default ∅ out !! k) → ¬ involves l k).

  Lemma sum_content P tk cl sm1 sm2 : Forall2 (content P) sm1 sm2 → ∀ i scores r, computed E l r →
    (sum_segments E tk cl (λ i s r, evaluate E (5 :: i :: tk) s r) i scores sm1 r).1 =
    (sum_segments E tk cl (λ i s r, evaluate E (5 :: i :: tk) s r) i scores sm2 r).1.
  Proof.
    induction 1 as [|e1 e2 sm1 sm2 He _ IH]; intros i scores r Hr; [done|]. cbn [sum_segments].
    destruct (He (5 :: i :: tk) r Hr) as (H1 & H2 & _).
    destruct (evaluate E _ e1 r) as [[o1 r1] s1'], (evaluate E _ e2 r) as [[o2 r2] s2']. simpl in H1, H2. injection H1 as -> ->.
    destruct o2 as [out|x|p]; [|done..]. specialize (IH (S i) (score_add E (1 :: i :: tk) cl out scores) r2 H2).
    destruct (sum_segments _ _ _ _ _ _ sm1 _) as [[? ?] ?], (sum_segments _ _ _ _ _ _ sm2 _) as [[? ?] ?]. exact IH.
  Qed.

  Lemma chain_content tk sm1 sm2 : Forall2 (content True) sm1 sm2 → ∀ i last r, computed E l r →
    (∀ k, is_Some (default ∅ last !! k) → ¬ involves l k) →
    (chain E tk (λ i s r, evaluate E (5 :: i :: tk) s r) i last sm1 r).1 =
    (chain E tk (λ i s r, evaluate E (5 :: i :: tk) s r) i last sm2 r).1.
  Proof.
    induction 1 as [|e1 e2 sm1 sm2 He _ IH]; intros i last r Hr Hlast; [done|]. cbn [chain].
    destruct (copy_into E _ last r) as [r0|x|p] eqn:Hc; [|done..].
    assert (computed E l r0) as Hr0 by by eapply computed_copy.
    destruct (He (5 :: i :: tk) r0 Hr0) as (H1 & H2 & H3).
    destruct (evaluate E _ e1 r0) as [[o1 r1] s1'], (evaluate E _ e2 r0) as [[o2 r2] s2']. simpl in H1, H2, H3. injection H1 as -> ->.
    destruct o2 as [out|x|p]; [|done..]. specialize (IH (S i) out r2 H2 (H3 I out eq_refl)).
    destruct (chain _ _ _ _ _ sm1 _) as [[? ?] ?], (chain _ _ _ _ _ sm2 _) as [[? ?] ?]. exact IH.
  Qed.

  Lemma method_content tk h sm1 sm2 r : Forall2 (content (mm_method (em_hdr h) = "modelChain")) sm1 sm2 → computed E l r →
    (run_method E tk h (λ i s r, evaluate E (5 :: i :: tk) s r) sm1 r).1 =
    (run_method E tk h (λ i s r, evaluate E (5 :: i :: tk) s r) sm2 r).1.
  Proof.
    intros H Hr. unfold run_method, average_models, sum_models.
    pose proof (sum_content _ tk (mm_function (em_hdr h) =s "classification") _ _ H 0 (score_init (em_outputs h) (em_targets h)) r Hr) as Hs.
    destruct (sum_segments _ _ _ _ _ _ sm1 _) as [[o1 r1] m1], (sum_segments _ _ _ _ _ _ sm2 _) as [[o2 r2] m2]. simpl in Hs. injection Hs as -> ->.
    destruct (_ =s "average"); [by destruct o2|]. destruct (_ =s "sum"); [by destruct o2|].
    destruct (mm_method (em_hdr h) =s "modelChain") eqn:Hm.
    { apply String.eqb_eq in Hm. apply chain_content; [|done|].
      - eapply Forall2_impl; [exact H|]. intros e1 e2 He tk' r' Hr'. destruct (He tk' r' Hr') as (H1 & H2 & H3).
        split; [done|]. split; [done|]. intros _. by apply H3.
      - simpl. intros k [v Hv]. by rewrite lookup_empty in Hv. }
    destruct (_ =s "selectFirst"); [|done]. destruct H as [|e1 e2 sm1 sm2 He _]; [done|]. cbn [select_first].
    destruct (He (5 :: 0 :: tk) r Hr) as (H1 & _).
    destruct (evaluate E _ e1 r) as [[? ?] ?], (evaluate E _ e2 r) as [[? ?] ?]. exact H1.
  Qed.

  Lemma member_content dd method d d' td1 td2 : member_of dd l method d d' → same_types td1 td2 → absorbs td2 l →
    match new_model E dd td1 d, new_model E dd td2 d' with
    | (Ok e1, t1), (Ok e2, t2) => same_types t1 t2 ∧ absorbs t2 l ∧ content (method = "modelChain") e1 e2
    | (Err a, _), (Err b, _) => a = b
    | (Panic a, _), (Panic b, _) => a = b
    | _, _ => False
    end.
  Proof.
    intros (Hd & Hw & Ho) Htd Hab.
    assert (∀ e2 t2, new_model E dd td2 d' = (Ok e2, t2) → absorbs t2 l ∧ ∀ tk r, computed E l r →
      computed E l (evaluate E tk e2 r).1.2 ∧
      (method = "modelChain" → ∀ out, (evaluate E tk e2 r).1.1 = Ok out → ∀ k, is_Some (default ∅ out !! k) → ¬ involves l k)) as Hframe.
    { intros e2 t2 H2. split.
      - assert (t2 = td2 ++ doc_locals d') as -> by (eapply accepted_td; by eapply new_model_accepted).
        apply absorbs_more; [done|]. intros f (df & -> & Hdf)%elem_of_list_fmap Hf.
        apply (Hw (df_name df)); [by apply locals_written|by left].
      - intros tk r Hr. destruct (evaluate E tk e2 r) as [[o r'] e'] eqn:He. simpl. apply new_model_all in H2.
        destruct (frame_evaluate E dd d' tk e2 r o r' e' H2 He) as (_ & (_ & F2 & _) & F3). split.
        + eapply computed_frame; [exact Hr|]. intros f Hf. apply F2. intros Hin. by apply (Hw f).
        + intros Hm out -> k Hk. apply Ho; [done|]. by apply (F3 out eq_refl). }
    destruct Hd as [<-|Hh].
    - pose proof (types_only E dd d td1 td2 Htd) as Hg. unfold as_good in Hg.
      destruct (new_model E dd td1 d) as [[e1|x|p] t1], (new_model E dd td2 d) as [[e2|x'|p'] t2]; try done. simpl in Hg.
      destruct Hg as [Hs Heq]. destruct (Hframe e2 t2 eq_refl) as [Ha Hf]. split; [done|]. split; [done|].
      intros tk r Hr. split; [apply Heq|by apply Hf].
    - pose proof (relieved_hand E dd l d d' td1 td2 Hh) as Hg. feed specialize Hg.
      { intros m. rewrite <- (Hab m). by apply same_types_app. }
      unfold relieved in Hg.
      destruct (new_model E dd td1 d) as [[e1|x|p] t1], (new_model E dd td2 d') as [[e2|x'|p'] t2]; try done. simpl in Hg.
      destruct Hg as [Hs Heq]. destruct (Hframe e2 t2 eq_refl) as [Ha Hf]. split; [done|]. split; [done|].
      intros tk r Hr. split; [|by apply Hf]. rewrite Heq. unfold input_first. by rewrite (computed_again _ _ _ Hr).
  Qed.

  Lemma segments_content dd method segs1 segs2 :
    Forall2 (λ s1 s2, Forall2 (member_of dd l method) (sg_models s1) (sg_models s2)) segs1 segs2 →
    ∀ td1 td2 a1 a2, same_types td1 td2 → absorbs td2 l → Forall2 (content (method = "modelChain")) a1 a2 →
    match compile_segments (new_model E dd) td1 a1 segs1, compile_segments (new_model E dd) td2 a2 segs2 with
    | (Ok _, s1, t1), (Ok _, s2, t2) => same_types t1 t2 ∧ Forall2 (content (method = "modelChain")) s1 s2
    | (Err a, _, _), (Err b, _, _) => a = b
    | (Panic a, _, _), (Panic b, _, _) => a = b
    | _, _ => False
    end.
  Proof.
    induction 1 as [|[i1 ps1 ms1] [i2 ps2 ms2] segs1 segs2 Hs _ IH]; intros td1 td2 a1 a2 Htd Hab Ha; [by simpl|].
    cbn [compile_segments]. simpl in Hs.
    destruct Hs as [|d1 d2 ms1 ms2 Hd Hs]; [done|]. destruct Hs as [|d3 d4 ms1 ms2 Hd' Hs].
    - pose proof (member_content dd method d1 d2 td1 td2 Hd Htd Hab) as Hm.
      destruct (new_model E dd td1 d1) as [[e1|x|p] t1], (new_model E dd td2 d2) as [[e2|x'|p'] t2]; try done.
      destruct Hm as (Hs & Hab' & Hc). apply IH; [done..|]. apply Forall2_app; [done|]. by constructor.
    - cbn [length]. by rewrite (Forall2_length _ _ _ Hs).
  Qed.
End complete.

(** ** The first member *)
Lemma method_first E tk l h s1 s2 sm1 sm2 r : method_ok (mm_method (em_hdr h)) = true →
  (∀ tk r, (evaluate E tk s1 r).1 = input_first E l (λ r1, (evaluate E tk s2 r1).1) r) →
  Forall2 (λ e1 e2, ∀ tk r, (evaluate E tk e1 r).1 = (evaluate E tk e2 r).1) sm1 sm2 →
  (run_method E tk h (λ i s r, evaluate E (5 :: i :: tk) s r) (s1 :: sm1) r).1 =
  input_first E l (λ r1, (run_method E tk h (λ i s r, evaluate E (5 :: i :: tk) s r) (s2 :: sm2) r1).1) r.
Proof.
  intros Hok Hs Hsm. specialize (Hs (5 :: 0 :: tk)).
  assert (∀ cl i scores sm1 sm2 r, Forall2 (λ e1 e2, ∀ tk r, (evaluate E tk e1 r).1 = (evaluate E tk e2 r).1) sm1 sm2 →
    (sum_segments E tk cl (λ i s r, evaluate E (5 :: i :: tk) s r) i scores sm1 r).1 =
    (sum_segments E tk cl (λ i s r, evaluate E (5 :: i :: tk) s r) i scores sm2 r).1) as Hsum.
  { intros cl i scores a1 a2 r' H. eapply (sum_content E [] False tk cl); [|by intros ? ?%elem_of_nil].
    eapply Forall2_impl; [exact H|]. intros e1 e2 He tk' r'' _. split; [apply He|]. split; [by intros ? ?%elem_of_nil|done]. }
  assert (∀ i last sm1 sm2 r, Forall2 (λ e1 e2, ∀ tk r, (evaluate E tk e1 r).1 = (evaluate E tk e2 r).1) sm1 sm2 →
    (chain E tk (λ i s r, evaluate E (5 :: i :: tk) s r) i last sm1 r).1 =
    (chain E tk (λ i s r, evaluate E (5 :: i :: tk) s r) i last sm2 r).1) as Hchain.
  { intros i last a1 a2 r' H.
    assert (∀ k, ¬ involves [] k) as Hno by (intros k [Hk|Hk]; [by apply elem_of_nil in Hk|by inversion Hk]).
    eapply (chain_content E [] tk); [|by intros ? ?%elem_of_nil|by intros].
    eapply Forall2_impl; [exact H|]. intros e1 e2 He tk' r'' _. split; [apply He|]. split; [by intros ? ?%elem_of_nil|by intros]. }
  unfold run_method, average_models, sum_models, input_first in *. cbn [sum_segments chain select_first].
  specialize (Hs r). destruct (handle_input E l r) as [[u|x|p] r1].
  - assert (copy_into E (0 :: 0 :: tk) (Some ∅) r = Ok r) as -> by (unfold copy_into; simpl; by rewrite map_range_empty).
    assert (copy_into E (0 :: 0 :: tk) (Some ∅) r1 = Ok r1) as -> by (unfold copy_into; simpl; by rewrite map_range_empty).
    destruct (evaluate E _ s1 r) as [[o1 r2] s1'], (evaluate E _ s2 r1) as [[o2 r3] s2']. simpl in Hs. injection Hs as -> ->.
    destruct o2 as [out|x|p].
    + specialize (Hsum (mm_function (em_hdr h) =s "classification") 1 (score_add E (1 :: 0 :: tk) (mm_function (em_hdr h) =s "classification") out (score_init (em_outputs h) (em_targets h))) sm1 sm2 r3 Hsm).
      specialize (Hchain 1 out sm1 sm2 r3 Hsm).
      destruct (sum_segments _ _ _ _ _ _ sm1 _) as [[a1 a2] a3], (sum_segments _ _ _ _ _ _ sm2 _) as [[b1 b2] b3]. simpl in Hsum. injection Hsum as -> ->.
      destruct (chain _ _ _ _ _ sm1 _) as [[c1 c2] c3], (chain _ _ _ _ _ sm2 _) as [[d1 d2] d3]. simpl in Hchain. injection Hchain as -> ->.
      revert Hok. unfold method_ok. repeat (destruct (mm_method _ =s _); [by intros _; repeat (destruct (mm_method _ =s _); [by destruct b1|]); by destruct b1|]). done.
    + revert Hok. unfold method_ok. repeat (destruct (mm_method _ =s _); [by intros _; repeat (destruct (mm_method _ =s _); [done|])|]). done.
    + revert Hok. unfold method_ok. repeat (destruct (mm_method _ =s _); [by intros _; repeat (destruct (mm_method _ =s _); [done|])|]). done.
  - assert (copy_into E (0 :: 0 :: tk) (Some ∅) r = Ok r) as -> by (unfold copy_into; simpl; by rewrite map_range_empty).
    destruct (evaluate E _ s1 r) as [[o1 r2] s1']. simpl in Hs. injection Hs as -> ->.
    revert Hok. unfold method_ok. repeat (destruct (mm_method _ =s _); [by intros _; repeat (destruct (mm_method _ =s _); [done|])|]). done.
  - assert (copy_into E (0 :: 0 :: tk) (Some ∅) r = Ok r) as -> by (unfold copy_into; simpl; by rewrite map_range_empty).
    destruct (evaluate E _ s1 r) as [[o1 r2] s1']. simpl in Hs. injection Hs as -> ->.
    revert Hok. unfold method_ok. repeat (destruct (mm_method _ =s _); [by intros _; repeat (destruct (mm_method _ =s _); [done|])|]). done.
Qed.

(** ** Documents *)
Lemma as_good_sym E x y : as_good E x y → as_good E y x.
Proof.
  unfold as_good. destruct x as [[?|?|?] ?], y as [[?|?|?] ?]; simpl; try done. intros [H1 H2]. split; [intros m; by rewrite H1|].
  intros tk r. by rewrite H2.
Qed.
Lemma as_good_trans E x y z : as_good E x y → as_good E y z → as_good E x z.
Proof.
  unfold as_good. destruct x as [[?|?|?] ?], y as [[?|?|?] ?], z as [[?|?|?] ?]; simpl; try done; [|congruence..].
  intros [H1 H2] [H3 H4]. split; [intros m; by rewrite H1|]. intros tk r. by rewrite H2.
Qed.

Lemma segments_good E dd segs1 segs2 :
  Forall2 (λ s1 s2, Forall2 (λ d1 d2, ∀ td1 td2, same_types td1 td2 →
      as_good E (new_model E dd td1 d1) (new_model E dd td2 d2)) (sg_models s1) (sg_models s2)) segs1 segs2 →
  ∀ td1 td2, same_types td1 td2 →
  match compile_segments (new_model E dd) td1 [] segs1, compile_segments (new_model E dd) td2 [] segs2 with
  | (Ok _, s1, t1), (Ok _, s2, t2) => same_types t1 t2 ∧
      Forall2 (λ e1 e2, ∀ tk r, (evaluate E tk e1 r).1 = (evaluate E tk e2 r).1) s1 s2
  | (Err a, _, _), (Err b, _, _) => a = b
  | (Panic a, _, _), (Panic b, _, _) => a = b
  | _, _ => False
  end.
Proof.
  induction 1 as [|[i1 ps1 ms1] [i2 ps2 ms2] segs1 segs2 Hs _ IH]; intros td1 td2 Htd; [by simpl|].
  cbn [compile_segments]. simpl in Hs.
  destruct Hs as [|d1 d2 ms1 ms2 Hd Hs]; [done|]. destruct Hs as [|d3 d4 ms1 ms2 Hd' Hs].
  - specialize (Hd td1 td2 Htd). unfold as_good in Hd.
    destruct (new_model E dd td1 d1) as [[e1|x|p] t1], (new_model E dd td2 d2) as [[e2|x'|p'] t2]; simpl in Hd; try done.
    destruct Hd as [Hn Hd]. rewrite (compile_acc _ segs1), (compile_acc _ segs2). specialize (IH t1 t2 Hn).
    destruct (compile_segments _ t1 [] segs1) as [[[?|?|?] ?] ?], (compile_segments _ t2 [] segs2) as [[[?|?|?] ?] ?]; try done.
    destruct IH as [IH1 IH2]. split; [done|]. by constructor.
  - cbn [length]. by rewrite (Forall2_length _ _ _ Hs).
Qed.
Lemma segments_self E dd segs : Forall2 (λ s1 s2, Forall2 (λ d1 d2, ∀ td1 td2, same_types td1 td2 →
  as_good E (new_model E dd td1 d1) (new_model E dd td2 d2)) (sg_models s1) (sg_models s2)) segs segs.
Proof.
  induction segs as [|s segs IH]; constructor; [|done]. induction (sg_models s); constructor; [|done]. intros td1 td2. apply types_only.
Qed.

Lemma mining_good E dd h segs1 segs2 :
  Forall2 (λ s1 s2, Forall2 (λ d1 d2, ∀ td1 td2, same_types td1 td2 →
      as_good E (new_model E dd td1 d1) (new_model E dd td2 d2)) (sg_models s1) (sg_models s2)) segs1 segs2 →
  ∀ td1 td2, same_types td1 td2 → as_good E (new_model E dd td1 (DMining h segs1)) (new_model E dd td2 (DMining h segs2)).
Proof.
  intros Hs td1 td2 Htd. unfold as_good. rewrite !new_model_mining. destruct (negb _); [done|]. destruct (List.find _ _); [done|].
  pose proof (segments_good E dd _ _ Hs (td1 ++ mm_lt h) (td2 ++ mm_lt h)) as Hc. feed specialize Hc. { by apply same_types_app. }
  destruct (compile_segments _ _ _ segs1) as [[[?|?|?] s1] t1], (compile_segments _ _ _ segs2) as [[[?|?|?] s2] t2]; try done.
  destruct Hc as [Hn Hc]. split; [done|]. intros tk r. cbn [fst]. rewrite !mining_evaluate_run by done.
  cbn [built_mining em_defaults em_hdr]. destruct (impute _ _ _ _) as [r1|x|p]; [|done..].
  destruct (handle_input _ _ _) as [[u'|x|p] r2]; [|done..].
  rewrite (run_method_header E tk _ (built_mining dd td2 h segs2)); [|done|cbn; by eapply Forall2_length|done..].
  pose proof (method_content E [] tk (built_mining dd td2 h segs2) s1 s2 r2) as Hm. feed specialize Hm.
  { eapply Forall2_impl; [exact Hc|]. intros e1 e2 He tk' r'' _. split; [apply He|]. split; [by intros ? ?%elem_of_nil|].
    intros _ out _ k _ [Hk|Hk]; [by apply elem_of_nil in Hk|by inversion Hk]. }
  { by intros ? ?%elem_of_nil. }
  destruct (run_method _ _ _ _ s1 _) as [[? ?] ?], (run_method _ _ _ _ s2 _) as [[? ?] ?]. exact Hm.
Qed.

Lemma header_with_lt_method h lt : mm_method (header_of (header_with_lt h lt)) = mm_method (header_of h).
Proof. unfold header_of, header_with_lt; simpl; by destruct (_ =s _). Qed.

Lemma declared_good E dd d d' : declared_above dd d d' → ∀ td1 td2, same_types td1 td2 →
  as_good E (new_model E dd td1 d) (new_model E dd td2 d').
Proof.
  induction 1 as [h l i ps d d' segs Hh|h a l segs1 segs2 Hlt Hw Hsegs|h l1 i ps d d' l2 _ IH|d|d d' _ IH|d d' d'' _ IH1 _ IH2]; intros td1 td2 Htd.
  - unfold as_good. rewrite !new_model_mining, header_with_lt_method. cbn [header_with_lt mm_output]. fold (header_with_lt h (mm_lt h ++ l)).
    destruct (negb (method_ok _)) eqn:Hok; [done|]. apply negb_false_iff in Hok. destruct (List.find _ _); [done|].
    cbn [compile_segments].
    pose proof (relieved_hand E dd l d d' (td1 ++ mm_lt h) (td2 ++ mm_lt (header_with_lt h (mm_lt h ++ l))) Hh) as Hr.
    feed specialize Hr. { simpl. rewrite app_assoc. apply same_types_app; [|done]. by apply same_types_app. }
    unfold relieved in Hr.
    destruct (new_model E dd _ d) as [[e1|x|p] t1], (new_model E dd _ d') as [[e2|x'|p'] t2]; simpl in Hr; try done; try (simpl; congruence).
    destruct Hr as [Hn Hev]. rewrite (compile_acc _ _ t1), (compile_acc _ _ t2).
    pose proof (segments_good E dd _ _ (segments_self E dd segs) t1 t2 Hn) as Hc.
    destruct (compile_segments _ t1 [] segs) as [[[?|?|?] s1] t1'], (compile_segments _ t2 [] segs) as [[[?|?|?] s2] t2']; try done.
    destruct Hc as [Hn' Hc]. split; [done|]. intros tk r. cbn [fst app]. rewrite !mining_evaluate_run by done.
    cbn [built_mining em_defaults em_hdr header_with_lt mm_schema]. fold (header_with_lt h (mm_lt h ++ l)).
    destruct (impute _ _ _ _) as [r1|x|p]; [|done..]. rewrite !header_of_lt. cbn [header_with_lt mm_lt]. rewrite handle_input_app.
    destruct (handle_input E (mm_lt h) r1) as [[u'|x|p] r2]; [|done..].
    pose proof (method_first E tk l (built_mining dd td1 h (Segment i ps [d] :: segs)) e1 e2 s1 s2 r2 Hok Hev Hc) as Hm.
    unfold input_first in Hm.
    destruct (handle_input E l r2) as [[u''|x|p] r3].
    + match goal with |- context [run_method E tk ?x _ (e2 :: s2) _] =>
        assert (∀ ev : nat → emodel → datarow → outcome emodel, run_method E tk x ev (e2 :: s2) r3 =
          run_method E tk (built_mining dd td1 h (Segment i ps [d] :: segs)) ev (e2 :: s2) r3) as -> end.
      { intros ev. apply run_method_header; [apply (header_with_lt_method h (mm_lt h ++ l))|done| |done|done].
        cbn [built_mining em_hdr]. by rewrite !header_of_function. }
      destruct (run_method _ _ _ _ (e1 :: s1) _) as [[? ?] ?], (run_method _ _ _ _ (e2 :: s2) _) as [[? ?] ?]. exact Hm.
    + destruct (run_method _ _ _ _ (e1 :: s1) _) as [[? ?] ?]. exact Hm.
    + destruct (run_method _ _ _ _ (e1 :: s1) _) as [[? ?] ?]. exact Hm.
  - unfold as_good. rewrite !new_model_mining. destruct (negb (method_ok _)) eqn:Hok; [done|]. destruct (List.find _ _); [done|].
    pose proof (segments_content E l dd _ segs1 segs2 Hsegs (td1 ++ mm_lt h) (td2 ++ mm_lt h) [] []) as Hc.
    feed specialize Hc. { by apply same_types_app. } { rewrite Hlt, app_assoc. apply absorbs_end. } { constructor. }
    destruct (compile_segments _ _ _ segs1) as [[[?|?|?] s1] t1], (compile_segments _ _ _ segs2) as [[[?|?|?] s2] t2]; try done.
    destruct Hc as [Hn Hc]. split; [done|]. intros tk r. cbn [fst]. rewrite !mining_evaluate_run by done.
    cbn [built_mining em_defaults em_hdr]. destruct (impute _ _ _ _) as [r1|x|p]; [|done..]. rewrite header_of_lt.
    destruct (handle_input E (mm_lt h) r1) as [[[]|x|p] r2] eqn:Hi; [|done..].
    assert (computed E l r2) as Hr.
    { rewrite Hlt, handle_input_app in Hi. destruct (handle_input E a r1) as [[?|?|?] ra]; [|done..]. by eapply computed_now. }
    rewrite (run_method_header E tk _ (built_mining dd td2 h segs2)); [|done|cbn; by eapply Forall2_length|done..].
    pose proof (method_content E l tk (built_mining dd td2 h segs2) s1 s2 r2) as Hm. feed specialize Hm.
    { eapply Forall2_impl; [exact Hc|]. intros e1 e2 He tk' r'' Hr''. destruct (He tk' r'' Hr'') as (H1 & H2 & H3).
      split; [done|]. split; [done|]. cbn [built_mining em_hdr]. intros Hx. apply H3. revert Hx. unfold header_of.
      destruct (mm_method h =s "") eqn:He'; [done|done]. }
    { done. }
    destruct (run_method _ _ _ _ s1 _) as [[? ?] ?], (run_method _ _ _ _ s2 _) as [[? ?] ?]. exact Hm.
  - apply mining_good; [|done]. apply Forall2_app; [apply segments_self|]. constructor; [|apply segments_self].
    simpl. constructor; [exact IH|constructor].
  - by apply types_only.
  - apply as_good_sym, IH. intros m. by rewrite Htd.
  - eapply as_good_trans; [by apply (IH1 td1 td1)|by apply IH2].
Qed.
