(** What Evaluate does to the caller's row. *)
From Verif Require Import Base Strconv Value Doc Expr Pred Tree Regression Model Lib
  SpecPred ProofsPred SpecExpr ProofsExpr SpecConstruct ProofsConstruct ProofsRange
  SpecTree ProofsTree ProofsOutput ProofsEval ProofsDoc ProofsSafe ProofsWhole ProofsClass SpecModel.

(** only keys of K differ, no key is removed, nil stays nil *)
Definition frame (K : string → Prop) (r0 r : datarow) : Prop :=
  (r = None ↔ r0 = None) ∧ (∀ k, ¬ K k → dr_get r k = dr_get r0 k) ∧
  (∀ k, is_Some (dr_get r0 k) → is_Some (dr_get r k)).

Lemma frame_refl K r : frame K r r.
Proof. done. Qed.
Lemma frame_trans K r1 r2 r3 : frame K r1 r2 → frame K r2 r3 → frame K r1 r3.
Proof.
  intros (A1 & A2 & A3) (B1 & B2 & B3). split; [by rewrite B1|]. split; [|by auto].
  intros k Hk. by rewrite B2, A2.
Qed.
Lemma frame_mono (K K' : string → Prop) r1 r2 : (∀ k, K k → K' k) → frame K r1 r2 → frame K' r1 r2.
Proof. intros H (A1 & A2 & A3). split; [done|]. split; [|done]. intros k Hk. apply A2. auto. Qed.

Lemma frame_handle_input E lt r o r' :
  handle_input E lt r = (o, r') → frame (λ k, k ∈ map df_name lt) r r'.
Proof.
  destruct r as [m|].
  - intros H. destruct (handle_input_ok_some _ _ _ _ _ H) as [m' ->]. split; [done|]. split.
    + intros k Hk. simpl. by destruct (handle_input_frame _ _ _ _ _ k H Hk) as (? & [= <-] & ->).
    + intros k Hk. simpl in *. by destruct (handle_input_dom _ _ _ _ _ k H Hk) as (? & [= <-] & ?).
  - destruct lt as [|df lt]; simpl; [by intros [= <- <-]|].
    destruct (handle_expr E (df_expr df) None); simpl; by intros [= <- <-].
Qed.

Lemma default_values_keys l k :
  is_Some (default_values l !! k) → k ∈ map mf_name (filter (λ f, is_Some (mf_replacement f)) l).
Proof.
  unfold default_values.
  assert (∀ m : row, is_Some (foldl (λ m f, match mf_replacement f with
                | Some s => <[mf_name f := GStr s]> m
                | None => m
                end) m l !! k) →
    is_Some (m !! k) ∨ k ∈ map mf_name (filter (λ f, is_Some (mf_replacement f)) l)) as H.
  { induction l as [|f l IH]; intros m Hm; simpl in Hm; [by left|]. rewrite filter_cons.
    apply IH in Hm as [Hm|Hm].
    - destruct (mf_replacement f) as [s|] eqn:Hf.
      + rewrite lookup_insert_is_Some in Hm. rewrite decide_True by eauto. simpl.
        destruct (decide (mf_name f = k)) as [<-|Hne]; [right; left|]. left. naive_solver.
      + by left.
    - right. case_decide; simpl; [by right|done]. }
  intros Hk. apply H in Hk as [Hk|?]; [|done]. rewrite lookup_empty in Hk. by destruct Hk.
Qed.

Lemma frame_impute E tk d r r' :
  impute E tk d r = Ok r' → frame (λ k, is_Some (d !! k)) r r'.
Proof.
  destruct r as [m|].
  - rewrite impute_some. intros [= <-]. split; [done|]. simpl. split.
    + intros k Hk. rewrite fill_lookup. destruct (d !! k); [by destruct Hk|]. by destruct (m !! k) as [[]|].
    + intros k [v Hv]. rewrite fill_lookup, Hv. destruct v; eauto.
  - rewrite impute_none. case_decide; [by intros [= <-]|done].
Qed.

Lemma frame_copy E tk out r r' :
  copy_into E tk out r = Ok r' → frame (λ k, is_Some (default ∅ out !! k)) r r'.
Proof.
  destruct r as [m|].
  - rewrite copy_into_some. intros [= <-]. split; [done|]. simpl. split.
    + intros k Hk. rewrite lookup_union. destruct (default ∅ out !! k); [by destruct Hk|].
      by destruct (m !! k).
    + intros k Hk. rewrite lookup_union. destruct (default ∅ out !! k), (m !! k); simpl; eauto.
  - rewrite copy_into_none. case_decide; [by intros [= <-]|done].
Qed.

(** *** output keys of single models *)
Lemma tree_names E dd td t te tk r out r' te' k :
  tree_of E dd td t te → tree_evaluate E tk te r = (Ok out, r', te') →
  is_Some (default ∅ out !! k) → k ∈ tree_output_names dd t.
Proof.
  intros Ht He Hk. destruct out as [out|]; simpl in Hk; [|rewrite lookup_empty in Hk; by destruct Hk].
  destruct (report_classes E dd td t te tk r out r' te' Ht He) as (scores & [_ Hin] & Hr).
  unfold report in Hr. unfold tree_output_names. case_decide.
  - injection Hr as <-. apply class_row_keys in Hk as [->|(s & Hs & ->)]; [left|right].
    apply elem_of_list_In, in_map_iff. exists (sc_value s). split; [done|].
    apply elem_of_list_In, Hin. by apply elem_of_list_fmap_1.
  - destruct scores as [|s scores]; [done|]. destruct (ext_parse_float E (sc_value s)); [|done].
    injection Hr as <-. destruct (decide (k = "score")) as [->|Hne]; [left|].
    rewrite lookup_singleton_ne in Hk by done. by destruct Hk.
Qed.

Lemma binary_names E m r f o out ts k :
  (∀ k, is_Some (o !! k) → k ∈ map of_name (rm_output m)) →
  binary_tables E m r f o ts = Ok out →
  is_Some (default ∅ out !! k) → k ∈ map of_name (rm_output m).
Proof.
  revert f o. induction ts as [|t ts IH]; intros f o Ho; simpl.
  - intros [= <-]. by apply Ho.
  - intros (pred & _ & H)%rbind_ok Hk. refine (IH _ _ _ H Hk). clear IH H Hk.
    assert (∀ l (o : row), (∀ k, is_Some (o !! k) → k ∈ map of_name (rm_output m)) →
      (∀ x, x ∈ l → x ∈ rm_output m) →
      ∀ k, is_Some (foldl (λ out o, if rt_category t =s of_value o
                                  then <[of_name o := GF64 pred]> out else out) o l !! k) →
           k ∈ map of_name (rm_output m)) as Hl.
    { intros l. induction l as [|x l IH]; intros o1 Ho1 Hsub k' Hk'; [by apply Ho1|].
      cbn [foldl] in Hk'. eapply IH in Hk'; [done| |set_solver]. intros k2. destruct (_ =s _); [|apply Ho1].
      rewrite lookup_insert_is_Some. intros [<-|[_ ?]]; [|by apply Ho1].
      apply elem_of_list_In, in_map, elem_of_list_In, Hsub. left. }
    apply Hl; [done|]. done.
Qed.

Lemma out_fields_lookup os v :
  out_fields os !! v = of_name <$> last (filter (λ o, of_value o = v) os).
Proof.
  unfold out_fields. pose proof (foldl_insert_last (λ o, (of_value o, of_name o)) os ∅ v) as H.
  simpl in H. rewrite H, lookup_empty. clear H.
  assert (last (filter (λ p : string * string, p.1 = v) (map (λ o, (of_value o, of_name o)) os))
    = (λ o, (of_value o, of_name o)) <$> last (filter (λ o, of_value o = v) os)) as ->.
  { induction os as [|o os IH]; [done|]. simpl. rewrite !filter_cons. simpl.
    case_decide; [|done]. rewrite !last_cons_default, IH.
    generalize (last (filter (λ o : output_field, of_value o = v) os)). by intros []. }
  by destruct (last _).
Qed.

Lemma multi_names E meth ys o l out k :
  multi_out E meth ys o l = Ok out → is_Some (default ∅ out !! k) →
  is_Some (o !! k) ∨ k ∈ l.*1.
Proof.
  revert o. induction l as [|[tg y] l IH]; intros o; simpl.
  - intros [= <-]. by left.
  - repeat case_str; [intros H Hk; apply IH in H; [|done]..|done].
    all: rewrite lookup_insert_is_Some in H; set_solver.
Qed.

Lemma regr_names E m r out k :
  regr_evaluate E m r = Ok out → is_Some (default ∅ out !! k) → k ∈ regr_output_names m.
Proof.
  unfold regr_evaluate, regr_output_names. intros H Hk. rewrite elem_of_app.
  destruct (rm_function m =s "regression") eqn:Hreg.
  - left. unfold eval_regression in H. destruct (rm_tables m) as [|tb [|? ?]]; [done| |done].
    destruct (rm_output m) as [|o [|? ?]]; [done| |done].
    apply rbind_ok in H as (y & _ & (p & _ & [= <-])%rbind_ok). simpl in Hk.
    destruct (decide (k = of_name o)) as [->|Hne]; [left|].
    rewrite lookup_singleton_ne in Hk by done. by destruct Hk.
  - destruct (rm_function m =s "classification") eqn:Hcl; simpl in H; [|done].
    apply String.eqb_eq in Hcl.
    destruct (Nat.eqb_spec (length (rm_output m)) 2) as [H2|H2].
    + left. eapply binary_names; [|exact H|done]. intros k'. rewrite lookup_empty. by intros [].
    + unfold eval_multiclass in H. apply rbind_ok in H as (ys & Hys & H).
      eapply multi_names in H as [H|H]; [|..|exact Hk].
      * rewrite lookup_empty in H. by destruct H.
      * apply elem_of_list_fmap in H as ([k' y] & -> & Hin). simpl.
        apply elem_of_zip_l in Hin. apply elem_of_list_fmap in Hin as (t & -> & Ht).
        rewrite out_fields_lookup. destruct (last _) as [o|] eqn:Hl; simpl.
        -- left. apply last_filter_some in Hl as (l1 & l2 & -> & _). set_solver.
        -- right. rewrite decide_True; [by left|]. split; [done|]. split; [done|].
           apply Exists_exists. exists t. split; [done|].
           intros Hin. apply elem_of_list_In, in_map_iff in Hin as (o & Ho & Hin). apply elem_of_list_In in Hin.
           apply last_None in Hl. assert (o ∈ filter (λ o, of_value o = rt_category t) (rm_output m)) as Hf
             by (by apply elem_of_list_filter). rewrite Hl in Hf. by apply elem_of_nil in Hf.
Qed.

(** *** whole models *)
Section whole.
  Context (E : Ext) (dd : list data_field) (d : doc_model).
  Let W : string → Prop := λ k, k ∈ written_names dd d.

  Lemma written_tree t k : t ∈ doc_trees d → k ∈ map df_name (tm_lt t) → W k.
  Proof. intros Ht Hk. unfold W, written_names. rewrite !elem_of_app. left. apply elem_of_concat_map. eauto. Qed.
  Lemma written_lt h k : h ∈ doc_headers d → k ∈ map df_name (mm_lt h) → W k.
  Proof.
    intros Ht Hk. unfold W, written_names. rewrite !elem_of_app. right; left. apply elem_of_concat_map. eauto.
  Qed.
  Lemma written_default h k :
    h ∈ doc_headers d → k ∈ map mf_name (filter (λ f, is_Some (mf_replacement f)) (mm_schema h)) → W k.
  Proof.
    intros Ht Hk. unfold W, written_names. rewrite !elem_of_app. do 2 right; left. apply elem_of_concat_map. eauto.
  Qed.

  Definition named (out : datarow) : Prop := ∀ k, is_Some (default ∅ out !! k) → k ∈ output_names dd d.

  Lemma frame_evaluate tk e r0 o r' e' :
    all_model (λ te, ∃ td t, t ∈ doc_trees d ∧ tree_of E dd td t te)
              (λ m, ∃ h, h ∈ doc_headers d ∧ mining_of dd h m)
              (λ x, er_model x ∈ doc_regrs d) e →
    evaluate E tk e r0 = (o, r', e') →
    all_model (λ te, ∃ td t, t ∈ doc_trees d ∧ tree_of E dd td t te)
              (λ m, ∃ h, h ∈ doc_headers d ∧ mining_of dd h m)
              (λ x, er_model x ∈ doc_regrs d) e' ∧
    frame W r0 r' ∧ ∀ out, o = Ok out → named out.
  Proof.
    intros Hall He.
    destruct (evaluate_rule E (λ te, ∃ td t, t ∈ doc_trees d ∧ tree_of E dd td t te)
              (λ m, ∃ h, h ∈ doc_headers d ∧ mining_of dd h m)
              (λ x, er_model x ∈ doc_regrs d) (frame W r0) named (λ _, True) (λ _, True))
      with (tk := tk) (e := e) (r := r0) (o := o) (r' := r') (e' := e') as (H1 & H2 & H3); try done.
    - intros tk' te r1 o1 r2 te' (td & t & Ht & Hte) Hr Hev.
      split; [exists td, t; split; [done|]; by eapply tree_of_stable|]. split.
      + pose proof Hte as (Hv & Hc & _ & _ & _ & _ & Hlt & _). rewrite tree_evaluate_run in Hev by done.
        rewrite Hlt in Hev. destruct (handle_input E (tm_lt t) r1) as [oi ri] eqn:Hi.
        pose proof (frame_handle_input _ _ _ _ _ Hi) as Hfr.
        assert (r2 = ri) as ->.
        { destruct oi; repeat case_match; by simplify_eq. }
        eapply frame_trans; [exact Hr|]. eapply frame_mono; [|exact Hfr]. intros k. by apply written_tree.
      + destruct o1 as [out| |]; try done. simpl. intros k Hk. unfold output_names. rewrite !elem_of_app.
        left. apply elem_of_concat_map. exists t. split; [done|]. by eapply tree_names.
    - intros x r1 Hx Hr. destruct (regr_evaluate E (er_model x) r1) as [out| |] eqn:Hev; try done.
      simpl. intros k Hk. unfold output_names. rewrite !elem_of_app.
      right; left. apply elem_of_concat_map. exists (er_model x). split; [done|]. by eapply regr_names.
    - by intros m (h & _ & td & segs & ->).
    - intros tk' m r1 (h & Hh & td & segs & ->) Hr. simpl.
      destruct (impute _ _ _ _) as [r2| |] eqn:Hi; try done.
      eapply frame_trans; [exact Hr|]. eapply frame_mono; [|by eapply frame_impute].
      intros k Hk. apply (written_default h k Hh). by apply default_values_keys.
    - intros m r1 o1 r2 (h & Hh & td & segs & ->) Hr Hi. split; [|by destruct o1].
      eapply frame_trans; [exact Hr|]. eapply frame_mono; [|by eapply frame_handle_input].
      intros k Hk. apply (written_lt h k Hh). revert Hk. simpl. unfold header_of. by case_str.
    - intros m (h & Hh & td & segs & ->) Hm tk' out r1 Hout Hr.
      destruct (copy_into _ _ _ _) as [r2| |] eqn:Hi; try done.
      eapply frame_trans; [exact Hr|]. eapply frame_mono; [|by eapply frame_copy].
      intros k Hk. unfold W, written_names. rewrite !elem_of_app. do 3 right.
      rewrite decide_True; [by apply Hout|]. apply Exists_exists. exists h. split; [done|].
      revert Hm. simpl. unfold header_of. by case_str.
    - intros k Hk. simpl in Hk. rewrite lookup_empty in Hk. by destruct Hk.
    - intros m mm (h & Hh & td & segs & ->) Hk k Hs. apply Hk in Hs.
      unfold output_names. rewrite !elem_of_app. right; right. apply elem_of_concat_map. exists h. split; [done|].
      exact Hs.
    - split; [done|]. split; [done|]. by intros out ->.
  Qed.
End whole.

