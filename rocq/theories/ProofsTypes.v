(** Rows returned by Evaluate hold what the answering model may report (C142). *)
From Verif Require Import Base Strconv Value Doc Expr Pred Tree Regression Model Lib ProofsPred ProofsRange
  ProofsConstruct ProofsDoc ProofsWhole ProofsOutput ProofsClass ProofsEval SpecTree SpecModel ProofsFrame ProofsMining
  SpecTypes.

Lemma class_row_values target scores k v :
  class_row target scores !! k = Some v →
  (k = target ∧ v = GStr (sc_value (pick_best scores))) ∨
  ∃ s, s ∈ scores ∧ k = prob_key (sc_value s) ∧ v = GF64 (sc_prob s).
Proof.
  rewrite class_row_lookup. destruct (last _) as [p|] eqn:Hl.
  - intros [= <-]. right. apply last_filter_some in Hl as (l1 & l2 & Hl & Hp & _).
    assert (p ∈ map (λ s, (prob_key (sc_value s), GF64 (sc_prob s))) scores) as Hin.
    { rewrite Hl. apply elem_of_app. right. left. }
    apply elem_of_list_In, in_map_iff in Hin as (s & <- & Hs%elem_of_list_In). exists s. by simpl in *.
  - intros [<- <-]%lookup_singleton_Some. by left.
Qed.

Lemma pick_best_class P ND scores :
  class_list ND P scores → sc_value (pick_best scores) = "" ∨ P (sc_value (pick_best scores)).
Proof.
  intros [_ Hin]. destruct (pick_best_inv scores) as (_ & [[-> _]|(_ & l1 & l2 & Hl & _)]); [by left|].
  right. apply Hin. rewrite Hl at 2. rewrite fmap_app. apply elem_of_app. right. left.
Qed.

Lemma tree_reports E dd td t te tk r out r' te' k v :
  tree_of E dd td t te → tree_evaluate E tk te r = (Ok (Some out), r', te') →
  out !! k = Some v → may_report E dd (DTree t) k v.
Proof.
  intros Ht He Hk. destruct (report_classes E dd td t te tk r out r' te' Ht He) as (scores & Hc & Hr).
  unfold report in Hr. case_decide as Hf.
  - injection Hr as <-. apply class_row_values in Hk as [[-> ->]|(s & Hs & -> & ->)].
    + constructor; [done|]. by eapply (pick_best_class (λ v, v ∈ tree_classes dd t)).
    + constructor; [done|]. destruct Hc as [_ Hin]. apply Hin. by apply elem_of_list_fmap_1.
  - destruct scores as [|s scores]; [done|]. destruct (ext_parse_float E (sc_value s)) as [x|] eqn:Hx; [|done].
    injection Hr as <-. apply lookup_singleton_Some in Hk as [<- <-].
    econstructor; [done| |exact Hx]. destruct Hc as [_ Hin]. apply Hin. left.
Qed.

Definition floats (o : row) : Prop := ∀ k v, o !! k = Some v → ∃ x, v = GF64 x.

Lemma floats_empty : floats ∅.
Proof. intros k v. by rewrite lookup_empty. Qed.

Lemma floats_insert o k x : floats o → floats (<[k := GF64 x]> o).
Proof. intros Ho k' v [[_ <-]|[_ H]]%lookup_insert_Some; [eauto|by eapply Ho]. Qed.

Lemma binary_floats E m r f o out ts :
  floats o → binary_tables E m r f o ts = Ok out → floats (default ∅ out).
Proof.
  revert f o. induction ts as [|t ts IH]; intros f o Ho; simpl.
  - by intros [= <-].
  - intros (pred & _ & H)%rbind_ok. refine (IH _ _ _ H). clear IH H.
    revert o Ho. induction (rm_output m) as [|x l IHl]; intros o Ho; [done|].
    cbn [foldl]. apply IHl. destruct (_ =s _); [by apply floats_insert|done].
Qed.

Lemma multi_floats E meth ys o l out :
  floats o → multi_out E meth ys o l = Ok out → floats (default ∅ out).
Proof.
  revert o. induction l as [|[tg y] l IH]; intros o Ho; simpl.
  - by intros [= <-].
  - repeat case_str; [intros H; by eapply IH, H; apply floats_insert..|done].
Qed.

Lemma regr_floats E m r out : regr_evaluate E m r = Ok (Some out) → floats out.
Proof.
  unfold regr_evaluate. destruct (_ =s _).
  - unfold eval_regression. destruct (rm_tables m) as [|tb [|? ?]]; [done| |done].
    destruct (rm_output m) as [|o [|? ?]]; [done| |done].
    intros (y & _ & (p & _ & [= <-])%rbind_ok)%rbind_ok.
    intros k v [_ <-]%lookup_singleton_Some. eauto.
  - destruct (_ =s _); simpl; [|done]. destruct (_ =? _)%nat.
    + unfold eval_binary. intros H. eapply (binary_floats _ _ _ _ _ (Some out)); [|exact H].
      apply floats_empty.
    + unfold eval_multiclass. intros (ys & _ & H)%rbind_ok.
      eapply (multi_floats _ _ _ _ _ (Some out)); [|exact H]. apply floats_empty.
Qed.

Lemma sum_floats {M} E tk h (ev : nat → M → datarow → outcome M) sm r out r' sm' :
  sum_models E tk h ev sm r = (Ok out, r', sm') → floats out.
Proof.
  unfold sum_models. destruct (sum_segments _ _ _ _ _ _ _ _) as [[[scores|e|p] r1] sm1]; [|done..].
  intros [= <- <- <-] k v. rewrite score_out_eq, lookup_fmap. intros (x & _ & ->)%fmap_Some. eauto.
Qed.

Lemma average_floats {M} E tk h (ev : nat → M → datarow → outcome M) sm r out r' sm' :
  average_models E tk h ev sm r = (Ok out, r', sm') → floats out.
Proof.
  unfold average_models. destruct (sum_models _ _ _ _ _ _) as [[[scores|e|p] r1] sm1]; [|done..].
  intros [= <- <- <-] k v. rewrite average_row_eq, lookup_fmap. intros (x & _ & ->)%fmap_Some. eauto.
Qed.

(** a chain that succeeds returns what its last member returned *)
Lemma chain_last {M} E tk (ev : nat → M → datarow → outcome M) i lst sm s r out r' sm' :
  last sm = Some s → chain E tk ev i lst sm r = (Ok out, r', sm') →
  ∃ j r1 r2 s', ev j s r1 = (Ok out, r2, s').
Proof.
  revert i lst r r' sm'. induction sm as [|a sm IH]; intros i lst r r' sm' Hl; [done|]. simpl.
  destruct (copy_into _ _ _ _) as [r1| |]; [|done..].
  destruct (ev i a r1) as [[[o|x|p] r2] a'] eqn:Hev; [|done..].
  destruct (chain E tk ev (S i) o sm r2) as [[o2 r3] sm2] eqn:Hc. intros [= -> <- <-].
  destruct sm as [|b sm].
  - simpl in Hl, Hc. simplify_eq. eauto.
  - eapply IH; [|exact Hc]. by rewrite last_cons_cons in Hl.
Qed.

Lemma segment_models_last E dd td segs es e :
  segment_models E dd td segs es → last es = Some e →
  ∃ s d td1 td2, last segs = Some s ∧ sg_models s = [d] ∧ new_model E dd td1 d = (Ok e, td2).
Proof.
  induction 1 as [td|td s segs d e' es td1 Hd Hn H IH]; intros Hl; [done|].
  destruct es as [|b es].
  - inversion H; subst. simpl in Hl. simplify_eq. exists s, d, td, td1. done.
  - rewrite last_cons_cons in Hl. destruct (IH Hl) as (s' & d' & td2 & td3 & Hs & ?).
    exists s', d', td2, td3. split; [|done]. destruct segs; [done|]. by rewrite last_cons_cons.
Qed.

Lemma reports E dd td d e td' tk r out r' e' k v :
  new_model E dd td d = (Ok e, td') → evaluate E tk e r = (Ok (Some out), r', e') →
  out !! k = Some v → may_report E dd d k v.
Proof.
  revert td d td' tk r out r' e'.
  induction e as [te|x|h sm IH] using emodel_rect'; intros td d td' tk r out r' e' Hn He Hk.
  - destruct d as [t|h segs|m|o].
    + apply new_model_tree_of in Hn as (te' & [= <-] & Ht). simpl in He.
      destruct (tree_evaluate E tk te r) as [[o1 r1] te1] eqn:Hev. simplify_eq. by eapply tree_reports.
    + by destruct (mining_parts _ _ _ _ _ _ _ Hn) as (es & ? & _).
    + simpl in Hn. by repeat case_match.
    + simpl in Hn. by repeat case_match.
  - destruct d as [t|h segs|m|o].
    + by apply new_model_tree_of in Hn as (te' & ? & Ht).
    + by destruct (mining_parts _ _ _ _ _ _ _ Hn) as (es & ? & _).
    + pose proof (new_model_all _ _ _ _ _ _ Hn) as Hm. cbn [evaluate] in He. injection He as He _ _.
      assert (er_model x = m) as Hx.
      { simpl in Hm. set_solver. }
      rewrite Hx in He. destruct (regr_floats _ _ _ _ He k v Hk) as (y & ->). constructor.
      eapply regr_names; [exact He|]. simpl. by rewrite Hk.
    + simpl in Hn. by repeat case_match.
  - destruct d as [t|h' segs|m|o].
    + by apply new_model_tree_of in Hn as (te' & ? & Ht).
    + pose proof Hn as Hn'. destruct (mining_parts _ _ _ _ _ _ _ Hn) as (es & Hes & Hseg & _).
      injection Hes as -> ->. apply new_model_mining_inv in Hn' as (es' & _ & _ & Hmeth).
      rewrite mining_evaluate_run in He by done.
      destruct (impute _ _ _ _) as [r1| |]; [|done..]. destruct (handle_input _ _ _) as [[?| |] r2]; [|done..].
      destruct (run_method _ _ _ _ _ _) as [[o3 r3] sm3] eqn:Hrun. simplify_eq.
      unfold run_method in Hrun. cbn [built_mining em_hdr] in Hrun.
      assert (sum_keys (built_mining dd td h' segs) = header_output_names h') as Hkeys by done.
      destruct (mm_method (header_of h') =s "average") eqn:Ha; [|destruct (mm_method (header_of h') =s "sum") eqn:Hsu].
      * apply String.eqb_eq in Ha.
        destruct (average_models _ _ _ _ _ _) as [[[o| |] r4] sm4] eqn:Hs; [|done..]. simpl in Hrun. simplify_eq.
        destruct (average_floats _ _ _ _ _ _ _ _ _ Hs k v Hk) as (y & ->). constructor.
        -- unfold header_of in Ha. destruct (mm_method h' =s "") eqn:H0; [done|]. rewrite Ha. set_solver.
        -- rewrite <- Hkeys. eapply average_models_keys; [exact Hs|]. by rewrite Hk.
      * apply String.eqb_eq in Hsu.
        destruct (sum_models _ _ _ _ _ _) as [[[o| |] r4] sm4] eqn:Hs; [|done..]. simpl in Hrun. simplify_eq.
        destruct (sum_floats _ _ _ _ _ _ _ _ _ Hs k v Hk) as (y & ->). constructor.
        -- unfold header_of in Hsu. destruct (mm_method h' =s "") eqn:H0.
           ++ apply String.eqb_eq in H0. rewrite H0. set_solver.
           ++ rewrite Hsu. set_solver.
        -- rewrite <- Hkeys. eapply sum_models_keys; [exact Hs|]. by rewrite Hk.
      * assert (mm_method (header_of h') = mm_method h') as Hm.
        { unfold header_of in *. by destruct (mm_method h' =s ""). }
        rewrite Hm in Hrun. destruct (mm_method h' =s "modelChain") eqn:Hch.
        -- apply String.eqb_eq in Hch. destruct (last es) as [e1|] eqn:Hl.
           ++ destruct (chain_last _ _ _ _ _ _ _ _ _ _ _ Hl Hrun) as (j & r4 & r5 & s' & Hev).
              destruct (segment_models_last _ _ _ _ _ _ Hseg Hl) as (s & d & td1 & td2 & Hs & Hd & Hnd).
              apply (mr_last E dd h' segs s d); [done..|].
              apply last_Some in Hl as (es1 & ->). apply Forall_app in IH as [_ IH%Forall_inv].
              by eapply IH.
           ++ apply last_None in Hl as ->. simpl in Hrun. simplify_eq.
        -- destruct (mm_method h' =s "selectFirst") eqn:Hse; [|done]. apply String.eqb_eq in Hse.
           inversion Hseg as [|? s segs' d e1 es1 td1 Hd Hnd Hrest]; subst; try done.
           simpl in Hrun. destruct (evaluate E (5 :: 0 :: tk) e1 r2) as [[o r4] e2] eqn:Hev. simplify_eq.
           apply (mr_first E dd h' (s :: segs') s d); [done..|]. apply Forall_inv in IH. by eapply IH.
    + simpl in Hn. by repeat case_match.
    + simpl in Hn. by repeat case_match.
Qed.
