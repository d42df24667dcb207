(** Whole models: what NewModel builds, and an invariant rule for Evaluate over
    nested models. *)
From Verif Require Import Base Strconv Value Doc Expr Pred Tree Regression Model Lib
  SpecPred ProofsPred SpecExpr ProofsExpr SpecConstruct ProofsConstruct ProofsRange
  SpecTree ProofsTree ProofsOutput.

(** ** What NewModel builds *)

Lemma new_model_tree_inv E dd td t e td' :
  new_model E dd td (DTree t) = (Ok e, td') →
  ∃ te, e = ETree te ∧ td' = td ++ tm_lt t ∧ built_tree E dd td t te.
Proof.
  simpl. destruct (new_tree_model E dd td t) as [[te| |] td1] eqn:H; [|done..].
  intros [= <- <-]. apply new_tree_model_inv in H as [-> H]. eauto.
Qed.

(** the evaluators of a list of segments *)
Inductive built_segments (E : Ext) (dd : list data_field)
    : list derived_field → list (segment doc_model) → list emodel → list derived_field → Prop :=
| built_nil td : built_segments E dd td [] [] td
| built_cons td s segs d e es td1 td2 :
    sg_models s = [d] → new_model E dd td d = (Ok e, td1) →
    built_segments E dd td1 segs es td2 → built_segments E dd td (s :: segs) (e :: es) td2.

Lemma compile_segments_built E dd td acc segs sm td' :
  compile_segments (new_model E dd) td acc segs = (Ok tt, sm, td') →
  ∃ es, sm = acc ++ es ∧ built_segments E dd td segs es td'.
Proof.
  revert td acc. induction segs as [|[i ps ms] segs IH]; intros td acc; simpl.
  - intros [= <- <-]. exists []. rewrite app_nil_r. split; [done|constructor].
  - destruct ms as [|d [|? ?]]; [done| |done].
    destruct (new_model E dd td d) as [[e| |] td1] eqn:Hd; [|done..].
    intros (es & -> & Hes)%IH. exists (e :: es). rewrite <-app_assoc. split; [done|].
    by econstructor.
Qed.

Lemma compile_segments_of_built E dd td acc segs es td' :
  built_segments E dd td segs es td' →
  compile_segments (new_model E dd) td acc segs = (Ok tt, acc ++ es, td').
Proof.
  intros H. revert acc. induction H as [td|td [i ps ms] segs d e es td1 td2 Hd Hn H IH]; intros acc; simpl.
  - by rewrite app_nil_r.
  - simpl in Hd. subst. rewrite Hn. rewrite IH. by rewrite <-app_assoc.
Qed.

Lemma new_model_mining_inv E dd td h segs e td' :
  new_model E dd td (DMining h segs) = (Ok e, td') →
  ∃ sm, e = EMining (built_mining dd td h segs) sm ∧
        built_segments E dd (td ++ mm_lt h) segs sm td' ∧ mining_ok h.
Proof.
  rewrite new_model_mining. destruct (negb _) eqn:Hm; [done|].
  destruct (List.find _ _) as [o|] eqn:Hf; [done|].
  destruct (compile_segments _ _ _ _) as [[[[]| |] sm] td2] eqn:Hs; [|done..].
  intros [= <- <-]. apply compile_segments_built in Hs as (es & -> & Hes).
  exists es. split; [done|]. split; [done|].
  apply negb_false_iff, method_ok_iff in Hm. split; [done|]. by apply bad_feature_none.
Qed.

Lemma new_model_mining_of E dd td h segs sm td' :
  mining_ok h → built_segments E dd (td ++ mm_lt h) segs sm td' →
  new_model E dd td (DMining h segs) = (Ok (EMining (built_mining dd td h segs) sm), td').
Proof.
  intros [Hm Hf] Hs. rewrite new_model_mining.
  apply method_ok_iff in Hm. apply (proj2 (bad_feature_none _)) in Hf. rewrite Hm, Hf. simpl.
  by rewrite (compile_segments_of_built _ _ _ [] _ _ _ Hs).
Qed.

Lemma built_segments_length E dd td segs sm td' :
  built_segments E dd td segs sm td' → length sm = length segs.
Proof. induction 1; simpl; congruence. Qed.

(** ** Tree evaluation in one piece *)

Lemma tree_evaluate_run E tk t r :
  et_validated t = true → et_compiled t = true →
  tree_evaluate E tk t r =
    match handle_input E (tm_lt (et_model t)) r with
    | (Ok _, r') =>
        match node_evaluate E (tree_ctx t) (tm_strategy (et_model t)) r' tk (et_root t) with
        | Ok (scores, RT) =>
            let '(o, keys) := tree_output E t scores in
            (o, r', ETree_ (et_validated t) (et_compiled t) (et_dd t) (et_model t) (et_ft t)
                           (et_root t) keys (et_target t))
        | Ok _ => (Ok None, r', t)
        | Err e => (Err e, r', t)
        | Panic p => (Panic p, r', t)
        end
    | (Err e, r') => (Err e, r', t)
    | (Panic p, r') => (Panic p, r', t)
    end.
Proof. intros H1 H2. unfold tree_evaluate. by rewrite H1, H2. Qed.

Lemma mining_evaluate_run E tk h sm r :
  em_validated h = true → em_compiled h = true →
  evaluate E tk (EMining h sm) r =
    match impute E (4 :: tk) (em_defaults h) r with
    | Ok r1 =>
        match handle_input E (mm_lt (em_hdr h)) r1 with
        | (Ok _, r2) =>
            match run_method E tk h (λ i s r, evaluate E (5 :: i :: tk) s r) sm r2 with
            | (o, r3, sm') => (o, r3, EMining h sm')
            end
        | (Err x, r2) => (Err x, r2, EMining h sm)
        | (Panic p, r2) => (Panic p, r2, EMining h sm)
        end
    | Err x => (Err x, r, EMining h sm)
    | Panic p => (Panic p, r, EMining h sm)
    end.
Proof. intros H1 H2. simpl. by rewrite H1, H2. Qed.

(** ** A failing derived field fails Evaluate *)

Lemma failing_transformation_tree E dd td t e td' tk l1 df l2 r r1 x :
  new_model E dd td (DTree t) = (Ok e, td') →
  tm_lt t = l1 ++ df :: l2 →
  handle_input E l1 r = (Ok tt, r1) →
  handle_expr E (df_expr df) r1 = Err x →
  evaluate E tk e r = (Err x, r1, e).
Proof.
  intros (te & -> & _ & Hb)%new_model_tree_inv Hlt H1 H2.
  destruct Hb as (Hv & Hc & _ & _ & Hm & _). simpl.
  rewrite tree_evaluate_run by done. rewrite Hm. simpl. rewrite Hlt.
  by rewrite (handle_input_fails _ _ _ _ _ _ _ H1 H2).
Qed.

Lemma failing_transformation_mining E dd td h segs e td' tk l1 df l2 r r0 r1 x :
  new_model E dd td (DMining h segs) = (Ok e, td') →
  mm_lt h = l1 ++ df :: l2 →
  impute E (4 :: tk) (default_values (mm_schema h)) r = Ok r0 →
  handle_input E l1 r0 = (Ok tt, r1) →
  handle_expr E (df_expr df) r1 = Err x →
  evaluate E tk e r = (Err x, r1, e).
Proof.
  intros (sm & -> & _)%new_model_mining_inv Hlt H0 H1 H2.
  rewrite mining_evaluate_run by done. simpl. rewrite H0, header_of_lt, Hlt.
  by rewrite (handle_input_fails _ _ _ _ _ _ _ H1 H2).
Qed.

(** ** The keys of sum and average *)

Definition sum_keys (h : emining) : list string :=
  map of_name (em_outputs h) ++ map tg_field (em_targets h).

Lemma foldl_insert_const_keys {A} (f : A → string) (x : f64) l (m : gmap string f64) k :
  is_Some (foldl (λ m a, <[f a := x]> m) m l !! k) ↔ k ∈ map f l ∨ is_Some (m !! k).
Proof.
  revert m. induction l as [|a l IH]; intros m; simpl; [set_solver|].
  rewrite IH, elem_of_cons. destruct (decide (k = f a)) as [->|Hne].
  - rewrite lookup_insert. naive_solver.
  - rewrite lookup_insert_ne by done. naive_solver.
Qed.

Lemma score_init_keys outs tgs k :
  is_Some (score_init outs tgs !! k) ↔ k ∈ map of_name outs ++ map tg_field tgs.
Proof.
  unfold score_init. rewrite (foldl_insert_const_keys tg_field), (foldl_insert_const_keys of_name).
  rewrite elem_of_app. setoid_rewrite lookup_empty. rewrite is_Some_alt. tauto.
Qed.

Lemma score_init_zero outs tgs k v : score_init outs tgs !! k = Some v → v = fzero.
Proof.
  unfold score_init.
  assert (∀ A (f : A → string) l (m : gmap string f64),
    (∀ k v, m !! k = Some v → v = fzero) →
    ∀ k v, foldl (λ m a, <[f a := fzero]> m) m l !! k = Some v → v = fzero) as H.
  { intros A f l. induction l as [|a l IH]; intros m Hm k' v'; simpl; [by apply Hm|].
    apply IH. intros k2 v2. destruct (decide (k2 = f a)) as [->|Hne].
    - rewrite lookup_insert. by intros [= <-].
    - rewrite lookup_insert_ne by done. apply Hm. }
  apply (H target tg_field), (H output_field of_name). intros k' v' Hk. by rewrite lookup_empty in Hk.
Qed.

Lemma sum_segments_keys {M} E tk cl (ev : nat → M → datarow → outcome M) i scores sm r out r' sm' :
  sum_segments E tk cl ev i scores sm r = (Ok out, r', sm') →
  ∀ k, is_Some (out !! k) ↔ is_Some (scores !! k).
Proof.
  revert i scores r out r' sm'. induction sm as [|s sm IH]; intros i scores r out r' sm'; simpl.
  - by intros [= <- <- <-].
  - destruct (ev i s r) as [[[o|e|p] r1] s']; [|done..].
    destruct (sum_segments _ _ _ _ _ _ _ _) as [[o2 r2] sm2] eqn:Hg.
    intros [= -> <- <-] k. rewrite (IH _ _ _ _ _ _ Hg), score_add_lookup. by rewrite fmap_is_Some.
Qed.

Lemma rescale_step_keys m t k :
  is_Some (m !! tg_field t) → is_Some (rescale_step m t !! k) ↔ is_Some (m !! k).
Proof.
  intros Ht. unfold rescale_step.
  assert (∀ (m : gmap string f64) x, is_Some (m !! tg_field t) →
    is_Some (<[tg_field t := x]> m !! k) ↔ is_Some (m !! k)) as H.
  { intros m' x Hm'. destruct (decide (tg_field t = k)) as [<-|Hne].
    - rewrite lookup_insert. naive_solver.
    - by rewrite lookup_insert_ne. }
  destruct (tg_factor t), (tg_constant t); rewrite ?H; try done; rewrite ?lookup_insert; eauto.
Qed.

Lemma rescale_keys m tgs k :
  (∀ t, t ∈ tgs → is_Some (m !! tg_field t)) →
  is_Some (foldl rescale_step m tgs !! k) ↔ is_Some (m !! k).
Proof.
  revert m. induction tgs as [|t tgs IH]; intros m H; [done|]. cbn [foldl].
  rewrite IH.
  - apply rescale_step_keys, H. by left.
  - intros t' Ht'. apply rescale_step_keys; apply H; (by left) || (by right).
Qed.

Lemma sum_models_keys {M} E tk h (ev : nat → M → datarow → outcome M) sm r out r' sm' :
  sum_models E tk h ev sm r = (Ok out, r', sm') →
  ∀ k, is_Some (out !! k) ↔ k ∈ sum_keys h.
Proof.
  unfold sum_models.
  destruct (sum_segments _ _ _ _ _ _ _ _) as [[[scores|e|p] r1] sm1] eqn:Hs; [|done..].
  intros [= <- <- <-] k. rewrite score_out_eq, lookup_fmap, fmap_is_Some.
  assert (∀ k, is_Some (scores !! k) ↔ k ∈ sum_keys h) as Hk.
  { intros k'. rewrite (sum_segments_keys _ _ _ _ _ _ _ _ _ _ _ Hs). apply score_init_keys. }
  rewrite rescale_keys; [apply Hk|]. intros t Ht. apply Hk. unfold sum_keys.
  apply elem_of_app. right. apply elem_of_list_In, in_map, elem_of_list_In, Ht.
Qed.

Lemma average_models_keys {M} E tk h (ev : nat → M → datarow → outcome M) sm r out r' sm' :
  average_models E tk h ev sm r = (Ok out, r', sm') →
  ∀ k, is_Some (out !! k) ↔ k ∈ sum_keys h.
Proof.
  unfold average_models.
  destruct (sum_models _ _ _ _ _ _) as [[[scores|e|p] r1] sm1] eqn:Hs; [|done..].
  intros [= <- <- <-] k. rewrite average_row_eq, lookup_fmap, fmap_is_Some.
  by eapply sum_models_keys.
Qed.

(** ** An invariant rule *)

Definition good (OUT : datarow → Prop) (QE : err → Prop) (QP : panic → Prop) (o : res datarow) : Prop :=
  match o with Ok out => OUT out | Err e => QE e | Panic p => QP p end.

Section method_rule.
  Context {M : Type} (E : Ext) (ev : nat → M → datarow → outcome M).
  Context (I J : M → Prop) (HIJ : ∀ s, I s → J s) (RI : datarow → Prop) (OUT : datarow → Prop)
          (QE : err → Prop) (QP : panic → Prop).
  Context (Hev : ∀ i s r o r' s', I s → RI r → ev i s r = (o, r', s') →
                 J s' ∧ RI r' ∧ good OUT QE QP o).
  Definition copy_keeps : Prop := ∀ tk out r, OUT out → RI r →
     match copy_into E tk out r with Ok r' => RI r' | Err e => QE e | Panic p => QP p end.

  Lemma select_first_rule sm r o r' sm' :
    Forall I sm → RI r → QE ENoSegments → select_first (ev 0) sm r = (o, r', sm') →
    Forall J sm' ∧ RI r' ∧ good OUT QE QP o.
  Proof.
    intros Hsm Hr Hq. destruct sm as [|s sm]; simpl.
    - intros [= <- <- <-]. done.
    - destruct (ev 0 s r) as [[o1 r1] s1] eqn:H1. intros [= <- <- <-].
      apply Forall_cons in Hsm as [HIs Hsm']. destruct (Hev _ _ _ _ _ _ HIs Hr H1) as (? & ? & ?).
      split; [constructor; try done; by eapply Forall_impl|done].
  Qed.

  Lemma chain_rule tk i lst sm r o r' sm' :
    copy_keeps → Forall I sm → RI r → OUT lst → chain E tk ev i lst sm r = (o, r', sm') →
    Forall J sm' ∧ RI r' ∧ good OUT QE QP o.
  Proof.
    intros Hcopy. revert i lst r o r' sm'. induction sm as [|s sm IH]; intros i lst r o r' sm' Hsm Hr Hl; simpl.
    - intros [= <- <- <-]. done.
    - apply Forall_cons in Hsm as [HIs Hsm']. pose proof (Hcopy (0 :: i :: tk) lst r Hl Hr) as Hc.
      destruct (copy_into _ _ _ _) as [r1|e|p].
      + destruct (ev i s r1) as [[o2 r2] s2] eqn:H2.
        destruct (Hev _ _ _ _ _ _ HIs Hc H2) as (? & ? & Ho).
        destruct o2 as [out|e|p]; simpl in Ho.
        * destruct (chain _ _ _ _ _ _ _) as [[o3 r3] sm3] eqn:H3. intros [= <- <- <-].
          edestruct IH as (? & ? & ?); [..|exact H3|]; try done. split; [constructor; try done; by eapply Forall_impl|done].
        * intros [= <- <- <-]. split; [constructor; try done; by eapply Forall_impl|done].
        * intros [= <- <- <-]. split; [constructor; try done; by eapply Forall_impl|done].
      + intros [= <- <- <-]. split; [constructor; try apply HIJ; try done; by eapply Forall_impl|done].
      + intros [= <- <- <-]. split; [constructor; try apply HIJ; try done; by eapply Forall_impl|done].
  Qed.

  Lemma sum_segments_rule tk cl i scores sm r o r' sm' :
    Forall I sm → RI r → sum_segments E tk cl ev i scores sm r = (o, r', sm') →
    Forall J sm' ∧ RI r' ∧ match o with Ok _ => True | Err e => QE e | Panic p => QP p end.
  Proof.
    revert i scores r o r' sm'. induction sm as [|s sm IH]; intros i scores r o r' sm' Hsm Hr; simpl.
    - intros [= <- <- <-]. done.
    - apply Forall_cons in Hsm as [HIs Hsm']. destruct (ev i s r) as [[o2 r2] s2] eqn:H2.
      destruct (Hev _ _ _ _ _ _ HIs Hr H2) as (? & ? & Ho).
      destruct o2 as [out|e|p]; simpl in Ho.
      + destruct (sum_segments _ _ _ _ _ _ _ _) as [[o3 r3] sm3] eqn:H3. intros [= <- <- <-].
        edestruct IH as (? & ? & ?); [..|exact H3|]; try done. split; [constructor; try done; by eapply Forall_impl|done].
      + intros [= <- <- <-]. split; [constructor; try done; by eapply Forall_impl|done].
      + intros [= <- <- <-]. split; [constructor; try done; by eapply Forall_impl|done].
  Qed.

  Lemma run_method_rule tk h sm r o r' sm' :
    (mm_method (em_hdr h) = "modelChain" → copy_keeps) →
    Forall I sm → RI r → QE ENoSegments → QE (EMultipleModelMethod (mm_method (em_hdr h))) →
    OUT (Some ∅) →
    (∀ m, (∀ k, is_Some (m !! k) ↔ k ∈ sum_keys h) → OUT (Some m)) →
    run_method E tk h ev sm r = (o, r', sm') →
    Forall J sm' ∧ RI r' ∧ good OUT QE QP o.
  Proof.
    intros Hcopy Hsm Hr Hq1 Hq2 Ho1 Ho2. unfold run_method.
    assert (Hsum : ∀ o r' sm', sum_models E tk h ev sm r = (o, r', sm') →
      Forall J sm' ∧ RI r' ∧ match o with Ok _ => True | Err e => QE e | Panic p => QP p end).
    { intros o0 r0 sm0. unfold sum_models.
      destruct (sum_segments _ _ _ _ _ _ _ _) as [[o1 r1] sm1] eqn:Hs.
      destruct (sum_segments_rule _ _ _ _ _ _ _ _ _ Hsm Hr Hs) as (? & ? & ?).
      by destruct o1; intros [= <- <- <-]. }
    destruct (_ =s "average").
    { destruct (average_models _ _ _ _ _ _) as [[o1 r1] sm1] eqn:Ha.
      pose proof (average_models_keys E tk h ev sm r) as Hkeys.
      unfold average_models in Ha.
      destruct (sum_models E tk h ev sm r) as [[o2 r2] sm2] eqn:Hs.
      destruct (Hsum _ _ _ eq_refl) as (H1 & H2 & H3).
      destruct o2 as [out|e|p]; simplify_eq; simpl; intros [= <- <- <-]; try done.
      split; [done|]. split; [done|]. simpl. apply Ho2. eapply Hkeys.
      unfold average_models. by rewrite Hs. }
    destruct (_ =s "sum").
    { destruct (sum_models E tk h ev sm r) as [[o2 r2] sm2] eqn:Hs.
      destruct (Hsum _ _ _ eq_refl) as (H1 & H2 & H3).
      destruct o2 as [out|e|p]; simpl; intros [= <- <- <-]; try done.
      split; [done|]. split; [done|]. simpl. apply Ho2. by eapply sum_models_keys. }
    destruct (String.eqb_spec (mm_method (em_hdr h)) "modelChain"); [apply chain_rule; auto|].
    destruct (_ =s "selectFirst"); [by apply select_first_rule|].
    intros [= <- <- <-]. split; [by eapply Forall_impl|done].
  Qed.
End method_rule.

(** A property of every evaluator inside a nested model. *)
Fixpoint all_model (PT : etree → Prop) (PM : emining → Prop) (PR : eregr → Prop) (e : emodel) : Prop :=
  match e with
  | ETree t => PT t
  | EMining h sm => PM h ∧ (fix go l := match l with [] => True | s :: l' => all_model PT PM PR s ∧ go l' end) sm
  | ERegr x => PR x
  end.

Lemma all_model_mining PT PM PR h sm :
  all_model PT PM PR (EMining h sm) ↔ PM h ∧ Forall (all_model PT PM PR) sm.
Proof.
  simpl. apply and_iff_compat_l. induction sm as [|s sm IH]; [by split|].
  rewrite Forall_cons, <-IH. done.
Qed.

Section evaluate_rule.
  Context (E : Ext) (PT : etree → Prop) (PM : emining → Prop) (PR : eregr → Prop).
  Context (RI : datarow → Prop) (OUT : datarow → Prop) (QE : err → Prop) (QP : panic → Prop).
  Context (Htree : ∀ tk t r o r' t', PT t → RI r → tree_evaluate E tk t r = (o, r', t') →
                   PT t' ∧ RI r' ∧ good OUT QE QP o).
  Context (Hregr : ∀ x r, PR x → RI r → good OUT QE QP (regr_evaluate E (er_model x) r)).
  Context (Hflags : ∀ h, PM h → em_validated h = true ∧ em_compiled h = true).
  Context (Himp : ∀ tk h r, PM h → RI r →
    match impute E tk (em_defaults h) r with Ok r' => RI r' | Err e => QE e | Panic p => QP p end).
  Context (Hinp : ∀ h r o r', PM h → RI r → handle_input E (mm_lt (em_hdr h)) r = (o, r') →
    RI r' ∧ match o with Ok _ => True | Err e => QE e | Panic p => QP p end).
  Context (Hcopy : ∀ h, PM h → mm_method (em_hdr h) = "modelChain" → copy_keeps E RI OUT QE QP).
  Context (Hq1 : QE ENoSegments) (Hq2 : ∀ s, QE (EMultipleModelMethod s)).
  Context (Ho1 : OUT (Some ∅))
          (Ho2 : ∀ h m, PM h → (∀ k, is_Some (m !! k) ↔ k ∈ sum_keys h) → OUT (Some m)).

  Lemma evaluate_rule tk e r o r' e' :
    all_model PT PM PR e → RI r → evaluate E tk e r = (o, r', e') →
    all_model PT PM PR e' ∧ RI r' ∧ good OUT QE QP o.
  Proof.
    revert tk r o r' e'. induction e as [t|x|h sm IH] using emodel_rect'; intros tk r o r' e' He Hr.
    - simpl. destruct (tree_evaluate E tk t r) as [[o1 r1] t1] eqn:Ht. intros [= <- <- <-]. eauto.
    - simpl. intros [= <- <- <-]. simpl in He. eauto.
    - apply all_model_mining in He as [Hh Hsm]. destruct (Hflags _ Hh).
      rewrite mining_evaluate_run by done.
      pose proof (Himp (4 :: tk) h r Hh Hr) as Hi. destruct (impute _ _ _ _) as [r1|x|p].
      2,3: intros [= <- <- <-]; split; [by apply all_model_mining|done].
      destruct (handle_input _ _ _) as [o2 r2] eqn:H2.
      destruct (Hinp _ _ _ _ Hh Hi H2) as [Hr2 Ho].
      destruct o2 as [[]|x|p].
      2,3: intros [= <- <- <-]; split; [by apply all_model_mining|done].
      destruct (run_method _ _ _ _ _ _) as [[o3 r3] sm3] eqn:H3. intros [= <- <- <-].
      rewrite all_model_mining.
      eapply (run_method_rule E _ (λ e, all_model PT PM PR e ∧ (∀ tk r o r' e',
         all_model PT PM PR e → RI r → evaluate E tk e r = (o, r', e') →
         all_model PT PM PR e' ∧ RI r' ∧ good OUT QE QP o)) (all_model PT PM PR))
        in H3 as (? & ? & ?); try done.
      + naive_solver.
      + naive_solver.
      + by apply Hcopy.
      + by apply Forall_and.
      + naive_solver.
  Qed.
End evaluate_rule.
