(** Proofs about documents that nest the same models differently. *)
From Verif Require Import Base Strconv Value Doc Expr Pred Tree Regression Model Lib
  SpecPred ProofsPred SpecExpr ProofsExpr SpecConstruct ProofsConstruct ProofsRange
  SpecTree ProofsTree ProofsOutput ProofsEval ProofsDoc ProofsSafe ProofsWhole ProofsSim ProofsEssence SpecNest.

Lemma regrouped_trees d d' : regrouped d d' → doc_trees d = doc_trees d'.
Proof.
  induction 1 as [h l1 s g l2 inner _ [_ Hs] _ _ _|g s d _ _ [_ Hs]|h l1 i ps d d' l2 _ IH|d|d d' _ IH|d d' d'' _ IH1 _ IH2];
    cbn [doc_trees].
  - rewrite !map_app, !concat_app. f_equal. cbn [map concat]. rewrite Hs. cbn [map concat doc_trees]. by rewrite app_nil_r, concat_app || rewrite app_nil_r.
  - cbn [map concat]. rewrite Hs. cbn [map concat]. by rewrite !app_nil_r.
  - rewrite !map_app, !concat_app. cbn [map concat sg_models]. by rewrite IH.
  - done.
  - done.
  - by rewrite IH1.
Qed.

(** ** Chains of functions *)
Definition answer : Type := res datarow * datarow.
Fixpoint chained (E : Ext) (fs : list (datarow → answer)) (lst : datarow) (r : datarow) : answer :=
  match fs with
  | [] => (Ok lst, r)
  | f :: fs' =>
      match copy_into E [] lst r with
      | Ok r1 => match f r1 with (Ok out, r2) => chained E fs' out r2 | x => x end
      | Err x => (Err x, r)
      | Panic p => (Panic p, r)
      end
  end.
Lemma chain_chained {M} E (ev : nat → M → datarow → outcome M) tk sm fs :
  Forall2 (λ s f, ∀ i r, (ev i s r).1 = f r) sm fs →
  ∀ i lst r, (chain E tk ev i lst sm r).1 = chained E fs lst r.
Proof.
  induction 1 as [|s f sm fs Hs _ IH]; intros i lst r; simpl; [done|].
  rewrite (copy_into_world E E _ []). destruct (copy_into _ _ _ _) as [r1|x|p]; [|done..].
  rewrite <- (Hs i r1). destruct (ev i s r1) as [[[out|x|p] r2] s']; simpl; [|done..].
  rewrite <- (IH (S i)). by destruct (chain _ _ _ _ _ _ _) as [[? ?] ?].
Qed.
Lemma chained_app E a b : ∀ lst r, chained E (a ++ b) lst r =
  match chained E a lst r with (Ok out, r') => chained E b out r' | x => x end.
Proof.
  induction a as [|f a IH]; intros lst r; simpl; [done|]. destruct (copy_into _ _ _ _) as [r1|x|p]; [|done..].
  destruct (f r1) as [[out|x|p] r2]; [apply IH|done..].
Qed.
Lemma copy_nothing E r : copy_into E [] (Some ∅) r = Ok r.
Proof. unfold copy_into. simpl. by rewrite map_range_empty. Qed.
Lemma chained_inner E f fi b : (∀ r, f r = chained E fi (Some ∅) r) → fi ≠ [] ∨ b ≠ [] →
  ∀ lst r, chained E (f :: b) lst r = chained E (fi ++ b) lst r.
Proof.
  intros Hf Hne lst r. cbn [chained]. destruct fi as [|g fi]; cbn [app].
  - destruct b as [|g b]; [by destruct Hne|]. cbn [chained]. destruct (copy_into E [] lst r) as [r1|x|p]; [|done..].
    rewrite Hf. cbn [chained]. by rewrite copy_nothing.
  - cbn [chained]. destruct (copy_into E [] lst r) as [r1|x|p]; [|done..].
    rewrite Hf. cbn [chained]. rewrite copy_nothing. destruct (g r1) as [[out|x|p] r2]; [|done..].
    by rewrite chained_app.
Qed.

(** ** Documents that are alike *)
Definition same_answers (E : Ext) (e e' : emodel) : Prop := ∀ tk tk' r, (evaluate E tk e r).1 = (evaluate E tk' e' r).1.
Definition alike (E : Ext) (dd : list data_field) (d d' : doc_model) : Prop := ∀ td,
  match new_model E dd td d, new_model E dd td d' with
  | (Ok e, t), (Ok e', t') => t = t' ∧ same_answers E e e'
  | (Err x, t), (Err x', t') => t = t' ∧ x = x'
  | (Panic p, t), (Panic p', t') => t = t' ∧ p = p'
  | _, _ => False
  end.
Lemma alike_refl E dd d : order_free_doc d → alike E dd d d.
Proof.
  intros Hd td. destruct (new_model E dd td d) as [[e|x|p] t] eqn:Hn; [|done..]. split; [done|].
  intros tk tk' r. apply (deterministic E E dd td d e t [] [] tk tk' r (same_world_refl E) Hd Hn).
Qed.
Lemma alike_sym E dd d d' : alike E dd d d' → alike E dd d' d.
Proof.
  intros H td. specialize (H td). destruct (new_model E dd td d) as [[e|x|p] t], (new_model E dd td d') as [[e'|x'|p'] t']; try done;
    destruct H as [-> H]; (split; [done|]); [|done..]. intros tk tk' r. symmetry. apply H.
Qed.
Lemma alike_trans E dd d d' d'' : alike E dd d d' → alike E dd d' d'' → alike E dd d d''.
Proof.
  intros H1 H2 td. specialize (H1 td). specialize (H2 td).
  destruct (new_model E dd td d) as [[e|x|p] t], (new_model E dd td d') as [[e'|x'|p'] t'], (new_model E dd td d'') as [[e''|x''|p''] t''];
    try done; destruct H1 as [-> H1], H2 as [-> H2]; (split; [done|]); [|congruence..].
  intros tk tk' r. by rewrite (H1 tk tk r).
Qed.

(** ** Segments in a row *)
Lemma compile_app nm l1 l2 : ∀ td acc, compile_segments nm td acc (l1 ++ l2) =
  match compile_segments nm td acc l1 with (Ok _, sm, td1) => compile_segments nm td1 sm l2 | x => x end.
Proof.
  induction l1 as [|[i ps ms] l1 IH]; intros td acc; [done|]. cbn [app compile_segments].
  destruct ms as [|d [|? ?]]; [done| |done]. destruct (nm td d) as [[e|x|p] td1]; [apply IH|done..].
Qed.
Lemma compile_acc nm l : ∀ td acc, compile_segments nm td acc l =
  match compile_segments nm td [] l with (o, sm, td1) => (o, acc ++ sm, td1) end.
Proof.
  induction l as [|[i ps ms] l IH]; intros td acc; cbn [compile_segments]; [by rewrite app_nil_r|].
  destruct ms as [|d [|? ?]]; [by rewrite app_nil_r| |by rewrite app_nil_r].
  destruct (nm td d) as [[e|x|p] td1]; [|by rewrite app_nil_r..].
  rewrite (IH td1 (acc ++ [e])), (IH td1 ([] ++ [e])). destruct (compile_segments nm td1 [] l) as [[o sm] td2].
  by rewrite <- app_assoc.
Qed.

(** the segment models of documents that do not depend on the order are steady *)
Lemma segments_steady E dd segs : Forall (λ s, Forall order_free_doc (sg_models s)) segs → ∀ td sm td',
  compile_segments (new_model E dd) td [] segs = (Ok tt, sm, td') → Forall (λ e, same_answers E e e) sm.
Proof.
  induction 1 as [|[i ps ms] segs Hs _ IH]; intros td sm td'; cbn [compile_segments]; [by intros [= <- _]|].
  destruct ms as [|d [|? ?]]; [done| |done]. destruct (new_model E dd td d) as [[e|x|p] td1] eqn:Hn; [|done..].
  rewrite compile_acc. destruct (compile_segments _ td1 [] segs) as [[o sm1] td2] eqn:Hc. intros [= -> <- <-].
  constructor; [|by eapply IH]. apply Forall_cons in Hs as [Hd _].
  pose proof (alike_refl E dd d Hd td) as H. rewrite Hn in H. by destruct H.
Qed.
Lemma order_free_segments h segs : order_free_doc (DMining h segs) ↔ Forall (λ s, Forall order_free_doc (sg_models s)) segs.
Proof.
  unfold order_free_doc. cbn [doc_trees].
  assert (∀ {A} (P : A → Prop) ll, Forall P (concat ll) ↔ Forall (Forall P) ll) as Hc.
  { intros A P ll. induction ll as [|l ll IH]; simpl; [done|]. by rewrite Forall_app, Forall_cons, IH. }
  rewrite Hc, Forall_map. apply Forall_iff. intros s. simpl. by rewrite Hc, Forall_map.
Qed.

(** ** Mining models with the same header *)
Lemma mining_alike E dd h segs segs' :
  (∀ td, match compile_segments (new_model E dd) td [] segs, compile_segments (new_model E dd) td [] segs' with
     | (Ok _, sm, t), (Ok _, sm', t') => t = t' ∧ ∀ td1 tk tk' r,
         (run_method E tk (built_mining dd td1 h segs) (λ i s r, evaluate E (5 :: i :: tk) s r) sm r).1 =
         (run_method E tk' (built_mining dd td1 h segs') (λ i s r, evaluate E (5 :: i :: tk') s r) sm' r).1
     | (Err x, _, t), (Err x', _, t') => t = t' ∧ x = x'
     | (Panic p, _, t), (Panic p', _, t') => t = t' ∧ p = p'
     | _, _ => False
     end) →
  alike E dd (DMining h segs) (DMining h segs').
Proof.
  intros H td. rewrite !new_model_mining. destruct (negb _); [done|]. destruct (List.find _ _); [done|].
  specialize (H (td ++ mm_lt h)).
  destruct (compile_segments _ _ _ segs) as [[[[]|x|p] sm] t], (compile_segments _ _ _ segs') as [[[[]|x'|p'] sm'] t']; try done.
  destruct H as [-> H]. split; [done|]. intros tk tk' r. rewrite !mining_evaluate_run by done.
  cbn [built_mining em_defaults em_hdr]. rewrite (impute_world E E _ (4 :: tk')).
  destruct (impute _ _ _ _) as [r1|x|p]; [|done..]. destruct (handle_input _ _ _) as [[[]|x|p] r2]; [|done..].
  specialize (H td tk tk' r2). destruct (run_method _ _ _ _ sm _) as [[? ?] ?], (run_method _ _ _ _ sm' _) as [[? ?] ?]. exact H.
Qed.

Lemma method_alike E dd td1 h segs segs' sm sm' tk tk' r :
  length segs = length segs' → Forall2 (same_answers E) sm sm' →
  (run_method E tk (built_mining dd td1 h segs) (λ i s r, evaluate E (5 :: i :: tk) s r) sm r).1 =
  (run_method E tk' (built_mining dd td1 h segs') (λ i s r, evaluate E (5 :: i :: tk') s r) sm' r).1.
Proof.
  intros Hl Hs. rewrite (run_method_header E tk (built_mining dd td1 h segs) (built_mining dd td1 h segs')) by done.
  apply (run_method_sim E E (same_world_refl E) (same_answers E) (λ _ _, True) (λ _ _ _, I)); [|done].
  intros i s1 s2 r' H. split; [apply H|done].
Qed.

Lemma inside_alike E dd h l1 i ps d d' l2 :
  order_free_doc (DMining h (l1 ++ Segment i ps [d] :: l2)) → alike E dd d d' →
  alike E dd (DMining h (l1 ++ Segment i ps [d] :: l2)) (DMining h (l1 ++ Segment i ps [d'] :: l2)).
Proof.
  intros Hof%order_free_segments Hd. apply mining_alike. intros td. rewrite !compile_app.
  apply Forall_app in Hof as [Ho1 [_ Ho2]%Forall_cons].
  destruct (compile_segments _ td [] l1) as [[[[]|x|p] sm1] t1] eqn:H1; [|done..].
  cbn [compile_segments]. specialize (Hd t1).
  destruct (new_model E dd t1 d) as [[e|x|p] t], (new_model E dd t1 d') as [[e'|x'|p'] t']; try done.
  destruct Hd as [-> He]. rewrite (compile_acc _ _ _ (sm1 ++ [e])), (compile_acc _ _ _ (sm1 ++ [e'])).
  destruct (compile_segments _ t' [] l2) as [[[[]|x|p] sm2] t2] eqn:H2; [|done..].
  split; [done|]. intros td1 tk tk' r. apply method_alike; [by rewrite !app_length|].
  apply segments_steady in H1, H2; [|done..].
  assert (∀ sm, Forall (λ e, same_answers E e e) sm → Forall2 (same_answers E) sm sm) as Hr.
  { intros sm. induction 1; by constructor. }
  rewrite <- !app_assoc. apply Forall2_app; [auto|]. constructor; [done|auto].
Qed.

(** ** A chain inside a chain *)
Lemma no_defaults h : Forall (λ f, mf_replacement f = None) (mm_schema h) → default_values (mm_schema h) = ∅.
Proof. intros Hrep. unfold default_values. induction Hrep as [|f l Hf _ IH]; [done|]. simpl. by rewrite Hf. Qed.
Lemma grouping_evaluate E dd td g segs sm tk r :
  only_groups g →
  (evaluate E tk (EMining (built_mining dd td g segs) sm) r).1 =
  (run_method E tk (built_mining dd td g segs) (λ i s r, evaluate E (5 :: i :: tk) s r) sm r).1.
Proof.
  intros (_ & Hlt & Hrep). rewrite mining_evaluate_run by done. cbn [built_mining em_defaults em_hdr].
  rewrite (no_defaults g Hrep). unfold impute. rewrite map_range_empty. cbn [foldl]. rewrite header_of_lt, Hlt. cbn [handle_input].
  by destruct (run_method _ _ _ _ _ _) as [[? ?] ?].
Qed.
Lemma method_chain E dd td g segs sm tk r :
  mm_method g = "modelChain" → Forall (λ e, same_answers E e e) sm →
  (run_method E tk (built_mining dd td g segs) (λ i s r, evaluate E (5 :: i :: tk) s r) sm r).1 =
  chained E ((λ e r, (evaluate E [] e r).1) <$> sm) (Some ∅) r.
Proof.
  intros Hm Hs. unfold run_method. cbn [em_hdr built_mining]. unfold header_of. rewrite Hm. simpl. rewrite Hm. simpl.
  apply chain_chained. induction Hs as [|e sm He _ IH]; constructor; [|done]. intros i r'. apply He.
Qed.

Lemma chain_alike E dd h l1 s g l2 inner :
  order_free_doc (DMining h (l1 ++ s :: l2)) →
  mm_method h = "modelChain" → holds_just s (DMining g inner) → mm_method g = "modelChain" → only_groups g →
  inner ≠ [] ∨ l2 ≠ [] →
  alike E dd (DMining h (l1 ++ s :: l2)) (DMining h (l1 ++ inner ++ l2)).
Proof.
  intros Hof%order_free_segments Hh [_ Hs] Hg Hgr Hne. apply mining_alike. intros td. rewrite !compile_app.
  apply Forall_app in Hof as [Ho1 [Hos Ho2]%Forall_cons]. rewrite Hs in Hos. apply Forall_cons in Hos as [Hoi%order_free_segments _].
  destruct (compile_segments _ td [] l1) as [[[[]|x|p] sm1] t1] eqn:H1; [|done..].
  destruct s as [i ps ms]. simpl in Hs. subst ms. cbn [compile_segments]. rewrite new_model_mining.
  destruct Hgr as (Hok & Hlt & Hrep). pose proof Hok as [Hm Hf].
  apply method_ok_iff in Hm. apply (proj2 (bad_feature_none _)) in Hf. rewrite Hm, Hf, Hlt, app_nil_r. cbn [negb].
  rewrite compile_app, (compile_acc _ inner _ sm1).
  destruct (compile_segments _ t1 [] inner) as [[[[]|x|p] smi] ti] eqn:Hi; [|done..].
  rewrite (compile_acc _ l2 _ (sm1 ++ [_])), (compile_acc _ l2 _ (sm1 ++ smi)).
  destruct (compile_segments _ ti [] l2) as [[[[]|x|p] sm2] t2] eqn:H2; [|done..].
  split; [done|]. intros td1 tk tk' r.
  pose proof (compile_segments_length _ _ _ _ _ _ Hi) as Hleni. pose proof (compile_segments_length _ _ _ _ _ _ H2) as Hlen2.
  apply segments_steady in H1, H2, Hi; [|done..].
  set (m := EMining (built_mining dd t1 g inner) smi).
  assert (∀ tk r, (evaluate E tk m r).1 = chained E ((λ e r, (evaluate E [] e r).1) <$> smi) (Some ∅) r) as Hm'.
  { intros tk0 r0. unfold m. rewrite grouping_evaluate by done. by apply method_chain. }
  rewrite (method_chain E dd td1 h _ _ tk r Hh), (method_chain E dd td1 h _ _ tk' r Hh).
  - rewrite <- !app_assoc, !fmap_app. fold m.
    rewrite (chained_app E _ (_ ++ _)), (chained_app E (_ <$> sm1) ((_ <$> smi) ++ _)).
    destruct (chained E _ (Some ∅) r) as [[out|x|p] r1]; [|done..]. cbn [app fmap list_fmap].
    apply chained_inner.
    + intros r0. apply Hm'.
    + destruct Hne as [Hne|Hne]; [left|right]; [destruct smi, inner|destruct sm2, l2]; simpl in *; done.
  - rewrite !Forall_app. auto.
  - rewrite <- !app_assoc, !Forall_app, Forall_singleton. split; [done|]. split; [|done]. intros tka tkb r0. by rewrite !Hm'.
Qed.

Lemma single_alike E dd g s d :
  order_free_doc (DMining g [s]) → mm_method g ∈ ["selectFirst"; "modelChain"] → only_groups g → holds_just s d →
  alike E dd (DMining g [s]) d.
Proof.
  intros Hof%order_free_segments Hmg Hgr [_ Hs] td. rewrite new_model_mining. pose proof Hgr as ([Hm Hf] & Hlt & _).
  apply method_ok_iff in Hm. apply (proj2 (bad_feature_none _)) in Hf. rewrite Hm, Hf, Hlt, app_nil_r. cbn [negb].
  apply Forall_cons in Hof as [Hos _]. rewrite Hs in Hos. apply Forall_cons in Hos as [Ho _].
  destruct s as [i ps ms]. simpl in Hs. subst ms. cbn [compile_segments].
  pose proof (alike_refl E dd d Ho td) as Hd.
  destruct (new_model E dd td d) as [[e|x|p] t1]; [|done..]. destruct Hd as [_ Hd]. split; [done|]. intros tk tk' r.
  rewrite grouping_evaluate by done. rewrite !elem_of_cons in Hmg. destruct Hmg as [Hmg|[Hmg|Hmg%elem_of_nil]]; [| |done].
  - unfold run_method. cbn [em_hdr built_mining]. unfold header_of. rewrite Hmg. simpl. rewrite Hmg. simpl.
    rewrite (Hd tk' (5 :: 0 :: tk)). by destruct (evaluate _ _ _ _) as [[? ?] ?].
  - rewrite method_chain by (done || by repeat constructor). cbn [app fmap list_fmap chained]. rewrite copy_nothing.
    rewrite (Hd tk' []). by destruct (evaluate _ _ _ _) as [[[?|?|?] ?] ?].
Qed.

Lemma regrouped_alike E dd d d' : regrouped d d' → order_free_doc d → alike E dd d d'.
Proof.
  induction 1 as [h l1 s g l2 inner Hh Hs Hg Hgr Hne|g s d Hmg Hgr Hs|h l1 i ps d d' l2 _ IH|d|d d' Hd IH|d d' d'' Hd IH1 _ IH2]; intros Ho.
  - by eapply chain_alike.
  - by apply single_alike.
  - apply inside_alike; [done|]. apply IH. apply order_free_segments, Forall_app in Ho as [_ [Ho _]%Forall_cons].
    by apply Forall_cons in Ho as [Ho _].
  - by apply alike_refl.
  - apply alike_sym, IH. unfold order_free_doc in *. by rewrite (regrouped_trees _ _ Hd).
  - eapply alike_trans; [by apply IH1|]. apply IH2. unfold order_free_doc in *. by rewrite <- (regrouped_trees _ _ Hd).
Qed.
