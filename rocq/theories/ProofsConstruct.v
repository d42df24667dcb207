(** Proofs about NewModel: which documents are accepted, what the evaluator
    looks like afterwards, and the shared transformation dictionary. *)
From Verif Require Import Base Strconv Value Doc Expr Pred Tree Regression Model Lib
  SpecPred ProofsPred SpecExpr ProofsExpr SpecConstruct.

(** ** Field types *)

Lemma foldl_insert_last {A B} (g : A → string * B) (l : list A) (m : gmap string B) f :
  foldl (λ m x, <[(g x).1 := (g x).2]> m) m l !! f =
  match last (filter (λ p, p.1 = f) (map g l)) with Some p => Some p.2 | None => m !! f end.
Proof.
  revert m. induction l as [|x l IH]; intros m; simpl; [done|].
  rewrite IH, filter_cons. destruct (decide ((g x).1 = f)) as [<-|Hne].
  - rewrite last_cons_default. destruct (last _); [done|]. simpl. by rewrite lookup_insert.
  - destruct (last _); [done|]. by rewrite lookup_insert_ne.
Qed.

Lemma last_filter_some {A} (P : A → Prop) `{!∀ x, Decision (P x)} (l : list A) x :
  last (filter P l) = Some x ↔ ∃ l1 l2, l = l1 ++ x :: l2 ∧ P x ∧ Forall (λ y, ¬ P y) l2.
Proof.
  split.
  - induction l as [|y l IH]; [done|]. rewrite filter_cons.
    destruct (decide (P y)) as [Hy|Hy].
    + rewrite last_cons_default. intros [= Hd].
      destruct (last (filter P l)) as [z|] eqn:Hl; simpl in Hd; subst.
      * destruct (IH eq_refl) as (l1 & l2 & -> & Hx & Hf). by exists (y :: l1), l2.
      * apply last_None in Hl. exists [], l. repeat split; [done|].
        apply Forall_forall. intros z Hz Pz.
        assert (z ∈ filter P l) as Hin by (apply elem_of_list_filter; done).
        rewrite Hl in Hin. set_solver.
    + intros (l1 & l2 & -> & Hx & Hf)%IH. by exists (y :: l1), l2.
  - intros (l1 & l2 & -> & Hx & Hf). rewrite filter_app, filter_cons_True by done.
    assert (filter P l2 = []) as ->.
    { induction Hf as [|y l2 Hy _ IH]; [done|]. by rewrite filter_cons_False. }
    by rewrite last_snoc.
Qed.

Lemma field_types_spec dd td f dt :
  field_types dd td !! f = Some dt ↔ declared_as dd td f dt.
Proof.
  unfold field_types.
  pose proof (foldl_insert_last (λ d, (df_name d, df_datatype d)) td) as H1.
  pose proof (foldl_insert_last (λ d, (dd_name d, dd_datatype d)) dd) as H2.
  simpl in H1, H2. rewrite H1, H2, lookup_empty. clear H1 H2.
  transitivity (last (filter (λ p : string * string, p.1 = f) (declarations dd td)) = Some (f, dt)).
  - unfold declarations. rewrite filter_app.
    set (a := filter _ (map _ dd)). set (b := filter _ (map _ td)).
    assert (Ha : ∀ p, last a = Some p → p.1 = f).
    { intros p (? & ? & ? & ? & ?)%last_filter_some. done. }
    assert (Hb : ∀ p, last b = Some p → p.1 = f).
    { intros p (? & ? & ? & ? & ?)%last_filter_some. done. }
    assert (last (a ++ b) = match last b with Some p => Some p | None => last a end) as ->.
    { destruct b as [|y b] using rev_ind; [by rewrite app_nil_r|]. by rewrite app_assoc, !last_snoc. }
    destruct (last b) as [[f1 d1]|]; [specialize (Hb _ eq_refl); naive_solver|].
    destruct (last a) as [[f1 d1]|]; [specialize (Ha _ eq_refl); naive_solver|]. naive_solver.
  - rewrite last_filter_some. unfold declared_as. split.
    + intros (l1 & l2 & Hd & _ & Hf). exists l1, l2. split; [done|].
      intros ([f' ?] & -> & Hin)%elem_of_list_fmap. rewrite Forall_forall in Hf.
      by apply (Hf _ Hin).
    + intros (l1 & l2 & Hd & Hn). exists l1, l2. split; [done|]. split; [done|].
      apply Forall_forall. intros [f' d'] Hin Heq. apply Hn. apply elem_of_list_fmap.
      by exists (f', d').
Qed.

(** ** Trees *)

Lemma new_node_no_panic E ft m p : new_node E ft m ≠ Panic p.
Proof.
  revert p. induction m as [id dc sc c ds ns pr IH] using mnode_rect'. intros p. simpl.
  intros [H|(cs & Hcs & H)]%rbind_panic.
  - apply rmap_panic in H as (q & Hq & H). rewrite Forall_forall in IH. by eapply IH.
  - apply rbind_panic in H as [H|(t & Ht & H)]; [by apply compile_predicate_no_panic in H|done].
Qed.

Lemma new_node_ok_iff E ft m :
  (∃ n, new_node E ft m = Ok n) ↔
  ∀ f lit, (f, lit) ∈ tree_simples m → ∃ dt, ft !! f = Some dt ∧ literal_ok E dt lit.
Proof.
  induction m as [id dc sc c ds ns pr IH] using mnode_rect'. simpl.
  assert (Hch : (∃ cs, rmap (new_node E ft) ns = Ok cs) ↔
     ∀ f lit, (f, lit) ∈ concat (map tree_simples ns) →
        ∃ dt, ft !! f = Some dt ∧ literal_ok E dt lit).
  { induction IH as [|x ns Hx _ IHns]; simpl.
    - split; [intros _ ?? H; by apply elem_of_nil in H | eauto].
    - split.
      + intros (cs & (n & Hn & (ns' & Hns & _)%rbind_ok)%rbind_ok) f lit [Hin|Hin]%elem_of_app.
        * by apply Hx; eauto.
        * by apply IHns; eauto.
      + intros Hall. destruct (proj2 Hx) as [n Hn].
        { intros. apply Hall. set_solver. }
        destruct (proj2 IHns) as [cs Hcs]. { intros. apply Hall. set_solver. }
        exists (n :: cs). by rewrite Hn, Hcs. }
  split.
  - intros (n & (cs & Hcs & (t & Ht & _)%rbind_ok)%rbind_ok) f lit [Hin|Hin]%elem_of_app.
    + by apply Hch; eauto.
    + by apply (compile_predicate_ok_iff E ft pr); eauto.
  - intros Hall. destruct (proj2 Hch) as [cs Hcs]. { intros. apply Hall. set_solver. }
    destruct (proj2 (compile_predicate_ok_iff E ft pr)) as [t Ht].
    { intros. apply Hall. set_solver. }
    rewrite Hcs. simpl. rewrite Ht. simpl. eauto.
Qed.

(** The evaluator NewTreeModel returns. *)
Definition built_tree (E : Ext) (dd : list data_field) (td : list derived_field)
    (t : tree_model) (e : etree) : Prop :=
  et_validated e = true ∧ et_compiled e = true ∧ et_dd e = dd ∧ et_outkeys e = ∅ ∧
  et_model e = TreeModel (tm_function t) (tm_strategy t) (tm_penalty t) (tm_notrue t) (tm_lt t)
                 (mf_defaults <$> tm_schema t) (tm_verification t) (tm_node t) ∧
  et_ft e = field_types dd (td ++ tm_lt t) ∧
  new_node E (et_ft e) (tm_node t) = Ok (et_root e) ∧
  et_target e = target_of "" (mf_defaults <$> tm_schema t) ∧
  (tm_function t = "classification" ∨ tm_function t = "regression").

Lemma new_tree_model_inv E dd td t e td' :
  new_tree_model E dd td t = (Ok e, td') → td' = td ++ tm_lt t ∧ built_tree E dd td t e.
Proof.
  unfold new_tree_model, tree_validate. simpl.
  destruct (negb _ && negb _) eqn:Hf; [done|]. unfold tree_compile. simpl.
  destruct (new_node _ _ _) as [root| |] eqn:Hn; [|done..].
  intros [= <- <-]. split; [done|]. unfold built_tree. simpl. repeat split; try done.
  destruct (String.eqb_spec (tm_function t) "classification"); [by left|].
  destruct (String.eqb_spec (tm_function t) "regression"); [by right|done].
Qed.

Lemma new_tree_model_td E dd td t o td' :
  new_tree_model E dd td t = (o, td') →
  td' = td ++ tm_lt t ∨ (∃ e, o = Err e ∧ td' = td).
Proof.
  unfold new_tree_model, tree_validate. simpl.
  destruct (negb _ && negb _) eqn:Hf; [naive_solver|]. unfold tree_compile. simpl.
  destruct (new_node _ _ _) as [root| |] eqn:Hn; naive_solver.
Qed.

Lemma new_tree_model_ok_iff E dd td t :
  (∃ e td', new_tree_model E dd td t = (Ok e, td')) ↔ tree_ok E dd td t.
Proof.
  unfold tree_ok. setoid_rewrite <-field_types_spec. rewrite <-new_node_ok_iff.
  split.
  - intros (e & td' & (-> & H)%new_tree_model_inv).
    destruct H as (_ & _ & _ & _ & _ & Hft & Hn & _ & Hf). rewrite Hft in Hn. eauto.
  - intros [Hf [n Hn]]. unfold new_tree_model, tree_validate. simpl.
    assert (negb (tm_function t =s "classification") && negb (tm_function t =s "regression") = false)
      as ->.
    { destruct Hf as [-> | ->]; reflexivity. }
    unfold tree_compile. simpl. rewrite Hn. eauto.
Qed.

Lemma new_tree_model_no_panic E dd td t p td' : new_tree_model E dd td t ≠ (Panic p, td').
Proof.
  unfold new_tree_model, tree_validate. simpl.
  destruct (negb _ && negb _) eqn:Hf; [done|]. unfold tree_compile. simpl.
  destruct (new_node _ _ _) as [root| |] eqn:Hn; [done..|]. by apply new_node_no_panic in Hn.
Qed.

(** ** Mining models *)

Definition header_of (h : mining_header) : mining_header :=
  if mm_method h =s "" then set_method h "sum" else h.

Lemma method_ok_iff h :
  method_ok (mm_method (header_of h)) = true ↔
  mm_method h ∈ [""; "average"; "sum"; "modelChain"; "selectFirst"].
Proof.
  unfold header_of, method_ok. destruct (String.eqb_spec (mm_method h) "") as [->|Hne]; simpl.
  - split; [intros _; set_solver|done].
  - rewrite !orb_true_iff, !String.eqb_eq. set_solver.
Qed.

Lemma bad_feature_none l :
  List.find bad_feature l = None ↔ ∀ o, o ∈ l → of_feature o = "" ∨ of_feature o = "probability".
Proof.
  assert (Hb : ∀ o, bad_feature o = false ↔ of_feature o = "" ∨ of_feature o = "probability").
  { intros o. unfold bad_feature. rewrite andb_false_iff, !negb_false_iff, !String.eqb_eq. done. }
  split.
  - intros H o Ho. apply Hb. apply elem_of_list_In in Ho. by apply (List.find_none _ _ H).
  - intros H. induction l as [|o l IH]; simpl; [done|].
    rewrite (proj2 (Hb o)); [|apply H; left]. apply IH. intros; apply H; by right.
Qed.

Lemma header_of_output h : mm_output (header_of h) = mm_output h.
Proof. unfold header_of. by destruct (_ =s _). Qed.
Lemma header_of_lt h : mm_lt (header_of h) = mm_lt h.
Proof. unfold header_of. by destruct (_ =s _). Qed.
Lemma header_of_schema h : mm_schema (header_of h) = mm_schema h.
Proof. unfold header_of. by destruct (_ =s _). Qed.
Lemma header_of_targets h : mm_targets (header_of h) = mm_targets h.
Proof. unfold header_of. by destruct (_ =s _). Qed.
Lemma header_of_function h : mm_function (header_of h) = mm_function h.
Proof. unfold header_of. by destruct (_ =s _). Qed.
Lemma header_of_verification h : mm_verification (header_of h) = mm_verification h.
Proof. unfold header_of. by destruct (_ =s _). Qed.

Lemma mining_validate_fresh dd h segs :
  mining_validate (mining_fresh dd h segs) =
  if negb (method_ok (mm_method (header_of h)))
  then (Err (EMultipleModelMethod (mm_method (header_of h))),
        mining_fresh dd (header_of h) segs)
  else match List.find bad_feature (mm_output h) with
       | Some o => (Err (EOutputFeature (of_feature o)), mining_fresh dd (header_of h) segs)
       | None => (Ok tt, EMining_ true false dd (header_of h) segs ∅ ∅ "" [] [] [])
       end.
Proof.
  unfold mining_validate, mining_fresh. cbn [em_hdr]. fold (header_of h).
  destruct (negb _); [done|]. rewrite header_of_output. by destruct (List.find _ _).
Qed.

(** The evaluator NewMiningModel returns, apart from the segment models. *)
Definition built_mining (dd : list data_field) (td : list derived_field) (h : mining_header)
    (segs : list (segment doc_model)) : emining :=
  EMining_ true true dd (header_of h) segs (default_values (mm_schema h))
    (field_types dd (td ++ mm_lt h)) (target_of "" (mm_schema h)) (mm_output h) (mm_targets h)
    [length segs].

Lemma compile_segments_length nm td acc segs sm td' :
  compile_segments nm td acc segs = (Ok tt, sm, td') → length sm = length acc + length segs.
Proof.
  revert td acc. induction segs as [|[i ps ms] segs IH]; intros td acc; simpl.
  - intros [= <- _]. lia.
  - destruct ms as [|d [|? ?]]; [done| |done]. destruct (nm td d) as [[e| |] td1]; [|done..].
    intros H%IH. rewrite app_length in H. simpl in H. lia.
Qed.

Lemma new_model_mining E dd td h segs :
  new_model E dd td (DMining h segs) =
  if negb (method_ok (mm_method (header_of h)))
  then (Err (EMultipleModelMethod (mm_method (header_of h))), td)
  else match List.find bad_feature (mm_output h) with
       | Some o => (Err (EOutputFeature (of_feature o)), td)
       | None =>
           match compile_segments (new_model E dd) (td ++ mm_lt h) [] segs with
           | (Ok _, sm, td2) => (Ok (EMining (built_mining dd td h segs) sm), td2)
           | (Err e, _, td2) => (Err e, td2)
           | (Panic p, _, td2) => (Panic p, td2)
           end
       end.
Proof.
  cbn [new_model]. rewrite mining_validate_fresh.
  destruct (negb _); [done|]. destruct (List.find _ _) as [o|]; [done|].
  unfold mining_prepare. cbn [em_hdr em_dd em_segs em_validated em_compiled em_target].
  rewrite header_of_lt. destruct (compile_segments _ _ _ _) as [[[[]| |] ?] ?] eqn:Hc; try done.
  apply compile_segments_length in Hc. simpl in Hc. rewrite Hc.
  unfold add_round, mining_compiled, built_mining. simpl.
  by rewrite header_of_schema, header_of_output, header_of_targets.
Qed.

(** compile_segments, success *)
Lemma compile_segments_ok nm td acc segs sm td' :
  compile_segments nm td acc segs = (Ok tt, sm, td') ↔
  ∃ es, sm = acc ++ es ∧
    (fix go td segs es {struct segs} := match segs, es with
       | [], [] => td' = td
       | s :: segs', e :: es' =>
           ∃ d td1, sg_models s = [d] ∧ nm td d = (Ok e, td1) ∧ go td1 segs' es'
       | _, _ => False
       end) td segs es.
Proof.
  revert td acc. induction segs as [|[i ps ms] segs IH]; intros td acc.
  - simpl. split.
    + intros [= <- <-]. exists []. by rewrite app_nil_r.
    + intros ([|e es] & -> & H); [|done]. subst. by rewrite app_nil_r.
  - simpl. destruct ms as [|d [|d' ms]].
    + split; [done|]. intros ([|e es] & _ & H); [done|]. naive_solver.
    + destruct (nm td d) as [[e|x|x] td1] eqn:Hd.
      * rewrite IH. split.
        -- intros (es & -> & H). exists (e :: es). rewrite <-app_assoc. split; [done|]. eauto.
        -- intros ([|e' es] & -> & H); [done|]. destruct H as (d' & td1' & [= <-] & Hd' & H).
           rewrite Hd in Hd'. simplify_eq. exists es. by rewrite <-app_assoc.
      * split; [done|]. intros ([|e' es] & -> & H); [done|].
        destruct H as (d' & td1' & [= <-] & Hd' & H). congruence.
      * split; [done|]. intros ([|e' es] & -> & H); [done|].
        destruct H as (d' & td1' & [= <-] & Hd' & H). congruence.
    + split; [done|]. intros ([|e es] & _ & H); [done|]. naive_solver.
Qed.

(** ** Acceptance *)

Scheme accepted_mut := Minimality for accepted Sort Prop
with accepted_segments_mut := Minimality for accepted_segments Sort Prop.

Lemma new_model_accepted E dd d td e td' :
  new_model E dd td d = (Ok e, td') → accepted E dd td d td'.
Proof.
  revert td e td'. induction d as [t|r|k|h segs IH] using doc_rect'; intros td e td'.
  - simpl. destruct (new_tree_model E dd td t) as [[x| |] td1] eqn:Ht; [|done..].
    intros [= <- <-]. assert (tree_ok E dd td t) by (apply new_tree_model_ok_iff; eauto).
    apply new_tree_model_inv in Ht as [-> _]. by constructor.
  - simpl. intros [= <- <-]. constructor.
  - done.
  - rewrite new_model_mining. destruct (negb _) eqn:Hm; [done|].
    destruct (List.find _ _) eqn:Ho; [done|].
    destruct (compile_segments _ _ _ _) as [[[[]| |] sm] td2] eqn:Hc; [|done..].
    intros [= <- <-]. constructor.
    { split; [apply method_ok_iff; by apply negb_false_iff|by apply bad_feature_none]. }
    apply compile_segments_ok in Hc as (es & _ & Hc).
    revert es Hc. generalize (td ++ mm_lt h).
    induction IH as [|s segs Hs _ IHs]; intros td1 [|x es] Hc; try done.
    + subst. constructor.
    + destruct Hc as (d & td3 & Hd & Hn & Hc). econstructor; [done| |by eapply IHs].
      rewrite Hd in Hs. apply Forall_cons in Hs as [Hs _]. by eapply Hs.
Qed.

Lemma accepted_new_model E dd d td td' :
  accepted E dd td d td' → ∃ e, new_model E dd td d = (Ok e, td').
Proof.
  revert td d td'.
  apply (accepted_mut E dd
    (λ td d td', ∃ e, new_model E dd td d = (Ok e, td'))
    (λ td segs td', ∀ acc, ∃ sm, compile_segments (new_model E dd) td acc segs = (Ok tt, sm, td'))).
  - intros td t Ht. pose proof Ht as (e & td' & He)%new_tree_model_ok_iff.
    simpl. rewrite He. apply new_tree_model_inv in He as [-> _]. eauto.
  - intros td r. simpl. eauto.
  - intros td h segs td' [Hm Ho] _ IH. rewrite new_model_mining.
    rewrite (proj2 (method_ok_iff h) Hm). simpl. rewrite (proj2 (bad_feature_none _) Ho).
    destruct (IH []) as [sm ->]. eauto.
  - intros td acc. simpl. eauto.
  - intros td [i ps ms] segs d td1 td2 Hd _ [e He] _ IH acc. simpl in Hd. subst ms.
    simpl. rewrite He. destruct (IH (acc ++ [e])) as [sm ->]. eauto.
Qed.

Lemma new_model_ok_iff E dd d td td' :
  (∃ e, new_model E dd td d = (Ok e, td')) ↔ accepted E dd td d td'.
Proof. split; [intros [e He]; by eapply new_model_accepted|apply accepted_new_model]. Qed.

Lemma compile_segments_no_panic nm td acc segs :
  (∀ s d td p td', s ∈ segs → d ∈ sg_models s → nm td d ≠ (Panic p, td')) →
  ∀ p sm td', compile_segments nm td acc segs ≠ (Panic p, sm, td').
Proof.
  revert td acc. induction segs as [|[i ps ms] segs IH]; intros td acc H p sm td'; simpl; [done|].
  destruct ms as [|d [|d' ms]]; try done.
  destruct (nm td d) as [[e|x|x] td1] eqn:Hd; [|done|].
  - apply IH. intros. eapply H; [by right|done].
  - intros _. eapply (H (Segment i ps [d]) d); [left|simpl; set_solver|done].
Qed.

Lemma new_model_no_panic E dd d td p td' : new_model E dd td d ≠ (Panic p, td').
Proof.
  revert td p td'. induction d as [t|r|k|h segs IH] using doc_rect'; intros td p td'.
  - simpl. destruct (new_tree_model E dd td t) as [[x| |] td1] eqn:Ht; [done..|].
    by apply new_tree_model_no_panic in Ht.
  - done.
  - done.
  - rewrite new_model_mining. destruct (negb _); [done|].
    destruct (List.find _ _); [done|].
    destruct (compile_segments _ _ _ _) as [[[[]| |] sm] td2] eqn:Hc; [done..|].
    exfalso. eapply compile_segments_no_panic; [|done].
    intros s d td1 p1 td1' Hs Hd. rewrite Forall_forall in IH. specialize (IH s Hs).
    rewrite Forall_forall in IH. by apply IH.
Qed.

(** ** The transformation dictionary *)

Lemma accepted_td E dd d td td' : accepted E dd td d td' → td' = td ++ doc_locals d.
Proof.
  revert td d td'.
  apply (accepted_mut E dd (λ td d td', td' = td ++ doc_locals d)
    (λ td segs td', td' = td ++ concat (map (λ s, concat (map doc_locals (sg_models s))) segs))).
  - done.
  - intros. simpl. by rewrite app_nil_r.
  - intros td h segs td' _ _ ->. simpl. by rewrite app_assoc.
  - intros. simpl. by rewrite app_nil_r.
  - intros td s segs d td1 td2 Hs _ -> _ ->. simpl. rewrite Hs. simpl.
    by rewrite app_nil_r, app_assoc.
Qed.

Lemma new_model_td_prefix E dd d td o td' :
  new_model E dd td d = (o, td') → ∃ l1 l2, td' = td ++ l1 ∧ doc_locals d = l1 ++ l2.
Proof.
  revert td o td'. induction d as [t|r|k|h segs IH] using doc_rect'; intros td o td'.
  - simpl. destruct (new_tree_model E dd td t) as [x td1] eqn:Ht.
    apply new_tree_model_td in Ht as [-> |(e & -> & ->)].
    + intros H. exists (tm_lt t), []. rewrite app_nil_r. destruct x; naive_solver.
    + intros [= <- <-]. exists [], (tm_lt t). by rewrite app_nil_r.
  - simpl. intros [= <- <-]. exists [], []. by rewrite app_nil_r.
  - simpl. intros [= <- <-]. exists [], []. by rewrite app_nil_r.
  - rewrite new_model_mining.
    assert (Hnone : ∃ l1 l2, td = td ++ l1 ∧ doc_locals (DMining h segs) = l1 ++ l2).
    { exists [], (doc_locals (DMining h segs)). by rewrite app_nil_r. }
    destruct (negb _); [by intros [= <- <-]|].
    destruct (List.find _ _); [by intros [= <- <-]|].
    assert (Hc : ∀ td1 acc o sm td2,
      compile_segments (new_model E dd) td1 acc segs = (o, sm, td2) →
      ∃ l1 l2, td2 = td1 ++ l1 ∧
               concat (map (λ s, concat (map doc_locals (sg_models s))) segs) = l1 ++ l2).
    { clear Hnone td o td'. induction IH as [|[i ps ms] segs Hs _ IHs]; intros td1 acc o sm td2; simpl.
      - intros [= <- <- <-]. exists [], []. by rewrite app_nil_r.
      - destruct ms as [|d [|d' ms]].
        + intros [= <- <- <-]. eexists [], _. by rewrite app_nil_r.
        + simpl. apply Forall_cons in Hs as [Hs _].
          destruct (new_model E dd td1 d) as [x td3] eqn:Hd.
          destruct x as [e|e|e].
          * apply new_model_accepted, accepted_td in Hd as ->.
            intros (l3 & l4 & -> & Hl')%IHs. rewrite Hl'.
            exists (doc_locals d ++ l3), l4. by rewrite app_nil_r, !app_assoc.
          * intros [= <- <- <-]. apply Hs in Hd as (l1 & l2 & -> & Hl). rewrite Hl.
            eexists l1, _. split; [done|]. by rewrite app_nil_r, <-app_assoc.
          * by apply new_model_no_panic in Hd.
        + intros [= <- <- <-]. eexists [], _. by rewrite app_nil_r. }
    destruct (compile_segments _ _ _ _) as [[x sm] td2] eqn:Hcs.
    apply Hc in Hcs as (l1 & l2 & -> & Hl). intros H.
    exists (mm_lt h ++ l1), l2. simpl. rewrite Hl, !app_assoc. split; [|done].
    destruct x; naive_solver.
Qed.
