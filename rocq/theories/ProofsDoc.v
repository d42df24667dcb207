(** From documents to compiled trees: the descents of SpecTree.v on the nodes of
    a document are those on the compiled tree, and what NewModel followed by
    Evaluate does in terms of the document. *)
From Verif Require Import Base Strconv Value Doc Expr Pred Tree Regression Model Lib
  SpecPred ProofsPred SpecExpr ProofsExpr SpecConstruct ProofsConstruct ProofsRange
  SpecTree ProofsTree ProofsOutput ProofsEval.

Lemma Forall2_elem_l {A B} (R : A → B → Prop) (l : list A) (k : list B) x :
  Forall2 R l k → x ∈ l → ∃ y, y ∈ k ∧ R x y.
Proof.
  induction 1 as [|a b l k Hab _ IH]; [by intros ?%elem_of_nil|].
  intros [->|Hx]%elem_of_cons; [exists b; set_solver|].
  destruct (IH Hx) as (y & ? & ?). exists y. set_solver.
Qed.

Lemma Forall2_elem_r {A B} (R : A → B → Prop) (l : list A) (k : list B) y :
  Forall2 R l k → y ∈ k → ∃ x, x ∈ l ∧ R x y.
Proof.
  induction 1 as [|a b l k Hab _ IH]; [by intros ?%elem_of_nil|].
  intros [->|Hx]%elem_of_cons; [exists a; set_solver|].
  destruct (IH Hx) as (x & ? & ?). exists x. set_solver.
Qed.

(** ** Transporting descents along a bisimulation *)

Section transport.
  Context {A B : Type} (ka : A → list A) (kb : B → list B)
          (ta : A → presult → Prop) (tb : B → presult → Prop) (R : A → B → Prop).
  Context (Hk : ∀ a b, R a b → Forall2 R (ka a) (kb b)).
  Context (Ht : ∀ a b v, R a b → ta a v ↔ tb b v).

  Lemma transport_none a x :
    descend_none ka ta a x → ∀ b, R a b → ∃ y, R x y ∧ descend_none kb tb b y.
  Proof.
    induction 1 as [a Ha|a l1 c l2 leaf Hc H1 Hct Hd IH]; intros b Hab; pose proof (Hk _ _ Hab) as Hab'.
    - exists b. split; [done|]. apply none_stop. intros c Hc Hv.
      destruct (Forall2_elem_r _ _ _ _ Hab' Hc) as (c' & Hc' & HR). apply (Ha c' Hc'). by apply (Ht _ _ _ HR).
    - rewrite Hc in Hab'. apply Forall2_app_inv_l in Hab' as (k1 & k2' & Hk1 & Hk2 & Hkb).
      apply Forall2_cons_inv_l in Hk2 as (c' & k2 & HR & Hk2 & ->).
      destruct (IH _ HR) as (y & Hy & Hd'). exists y. split; [done|].
      eapply none_step; [exact Hkb| |by apply (Ht _ _ _ HR)|done].
      intros d Hdin Hv. destruct (Forall2_elem_r _ _ _ _ Hk1 Hdin) as (d' & Hd'' & HR').
      apply (H1 d' Hd''). by apply (Ht _ _ _ HR').
  Qed.

  Lemma transport_null a x :
    descend_null ka ta a x → ∀ b, R a b → ∃ y, R x y ∧ descend_null kb tb b y.
  Proof.
    induction 1 as [a Ha|a l1 c l2 leaf Hc H1 Hct Hd IH]; intros b Hab; pose proof (Hk _ _ Hab) as Hab'.
    - exists b. split; [done|]. apply null_stop. intros c Hc.
      destruct (Forall2_elem_r _ _ _ _ Hab' Hc) as (c' & Hc' & HR). apply (Ht _ _ _ HR). by apply Ha.
    - rewrite Hc in Hab'. apply Forall2_app_inv_l in Hab' as (k1 & k2' & Hk1 & Hk2 & Hkb).
      apply Forall2_cons_inv_l in Hk2 as (c' & k2 & HR & Hk2 & ->).
      destruct (IH _ HR) as (y & Hy & Hd'). exists y. split; [done|].
      eapply null_step; [exact Hkb| |by apply (Ht _ _ _ HR)|done].
      intros d Hdin. destruct (Forall2_elem_r _ _ _ _ Hk1 Hdin) as (d' & Hd'' & HR').
      apply (Ht _ _ _ HR'). by apply H1.
  Qed.

  Lemma transport_unknown a : meets_unknown ka ta a → ∀ b, R a b → meets_unknown kb tb b.
  Proof.
    induction 1 as [a l1 c l2 Hc H1 Hct|a l1 c l2 Hc H1 Hct Hd IH]; intros b Hab;
      pose proof (Hk _ _ Hab) as Hab';
      rewrite Hc in Hab'; apply Forall2_app_inv_l in Hab' as (k1 & k2' & Hk1 & Hk2 & Hkb);
      apply Forall2_cons_inv_l in Hk2 as (c' & k2 & HR & Hk2 & ->).
    - eapply null_here; [exact Hkb| |by apply (Ht _ _ _ HR)].
      intros d Hdin. destruct (Forall2_elem_r _ _ _ _ Hk1 Hdin) as (d' & Hd'' & HR').
      apply (Ht _ _ _ HR'). by apply H1.
    - eapply null_below; [exact Hkb| |by apply (Ht _ _ _ HR)|by apply IH].
      intros d Hdin. destruct (Forall2_elem_r _ _ _ _ Hk1 Hdin) as (d' & Hd'' & HR').
      apply (Ht _ _ _ HR'). by apply H1.
  Qed.

  Lemma transport_last a x :
    descend_last ka ta a x → ∀ b, R a b → ∃ y, R x y ∧ descend_last kb tb b y.
  Proof.
    induction 1 as [a c Hc Hct|a Ha|a c leaf Hno Hc Hct Hd IH]; intros b Hab;
      pose proof (Hk _ _ Hab) as Hab'.
    - destruct (Forall2_elem_l _ _ _ _ Hab' Hc) as (c' & Hc' & HR).
      exists b. split; [done|]. eapply last_unknown; [done|]. by apply (Ht _ _ _ HR).
    - exists b. split; [done|]. apply last_stop. intros c Hc.
      destruct (Forall2_elem_r _ _ _ _ Hab' Hc) as (c' & Hc' & HR). apply (Ht _ _ _ HR). by apply Ha.
    - destruct (Forall2_elem_l _ _ _ _ Hab' Hc) as (c' & Hc' & HR).
      destruct (IH _ HR) as (y & Hy & Hd'). exists y. split; [done|].
      eapply last_step; [|exact Hc'|by apply (Ht _ _ _ HR)|done].
      intros d Hdin Hv. destruct (Forall2_elem_r _ _ _ _ Hab' Hdin) as (d' & Hd'' & HR').
      apply (Hno d' Hd''). by apply (Ht _ _ _ HR').
  Qed.

  Lemma transport_single a b : R a b → single_true ka ta a → single_true kb tb b.
  Proof.
    intros Hab Ha k1 c' k2 d' Hkb Hc' Hd'. pose proof (Hk _ _ Hab) as Hab'. rewrite Hkb in Hab'.
    apply Forall2_app_inv_r in Hab' as (l1 & l2' & Hl1 & Hl2 & Hka).
    apply Forall2_cons_inv_r in Hl2 as (c & l2 & HR & Hl2 & ->).
    assert (Forall2 R (l1 ++ l2) (k1 ++ k2)) as Hf by (by apply Forall2_app).
    destruct (Forall2_elem_r _ _ _ _ Hf Hd') as (d & Hd & HRd).
    intros Hv. eapply (Ha l1 c l2 d); [done|by apply (Ht _ _ _ HR)|done|by apply (Ht _ _ _ HRd)].
  Qed.
End transport.

(** Induction over [everywhere_in]. *)
Lemma everywhere_in_ind' {N} (kids : N → list N) (P Q : N → Prop) :
  (∀ n, P n → Forall Q (kids n) → Q n) → ∀ n, everywhere_in kids P n → Q n.
Proof.
  intros H. fix IH 2. intros n [n' Hp Hf]. apply H; [done|].
  revert Hf. generalize (kids n'). fix go 2. intros l [|c l' Hc Hl]; constructor; [by apply IH|by apply go].
Qed.

Lemma transport_everywhere {A B} (ka : A → list A) (kb : B → list B) (R : A → B → Prop)
    (P : A → Prop) (Q : B → Prop) :
  (∀ a b, R a b → Forall2 R (ka a) (kb b)) → (∀ a b, R a b → P a → Q b) →
  ∀ a, everywhere_in ka P a → ∀ b, R a b → everywhere_in kb Q b.
Proof.
  intros Hk HPQ. apply (everywhere_in_ind' ka P (λ a, ∀ b, R a b → everywhere_in kb Q b)).
  intros a Ha Hf b Hab. constructor; [by eapply HPQ|]. specialize (Hk _ _ Hab).
  induction Hk as [|x y l k Hxy _ IH]; [constructor|]. apply Forall_cons in Hf as [Hx Hf].
  constructor; auto.
Qed.

(** ** Compiled nodes *)

Definition compiled_to (E : Ext) (ft : fieldtypes) (m : mnode) (n : node) : Prop :=
  new_node E ft m = Ok n.

Lemma compiled_inv E ft m n :
  compiled_to E ft m n →
  n_id n = m_id m ∧ n_default n = m_default m ∧ n_dists n = convert_dists (m_dists m) ∧
  n_score n = Score (m_score m) fzero fzero (m_count m) ∧
  compile_predicate E ft (m_pred m) = Ok (n_test n) ∧
  Forall2 (compiled_to E ft) (m_nodes m) (n_children n).
Proof.
  unfold compiled_to. destruct m as [id dc sc c ds ns p]. simpl.
  intros (cs & Hcs & (t & Ht & [= <-])%rbind_ok)%rbind_ok. simpl.
  repeat split; try done. by apply rmap_ok.
Qed.

Lemma compiled_kids E ft m n :
  compiled_to E ft m n → Forall2 (compiled_to E ft) (m_nodes m) (n_children n).
Proof. by intros (_ & _ & _ & _ & _ & ?)%compiled_inv. Qed.

Lemma compiled_truth E ft r m n v :
  compiled_to E ft m n → node_truth E ft r m v ↔ verdict E ft r n v.
Proof.
  intros (_ & _ & _ & _ & Hp & _)%compiled_inv. unfold node_truth, verdict.
  split; [intros (p & Hp' & Hr)|eauto]. rewrite Hp in Hp'. by injection Hp' as ->.
Qed.

Lemma compiled_kids' E ft m n :
  compiled_to E ft m n → Forall2 (flip (compiled_to E ft)) (n_children n) (m_nodes m).
Proof. intros H. apply Forall2_flip. by apply compiled_kids. Qed.

Lemma compiled_truth' E ft r m n v :
  compiled_to E ft m n → verdict E ft r n v ↔ node_truth E ft r m v.
Proof. intros H. symmetry. by apply compiled_truth. Qed.

(** distributions *)
Lemma foldl_app_map {A B} (f : A → B) (acc : list B) (l : list A) :
  foldl (λ acc v, acc ++ [f v]) acc l = acc ++ (f <$> l).
Proof.
  revert acc. induction l as [|x l IH]; intros acc; simpl; [by rewrite app_nil_r|].
  rewrite IH, <-app_assoc. done.
Qed.

Lemma output_dist_doc E ft cx m n :
  compiled_to E ft m n →
  output_dist cx n = doc_dist (cx_dd cx) (cx_target cx) (cx_notrue cx) m.
Proof.
  intros (_ & _ & Hd & Hs & _ & Hf)%compiled_inv.
  destruct n as [id dc cs ds t sc]. simpl in Hd, Hs, Hf. unfold output_dist, doc_dist. subst ds sc.
  apply Forall2_length in Hf. rewrite <-Hf. cbn [sc_value sc_count].
  assert (negb (Nat.eqb (length (m_nodes m)) 0) && (cx_notrue cx =s "returnNullPrediction")
          = bool_decide (m_nodes m ≠ [] ∧ cx_notrue cx = "returnNullPrediction")) as ->.
  { apply eq_bool_prop_intro. rewrite bool_decide_spec, Is_true_true, andb_true_iff, String.eqb_eq.
    destruct (m_nodes m); simpl; naive_solver. }
  destruct (decide (m_nodes m ≠ [] ∧ cx_notrue cx = "returnNullPrediction")) as [Hx|Hx];
    [by rewrite bool_decide_true|rewrite bool_decide_false by done].
  destruct (m_dists m) as [|d ds] eqn:Hds; [|done].
  simpl. destruct (String.eqb_spec (cx_target cx) "") as [Ht|Ht]; simpl.
  - by rewrite decide_True.
  - rewrite (decide_False (P := cx_target cx = "")) by done. unfold target_values.
    set (g := λ v, if decide (v = m_score m) then Score v fone fone (m_count m)
                   else Score v fzero fzero fzero).
    assert (∀ (acc : list score) l, foldl (λ acc fld,
       if dd_name fld =s cx_target cx then
         foldl (λ acc v, acc ++ [if v =s m_score m then Score v fone fone (m_count m)
                                 else Score v fzero fzero fzero]) acc (dd_values fld)
       else acc) acc l = acc ++ (g <$> concat (dd_values <$> filter (λ d, dd_name d = cx_target cx) l))) as Hg.
    { intros acc l. revert acc. induction l as [|fd l IH]; intros acc; simpl; [by rewrite app_nil_r|].
      rewrite IH, filter_cons. clear IH. destruct (String.eqb_spec (dd_name fd) (cx_target cx)) as [He|He].
      - rewrite decide_True by done. rewrite foldl_app_map. simpl. rewrite fmap_app, app_assoc. do 2 f_equal.
        apply fmap_ext_in. intros v _. unfold g. destruct (String.eqb_spec v (m_score m)).
        + by rewrite decide_True.
        + by rewrite decide_False.
      - by rewrite decide_False. }
    rewrite (Hg [] (cx_dd cx)). done.
Qed.

(** the target field *)
Lemma target_of_spec old l :
  target_of old l = default old (mf_name <$> last (filter (λ f, mf_usage f = "target") l)).
Proof.
  unfold target_of. revert old. induction l as [|f l IH]; intros old; [done|].
  simpl. rewrite IH, filter_cons. destruct (String.eqb_spec (mf_usage f) "target") as [He|He].
  - rewrite decide_True by done. rewrite last_cons_default. simpl. by destruct (last _).
  - by rewrite decide_False.
Qed.

Lemma mf_defaults_target l :
  target_of "" (mf_defaults <$> l) = target_field l.
Proof.
  rewrite target_of_spec. unfold target_field. f_equal.
  induction l as [|f l IH]; [done|]. rewrite fmap_cons, !filter_cons. simpl.
  destruct (String.eqb_spec (mf_usage f) "") as [He|He].
  - rewrite decide_False by done. rewrite decide_False by (by rewrite He). done.
  - case_decide; [|done]. rewrite !last_cons_default. simpl. f_equal.
    destruct (last (filter _ (mf_defaults <$> l))), (last (filter _ l)); simpl in *; congruence.
Qed.

(** ** NewModel then Evaluate, for trees *)

Definition doc_ctx (dd : list data_field) (td : list derived_field) (t : tree_model) : tctx :=
  Tctx (field_types dd (td ++ tm_lt t)) dd (target_field (tm_schema t)) (tm_penalty t) (tm_notrue t).

(** a tree evaluator with everything but the output key cache known *)
Definition tree_of (E : Ext) (dd : list data_field) (td : list derived_field) (t : tree_model)
    (e : etree) : Prop :=
  et_validated e = true ∧ et_compiled e = true ∧ keys_ok (et_outkeys e) ∧
  tree_ctx e = doc_ctx dd td t ∧
  tm_function (et_model e) = tm_function t ∧ tm_strategy (et_model e) = tm_strategy t ∧
  tm_lt (et_model e) = tm_lt t ∧
  compiled_to E (field_types dd (td ++ tm_lt t)) (tm_node t) (et_root e) ∧
  (tm_function t = "classification" ∨ tm_function t = "regression").

Lemma built_tree_of E dd td t e : built_tree E dd td t e → tree_of E dd td t e.
Proof.
  intros (Hv & Hc & Hdd & Hk & Hm & Hft & Hn & Htg & Hfn). unfold tree_of.
  unfold tree_ctx, doc_ctx. rewrite Hft, Hdd, Hm, Htg, mf_defaults_target, Hk. simpl.
  repeat split; try done.
  unfold compiled_to. by rewrite <-Hft.
Qed.

Lemma new_model_tree_of E dd td t e td' :
  new_model E dd td (DTree t) = (Ok e, td') → ∃ te, e = ETree te ∧ tree_of E dd td t te.
Proof.
  intros (te & -> & _ & H)%new_model_tree_inv. exists te. split; [done|]. by apply built_tree_of.
Qed.

Lemma tree_of_run E dd td t e tk r r' :
  tree_of E dd td t e → handle_input E (tm_lt t) r = (Ok tt, r') →
  (tree_evaluate E tk e r).1 =
  match node_evaluate E (doc_ctx dd td t) (tm_strategy t) r' tk (et_root e) with
  | Ok (scores, RT) => (report E (tm_function t) (target_field (tm_schema t)) scores, r')
  | Ok _ => (Ok None, r')
  | Err x => (Err x, r')
  | Panic p => (Panic p, r')
  end.
Proof.
  intros (Hv & Hc & Hk & Hcx & Hfn & Hst & Hlt & Hn & Hf) Hi.
  rewrite tree_evaluate_run by done. rewrite Hlt, Hi, Hcx, Hst.
  destruct (node_evaluate _ _ _ _ _ _) as [[scores [| |]]| |]; try done.
  assert (et_target e = target_field (tm_schema t)) as Htg by (by injection Hcx).
  destruct Hf as [Hf|Hf].
  - destruct (tree_output_class E e scores Hk) as [Ho _]; [congruence|].
    destruct (tree_output E e scores). simpl in *. subst. unfold report.
    by rewrite decide_True, Htg.
  - rewrite tree_output_regr by congruence. simpl. unfold report. rewrite Hf. done.
Qed.

Lemma tree_of_stable E dd td t e tk r o r' e' :
  tree_of E dd td t e → tree_evaluate E tk e r = (o, r', e') → tree_of E dd td t e'.
Proof.
  intros Ht. pose proof Ht as (Hv & Hc & Hk & Hcx & Hfn & Hst & Hlt & Hn & Hf).
  rewrite tree_evaluate_run by done.
  destruct (handle_input _ _ _) as [[u|x|p] r1]; [|by intros [= <- <- <-]..].
  destruct (node_evaluate _ _ _ _ _ _) as [[scores [| |]]| |]; try (by intros [= <- <- <-]).
  destruct (tree_output E e scores) as [o1 keys] eqn:Ho. intros [= <- <- <-].
  repeat split; try done. simpl. destruct Hf as [Hf|Hf].
  - destruct (tree_output_class E e scores Hk) as [_ Hk']; [congruence|]. by rewrite Ho in Hk'.
  - rewrite tree_output_regr in Ho by congruence. by simplify_eq.
Qed.

(** ** The descents of the document *)

Definition has_pred (m : mnode) : Prop := m_pred m ≠ PNone.

Definition special_strategies : list string :=
  ["nullPrediction"; "aggregateNodes"; "weightedConfidence"; "defaultChild"; "lastPrediction"].

Lemma node_evaluate_none E cx st r tk n :
  st ∉ special_strategies → node_evaluate E cx st r tk n = eval_none E cx r n.
Proof.
  unfold special_strategies. intros H. unfold node_evaluate.
  repeat match goal with |- context [st =s ?x] =>
    destruct (String.eqb_spec st x); [exfalso; subst; set_solver|] end.
  done.
Qed.

Section doc.
  Context (E : Ext) (dd : list data_field) (td : list derived_field) (t : tree_model) (e : etree).
  Context (Ht : tree_of E dd td t e).
  Let ft : fieldtypes := field_types dd (td ++ tm_lt t).
  Let dist : mnode → list score := doc_dist dd (target_field (tm_schema t)) (tm_notrue t).
  Let rep : list score → res datarow := report E (tm_function t) (target_field (tm_schema t)).

  Lemma doc_root : compiled_to E ft (tm_node t) (et_root e).
  Proof. by destruct Ht as (_ & _ & _ & _ & _ & _ & _ & ? & _). Qed.

  Lemma doc_dist_of m n : compiled_to E ft m n → output_dist (doc_ctx dd td t) n = dist m.
  Proof. intros H. by rewrite (output_dist_doc E ft (doc_ctx dd td t) m n H). Qed.

  Lemma doc_verdicts r :
    everywhere_doc has_pred (tm_node t) → everywhere (has_verdict E ft r) (et_root e).
  Proof. intros H. eapply new_node_verdicts; [apply doc_root|exact H]. Qed.

  Lemma none_doc tk r r' :
    tm_strategy t ∉ special_strategies →
    everywhere_doc has_pred (tm_node t) →
    handle_input E (tm_lt t) r = (Ok tt, r') →
    (node_truth E ft r' (tm_node t) RT →
       (∃ leaf, descend_none m_nodes (node_truth E ft r') (tm_node t) leaf) ∧
       ∀ leaf, descend_none m_nodes (node_truth E ft r') (tm_node t) leaf →
         (tree_evaluate E tk e r).1 = (rep (dist leaf), r')) ∧
    (¬ node_truth E ft r' (tm_node t) RT → (tree_evaluate E tk e r).1 = (Ok None, r')).
  Proof.
    intros Hst Hp Hi. rewrite (tree_of_run _ _ _ _ _ _ _ _ Ht Hi), node_evaluate_none by done.
    pose proof (doc_verdicts r' Hp) as Hv.
    assert (Hroot := doc_root). rewrite (compiled_truth _ _ _ _ _ _ Hroot).
    split.
    - intros Hrt. split.
      + destruct (eval_none_total E (doc_ctx dd td t) r' (et_root e) Hv) as [[s v] Hs].
        assert (v = RT) as -> by (by apply (eval_none_verdict _ _ _ _ _ _ Hs)).
        apply eval_none_path in Hs as (_ & leaf & Hl & _); [|done].
        edestruct (transport_none n_children m_nodes (verdict E ft r') (node_truth E ft r')
          (flip (compiled_to E ft))) as (y & _ & Hy); [..|exact Hl|exact Hroot|eauto].
        * intros a b. apply compiled_kids'.
        * intros a b v. apply compiled_truth'.
      + intros leaf Hl.
        edestruct (transport_none m_nodes n_children (node_truth E ft r') (verdict E ft r')
          (compiled_to E ft)) as (y & Hly & Hy); [..|exact Hl|exact Hroot|].
        * intros a b. apply compiled_kids.
        * intros a b v. apply compiled_truth.
        * assert (eval_none E (doc_ctx dd td t) r' (et_root e) = Ok (dist leaf, RT)) as ->; [|done].
          apply eval_none_path; [done|]. split; [done|]. exists y. split; [done|].
          symmetry. by apply doc_dist_of.
    - intros Hrt. rewrite eval_none_false; [done|done|]. by apply everywhere_here in Hv.
  Qed.

  Lemma null_doc tk r r' :
    tm_strategy t = "nullPrediction" →
    everywhere_doc has_pred (tm_node t) →
    handle_input E (tm_lt t) r = (Ok tt, r') →
    (∀ leaf, node_truth E ft r' (tm_node t) RT →
       descend_null m_nodes (node_truth E ft r') (tm_node t) leaf →
       (tree_evaluate E tk e r).1 = (rep (dist leaf), r')) ∧
    (¬ node_truth E ft r' (tm_node t) RT ∨ meets_unknown m_nodes (node_truth E ft r') (tm_node t) →
       (tree_evaluate E tk e r).1 = (Ok None, r')) ∧
    ((∃ leaf, descend_null m_nodes (node_truth E ft r') (tm_node t) leaf) ∨
     meets_unknown m_nodes (node_truth E ft r') (tm_node t)).
  Proof.
    intros Hst Hp Hi. rewrite (tree_of_run _ _ _ _ _ _ _ _ Ht Hi).
    rewrite Hst. unfold node_evaluate. cbn [String.eqb Ascii.eqb Bool.eqb].
    pose proof (doc_verdicts r' Hp) as Hv.
    assert (Hroot := doc_root). rewrite (compiled_truth _ _ _ _ _ _ Hroot).
    assert (Hmu : meets_unknown m_nodes (node_truth E ft r') (tm_node t) ↔
                  null_unknown E ft r' (et_root e)).
    { split; intros H.
      - eapply (transport_unknown m_nodes n_children (node_truth E ft r') (verdict E ft r')
          (compiled_to E ft)); [..|exact H|exact Hroot].
        + intros a b. apply compiled_kids.
        + intros a b v. apply compiled_truth.
      - eapply (transport_unknown n_children m_nodes (verdict E ft r') (node_truth E ft r')
          (flip (compiled_to E ft))); [..|exact H|exact Hroot].
        + intros a b. apply compiled_kids'.
        + intros a b v. apply compiled_truth'. }
    split; [|split].
    - intros leaf Hrt Hl. apply (compiled_truth _ _ _ _ _ _ Hroot) in Hrt.
      edestruct (transport_null m_nodes n_children (node_truth E ft r') (verdict E ft r')
        (compiled_to E ft)) as (y & Hly & Hy); [..|exact Hl|exact Hroot|].
      + intros a b. apply compiled_kids.
      + intros a b v. apply compiled_truth.
      + assert (eval_null E (doc_ctx dd td t) r' (et_root e) = Ok (dist leaf, RT)) as ->; [|done].
        apply eval_null_path; [done|]. split; [done|]. exists y. split; [done|].
        symmetry. by apply doc_dist_of.
    - intros Hor. destruct (eval_null_total E (doc_ctx dd td t) r' (et_root e) Hv) as [[s v] Hs].
      rewrite Hs. destruct v; try done. exfalso.
      apply eval_null_path in Hs as (Hrt & leaf & Hl & _); [|done].
      destruct Hor as [Hor|Hor]; [done|]. apply Hmu in Hor. by eapply null_path_unknown in Hl.
    - (* either the descent is fully known or it meets an unknown child *)
      rewrite Hmu.
      assert (Hroot' := Hroot). revert Hv Hroot'. generalize (et_root e) as n. generalize (tm_node t) as m.
      clear - Ht. intros m n Hv Hroot.
      assert (Hd : (∃ leaf, null_path E ft r' n leaf) ∨ null_unknown E ft r' n).
      { revert Hv. clear. induction n as [id dc cs ds te sc IH] using node_rect'. intros Hv.
        inversion Hv as [? _ Hc]; subst. simpl in Hc.
        assert (Hsplit : (∀ c, c ∈ cs → verdict E ft r' c RF) ∨
          ∃ l1 c l2, cs = l1 ++ c :: l2 ∧ (∀ c', c' ∈ l1 → verdict E ft r' c' RF) ∧
                     (verdict E ft r' c RT ∨ verdict E ft r' c RU)).
        { clear IH Hv. induction cs as [|c cs IHc]; [left; intros ? ?%elem_of_nil; done|].
          apply Forall_cons in Hc as [Hc Hcs]. apply everywhere_here in Hc.
          destruct (has_verdict_cases _ _ _ _ Hc) as [H|[H|H]].
          - right. exists [], c, cs. split; [done|]. split; [intros ? ?%elem_of_nil; done|by left].
          - destruct (IHc Hcs) as [Hall|(l1 & c' & l2 & -> & Hl1 & Hc')].
            + left. intros x [->|Hx]%elem_of_cons; auto.
            + right. exists (c :: l1), c', l2. split; [done|]. split; [|done].
              intros x [->|Hx]%elem_of_cons; auto.
          - right. exists [], c, cs. split; [done|]. split; [intros ? ?%elem_of_nil; done|by right]. }
        destruct Hsplit as [Hall|(l1 & c & l2 & -> & Hl1 & [Hct|Hcu])].
        - left. eexists. by apply null_stop.
        - rewrite Forall_forall in IH, Hc.
          assert (c ∈ l1 ++ c :: l2) as Hin by set_solver.
          destruct (IH c Hin (Hc c Hin)) as [[leaf Hl]|Hu].
          + left. exists leaf. by eapply null_step.
          + right. by eapply null_below.
        - right. by eapply null_here. }
      destruct Hd as [[leaf Hl]|Hu]; [left|by right].
      edestruct (transport_null n_children m_nodes (verdict E ft r') (node_truth E ft r')
          (flip (compiled_to E ft))) as (y & _ & Hy); [..|exact Hl|exact Hroot|eauto].
      + intros a b. apply compiled_kids'.
      + intros a b v. apply compiled_truth'.
  Qed.

  Lemma last_doc tk r r' :
    tm_strategy t = "lastPrediction" →
    everywhere_doc has_pred (tm_node t) →
    handle_input E (tm_lt t) r = (Ok tt, r') →
    node_truth E ft r' (tm_node t) RT →
    everywhere_doc (λ m, node_truth E ft r' m RU → m_nodes m = []) (tm_node t) →
    everywhere_doc (single_true m_nodes (node_truth E ft r')) (tm_node t) →
    everywhere_doc (λ m, dist m ≠ []) (tm_node t) →
    ∃ leaf, descend_last m_nodes (node_truth E ft r') (tm_node t) leaf ∧
      (tree_evaluate E tk e r).1 = (rep (dist leaf), r').
  Proof.
    intros Hst Hp Hi Hrt Hul Hone Hd. rewrite (tree_of_run _ _ _ _ _ _ _ _ Ht Hi).
    rewrite Hst. unfold node_evaluate. cbn [String.eqb Ascii.eqb Bool.eqb].
    pose proof (doc_verdicts r' Hp) as Hv. assert (Hroot := doc_root).
    apply (compiled_truth _ _ _ _ _ _ Hroot) in Hrt.
    destruct (eval_last_leaf E (doc_ctx dd td t) r' (et_root e)) as (leaf & Hl & ->).
    - done.
    - eapply (transport_everywhere m_nodes n_children (compiled_to E ft)); [..|exact Hul|exact Hroot].
      + intros a b. apply compiled_kids.
      + intros a b Hab Ha Hv'. apply (compiled_truth _ _ _ _ _ _ Hab) in Hv'.
        apply compiled_kids in Hab. rewrite (Ha Hv') in Hab. by inversion Hab.
    - eapply (transport_everywhere m_nodes n_children (compiled_to E ft)); [..|exact Hone|exact Hroot].
      + intros a b. apply compiled_kids.
      + intros a b Hab. apply (transport_single _ _ _ _ (compiled_to E ft)); [| |done].
        * intros ? ?. apply compiled_kids.
        * intros ? ? ?. apply compiled_truth.
    - eapply (transport_everywhere m_nodes n_children (compiled_to E ft)); [..|exact Hd|exact Hroot].
      + intros a b. apply compiled_kids.
      + intros a b Hab. by rewrite (doc_dist_of _ _ Hab).
    - done.
    - edestruct (transport_last n_children m_nodes (verdict E ft r') (node_truth E ft r')
          (flip (compiled_to E ft))) as (y & Hly & Hy); [..|exact Hl|exact Hroot|].
      + intros a b. apply compiled_kids'.
      + intros a b v. apply compiled_truth'.
      + exists y. split; [done|]. by rewrite (doc_dist_of _ _ Hly).
  Qed.
End doc.
