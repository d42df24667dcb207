(** Proofs for C144: last true children, and last children written as True. *)
From Verif Require Import Base Strconv Value Doc Expr Pred Tree Regression Model Lib SpecPred ProofsPred
  SpecExpr ProofsExpr SpecConstruct ProofsConstruct SpecTree ProofsTree ProofsOutput ProofsEval ProofsDoc ProofsSafe ProofsWhole
  ProofsClass SpecEquiv SpecElse.

(** ** The last true child *)

(** an answer for the node as the descent through last true children gives it *)
Definition found_late E cx r (n : node) (x : list score * presult) : Prop :=
  verdict E (cx_ft cx) r n x.2 ∧
  (x.2 = RT → ∃ leaf, descend_late n_children (verdict E (cx_ft cx) r) n leaf ∧ x.1 = output_dist cx leaf ∧ x.1 ≠ []).

Lemma last_true_split (rs : list (list score * presult)) :
  (∀ x, x ∈ rs → x.2 ≠ RT) ∨ ∃ l1 s l2, rs = l1 ++ (s, RT) :: l2 ∧ ∀ x, x ∈ l2 → x.2 ≠ RT.
Proof.
  induction rs as [|[s v] rs IH]; [left; intros x Hx; by apply elem_of_nil in Hx|].
  destruct IH as [IH|(l1 & s' & l2 & -> & Hl)]; [|right; by exists ((s, v) :: l1), s', l2].
  destruct (decide (v = RT)) as [->|Hv]; [right; by exists [], s, rs|left].
  intros x [->|Hx]%elem_of_cons; [done|by apply IH].
Qed.
Lemma scan_late E cx r id dc cs ds t sc rs :
  let n := Node id dc cs ds t sc in
  Forall (known E (cx_ft cx) r) cs → output_dist cx n ≠ [] → verdict E (cx_ft cx) r n RT →
  Forall2 (found_late E cx r) cs rs →
  (foldl scan_step (false, []) rs).1 = false ∧
  found_late E cx r n (if Nat.eqb (length (foldl scan_step (false, []) rs).2) 0 then output_dist cx n
                       else (foldl scan_step (false, []) rs).2, RT).
Proof.
  intros n Hk Hout Hn Hrs. split.
  - apply scan_unknown_false. apply Forall_forall. intros x Hx Hu.
    apply elem_of_list_lookup in Hx as [i Hi]. destruct (Forall2_lookup_r _ _ _ _ _ Hrs Hi) as (c & Hc & Hv & _).
    rewrite Hu in Hv. rewrite Forall_lookup in Hk. destruct (Hk i c Hc) as [H|H]; by pose proof (verdict_fun _ _ _ _ _ _ H Hv).
  - split; [done|]. intros _. cbn [fst].
    destruct (last_true_split rs) as [Hno|(rs1 & s & rs2 & -> & Hl)].
    + rewrite scan_no_true by done. cbn [length Nat.eqb]. exists n. split; [|done]. apply late_stop. intros c Hc Hv.
      apply elem_of_list_lookup in Hc as [i Hi]. destruct (Forall2_lookup_l _ _ _ _ _ Hrs Hi) as (x & Hx & Hxv & _).
      apply (Hno x); [by eapply elem_of_list_lookup_2|]. by eapply verdict_fun.
    + rewrite scan_one_true by done.
      apply Forall2_app_inv_r in Hrs as (cs1 & cs2' & H1 & H2' & ->).
      apply Forall2_cons_inv_r in H2' as (c & cs2 & [Hcv Hc] & H2 & ->).
      destruct (Hc eq_refl) as (leaf & Hd & Hs & Hne). cbn [fst] in Hs, Hne.
      assert (Nat.eqb (length s) 0 = false) as -> by (by destruct s).
      exists leaf. split; [|done]. apply (late_step _ _ _ cs1 c cs2); [done| |done..]. intros c' Hc' Hv.
      apply elem_of_list_lookup in Hc' as [i Hi]. destruct (Forall2_lookup_l _ _ _ _ _ H2 Hi) as (x & Hx & Hxv & _).
      apply (Hl x); [by eapply elem_of_list_lookup_2|]. by eapply verdict_fun.
Qed.

Section late.
  Context (E : Ext) (cx : tctx) (r : datarow).
  Notation found := (found_late E cx r).
  Definition sure (n : node) : Prop :=
    everywhere (known E (cx_ft cx) r) n ∧ everywhere (λ n, output_dist cx n ≠ []) n.
  Lemma sure_child n c : sure n → c ∈ n_children n → sure c.
  Proof. intros (H1 & H2) Hc. split; by eapply everywhere_child. Qed.
  Lemma sure_known n : sure n → Forall (known E (cx_ft cx) r) (n_children n).
  Proof. intros H. apply Forall_forall. intros c Hc. by destruct (sure_child _ _ H Hc) as [?%everywhere_here _]. Qed.
  Lemma found_map {A} (ev : A → node → res (list score * presult)) (g : nat → A) i cs :
    (∀ c a, c ∈ cs → ∃ x, ev a c = Ok x ∧ found c x) →
    ∃ rs, rmapi (λ i c, ev (g i) c) i cs = Ok rs ∧ Forall2 found cs rs.
  Proof.
    revert i. induction cs as [|c cs IH]; intros i H; simpl; [by eexists|].
    destruct (H c (g i) ltac:(left)) as (x & Hx & Ha). rewrite Hx. simpl.
    destruct (IH (S i)) as (rs & Hrs & Hf); [intros; apply H; by right|].
    rewrite Hrs. simpl. eexists. split; [done|]. by constructor.
  Qed.
  Lemma found_rmap (ev : node → res (list score * presult)) cs :
    (∀ c, c ∈ cs → ∃ x, ev c = Ok x ∧ found c x) → ∃ rs, rmap ev cs = Ok rs ∧ Forall2 found cs rs.
  Proof.
    induction cs as [|c cs IH]; intros H; simpl; [by eexists|].
    destruct (H c ltac:(left)) as (x & Hx & Ha). rewrite Hx. simpl.
    destruct IH as (rs & Hrs & Hf); [intros; apply H; by right|].
    rewrite Hrs. simpl. eexists. split; [done|]. by constructor.
  Qed.

  Ltac start :=
    match goal with
    | Hset : sure (Node ?id ?dc ?cs ?ds ?t ?sc) |- _ =>
        pose proof (λ c, sure_child _ c Hset) as Hsetc; pose proof (sure_known _ Hset) as Hkc;
        destruct Hset as (Hk & Hd);
        pose proof (everywhere_here _ _ Hd) as Hdn;
        destruct (everywhere_here _ _ Hk) as [Hv|Hv];
        pose proof Hv as Hv'; unfold verdict in Hv'; simpl in Hv'
    end.
  Ltac finish Hkc Hdn Hv Hf :=
    destruct (scan_late _ _ _ _ _ _ _ _ _ _ Hkc Hdn Hv Hf) as [Hu Ht];
    destruct (foldl scan_step _ _) as [u [|s0 td]]; simpl in Hu, Ht; subst u; simpl; eexists; (split; [done|exact Ht]).

  Lemma late_last n : sure n → ∃ x, eval_last E cx r n = Ok x ∧ found n x.
  Proof.
    induction n as [id dc cs ds t sc IH] using node_rect'. rewrite Forall_forall in IH. intros Hs. start; simpl; rewrite Hv'; simpl.
    - destruct (found_rmap (eval_last E cx r) cs) as (rs & Hrs & Hf); [eauto|]. rewrite Hrs. simpl. finish Hkc Hdn Hv Hf.
    - eexists; split; [done|]. by split.
  Qed.
  Lemma late_default n : sure n → ∃ x, eval_default E cx r n = Ok x ∧ found n x.
  Proof.
    induction n as [id dc cs ds t sc IH] using node_rect'. rewrite Forall_forall in IH. intros Hs. start; simpl; rewrite Hv'; simpl.
    - destruct (found_rmap (eval_default E cx r) cs) as (rs & Hrs & Hf); [eauto|]. rewrite Hrs. simpl. finish Hkc Hdn Hv Hf.
    - eexists; split; [done|]. by split.
  Qed.
  Lemma late_weighted tk n : sure n → ∃ x, eval_weighted E cx r tk n = Ok x ∧ found n x.
  Proof.
    revert tk. induction n as [id dc cs ds t sc IH] using node_rect'. rewrite Forall_forall in IH. intros tk Hs.
    start; simpl; rewrite Hv'; simpl.
    - destruct (found_map (eval_weighted E cx r) (λ i, i :: tk) 2 cs) as (rs & Hrs & Hf); [eauto|]. rewrite Hrs. simpl.
      destruct (foldl wc_collect _ _) as [[counts scores] total]. finish Hkc Hdn Hv Hf.
    - eexists; split; [done|]. by split.
  Qed.
  Lemma late_aggregate tk n : sure n → ∃ x, eval_aggregate E cx r tk n = Ok x ∧ found n x.
  Proof.
    revert tk. induction n as [id dc cs ds t sc IH] using node_rect'. rewrite Forall_forall in IH. intros tk Hs.
    start; simpl; rewrite Hv'; simpl.
    - destruct (found_map (eval_aggregate E cx r) (λ i, i :: tk) 1 cs) as (rs & Hrs & Hf); [eauto|]. rewrite Hrs. simpl. finish Hkc Hdn Hv Hf.
    - eexists; split; [done|]. by split.
  Qed.
  Lemma late_strategies st tk n :
    st ∈ ["aggregateNodes"; "weightedConfidence"; "defaultChild"; "lastPrediction"] → sure n →
    ∃ x, node_evaluate E cx st r tk n = Ok x ∧ found n x.
  Proof.
    intros Hst Hs. rewrite !elem_of_cons in Hst. unfold node_evaluate.
    destruct Hst as [->|[->|[->|[->|Hst%elem_of_nil]]]]; [..|done]; cbn [String.eqb Ascii.eqb Bool.eqb].
    - by apply late_aggregate.
    - by apply late_weighted.
    - by apply late_default.
    - by apply late_last.
  Qed.
End late.

Lemma transport_late {N M} (k1 : N → list N) (k2 : M → list M) t1 t2 (R : N → M → Prop) :
  (∀ a b, R a b → Forall2 R (k1 a) (k2 b)) → (∀ a b v, R a b → t1 a v ↔ t2 b v) →
  ∀ a l, descend_late k1 t1 a l → ∀ b, R a b → ∃ l', R l l' ∧ descend_late k2 t2 b l'.
Proof.
  intros Hk Ht a l H. induction H as [n Hn|n l1 c l2 leaf Hks Hl Hc _ IH]; intros b Hb; pose proof (Hk _ _ Hb) as Hf.
  - exists b. split; [done|]. apply late_stop. intros c Hc Hv. apply elem_of_list_lookup in Hc as [i Hi].
    destruct (Forall2_lookup_r _ _ _ _ _ Hf Hi) as (a & Ha & Hab). apply (Hn a); [by eapply elem_of_list_lookup_2|].
    by apply (Ht a c).
  - rewrite Hks in Hf. apply Forall2_app_inv_l in Hf as (m1 & m2' & H1 & H2' & Hm).
    apply Forall2_cons_inv_l in H2' as (d & m2 & Hcd & H2 & ->). destruct (IH d Hcd) as (l' & Hl' & Hd).
    exists l'. split; [done|]. apply (late_step _ _ _ m1 d m2); [done| |by apply (Ht c d)|done].
    intros c' Hc' Hv. apply elem_of_list_lookup in Hc' as [i Hi]. destruct (Forall2_lookup_r _ _ _ _ _ H2 Hi) as (a & Ha & Hab).
    apply (Hl a); [by eapply elem_of_list_lookup_2|]. by apply (Ht a c').
Qed.

Lemma late_doc E dd td t te tk r r' :
  tree_of E dd td t te → handle_input E (tm_lt t) r = (Ok tt, r') →
  tm_strategy t ∈ ["aggregateNodes"; "weightedConfidence"; "defaultChild"; "lastPrediction"] →
  let truth := node_truth E (field_types dd (td ++ tm_lt t)) r' in
  truth (tm_node t) RT →
  everywhere_doc (λ m, truth m RT ∨ truth m RF) (tm_node t) →
  everywhere_doc (λ m, doc_dist dd (target_field (tm_schema t)) (tm_notrue t) m ≠ []) (tm_node t) →
  ∃ leaf, descend_late m_nodes truth (tm_node t) leaf ∧
  (tree_evaluate E tk te r).1 =
  (report E (tm_function t) (target_field (tm_schema t))
     (doc_dist dd (target_field (tm_schema t)) (tm_notrue t) leaf), r').
Proof.
  intros Ht Hi Hst truth Hrt Hk Hd. rewrite (tree_of_run _ _ _ _ _ _ _ _ Ht Hi).
  pose proof (doc_root _ _ _ _ _ Ht) as Hroot. set (ft := field_types dd (td ++ tm_lt t)) in *.
  apply (compiled_truth _ _ _ _ _ _ Hroot) in Hrt.
  assert (sure E (doc_ctx dd td t) r' (et_root te)) as Hset.
  { split.
    - eapply (transport_everywhere m_nodes n_children (compiled_to E ft)); [..|exact Hk|exact Hroot].
      + intros a b. apply compiled_kids.
      + intros a b Hab [Hx|Hx]; apply (compiled_truth _ _ _ _ _ _ Hab) in Hx; [by left|by right].
    - eapply (transport_everywhere m_nodes n_children (compiled_to E ft)); [..|exact Hd|exact Hroot].
      + intros a b. apply compiled_kids.
      + intros a b Hab. by rewrite (doc_dist_of _ _ _ _ _ _ Hab). }
  destruct (late_strategies E (doc_ctx dd td t) r' _ tk _ Hst Hset) as ([s v] & -> & Hv & Hf).
  assert (v = RT) as -> by (by eapply verdict_fun). destruct (Hf eq_refl) as (leaf & Hl & Hs & _). cbn [fst] in Hs. subst s.
  edestruct (transport_late n_children m_nodes (verdict E ft r') truth
    (flip (compiled_to E ft))) as (y & Hly & Hy); [..|exact Hl|exact Hroot|].
  - intros a b. apply compiled_kids'.
  - intros a b v. apply compiled_truth'.
  - exists y. split; [done|]. by rewrite (doc_dist_of _ _ _ _ _ _ Hly).
Qed.

(** ** The last child written as True *)

(** related by [with_else], up to the predicate of the topmost node *)
Definition elsewise (covers : list mnode → mnode → Prop) (m1 m2 : mnode) : Prop :=
  ∃ m, with_else covers m1 m ∧ (m2 = m ∨ m2 = otherwise m).

Lemma otherwise_kids m : m_nodes (otherwise m) = m_nodes m.
Proof. by destruct m. Qed.
Lemma with_else_pred cov m1 m2 : with_else cov m1 m2 → m_pred m1 = m_pred m2.
Proof. by intros []. Qed.
Lemma with_else_truth cov E ft r m1 m2 v : with_else cov m1 m2 → node_truth E ft r m1 v ↔ node_truth E ft r m2 v.
Proof. intros H%with_else_pred. unfold node_truth. by rewrite H. Qed.
Lemma otherwise_truth E ft r m v : node_truth E ft r (otherwise m) v ↔ v = RT.
Proof.
  destruct m. unfold node_truth. cbn [otherwise m_pred compile_predicate]. split.
  - intros (p & [= <-] & H). by injection H.
  - intros ->. by exists PTrue.
Qed.

(** the children of related nodes *)
Lemma elsewise_kids cov m1 m2 : elsewise cov m1 m2 →
  Forall2 (with_else cov) (m_nodes m1) (m_nodes m2) ∨
  ∃ l1 k1 l2 k2, m_nodes m1 = l1 ++ [k1] ∧ m_nodes m2 = l2 ++ [otherwise k2] ∧
    Forall2 (with_else cov) l1 l2 ∧ with_else cov k1 k2 ∧ cov l1 k1.
Proof.
  intros (m & Hm & Hm2). assert (m_nodes m2 = m_nodes m) as -> by (destruct Hm2 as [->| ->]; [done|apply otherwise_kids]).
  destruct Hm; [by left|right]. naive_solver.
Qed.
Lemma we_elsewise cov m1 m2 : with_else cov m1 m2 → elsewise cov m1 m2.
Proof. intros H. exists m2. auto. Qed.

Lemma elsewise_dist cov dd t n m1 m2 : elsewise cov m1 m2 → node_dist dd t m1 = node_dist dd (with_node t n) m2.
Proof.
  intros (m & Hm & Hm2). assert (node_dist dd (with_node t n) m2 = node_dist dd t m) as ->.
  { destruct Hm2 as [->| ->]; [done|]. by destruct m. }
  unfold node_dist, doc_dist. destruct Hm as [id dc sc c ds ns1 ns2 p Hf|id dc sc c ds l1 k1 l2 k2 p Hf Hk Hc];
    cbn [m_nodes m_dists m_score m_count].
  - assert (ns1 = [] ↔ ns2 = []) as Hn.
    { split; intros ->; [by apply Forall2_nil_inv_l in Hf|by apply Forall2_nil_inv_r in Hf]. }
    repeat case_decide; try done; naive_solver.
  - assert (l1 ++ [k1] ≠ []) by (by destruct l1). assert (l2 ++ [otherwise k2] ≠ []) by (by destruct l2).
    repeat case_decide; try done; naive_solver.
Qed.

Section rest.
  Context (E : Ext) (ft : fieldtypes) (r : datarow).
  Notation truth := (node_truth E ft r).
  Notation cov := (takes_the_rest truth).

  Lemma kids_not_true l1 l2 : Forall2 (with_else cov) l1 l2 → (∀ c, c ∈ l1 → ¬ truth c RT) → ∀ c, c ∈ l2 → ¬ truth c RT.
  Proof.
    intros Hf H c Hc Hv. apply elem_of_list_lookup in Hc as [i Hi]. destruct (Forall2_lookup_r _ _ _ _ _ Hf Hi) as (a & Ha & Hab).
    apply (H a); [by eapply elem_of_list_lookup_2|]. by apply (with_else_truth cov E ft r _ _ _ Hab).
  Qed.
  Lemma kids_false l1 l2 : Forall2 (with_else cov) l1 l2 → (∀ c, c ∈ l1 → truth c RF) → ∀ c, c ∈ l2 → truth c RF.
  Proof.
    intros Hf H c Hc. apply elem_of_list_lookup in Hc as [i Hi]. destruct (Forall2_lookup_r _ _ _ _ _ Hf Hi) as (a & Ha & Hab).
    apply (with_else_truth cov E ft r _ _ _ Hab), H. by eapply elem_of_list_lookup_2.
  Qed.
  Lemma false_not_true c : truth c RF → ¬ truth c RT.
  Proof. intros (p & Hp & Hv) (q & Hq & Hw). congruence. Qed.

  (** the child a descent enters, in both trees *)
  Lemma entered (P : mnode → Prop) m1 m2 l1 c l2 :
    elsewise cov m1 m2 → m_nodes m1 = l1 ++ c :: l2 →
    (∀ c, P c → ¬ truth c RT) → (∀ a b, with_else cov a b → P a → P b) → (∀ c, c ∈ l1 → P c) →
    ∃ k1 d k2, m_nodes m2 = k1 ++ d :: k2 ∧ (∀ c, c ∈ k1 → P c) ∧ elsewise cov c d ∧
      (with_else cov c d ∨ truth c RT ∧ truth d RT).
  Proof.
    intros Hm Hk HP HPP Hl.
    assert (∀ la lb, Forall2 (with_else cov) la lb → (∀ c, c ∈ la → P c) → ∀ c, c ∈ lb → P c) as Hmap.
    { intros la lb Hf H c' Hc. apply elem_of_list_lookup in Hc as [i Hi]. destruct (Forall2_lookup_r _ _ _ _ _ Hf Hi) as (a & Ha & Hab).
      apply (HPP _ _ Hab), H. by eapply elem_of_list_lookup_2. }
    destruct (elsewise_kids _ _ _ Hm) as [Hf|(la & ka & lb & kb & H1 & H2 & Hf & Hkk & Hc)].
    - rewrite Hk in Hf. apply Forall2_app_inv_l in Hf as (k1 & k2' & Hf1 & Hf2 & ->).
      apply Forall2_cons_inv_l in Hf2 as (d & k2 & Hcd & Hf2 & ->). exists k1, d, k2. split; [done|]. split; [by apply (Hmap l1)|].
      split; [by apply we_elsewise|by left].
    - rewrite Hk in H1. destruct l2 as [|x l2 _] using rev_ind.
      + apply app_inj_tail in H1 as [-> ->]. exists lb, (otherwise kb), []. split; [done|]. split; [by apply (Hmap la)|]. split.
        * exists kb. auto.
        * right. split; [|by apply otherwise_truth]. apply Hc. intros c' Hc'. by apply HP, Hl.
      + rewrite app_comm_cons, app_assoc in H1. apply app_inj_tail in H1 as [<- ->].
        apply Forall2_app_inv_l in Hf as (k1 & k2' & Hf1 & Hf2 & ->).
        apply Forall2_cons_inv_l in Hf2 as (d & k2 & Hcd & Hf2 & ->). exists k1, d, (k2 ++ [otherwise kb]).
        split; [by rewrite H2, <- app_assoc|]. split; [by apply (Hmap l1)|]. split; [by apply we_elsewise|by left].
  Qed.
  Lemma entered_truth m1 m2 : with_else cov m1 m2 ∨ truth m1 RT ∧ truth m2 RT → truth m1 RT → truth m2 RT.
  Proof. intros [H|[_ H]] Ht; [by apply (with_else_truth cov E ft r _ _ _ H)|done]. Qed.
  Lemma no_stop (P : mnode → Prop) m1 m2 : elsewise cov m1 m2 → (∀ c, P c → ¬ truth c RT) → (∀ a b, with_else cov a b → P a → P b) →
    (∀ c, c ∈ m_nodes m1 → P c) → ∀ c, c ∈ m_nodes m2 → P c.
  Proof.
    intros Hm HP HPP H. destruct (elsewise_kids _ _ _ Hm) as [Hf|(la & ka & lb & kb & H1 & H2 & Hf & Hkk & Hc)].
    - intros c Hc. apply elem_of_list_lookup in Hc as [i Hi]. destruct (Forall2_lookup_r _ _ _ _ _ Hf Hi) as (a & Ha & Hab).
      apply (HPP _ _ Hab), H. by eapply elem_of_list_lookup_2.
    - exfalso. apply (HP ka); [apply H; rewrite H1; set_solver|]. apply Hc. intros c' Hc'. apply HP, H. rewrite H1. set_solver.
  Qed.

  Lemma none_else m1 leaf1 : descend_none m_nodes truth m1 leaf1 → ∀ m2, elsewise cov m1 m2 →
    ∃ leaf2, descend_none m_nodes truth m2 leaf2 ∧ elsewise cov leaf1 leaf2.
  Proof.
    induction 1 as [n Hn|n l1 c l2 leaf Hk Hl Hc _ IH]; intros m2 Hm.
    - exists m2. split; [|done]. constructor. apply (no_stop (λ c, ¬ truth c RT) n); [done..| |done].
      intros a b Hab. by rewrite (with_else_truth cov E ft r _ _ _ Hab).
    - destruct (entered (λ c, ¬ truth c RT) n m2 l1 c l2) as (k1 & d & k2 & Hk2 & Hl2 & Hcd & Ht); [done..| |done|].
      { intros a b Hab. by rewrite (with_else_truth cov E ft r _ _ _ Hab). }
      destruct (IH _ Hcd) as (leaf2 & Hd & Hll). exists leaf2. split; [|done].
      by apply (none_step _ _ _ k1 d k2); [..|by eapply entered_truth|].
  Qed.
  Lemma null_else m1 leaf1 : descend_null m_nodes truth m1 leaf1 → ∀ m2, elsewise cov m1 m2 →
    ∃ leaf2, descend_null m_nodes truth m2 leaf2 ∧ elsewise cov leaf1 leaf2.
  Proof.
    induction 1 as [n Hn|n l1 c l2 leaf Hk Hl Hc _ IH]; intros m2 Hm.
    - exists m2. split; [|done]. constructor. apply (no_stop (λ c, truth c RF) n); [done|apply false_not_true| |done].
      intros a b Hab. by rewrite (with_else_truth cov E ft r _ _ _ Hab).
    - destruct (entered (λ c, truth c RF) n m2 l1 c l2) as (k1 & d & k2 & Hk2 & Hl2 & Hcd & Ht); [done|done|apply false_not_true| |done|].
      { intros a b Hab. by rewrite (with_else_truth cov E ft r _ _ _ Hab). }
      destruct (IH _ Hcd) as (leaf2 & Hd & Hll). exists leaf2. split; [|done].
      by apply (null_step _ _ _ k1 d k2); [..|by eapply entered_truth|].
  Qed.
  Lemma unknown_else m1 : meets_unknown m_nodes truth m1 → ∀ m2, elsewise cov m1 m2 → meets_unknown m_nodes truth m2.
  Proof.
    induction 1 as [n l1 c l2 Hk Hl Hc|n l1 c l2 Hk Hl Hc _ IH]; intros m2 Hm;
      (destruct (entered (λ c, truth c RF) n m2 l1 c l2) as (k1 & d & k2 & Hk2 & Hl2 & Hcd & Ht);
        [done|done|apply false_not_true|intros a b Hab; by rewrite (with_else_truth cov E ft r _ _ _ Hab)|done|]).
    - apply (null_here _ _ _ k1 d k2); [done|done|]. destruct Ht as [H|[H _]]; [by apply (with_else_truth cov E ft r _ _ _ H)|].
      destruct H as (p & Hp & Hv), Hc as (q & Hq & Hw). congruence.
    - apply (null_below _ _ _ k1 d k2); [done|done|by eapply entered_truth|by apply IH].
  Qed.
End rest.

Lemma with_else_nopred cov m1 : ∀ m2, with_else cov m1 m2 →
  everywhere_doc (λ m, m_pred m ≠ PNone) m1 → everywhere_doc (λ m, m_pred m ≠ PNone) m2.
Proof.
  induction m1 as [id dc sc c ds ns p IH] using mnode_rect'. intros m2 Hm He. inversion He as [? Hp Hk]; subst. cbn [m_nodes] in Hk.
  inversion Hm as [? ? ? ? ? ? ns2 ? Hf|? ? ? ? ? l1 k1 l2 k2 ? Hf Hkk Hcov]; subst.
  - constructor; [done|]. cbn [m_nodes]. clear Hm He. induction Hf as [|a b la lb Hab _ IHf]; [constructor|].
    apply Forall_cons in IH as [IHa IH], Hk as [Ha Hk]. constructor; [by apply IHa|by apply IHf].
  - constructor; [done|]. cbn [m_nodes]. apply Forall_app in IH as [IH IHk], Hk as [Hk Hkl].
    apply Forall_cons in IHk as [IHk _], Hkl as [Hkl _]. apply Forall_app. split.
    + clear Hm He Hcov. induction Hf as [|a b la lb Hab _ IHf]; [constructor|].
      apply Forall_cons in IH as [IHa IH], Hk as [Ha Hk]. constructor; [by apply IHa|by apply IHf].
    + constructor; [|constructor]. specialize (IHk _ Hkk Hkl). inversion IHk as [? _ Hkids]; subst.
      constructor; [by destruct k2|]. by rewrite otherwise_kids.
Qed.
Lemma with_else_simples cov m1 x : ∀ m2, with_else cov m1 m2 → x ∈ tree_simples m2 → x ∈ tree_simples m1.
Proof.
  induction m1 as [id dc sc c ds ns p IH] using mnode_rect'. intros m2 Hm.
  assert (∀ la lb, Forall2 (with_else cov) la lb → Forall (λ a, ∀ m2, with_else cov a m2 → x ∈ tree_simples m2 → x ∈ tree_simples a) la →
    x ∈ concat (map tree_simples lb) → x ∈ concat (map tree_simples la)) as Hmap.
  { clear. induction 1 as [|a b la lb Hab _ IHf]; intros IH; [done|]. apply Forall_cons in IH as [Ha IH]. cbn [map concat].
    rewrite !elem_of_app. intros [H|H]; [left; by eapply Ha|right; by apply IHf]. }
  inversion Hm as [? ? ? ? ? ? ns2 ? Hf|? ? ? ? ? l1 k1 l2 k2 ? Hf Hkk Hcov]; subst; cbn [tree_simples]; rewrite !elem_of_app;
    (intros [Hin|Hin]; [left|by right]).
  - by apply (Hmap _ _ Hf).
  - apply Forall_app in IH as [IH IHk]. apply Forall_cons in IHk as [IHk _].
    rewrite map_app, concat_app, elem_of_app in Hin |- *. destruct Hin as [Hin|Hin]; [left; by apply (Hmap _ _ Hf)|right].
    cbn [map concat] in *. rewrite app_nil_r in *. apply (IHk _ Hkk). destruct k2 as [? ? ? ? ? ks q]. cbn [otherwise tree_simples] in *.
    rewrite elem_of_app in Hin |- *. destruct Hin as [Hin|Hin]; [by left|]. by apply elem_of_nil in Hin.
Qed.

(** covers of one kind are covers of another *)
Lemma with_else_impl (c1 c2 : list mnode → mnode → Prop) m1 : (∀ l c, Forall (λ k, k ∈ doc_nodes m1) l → c ∈ doc_nodes m1 → c1 l c → c2 l c) →
  ∀ m2, with_else c1 m1 m2 → with_else c2 m1 m2.
Proof.
  intros H. assert (∀ m, (∀ k, k ∈ doc_nodes m → k ∈ doc_nodes m1) → ∀ m2, with_else c1 m m2 → with_else c2 m m2) as Hx; [|by apply Hx].
  intros m. induction m as [id dc sc c ds ns p IH] using mnode_rect'. intros Hin m2 Hm. cbn [doc_nodes] in Hin.
  assert (∀ k, k ∈ ns → ∀ x, x ∈ doc_nodes k → x ∈ doc_nodes m1) as Hk.
  { intros k Hk x Hx. apply Hin. right. apply elem_of_list_In, in_concat. exists (doc_nodes k).
    split; [by apply in_map, elem_of_list_In|by apply elem_of_list_In]. }
  assert (∀ k, k ∈ ns → k ∈ doc_nodes m1) as Hself.
  { intros k Hkk. apply (Hk k Hkk). destruct k. left. }
  assert (∀ la lb, (∀ k, k ∈ la → k ∈ ns) → Forall2 (with_else c1) la lb → Forall2 (with_else c2) la lb) as Hmap.
  { intros la lb Hsub Hf. induction Hf as [|a b la lb Hab _ IHf]; [constructor|]. constructor.
    - rewrite Forall_forall in IH. apply (IH a); [apply Hsub; left| |done]. apply Hk, Hsub. left.
    - apply IHf. intros k Hkk. apply Hsub. by right. }
  inversion Hm as [? ? ? ? ? ? ns2 ? Hf|? ? ? ? ? l1 k1 l2 k2 ? Hf Hkk Hcov]; subst.
  - constructor. by apply Hmap.
  - assert (k1 ∈ l1 ++ [k1]) as Hk1 by set_solver.
    constructor; [apply Hmap; [set_solver|done]|rewrite Forall_forall in IH; by apply (IH k1 Hk1); [apply Hk|]|].
    apply H; [|by apply Hself|done]. apply Forall_forall. intros k Hk'. apply Hself. set_solver.
Qed.
