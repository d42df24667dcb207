(** Property C113: the order of exclusive siblings does not matter. *)
From Verif Require Import Base Strconv Value Doc Expr Pred Tree Regression Model Lib GoExt Samples SpecPred ProofsPred
  SpecExpr ProofsExpr SpecConstruct ProofsConstruct SpecTree ProofsTree ProofsOutput ProofsEval ProofsDoc ProofsSafe ProofsWhole
  ProofsClass SpecEquiv PropertiesConstruct PropertiesTree.

(** *** C113: the order of siblings *)

(** Children have been put in another order, at any depth. *)
Inductive shuffled : mnode → mnode → Prop :=
| shuffled_node id dc sc c ds ns1 ns ns2 p :
    Forall2 shuffled ns1 ns → Permutation ns ns2 →
    shuffled (MNode id dc sc c ds ns1 p) (MNode id dc sc c ds ns2 p).

(** All children but one are false. *)
Definition single_open (truth : mnode → presult → Prop) (m : mnode) : Prop :=
  ∀ l1 c l2 c', m_nodes m = l1 ++ c :: l2 → ¬ truth c RF → c' ∈ l1 ++ l2 → truth c' RF.

Lemma shuffled_kids m1 m2 : shuffled m1 m2 → ∃ ns, Forall2 shuffled (m_nodes m1) ns ∧ Permutation ns (m_nodes m2).
Proof. intros []. eauto. Qed.
Lemma shuffled_pred m1 m2 : shuffled m1 m2 → m_pred m1 = m_pred m2.
Proof. by intros []. Qed.
Lemma shuffled_truth E ft r m1 m2 v : shuffled m1 m2 → node_truth E ft r m1 v ↔ node_truth E ft r m2 v.
Proof. intros H%shuffled_pred. unfold node_truth. by rewrite H. Qed.
Lemma shuffled_dist dd t n m1 m2 : shuffled m1 m2 → node_dist dd t m1 = node_dist dd (with_node t n) m2.
Proof.
  intros H. destruct H as [id dc sc c ds ns1 ns ns2 p Hf Hp]. unfold node_dist, doc_dist. cbn [with_node tm_schema tm_notrue m_nodes m_dists m_score m_count].
  assert (ns1 = [] ↔ ns2 = []) as Hn.
  { split; intros ->.
    - apply Forall2_nil_inv_l in Hf as ->. by apply Permutation_nil in Hp.
    - symmetry in Hp. apply Permutation_nil in Hp as ->. by apply Forall2_nil_inv_r in Hf. }
  repeat case_decide; try done; naive_solver.
Qed.
Lemma shuffled_everywhere (P Q : mnode → Prop) m1 : (∀ m m', shuffled m m' → P m → Q m') →
  everywhere_doc P m1 → ∀ m2, shuffled m1 m2 → everywhere_doc Q m2.
Proof.
  intros HPQ. apply (everywhere_in_ind' m_nodes P (λ m1, ∀ m2, shuffled m1 m2 → everywhere_doc Q m2)).
  intros n Hn IH m2 Hm. constructor; [by apply (HPQ n)|].
  destruct (shuffled_kids _ _ Hm) as (ns & Hf & Hp). rewrite <- Hp. clear Hp.
  induction Hf as [|a b l1 l2 Hab _ IHl]; [constructor|]. apply Forall_cons in IH as [Ha IH]. constructor; [by apply Ha|by apply IHl].
Qed.

(** at most one element satisfies [P], however the list is split or arranged *)
Lemma alone_split {A} (P : A → Prop) (l : list A) :
  (∀ l1 c l2 c', l = l1 ++ c :: l2 → P c → c' ∈ l1 ++ l2 → ¬ P c') ↔
  (∀ i j a b, l !! i = Some a → l !! j = Some b → P a → P b → i = j).
Proof.
  split.
  - intros H i j a b Hi Hj Ha Hb. destruct (decide (i = j)) as [|Hne]; [done|]. exfalso.
    apply (H (take i l) a (drop (S i) l) b); [by rewrite take_drop_middle|done| |done].
    apply elem_of_app. destruct (decide (j < i)).
    + left. apply (elem_of_list_lookup_2 _ j). by rewrite lookup_take.
    + right. apply (elem_of_list_lookup_2 _ (j - S i)). rewrite lookup_drop. by replace (S i + (j - S i)) with j by lia.
  - intros H l1 c l2 c' -> Hc Hin Hc'. apply elem_of_app in Hin as [Hin|Hin]; apply elem_of_list_lookup in Hin as [j Hj].
    + assert (j < length l1) by by eapply lookup_lt_Some.
      assert (length l1 = j); [|lia]. apply (H _ _ c c'); [by apply list_lookup_middle|by rewrite lookup_app_l|done..].
    + assert (length l1 = length l1 + S j); [|lia]. apply (H _ _ c c'); [by apply list_lookup_middle| |done..].
      rewrite lookup_app_r by lia. by replace (length l1 + S j - length l1) with (S j) by lia.
Qed.
Lemma alone_related {A} (P Q : A → Prop) (R : A → A → Prop) l1 l l2 :
  (∀ a b, R a b → Q b → P a) → Forall2 R l1 l → Permutation l l2 →
  (∀ i j a b, l1 !! i = Some a → l1 !! j = Some b → P a → P b → i = j) →
  (∀ i j a b, l2 !! i = Some a → l2 !! j = Some b → Q a → Q b → i = j).
Proof.
  intros HR Hf Hp H i j a b Hi Hj Ha Hb. symmetry in Hp. apply Permutation_inj in Hp as (_ & f & Hinj & Hlook).
  rewrite Hlook in Hi, Hj. apply Hinj.
  destruct (Forall2_lookup_r _ _ _ _ _ Hf Hi) as (a' & Ha' & HRa). destruct (Forall2_lookup_r _ _ _ _ _ Hf Hj) as (b' & Hb' & HRb).
  apply (H _ _ a' b'); [done..| |]; by eapply HR.
Qed.
Lemma single_true_shuffled E ft r m1 m2 : shuffled m1 m2 →
  single_true m_nodes (node_truth E ft r) m1 → single_true m_nodes (node_truth E ft r) m2.
Proof.
  intros Hm. destruct (shuffled_kids _ _ Hm) as (ns & Hf & Hp). unfold single_true.
  rewrite (alone_split (λ c, node_truth E ft r c RT) (m_nodes m1)), (alone_split (λ c, node_truth E ft r c RT) (m_nodes m2)).
  eapply (alone_related (λ c, node_truth E ft r c RT) _ shuffled); [|exact Hf|exact Hp]. intros a b Hab. by apply shuffled_truth.
Qed.

Lemma node_truth_fun E ft r m v w : node_truth E ft r m v → node_truth E ft r m w → v = w.
Proof. intros (p & Hp & Hv) (q & Hq & Hw). congruence. Qed.
Lemma false_dec E ft r m v : node_truth E ft r m v ∨ ¬ node_truth E ft r m v.
Proof.
  unfold node_truth. destruct (compile_predicate E ft (m_pred m)) as [p|x|y] eqn:Hc; [|right; naive_solver..].
  destruct (run_test E ft p r) as [w|x|y] eqn:Ht.
  - destruct (decide (w = v)) as [->|Hne]; [left; by exists p|right]. intros (p' & Hp & Hr). congruence.
  - right. intros (p' & Hp & Hr). congruence.
  - right. intros (p' & Hp & Hr). congruence.
Qed.
Lemma single_open_shuffled E ft r m1 m2 : shuffled m1 m2 →
  single_open (node_truth E ft r) m1 → single_open (node_truth E ft r) m2.
Proof.
  intros Hm H. destruct (shuffled_kids _ _ Hm) as (ns & Hf & Hp).
  assert (∀ l1 c l2 c', m_nodes m2 = l1 ++ c :: l2 → ¬ node_truth E ft r c RF → c' ∈ l1 ++ l2 → ¬ ¬ node_truth E ft r c' RF) as Hx.
  { rewrite (alone_split (λ c, ¬ node_truth E ft r c RF)).
    eapply (alone_related (λ c, ¬ node_truth E ft r c RF) _ shuffled); [|exact Hf|exact Hp|].
    - intros a b Hab. by rewrite (shuffled_truth _ _ _ _ _ _ Hab).
    - apply alone_split. intros l1 c l2 c' H1 H2 H3 H4. apply H4. by eapply H. }
  intros l1 c l2 c' H1 H2 H3. destruct (false_dec E ft r c' RF); [done|]. by destruct (Hx _ _ _ _ H1 H2 H3).
Qed.

Lemma shuffled_kid m1 m2 c : shuffled m1 m2 → c ∈ m_nodes m1 → ∃ c', c' ∈ m_nodes m2 ∧ shuffled c c'.
Proof.
  intros Hm Hc. destruct (shuffled_kids _ _ Hm) as (ns & Hf & Hp). apply elem_of_list_lookup in Hc as [i Hi].
  destruct (Forall2_lookup_l _ _ _ _ _ Hf Hi) as (c' & Hc' & Hcc). exists c'. split; [|done].
  rewrite <- Hp. by eapply elem_of_list_lookup_2.
Qed.
Lemma shuffled_kid_r m1 m2 c' : shuffled m1 m2 → c' ∈ m_nodes m2 → ∃ c, c ∈ m_nodes m1 ∧ shuffled c c'.
Proof.
  intros Hm Hc. destruct (shuffled_kids _ _ Hm) as (ns & Hf & Hp). rewrite <- Hp in Hc. apply elem_of_list_lookup in Hc as [i Hi].
  destruct (Forall2_lookup_r _ _ _ _ _ Hf Hi) as (c & Hc & Hcc). exists c. split; [|done]. by eapply elem_of_list_lookup_2.
Qed.

Section shuffle.
  Context (E : Ext) (ft : fieldtypes) (r : datarow).
  Notation truth := (node_truth E ft r).

  Lemma none_shuffled m1 leaf1 : descend_none m_nodes truth m1 leaf1 → ∀ m2, shuffled m1 m2 →
    everywhere_doc (single_true m_nodes truth) m1 → ∃ leaf2, descend_none m_nodes truth m2 leaf2 ∧ shuffled leaf1 leaf2.
  Proof.
    induction 1 as [n Hn|n l1 c l2 leaf Hk _ Hc _ IH]; intros m2 Hm He.
    - exists m2. split; [|done]. constructor. intros c' Hc' Ht. destruct (shuffled_kid_r _ _ _ Hm Hc') as (c & Hc & Hcc).
      apply (Hn c Hc). by rewrite (shuffled_truth _ _ _ _ _ _ Hcc).
    - inversion He as [? Hs Hkids]; subst. destruct (shuffled_kid n m2 c Hm) as (c' & Hc' & Hcc); [rewrite Hk; set_solver|].
      destruct (IH c' Hcc) as (leaf2 & H1 & H2); [rewrite Hk, Forall_app, Forall_cons in Hkids; by apply Hkids|].
      exists leaf2. split; [|done]. apply elem_of_list_split in Hc' as (k1 & k2 & Hk').
      assert (truth c' RT) as Ht by by rewrite <- (shuffled_truth _ _ _ _ _ _ Hcc).
      apply (none_step _ _ _ k1 c' k2); [done| |done..]. intros d Hd.
      apply (single_true_shuffled _ _ _ _ _ Hm Hs k1 c' k2 d Hk' Ht). set_solver.
  Qed.
  Lemma null_shuffled m1 leaf1 : descend_null m_nodes truth m1 leaf1 → ∀ m2, shuffled m1 m2 →
    everywhere_doc (single_open truth) m1 → ∃ leaf2, descend_null m_nodes truth m2 leaf2 ∧ shuffled leaf1 leaf2.
  Proof.
    induction 1 as [n Hn|n l1 c l2 leaf Hk _ Hc _ IH]; intros m2 Hm He.
    - exists m2. split; [|done]. constructor. intros c' Hc'. destruct (shuffled_kid_r _ _ _ Hm Hc') as (c & Hc & Hcc).
      rewrite <- (shuffled_truth _ _ _ _ _ _ Hcc). by apply Hn.
    - inversion He as [? Hs Hkids]; subst. destruct (shuffled_kid n m2 c Hm) as (c' & Hc' & Hcc); [rewrite Hk; set_solver|].
      destruct (IH c' Hcc) as (leaf2 & H1 & H2); [rewrite Hk, Forall_app, Forall_cons in Hkids; by apply Hkids|].
      exists leaf2. split; [|done]. apply elem_of_list_split in Hc' as (k1 & k2 & Hk').
      assert (truth c' RT) as Ht by by rewrite <- (shuffled_truth _ _ _ _ _ _ Hcc).
      apply (null_step _ _ _ k1 c' k2); [done| |done..]. intros d Hd.
      apply (single_open_shuffled _ _ _ _ _ Hm Hs k1 c' k2 d Hk'); [|set_solver].
      intros Hf. by pose proof (node_truth_fun _ _ _ _ _ _ Ht Hf).
  Qed.
  Lemma unknown_shuffled m1 : meets_unknown m_nodes truth m1 → ∀ m2, shuffled m1 m2 →
    everywhere_doc (single_open truth) m1 → meets_unknown m_nodes truth m2.
  Proof.
    induction 1 as [n l1 c l2 Hk _ Hc|n l1 c l2 Hk _ Hc _ IH]; intros m2 Hm He;
      inversion He as [? Hs Hkids]; subst; (destruct (shuffled_kid n m2 c Hm) as (c' & Hc' & Hcc); [rewrite Hk; set_solver|]);
      apply elem_of_list_split in Hc' as (k1 & k2 & Hk').
    - assert (truth c' RU) as Ht by by rewrite <- (shuffled_truth _ _ _ _ _ _ Hcc).
      apply (null_here _ _ _ k1 c' k2); [done| |done]. intros d Hd.
      apply (single_open_shuffled _ _ _ _ _ Hm Hs k1 c' k2 d Hk'); [|set_solver].
      intros Hf. by pose proof (node_truth_fun _ _ _ _ _ _ Ht Hf).
    - assert (truth c' RT) as Ht by by rewrite <- (shuffled_truth _ _ _ _ _ _ Hcc).
      apply (null_below _ _ _ k1 c' k2); [done| |done|].
      + intros d Hd. apply (single_open_shuffled _ _ _ _ _ Hm Hs k1 c' k2 d Hk'); [|set_solver].
        intros Hf. by pose proof (node_truth_fun _ _ _ _ _ _ Ht Hf).
      + apply IH; [done|]. rewrite Hk, Forall_app, Forall_cons in Hkids. by apply Hkids.
  Qed.
  Lemma descend_none_fun m a b : descend_none m_nodes truth m a → descend_none m_nodes truth m b → a = b.
  Proof.
    intros H. revert b. induction H as [n Hn|n l1 c l2 leaf Hk H1 Hc _ IH]; intros b Hb;
      inversion Hb as [? Hn'|? l1' c' l2' ? Hk' H1' Hc' Hd']; subst; [done|..].
    - destruct (Hn c'); [rewrite Hk'; set_solver|done].
    - destruct (Hn' c); [rewrite Hk; set_solver|done].
    - rewrite Hk in Hk'. destruct (split_unique (λ c, ¬ truth c RT) _ _ _ _ _ _ Hk' H1 H1') as (_ & <- & _); [naive_solver..|].
      by apply IH.
  Qed.
End shuffle.

Lemma shuffled_simples m1 m2 x : shuffled m1 m2 → x ∈ tree_simples m2 → x ∈ tree_simples m1.
Proof.
  revert m2. induction m1 as [id dc sc c ds ns p IH] using mnode_rect'. intros m2 Hm.
  inversion Hm as [? ? ? ? ? ? ns' ns2 ? Hf Hp]; subst. cbn [tree_simples]. rewrite !elem_of_app. intros [Hin|Hin]; [left|by right].
  apply elem_of_list_In, in_concat in Hin as (l & Hl & Hx). apply in_map_iff in Hl as (n2 & <- & Hn2).
  apply elem_of_list_In in Hn2, Hx. rewrite <- Hp in Hn2.
  apply elem_of_list_lookup in Hn2 as [i Hi]. destruct (Forall2_lookup_r _ _ _ _ _ Hf Hi) as (n1 & Hi1 & H12).
  apply elem_of_list_In, in_concat. exists (tree_simples n1). split.
  - by apply in_map, elem_of_list_In, (elem_of_list_lookup_2 _ i).
  - apply elem_of_list_In. rewrite Forall_lookup in IH. by apply (IH i n1 Hi1 n2).
Qed.
Lemma shuffled_accepted E dd td t n e td' : shuffled (tm_node t) n → new_model E dd td (DTree t) = (Ok e, td') →
  ∃ e', new_model E dd td (DTree (with_node t n)) = (Ok e', td').
Proof.
  intros Hn He. destruct (proj2 (C02_tree_compiles_iff E dd td (with_node t n))) as (e' & td2 & H).
  { destruct (proj1 (C02_tree_compiles_iff E dd td t) ltac:(eauto)) as [Hf Hs]. split; [done|]. intros f lit Hin. apply Hs.
    by eapply shuffled_simples. }
  exists e'. rewrite H. apply C05_dictionary_after_success in H, He. by subst.
Qed.
Lemma shuffled_failure E dd td t n e e' td' calls calls' tk r : 
  new_model E dd td (DTree t) = (Ok e, td') → new_model E dd td (DTree (with_node t n)) = (Ok e', td') →
  (handle_input E (tm_lt t) r).1 ≠ Ok tt →
  (evaluate E tk (after E calls e) r).1 = (evaluate E tk (after E calls' e') r).1.
Proof.
  intros H1 H2 Hi. destruct (tree_evaluator E dd td t e td' calls H1) as (te & Ht & _ & ->).
  destruct (tree_evaluator E dd td (with_node t n) e' td' calls' H2) as (te' & Ht' & _ & ->).
  destruct Ht as (Hv & Hc & _ & _ & _ & _ & Hlt & _). destruct Ht' as (Hv' & Hc' & _ & _ & _ & _ & Hlt' & _).
  rewrite !tree_evaluate_run by done. cbn [with_node tm_lt] in Hlt'. rewrite Hlt, Hlt'.
  by destruct (handle_input E (tm_lt t) r) as [[[]| |] r'].
Qed.

(** Under the default strategy it is enough that no two siblings are true. *)
Theorem C113_none : ∀ E dd td t n e td' calls calls' tk r,
  new_model E dd td (DTree t) = (Ok e, td') → shuffled (tm_node t) n →
  tm_strategy t ∉ ["nullPrediction"; "aggregateNodes"; "weightedConfidence"; "defaultChild"; "lastPrediction"] →
  everywhere_doc (λ m, m_pred m ≠ PNone) (tm_node t) →
  (∀ r', handle_input E (tm_lt t) r = (Ok tt, r') → everywhere_doc (single_true m_nodes (doc_truth E dd td t r')) (tm_node t)) →
  ∃ e', new_model E dd td (DTree (with_node t n)) = (Ok e', td') ∧
    (evaluate E tk (after E calls e) r).1 = (evaluate E tk (after E calls' e') r).1.
Proof.
  intros E dd td t n e td' calls calls' tk r He Hn Hst Hp Hs.
  destruct (shuffled_accepted _ _ _ _ _ _ _ Hn He) as [e' He']. exists e'. split; [done|].
  destruct (handle_input E (tm_lt t) r) as [[[]|x|x] r'] eqn:Hi.
  2,3: apply (shuffled_failure E dd td t n e e' td'); [done..|by rewrite Hi].
  specialize (Hs _ eq_refl).
  destruct (C15_strategy_none E dd td t e td' calls tk r r' He Hst Hp Hi) as [H1 H2].
  destruct (C15_strategy_none E dd td (with_node t n) e' td' calls' tk r r' He' Hst) as [H1' H2'].
  { apply (shuffled_everywhere (λ m, m_pred m ≠ PNone) _ (tm_node t)); [|done..]. intros m m' Hm. by rewrite (shuffled_pred _ _ Hm). }
  { done. }
  change (doc_truth E dd td (with_node t n) r') with (doc_truth E dd td t r') in *. cbn [with_node tm_node] in *.
  destruct (false_dec E (field_types dd (td ++ tm_lt t)) r' (tm_node t) RT) as [Ht|Ht].
  - destruct (H1 Ht) as [[leaf Hl] Ha]. rewrite (Ha leaf Hl). destruct (none_shuffled _ _ _ _ _ Hl n Hn Hs) as (leaf' & Hl' & Hll).
    destruct H1' as [_ Ha']; [by apply (shuffled_truth E (field_types dd (td ++ tm_lt t)) r' _ _ RT Hn)|]. rewrite (Ha' _ Hl').
    by rewrite (shuffled_dist dd t n _ _ Hll).
  - rewrite H2, H2'; [done| |done]. intros H. apply Ht. by rewrite (shuffled_truth E (field_types dd (td ++ tm_lt t)) r' _ _ RT Hn).
Qed.
Print Assumptions C113_none.

(** Under nullPrediction all siblings but one have to be false: an unknown one counts. *)
Theorem C113_null : ∀ E dd td t n e td' calls calls' tk r,
  new_model E dd td (DTree t) = (Ok e, td') → shuffled (tm_node t) n → tm_strategy t = "nullPrediction" →
  everywhere_doc (λ m, m_pred m ≠ PNone) (tm_node t) →
  (∀ r', handle_input E (tm_lt t) r = (Ok tt, r') → everywhere_doc (single_open (doc_truth E dd td t r')) (tm_node t)) →
  ∃ e', new_model E dd td (DTree (with_node t n)) = (Ok e', td') ∧
    (evaluate E tk (after E calls e) r).1 = (evaluate E tk (after E calls' e') r).1.
Proof.
  intros E dd td t n e td' calls calls' tk r He Hn Hst Hp Hs.
  destruct (shuffled_accepted _ _ _ _ _ _ _ Hn He) as [e' He']. exists e'. split; [done|].
  destruct (handle_input E (tm_lt t) r) as [[[]|x|x] r'] eqn:Hi.
  2,3: apply (shuffled_failure E dd td t n e e' td'); [done..|by rewrite Hi].
  specialize (Hs _ eq_refl).
  destruct (C16_null_prediction E dd td t e td' calls tk r r' He Hst Hp Hi) as (H1 & H2 & H3).
  destruct (C16_null_prediction E dd td (with_node t n) e' td' calls' tk r r' He' Hst) as (H1' & H2' & _).
  { apply (shuffled_everywhere (λ m, m_pred m ≠ PNone) _ (tm_node t)); [|done..]. intros m m' Hm. by rewrite (shuffled_pred _ _ Hm). }
  { done. }
  change (doc_truth E dd td (with_node t n) r') with (doc_truth E dd td t r') in *. cbn [with_node tm_node] in *.
  destruct (false_dec E (field_types dd (td ++ tm_lt t)) r' (tm_node t) RT) as [Ht|Ht].
  - assert (doc_truth E dd td t r' n RT) as Ht' by by apply (shuffled_truth E (field_types dd (td ++ tm_lt t)) r' _ _ RT Hn).
    destruct H3 as [[leaf Hl]|Hu].
    + rewrite (H1 leaf Ht Hl). destruct (null_shuffled _ _ _ _ _ Hl n Hn Hs) as (leaf' & Hl' & Hll).
      rewrite (H1' leaf' Ht' Hl'). by rewrite (shuffled_dist dd t n _ _ Hll).
    + rewrite H2, H2'; [done|right|by right]. by eapply unknown_shuffled.
  - rewrite H2, H2'; [done|left|by left]. intros H. apply Ht. by rewrite (shuffled_truth E (field_types dd (td ++ tm_lt t)) r' _ _ RT Hn).
Qed.
Print Assumptions C113_null.

(** Under every strategy, when all predicates are known, no two siblings are true and
    every node has scores. *)
Theorem C113_known : ∀ E dd td t n e td' calls calls' tk r r',
  new_model E dd td (DTree t) = (Ok e, td') → shuffled (tm_node t) n →
  handle_input E (tm_lt t) r = (Ok tt, r') →
  let truth := doc_truth E dd td t r' in
  truth (tm_node t) RT →
  everywhere_doc (λ m, truth m RT ∨ truth m RF) (tm_node t) →
  everywhere_doc (single_true m_nodes truth) (tm_node t) →
  everywhere_doc (λ m, node_dist dd t m ≠ []) (tm_node t) →
  ∃ e', new_model E dd td (DTree (with_node t n)) = (Ok e', td') ∧
    (evaluate E tk (after E calls e) r).1 = (evaluate E tk (after E calls' e') r).1.
Proof.
  intros E dd td t n e td' calls calls' tk r r' He Hn Hi truth Hr Hk Hs Hd.
  destruct (shuffled_accepted _ _ _ _ _ _ _ Hn He) as [e' He']. exists e'. split; [done|].
  destruct (C21_strategies_agree E dd td t e td' calls tk r r' He Hi Hr Hk Hs Hd) as (leaf & Hl & ->).
  destruct (C21_strategies_agree E dd td (with_node t n) e' td' calls' tk r r' He' Hi) as (leaf' & Hl' & ->).
  - by apply (shuffled_truth E (field_types dd (td ++ tm_lt t)) r' _ _ RT Hn).
  - eapply shuffled_everywhere; [|exact Hk|exact Hn]. intros m m' Hm.
    intros [H|H]; [left|right]; by apply (shuffled_truth E (field_types dd (td ++ tm_lt t)) r' _ _ _ Hm).
  - apply (shuffled_everywhere _ _ (tm_node t) (λ m m' Hm, single_true_shuffled E (field_types dd (td ++ tm_lt t)) r' m m' Hm) Hs _ Hn).
  - eapply shuffled_everywhere; [|exact Hd|exact Hn]. intros m m' Hm. cbn beta. by rewrite (shuffled_dist dd t n _ _ Hm).
  - destruct (none_shuffled _ _ _ _ _ Hl n Hn Hs) as (leaf2 & Hl2 & Hll).
    rewrite (descend_none_fun _ _ _ _ _ _ Hl' Hl2). by rewrite (shuffled_dist dd t n _ _ Hll).
Qed.
Print Assumptions C113_known.

(** the golf tree with the children of both inner nodes swapped *)
Definition golf_swapped : mnode :=
  match golf_root with
  | MNode i d s c ds [MNode i2 d2 s2 c2 ds2 [a; b] p2; k] p => MNode i d s c ds [k; MNode i2 d2 s2 c2 ds2 [b; a] p2] p
  | m => m
  end.
Lemma leaf_shuffled i d s c ds p : shuffled (MNode i d s c ds [] p) (MNode i d s c ds [] p).
Proof. by apply (shuffled_node _ _ _ _ _ _ []). Qed.
Lemma two_single E ft r m a b : m_nodes m = [a; b] → (node_truth E ft r a RF ∨ node_truth E ft r b RF) →
  single_true m_nodes (node_truth E ft r) m.
Proof.
  intros Hm Hab. unfold single_true. rewrite (alone_split (λ c, node_truth E ft r c RT)), Hm.
  assert (¬ (node_truth E ft r a RT ∧ node_truth E ft r b RT)).
  { intros [Ha Hb]. destruct Hab as [H|H]; [by pose proof (node_truth_fun _ _ _ _ _ _ Ha H)|by pose proof (node_truth_fun _ _ _ _ _ _ Hb H)]. }
  intros [|[|i]] [|[|j]] x y Hx Hy; simplify_eq/=; naive_solver.
Qed.
Lemma leaf_single E ft r m : m_nodes m = [] → single_true m_nodes (node_truth E ft r) m.
Proof. intros Hm l1 c l2 c' H. rewrite Hm in H. by destruct l1. Qed.
Example C113_example : shuffled golf_root golf_swapped ∧
  everywhere_doc (single_true m_nodes (doc_truth go_ext golf_dd [] (golf_tree "none" "0.5") (with_wind sunny))) golf_root ∧
  dumped (run go_ext golf_dd (DTree (with_node (golf_tree "none" "0.5") golf_swapped)) sunny) =
    dumped (run go_ext golf_dd (golf "none") sunny).
Proof.
  split; [|split; [|by vm_compute]].
  - unfold golf_swapped, golf_root.
    eapply shuffled_node; [|apply perm_swap]. constructor; [|constructor; [|constructor]]; [|apply leaf_shuffled].
    eapply shuffled_node; [|apply perm_swap]. constructor; [|constructor; [|constructor]]; apply leaf_shuffled.
  - constructor.
    + apply (two_single _ _ _ golf_root (kid golf_root 0) (kid golf_root 1) eq_refl). right. apply (truth_b_ok _ _ _ _ _ RF); by vm_compute.
    + constructor; [|constructor; [|constructor]].
      * constructor; [apply (two_single _ _ _ (kid golf_root 0) (kid (kid golf_root 0) 0) (kid (kid golf_root 0) 1) eq_refl); right;
          apply (truth_b_ok _ _ _ _ _ RF); by vm_compute|].
        constructor; [|constructor; [|constructor]]; (constructor; [apply leaf_single; exact eq_refl|constructor]).
      * constructor; [apply leaf_single; exact eq_refl|constructor].
Qed.

(** When two siblings are true, the first one wins. *)
Definition overlap (a b : string) : tree_model :=
  TreeModel "classification" "none" fone "" [] [MF "play" "target"] None
    (MNode "1" "" "" fzero [] [MNode "2" "" a fzero [] [] PTrue; MNode "3" "" b fzero [] [] PTrue] PTrue).
Theorem C113_overlap_refuted : ∃ E dd t n e1 e2 td tk out1 out2,
  shuffled (tm_node t) n ∧ new_model E dd [] (DTree t) = (Ok e1, td) ∧ new_model E dd [] (DTree (with_node t n)) = (Ok e2, td) ∧
  (evaluate E tk e1 (Some ∅)).1.1 = Ok (Some out1) ∧ (evaluate E tk e2 (Some ∅)).1.1 = Ok (Some out2) ∧
  out1 !! "play" = Some (GStr "yes") ∧ out2 !! "play" = Some (GStr "no").
Proof.
  exists go_ext, golf_dd, (overlap "yes" "no"),
    (MNode "1" "" "" fzero [] [MNode "3" "" "no" fzero [] [] PTrue; MNode "2" "" "yes" fzero [] [] PTrue] PTrue),
    (built go_ext golf_dd (DTree (overlap "yes" "no"))),
    (built go_ext golf_dd (DTree (with_node (overlap "yes" "no")
      (MNode "1" "" "" fzero [] [MNode "3" "" "no" fzero [] [] PTrue; MNode "2" "" "yes" fzero [] [] PTrue] PTrue)))), [], [],
    {["play" := GStr "yes"; "probability(yes)" := GF64 fone; "probability(no)" := GF64 fzero]},
    {["play" := GStr "no"; "probability(no)" := GF64 fone; "probability(yes)" := GF64 fzero]}.
  split.
  { eapply shuffled_node; [|apply perm_swap]. constructor; [|constructor; [|constructor]]; apply leaf_shuffled. }
  split; [by rewrite built_ok; [|by vm_compute]|]. split; [by rewrite built_ok; [|by vm_compute]|].
  split; [by apply run_out; vm_compute|]. split; [by apply run_out; vm_compute|]. by vm_compute.
Qed.
Print Assumptions C113_overlap_refuted.
