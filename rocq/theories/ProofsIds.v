(** Proofs about other identifiers for nodes. *)
From Verif Require Import Base Strconv Value Doc Expr Pred Tree Regression Model Lib
  SpecPred ProofsPred SpecExpr ProofsExpr SpecConstruct ProofsConstruct ProofsRange
  SpecTree ProofsTree ProofsOutput ProofsEval ProofsDoc ProofsSafe ProofsWhole ProofsSim
  SpecEssence ProofsEssence SpecEquiv ProofsEquiv ProofsPrune SpecIds.

Inductive nreid : node → node → Prop :=
| nr_node id1 id2 dc1 dc2 cs1 cs2 ds t sc :
    Forall2 (λ a b, nreid a b ∧ (n_id a = dc1 ↔ n_id b = dc2)) cs1 cs2 →
    nreid (Node id1 dc1 cs1 ds t sc) (Node id2 dc2 cs2 ds t sc).

Lemma new_node_id E ft m n : new_node E ft m = Ok n → n_id n = mn_id m.
Proof. destruct m. cbn [new_node]. by intros (cs & Hcs & (q & Hq & [= <-])%rbind_ok)%rbind_ok. Qed.

Lemma new_node_reid E ft m1 : ∀ m2 n1, reidentified m1 m2 → new_node E ft m1 = Ok n1 →
  ∃ n2, new_node E ft m2 = Ok n2 ∧ nreid n1 n2.
Proof.
  induction m1 as [id dc sc c ds ns1 p IH] using mnode_rect'. intros m2 n1 Hm.
  inversion Hm as [? id2 ? dc2 ? ? ? ? ns2 ? Hns]; subst; clear Hm. cbn [new_node].
  intros (cs1 & Hcs1 & (q & -> & [= <-])%rbind_ok)%rbind_ok.
  assert (∃ cs2, rmap (new_node E ft) ns2 = Ok cs2 ∧ Forall2 (λ a b, nreid a b ∧ (n_id a = dc ↔ n_id b = dc2)) cs1 cs2) as (cs2 & -> & Hcs2).
  { clear -IH Hns Hcs1. revert cs1 Hcs1. induction Hns as [|a b l1 l2 [Hab Hid] _ IHl]; intros cs1 Hcs1.
    { simpl in Hcs1. injection Hcs1 as <-. eauto. }
    apply Forall_cons in IH as [Ha IH]. cbn [rmap] in Hcs1 |- *.
    apply rbind_ok in Hcs1 as (x & Hx & (xs & Hxs & [= <-])%rbind_ok).
    destruct (Ha _ _ Hab Hx) as (y & Hy & Hxy). rewrite Hy. destruct (IHl IH _ Hxs) as (ys & -> & Hys). simpl.
    eexists. split; [done|]. constructor; [|done]. split; [done|]. by rewrite (new_node_id _ _ _ _ Hx), (new_node_id _ _ _ _ Hy). }
  eexists. split; [done|]. by constructor.
Qed.

Section reid.
  Context (E : Ext) (cx : tctx) (r : datarow).

  Lemma output_dist_reid id1 id2 dc1 dc2 cs1 cs2 ds t sc : length cs1 = length cs2 →
    output_dist cx (Node id1 dc1 cs1 ds t sc) = output_dist cx (Node id2 dc2 cs2 ds t sc).
  Proof. intros H. unfold output_dist. by rewrite H. Qed.

  Lemma reid_with {A} (f : node → A) (P : node → node → Prop) (cs1 cs2 : list node) :
    Forall (λ c1, ∀ c2, nreid c1 c2 → f c1 = f c2) cs1 → Forall2 (λ a b, nreid a b ∧ P a b) cs1 cs2 →
    Forall2 (λ a b, f a = f b) cs1 cs2.
  Proof.
    intros H1 H2. induction H2 as [|a b l1 l2 [Hab _] _ IH]; [constructor|].
    apply Forall_cons in H1 as [Ha H1]. constructor; auto.
  Qed.
  Lemma reid_with_i {A} (f : nat → node → A) (P : node → node → Prop) (cs1 cs2 : list node) :
    Forall (λ c1, ∀ c2, nreid c1 c2 → ∀ i, f i c1 = f i c2) cs1 → Forall2 (λ a b, nreid a b ∧ P a b) cs1 cs2 →
    Forall2 (λ a b, ∀ i, f i a = f i b) cs1 cs2.
  Proof.
    intros H1 H2. induction H2 as [|a b l1 l2 [Hab _] _ IH]; [constructor|].
    apply Forall_cons in H1 as [Ha H1]. constructor; auto.
  Qed.
  Lemma reid_scores dc1 dc2 (cs1 cs2 : list node) (rs : list (list score * presult)) (m1 m2 : gmap string (list score)) :
    Forall2 (λ a b, nreid a b ∧ (n_id a = dc1 ↔ n_id b = dc2)) cs1 cs2 → m1 !! dc1 = m2 !! dc2 →
    foldl (λ m '(c, x), <[n_id c := x.1]> m) m1 (zip cs1 rs) !! dc1 =
    foldl (λ m '(c, x), <[n_id c := x.1]> m) m2 (zip cs2 rs) !! dc2.
  Proof.
    intros H. revert rs m1 m2. induction H as [|a b l1 l2 [_ Hid] _ IH]; intros [|x rs] m1 m2 Hm; simpl; try done.
    apply IH. destruct (decide (n_id a = dc1)) as [Ha|Ha].
    - rewrite Ha, (proj1 Hid Ha). by rewrite !lookup_insert.
    - rewrite !lookup_insert_ne; [done| |done]. intros Hb. by apply Ha, Hid.
  Qed.

  Ltac start n1 n2 :=
    let IH := fresh "IH" in
    induction n1 as [id dc cs1 ds t1 sc IH] using node_rect'; intros n2 Hn;
    inversion Hn as [? id2 ? dc2 ? cs2 ? ? ? Hcs]; subst; clear Hn; pose proof (Forall2_length _ _ _ Hcs) as Hlen.

  Lemma eval_none_reid n1 : ∀ n2, nreid n1 n2 → eval_none E cx r n1 = eval_none E cx r n2.
  Proof.
    start n1 n2. cbn [eval_none]. destruct (run_test _ _ _ _) as [v| |]; simpl; try done.
    destruct v; try done. rewrite (output_dist_reid id id2 dc dc2 cs1 cs2) by done. apply first_true_Forall2, (reid_with _ _ _ _ IH Hcs).
  Qed.
  Lemma eval_null_reid n1 : ∀ n2, nreid n1 n2 → eval_null E cx r n1 = eval_null E cx r n2.
  Proof.
    start n1 n2. cbn [eval_null]. destruct (run_test _ _ _ _) as [v| |]; simpl; try done.
    destruct v; try done. rewrite (output_dist_reid id id2 dc dc2 cs1 cs2) by done. apply first_known_Forall2, (reid_with _ _ _ _ IH Hcs).
  Qed.
  Lemma eval_last_reid n1 : ∀ n2, nreid n1 n2 → eval_last E cx r n1 = eval_last E cx r n2.
  Proof.
    start n1 n2. cbn [eval_last]. rewrite (output_dist_reid id id2 dc dc2 cs1 cs2) by done.
    by rewrite (rmap_Forall2 _ (eval_last E cx r) cs1 cs2 (reid_with _ _ _ _ IH Hcs)).
  Qed.
  Lemma eval_default_reid n1 : ∀ n2, nreid n1 n2 → eval_default E cx r n1 = eval_default E cx r n2.
  Proof.
    start n1 n2. cbn [eval_default]. rewrite (output_dist_reid id id2 dc dc2 cs1 cs2) by done.
    rewrite (rmap_Forall2 _ (eval_default E cx r) cs1 cs2 (reid_with _ _ _ _ IH Hcs)).
    destruct (run_test _ _ _ _) as [[| |]| |]; simpl; try done.
    all: destruct (rmap _ _) as [rs| |]; simpl; try done; by rewrite (reid_scores dc dc2 cs1 cs2 rs ∅ ∅).
  Qed.
  Lemma eval_aggregate_reid n1 : ∀ n2, nreid n1 n2 → ∀ t, eval_aggregate E cx r t n1 = eval_aggregate E cx r t n2.
  Proof.
    start n1 n2. intros t. cbn [eval_aggregate]. rewrite (output_dist_reid id id2 dc dc2 cs1 cs2) by done.
    rewrite (rmapi_Forall2 _ (λ i c, eval_aggregate E cx r (i :: t) c) cs1 cs2); [done|].
    eapply (reid_with_i (λ i c, eval_aggregate E cx r (i :: t) c)); [|exact Hcs].
    eapply Forall_impl; [exact IH|]. simpl. auto.
  Qed.
  Lemma node_evaluate_reid st tk n1 n2 : st ≠ "weightedConfidence" →
    nreid n1 n2 → node_evaluate E cx st r tk n1 = node_evaluate E cx st r tk n2.
  Proof.
    intros Hst H. unfold node_evaluate. repeat case_str; try done;
      auto using eval_null_reid, eval_aggregate_reid, eval_default_reid, eval_last_reid, eval_none_reid.
  Qed.
End reid.

Lemma renumbered_stands_in E dd d1 d2 : renumbered d1 d2 → stands_in E dd dd d1 d2.
Proof.
  apply rewritten_stands_in. intros t1 t2 [<-|[t n [Hst Hre]]]; [apply stands_in_refl|].
  intros td e td'. cbn [new_model]. unfold new_tree_model, tree_validate, with_node.
  cbn [et_model tm_function et_dd et_ft et_root et_outkeys et_target et_compiled].
  destruct (_ && _); [done|].
  unfold tree_compile. cbn [et_model tm_lt tm_schema tm_node et_dd et_target et_validated et_compiled et_outkeys et_root
    tm_function tm_strategy tm_penalty tm_notrue tm_verification].
  destruct (new_node E _ (tm_node t)) as [n1|x|p] eqn:H1; [|done..]. intros [= <- <-].
  destruct (new_node_reid _ _ _ _ _ Hre H1) as (n2 & -> & Hr).
  eexists. split; [done|]. intros tk r. cbn [evaluate]. unfold tree_evaluate.
  cbn [et_validated et_compiled negb et_model tm_lt tm_strategy tm_schema et_root].
  destruct (handle_input E (tm_lt t) r) as [[u|x|p] r0]; [|done..].
  unfold tree_ctx. cbn [et_ft et_dd et_target et_model tm_penalty tm_notrue].
  rewrite (node_evaluate_reid _ _ _ _ _ n1 n2) by done.
  destruct (node_evaluate _ _ _ _ _ _) as [[s v]| |]; try done. destruct v; try done.
  unfold tree_output. cbn [et_model tm_function et_target et_outkeys].
  destruct (_ =s "classification"); [by destruct (foldl _ _ _)|].
  destruct (_ =s "regression"); [|done]. done.
Qed.

(** ** weightedConfidence *)
Notation counted := (λ p q : mnode * answer_t, m_count p.1 = m_count q.1 ∧ p.2 = q.2).

Lemma counted_perm l1 l1' l2 : Permutation l1' l1 → Forall2 counted l1 l2 →
  ∃ l2', Permutation l2' l2 ∧ Forall2 counted l1' l2'.
Proof.
  intros H. revert l2. induction H as [|x l1' l1 _ IH|x y l|l1' l1 l0 _ IH1 _ IH2]; intros l2 H2.
  - apply Forall2_nil_inv_l in H2 as ->. by exists [].
  - apply Forall2_cons_inv_l in H2 as (y & l2t & Hxy & Ht & ->). destruct (IH _ Ht) as (l2' & Hp & Hf).
    exists (y :: l2'). split; [by constructor|by constructor].
  - apply Forall2_cons_inv_l in H2 as (a & t & Ha & Ht & ->). apply Forall2_cons_inv_l in Ht as (b & t' & Hb & Ht & ->).
    exists (b :: a :: t'). split; [constructor|]. constructor; [done|]. by constructor.
  - destruct (IH2 _ H2) as (m & Hm & Hf). destruct (IH1 _ Hf) as (k & Hk & Hg). exists k. split; [by rewrite Hk|done].
Qed.

Lemma counted_total l1 l2 : Forall2 counted l1 l2 → ∀ a,
  foldl (λ acc p, SFadd 53 1024 acc (m_count p.1)) a l1 = foldl (λ acc p, SFadd 53 1024 acc (m_count p.1)) a l2.
Proof. induction 1 as [|x y l1 l2 [H _] _ IH]; intros a; [done|]. cbn [foldl]. by rewrite H. Qed.

Lemma weighted_scores_reid m1 m2 rs out : reidentified m1 m2 → length rs = length (m_nodes m2) →
  weighted_scores m1 rs out → weighted_scores m2 rs out.
Proof.
  intros Hre Hlen. destruct Hre as [id1 id2 dc1 dc2 sc c ds ns1 ns2 p Hns]. simpl in Hlen. unfold weighted_scores. cbn [m_nodes].
  assert (Forall2 counted (filter (λ p, p.2.2 ≠ RF) (zip ns1 rs)) (filter (λ p, p.2.2 ≠ RF) (zip ns2 rs))) as Hlive.
  { clear Hlen. revert rs. induction Hns as [|a b l1 l2 [Hab _] _ IH]; intros [|y rs]; try by constructor.
    cbn [zip zip_with]. rewrite !filter_cons. cbn [snd]. destruct (decide _); [|apply IH]. constructor; [|apply IH]. simpl. by destruct Hab. }
  intros (l1 & Hp & Hnd & Hs). destruct (counted_perm _ _ _ Hp Hlive) as (l2 & Hp2 & Hc). exists l2.
  split; [done|]. split; [done|]. rewrite <- (counted_total _ _ Hlive).
  set (tot := foldl _ _ _) in *.
  assert (map (λ p : mnode * answer_t, p.2.1) l1 = map (λ p : mnode * answer_t, p.2.1) l2) as He.
  { clear -Hc. induction Hc as [|x y k1 k2 [_ H] _ IH]; [done|]. cbn [map]. by rewrite H, IH. }
  assert (map (λ p : mnode * answer_t, (λ s, (SFdiv 53 1024 (m_count p.1) tot, s)) <$> p.2.1) l1 =
          map (λ p : mnode * answer_t, (λ s, (SFdiv 53 1024 (m_count p.1) tot, s)) <$> p.2.1) l2) as Hw.
  { clear -Hc. induction Hc as [|x y k1 k2 [H1 H] _ IH]; [done|]. cbn [map]. by rewrite H1, H, IH. }
  cbv zeta in Hs |- *. rewrite <- He, <- Hw. exact Hs.
Qed.

Lemma weighted_reid E dd td t r m1 x : weighted_answer (doc_truth E dd td t r) (node_dist dd t) m1 x →
  ∀ m2, reidentified m1 m2 → weighted_answer (doc_truth E dd td t r) (node_dist dd t) m2 x.
Proof.
  assert (∀ m1 m2 v, reidentified m1 m2 → doc_truth E dd td t r m1 v → doc_truth E dd td t r m2 v) as Htr.
  { intros a b v Hab. by destruct Hab. }
  assert (∀ m1 m2, reidentified m1 m2 → length (m_nodes m2) = length (m_nodes m1)) as Hlen.
  { intros a b Hab. destruct Hab as [? ? ? ? ? ? ? ? ? ? H]. simpl. symmetry. by eapply Forall2_length. }
  assert (∀ m1 m2, reidentified m1 m2 → node_dist dd t m1 = node_dist dd t m2) as Hd.
  { intros a b Hab. destruct Hab as [? ? ? ? ? ? ? ns1 ns2 ? H]. unfold node_dist, doc_dist. cbn [m_nodes m_dists m_score m_count].
    assert (ns1 ≠ [] ↔ ns2 ≠ []) as Hne by by destruct H.
    destruct (decide (ns1 ≠ [] ∧ _)) as [A|A], (decide (ns2 ≠ [] ∧ _)) as [B|B]; try done; exfalso; naive_solver. }
  assert (∀ m1 m2 (rs : list answer_t) (P : mnode → answer_t → Prop), reidentified m1 m2 →
    (∀ i c y, m_nodes m1 !! i = Some c → rs !! i = Some y → ∀ c2, reidentified c c2 → P c2 y) →
    ∀ i c y, m_nodes m2 !! i = Some c → rs !! i = Some y → P c y) as Hkids.
  { intros a b rs P Hab. destruct Hab as [? ? ? ? ? ? ? ? ? ? H]. cbn [m_nodes]. intros HP i c' y Hc Hy.
    destruct (Forall2_lookup_r _ _ _ _ _ H Hc) as (c1 & Hc1 & Hre & _). by eapply HP. }
  unfold weighted_answer. induction 1 as [m s Ht Hf|m w rs x Ht Hw Hl _ IH Hu Hx|m w rs Ht Hw Hl _ IH Hnu Hts|m w rs Ht Hw Hl _ IH Hnu Hts];
    intros m2 Hre.
  - apply ans_false; [by eapply Htr|done].
  - eapply ans_unknown; [by eapply Htr|done|by rewrite (Hlen _ _ Hre)| |done|].
    { eapply Hkids; [done|]. exact IH. }
    destruct Hx as [Hx Hx2]. split; [|done]. eapply weighted_scores_reid; [done|by rewrite (Hlen _ _ Hre)|done].
  - eapply ans_true; [by eapply Htr|done|by rewrite (Hlen _ _ Hre)| |done|done]. eapply Hkids; [done|]. exact IH.
  - rewrite (Hd _ _ Hre). eapply ans_stop; [by eapply Htr|done|by rewrite (Hlen _ _ Hre)| |done|done]. eapply Hkids; [done|]. exact IH.
Qed.

Lemma reidentified_sym m1 : ∀ m2, reidentified m1 m2 → reidentified m2 m1.
Proof.
  induction m1 as [id dc sc c ds ns1 p IH] using mnode_rect'. intros m2 Hm.
  inversion Hm as [? id2 ? dc2 ? ? ? ? ns2 ? Hns]; subst; clear Hm. constructor.
  clear -IH Hns. induction Hns as [|a b l1 l2 [Hab Hid] _ IHl]; [constructor|].
  apply Forall_cons in IH as [Ha IH]. constructor; [|by apply IHl]. split; [by apply Ha|by symmetry].
Qed.

Lemma renumbered_sym d1 d2 : renumbered d1 d2 → renumbered d2 d1.
Proof.
  apply rewritten_sym. intros t1 t2 [->|[t n [Hst Hre]]]; [by left|]. right. destruct t as [f s p nt lt sch v root]. unfold with_node. simpl in *.
  apply (stb _ (TreeModel f s p nt lt sch v n) root). simpl. split; [done|by apply reidentified_sym].
Qed.
