(** Property C114: what missingValuePenalty does. *)
From Coq Require Import Reals Lra.
From Flocq Require Import Core.Core IEEE754.BinarySingleNaN.
From Verif Require Import Base Strconv Value Doc Expr Pred Tree Regression Model Lib GoExt Samples SpecPred ProofsPred
  SpecExpr ProofsExpr SpecConstruct ProofsConstruct SpecTree ProofsTree ProofsOutput ProofsEval ProofsDoc ProofsSafe ProofsWhole
  ProofsClass SpecEquiv PropertiesConstruct PropertiesTree PropertiesShuffle RealLib AccLib ForestLib PropertiesForest.
Local Open Scope R_scope.

Definition with_penalty (t : tree_model) (p : f64) : tree_model :=
  TreeModel (tm_function t) (tm_strategy t) p (tm_notrue t) (tm_lt t) (tm_schema t) (tm_verification t) (tm_node t).

Lemma last_filter_related {A B} (R : A → B → Prop) (P : A → Prop) (Q : B → Prop) `{∀ a, Decision (P a)} `{∀ b, Decision (Q b)} l1 l2 :
  Forall2 (λ a b, R a b ∧ (P a ↔ Q b)) l1 l2 → option_Forall2 R (last (filter P l1)) (last (filter Q l2)).
Proof.
  induction 1 as [|a b l1 l2 [Hab Hpq] _ IH]; [constructor|]. rewrite !filter_cons.
  destruct (decide (P a)) as [Ha|Ha], (decide (Q b)) as [Hb|Hb]; [|naive_solver..|done].
  rewrite !last_cons. destruct IH; by constructor.
Qed.

Section penalty.
  Context (truth : mnode → presult → Prop) (dist : mnode → list score) (p1 p2 : f64) (R : score → score → Prop).
  Context (Ht : ∀ m v w, truth m v → truth m w → v = w).
  Context (Hpen : ∀ a b, R a b → R (penalised p1 a) (penalised p2 b)).
  Definition related (x y : answer_t) : Prop := Forall2 R x.1 y.1 ∧ x.2 = y.2.

  Lemma related_true rs1 rs2 : Forall2 related rs1 rs2 → Forall2 R (true_scores rs1) (true_scores rs2).
  Proof.
    intros H. unfold true_scores.
    destruct (last_filter_related related (λ x : answer_t, x.2 = RT) (λ x : answer_t, x.2 = RT) rs1 rs2) as [x y [Hxy _]|]; simpl;
      [|done|constructor].
    eapply Forall2_impl; [exact H|]. intros x y [Hxy Hv]. split; [done|]. by rewrite Hv.
  Qed.
  Lemma related_unknown rs1 rs2 : Forall2 related rs1 rs2 → (∃ y, y ∈ rs1 ∧ y.2 = RU) → ∃ y, y ∈ rs2 ∧ y.2 = RU.
  Proof.
    intros H (y & Hy & Hu). apply elem_of_list_lookup in Hy as [i Hi].
    destruct (Forall2_lookup_l _ _ _ _ _ H Hi) as (z & Hz & [_ Hv]). exists z. split; [by eapply elem_of_list_lookup_2|congruence].
  Qed.
  Lemma related_unknown_r rs1 rs2 : Forall2 related rs1 rs2 → (∃ y, y ∈ rs2 ∧ y.2 = RU) → ∃ y, y ∈ rs1 ∧ y.2 = RU.
  Proof.
    intros H (y & Hy & Hu). apply elem_of_list_lookup in Hy as [i Hi].
    destruct (Forall2_lookup_r _ _ _ _ _ H Hi) as (z & Hz & [_ Hv]). exists z. split; [by eapply elem_of_list_lookup_2|congruence].
  Qed.

  Lemma penalty_related m : everywhere_doc (λ m, Forall2 R (dist m) (dist m)) m → ∀ x y,
    default_answer truth dist p1 m x → default_answer truth dist p2 m y → related x y.
  Proof.
    unfold default_answer.
    apply (everywhere_in_ind' m_nodes (λ m, Forall2 R (dist m) (dist m)) (λ m, ∀ x y,
      default_answer truth dist p1 m x → default_answer truth dist p2 m y → related x y)).
    clear m. intros m Hd IH x y Hx Hy.
    assert (∀ rs1 rs2 : list answer_t, length rs1 = length (m_nodes m) → length rs2 = length (m_nodes m) →
      (∀ i c y, m_nodes m !! i = Some c → rs1 !! i = Some y → default_answer truth dist p1 c y) →
      (∀ i c y, m_nodes m !! i = Some c → rs2 !! i = Some y → default_answer truth dist p2 c y) → Forall2 related rs1 rs2) as Hrs.
    { intros rs1 rs2 L1 L2 H1 H2. apply Forall2_same_length_lookup. split; [congruence|]. intros i a b Ha Hb.
      destruct (lookup_lt_is_Some_2 (m_nodes m) i) as [c Hc]; [rewrite <- L1; by eapply lookup_lt_Some|].
      rewrite Forall_lookup in IH. apply (IH i c Hc); [by apply (H1 i c)|by apply (H2 i c)]. }
    unfold default_answer in Hx, Hy.
    inversion Hx as [? s T1 F1|? w rs1 ? T1 W1 L1 K1 U1 X1|? w rs1 T1 W1 L1 K1 U1 X1|? w rs1 T1 W1 L1 K1 U1 X1]; subst;
    inversion Hy as [? s' T2 F2|? w' rs2 ? T2 W2 L2 K2 U2 X2|? w' rs2 T2 W2 L2 K2 U2 X2|? w' rs2 T2 W2 L2 K2 U2 X2]; subst;
      pose proof (Ht _ _ _ T1 T2); subst; try done; try (split; [constructor|done]);
      specialize (Hrs rs1 rs2 L1 L2 K1 K2);
      try (destruct (related_unknown _ _ Hrs U1) as (z & Hz & Hu); by destruct (U2 z Hz));
      try (destruct (related_unknown_r _ _ Hrs U2) as (z & Hz & Hu); by destruct (U1 z Hz)).
    - destruct (last_filter_related (λ x y : mnode * answer_t, related x.2 y.2) (λ p : mnode * answer_t, m_id p.1 = m_default m)
        (λ p : mnode * answer_t, m_id p.1 = m_default m) (zip (m_nodes m) rs1) (zip (m_nodes m) rs2)) as [[c [s1 v1]] [c' [s2 v2]] [Hs _]|].
      + clear -Hrs L1. revert rs1 rs2 Hrs L1. generalize (m_nodes m) as ns.
        induction ns as [|a ns IH]; intros rs1 rs2 Hrs L1; [constructor|]. destruct Hrs as [|y z rs1 rs2 Hyz Hrs]; [done|].
        simpl. constructor; [done|]. apply IH; [done|]. simpl in L1. lia.
      + simpl in Hs. split; [|done]. simpl. apply Forall2_fmap. eapply Forall2_impl; [exact Hs|]. intros a b Hab. by apply Hpen.
      + split; [constructor|done].
    - split; [by apply related_true|done].
    - pose proof (related_true _ _ Hrs) as H. rewrite X2 in H. by apply Forall2_nil_inv_r in H.
    - pose proof (related_true _ _ Hrs) as H. rewrite X1 in H. by apply Forall2_nil_inv_l in H.
  Qed.
End penalty.

Definition lower (s1 s2 : score) : Prop :=
  sc_value s1 = sc_value s2 ∧ good s1 ∧ good s2 ∧ fleb (sc_prob s1) (sc_prob s2) = true.
Lemma penalised_lower p1 p2 a b : valid p1 → valid p2 → in_unit p1 → in_unit p2 → fleb p1 p2 = true →
  lower a b → lower (penalised p1 a) (penalised p2 b).
Proof.
  intros V1 V2 U1 U2 Hp (Hv & [Va Ua] & [Vb Ub] & Hab). unfold lower, good. simpl.
  change (SFmul 53 1024 (sc_prob a) p1) with (fmul (sc_prob a) p1). change (SFmul 53 1024 (sc_prob b) p2) with (fmul (sc_prob b) p2).
  pose proof (fmul_valid _ _ Va V1) as Va1. pose proof (fmul_valid _ _ Vb V2) as Vb2.
  pose proof (fmul_unit _ _ Va V1 Ua U1) as Ua1. pose proof (fmul_unit _ _ Vb V2 Ub U2) as Ub2.
  do 3 (split; [done|]).
  apply unit_R in Ua as [Fa ?], Ub as [Fb ?], U1 as [F1 ?], U2 as [F2 ?], Ua1 as [Fa1 ?], Ub2 as [Fb2 ?]; try done.
  apply fle_R in Hab, Hp; try done. apply fle_R; try done.
  destruct (fmul_fin _ _ Va V1 Fa1) as (_ & _ & ->). destruct (fmul_fin _ _ Vb V2 Fb2) as (_ & _ & ->).
  apply round_mono. apply Rmult_le_compat; lra.
Qed.

Lemma penalty_accepted E dd td t p e td' : new_model E dd td (DTree t) = (Ok e, td') →
  ∃ e', new_model E dd td (DTree (with_penalty t p)) = (Ok e', td').
Proof.
  intros He. destruct (proj2 (C02_tree_compiles_iff E dd td (with_penalty t p))) as (e' & td2 & H).
  { exact (proj1 (C02_tree_compiles_iff E dd td t) ltac:(eauto)). }
  exists e'. rewrite H. apply C05_dictionary_after_success in H, He. by subst.
Qed.
Lemma penalty_failure E dd td t p e e' td' calls calls' tk r : 
  new_model E dd td (DTree t) = (Ok e, td') → new_model E dd td (DTree (with_penalty t p)) = (Ok e', td') →
  (handle_input E (tm_lt t) r).1 ≠ Ok tt →
  (evaluate E tk (after E calls e) r).1 = (evaluate E tk (after E calls' e') r).1.
Proof.
  intros H1 H2 Hi. destruct (tree_evaluator E dd td t e td' calls H1) as (te & Ht & _ & ->).
  destruct (tree_evaluator E dd td (with_penalty t p) e' td' calls' H2) as (te' & Ht' & _ & ->).
  destruct Ht as (Hv & Hc & _ & _ & _ & _ & Hlt & _). destruct Ht' as (Hv' & Hc' & _ & _ & _ & _ & Hlt' & _).
  rewrite !tree_evaluate_run by done. cbn [with_penalty tm_lt] in Hlt'. rewrite Hlt, Hlt'.
  by destruct (handle_input E (tm_lt t) r) as [[[]| |] r'].
Qed.
Lemma penalty_answers E dd td t p e td' calls calls' tk r (R : score → score → Prop) :
  new_model E dd td (DTree t) = (Ok e, td') → tm_strategy t = "defaultChild" →
  everywhere_doc (λ m, m_pred m ≠ PNone) (tm_node t) →
  (∀ a b, R a b → R (penalised p a) (penalised (tm_penalty t) b)) →
  everywhere_doc (λ m, Forall2 R (node_dist dd t m) (node_dist dd t m)) (tm_node t) →
  ∃ e', new_model E dd td (DTree (with_penalty t p)) = (Ok e', td') ∧
    ((evaluate E tk (after E calls' e') r).1 = (evaluate E tk (after E calls e) r).1 ∨
     ∃ x y r', Forall2 R x.1 y.1 ∧ x.2 = y.2 ∧ (evaluate E tk (after E calls' e') r).1 = (final E t x, r') ∧
       (evaluate E tk (after E calls e) r).1 = (final E t y, r')).
Proof.
  intros He Hst Hp HR Hd. destruct (penalty_accepted _ _ _ _ p _ _ He) as [e' He']. exists e'. split; [done|].
  destruct (handle_input E (tm_lt t) r) as [[[]|x|x] r'] eqn:Hi.
  2,3: left; symmetry; apply (penalty_failure E dd td t p e e' td'); [done..|by rewrite Hi].
  right. destruct (C18_default_child E dd td t e td' calls tk r r' He Hst Hp Hi) as ([y Hy] & H1).
  destruct (C18_default_child E dd td (with_penalty t p) e' td' calls' tk r r' He' Hst Hp Hi) as ([x Hx] & H2).
  exists x, y, r'. rewrite (H1 y Hy), (H2 x Hx).
  destruct (penalty_related (doc_truth E dd td t r') (node_dist dd t) p (tm_penalty t) R) with (m := tm_node t) (x := x) (y := y)
    as [Ha Hb]; [|done..]. intros m v w. apply node_truth_fun.
Qed.

(** A smaller penalty: the same errors and the same rows without a prediction, and no
    probability is larger. *)
Theorem C114_probabilities : ∀ E dd td t p e td' calls calls' tk r,
  new_model E dd td (DTree t) = (Ok e, td') →
  tm_function t = "classification" → tm_strategy t = "defaultChild" →
  valid p ∧ in_unit p → valid (tm_penalty t) ∧ in_unit (tm_penalty t) → fleb p (tm_penalty t) = true →
  everywhere_doc (λ m, m_pred m ≠ PNone) (tm_node t) →
  everywhere_doc (λ m, m_dists m = [] ∨ sound_dist (m_dists m)) (tm_node t) →
  ∃ e', new_model E dd td (DTree (with_penalty t p)) = (Ok e', td') ∧
    let small := (evaluate E tk (after E calls' e') r).1 in
    let large := (evaluate E tk (after E calls e) r).1 in
    small = large ∨
    ∃ out out' r', large = (Ok (Some out), r') ∧ small = (Ok (Some out'), r') ∧
      (∀ k, is_Some (out' !! k) ↔ is_Some (out !! k)) ∧
      ∀ v q', out' !! ("probability(" +:+ v +:+ ")") = Some (GF64 q') →
        ∃ q, out !! ("probability(" +:+ v +:+ ")") = Some (GF64 q) ∧ fleb q' q = true.
Proof.
  intros E dd td t p e td' calls calls' tk r He Hf Hst [V1 U1] [V2 U2] Hle Hp Hd.
  destruct (penalty_answers E dd td t p e td' calls calls' tk r lower He Hst Hp) as (e' & He' & H).
  { intros a b Hab. by apply penalised_lower. }
  { revert Hd. apply (everywhere_in_ind' m_nodes). intros n Hs Hk'. constructor; [|done].
    apply Forall_Forall2_diag. eapply Forall_impl; [by apply sound_good|]. intros s Hg. split; [done|]. split; [done|]. split; [done|].
    apply fleb_refl. destruct Hg as [V U]. split; [done|apply U]. }
  exists e'. split; [done|]. destruct H as [H|(x & y & r' & Hs & Hv & H1 & H2)]; [by left|].
  cbn zeta. rewrite H1, H2. destruct x as [xs xv], y as [ys yv]. simpl in *. subst yv. unfold final. simpl.
  destruct xv; [by left| |by left]. right. unfold reported, report. rewrite !decide_True by done.
  eexists _, _, r'. split; [done|]. split; [done|]. split.
  { intros k. rewrite !class_row_keys. apply or_iff_compat_l. clear -Hs. split; intros (s & Hin & ->).
    - apply elem_of_list_lookup in Hin as [i Hi]. destruct (Forall2_lookup_l _ _ _ _ _ Hs Hi) as (s' & Hi' & [Hv _]).
      exists s'. split; [by eapply elem_of_list_lookup_2|by rewrite Hv].
    - apply elem_of_list_lookup in Hin as [i Hi]. destruct (Forall2_lookup_r _ _ _ _ _ Hs Hi) as (s' & Hi' & [Hv _]).
      exists s'. split; [by eapply elem_of_list_lookup_2|by rewrite Hv]. }
  intros v q'. rewrite !class_row_lookup.
  destruct (last_filter_related (λ a b : string * gov, ∃ q' q, a.2 = GF64 q' ∧ b.2 = GF64 q ∧ fleb q' q = true)
    (λ p : string * gov, p.1 = "probability(" +:+ v +:+ ")") (λ p : string * gov, p.1 = "probability(" +:+ v +:+ ")")
    (map (λ s, (prob_key (sc_value s), GF64 (sc_prob s))) xs) (map (λ s, (prob_key (sc_value s), GF64 (sc_prob s))) ys))
    as [a b (q1 & q2 & Ha & Hb & Hq)|].
  - apply Forall2_fmap. eapply Forall2_impl; [exact Hs|]. intros a b (Hab & _ & _ & Hq). simpl. rewrite Hab.
    split; [by eexists _, _|done].
  - rewrite Ha, Hb. intros [= <-]. eauto.
  - intros [_ ?]%lookup_singleton_Some. done.
Qed.
Print Assumptions C114_probabilities.

(** A regression tree does not look at the penalty. *)
Theorem C114_regression : ∀ E dd td t p e td' calls calls' tk r,
  new_model E dd td (DTree t) = (Ok e, td') → tm_function t = "regression" → tm_strategy t = "defaultChild" →
  everywhere_doc (λ m, m_pred m ≠ PNone) (tm_node t) →
  ∃ e', new_model E dd td (DTree (with_penalty t p)) = (Ok e', td') ∧
    (evaluate E tk (after E calls' e') r).1 = (evaluate E tk (after E calls e) r).1.
Proof.
  intros E dd td t p e td' calls calls' tk r He Hf Hst Hp.
  destruct (penalty_answers E dd td t p e td' calls calls' tk r (λ a b, sc_value a = sc_value b) He Hst Hp) as (e' & He' & H); [done| |].
  { generalize (tm_node t) as m. induction m as [id dc sc c ds ns q IH] using mnode_rect'. constructor; [|done].
    by apply Forall_Forall2_diag, Forall_forall. }
  exists e'. split; [done|]. destruct H as [H|(x & y & r' & Hs & Hv & H1 & H2)]; [done|].
  rewrite H1, H2. destruct x as [xs xv], y as [ys yv]. simpl in *. subst yv. unfold final. simpl.
  destruct xv; [done| |done]. unfold reported, report. rewrite !decide_False by by rewrite Hf.
  by destruct Hs as [|a b xs ys ->].
Qed.
Print Assumptions C114_regression.

(** humidity missing *)
Example C114_example :
  fleb (fl "0.25") (tm_penalty (golf_tree "defaultChild" "0.5")) = true ∧
  dumped (run go_ext golf_dd (DTree (with_penalty (golf_tree "defaultChild" "0.5") (fl "0.25"))) sunny_nohum) =
    dumped (Some (golf_out "yes" "0.25" "0", None)) ∧
  dumped (run go_ext golf_dd (golf "defaultChild") sunny_nohum) = dumped (Some (golf_out "yes" "0.5" "0", None)).
Proof. repeat split; by vm_compute. Qed.

(** The penalty may change the class: unequal probabilities become equal when the
    products are rounded. *)
Definition close_call : tree_model :=
  TreeModel "classification" "defaultChild" fone "" [] [MF "humidity" "active"; MF "play" "target"] None
    (MNode "1" "2" "" fzero []
       [MNode "2" "" "no" fzero
          [ScoreDistribution "yes" (fl "9") None (Some (fl "0.45")); ScoreDistribution "no" (fl "9") None (Some (fl "0.45000000000000007"));
           ScoreDistribution "maybe" (fl "2") None (Some (fl "0.1"))] [] (SP "humidity" "lessThan" "1")] PTrue).
Theorem C114_class_refuted : ∃ E dd t p e1 e2 td tk out1 out2,
  tm_strategy t = "defaultChild" ∧ in_unit p ∧ in_unit (tm_penalty t) ∧
  new_model E dd [] (DTree t) = (Ok e1, td) ∧ new_model E dd [] (DTree (with_penalty t p)) = (Ok e2, td) ∧
  (evaluate E tk e1 (Some ∅)).1.1 = Ok (Some out1) ∧ (evaluate E tk e2 (Some ∅)).1.1 = Ok (Some out2) ∧
  out1 !! "play" = Some (GStr "no") ∧ out2 !! "play" = Some (GStr "yes").
Proof.
  exists go_ext, golf_dd, close_call, (fl "0.6"), (built go_ext golf_dd (DTree close_call)),
    (built go_ext golf_dd (DTree (with_penalty close_call (fl "0.6")))), [], [],
    {["play" := GStr "no"; "probability(yes)" := GF64 (fl "0.45"); "probability(no)" := GF64 (fl "0.45000000000000007");
      "probability(maybe)" := GF64 (fl "0.1")]},
    {["play" := GStr "yes"; "probability(yes)" := GF64 (fl "0.27"); "probability(no)" := GF64 (fl "0.27");
      "probability(maybe)" := GF64 (fl "0.06")]}.
  split; [done|]. split; [by vm_compute|]. split; [by vm_compute|].
  split; [by rewrite built_ok; [|by vm_compute]|]. split; [by rewrite built_ok; [|by vm_compute]|].
  split; [by apply run_out; vm_compute|]. split; [by apply run_out; vm_compute|]. by vm_compute.
Qed.
Print Assumptions C114_class_refuted.
