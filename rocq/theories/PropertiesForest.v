(** Properties C105 - C108: probabilities of trees and of averaged ensembles. *)
From Coq Require Import Reals Lra.
From Flocq Require Import Core.Core IEEE754.BinarySingleNaN.
From Verif Require Import Base Strconv Value Doc Expr Pred Tree Regression Model Lib FloatLib SpecPred ProofsPred
  SpecExpr ProofsExpr SpecConstruct ProofsConstruct SpecTree ProofsTree ProofsOutput ProofsEval ProofsDoc
  ProofsSafe ProofsWhole ProofsClass ProofsAnswer SpecModel ProofsMining SpecRegr ProofsRegr ProofsValue ProofsSim ProofsHistory GoExt Samples RealLib
  AccLib ForestLib PropertiesTree PropertiesModel PropertiesRegr PropertiesSegments PropertiesAccuracy.
Local Open Scope R_scope.

(** *** C105: the probabilities of a tree lie in [0,1] *)

(** The distribution of a node: record counts are numbers that are not negative,
    with a positive finite total, and a probability is one. *)
Definition sound_dist (ds : list score_distribution) : Prop :=
  let total := foldl (λ a d, SFadd 53 1024 a (sd_count d)) (S754_zero false) ds in
  Forall (λ d, number (sd_count d) ∧ ∀ p, sd_prob d = Some p → valid p ∧ in_unit p) ds ∧
  fltb fzero total = true ∧ total ≠ S754_infinity false.

Definition good (s : score) : Prop := valid (sc_prob s) ∧ in_unit (sc_prob s).

Lemma unit_zero : in_unit fzero.
Proof. done. Qed.
Lemma unit_one : in_unit fone.
Proof. by vm_compute. Qed.

Lemma sound_good dd t m : (m_dists m = [] ∨ sound_dist (m_dists m)) → Forall good (node_dist dd t m).
Proof.
  intros Hs. unfold node_dist, doc_dist. case_decide; [constructor|]. case_decide as Hd.
  - destruct Hs as [|(Hf & Hpos & Hfin)]; [done|]. apply Forall_fmap, Forall_forall. intros d Hin. simpl.
    rewrite Forall_forall in Hf. unfold good. simpl. destruct (sd_prob d) as [p|] eqn:Hp; simpl; [by apply (Hf d Hin)|].
    split.
    + destruct (Hf d Hin) as [[Vd _] _]. apply fdiv_valid; [done|]. rewrite (foldl_sum_map sd_count). apply foldl_add_valid; [done|].
      apply Forall_fmap, Forall_forall. intros x Hx. by destruct (Hf x Hx) as [[Vx _] _].
    + apply (share_unit sd_count); [|done..]. apply Forall_forall. intros x Hx. by destruct (Hf x Hx).
  - case_decide; [repeat constructor|]. apply Forall_fmap, Forall_forall. intros v Hv. simpl.
    unfold good. case_decide; simpl; split; try done; apply unit_one.
Qed.

Lemma none_everywhere (truth : mnode → presult → Prop) (P : mnode → Prop) n leaf :
  descend_none m_nodes truth n leaf → everywhere_doc P n → P leaf.
Proof.
  induction 1 as [n _|n l1 c l2 leaf Hk _ _ _ IH]; intros Hp; inversion Hp as [? H1 H2]; subst; [done|].
  apply IH. rewrite Hk, Forall_app, Forall_cons in H2. by apply H2.
Qed.
Lemma null_everywhere (truth : mnode → presult → Prop) (P : mnode → Prop) n leaf :
  descend_null m_nodes truth n leaf → everywhere_doc P n → P leaf.
Proof.
  induction 1 as [n _|n l1 c l2 leaf Hk _ _ _ IH]; intros Hp; inversion Hp as [? H1 H2]; subst; [done|].
  apply IH. rewrite Hk, Forall_app, Forall_cons in H2. by apply H2.
Qed.

(** What holds of the distributions holds of the answers. *)
Lemma answer_scores (truth : mnode → presult → Prop) (dist : mnode → list score) (falses : mnode → list score → Prop)
    (trues : presult → presult) (unknown : mnode → presult → list answer_t → answer_t → Prop)
    (Q : mnode → list score → Prop) (P : mnode → Prop) :
  (∀ m, P m → Q m []) → (∀ m, P m → Q m (dist m)) → (∀ m s, P m → falses m s → Q m s) →
  (∀ m c s, P m → c ∈ m_nodes m → Q c s → Q m s) →
  (∀ m w rs x, P m → length rs = length (m_nodes m) →
     (∀ i c y, m_nodes m !! i = Some c → rs !! i = Some y → Q c y.1) → unknown m w rs x → Q m x.1) →
  ∀ m x, subtree_answer truth dist falses trues unknown m x → everywhere_doc P m → Q m x.1.
Proof.
  intros H0 Hd Hf Hup Hu m x.
  assert (∀ m (rs : list answer_t),
    (∀ i c y, m_nodes m !! i = Some c → rs !! i = Some y → everywhere_doc P c → Q c y.1) →
    Forall (everywhere_doc P) (m_nodes m) → ∀ i c y, m_nodes m !! i = Some c → rs !! i = Some y → Q c y.1) as Hall.
  { intros m0 rs HI Hk i c y Hc Hy. apply (HI i c y Hc Hy). rewrite Forall_lookup in Hk. by apply (Hk i). }
  induction 1 as [m s Ht Hs|m w rs x Ht Hw Hl Hrs IH Hex Hx|m w rs Ht Hw Hl Hrs IH Hno Hne|m w rs Ht Hw Hl Hrs IH Hno He];
    intros Hp; inversion Hp as [? Hpm Hpk]; subst.
  - by apply (Hf m).
  - apply (Hu m w rs x Hpm Hl); [|done]. by apply (Hall m).
  - simpl. pose proof (Hall m rs IH Hpk) as Hq. unfold true_scores.
    destruct (last (filter _ rs)) as [y|] eqn:Hy; simpl; [|by apply H0].
    assert (y ∈ rs) as Hin.
    { apply last_Some in Hy as [l Hl']. assert (y ∈ filter (λ x : answer_t, x.2 = RT) rs) as Hyf by (rewrite Hl'; set_solver).
      by apply elem_of_list_filter in Hyf as [_ ?]. }
    apply elem_of_list_lookup in Hin as [i Hi].
    destruct (lookup_lt_is_Some_2 (m_nodes m) i) as [c Hc]; [rewrite <- Hl; by eapply lookup_lt_Some|].
    apply (Hup m c); [done|by eapply elem_of_list_lookup_2|]. by apply (Hq i).
  - simpl. by apply Hd.
Qed.

Lemma default_good truth dist pen m x :
  valid pen → in_unit pen → default_answer truth dist pen m x → everywhere_doc (λ m, Forall good (dist m)) m → Forall good x.1.
Proof.
  intros Vp Up Hx. unfold default_answer in Hx. revert Hx. apply (answer_scores _ _ _ _ _ (λ _, Forall good)).
  - constructor.
  - done.
  - by intros m0 s _ ->.
  - done.
  - intros m0 w rs y _ Hl Hrs ->. destruct (last _) as [[c [ds v]]|] eqn:Hlast; simpl; [|constructor].
    apply last_Some in Hlast as [l Hl'].
    assert ((c, (ds, v)) ∈ zip (m_nodes m0) rs) as Hin.
    { assert ((c, (ds, v)) ∈ filter (λ p : mnode * answer_t, m_id p.1 = m_default m0) (zip (m_nodes m0) rs)) as H
        by (rewrite Hl'; set_solver). by apply elem_of_list_filter in H as [_ ?]. }
    apply elem_of_list_lookup in Hin as [i Hi]. apply lookup_zip_with_Some in Hi as (c' & y & [= <- <-] & Hc & Hy).
    specialize (Hrs i c (ds, v) Hc Hy). simpl in Hrs.
    apply Forall_fmap. eapply Forall_impl; [exact Hrs|]. intros s [Vs Us]. unfold good. simpl.
    split; [by apply fmul_valid|by apply fmul_unit].
Qed.

Lemma last_good truth dist m x :
  last_answer truth dist m x → everywhere_doc (λ m, Forall good (dist m)) m → Forall good x.1.
Proof.
  unfold last_answer. apply (answer_scores _ _ _ _ _ (λ _, Forall good)); [constructor|done|by intros ? ? _ ->|done|].
  intros m0 w rs y Hd _ _ ->. done.
Qed.

(** The probabilities in the row returned are those of the scores. *)
Definition unit_value (t : tree_model) (k : string) (x : value) : Prop :=
  match x with GF64 p => valid p ∧ in_unit p | _ => k = target_field (tm_schema t) end.
Lemma reported_unit E t scores out v x :
  tm_function t = "classification" → Forall good scores → reported E t scores = Ok (Some out) →
  out !! ("probability(" +:+ v +:+ ")") = Some x → unit_value t ("probability(" +:+ v +:+ ")") x.
Proof.
  intros Hf Hg Hr Hp. unfold reported, report in Hr. rewrite decide_True in Hr by done. injection Hr as <-.
  rewrite class_row_lookup in Hp.
  destruct (last _) as [q|] eqn:Hl.
  - apply last_filter_some in Hl as (l1 & l2 & Hm & _ & _).
    assert (q ∈ map (λ s, (prob_key (sc_value s), GF64 (sc_prob s))) scores) as Hin by (rewrite Hm; set_solver).
    apply elem_of_list_In, in_map_iff in Hin as (s & <- & Hs). apply elem_of_list_In in Hs. injection Hp as <-.
    rewrite Forall_forall in Hg. by apply Hg.
  - by apply lookup_singleton_Some in Hp as [<- <-].
Qed.

Lemma ok_input E dd td t e td' calls tk r o :
  new_model E dd td (DTree t) = (Ok e, td') → (evaluate E tk (after E calls e) r).1.1 = Ok o →
  ∃ r', handle_input E (tm_lt t) r = (Ok tt, r').
Proof.
  intros Hn He. destruct (tree_evaluator E dd td t e td' calls Hn) as (te & Ht & _ & Hev). rewrite Hev in He.
  destruct Ht as (Hv & Hc & _ & _ & _ & _ & Hlt & _). rewrite tree_evaluate_run, Hlt in He by done.
  destruct (handle_input E (tm_lt t) r) as [[[]|x|p] r']; [by eexists|done|done].
Qed.

Lemma truth_dec E ft r m v : node_truth E ft r m v ∨ ¬ node_truth E ft r m v.
Proof.
  unfold node_truth. destruct (compile_predicate E ft (m_pred m)) as [p|x|y] eqn:Hc; [|right; naive_solver..].
  destruct (run_test E ft p r) as [w|x|y] eqn:Ht.
  - destruct (decide (w = v)) as [->|Hne]; [left; by exists p|right]. intros (p' & Hp & Hr). congruence.
  - right. intros (p' & Hp & Hr). congruence.
  - right. intros (p' & Hp & Hr). congruence.
Qed.

Lemma tree_unit : ∀ E dd td t e td' calls tk r out v x0,
  new_model E dd td (DTree t) = (Ok e, td') → tm_function t = "classification" →
  tm_strategy t ∉ ["aggregateNodes"; "weightedConfidence"] →
  (tm_strategy t = "defaultChild" → valid (tm_penalty t) ∧ in_unit (tm_penalty t)) →
  everywhere_doc (λ m, m_pred m ≠ PNone) (tm_node t) →
  everywhere_doc (λ m, m_dists m = [] ∨ sound_dist (m_dists m)) (tm_node t) →
  (evaluate E tk (after E calls e) r).1.1 = Ok (Some out) →
  out !! ("probability(" +:+ v +:+ ")") = Some x0 → unit_value t ("probability(" +:+ v +:+ ")") x0.
Proof.
  intros E dd td t e td' calls tk r out v x0 Hn Hf Hst Hpen Hp Hd He Hk.
  destruct (ok_input _ _ _ _ _ _ _ _ _ _ Hn He) as [r' Hi].
  assert (everywhere_doc (λ m, Forall good (node_dist dd t m)) (tm_node t)) as Hg.
  { revert Hd. apply (everywhere_in_ind' m_nodes). intros n Hs Hk'. constructor; [by apply sound_good|done]. }
  assert (∃ scores, Forall good scores ∧ reported E t scores = Ok (Some out)) as (scores & Hs & Hr);
    [|by eapply reported_unit].
  destruct (decide (tm_strategy t = "nullPrediction")) as [Hnull|Hnn].
  { destruct (C16_null_prediction E dd td t e td' calls tk r r' Hn Hnull Hp Hi) as (H1 & H2 & H3).
    destruct (truth_dec E (field_types dd (td ++ tm_lt t)) r' (tm_node t) RT) as [Ht|Ht].
    - destruct H3 as [[leaf Hl]|Hu]; [|by rewrite H2 in He by by right].
      exists (node_dist dd t leaf). split; [by eapply (null_everywhere _ (λ m, Forall good (node_dist dd t m)))|].
      by rewrite (H1 leaf Ht Hl) in He.
    - by rewrite H2 in He by by left. }
  destruct (decide (tm_strategy t = "lastPrediction")) as [Hlast|Hnl].
  { destruct (C17_last_prediction_exact E dd td t e td' calls tk r r' Hn Hlast Hp Hi) as ([x Hx] & H2).
    exists x.1. split; [by eapply last_good|]. rewrite (H2 x Hx) in He. unfold final in He. by destruct (x.2). }
  destruct (decide (tm_strategy t = "defaultChild")) as [Hdef|Hnd].
  { destruct (C18_default_child E dd td t e td' calls tk r r' Hn Hdef Hp Hi) as ([x Hx] & H2). destruct (Hpen Hdef).
    exists x.1. split; [by eapply default_good|]. rewrite (H2 x Hx) in He. unfold final in He. by destruct (x.2). }
  destruct (C15_strategy_none E dd td t e td' calls tk r r' Hn ltac:(set_solver) Hp Hi) as [H1 H2].
  destruct (truth_dec E (field_types dd (td ++ tm_lt t)) r' (tm_node t) RT) as [Ht|Ht]; [|by rewrite H2 in He].
  destruct (H1 Ht) as [[leaf Hl] H3]. exists (node_dist dd t leaf).
  split; [by eapply (none_everywhere _ (λ m, Forall good (node_dist dd t m)))|]. by rewrite (H3 leaf Hl) in He.
Qed.
Theorem C105_unit_partial : ∀ E dd td t e td' calls tk r out v p,
  new_model E dd td (DTree t) = (Ok e, td') → tm_function t = "classification" →
  tm_strategy t ∉ ["aggregateNodes"; "weightedConfidence"] →
  (tm_strategy t = "defaultChild" → valid (tm_penalty t) ∧ in_unit (tm_penalty t)) →
  everywhere_doc (λ m, m_pred m ≠ PNone) (tm_node t) →
  everywhere_doc (λ m, m_dists m = [] ∨ sound_dist (m_dists m)) (tm_node t) →
  (evaluate E tk (after E calls e) r).1.1 = Ok (Some out) →
  out !! ("probability(" +:+ v +:+ ")") = Some (GF64 p) → in_unit p.
Proof. intros * H1 H2 H3 H4 H5 H6 H7 H8. by apply (tree_unit _ _ _ _ _ _ _ _ _ _ _ _ H1 H2 H3 H4 H5 H6 H7 H8). Qed.
Print Assumptions C105_unit_partial.

(** With aggregateNodes, when record counts are whole numbers: at least one per
    node, and not more than 2^53 in the whole tree. *)
Definition own_records (m : mnode) : R := real_sum (map sd_count (m_dists m)).
Definition all_records (m : mnode) : R := rsum (map own_records (doc_nodes m)).
Definition whole_counts (m : mnode) : Prop :=
  m_dists m ≠ [] ∧ 0 < own_records m ∧
  Forall (λ d, (∃ z, whole (sd_count d) z) ∧ ∀ p, sd_prob d = Some p → valid p ∧ in_unit p) (m_dists m).

Lemma rsum_app a b : rsum (a ++ b) = rsum a + rsum b.
Proof. unfold rsum. induction a as [|x a IH]; cbn [app foldr]; [lra|rewrite IH; lra]. Qed.
Lemma all_records_eq m : all_records m = own_records m + rsum (map all_records (m_nodes m)).
Proof.
  unfold all_records at 1. destruct m as [i dc sc n ds ns p]. cbn [doc_nodes map m_nodes]. unfold rsum at 1. cbn [foldr].
  fold (rsum (map own_records (concat (map doc_nodes ns)))). f_equal.
  induction ns as [|c ns IH]; [done|]. cbn [map concat]. rewrite map_app, rsum_app, IH. done.
Qed.

Lemma whole_real l : Forall (λ x, ∃ z, whole x z) l → ∃ zs, Forall2 whole l zs ∧ real_sum l = IZR (zsum zs).
Proof.
  induction 1 as [|x l (z & Hz) _ (zs & Hzs & IH)]; [by exists []|].
  exists (z :: zs). split; [by constructor|]. unfold real_sum, rsum in *. cbn [map foldr]. rewrite IH, plus_IZR.
  destruct Hz as (_ & _ & -> & _). done.
Qed.

Lemma records_pos m : everywhere_doc whole_counts m → 0 < own_records m <= all_records m.
Proof.
  apply (everywhere_in_ind' m_nodes whole_counts (λ m, 0 < own_records m <= all_records m)). intros n (_ & Hpos & _) Hk. rewrite all_records_eq.
  assert (0 <= rsum (map all_records (m_nodes n))); [|lra].
  clear Hpos. induction Hk as [|c l Hc _ IH]; unfold rsum; cbn [map foldr]; [lra|]. fold (rsum (map all_records l)). lra.
Qed.
Lemma records_child m c : everywhere_doc whole_counts m → c ∈ m_nodes m → all_records c <= all_records m.
Proof.
  intros Hm Hc. inversion Hm as [? (_ & Hpos & _) Hk]; subst. rewrite (all_records_eq m).
  assert (all_records c <= rsum (map all_records (m_nodes m))); [|lra]. clear Hpos.
  induction Hk as [|d l Hd Hl IH]; [by apply elem_of_nil in Hc|]. unfold rsum. cbn [map foldr].
  fold (rsum (map all_records l)).
  assert (0 <= rsum (map all_records l)).
  { clear -Hl. induction Hl as [|x l Hx _ IH]; unfold rsum; cbn [map foldr]; [lra|]. fold (rsum (map all_records l)).
    pose proof (records_pos x Hx). lra. }
  pose proof (records_pos d Hd). apply elem_of_cons in Hc as [->|Hc]; [lra|]. specialize (IH Hc). lra.
Qed.

(** every score of the list has a whole record count *)
Definition counted (s : list score) (zs : list Z) : Prop := Forall2 whole (sc_count <$> s) zs.

Lemma class_sums (P : list (score * Z)) vs : NoDup vs → (∀ p, p ∈ P → sc_value p.1 ∈ vs) →
  zsum ((λ v, zsum (filter (λ p, sc_value p.1 = v) P).*2) <$> vs) = zsum P.*2.
Proof.
  intros Hnd. induction P as [|p P IH]; intros Hin.
  - clear. induction vs as [|v vs IH]; [done|]. rewrite fmap_cons. cbn [foldr]. by rewrite IH.
  - rewrite fmap_cons. cbn [foldr]. rewrite <- IH by (intros q Hq; apply Hin; set_solver).
    specialize (Hin p ltac:(set_solver)). clear IH.
    assert (∀ vs, sc_value p.1 ∉ vs →
      zsum ((λ v, zsum (filter (λ p, sc_value p.1 = v) (p :: P)).*2) <$> vs) =
      zsum ((λ v, zsum (filter (λ p, sc_value p.1 = v) P).*2) <$> vs)) as Hnot.
    { clear. intros vs Hn. f_equal. apply fmap_ext_in. intros v Hv.
      rewrite filter_cons_False; [done|]. by intros <-. }
    induction vs as [|v vs IH]; [by apply elem_of_nil in Hin|].
    apply NoDup_cons in Hnd as [Hv Hnd]. rewrite !fmap_cons. cbn [foldr].
    destruct (decide (sc_value p.1 = v)) as [<-|Hne].
    + rewrite Hnot by done. rewrite filter_cons_True by done. rewrite fmap_cons. cbn [foldr]. lia.
    + apply elem_of_cons in Hin as [?|Hin]; [done|]. rewrite IH by done. rewrite filter_cons_False by done. lia.
Qed.

(** the answers of a node below which there are few enough records *)
Definition tallied (m : mnode) (s : list score) : Prop :=
  Forall good s ∧ ∃ zs, counted s zs ∧ (s = [] ∨ (0 < zsum zs)%Z) ∧ IZR (zsum zs) <= all_records m.

Lemma tally_pairs s zs : counted s zs → ∃ P : list (score * Z), P.*1 = s ∧ P.*2 = zs ∧ Forall (λ p, whole (sc_count p.1) p.2) P.
Proof.
  unfold counted. revert zs. induction s as [|x s IH]; intros zs Hc.
  - apply Forall2_nil_inv_l in Hc as ->. by exists [].
  - rewrite fmap_cons in Hc. apply Forall2_cons_inv_l in Hc as (z & zs' & Hx & Hs & ->).
    destruct (IH zs' Hs) as (P & <- & <- & HP). exists ((x, z) :: P). split; [done|]. split; [done|]. by constructor.
Qed.

Lemma zsum_elem z zs : Forall (λ z, (0 <= z)%Z) zs → z ∈ zs → (z <= zsum zs)%Z.
Proof.
  induction 1 as [|y zs Hy Hl IH]; intros Hz; [by apply elem_of_nil in Hz|]. cbn [foldr].
  pose proof (zsum_nonneg zs Hl). apply elem_of_cons in Hz as [->|Hz]; [lia|]. specialize (IH Hz). lia.
Qed.
Lemma wholes_nonneg l zs : Forall2 whole l zs → Forall (λ z, (0 <= z)%Z) zs.
Proof. induction 1 as [|? ? ? ? (_&_&_&?)]; by constructor. Qed.

Lemma zsum_filter (f : score * Z → Prop) `{∀ p, Decision (f p)} P : Forall (λ z, (0 <= z)%Z) P.*2 →
  (0 <= zsum (filter f P).*2 <= zsum P.*2)%Z.
Proof.
  induction P as [|p P IH]; [done|]. rewrite fmap_cons. intros [Hp HP]%Forall_cons. specialize (IH HP). cbn [foldr].
  destruct (decide (f p)); [rewrite filter_cons_True by done; rewrite fmap_cons; cbn [foldr]|rewrite filter_cons_False by done]; lia.
Qed.

Lemma node_tallied dd t m : everywhere_doc whole_counts m → all_records m <= IZR (2 ^ 53) → tallied m (node_dist dd t m).
Proof.
  intros He Hmax. pose proof (records_pos m He) as [_ Hle]. inversion He as [? (Hd & Hpos & Hw) _]; subst.
  destruct (whole_real (map sd_count (m_dists m))) as (zs & Hzs & Hr).
  { apply Forall_fmap. eapply Forall_impl; [exact Hw|]. by intros d [? _]. }
  unfold own_records in Hpos, Hle. rewrite Hr in Hpos, Hle.
  assert (0 < zsum zs)%Z as Hz by by apply lt_IZR.
  assert (zsum zs <= 2 ^ 53)%Z as Hz2 by (apply le_IZR; lra).
  unfold tallied, node_dist, doc_dist. case_decide.
  { split; [constructor|]. exists []. split; [constructor|]. split; [by left|]. cbn [foldr]. lra. }
  rewrite decide_True by done. split.
  - apply Forall_fmap, Forall_forall. intros d Hin. rewrite Forall_forall in Hw. destruct (Hw d Hin) as [_ Hpr].
    unfold good. simpl. destruct (sd_prob d) as [p|] eqn:Hp; simpl; [by apply Hpr|].
    apply elem_of_list_lookup in Hin as [i Hi].
    assert (map sd_count (m_dists m) !! i = Some (sd_count d)) as Hi' by (rewrite list_lookup_fmap; by rewrite Hi).
    destruct (Forall2_lookup_l _ _ _ _ _ Hzs Hi') as (z & Hzi & Hwz).
    apply (whole_share _ _ z (zsum zs)); [done| | |done].
    + unfold share. rewrite (foldl_sum_map sd_count). apply (whole_sum _ _ Hzs fzero 0 whole_zero). lia.
    + apply zsum_elem; [by eapply wholes_nonneg|by eapply elem_of_list_lookup_2].
  - exists zs. split; [unfold counted; rewrite <- list_fmap_compose; exact Hzs|]. split; [by right|done].
Qed.

Lemma aggregate_tallied m rs out : length rs = length (m_nodes m) →
  everywhere_doc whole_counts m → all_records m <= IZR (2 ^ 53) →
  (∀ i c y, m_nodes m !! i = Some c → rs !! i = Some y → tallied c y.1) →
  aggregate_scores rs out → tallied m out ∧
    ∃ zs, counted out zs ∧ whole (foldl (λ acc s, SFadd 53 1024 acc (sc_count s)) (S754_zero false) (concat rs.*1)) (zsum zs).
Proof.
  intros Hl He Hmax Hq [Hnd Hout].
  assert (∃ P : list (score * Z), P.*1 = concat rs.*1 ∧ Forall (λ p, whole (sc_count p.1) p.2) P ∧
    (P = [] ∨ (0 < zsum P.*2)%Z) ∧ IZR (zsum P.*2) <= all_records m) as (P & HP & Hw & Hpos & Hsum).
  { pose proof (records_pos m He) as [_ Hle]. rewrite all_records_eq in *. assert (0 < own_records m) as Hown by apply (records_pos m He).
    assert (∃ P : list (score * Z), P.*1 = concat rs.*1 ∧ Forall (λ p, whole (sc_count p.1) p.2) P ∧
      (P = [] ∨ (0 < zsum P.*2)%Z) ∧ IZR (zsum P.*2) <= rsum (map all_records (m_nodes m))) as (P & ? & ? & ? & ?);
      [|exists P; repeat split; [done..|lra]].
    clear He Hmax Hnd Hout Hle Hown. revert Hl Hq. generalize (m_nodes m) as ks. clear m.
    induction rs as [|y rs IH]; intros [|c ks] Hl Hq; try done.
    - exists []. repeat split; [constructor|by left|]. cbn. lra.
    - destruct (IH ks) as (P & HP & Hw & Hpos & Hs); [by injection Hl|intros i c' y' H1 H2; by apply (Hq (S i))|].
      destruct (Hq 0%nat c y eq_refl eq_refl) as (_ & zs & Hc & Hp0 & Hz).
      destruct (tally_pairs _ _ Hc) as (P0 & HP0 & HP02 & Hw0). exists (P0 ++ P).
      split; [rewrite fmap_app, HP0, HP; done|]. split; [by apply Forall_app|].
      assert (0 <= zsum P.*2)%Z as Hn by (destruct Hpos as [->|?]; [done|lia]).
      rewrite fmap_app, zsum_app, HP02. split.
      + destruct Hp0 as [Hy|Hp0].
        * rewrite Hy in HP0. apply fmap_nil_inv in HP0 as ->. simpl in HP02. subst zs. destruct Hpos as [->|?]; [by left|right].
          cbn [foldr]. lia.
        * right. lia.
      + rewrite plus_IZR. unfold rsum. cbn [map foldr]. fold (rsum (map all_records ks)). lra. }
  assert (zsum P.*2 <= 2 ^ 53)%Z as Hz2 by (apply le_IZR; lra).
  assert (Forall (λ z, (0 <= z)%Z) P.*2) as Hnn.
  { apply Forall_fmap. eapply Forall_impl; [exact Hw|]. by intros p (_&_&_&?). }
  (* float sums of record counts *)
  assert (∀ Q : list (score * Z), Forall (λ p, whole (sc_count p.1) p.2) Q → (zsum Q.*2 <= 2 ^ 53)%Z →
    whole (foldl (λ acc s, SFadd 53 1024 acc (sc_count s)) (S754_zero false) Q.*1) (zsum Q.*2)) as Hfs.
  { intros Q HQ HQ2. rewrite (foldl_sum_map sc_count). rewrite <- (Z.add_0_l (zsum Q.*2)). apply (whole_sum _ Q.*2); [|apply whole_zero|lia].
    clear HQ2. induction HQ as [|p Q Hp _ IH]; simpl; constructor; done. }
  pose proof (Hfs P Hw Hz2) as Htot.
  assert (∀ v, whole (sum_over sc_count v (concat rs.*1)) (zsum (filter (λ p, sc_value p.1 = v) P).*2)) as Hv.
  { intros v. unfold sum_over. rewrite <- HP.
    assert (filter (λ s, sc_value s = v) P.*1 = (filter (λ p : score * Z, sc_value p.1 = v) P).*1) as ->.
    { clear. induction P as [|p P IH]; [done|]. rewrite fmap_cons.
      destruct (decide (sc_value p.1 = v)); [rewrite !filter_cons_True by done; rewrite fmap_cons; by f_equal|].
      by rewrite !filter_cons_False. }
    apply Hfs; [apply Forall_forall; intros p Hp; apply elem_of_list_filter in Hp as [_ Hp]; rewrite Forall_forall in Hw; by apply Hw|]. pose proof (zsum_filter (λ p, sc_value p.1 = v) P Hnn). lia. }
  assert (∀ s, s ∈ out → s = Score (sc_value s) (sc_conf s)
     (SFdiv 53 1024 (sum_over sc_count (sc_value s) (concat rs.*1))
        (foldl (λ acc s, SFadd 53 1024 acc (sc_count s)) (S754_zero false) (concat rs.*1)))
     (sum_over sc_count (sc_value s) (concat rs.*1)) ∧ sc_value s ∈ sc_value <$> concat rs.*1) as Hs.
  { intros s (v & Hin & ->)%Hout. done. }
  assert (∀ v, v ∈ sc_value <$> concat rs.*1 → P ≠ []) as Hne.
  { intros v Hin ->. rewrite <- HP in Hin. by apply elem_of_nil in Hin. }
  assert (Forall good out) as Hg.
  { apply Forall_forall. intros s Hin. destruct (Hs s Hin) as [Hs1 Hs2]. unfold good. rewrite Hs1. cbn [sc_prob].
    rewrite <- HP in *. destruct Hpos as [->|Hpos]; [by apply elem_of_nil in Hs2|].
    apply (whole_share _ _ (zsum (filter (λ p, sc_value p.1 = sc_value s) P).*2) (zsum P.*2)); [apply Hv|done| |done].
    by apply zsum_filter. }
  set (zs := (λ v, zsum (filter (λ p, sc_value p.1 = v) P).*2) <$> (sc_value <$> out)).
  assert (∀ p, p ∈ P → sc_value p.1 ∈ sc_value <$> out) as Hcov.
  { intros p Hp. apply elem_of_list_fmap. eexists (Score (sc_value p.1) _ _ _). split; [done|]. apply Hout. exists (sc_value p.1).
    split; [|done]. rewrite <- HP. rewrite <- list_fmap_compose. apply elem_of_list_fmap. by exists p. }
  assert (counted out zs) as Hcz.
  { unfold counted, zs. rewrite <- list_fmap_compose.
    assert (∀ l, (∀ s, s ∈ l → s ∈ out) → Forall2 whole (sc_count <$> l)
      ((λ s, zsum (filter (λ p, sc_value p.1 = sc_value s) P).*2) <$> l)) as Hall; [|by apply Hall].
    induction l as [|s l IH]; intros Hl'; [constructor|]. rewrite !fmap_cons. constructor; [|apply IH; set_solver].
    destruct (Hs s ltac:(set_solver)) as [Hs1 _]. rewrite Hs1 at 1. cbn [sc_count]. apply Hv. }
  assert (zsum zs = zsum P.*2) as Hzz by (unfold zs; by rewrite class_sums).
  split; [|exists zs; split; [done|by rewrite Hzz, <- HP]].
  split; [done|]. exists zs. rewrite Hzz. split; [done|]. split; [|done].
  destruct Hpos as [->|?]; [|by right]. left. destruct out as [|s out]; [done|].
  destruct (Hs s ltac:(set_solver)) as [_ Hs2]. by apply Hne in Hs2.
Qed.

Lemma aggregate_unit : ∀ E dd td t e td' calls tk r out v x0,
  new_model E dd td (DTree t) = (Ok e, td') → tm_function t = "classification" →
  tm_strategy t = "aggregateNodes" →
  everywhere_doc (λ m, m_pred m ≠ PNone) (tm_node t) →
  everywhere_doc whole_counts (tm_node t) → all_records (tm_node t) <= IZR (2 ^ 53) →
  (evaluate E tk (after E calls e) r).1.1 = Ok (Some out) →
  out !! ("probability(" +:+ v +:+ ")") = Some x0 → unit_value t ("probability(" +:+ v +:+ ")") x0.
Proof.
  intros E dd td t e td' calls tk r out v x0 Hn Hf Hst Hp Hw Hmax He Hk.
  destruct (ok_input _ _ _ _ _ _ _ _ _ _ Hn He) as [r' Hi].
  destruct (C20_aggregate_nodes E dd td t e td' calls tk r r' Hn Hst Hp Hi) as (x & Hx & Hev).
  rewrite Hev in He. apply (reported_unit E t x.1 out v x0 Hf); [|unfold final in He; by destruct (x.2)|done].
  set (P := λ m, everywhere_doc whole_counts m ∧ all_records m <= IZR (2 ^ 53)).
  assert (everywhere_doc P (tm_node t)) as HP.
  { assert (∀ m, everywhere_doc whole_counts m → all_records m <= IZR (2 ^ 53) → everywhere_doc P m) as H; [|by apply H].
    intros m. induction m as [i dc sc n ds ns q IH] using mnode_rect'. intros Hm Hle. constructor; [done|].
    apply Forall_forall. intros c Hc. rewrite Forall_forall in IH. apply IH; [done| |].
    - inversion Hm as [? _ Hkids]; subst. rewrite Forall_forall in Hkids. by apply Hkids.
    - pose proof (records_child _ c Hm Hc). lra. }
  assert (tallied (tm_node t) x.1) as [Hg _]; [|done].
  revert Hx HP. unfold aggregate_answer. apply (answer_scores _ _ _ _ _ tallied P).
  - intros m [Hm1 _]. split; [constructor|]. exists []. split; [constructor|]. split; [by left|].
    pose proof (records_pos m Hm1). cbn [foldr]. lra.
  - intros m [? ?]. by apply node_tallied.
  - intros m s [? ?] ->. by apply node_tallied.
  - intros m c s [Hm1 Hm2] Hc (Hg & zs & Hz & Hpos & Hle). split; [done|]. exists zs. split; [done|]. split; [done|].
    pose proof (records_child m c Hm1 Hc). lra.
  - intros m w rs y [Hm1 Hm2] Hl Hq [Ha _]. by eapply (aggregate_tallied m rs y.1).
Qed.
Theorem C105_aggregate_partial : ∀ E dd td t e td' calls tk r out v p,
  new_model E dd td (DTree t) = (Ok e, td') → tm_function t = "classification" →
  tm_strategy t = "aggregateNodes" →
  everywhere_doc (λ m, m_pred m ≠ PNone) (tm_node t) →
  everywhere_doc whole_counts (tm_node t) → all_records (tm_node t) <= IZR (2 ^ 53) →
  (evaluate E tk (after E calls e) r).1.1 = Ok (Some out) →
  out !! ("probability(" +:+ v +:+ ")") = Some (GF64 p) → in_unit p.
Proof. intros * H1 H2 H3 H4 H5 H6 H7 H8. by apply (aggregate_unit _ _ _ _ _ _ _ _ _ _ _ _ H1 H2 H3 H4 H5 H6 H7 H8). Qed.
Print Assumptions C105_aggregate_partial.

(** Under weightedConfidence the weights of nine children with one record each
    add up to more than one. *)
Definition nine_leaves : tree_model :=
  TreeModel "classification" "weightedConfidence" fone "returnLastPrediction" [] [MF "humidity" "active"; MF "play" "target"] None
    (MNode "0" "" "yes" (fl "9") [SD "yes" "9"; SD "no" "0"]
       (map (λ i, MNode i "" "yes" fone [SD "yes" "1"; SD "no" "0"] [] (SP "humidity" "lessThan" i))
            ["10"; "20"; "30"; "40"; "50"; "60"; "70"; "80"; "90"]) PTrue).

Ltac everywhere_tac tac :=
  lazymatch goal with
  | |- everywhere_in _ _ _ => constructor; [tac|]; everywhere_tac tac
  | |- Forall _ _ => cbn [m_nodes map]; first [apply Forall_nil_2|apply Forall_cons_2; everywhere_tac tac]
  | |- _ => idtac
  end.

Definition sound_b (ds : list score_distribution) : bool :=
  let total := foldl (λ a d, SFadd 53 1024 a (sd_count d)) (S754_zero false) ds in
  forallb (λ d, valid_binary 53 1024 (sd_count d) && fleb fzero (sd_count d) && negb (from_option (λ _, true) false (sd_prob d))) ds &&
  fltb fzero total && is_finite_SF total.
Lemma sound_by ds : sound_b ds = true → sound_dist ds.
Proof.
  unfold sound_b, sound_dist. intros [[H1 H2]%andb_true_iff H3]%andb_true_iff. split; [|split; [done|]].
  - apply Forall_forall. intros d Hd. rewrite forallb_forall in H1.
    specialize (H1 d (proj1 (elem_of_list_In _ _) Hd)). apply andb_true_iff in H1 as [[V P]%andb_true_iff N].
    split; [by split|]. intros p Hp. by rewrite Hp in N.
  - intros Hf. by rewrite Hf in H3.
Qed.

Theorem C105_weighted_refuted : ∃ E dd t e td' r out p,
  new_model E dd [] (DTree t) = (Ok e, td') ∧ tm_function t = "classification" ∧ tm_strategy t = "weightedConfidence" ∧
  everywhere_doc (λ m, m_pred m ≠ PNone) (tm_node t) ∧
  everywhere_doc (λ m, sound_dist (m_dists m)) (tm_node t) ∧
  (evaluate E [] e r).1.1 = Ok (Some out) ∧ out !! "probability(yes)" = Some (GF64 p) ∧ fltb fone p = true.
Proof.
  exists go_ext, golf_dd, nine_leaves, (built go_ext golf_dd (DTree nine_leaves)), (new_model go_ext golf_dd [] (DTree nine_leaves)).2.
  exists (Some ∅), (class_row "play" [Score "yes" fzero (fl "1.0000000000000002") fzero; Score "no" fzero fzero fzero]),
    (fl "1.0000000000000002").
  split; [apply built_ok; by vm_compute|]. split; [done|]. split; [done|].
  split; [unfold nine_leaves; cbn [tm_node]; everywhere_tac ltac:(idtac; done)|].
  split; [unfold nine_leaves; cbn [tm_node]; everywhere_tac ltac:(idtac; apply sound_by; by vm_compute)|].
  split; [apply run_out; by vm_compute|]. split; by vm_compute.
Qed.
Print Assumptions C105_weighted_refuted.

Definition two_leaves (st : string) : tree_model :=
  TreeModel "classification" st (fl "0.8") "returnLastPrediction" [] [MF "humidity" "active"; MF "play" "target"] None
    (MNode "1" "3" "yes" (fl "14") [SD "yes" "9"; SD "no" "5"]
       [MNode "2" "" "yes" (fl "10") [SD "yes" "8"; SD "no" "2"] [] (SP "humidity" "lessOrEqual" "75");
        MNode "3" "" "no" (fl "4") [SD "yes" "1"; SD "no" "3"] [] (SP "humidity" "greaterThan" "75")] PTrue).
Lemma own_whole m zs : Forall2 (λ d z, sd_count d = f64_of_Z z ∧ (0 <= z <= 2 ^ 53)%Z) (m_dists m) zs →
  own_records m = IZR (zsum zs) ∧ Forall (λ d, ∃ z, whole (sd_count d) z) (m_dists m).
Proof.
  unfold own_records. generalize (m_dists m). clear m. intros ds. unfold real_sum, rsum.
  induction 1 as [|d z ds zs [Hd Hz] _ [IH1 IH2]]; [by split; [|constructor]|].
  pose proof (whole_of_Z z Hz) as Hw. rewrite <- Hd in Hw. cbn [map foldr].
  rewrite IH1, plus_IZR. split; [by destruct Hw as (_ & _ & -> & _)|]. constructor; [by exists z|done].
Qed.
Lemma whole_counts_by zs m : Forall2 (λ d z, sd_count d = f64_of_Z z ∧ (0 <= z <= 2 ^ 53)%Z) (m_dists m) zs →
  (0 < zsum zs)%Z → Forall (λ d, sd_prob d = None) (m_dists m) → whole_counts m.
Proof.
  intros H Hz Hp. destruct (own_whole m zs H) as [Ho Hf]. split; [|split].
  - intros Hn. rewrite Hn in H. apply Forall2_nil_inv_l in H as ->. by cbn in Hz.
  - rewrite Ho. by apply IZR_lt.
  - apply Forall_forall. intros d Hd. rewrite Forall_forall in Hf, Hp. split; [by apply Hf|]. intros p Hpr.
    by rewrite (Hp d Hd) in Hpr.
Qed.

(** humidity missing: the counts 8 + 1 and 2 + 3 are aggregated, the default
    child is penalised *)
Example C105_example :
  (∀ st, everywhere_doc (λ m, m_pred m ≠ PNone) (tm_node (two_leaves st)) ∧
     everywhere_doc (λ m, sound_dist (m_dists m)) (tm_node (two_leaves st)) ∧
     everywhere_doc whole_counts (tm_node (two_leaves st)) ∧ all_records (tm_node (two_leaves st)) <= IZR (2 ^ 53)) ∧
  valid (fl "0.8") ∧ in_unit (fl "0.8") ∧
  dumped (run go_ext golf_dd (DTree (two_leaves "aggregateNodes")) (Some ∅)) =
    dumped (Some (golf_out "yes" "0.6428571428571429" "0.35714285714285715", None)) ∧
  dumped (run go_ext golf_dd (DTree (two_leaves "defaultChild")) (Some ∅)) =
    dumped (Some (golf_out "no" "0.2" "0.6000000000000001", None)).
Proof.
  assert (∀ a b za zb, sd_count (SD "yes" a) = f64_of_Z za → sd_count (SD "no" b) = f64_of_Z zb →
    (0 <= za <= 2 ^ 53)%Z → (0 <= zb <= 2 ^ 53)%Z →
    Forall2 (λ d z, sd_count d = f64_of_Z z ∧ (0 <= z <= 2 ^ 53)%Z) [SD "yes" a; SD "no" b] [za; zb]) as H2.
  { intros a b za zb Ha Hb Hza Hzb. constructor; [by split|]. constructor; [by split|constructor]. }
  split; [intros st|split; [by vm_compute|split; [by vm_compute|split; by vm_compute]]].
  unfold two_leaves. cbn [tm_node].
  split; [everywhere_tac ltac:(idtac; done)|].
  split; [everywhere_tac ltac:(idtac; apply sound_by; by vm_compute)|].
  pose proof (H2 "9" "5" 9%Z 5%Z ltac:(by vm_compute) ltac:(by vm_compute) ltac:(lia) ltac:(lia)) as A.
  pose proof (H2 "8" "2" 8%Z 2%Z ltac:(by vm_compute) ltac:(by vm_compute) ltac:(lia) ltac:(lia)) as B.
  pose proof (H2 "1" "3" 1%Z 3%Z ltac:(by vm_compute) ltac:(by vm_compute) ltac:(lia) ltac:(lia)) as C.
  split.
  - constructor; [apply (whole_counts_by [9; 5]%Z); [exact A|done|repeat constructor]|]. cbn [m_nodes].
    repeat (apply Forall_cons_2 || apply Forall_nil_2); (constructor; [|apply Forall_nil_2]).
    + apply (whole_counts_by [8; 2]%Z); [exact B|done|repeat constructor].
    + apply (whole_counts_by [1; 3]%Z); [exact C|done|repeat constructor].
  - rewrite all_records_eq. cbn [m_nodes map]. unfold rsum. cbn [foldr]. rewrite !all_records_eq. cbn [m_nodes map]. unfold rsum. cbn [foldr].
    rewrite (proj1 (own_whole (MNode _ _ _ _ [SD "yes" "9"; SD "no" "5"] _ _) _ A)),
      (proj1 (own_whole (MNode _ _ _ _ [SD "yes" "8"; SD "no" "2"] _ _) _ B)),
      (proj1 (own_whole (MNode _ _ _ _ [SD "yes" "1"; SD "no" "3"] _ _) _ C)). cbn [foldr].
    rewrite <- !plus_IZR. apply IZR_le. lia.
Qed.

(** *** C106: the probabilities of an averaged ensemble lie in [0,1] *)

Lemma seg_outputs_length E tks es m outs m' : seg_outputs E tks es m outs m' → length outs = length tks.
Proof. induction 1; simpl; congruence. Qed.

(** Whatever its members are: if what they contribute lies in [0,1]. *)
Theorem C106_average_unit : ∀ E dd td h segs e td' calls tk m m2 es outs m3 k,
  new_model E dd td (DMining h segs) = (Ok e, td') → mm_method h = "average" →
  prepared E h m m2 → segment_models E dd (td ++ mm_lt h) segs es →
  seg_outputs E (seg_tickets tk 0 (length segs)) es m2 outs m3 →
  k ∈ map of_name (mm_output h) → k ∉ map tg_field (mm_targets h) →
  (0 < Z.of_nat (length segs) <= 2 ^ 53)%Z →
  Forall (λ x, valid x ∧ in_unit x) (contributions E h k outs) →
  ∃ out p, (evaluate E tk (after E calls e) (Some m)).1 = (Ok (Some out), Some m3) ∧
    out !! k = Some (GF64 p) ∧ in_unit p.
Proof.
  intros E dd td h segs e td' calls tk m m2 es outs m3 k Hn Hm Hp Hs Ho Hk Hnt Hlen Hc.
  destruct (C49_average E dd td h segs e td' calls tk m m2 es outs m3 Hn Hm Hp Hs Ho) as (out & He & Hout).
  exists out. eexists. split; [done|]. rewrite Hout, decide_True by (apply elem_of_app; by left). split; [done|].
  unfold sum_total. rewrite no_targets by done. cbn [foldl]. apply Forall_and in Hc as [Hv Hu].
  apply average_unit; [done|done| |done].
  assert (length outs = length segs) as <-.
  { rewrite (seg_outputs_length _ _ _ _ _ _ Ho). unfold seg_tickets. by rewrite map_length, seq_length. }
  clear. unfold contributions. induction outs as [|o outs IH]; [done|]. cbn [omap list_omap].
  destruct (_ ≫= _); cbn [length]; lia.
Qed.
Print Assumptions C106_average_unit.

(** The trees of C105. *)
Definition sound_tree (t : tree_model) : Prop :=
  tm_function t = "classification" ∧ everywhere_doc (λ m, m_pred m ≠ PNone) (tm_node t) ∧
  ((tm_strategy t ∉ ["aggregateNodes"; "weightedConfidence"] ∧
    (tm_strategy t = "defaultChild" → valid (tm_penalty t) ∧ in_unit (tm_penalty t)) ∧
    everywhere_doc (λ m, m_dists m = [] ∨ sound_dist (m_dists m)) (tm_node t)) ∨
   (tm_strategy t = "aggregateNodes" ∧ everywhere_doc whole_counts (tm_node t) ∧
    all_records (tm_node t) <= IZR (2 ^ 53))).

Lemma sound_tree_unit E dd td t e td' calls tk r out v x :
  new_model E dd td (DTree t) = (Ok e, td') → sound_tree t →
  (evaluate E tk (after E calls e) r).1.1 = Ok (Some out) →
  out !! ("probability(" +:+ v +:+ ")") = Some x → unit_value t ("probability(" +:+ v +:+ ")") x.
Proof.
  intros Hn (Hf & Hp & [(H1 & H2 & H3)|(H1 & H2 & H3)]) He Ho.
  - by apply (tree_unit _ _ _ _ _ _ _ _ _ _ _ _ Hn Hf H1 H2 Hp H3 He).
  - by apply (aggregate_unit _ _ _ _ _ _ _ _ _ _ _ _ Hn Hf H1 Hp H2 H3 He).
Qed.

(** A random forest of such trees reports probabilities in [0,1] for every row
    on which it succeeds. *)
Theorem C106_forest : ∀ E dd td h segs e td' calls tk m out v,
  new_model E dd td (DMining h segs) = (Ok e, td') →
  mm_method h = "average" → mm_function h = "classification" →
  (0 < Z.of_nat (length segs) <= 2 ^ 53)%Z →
  let k := "probability(" +:+ v +:+ ")" in
  k ∈ map of_name (mm_output h) → k ∉ map tg_field (mm_targets h) →
  Forall (λ s, ∃ t, sg_models s = [DTree t] ∧ sound_tree t ∧ k ≠ target_field (tm_schema t)) segs →
  (evaluate E tk (after E calls e) (Some m)).1.1 = Ok (Some out) →
  ∃ p, out !! k = Some (GF64 p) ∧ in_unit p.
Proof.
  intros E dd td h segs e td' calls tk m out v Hn Hm Hf Hlen k Hk Hnt Hsegs Ho.
  pose proof Ho as Ho'. rewrite (history_independent E _ _ _ _ _ calls tk _ Hn) in Ho'.
  destruct (ok_prepared E dd td h segs e td' tk m _ Hn Ho') as [m2 Hp]. clear Ho'.
  destruct (mining_parts E dd td h segs e td' Hn) as (es & He & Hs & Hl).
  destruct (first_failure E dd tk es 0 m2) as [(outs & m3 & H)|(l1 & e' & l2 & outs & m3 & o' & r4 & -> & H & Hev & Hno)].
  { intros e' He'. by eapply segment_models_in. }
  2:{ exfalso. simpl in Hev.
      rewrite (C50_failing_segment_sum E dd td h segs e td' calls tk m m2 l1 e' l2 outs m3 o' r4 Hn) in Ho;
        [by eapply Hno|rewrite Hm; set_solver|done..]. }
  rewrite Hl in H.
  destruct (C106_average_unit E dd td h segs e td' calls tk m m2 es outs m3 k Hn Hm Hp Hs H Hk Hnt Hlen) as (out' & p & Hev & Hout & Hu).
  2:{ exists p. rewrite Hev in Ho. injection Ho as <-. done. }
  unfold contributions. rewrite decide_True by done. clear -Hs H Hsegs. revert H.
  generalize (seg_tickets tk 0 (length segs)). intros tks H. revert tks m2 outs H.
  induction Hs as [|tdc s segs d e0 es td1 Hd Hn0 Hs IH]; intros tks m2 outs H;
    inversion H as [|tk0 tks' ? ? ? out ma outs' ? Ho Hr]; subst; [constructor|].
  apply Forall_cons in Hsegs as [(t & Hr' & Ht & Hne) Hsegs]. rewrite Hd in Hr'. injection Hr' as ->.
  cbn [omap list_omap]. destruct (dr_get out k) as [x|] eqn:Hx; simpl; [|by eapply IH].
  constructor; [|by eapply IH]. destruct out as [out|]; [|done].
  assert (unit_value t k x) as Hux.
  { apply (sound_tree_unit E dd tdc t e0 td1 [] tk0 (Some m2) out v x Hn0 Ht); [|done].
    change (after E [] e0) with e0. by rewrite Ho. }
  by destruct x.
Qed.
Print Assumptions C106_forest.

(** Two trees of C105, humidity missing: each declares its own confidence. *)
Example C106_example :
  sound_tree (two_leaves "defaultChild") ∧ "probability(no)" ≠ target_field (tm_schema (two_leaves "defaultChild")) ∧
  dumped (run go_ext golf_dd
    (mining "classification" "average" [] [OF "probability(no)" "" ""] []
       [DTree (two_leaves "defaultChild"); DTree (two_leaves "lastPrediction")]) (Some ∅)) =
  Some (Ok (dump (Some {["probability(no)" := GF64 (fl "0.47857142857142865")]}))).
Proof.
  split; [|split; [done|by vm_compute]]. split; [done|]. destruct C105_example as (H & V & U & _).
  destruct (H "defaultChild") as (Hp & Hs & _). split; [done|]. left.
  split; [cbn; set_solver|]. split; [by intros _; split|].
  revert Hs. apply (everywhere_in_ind' m_nodes (λ m, sound_dist (m_dists m))
    (everywhere_doc (λ m, m_dists m = [] ∨ sound_dist (m_dists m)))). intros n Hn Hk. constructor; [by right|done].
Qed.

(** *** C107: raising members' scores never lowers a sum or an average *)
Definition rising (t : target) : Prop :=
  (∀ f, tg_factor t = Some f → valid f ∧ fleb fzero f = true) ∧ (∀ c, tg_constant t = Some c → valid c).

Lemma rescale_valid t x : rising t → valid x → valid (rescale t x).
Proof.
  intros [Hf Hc] Vx. unfold rescale. destruct (tg_factor t) as [f|], (tg_constant t) as [c|]; try done.
  - apply fadd_valid; [|by apply Hc]. apply fmul_valid; [done|by apply Hf].
  - apply fmul_valid; [done|by apply Hf].
  - apply fadd_valid; [done|by apply Hc].
Qed.
Lemma rescale_fin t x : rising t → valid x → fin (rescale t x) → fin x.
Proof.
  intros [Hf Hc] Vx. unfold rescale. destruct (tg_factor t) as [f|], (tg_constant t) as [c|]; try done; intros F.
  - destruct (Hf f eq_refl). apply fadd_fin in F as (F & _ & _); [|by apply fmul_valid|by apply Hc]. by apply fmul_fin in F as (F & _).
  - destruct (Hf f eq_refl). by apply fmul_fin in F as (F & _).
  - apply fadd_fin in F as (F & _ & _); [done|done|by apply Hc].
Qed.
Lemma rescale_mono t x y : rising t → valid x → valid y → fin (rescale t x) → fin (rescale t y) →
  R64 x <= R64 y → R64 (rescale t x) <= R64 (rescale t y).
Proof.
  intros [Hf Hc] Vx Vy. unfold rescale. destruct (tg_factor t) as [f|], (tg_constant t) as [c|]; try done; intros F1 F2 Hxy.
  - destruct (Hf f eq_refl). specialize (Hc c eq_refl).
    assert (valid (fmul x f) ∧ valid (fmul y f)) as [? ?] by by split; apply fmul_valid.
    apply fadd_mono; [done..|]. apply fmul_mono; try done; [by apply (fadd_fin _ c)|by apply (fadd_fin _ c)].
  - destruct (Hf f eq_refl). by apply fmul_mono.
  - apply fadd_mono; [done|done|by apply Hc|done..].
Qed.
Lemma rescales_mono l : Forall rising l → ∀ x y, valid x → valid y →
  let f := foldl (λ x t, rescale t x) in
  valid (f x l) ∧ (fin (f x l) → fin x) ∧ (fin (f x l) → fin (f y l) → R64 x <= R64 y → R64 (f x l) <= R64 (f y l)).
Proof.
  induction 1 as [|t l Ht Hl IH]; intros x y Vx Vy f; [done|]. subst f. cbn [foldl].
  destruct (IH (rescale t x) (rescale t y)) as (H1 & H2 & H3); [by apply rescale_valid..|].
  destruct (IH (rescale t y) (rescale t x)) as (_ & H2' & _); [by apply rescale_valid..|].
  split; [done|]. split.
  - intros F. by eapply rescale_fin, H2.
  - intros F F' Hxy. apply H3; [done..|]. apply rescale_mono; [done..|by apply H2|by apply H2'|done].
Qed.

Lemma total_mono E h k outs outs' :
  Forall2 (λ x y, valid x ∧ valid y ∧ fleb x y = true) (contributions E h k outs) (contributions E h k outs') →
  Forall (λ t, tg_field t = k → rising t) (mm_targets h) →
  valid (sum_total E h k outs) ∧ valid (sum_total E h k outs') ∧
  (fin (sum_total E h k outs) → fin (sum_total E h k outs') → R64 (sum_total E h k outs) <= R64 (sum_total E h k outs')).
Proof.
  intros Hc Ht. unfold sum_total. set (l := filter _ _).
  assert (Forall rising l) as Hl.
  { apply Forall_forall. intros t [Hk Hin]%elem_of_list_filter. rewrite Forall_forall in Ht. by apply Ht. }
  assert (Forall valid (contributions E h k outs) ∧ Forall valid (contributions E h k outs')) as [V V'].
  { clear -Hc. induction Hc as [|? ? ? ? (? & ? & ?) _ []]; split; by constructor. }
  assert (valid (foldl fadd fzero (contributions E h k outs))) as V1 by by apply foldl_add_valid.
  assert (valid (foldl fadd fzero (contributions E h k outs'))) as V2 by by apply foldl_add_valid.
  destruct (rescales_mono l Hl _ _ V1 V2) as (H1 & H2 & H3). destruct (rescales_mono l Hl _ _ V2 V1) as (H1' & H2' & _).
  split; [done|]. split; [done|]. intros F F'. apply H3; [done..|].
  apply sum_mono; [done|done|done|by apply H2|by apply H2'|lra].
Qed.

(** Two ensembles with the same header, on rows of their own: if each member of
    the second contributes at least what its counterpart contributes, so does
    the second ensemble.  Factors may be 0 but not negative. *)
Theorem C107_monotone : ∀ E dd td h segs segs' e e' td1 td1' calls calls' tk m m' m2 m2' es es' outs outs' m3 m3' k,
  new_model E dd td (DMining h segs) = (Ok e, td1) → new_model E dd td (DMining h segs') = (Ok e', td1') →
  mm_method h ∈ ["sum"; ""; "average"] → length segs = length segs' → (0 < Z.of_nat (length segs) <= 2 ^ 53)%Z →
  prepared E h m m2 → prepared E h m' m2' →
  segment_models E dd (td ++ mm_lt h) segs es → segment_models E dd (td ++ mm_lt h) segs' es' →
  seg_outputs E (seg_tickets tk 0 (length segs)) es m2 outs m3 →
  seg_outputs E (seg_tickets tk 0 (length segs)) es' m2' outs' m3' →
  k ∈ header_output_names h →
  Forall2 (λ x y, valid x ∧ valid y ∧ fleb x y = true) (contributions E h k outs) (contributions E h k outs') →
  Forall (λ t, tg_field t = k → rising t) (mm_targets h) →
  ∃ out out' p p',
    (evaluate E tk (after E calls e) (Some m)).1.1 = Ok (Some out) ∧ out !! k = Some (GF64 p) ∧
    (evaluate E tk (after E calls' e') (Some m')).1.1 = Ok (Some out') ∧ out' !! k = Some (GF64 p') ∧
    (fin p → fin p' → fleb p p' = true).
Proof.
  intros E dd td h segs segs' e e' td1 td1' calls calls' tk m m' m2 m2' es es' outs outs' m3 m3' k
    Hn Hn' Hm Hlen Hpos Hp Hp' Hs Hs' Ho Ho' Hk Hc Ht.
  destruct (total_mono E h k outs outs' Hc Ht) as (V & V' & Hmono).
  destruct (decide (mm_method h = "average")) as [Ha|Ha].
  - destruct (C49_average E dd td h segs e td1 calls tk m m2 es outs m3 Hn Ha Hp Hs Ho) as (out & He & Hout).
    rewrite Hlen in Ho'.
    destruct (C49_average E dd td h segs' e' td1' calls' tk m' m2' es' outs' m3' Hn' Ha Hp' Hs' Ho') as (out' & He' & Hout').
    specialize (Hout k). specialize (Hout' k). rewrite decide_True in Hout, Hout' by done.
    exists out, out'. do 2 eexists. rewrite He, He'. split; [done|]. split; [done|]. split; [done|]. split; [done|].
    rewrite <- Hlen. intros F F'. destruct (fdiv_count _ _ V Hpos F) as [F1 _]. destruct (fdiv_count _ _ V' Hpos F') as [F1' _].
    destruct (whole_of_Z (Z.of_nat (length segs))) as (Vn & _); [lia|].
    apply fle_R; [by apply fdiv_valid..|done|done|]. apply fdiv_mono; try done. by apply Hmono.
  - assert (mm_method h = "sum" ∨ mm_method h = "") as Hm'.
    { rewrite !elem_of_cons in Hm. destruct Hm as [Hm|[Hm|[Hm|Hm%elem_of_nil]]]; auto; done. }
    destruct (C48_sum E dd td h segs e td1 calls tk m m2 es outs m3 Hn Hm' Hp Hs Ho) as (out & He & Hout).
    rewrite Hlen in Ho'.
    destruct (C48_sum E dd td h segs' e' td1' calls' tk m' m2' es' outs' m3' Hn' Hm' Hp' Hs' Ho') as (out' & He' & Hout').
    specialize (Hout k). specialize (Hout' k). rewrite decide_True in Hout, Hout' by done.
    exists out, out'. do 2 eexists. rewrite He, He'. split; [done|]. split; [done|]. split; [done|]. split; [done|].
    intros F F'. apply fle_R; [done..|]. by apply Hmono.
Qed.
Print Assumptions C107_monotone.

(** Two linear members; with the larger area both contribute more. *)
Example C107_example :
  rising (Target "price" (Some (fl "0.5")) (Some (fl "-3"))) ∧
  Forall2 (λ x y, valid x ∧ valid y ∧ fleb x y = true) [fl "50.5"; fl "50.5"] [fl "50.5"; fl "60"] ∧
  fin (foldl fadd fzero [fl "50.5"; fl "60"]).
Proof.
  split; [|split; [|by vm_compute]].
  - split; [intros f [= <-]; by vm_compute|intros c [= <-]; by vm_compute].
  - constructor; [by vm_compute|]. constructor; [by vm_compute|constructor].
Qed.

(** *** C108: what the targets of an ensemble do *)
Definition with_targets (h : mining_header) (ts : list target) : mining_header :=
  MiningHeader (mm_function h) (mm_method h) (mm_lt h) (mm_schema h) (mm_output h) ts (mm_verification h).

Lemma retarget E dd td h ts segs e td' : new_model E dd td (DMining h segs) = (Ok e, td') →
  ∃ es, e = EMining (built_mining dd td h segs) es ∧
    new_model E dd td (DMining (with_targets h ts) segs) = (Ok (EMining (built_mining dd td (with_targets h ts) segs) es), td') ∧
    segment_models E dd (td ++ mm_lt h) segs es ∧ length es = length segs.
Proof.
  intros Hn. pose proof Hn as (es & -> & Hb & Hok)%new_model_mining_inv. exists es. split; [done|].
  split; [by apply (new_model_mining_of E dd td (with_targets h ts))|].
  split; [by eapply built_segment_models|by eapply built_segments_length].
Qed.

(** Targets do not matter for acceptance; with sum, the total the document
    would report without targets is multiplied by the factor and increased by
    the constant of each target of that name, in order. *)
Theorem C108_sum : ∀ E dd td h segs e td' calls calls0 tk m out0 k p0,
  new_model E dd td (DMining h segs) = (Ok e, td') → mm_method h ∈ ["sum"; ""] →
  ∃ e0, new_model E dd td (DMining (with_targets h []) segs) = (Ok e0, td') ∧
    ((evaluate E tk (after E calls0 e0) (Some m)).1.1 = Ok (Some out0) → out0 !! k = Some (GF64 p0) →
     ∃ out, (evaluate E tk (after E calls e) (Some m)).1.1 = Ok (Some out) ∧
       out !! k = Some (GF64 (foldl (λ x t, rescale t x) p0 (filter (λ t, tg_field t = k) (mm_targets h))))).
Proof.
  intros E dd td h segs e td' calls calls0 tk m out0 k p0 Hn Hm.
  destruct (retarget E dd td h [] segs e td' Hn) as (es & -> & Hn0 & Hs & Hl). eexists. split; [done|].
  intros Ho Hk. set (h0 := with_targets h []) in *.
  pose proof Ho as Ho'. rewrite (history_independent E _ _ _ _ _ calls0 tk _ Hn0) in Ho'.
  destruct (ok_prepared E dd td h0 segs _ td' tk m _ Hn0 Ho') as [m2 Hp]. clear Ho'.
  destruct (first_failure E dd tk es 0 m2) as [(outs & m3 & H)|(l1 & e' & l2 & outs & m3 & o' & r4 & -> & H & Hev & Hno)].
  { intros e' He'. by eapply segment_models_in. }
  2:{ exfalso. simpl in Hev.
      rewrite (C50_failing_segment_sum E dd td h0 segs _ td' calls0 tk m m2 l1 e' l2 outs m3 o' r4 Hn0) in Ho;
        [by eapply Hno|set_solver|done..]. }
  rewrite Hl in H.
  assert (mm_method h = "sum" ∨ mm_method h = "") as Hm'.
  { rewrite !elem_of_cons in Hm. destruct Hm as [Hm|[Hm|Hm%elem_of_nil]]; auto; done. }
  destruct (C48_sum E dd td h0 segs _ td' calls0 tk m m2 es outs m3 Hn0 Hm' Hp Hs H) as (out0' & He0 & Hout0).
  destruct (C48_sum E dd td h segs _ td' calls tk m m2 es outs m3 Hn Hm' Hp Hs H) as (out & He & Hout).
  rewrite He0 in Ho. injection Ho as ->. rewrite Hout0 in Hk. case_decide as Hin; [|done]. injection Hk as <-.
  exists out. rewrite He. split; [done|]. rewrite Hout, decide_True; [done|].
  unfold header_output_names in *. simpl in Hin. rewrite app_nil_r in Hin. apply elem_of_app. by left.
Qed.
Print Assumptions C108_sum.

(** A chain and the first segment are not rescaled at all. *)
Theorem C108_ignored : ∀ E dd td h segs e td' ts calls calls0 tk m,
  new_model E dd td (DMining h segs) = (Ok e, td') → mm_method h ∉ ["sum"; ""; "average"] →
  ∃ e0, new_model E dd td (DMining (with_targets h ts) segs) = (Ok e0, td') ∧
    (evaluate E tk (after E calls0 e0) (Some m)).1 = (evaluate E tk (after E calls e) (Some m)).1.
Proof.
  intros E dd td h segs e td' ts calls calls0 tk m Hn Hm.
  destruct (retarget E dd td h ts segs e td' Hn) as (es & -> & Hn0 & Hs & Hl). eexists. split; [done|].
  rewrite (history_independent E _ _ _ _ _ calls0 tk _ Hn0), (history_independent E _ _ _ _ _ calls tk _ Hn).
  rewrite !mining_evaluate_run by done. cbn [built_mining em_defaults em_hdr]. rewrite !header_of_lt.
  change (mm_schema (with_targets h ts)) with (mm_schema h). change (mm_lt (with_targets h ts)) with (mm_lt h).
  destruct (impute _ _ _ _) as [r1|x|p]; [|done..]. destruct (handle_input _ _ _) as [[[]|x|p] r2]; [|done..].
  unfold run_method. cbn [em_hdr].
  assert (∀ h', mm_method h' = mm_method h → mm_method (header_of h') = mm_method h) as Hh.
  { intros h' Hh'. unfold header_of. rewrite Hh'. destruct (String.eqb_spec (mm_method h) ""); [set_solver|done]. }
  cbn [built_mining em_hdr]. rewrite !Hh by done.
  destruct (String.eqb_spec (mm_method h) "average"); [set_solver|].
  destruct (String.eqb_spec (mm_method h) "sum"); [set_solver|].
  destruct (_ =s _); [by destruct (chain _ _ _ _ _ _ _) as [[? ?] ?]|].
  destruct (_ =s _); [by destruct (select_first _ _ _) as [[? ?] ?]|done].
Qed.
Print Assumptions C108_ignored.

(** Targets with factor 1 and constant 0, or without, change nothing. *)
Definition neutral (t : target) : Prop :=
  (tg_factor t = None ∨ tg_factor t = Some fone) ∧ (tg_constant t = None ∨ tg_constant t = Some fzero).

Lemma neutral_same l x : Forall neutral l → valid x → x ≠ S754_zero true → foldl (λ x t, rescale t x) x l = x.
Proof.
  intros Hl Vx Hx. induction Hl as [|t l [Hf Hc] Hl IH]; [done|]. cbn [foldl].
  assert (rescale t x = x) as ->; [|done].
  unfold rescale. destruct Hf as [-> | ->], Hc as [-> | ->]; rewrite ?fmul_one by done; by rewrite ?fadd_zero by done.
Qed.
Lemma sum_not_minus_zero l : ∀ a, valid a → a ≠ S754_zero true → Forall valid l → foldl fadd a l ≠ S754_zero true.
Proof.
  induction l as [|x l IH]; intros a Va Ha Hl; [done|]. apply Forall_cons in Hl as [Vx Hl]. cbn [foldl].
  apply IH; [by apply fadd_valid|by apply fadd_not_minus_zero|done].
Qed.

Theorem C108_neutral : ∀ E dd td h segs e td' calls calls0 tk m m2 es outs m3 k,
  new_model E dd td (DMining h segs) = (Ok e, td') → mm_method h ∈ ["sum"; ""; "average"] →
  prepared E h m m2 → segment_models E dd (td ++ mm_lt h) segs es →
  seg_outputs E (seg_tickets tk 0 (length segs)) es m2 outs m3 →
  k ∈ map of_name (mm_output h) → Forall valid (contributions E h k outs) →
  Forall (λ t, tg_field t = k → neutral t) (mm_targets h) →
  ∃ e0 out out0, new_model E dd td (DMining (with_targets h []) segs) = (Ok e0, td') ∧
    (evaluate E tk (after E calls e) (Some m)).1.1 = Ok (Some out) ∧
    (evaluate E tk (after E calls0 e0) (Some m)).1.1 = Ok (Some out0) ∧ is_Some (out !! k) ∧ out !! k = out0 !! k.
Proof.
  intros E dd td h segs e td' calls calls0 tk m m2 es outs m3 k Hn Hm Hp Hs Ho Hk Hv Ht.
  destruct (retarget E dd td h [] segs e td' Hn) as (es' & -> & Hn0 & _).
  assert (sum_total E h k outs = sum_total E (with_targets h []) k outs) as Hsum.
  { unfold sum_total. cbn [with_targets mm_targets]. rewrite (neutral_same (filter _ (mm_targets h))); [done| | |].
    - apply Forall_forall. intros t [? ?]%elem_of_list_filter. rewrite Forall_forall in Ht. by apply Ht.
    - by apply foldl_add_valid.
    - by apply sum_not_minus_zero. }
  assert (k ∈ header_output_names h ∧ k ∈ header_output_names (with_targets h [])) as [Hin Hin0].
  { unfold header_output_names. split; apply elem_of_app; by left. }
  destruct (decide (mm_method h = "average")) as [Ha|Ha].
  - destruct (C49_average E dd td h segs _ td' calls tk m m2 es outs m3 Hn Ha Hp Hs Ho) as (out & He & Hout).
    destruct (C49_average E dd td (with_targets h []) segs _ td' calls0 tk m m2 es outs m3 Hn0 Ha Hp Hs Ho) as (out0 & He0 & Hout0).
    eexists _, out, out0. rewrite He, He0. split; [done|]. split; [done|]. split; [done|].
    rewrite Hout, Hout0, !decide_True by done. split; [by eexists|]. by rewrite Hsum.
  - assert (mm_method h = "sum" ∨ mm_method h = "") as Hm'.
    { rewrite !elem_of_cons in Hm. destruct Hm as [Hm|[Hm|[Hm|Hm%elem_of_nil]]]; auto; done. }
    destruct (C48_sum E dd td h segs _ td' calls tk m m2 es outs m3 Hn Hm' Hp Hs Ho) as (out & He & Hout).
    destruct (C48_sum E dd td (with_targets h []) segs _ td' calls0 tk m m2 es outs m3 Hn0 Hm' Hp Hs Ho) as (out0 & He0 & Hout0).
    eexists _, out, out0. rewrite He, He0. split; [done|]. split; [done|]. split; [done|].
    rewrite Hout, Hout0, !decide_True by done. split; [by eexists|]. by rewrite Hsum.
Qed.
Print Assumptions C108_neutral.

(** With average the constant is divided by the number of segments. *)
Theorem C108_average_refuted : ∃ E dd h t segs e e0 td' r p p0,
  mm_method h = "average" ∧ mm_targets h = [t] ∧ map of_name (mm_output h) = [tg_field t] ∧
  new_model E dd [] (DMining h segs) = (Ok e, td') ∧
  new_model E dd [] (DMining (with_targets h []) segs) = (Ok e0, td') ∧
  (evaluate E [] e r).1.1 = Ok (Some {[tg_field t := GF64 p]}) ∧
  (evaluate E [] e0 r).1.1 = Ok (Some {[tg_field t := GF64 p0]}) ∧ p ≠ rescale t p0.
Proof.
  set (t := Target "price" (Some (fl "2")) (Some (fl "10"))).
  set (h := MiningHeader "regression" "average" [] [] [OF "price" "" ""] [t] None).
  set (segs := [seg (DTree price_tree); seg (DTree price_tree)]).
  exists go_ext, price_dd, h, t, segs, (built go_ext price_dd (DMining h segs)), (built go_ext price_dd (DMining (with_targets h []) segs)), [].
  exists (Some {["area" := GF64 (fl "50")]}), (fl "106"), (fl "50.5").
  split; [done|]. split; [done|]. split; [done|].
  split; [by rewrite built_ok; [|by vm_compute]|]. split; [by rewrite built_ok; [|by vm_compute]|].
  split; [by apply run_out; vm_compute|]. split; [by apply run_out; vm_compute|]. by vm_compute.
Qed.
Print Assumptions C108_average_refuted.

(** An output field with another name than the target reports the prediction
    before rescaling. *)
Theorem C108_renamed_refuted : ∀ method, method ∈ ["sum"; ""; "average"] →
  ∃ E dd h t d e e0 td' r out p0,
  mm_method h = method ∧ mm_targets h = [t] ∧ map of_name (mm_output h) = ["predicted"] ∧
  new_model E dd [] (DMining h [seg d]) = (Ok e, td') ∧ new_model E dd [] d = (Ok e0, td') ∧
  (evaluate E [] e0 r).1.1 = Ok (Some {["score" := GF64 p0]}) ∧
  (evaluate E [] e r).1.1 = Ok (Some out) ∧ out !! "predicted" = Some (GF64 p0) ∧ p0 ≠ rescale t p0.
Proof.
  intros method Hm. set (t := Target "price" (Some (fl "2")) (Some (fl "10"))).
  set (h := MiningHeader "regression" method [] [] [OF "predicted" "" ""] [t] None).
  exists go_ext, price_dd, h, t, (DTree price_tree), (built go_ext price_dd (DMining h [seg (DTree price_tree)])),
    (built go_ext price_dd (DTree price_tree)), [].
  exists (Some {["area" := GF64 (fl "50")]}), {["predicted" := GF64 (fl "50.5"); "price" := GF64 (fl "111")]}, (fl "50.5").
  rewrite !elem_of_cons in Hm. destruct Hm as [->|[->|[->|Hm%elem_of_nil]]]; [..|done].
  all: split; [done|]; split; [done|]; split; [done|]; split; [by rewrite built_ok; [|by vm_compute]|];
    split; [by rewrite built_ok; [|by vm_compute]|]; split; [by apply run_out; vm_compute|];
    split; [by apply run_out; vm_compute|]; split; [done|]; by vm_compute.
Qed.
Print Assumptions C108_renamed_refuted.

Example C108_example :
  let run_with ts method := dumped (run go_ext price_dd (mining "regression" method [] [OF "price" "" ""] ts
    [DTree price_tree; DTree price_tree]) (Some {["area" := GF64 (fl "50")]})) in
  let twice := Target "price" (Some (fl "2")) (Some (fl "10")) in
  neutral (Target "price" (Some fone) (Some fzero)) ∧
  run_with [Target "price" (Some fone) (Some fzero)] "sum" = Some (Ok (dump (Some {["price" := GF64 (fl "101")]}))) ∧
  run_with [] "sum" = Some (Ok (dump (Some {["price" := GF64 (fl "101")]}))) ∧
  run_with [twice] "sum" = Some (Ok (dump (Some {["price" := GF64 (fl "212")]}))) ∧
  run_with [twice] "modelChain" = run_with [] "modelChain".
Proof.
  split; [split; by right|]. by vm_compute.
Qed.

(** *** C101: an averaging ensemble with one member *)
Theorem C101_single_average : ∀ E dd td h s d e td' calls calls' tk m,
  mm_method h = "average" → mm_lt h = [] → mm_targets h = [] →
  Forall (λ f, mf_replacement f = None) (mm_schema h) → sg_models s = [d] →
  new_model E dd td (DMining h [s]) = (Ok e, td') →
  ∃ e0 tk0, new_model E dd td d = (Ok e0, td') ∧
    ∀ out0, (evaluate E tk0 (after E calls' e0) (Some m)).1.1 = Ok out0 →
    ∃ out, (evaluate E tk (after E calls e) (Some m)).1.1 = Ok (Some out) ∧
      ∀ o v, o ∈ mm_output h →
        dr_get out0 (if decide (mm_function h = "classification") then of_name o else "score") = Some v →
        valid (val_float64 E v) →
        out !! of_name o = Some (GF64 (unsigned_zero (val_float64 E v))).
Proof.
  intros E dd td h s d e td' calls calls' tk m Hm Hlt Htg Hrep Hd Hn.
  destruct (mining_parts E dd td h [s] e td' Hn) as (es & He & Hs & _).
  inversion Hs as [|? ? ? d' e0 es' td1 Hd' Hn0 Hr]; subst. inversion Hr; subst.
  rewrite Hd in Hd'. injection Hd' as <-. pose proof Hn0 as Hn0'. rewrite Hlt, app_nil_r in Hn0'.
  assert (td1 = td') as ->.
  { revert Hn. rewrite new_model_mining. destruct (negb _); [done|]. destruct (List.find _ _); [done|].
    rewrite Hlt, app_nil_r. destruct s as [i ps ms]. simpl in Hd. subst ms. cbn [compile_segments]. rewrite Hn0'.
    by intros [= <-]. }
  exists e0, (5%nat :: 0%nat :: tk). split; [done|]. intros out0. rewrite (history_independent E _ _ _ _ _ calls' _ _ Hn0').
  intros Ho.
  destruct (evaluate_some E dd td d e0 td' (5%nat :: 0%nat :: tk) m Hn0') as [m1 Hm1].
  assert (prepared E h m m) as Hp.
  { exists m. split; [|by rewrite Hlt]. intros k. split; [|done]. intros s' (l1 & f & l2 & Hl & _ & Hf & _).
    rewrite Hl in Hrep. rewrite Forall_app, Forall_cons in Hrep. destruct Hrep as (_ & Hf' & _). congruence. }
  destruct (C49_average E dd td h [s] _ td' calls tk m m [e0] [out0] m1 Hn Hm Hp) as (out & Hout & Hk).
  - done.
  - eapply so_cons; [|constructor]. simpl. destruct (evaluate E _ e0 _).1 as [? ?]. simpl in *. by subst.
  - exists out. rewrite Hout. split; [done|]. intros o v Hin Hv Vv. rewrite Hk.
    rewrite decide_True; [|unfold header_output_names; apply elem_of_app; left; by apply elem_of_list_fmap_1].
    f_equal. f_equal. unfold sum_total, contributions. rewrite Htg. cbn [omap list_omap]. rewrite Hv. simpl.
    change (fdiv (fadd fzero (val_float64 E v)) fone = unsigned_zero (val_float64 E v)).
    assert (fadd fzero (val_float64 E v) = unsigned_zero (val_float64 E v)) as -> by by destruct (val_float64 E v) as [[]|[]| |? ? ?].
    apply fdiv_one. by destruct (val_float64 E v) as [[]|[]| |? ? ?].
Qed.
Print Assumptions C101_single_average.
