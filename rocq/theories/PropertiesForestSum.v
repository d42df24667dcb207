(** Property C125: the class probabilities of trees and of forests add up to one. *)
From Coq Require Import Reals Lra.
From Flocq Require Import Core.Core IEEE754.BinarySingleNaN Relative.
From Verif Require Import Base Strconv Value Doc Expr Pred Tree Regression Model Lib FloatLib SpecPred ProofsPred
  SpecExpr ProofsExpr SpecConstruct ProofsConstruct SpecTree ProofsTree ProofsOutput ProofsEval ProofsDoc
  ProofsSafe ProofsWhole ProofsClass ProofsAnswer SpecModel ProofsMining SpecRegr ProofsRegr ProofsValue ProofsSim ProofsHistory GoExt Samples RealLib
  AccLib ForestLib PropertiesTree PropertiesModel PropertiesRegr PropertiesSegments PropertiesAccuracy PropertiesForest.
Local Open Scope R_scope.

(** ** Shares of whole numbers *)

Lemma share_error x y a b : whole x a → whole y b → (a <= 2 ^ 53)%Z → (0 < b <= 2 ^ 53)%Z →
  Rabs (R64 (fdiv x y) - IZR a / IZR b) <= unit_roundoff * (IZR a / IZR b).
Proof.
  intros (Vx & Fx & Rx & Ha) (Vy & Fy & Ry & _) Hle Hb. assert (0 < IZR b) as HT by (apply IZR_lt; lia).
  destruct (valid_b _ Vx) as [c Hc]. destruct (valid_b _ Vy) as [d Hd]. rewrite Hc, Hd in *.
  rewrite fdiv_B, is_finite_SF_B2SF, !SF2R_B2SF in *.
  pose proof (Bdiv_correct 53 1024 prec53 emax1024 mode_NE c d ltac:(lra)) as HD. rewrite Rx, Ry in HD.
  assert (0 <= IZR a / IZR b) as Hq by (apply Rmult_le_pos; [apply IZR_le; lia|apply Rlt_le, Rinv_0_lt_compat; lra]).
  assert (IZR a / IZR b <= bpow radix2 53) as Hq2.
  { apply (Rle_trans _ (IZR a / 1)).
    - unfold Rdiv. apply Rmult_le_compat_l; [apply IZR_le; lia|]. apply Rinv_le; [lra|]. apply IZR_le. lia.
    - unfold Rdiv. rewrite Rinv_1, Rmult_1_r. change (bpow radix2 53) with (IZR (2 ^ 53)). apply IZR_le. lia. }
  rewrite Rlt_bool_true in HD.
  2:{ apply (Rle_lt_trans _ (bpow radix2 53)); [|apply bpow_lt; lia].
      apply abs_round_le_generic; [apply fexp64_valid|apply valid_rnd_round_mode|apply generic_format_bpow; by vm_compute|].
      by rewrite Rabs_pos_eq. }
  destruct HD as (-> & _).
  destruct (decide (a = 0)%Z) as [->|Hnz].
  { replace (IZR 0 / IZR b) with 0 by (unfold Rdiv; rewrite Rmult_0_l; done).
    rewrite round_0 by apply valid_rnd_round_mode. rewrite Rminus_0_r, Rabs_R0. lra. }
  destruct (relative_error_N_FLT_ex radix2 (-1074) 53 eq_refl (λ z, negb (Z.even z)) (IZR a / IZR b)) as (e & He & Hr).
  { rewrite Rabs_pos_eq by done. apply (Rle_trans _ (bpow radix2 (-53))); [apply bpow_le; lia|].
    apply (Rle_trans _ (1 / IZR b)).
    - unfold Rdiv. rewrite Rmult_1_l. change (bpow radix2 (-53)) with (bpow radix2 (Z.opp 53)). rewrite bpow_opp. apply Rinv_le; [done|].
      change (bpow radix2 53) with (IZR (2 ^ 53)). apply IZR_le. lia.
    - unfold Rdiv. apply Rmult_le_compat_r; [apply Rlt_le, Rinv_0_lt_compat; lra|]. apply IZR_le. lia. }
  change (round64 (IZR a / IZR b)) with (round radix2 (FLT_exp (-1074) 53) (Znearest (λ z, negb (Z.even z))) (IZR a / IZR b)).
  rewrite Hr. replace (IZR a / IZR b * (1 + e) - IZR a / IZR b) with (e * (IZR a / IZR b)) by ring.
  rewrite Rabs_mult, (Rabs_pos_eq (IZR a / IZR b)) by done. apply Rmult_le_compat_r; [done|exact He].
Qed.

(** The scores of a list are the shares of their counts. *)
Definition proportional (s : list score) : Prop :=
  NoDup (sc_value <$> s) ∧
  ∃ total zs, counted s zs ∧ whole total (zsum zs) ∧ Forall (λ x, sc_prob x = SFdiv 53 1024 (sc_count x) total) s.

Lemma counted_unique s zs zs' : counted s zs → counted s zs' → zs = zs'.
Proof.
  unfold counted. revert zs zs'. induction s as [|x s IH]; intros zs zs' H1 H2.
  - apply Forall2_nil_inv_l in H1, H2. congruence.
  - rewrite fmap_cons in H1, H2. apply Forall2_cons_inv_l in H1 as (z & l & (_ & _ & A & _) & H1 & ->).
    apply Forall2_cons_inv_l in H2 as (z' & l' & (_ & _ & B & _) & H2 & ->). f_equal; [|by apply IH].
    apply eq_IZR. congruence.
Qed.

Lemma proportional_sum s : proportional s →
  (∃ zs, counted s zs ∧ (0 < zsum zs <= 2 ^ 53)%Z) → Rabs (real_sum (sc_prob <$> s) - 1) <= unit_roundoff.
Proof.
  intros (_ & total & zs & Hc & Ht & Hp) (zs' & Hc' & Hz). rewrite (counted_unique s zs' zs Hc' Hc) in Hz. clear zs' Hc'.
  set (T := zsum zs) in *. assert (0 < IZR T) as HT by (apply IZR_lt; lia).
  assert (Rabs (real_sum (sc_prob <$> s) - IZR (zsum zs) / IZR T) <= unit_roundoff * (IZR (zsum zs) / IZR T)) as H.
  2:{ fold T in H. replace (IZR T / IZR T) with 1 in H by (field; lra). by rewrite Rmult_1_r in H. }
  assert (zsum zs <= 2 ^ 53)%Z as Hle by (unfold T in Hz; lia). clearbody T. revert zs Hc Hle.
  induction Hp as [|x s Hx Hs IH]; intros zs Hc Hle.
  - unfold counted in Hc. apply Forall2_nil_inv_l in Hc as ->. unfold real_sum. simpl. unfold Rdiv.
    rewrite Rmult_0_l, Rminus_0_r, Rabs_R0. lra.
  - unfold counted in Hc. rewrite fmap_cons in Hc. apply Forall2_cons_inv_l in Hc as (z & l & Hw & Hl & ->).
    cbn [foldr] in *. pose proof (zsum_nonneg l (wholes_nonneg _ _ Hl)). assert (0 <= z)%Z by apply Hw.
    specialize (IH l Hl ltac:(lia)). pose proof (share_error _ _ _ _ Hw Ht ltac:(lia) Hz) as Hone.
    rewrite fmap_cons. unfold real_sum in *. cbn [map rsum foldr]. fold (rsum (map (λ x, R64 x) (sc_prob <$> s))).
    rewrite Hx. rewrite plus_IZR. set (u := rsum _) in *. change (SFdiv 53 1024 (sc_count x) total) with (fdiv (sc_count x) total).
    set (v := R64 (fdiv (sc_count x) total)) in *.
    unfold Rdiv in *. rewrite Rmult_plus_distr_r.
    set (p := IZR z * / IZR T) in *. set (q := IZR (foldr Z.add 0%Z l) * / IZR T) in *.
    replace (v + u - (p + q)) with ((v - p) + (u - q)) by ring. eapply Rle_trans; [apply Rabs_triang|]. lra.
Qed.

(** ** Trees *)

(** The document gives record counts only: whole numbers, every class once. *)
Definition plain_counts (m : mnode) : Prop :=
  whole_counts m ∧ NoDup (map sd_value (m_dists m)) ∧ Forall (λ d, sd_prob d = None) (m_dists m).
Definition counting_tree (t : tree_model) : Prop :=
  tm_function t = "classification" ∧ tm_strategy t ∉ ["defaultChild"; "weightedConfidence"] ∧
  everywhere_doc (λ m, m_pred m ≠ PNone) (tm_node t) ∧ everywhere_doc plain_counts (tm_node t) ∧
  all_records (tm_node t) <= IZR (2 ^ 53).
(** the classes of a tree *)
Definition classes_in (cs : list string) (t : tree_model) : Prop :=
  everywhere_doc (λ m, Forall (λ d, sd_value d ∈ cs) (m_dists m)) (tm_node t).

Definition sums (cs : list string) (m : mnode) (s : list score) : Prop :=
  tallied m s ∧ proportional s ∧ Forall (λ x, sc_value x ∈ cs) s.

Definition few (cs : list string) (m : mnode) : Prop :=
  everywhere_doc whole_counts m ∧ all_records m <= IZR (2 ^ 53) ∧ plain_counts m ∧ Forall (λ d, sd_value d ∈ cs) (m_dists m).

Lemma sums_nil cs m : few cs m → sums cs m [].
Proof.
  intros (He & _). split; [|split; [|constructor]].
  - split; [constructor|]. exists []. split; [constructor|]. split; [by left|]. pose proof (records_pos m He). cbn [foldr]. lra.
  - split; [constructor|]. exists fzero, []. split; [constructor|]. split; [apply whole_zero|constructor].
Qed.

Lemma node_sums cs dd t m : few cs m → sums cs m (node_dist dd t m).
Proof.
  intros Hfew. pose proof Hfew as (He & Hmax & (Hw & Hnd & Hpr) & Hcs).
  destruct (decide (m_nodes m ≠ [] ∧ tm_notrue t = "returnNullPrediction")) as [Hnil|Hnn].
  { unfold node_dist, doc_dist. rewrite decide_True by done. by apply sums_nil. }
  pose proof (node_tallied dd t m He Hmax) as Ht. split; [done|].
  unfold node_dist, doc_dist in *. rewrite decide_False in Ht |- * by done. destruct Hw as (Hd & _ & Hw).
  rewrite decide_True in Ht |- * by done. destruct Ht as (_ & zs & Hc & _ & Hz).
  split; [split|].
  - rewrite <- list_fmap_compose. exact Hnd.
  - exists (foldl (λ a d, SFadd 53 1024 a (sd_count d)) (S754_zero false) (m_dists m)), zs. split; [done|]. split.
    + rewrite (foldl_sum_map sd_count). unfold counted in Hc. rewrite <- list_fmap_compose in Hc.
      apply (whole_sum _ _ Hc fzero 0 whole_zero). rewrite Z.add_0_l. apply le_IZR. lra.
    + apply Forall_fmap. eapply Forall_impl; [exact Hpr|]. intros d Hn. simpl. rewrite Hn. done.
  - apply Forall_fmap. eapply Forall_impl; [exact Hcs|]. done.
Qed.

Lemma sums_child cs m c s : few cs m → c ∈ m_nodes m → sums cs c s → sums cs m s.
Proof.
  intros (He & _) Hc ((Hg & zs & Hz & Hpos & Hle) & Hp & Hv). split; [|done]. split; [done|]. exists zs.
  split; [done|]. split; [done|]. pose proof (records_child m c He Hc). lra.
Qed.

Lemma aggregate_sums cs m rs out : few cs m → length rs = length (m_nodes m) →
  (∀ i c y, m_nodes m !! i = Some c → rs !! i = Some y → sums cs c y.1) →
  aggregate_scores rs out → sums cs m out.
Proof.
  intros (He & Hmax & _) Hl Hq Ha.
  destruct (aggregate_tallied m rs out Hl He Hmax) as (Ht & zs & Hz & Htot); [|done|].
  { intros i c y Hc Hy. by apply (Hq i). }
  split; [done|]. destruct Ha as [Hnd Hout]. split.
  - split; [done|]. eexists _, zs. split; [done|]. split; [exact Htot|]. apply Forall_forall. intros s (v & _ & ->)%Hout. done.
  - apply Forall_forall. intros s (v & Hv & ->)%Hout. simpl. apply elem_of_list_fmap in Hv as (x & -> & Hx).
    apply elem_of_list_In, in_concat in Hx as (l & Hin & Hx). apply elem_of_list_In in Hin, Hx.
    apply elem_of_list_fmap in Hin as (y & -> & Hin). apply elem_of_list_lookup in Hin as [i Hi].
    destruct (lookup_lt_is_Some_2 (m_nodes m) i) as [c Hc]; [rewrite <- Hl; by eapply lookup_lt_Some|].
    destruct (Hq i c y Hc Hi) as (_ & _ & Hf). rewrite Forall_forall in Hf. by apply Hf.
Qed.

Lemma few_everywhere cs t : counting_tree t → classes_in cs t → everywhere_doc (few cs) (tm_node t).
Proof.
  intros (_ & _ & _ & Hp & Hmax) Hc. unfold classes_in in Hc.
  assert (∀ m, everywhere_doc plain_counts m → everywhere_doc (λ m, Forall (λ d, sd_value d ∈ cs) (m_dists m)) m →
    all_records m <= IZR (2 ^ 53) → everywhere_doc (few cs) m) as H; [|by apply H].
  clear. intros m. induction m as [i dc sc n ds ns q IH] using mnode_rect'. intros Hm Hcs Hle.
  assert (everywhere_doc whole_counts (MNode i dc sc n ds ns q)) as Hw.
  { clear -Hm. revert Hm. apply (everywhere_in_ind' m_nodes). intros x (Hx & _) Hk. by constructor. }
  inversion Hm as [? Hm1 Hkids]; subst. inversion Hcs as [? Hc1 Hckids]; subst.
  constructor; [done|]. apply Forall_forall. intros c Hc. cbn [m_nodes] in *. rewrite Forall_forall in IH, Hkids, Hckids.
  apply IH; [done|by apply Hkids|by apply Hckids|]. pose proof (records_child _ c Hw Hc). lra.
Qed.

(** What a tree answers. *)
Lemma tree_sums : ∀ E dd td t e td' calls tk r out cs,
  new_model E dd td (DTree t) = (Ok e, td') → counting_tree t → classes_in cs t →
  (evaluate E tk (after E calls e) r).1.1 = Ok (Some out) →
  ∃ s, sums cs (tm_node t) s ∧ out = class_row (target_field (tm_schema t)) s.
Proof.
  intros E dd td t e td' calls tk r out cs Hn Ht Hcs He.
  pose proof (few_everywhere cs t Ht Hcs) as Hfew. destruct Ht as (Hf & Hst & Hp & _).
  destruct (ok_input _ _ _ _ _ _ _ _ _ _ Hn He) as [r' Hi].
  assert (∃ s, sums cs (tm_node t) s ∧ reported E t s = Ok (Some out)) as (s & Hs & Hr).
  2:{ exists s. split; [done|]. unfold reported, report in Hr. rewrite decide_True in Hr by done. by injection Hr. }
  assert (∀ (truth : mnode → presult → Prop) (falses : mnode → list score → Prop) (trues : presult → presult)
      (unknown : mnode → presult → list answer_t → answer_t → Prop) (x : answer_t),
    (∀ m s, few cs m → falses m s → sums cs m s) →
    (∀ m w rs x, few cs m → length rs = length (m_nodes m) →
     (∀ i c y, m_nodes m !! i = Some c → rs !! i = Some y → sums cs c y.1) → unknown m w rs x → sums cs m x.1) →
    subtree_answer truth (node_dist dd t) falses trues unknown (tm_node t) x → sums cs (tm_node t) x.1) as Hans.
  { intros truth falses trues unknown x Hfa Hu Hx.
    apply (answer_scores truth (node_dist dd t) falses trues unknown (sums cs) (few cs)); [apply sums_nil|by intros; apply node_sums|done| |done..].
    intros m c s. by apply sums_child. }
  assert (∀ n leaf, everywhere_doc (few cs) n → (∃ truth, descend_none m_nodes truth n leaf) ∨ (∃ truth, descend_null m_nodes truth n leaf) →
    sums cs n (node_dist dd t leaf)) as Hdesc.
  { assert (∀ n l1 c l2 s, everywhere_doc (few cs) n → m_nodes n = l1 ++ c :: l2 → sums cs c s → sums cs n s) as Hstep.
    { intros n l1 c l2 s Hn' Hk. inversion Hn' as [? Hfn _]; subst. apply sums_child; [done|]. rewrite Hk. set_solver. }
    intros n leaf Hn' [[truth Hd]|[truth Hd]]; revert Hn';
      induction Hd as [n _|n l1 c l2 leaf Hk _ _ _ IH]; intros Hn'; pose proof Hn' as Hn2; inversion Hn2 as [? Hfn Hkids]; subst;
      [by apply node_sums| |by apply node_sums|];
      (eapply Hstep; [done|done|]; apply IH; rewrite Hk, Forall_app, Forall_cons in Hkids; apply Hkids). }
  destruct (decide (tm_strategy t = "nullPrediction")) as [Hnull|Hnn].
  { destruct (C16_null_prediction E dd td t e td' calls tk r r' Hn Hnull Hp Hi) as (H1 & H2 & H3).
    destruct (truth_dec E (field_types dd (td ++ tm_lt t)) r' (tm_node t) RT) as [Ht|Ht].
    - destruct H3 as [[leaf Hl]|Hu]; [|by rewrite H2 in He by by right].
      exists (node_dist dd t leaf). split; [apply Hdesc; [done|right; by eexists]|]. by rewrite (H1 leaf Ht Hl) in He.
    - by rewrite H2 in He by by left. }
  destruct (decide (tm_strategy t = "lastPrediction")) as [Hlast|Hnl].
  { destruct (C17_last_prediction_exact E dd td t e td' calls tk r r' Hn Hlast Hp Hi) as ([x Hx] & H2).
    exists x.1. split; [|rewrite (H2 x Hx) in He; unfold final in He; by destruct (x.2)].
    unfold last_answer in Hx. revert Hx. apply Hans; [by intros m s Hm ->; apply node_sums || apply sums_nil|].
    intros m w rs y Hm _ _ ->. by apply node_sums. }
  destruct (decide (tm_strategy t = "aggregateNodes")) as [Hagg|Hna].
  { destruct (C20_aggregate_nodes E dd td t e td' calls tk r r' Hn Hagg Hp Hi) as (x & Hx & H2).
    exists x.1. split; [|rewrite H2 in He; unfold final in He; by destruct (x.2)].
    unfold aggregate_answer in Hx. revert Hx. apply Hans; [by intros m s Hm ->; apply node_sums|].
    intros m w rs y Hm Hl Hq [Ha _]. by eapply aggregate_sums. }
  destruct (C15_strategy_none E dd td t e td' calls tk r r' Hn ltac:(set_solver) Hp Hi) as [H1 H2].
  destruct (truth_dec E (field_types dd (td ++ tm_lt t)) r' (tm_node t) RT) as [Ht|Ht]; [|by rewrite H2 in He].
  destruct (H1 Ht) as [[leaf Hl] H3]. exists (node_dist dd t leaf).
  split; [apply Hdesc; [done|left; by eexists]|]. by rewrite (H3 leaf Hl) in He.
Qed.

(** *** C125: class probabilities add up to one *)

(** The probability a row gives to a class. *)
Definition probability_of (out : row) (v : string) : R :=
  match out !! ("probability(" +:+ v +:+ ")") with Some (GF64 p) => R64 p | _ => 0 end.

Lemma rsum_zero {A} (f : A → R) l : (∀ x, x ∈ l → f x = 0) → rsum (map f l) = 0.
Proof.
  induction l as [|x l IH]; intros H; [done|]. unfold rsum. cbn [map foldr]. fold (rsum (map f l)).
  rewrite IH by set_solver. rewrite H by set_solver. lra.
Qed.

Lemma row_zero target s v : v ∉ sc_value <$> s → probability_of (class_row target s) v = 0.
Proof.
  intros Hv. unfold probability_of. rewrite class_row_lookup. destruct (last _) as [q|] eqn:Hl.
  - exfalso. apply last_filter_some in Hl as (l1 & l2 & Hm & Hq & _).
    assert (q ∈ map (λ s, (prob_key (sc_value s), GF64 (sc_prob s))) s) as Hin by (rewrite Hm; set_solver).
    apply elem_of_list_In, in_map_iff in Hin as (x & <- & Hs). apply elem_of_list_In in Hs.
    apply Hv. apply elem_of_list_fmap. exists x. split; [|done]. symmetry. by apply ProofsOutput.prob_key_inj.
  - destruct (_ !! _) as [[]|] eqn:He; try done. by apply lookup_singleton_Some in He as [_ ?].
Qed.

Lemma row_sum target s cs : NoDup (sc_value <$> s) → NoDup cs → Forall (λ x, sc_value x ∈ cs) s →
  rsum (map (probability_of (class_row target s)) cs) = real_sum (sc_prob <$> s).
Proof.
  intros Hs Hcs Hin.
  assert ((sc_value <$> s) ⊆+ cs) as [k Hk]%submseteq_Permutation.
  { apply NoDup_submseteq; [done|]. intros v (x & -> & Hx)%elem_of_list_fmap. rewrite Forall_forall in Hin. by apply Hin. }
  rewrite (rsum_perm _ (map (probability_of (class_row target s)) ((sc_value <$> s) ++ k))) by by rewrite Hk.
  rewrite map_app, rsum_app, (rsum_zero _ k).
  2:{ intros v Hv. apply row_zero. intros Hv2. rewrite Hk in Hcs. apply NoDup_app in Hcs as (_ & H & _). by apply (H v). }
  rewrite Rplus_0_r. unfold real_sum, rsum.
  assert (∀ l, (∀ x, x ∈ l → x ∈ s) → map (probability_of (class_row target s)) (sc_value <$> l) = map (λ x, R64 x) (sc_prob <$> l)) as H.
  { induction l as [|x l IH]; intros Hl; [done|]. rewrite !fmap_cons. specialize (IH ltac:(set_solver)). apply (f_equal2 cons); [|exact IH].
    unfold probability_of. change ("probability(" +:+ sc_value x +:+ ")") with (prob_key (sc_value x)).
    rewrite class_row_prob_nodup; [done|done|]. set_solver. }
  by rewrite H.
Qed.

Theorem C125_tree_partial : ∀ E dd td t e td' calls tk r out cs v p,
  new_model E dd td (DTree t) = (Ok e, td') → counting_tree t → classes_in cs t → NoDup cs →
  (evaluate E tk (after E calls e) r).1.1 = Ok (Some out) → out !! ("probability(" +:+ v +:+ ")") = Some (GF64 p) →
  Rabs (rsum (map (probability_of out) cs) - 1) <= unit_roundoff.
Proof.
  intros E dd td t e td' calls tk r out cs v p Hn Ht Hc Hnd He Hv.
  destruct (tree_sums E dd td t e td' calls tk r out cs Hn Ht Hc He) as (s & ((_ & zs & Hz & Hpos & Hle) & Hp & Hs) & ->).
  rewrite row_sum by (done || apply Hp). apply proportional_sum; [done|]. exists zs. split; [done|].
  destruct Hpos as [->|Hpos].
  - unfold class_row in Hv. cbn [foldl] in Hv. apply lookup_singleton_Some in Hv as [_ ?]. done.
  - split; [done|]. apply le_IZR. destruct Ht as (_ & _ & _ & _ & Hmax). lra.
Qed.
Print Assumptions C125_tree_partial.

(** ** Forests *)

Lemma mean_error l n : Forall valid l → (length l <= n)%nat → (0 < Z.of_nat n <= 2 ^ 53)%Z →
  fin (foldl fadd fzero l) → fin (fdiv (foldl fadd fzero l) (f64_of_Z (Z.of_nat n))) →
  Rabs (R64 (fdiv (foldl fadd fzero l) (f64_of_Z (Z.of_nat n))) - real_sum l / INR n)
    <= ((1 + unit_roundoff) ^ S n - 1) * (abs_sum l / INR n) + tiny.
Proof.
  intros Hl Hln Hn Hs Hd.
  pose proof (sum0_error l Hl Hs) as He. pose proof (foldl_add_valid l fzero eq_refl Hl) as Vs.
  assert (R64 (f64_of_Z (Z.of_nat n)) = INR n) as Hn' by (rewrite of_Z_exact by lia; by rewrite INR_IZR_INZ).
  destruct (of_Z_round (Z.of_nat n)) as [_ Fn]; [lia|].
  assert (0 < INR n) as Hpos by (apply lt_0_INR; lia).
  destruct (fdiv_fin _ _ Vs (of_Z_valid _) Fn ltac:(rewrite Hn'; lra) Hd) as [_ Hq]. rewrite Hn' in Hq.
  pose proof (round_error (R64 (foldl fadd fzero l) / INR n)) as Hr. rewrite <- Hq in Hr.
  assert ((1 + unit_roundoff) ^ length l <= (1 + unit_roundoff) ^ n) as Hqq.
  { apply Rle_pow; [pose proof unit_pos; lra|done]. }
  set (v := R64 (fdiv _ _)) in *. set (s := R64 (foldl fadd fzero l)) in *. set (S_ := real_sum l) in *.
  assert (0 <= abs_sum l) as HA by apply abs_sum_pos. set (A := abs_sum l) in *.
  set (m := INR n) in *. cbn [Rpow_def.pow]. set (q0 := (1 + unit_roundoff) ^ length l) in *. set (q := (1 + unit_roundoff) ^ n) in *.
  assert (1 <= q0) by apply pow_u_ge1. pose proof unit_pos. set (u := unit_roundoff) in *. set (w := tiny) in *.
  assert (Rabs S_ <= A) as HSA.
  { unfold S_, A, real_sum, abs_sum. clear. induction l as [|x l IH]; cbn [map rsum foldr]; [rewrite Rabs_R0; lra|].
    eapply Rle_trans; [apply Rabs_triang|]. fold (rsum (map (λ x, R64 x) l)). fold (rsum (map (λ x, Rabs (R64 x)) l)). lra. }
  assert (0 < / m) as Hin by by apply Rinv_0_lt_compat. unfold Rdiv in *. set (k := / m) in *.
  clearbody v s S_ A m q q0 u w k.
  assert (Rabs (s - S_) <= (q - 1) * A) as He2 by (eapply Rle_trans; [exact He|]; nra).
  assert (Rabs s <= q * A) as Hsa.
  { replace s with (S_ + (s - S_)) by ring. eapply Rle_trans; [apply Rabs_triang|]. nra. }
  rewrite Rabs_mult, (Rabs_pos_eq k) in Hr by lra.
  replace (v - S_ * k) with ((v - s * k) + (s - S_) * k) by ring.
  eapply Rle_trans; [apply Rabs_triang|]. rewrite Rabs_mult, (Rabs_pos_eq k) by lra.
  assert (Rabs (s - S_) * k <= (q - 1) * A * k) by (apply Rmult_le_compat_r; lra).
  assert (u * (Rabs s * k) <= u * (q * A * k)) by (apply Rmult_le_compat_l; [lra|]; apply Rmult_le_compat_r; lra).
  nra.
Qed.

(** A member's row: probabilities that add up to one. *)
Definition sums_to_one (cs : list string) (out : datarow) : Prop :=
  ∃ o, out = Some o ∧ Rabs (rsum (map (probability_of o) cs) - 1) <= unit_roundoff ∧
    ∀ v x, v ∈ cs → o !! ("probability(" +:+ v +:+ ")") = Some x → ∃ p, x = GF64 p ∧ valid p ∧ in_unit p.

Definition given (out : datarow) (v : string) : R := from_option (λ o, probability_of o v) 0 out.

Lemma members_class E h v cs outs : mm_function h = "classification" → v ∈ cs → Forall (sums_to_one cs) outs →
  let xs := contributions E h ("probability(" +:+ v +:+ ")") outs in
  (length xs <= length outs)%nat ∧ Forall valid xs ∧ Forall in_unit xs ∧
  real_sum xs = rsum (map (λ o, given o v) outs) ∧ abs_sum xs = real_sum xs.
Proof.
  intros Hf Hv Ho. unfold contributions. rewrite decide_True by done.
  induction Ho as [|out outs (o & -> & _ & Hp) _ (H1 & H2 & H3 & H4 & H5)].
  { split; [done|]. split; [constructor|]. split; [constructor|]. done. }
  cbn [omap list_omap length map].
  unfold rsum at 1. cbn [foldr]. change (foldr Rplus 0 (map (λ o, given o v) outs)) with (rsum (map (λ o, given o v) outs)).
  unfold given at 1. simpl. unfold probability_of. unfold dr_get at 1.
  destruct (o !! ("probability(" +:+ v +:+ ")")) as [x|] eqn:Hx; simpl.
  - destruct (Hp v x Hv Hx) as (p & -> & Vp & Up). simpl.
    split; [by apply le_n_S, H1|]. split; [by constructor|]. split; [by constructor|].
    unfold real_sum, abs_sum, rsum in *. cbn [map foldr]. rewrite H4, H5. split; [done|].
    apply (unit_R p Vp) in Up as (_ & ? & _). rewrite Rabs_pos_eq by done. by rewrite H4.
  - split; [by apply le_S, H1|]. split; [done|]. split; [done|]. rewrite Rplus_0_l. done.
Qed.

Lemma rsum_swap {A B} (f : A → B → R) (l : list A) (k : list B) :
  rsum (map (λ b, rsum (map (λ a, f a b) l)) k) = rsum (map (λ a, rsum (map (f a) k)) l).
Proof.
  induction l as [|a l IH].
  - rewrite rsum_zero by done. done.
  - unfold rsum at 3. cbn [map foldr]. fold (rsum (map (λ a, rsum (map (f a) k)) l)). rewrite <- IH. clear IH.
    induction k as [|b k IH]; [unfold rsum; simpl; lra|].
    unfold rsum in *. cbn [map foldr] in *. rewrite IH. lra.
Qed.

Lemma rsum_near (f g : string → R) (c w : R) cs : (∀ v, v ∈ cs → Rabs (f v - g v) <= c * g v + w) →
  Rabs (rsum (map f cs) - rsum (map g cs)) <= c * rsum (map g cs) + INR (length cs) * w.
Proof.
  induction cs as [|v cs IH]; intros H.
  - unfold rsum. simpl. rewrite Rminus_0_r, Rabs_R0. lra.
  - cbn [length]. rewrite S_INR. unfold rsum in *. cbn [map foldr] in *. specialize (IH ltac:(set_solver)).
    specialize (H v ltac:(set_solver)). set (a := foldr Rplus 0 (map f cs)) in *. set (b := foldr Rplus 0 (map g cs)) in *.
    replace (f v + a - (g v + b)) with ((f v - g v) + (a - b)) by ring.
    eapply Rle_trans; [apply Rabs_triang|]. lra.
Qed.
Lemma rsum_div {A} (f : A → R) (n : R) l : rsum (map (λ x, f x / n) l) = rsum (map f l) / n.
Proof.
  unfold rsum. induction l as [|x l IH]; cbn [map foldr]; [unfold Rdiv; lra|]. rewrite IH. unfold Rdiv. lra.
Qed.

Lemma members_near cs outs : Forall (sums_to_one cs) outs →
  Rabs (rsum (map (λ o, rsum (map (given o) cs)) outs) - INR (length outs)) <= unit_roundoff * INR (length outs).
Proof.
  induction 1 as [|out outs (o & -> & Ho & _) _ IH].
  - unfold rsum. simpl. rewrite Rminus_0_r, Rabs_R0. lra.
  - cbn [length map]. rewrite S_INR. unfold rsum at 1. cbn [foldr].
    fold (rsum (map (λ o, rsum (map (given o) cs)) outs)).
    change (given (Some o)) with (probability_of o). set (a := rsum _) in *. set (b := rsum (map _ outs)) in *.
    replace (a + b - (INR (length outs) + 1)) with ((a - 1) + (b - INR (length outs))) by ring.
    eapply Rle_trans; [apply Rabs_triang|]. lra.
Qed.

(** Whatever the members are: if the class probabilities of each add up to one. *)
Theorem C125_average_partial : ∀ E dd td h segs e td' calls tk m m2 es outs m3 cs,
  new_model E dd td (DMining h segs) = (Ok e, td') → mm_method h = "average" → mm_function h = "classification" →
  prepared E h m m2 → segment_models E dd (td ++ mm_lt h) segs es →
  seg_outputs E (seg_tickets tk 0 (length segs)) es m2 outs m3 →
  (0 < Z.of_nat (length segs) <= 2 ^ 53)%Z →
  Forall (λ v, ("probability(" +:+ v +:+ ")") ∈ map of_name (mm_output h) ∧ ("probability(" +:+ v +:+ ")") ∉ map tg_field (mm_targets h)) cs →
  Forall (sums_to_one cs) outs →
  ∃ out, (evaluate E tk (after E calls e) (Some m)).1 = (Ok (Some out), Some m3) ∧
    Rabs (rsum (map (probability_of out) cs) - 1) <= (1 + unit_roundoff) ^ (length segs + 2) - 1 + INR (length cs) * tiny.
Proof.
  intros E dd td h segs e td' calls tk m m2 es outs m3 cs Hn Hm Hf Hp Hs Ho Hlen Hout Hc.
  destruct (C49_average E dd td h segs e td' calls tk m m2 es outs m3 Hn Hm Hp Hs Ho) as (out & He & Hlook).
  exists out. split; [done|].
  assert (length outs = length segs) as Hl.
  { rewrite (seg_outputs_length _ _ _ _ _ _ Ho). unfold seg_tickets. by rewrite map_length, seq_length. }
  set (n := length segs) in *.
  assert (0 < INR n) as Hpos by (apply lt_0_INR; lia).
  set (g := λ v, rsum (map (λ o, given o v) outs) / INR n).
  set (c := (1 + unit_roundoff) ^ S n - 1).
  assert (∀ v, v ∈ cs → Rabs (probability_of out v - g v) <= c * g v + tiny) as Hone.
  { intros v Hv. rewrite Forall_forall in Hout. destruct (Hout v Hv) as [Hin Hnt].
    destruct (members_class E h v cs outs Hf Hv Hc) as (Hle & Vx & Ux & Hr & Ha).
    set (xs := contributions E h _ outs) in *.
    assert (probability_of out v = R64 (fdiv (foldl fadd fzero xs) (f64_of_Z (Z.of_nat n)))) as ->.
    { unfold probability_of. rewrite Hlook, decide_True by (apply elem_of_app; by left).
      unfold sum_total. rewrite no_targets by done. done. }
    assert (valid (fdiv (foldl fadd fzero xs) (f64_of_Z (Z.of_nat n)))) as Vq.
    { apply fdiv_valid; [by apply foldl_add_valid|apply of_Z_valid]. }
    pose proof (average_unit xs n Vx Ux ltac:(lia) Hlen) as Hau. apply (unit_R _ Vq) in Hau as (Fq & _).
    destruct (unit_sum xs fzero 0 eq_refl eq_refl) as [Fs _]; [rewrite R64_zero; lra|lia|done|done|lia|].
    pose proof (mean_error xs n Vx ltac:(lia) Hlen Fs Fq) as Hme. rewrite Ha, Hr in Hme. exact Hme. }
  pose proof (rsum_near (probability_of out) g c tiny cs Hone) as Hall.
  assert (rsum (map g cs) = rsum (map (λ o, rsum (map (given o) cs)) outs) / INR n) as Hg.
  { unfold g. rewrite rsum_div. f_equal. apply (rsum_swap given outs cs). }
  pose proof (members_near cs outs Hc) as Hnear. rewrite Hl in Hnear.
  assert (Rabs (rsum (map g cs) - 1) <= unit_roundoff) as H1.
  { rewrite Hg. set (W := rsum (map _ outs)) in *.
    replace (W / INR n - 1) with ((W - INR n) / INR n) by (field; lra).
    unfold Rdiv. rewrite Rabs_mult, (Rabs_pos_eq (/ INR n)) by (apply Rlt_le, Rinv_0_lt_compat; lra).
    apply (Rle_trans _ (unit_roundoff * INR n * / INR n)); [|right; field; lra].
    apply Rmult_le_compat_r; [apply Rlt_le, Rinv_0_lt_compat; lra|done]. }
  assert (1 <= (1 + unit_roundoff) ^ S n) by apply pow_u_ge1. pose proof unit_pos.
  set (P := rsum (map (probability_of out) cs)) in *. set (G := rsum (map g cs)) in *.
  assert ((1 + unit_roundoff) ^ (n + 2) = (1 + unit_roundoff) ^ S n * (1 + unit_roundoff)) as ->.
  { replace (n + 2)%nat with (S n + 1)%nat by lia. rewrite pow_add. f_equal. lra. }
  replace (P - 1) with ((P - G) + (G - 1)) by ring. eapply Rle_trans; [apply Rabs_triang|].
  assert (G <= 1 + unit_roundoff) as HG by (apply Rabs_le_inv in H1; lra).
  assert (c * G <= c * (1 + unit_roundoff)) by (apply Rmult_le_compat_l; [unfold c; lra|done]).
  unfold c in *. lra.
Qed.
Print Assumptions C125_average_partial.

(** A random forest: every tree has given probabilities. *)
Theorem C125_forest_partial : ∀ E dd td h segs e td' calls tk m m2 es outs m3 cs,
  new_model E dd td (DMining h segs) = (Ok e, td') → mm_method h = "average" → mm_function h = "classification" →
  prepared E h m m2 → segment_models E dd (td ++ mm_lt h) segs es →
  seg_outputs E (seg_tickets tk 0 (length segs)) es m2 outs m3 →
  (0 < Z.of_nat (length segs) <= 2 ^ 53)%Z → NoDup cs →
  Forall (λ v, ("probability(" +:+ v +:+ ")") ∈ map of_name (mm_output h) ∧ ("probability(" +:+ v +:+ ")") ∉ map tg_field (mm_targets h)) cs →
  Forall (λ s, ∃ t, sg_models s = [DTree t] ∧ counting_tree t ∧ classes_in cs t ∧
     ∀ v, v ∈ cs → target_field (tm_schema t) ≠ "probability(" +:+ v +:+ ")") segs →
  Forall (λ o, ∃ v p, dr_get o ("probability(" +:+ v +:+ ")") = Some (GF64 p)) outs →
  ∃ out, (evaluate E tk (after E calls e) (Some m)).1 = (Ok (Some out), Some m3) ∧
    Rabs (rsum (map (probability_of out) cs) - 1) <= (1 + unit_roundoff) ^ (length segs + 2) - 1 + INR (length cs) * tiny.
Proof.
  intros E dd td h segs e td' calls tk m m2 es outs m3 cs Hn Hm Hf Hp Hs Ho Hlen Hnd Hout Hsegs Hgiven.
  apply (C125_average_partial E dd td h segs e td' calls tk m m2 es outs m3 cs Hn Hm Hf Hp Hs Ho Hlen Hout).
  clear -Hs Ho Hsegs Hgiven Hnd. revert Ho. generalize (seg_tickets tk 0 (length segs)). intros tks H. revert tks m2 outs H Hgiven.
  induction Hs as [|tdc s segs d e0 es td1 Hd Hn0 Hs IH]; intros tks m2 outs H Hgiven;
    inversion H as [|tk0 tks' ? ? ? out ma outs' ? Ho Hr]; subst; [constructor|].
  apply Forall_cons in Hsegs as [(t & Hr' & Ht & Hcs & Hne) Hsegs]. rewrite Hd in Hr'. injection Hr' as ->.
  apply Forall_cons in Hgiven as [(v & p & Hv) Hgiven]. constructor; [|by eapply IH].
  destruct out as [out|]; [|done]. exists out. split; [done|].
  assert ((evaluate E tk0 (after E [] e0) (Some m2)).1.1 = Ok (Some out)) as He by (change (after E [] e0) with e0; by rewrite Ho).
  split.
  - by apply (C125_tree_partial E dd tdc t e0 td1 [] tk0 (Some m2) out cs v p).
  - intros w x Hw Hx.
    destruct (tree_sums E dd tdc t e0 td1 [] tk0 (Some m2) out cs Hn0 Ht Hcs He) as (sc & ((Hg & _) & Hp' & _) & ->).
    rewrite class_row_lookup in Hx. destruct (last _) as [q|] eqn:Hl.
    + apply last_filter_some in Hl as (l1 & l2 & Hmm & _ & _).
      assert (q ∈ map (λ s, (prob_key (sc_value s), GF64 (sc_prob s))) sc) as Hin by (rewrite Hmm; set_solver).
      apply elem_of_list_In, in_map_iff in Hin as (y & <- & Hy). apply elem_of_list_In in Hy. injection Hx as <-.
      exists (sc_prob y). split; [done|]. rewrite Forall_forall in Hg. by apply Hg.
    + apply lookup_singleton_Some in Hx as [Hx _]. by destruct (Hne w Hw).
Qed.
Print Assumptions C125_forest_partial.

(** Trees of the default strategy whose root is True always answer. *)
Definition answering_tree (t : tree_model) : Prop :=
  tm_strategy t ∉ ["nullPrediction"; "aggregateNodes"; "weightedConfidence"; "defaultChild"; "lastPrediction"] ∧
  m_pred (tm_node t) = PTrue ∧ tm_notrue t ≠ "returnNullPrediction".

Lemma answering_gives E dd td t e td' tk r o r' : new_model E dd td (DTree t) = (Ok e, td') →
  counting_tree t → answering_tree t → (evaluate E tk e r).1 = (Ok o, r') →
  ∃ v p, dr_get o ("probability(" +:+ v +:+ ")") = Some (GF64 p).
Proof.
  intros Hn (Hf & _ & Hp & Hpc & _) (Hst & Hroot & Hnt) He.
  destruct (ok_input E dd td t e td' [] tk r o Hn) as [r2 Hi].
  { change (after E [] e) with e. by rewrite He. }
  destruct (C15_strategy_none E dd td t e td' [] tk r r2 Hn Hst Hp Hi) as [H1 _].
  destruct H1 as [[leaf Hl] Hev]. { exists PTrue. rewrite Hroot. done. }
  specialize (Hev leaf Hl). change (after E [] e) with e in Hev. rewrite He in Hev. injection Hev as Hr _.
  destruct (none_everywhere _ plain_counts _ leaf Hl Hpc) as ((Hd & _) & Hnd & _).
  unfold reported, report in Hr. rewrite decide_True in Hr by done. injection Hr as ->.
  unfold node_dist, doc_dist. rewrite decide_False by naive_solver. rewrite decide_True by done.
  destruct (m_dists leaf) as [|d ds]; [done|]. exists (sd_value d). eexists. unfold dr_get.
  set (s := _ <$> d :: ds). change ("probability(" +:+ sd_value d +:+ ")") with (prob_key (sc_value (Score (sd_value d) (default (SpecTree.share (d :: ds) d) (sd_conf d))
    (default (SpecTree.share (d :: ds) d) (sd_prob d)) (sd_count d)))).
  apply class_row_prob_nodup.
  - unfold s. rewrite <- list_fmap_compose. exact Hnd.
  - unfold s. rewrite fmap_cons. by left.
Qed.

Theorem C125_answering_forest_partial : ∀ E dd td h segs e td' calls tk m out cs,
  new_model E dd td (DMining h segs) = (Ok e, td') → mm_method h = "average" → mm_function h = "classification" →
  (0 < Z.of_nat (length segs) <= 2 ^ 53)%Z → NoDup cs →
  Forall (λ v, ("probability(" +:+ v +:+ ")") ∈ map of_name (mm_output h) ∧ ("probability(" +:+ v +:+ ")") ∉ map tg_field (mm_targets h)) cs →
  Forall (λ s, ∃ t, sg_models s = [DTree t] ∧ counting_tree t ∧ answering_tree t ∧ classes_in cs t ∧
     ∀ v, v ∈ cs → target_field (tm_schema t) ≠ "probability(" +:+ v +:+ ")") segs →
  (evaluate E tk (after E calls e) (Some m)).1.1 = Ok (Some out) →
  Rabs (rsum (map (probability_of out) cs) - 1) <= (1 + unit_roundoff) ^ (length segs + 2) - 1 + INR (length cs) * tiny.
Proof.
  intros E dd td h segs e td' calls tk m out cs Hn Hm Hf Hlen Hnd Hout Hsegs Ho.
  pose proof Ho as Ho'. rewrite (history_independent E _ _ _ _ _ calls tk _ Hn) in Ho'.
  destruct (ok_prepared E dd td h segs e td' tk m _ Hn Ho') as [m2 Hp]. clear Ho'.
  destruct (mining_parts E dd td h segs e td' Hn) as (es & He & Hs & Hl).
  destruct (first_failure E dd tk es 0 m2) as [(outs & m3 & H)|(l1 & e' & l2 & outs & m3 & o' & r4 & -> & H & Hev & Hno)].
  { intros e' He'. by eapply segment_models_in. }
  2:{ exfalso. simpl in Hev.
      rewrite (C50_failing_segment_sum E dd td h segs e td' calls tk m m2 l1 e' l2 outs m3 o' r4 Hn) in Ho;
        [by eapply Hno|rewrite Hm; set_solver|done..]. }
  rewrite Hl in H.
  destruct (C125_forest_partial E dd td h segs e td' calls tk m m2 es outs m3 cs Hn Hm Hf Hp Hs H Hlen Hnd Hout) as (out' & Hev & Hb).
  - eapply Forall_impl; [exact Hsegs|]. intros s (t & ? & ? & _ & ? & ?). by exists t.
  - clear -Hs H Hsegs. revert H. generalize (seg_tickets tk 0 (length segs)). intros tks H. revert tks m2 outs H.
    induction Hs as [|tdc s segs d e0 es td1 Hd Hn0 Hs IH]; intros tks m2 outs H;
      inversion H as [|tk0 tks' ? ? ? out ma outs' ? Ho Hr]; subst; [constructor|].
    apply Forall_cons in Hsegs as [(t & Hr' & Ht & Ha & _) Hsegs]. rewrite Hd in Hr'. injection Hr' as ->.
    constructor; [|by eapply IH]. by eapply answering_gives.
  - rewrite Hev in Ho. by injection Ho as <-.
Qed.
Print Assumptions C125_answering_forest_partial.

Lemma two_leaves_counting : ∀ st, st ∉ ["defaultChild"; "weightedConfidence"] →
  counting_tree (two_leaves st) ∧ classes_in ["yes"; "no"] (two_leaves st).
Proof.
  intros st Hst. destruct C105_example as (H & _). destruct (H st) as (Hp & _ & Hw & Hall).
    split; [|unfold classes_in, two_leaves; cbn [tm_node]; everywhere_tac ltac:(idtac; repeat constructor; set_solver)].
    split; [done|]. split; [done|]. split; [done|]. split; [|done].
    assert (everywhere_doc (λ m, NoDup (map sd_value (m_dists m)) ∧ Forall (λ d, sd_prob d = None) (m_dists m)) (tm_node (two_leaves st))) as Hb.
    { unfold two_leaves. cbn [tm_node].
      everywhere_tac ltac:(idtac; split; [apply (bool_decide_unpack _); by vm_compute|by repeat constructor]). }
    clear -Hw Hb. revert Hw Hb. generalize (tm_node (two_leaves st)). clear st. intros m.
    induction m as [i dc sc n ds ns q IH] using mnode_rect'. intros Hw Hb.
    inversion Hw as [? Hw1 Hw2]; subst. inversion Hb as [? [Hb1 Hb2] Hb3]; subst. constructor; [done|].
    cbn [m_nodes] in *. rewrite Forall_forall in *. intros c Hc. apply IH; [done|by apply Hw2|by apply Hb3].
Qed.

(** A member that gives no prediction counts like one that gives every class the
    probability 0: of two trees one answers 9/14 and 5/14, the other nothing. *)
Theorem C125_silent_member_refuted : ∃ E dd h segs e td' r out a b,
  mm_method h = "average" ∧ mm_function h = "classification" ∧ new_model E dd [] (DMining h segs) = (Ok e, td') ∧
  Forall (λ s, ∃ t, sg_models s = [DTree t] ∧ counting_tree t ∧ classes_in ["yes"; "no"] t) segs ∧
  (evaluate E [] e r).1.1 = Ok (Some out) ∧
  out !! "probability(yes)" = Some (GF64 a) ∧ out !! "probability(no)" = Some (GF64 b) ∧ fadd a b = fl "0.5".
Proof.
  pose proof two_leaves_counting as Ht.
  set (d := mining "classification" "average" [] [OF "probability(yes)" "" ""; OF "probability(no)" "" ""] []
    [DTree (two_leaves "nullPrediction"); DTree (two_leaves "lastPrediction")]).
  exists go_ext, golf_dd, (MiningHeader "classification" "average" [] [] [OF "probability(yes)" "" ""; OF "probability(no)" "" ""] [] None),
    (map seg [DTree (two_leaves "nullPrediction"); DTree (two_leaves "lastPrediction")]).
  exists (built go_ext golf_dd d), (new_model go_ext golf_dd [] d).2, (Some ∅).
  exists {["probability(yes)" := GF64 (fl "0.32142857142857145"); "probability(no)" := GF64 (fl "0.17857142857142858")]}.
  exists (fl "0.32142857142857145"), (fl "0.17857142857142858").
  split; [done|]. split; [done|]. split; [apply built_ok; by vm_compute|].
  split. { constructor; [|constructor; [|constructor]]; (eexists; split; [done|]; apply Ht; set_solver). }
  split; [apply eval_out; by vm_compute|]. split; [done|]. split; [done|by vm_compute].
Qed.
Print Assumptions C125_silent_member_refuted.

(** The default child of a tree with missingValuePenalty 0.8: 0.2 and 0.6. *)
Theorem C125_penalty_refuted : ∃ E dd t e td' r out a b,
  new_model E dd [] (DTree t) = (Ok e, td') ∧ tm_function t = "classification" ∧ tm_strategy t = "defaultChild" ∧
  everywhere_doc (λ m, m_pred m ≠ PNone) (tm_node t) ∧ everywhere_doc whole_counts (tm_node t) ∧
  (evaluate E [] e r).1.1 = Ok (Some out) ∧
  out !! "probability(yes)" = Some (GF64 a) ∧ out !! "probability(no)" = Some (GF64 b) ∧ fadd a b = fl "0.8".
Proof.
  destruct C105_example as (H & _). destruct (H "defaultChild") as (Hp & _ & Hw & _).
  exists go_ext, golf_dd, (two_leaves "defaultChild"), (built go_ext golf_dd (DTree (two_leaves "defaultChild"))),
    (new_model go_ext golf_dd [] (DTree (two_leaves "defaultChild"))).2, (Some ∅).
  exists (class_row "play" [Score "yes" fzero (fl "0.2") fzero; Score "no" fzero (fl "0.6000000000000001") fzero]), (fl "0.2"), (fl "0.6000000000000001").
  split; [apply built_ok; by vm_compute|]. split; [done|]. split; [done|]. split; [done|]. split; [done|].
  split; [apply run_out; by vm_compute|]. split; [by vm_compute|]. split; by vm_compute.
Qed.
Print Assumptions C125_penalty_refuted.

(** Two trees asked about humidity 80: 1/4 and 3/4 each. *)
Definition two_trees : list (segment doc_model) := map seg [DTree (two_leaves "none"); DTree (two_leaves "none")].
Example C125_example :
  (0 < Z.of_nat (length two_trees) <= 2 ^ 53)%Z ∧ NoDup ["yes"; "no"] ∧
  Forall (λ s, ∃ t, sg_models s = [DTree t] ∧ counting_tree t ∧ answering_tree t ∧ classes_in ["yes"; "no"] t ∧
     ∀ v, v ∈ ["yes"; "no"] → target_field (tm_schema t) ≠ "probability(" +:+ v +:+ ")") two_trees ∧
  dumped (run go_ext golf_dd
    (mining "classification" "average" [] [OF "probability(yes)" "" ""; OF "probability(no)" "" ""] []
       [DTree (two_leaves "none"); DTree (two_leaves "none")]) (Some {["humidity" := GF64 (fl "80")]})) =
  Some (Ok (dump (Some {["probability(yes)" := GF64 (fl "0.25"); "probability(no)" := GF64 (fl "0.75")]}))).
Proof.
  split; [cbn; lia|]. split; [apply (bool_decide_unpack _); by vm_compute|]. split; [|by vm_compute].
  destruct (two_leaves_counting "none") as [H1 H2]; [set_solver|].
  assert (∃ t, sg_models (seg (DTree (two_leaves "none"))) = [DTree t] ∧ counting_tree t ∧ answering_tree t ∧ classes_in ["yes"; "no"] t ∧
     ∀ v, v ∈ ["yes"; "no"] → target_field (tm_schema t) ≠ "probability(" +:+ v +:+ ")") as H.
  { exists (two_leaves "none"). split; [done|]. split; [done|]. split; [|split; [done|intros v _; done]].
    split; [cbn; set_solver|]. split; [done|]. done. }
  by repeat (apply Forall_cons_2 || apply Forall_nil_2).
Qed.
