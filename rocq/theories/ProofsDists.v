(** Proofs about the order of score distributions. *)
From Coq Require Import Reals Lra.
From Flocq Require Import Core.Core IEEE754.BinarySingleNaN.
From Verif Require Import Base Strconv Value Doc Expr Pred Tree Regression Model Lib FloatLib SpecPred ProofsPred
  SpecTree ProofsTree ProofsOutput ProofsEval ProofsDoc ProofsWhole ProofsClass ProofsSim
  SpecConstruct ProofsConstruct SpecEssence ProofsEssence SpecEquiv ProofsEquiv RealLib AccLib ForestLib SpecRecords ProofsRecords
  SpecOrder ProofsOrder SpecDists.
Local Open Scope R_scope.

(** ** Shares *)
Lemma sum_pos zs : (∀ z, z ∈ zs → (0 <= z)%Z) → (0 <= foldr Z.add 0 zs)%Z.
Proof.
  induction zs as [|z zs IH]; intros Hz; [done|]. cbn [foldr]. pose proof (Hz z ltac:(set_solver)).
  pose proof (IH ltac:(set_solver)). lia.
Qed.
Lemma whole_total zs : (∀ z, z ∈ zs → (0 <= z)%Z) → ∀ a, (0 <= a)%Z → (a + foldr Z.add 0%Z zs <= 2 ^ 53)%Z →
  foldl fadd (f64_of_Z a) (f64_of_Z <$> zs) = f64_of_Z (a + foldr Z.add 0%Z zs).
Proof.
  induction zs as [|z zs IH]; intros Hz a Ha Hle; [simpl; by rewrite Z.add_0_r|].
  rewrite fmap_cons. cbn [foldl foldr] in *. pose proof (Hz z ltac:(set_solver)).
  pose proof (sum_pos zs ltac:(set_solver)) as Hpos.
  rewrite of_Z_add by lia. rewrite IH; [f_equal; lia|set_solver|lia..].
Qed.
Lemma total_as_sum ds : total_records ds = foldl fadd (f64_of_Z 0) (sd_count <$> ds).
Proof.
  unfold total_records. change (f64_of_Z 0) with fzero. generalize fzero as a. induction ds as [|d ds IH]; intros a; [done|].
  rewrite fmap_cons. cbn [foldl]. apply IH.
Qed.
Lemma sum_perm (zs1 zs2 : list Z) : zs1 ≡ₚ zs2 → foldr Z.add 0%Z zs1 = foldr Z.add 0%Z zs2.
Proof. induction 1; cbn [foldr]; lia. Qed.
Lemma whole_total_perm ds1 ds2 zs : ds1 ≡ₚ ds2 → (∀ z, z ∈ zs → (0 <= z)%Z) → (foldr Z.add 0%Z zs <= 2 ^ 53)%Z →
  sd_count <$> ds1 = f64_of_Z <$> zs → total_records ds1 = total_records ds2.
Proof.
  intros Hp Hz Hle Hc. rewrite !total_as_sum.
  assert (∃ zs2, zs ≡ₚ zs2 ∧ sd_count <$> ds2 = f64_of_Z <$> zs2) as (zs2 & Hp2 & Hc2).
  { assert (f64_of_Z <$> zs ≡ₚ sd_count <$> ds2) as H by by rewrite <- Hc, Hp.
    symmetry in H. apply Permutation_map_inv in H as (zs2 & Heq & H2). exists zs2. by split. }
  rewrite Hc, Hc2, !whole_total; rewrite <- ?(sum_perm _ _ Hp2); try done.
  intros z Hin. apply Hz. by rewrite Hp2.
Qed.
Lemma convert_perm ds1 ds2 : ds1 ≡ₚ ds2 → exact_shares ds1 → convert_dists ds1 ≡ₚ convert_dists ds2.
Proof.
  intros Hp [Hx|(zs & Hz & Hle & Hc)]; unfold convert_dists; cbn zeta.
  - rewrite <- Hp. generalize (total_records ds1) as t1, (total_records ds2) as t2. intros t1 t2.
    apply reflexive_eq. apply list_fmap_ext'. intros d Hd. destruct (Hx d Hd) as [[c ->] [p ->]]. done.
  - rewrite <- (whole_total_perm ds1 ds2 zs) by done. by rewrite Hp.
Qed.

(** ** Nodes *)
Inductive resorted : node → node → Prop :=
| rs_node id dc cs1 cs2 ds1 ds2 t s : Forall2 resorted cs1 cs2 → ds1 ≡ₚ ds2 → NoDup (sc_value <$> ds1) →
    resorted (Node id dc cs1 ds1 t s) (Node id dc cs2 ds2 t s).

Lemma new_node_resorted E ft m1 : ∀ m2 n1, classes_reordered m1 m2 → new_node E ft m1 = Ok n1 →
  ∃ n2, new_node E ft m2 = Ok n2 ∧ resorted n1 n2.
Proof.
  induction m1 as [id dc sc c ds ns p IH] using mnode_rect'. intros m2 n1 Hr.
  inversion Hr as [? ? ? ? ? ds2 ? ns2 ? Hp Hnd Hx Hns]; subst. cbn [new_node].
  intros (cs & Hcs & (q & -> & [= <-])%rbind_ok)%rbind_ok.
  assert (∃ cs2, rmap (new_node E ft) ns2 = Ok cs2 ∧ Forall2 resorted cs cs2) as (cs2 & -> & Hcs2).
  { clear -IH Hcs Hns. revert cs Hcs. induction Hns as [|a b l1 l2 Hab _ IHl]; intros cs Hcs.
    { simpl in Hcs. injection Hcs as <-. exists []. by split. }
    apply Forall_cons in IH as [Ha IH]. cbn [rmap] in Hcs. apply rbind_ok in Hcs as (x & Hx & (xs & Hxs & [= <-])%rbind_ok).
    destruct (Ha _ _ Hab Hx) as (y & Hy & Hxy). destruct (IHl IH _ Hxs) as (ys & Hys & Hxys).
    exists (y :: ys). cbn [rmap]. rewrite Hy, Hys. split; [done|by constructor]. }
  cbn [rbind]. eexists. split; [done|]. constructor; [done|by apply convert_perm|by rewrite convert_dists_values].
Qed.

Lemma reordered_nil : reordered [] [].
Proof. by left. Qed.
Lemma reordered_length s s' : reordered s s' → length s = length s'.
Proof. intros H. by rewrite (reordered_perm _ _ H). Qed.

Lemma wc_add_swap w a x y : sc_value x ≠ sc_value y → wc_add w (wc_add w a x) y = wc_add w (wc_add w a y) x.
Proof. intros Hn. unfold wc_add. rewrite !lookup_insert_ne by done. by rewrite insert_commute. Qed.
Lemma wc_add_perm w l1 l2 : l1 ≡ₚ l2 → NoDup (sc_value <$> l1) → ∀ a, foldl (wc_add w) a l1 = foldl (wc_add w) a l2.
Proof.
  induction 1 as [|s l1 l2 Hp IH|x y l|l1 l2 l3 Hp1 IH1 Hp2 IH2]; intros Hnd a; [done|..].
  - rewrite fmap_cons in Hnd. apply NoDup_cons in Hnd as [_ Hnd]. cbn [foldl]. by apply IH.
  - rewrite !fmap_cons in Hnd. apply NoDup_cons in Hnd as [Hy _]. cbn [foldl]. rewrite wc_add_swap; [done|]. set_solver.
  - rewrite IH1 by done. apply IH2. by rewrite <- Hp1.
Qed.

Section sorted.
  Context (E : Ext) (cx : tctx) (r : datarow).

  Lemma output_dist_sorted n1 n2 : resorted n1 n2 → reordered (output_dist cx n1) (output_dist cx n2).
  Proof.
    intros [id dc cs1 cs2 ds1 ds2 t s Hcs Hp Hnd]. rewrite !output_dist_values.
    rewrite <- (Forall2_length _ _ _ Hcs), <- (Permutation_length Hp). destruct (_ && _); [by left|].
    destruct (Nat.ltb _ _); [by right|by left].
  Qed.
  Lemma children_sorted {A B} (R : A → B → Prop) (f : node → res A) (g : node → res B) cs1 cs2 :
    Forall (λ c1, ∀ c2, resorted c1 c2 → both R (f c1) (g c2)) cs1 → Forall2 resorted cs1 cs2 →
    Forall2 (λ a b, both R (f a) (g b)) cs1 cs2.
  Proof.
    intros H1 H2. induction H2 as [|a b l1 l2 Hab _ IH]; [constructor|]. apply Forall_cons in H1 as [? ?].
    constructor; auto.
  Qed.
  Ltac start n1 n2 :=
    induction n1 as [id dc cs1 ds1 t s1 IH] using node_rect'; intros n2 Hn; pose proof (output_dist_sorted _ _ Hn) as Hout;
    inversion Hn as [? ? ? cs2 ? ds2 ? ? Hcs Hds Hnd]; subst.

  Lemma eval_none_sorted n1 : ∀ n2, resorted n1 n2 → both (answers reordered) (eval_none E cx r n1) (eval_none E cx r n2).
  Proof.
    start n1 n2. cbn [eval_none]. destruct (run_test _ _ _ _) as [[]| |]; simpl; try done; try (split; [by left|done]).
    apply both_first_true; [by split|]. by apply children_sorted.
  Qed.
  Lemma eval_null_sorted n1 : ∀ n2, resorted n1 n2 → both (answers reordered) (eval_null E cx r n1) (eval_null E cx r n2).
  Proof.
    start n1 n2. cbn [eval_null]. destruct (run_test _ _ _ _) as [[]| |]; simpl; try done; try (split; [by left|done]).
    apply both_first_known; [by split|by left|]. by apply children_sorted.
  Qed.
  Lemma eval_last_sorted n1 : ∀ n2, resorted n1 n2 → both (answers reordered) (eval_last E cx r n1) (eval_last E cx r n2).
  Proof.
    start n1 n2. cbn [eval_last]. destruct (run_test _ _ _ _) as [v| |]; try done. cbn [rbind].
    match goal with |- both _ (match v with RT => ?x | _ => _ end) (match v with RT => ?y | _ => _ end) =>
      assert (both (answers reordered) x y) as H; [|destruct v; [exact H|exact H|split; [by left|done]]] end.
    eapply both_bind; [apply both_rmap, children_sorted; [exact IH|done]|]. intros rs1 rs2 Hrs.
    destruct (scan_related reordered rs1 rs2 Hrs (false, []) (false, []) eq_refl reordered_nil) as [H1 H2].
    destruct (foldl _ _ rs1) as [u d1], (foldl _ _ rs2) as [u' d2]. simpl in H1, H2. subst u'.
    rewrite <- (reordered_length _ _ H2). destruct (_ && _); by split.
  Qed.
  Lemma eval_default_sorted n1 : ∀ n2, resorted n1 n2 → both (answers reordered) (eval_default E cx r n1) (eval_default E cx r n2).
  Proof.
    start n1 n2. cbn [eval_default]. destruct (run_test _ _ _ _) as [v| |]; try done. cbn [rbind].
    match goal with |- both _ (match v with RT => ?x | _ => _ end) (match v with RT => ?y | _ => _ end) =>
      assert (both (answers reordered) x y) as H; [|destruct v; [exact H|exact H|split; [by left|done]]] end.
    eapply both_bind; [apply both_rmap, children_sorted; [exact IH|done]|]. intros rs1 rs2 Hrs.
    assert (mrel reordered (foldl (λ m '(c, x), <[n_id c := x.1]> m) ∅ (zip cs1 rs1))
      (foldl (λ m '(c, x), <[n_id c := x.1]> m) ∅ (zip cs2 rs2))) as Hm.
    { generalize (mrel_empty reordered). generalize (∅ : gmap string (list score)) at 1 3 as m1.
      generalize (∅ : gmap string (list score)) as m2. clear -Hcs Hrs. revert rs1 rs2 Hrs.
      induction Hcs as [|a b l1 l2 Hab _ IH]; intros rs1 rs2 Hrs m2 m1 Hm; [done|].
      destruct Hrs as [|x y rs1 rs2 [Hx _] Hrs]; [done|]. cbn [zip zip_with foldl]. apply IH; [done|].
      destruct Hab. cbn [n_id]. by apply mrel_insert. }
    destruct (scan_related reordered rs1 rs2 Hrs (false, []) (false, []) eq_refl reordered_nil) as [H1 H2].
    destruct (foldl scan_step _ rs1) as [u d1], (foldl scan_step _ rs2) as [u' d2]. simpl in H1, H2. subst u'.
    rewrite <- (reordered_length _ _ H2). destruct (_ && _); [by split|]. destruct u; [|by split].
    destruct (Hm dc) as [x y Hxy|]; [|split; [by left|done]]. split; [|done]. simpl.
    destruct Hxy as [->|[Hp Hx]]; [by left|right]. split; [by rewrite Hp|]. by rewrite <- list_fmap_compose.
  Qed.
  Lemma collect_sorted cs1 cs2 : Forall2 resorted cs1 cs2 → ∀ rs1 rs2 c m1 m2 t,
    Forall2 (answers reordered) rs1 rs2 → mrel reordered m1 m2 →
    let x := foldl wc_collect (c, m1, t) (zip cs1 rs1) in
    let y := foldl wc_collect (c, m2, t) (zip cs2 rs2) in
    x.1.1 = y.1.1 ∧ mrel reordered x.1.2 y.1.2 ∧ x.2 = y.2.
  Proof.
    induction 1 as [|a b l1 l2 Hab Hl IH]; intros rs1 rs2 c m1 m2 t Hrs Hm; [done|].
    destruct Hrs as [|[s v] [s' v'] rs1 rs2 [Hs Hv] Hrs]; [done|]. simpl in Hs, Hv. subst v'.
    cbn [zip zip_with foldl]. destruct Hab. destruct v; cbn [wc_collect n_id n_score]; apply IH; try done; by apply mrel_insert.
  Qed.
  Lemma eval_weighted_sorted n1 : ∀ n2, resorted n1 n2 → ∀ tk,
    both (answers reordered) (eval_weighted E cx r tk n1) (eval_weighted E cx r tk n2).
  Proof.
    start n1 n2. intros tk. cbn [eval_weighted]. destruct (run_test _ _ _ _) as [v| |]; try done. cbn [rbind].
    match goal with |- both _ (match v with RT => ?x | _ => _ end) (match v with RT => ?y | _ => _ end) =>
      assert (both (answers reordered) x y) as H; [|destruct v; [exact H|exact H|split; [by right|done]]] end.
    eapply both_bind.
    { apply (both_rmapi (answers reordered)). clear -IH Hcs.
      induction Hcs as [|a b l1 l2 Hab Hl IHl]; [constructor|]. apply Forall_cons in IH as [Ha IH].
      constructor; [|by apply IHl]. intros i. by apply Ha. }
    intros rs1 rs2 Hrs.
    destruct (scan_related reordered rs1 rs2 Hrs (false, []) (false, []) eq_refl reordered_nil) as [H1 H2].
    destruct (foldl scan_step _ rs1) as [u d1], (foldl scan_step _ rs2) as [u' d2]. simpl in H1, H2. subst u'.
    destruct (collect_sorted cs1 cs2 Hcs rs1 rs2 ∅ ∅ ∅ fzero Hrs (mrel_empty _)) as (Hc & Hm & Ht).
    destruct (foldl wc_collect _ (zip cs1 rs1)) as [[c1 m1] t1], (foldl wc_collect _ (zip cs2 rs2)) as [[c2 m2] t2].
    simpl in Hc, Hm, Ht. subst c2 t2.
    rewrite <- (reordered_length _ _ H2). destruct (_ && _); [by split|]. destruct u; [|by split].
    split; [|done]. left. cbn [fst]. do 2 f_equal.
    pose proof (map_range_rel _ E (0%nat :: tk) m1 m2 Hm) as Hr. revert Hr.
    generalize (map_range E (0%nat :: tk) m1) as l1. generalize (map_range E (0%nat :: tk) m2) as l2.
    intros l2 l1 Hl. generalize (∅ : gmap string score) as a.
    induction Hl as [|[i x] [j y] l1 l2 [Hi Hxy] _ IHl]; intros a; [done|]. simpl in Hi, Hxy. subst j. cbn [foldl].
    rewrite IHl. f_equal. destruct Hxy as [->|[Hp Hx]]; [done|by apply wc_add_perm].
  Qed.
End sorted.

Section aggregated.
  Context (E : Ext) (cx : tctx) (r : datarow).

  Lemma eval_aggregate_sorted n1 : NoDup (target_values (cx_dd cx) (cx_target cx)) → ∀ n2, resorted n1 n2 → scaled_node 1 n1 n1 →
    node_records n1 <= IZR (2 ^ 53) → ∀ tk,
    both (answers (good (node_records n1))) (eval_aggregate E cx r tk n1) (eval_aggregate E cx r tk n2).
  Proof.
    intros Hnt. induction n1 as [id dc cs ds t s IH] using node_rect'. intros n2 Hr2 Hn Hle tk.
    pose proof (output_dist_sorted cx _ _ Hr2) as Hos.
    inversion Hr2 as [? ? ? cs2 ? ds2 ? ? Hcs2 Hds2 Hnd]; subst.
    assert (good (node_records (Node id dc cs ds t s)) (output_dist cx (Node id dc cs ds t s)) (output_dist cx (Node id dc cs2 ds2 t s))) as Hout.
    { split; [done|]. split; [apply whole_self; by apply (output_dist_scaled cx 1)|by apply (output_dist_records cx 1 ltac:(lia) _ _ Hn)]. }
    set (W := node_records (Node id dc cs ds t s)) in *.
    inversion Hn as [? ? ? ? ? ? ? ? ? Hcs Hds Hs]; subst.
    cbn [eval_aggregate]. destruct (run_test E _ _ _) as [v| |]; try done. cbn [rbind].
    match goal with |- both ?R (match v with RT => ?x | _ => _ end) (match v with RT => ?y | _ => _ end) =>
      assert (both R x y) as H; [|destruct v; [exact H|exact H|split; done]] end.
    set (w := rsum (map node_records cs)).
    pose proof (children_records_pos 1 ltac:(lia) _ _ Hcs) as Hw0. fold w in Hw0.
    assert (w <= W) as HwW.
    { unfold W. cbn [node_records]. fold w. pose proof (times_R 1 _ _ ltac:(lia) (proj2 Hs)).
      pose proof (scores_records_pos 1 _ _ ltac:(lia) Hds). lra. }
    eapply (both_bind (λ rs1 rs2, Forall2 (answers (good w)) rs1 rs2 ∧ scores_records (concat rs1.*1) <= w)).
    { assert (w <= IZR (2 ^ 53)) as Hle' by lra. clear -IH Hcs Hcs2 Hle' Hnt. subst w. generalize 1%nat as i. revert Hcs2. revert cs2.
      induction cs as [|c cs IHl]; intros cs2 Hcs2 i; inversion Hcs2 as [|? c' ? cs2' Hcc Hcs2']; subst; cbn [rmapi].
      { split; [by apply Forall2_nil|]. unfold scores_records, rsum. simpl. lra. }
      apply Forall_cons in IH as [Ha IH]. inversion Hcs as [|? ? ? ? Hab Hl]; subst.
      unfold rsum in Hle' |- *. cbn [map foldr] in Hle' |- *. fold (rsum (map node_records cs)) in Hle' |- *.
      pose proof (children_records_pos 1 ltac:(lia) _ _ Hl) as Hpos. pose proof (node_records_pos 1 c ltac:(lia) c Hab) as Hpa.
      eapply both_bind; [apply Ha; [done|done|lra]|]. intros x y Hxy.
      eapply both_bind; [apply IHl; [done|done|lra|done]|]. intros xs ys [H1 H2]. destruct Hxy as [(Hs & Hwh & Hsr) Hv]. split.
      - constructor; [split; [|done]; split; [done|split; [done|lra]]|]. eapply Forall2_impl; [exact H1|].
        intros c1 c2 [(? & ? & ?) ?]. split; [|done]. split; [done|split; [done|lra]].
      - rewrite fmap_cons. cbn [concat]. unfold scores_records in *. rewrite map_app, rsum_app'. lra. }
    intros rs1 rs2 [Hrs Hcat].
    destruct (scan_related _ rs1 rs2 Hrs (false, []) (false, []) eq_refl) as [H1 (H2 & H3 & H4)].
    { split; [by left|]. split; [constructor|done]. }
    destruct (foldl scan_step _ rs1) as [u d1], (foldl scan_step _ rs2) as [u' d2]. simpl in H1, H2, H3, H4. subst u'.
    rewrite <- (Permutation_length (reordered_perm _ _ H2)). destruct (_ && _).
    { split; [|done]. split; [done|]. split; [done|]. simpl. lra. }
    destruct u; [|by split].
    assert (concat rs1.*1 ≡ₚ concat rs2.*1 ∧ Forall (λ s, whole_score s) (concat rs1.*1)) as [Hperm Hwh].
    { clear -Hrs. induction Hrs as [|x y l1 l2 [(Hx & Hw & _) _] _ [IH1 IH2]]; [by split; [|constructor]|]. rewrite !fmap_cons. cbn [concat].
      split; [by rewrite (reordered_perm _ _ Hx), IH1|by apply Forall_app]. }
    rewrite <- (an_add_perm _ _ Hperm ∅ fzero Hwh (mrel_empty _) (times_zero 1)); [|done|rewrite R64_zero; lra].
    destruct (an_add_scaled 1 ltac:(lia) _ _ (proj1 (whole_self _) Hwh) ∅ ∅ fzero fzero (mrel_empty _) (times_zero 1)) as (Ha & Ht & Hsum).
    { done. } { rewrite R64_zero. lra. }
    destruct (foldl an_add _ (concat rs1.*1)) as [agg tot]. simpl in Ha, Ht, Hsum.
    split; [|done]. cbn [fst]. set (f := λ '(_, a), _ : score).
    assert (∀ tk, f <$> map_range E tk agg ≡ₚ f <$> map_to_list agg) as Hf.
    { intros tk'. apply fmap_Permutation, map_range_perm. }
    split; [by left|]. split.
    - rewrite Hf. apply Forall_fmap, Forall_forall. intros [i x] Hx%elem_of_map_to_list. pose proof (Ha i) as Hi. rewrite Hx in Hi.
      inversion Hi as [? ? [_ Hc]|]; subst. exact Hc.
    - rewrite (records_perm _ _ (Hf _)).
      assert (∀ l : list (string * score), scores_records (f <$> l) = rsum (map (λ p : string * score, R64 (sc_count p.2)) l)) as Hm.
      { unfold scores_records, rsum. induction l as [|[i x] l IHl]; [done|]. rewrite fmap_cons. cbn [map foldr]. by rewrite IHl. }
      rewrite Hm. fold (msum agg). rewrite Hsum. lra.
  Qed.
End aggregated.

Lemma node_evaluate_sorted E cx r st tk n1 n2 : resorted n1 n2 →
  (st = "aggregateNodes" → NoDup (target_values (cx_dd cx) (cx_target cx)) ∧ scaled_node 1 n1 n1 ∧ node_records n1 <= IZR (2 ^ 53)) →
  both (answers reordered) (node_evaluate E cx st r tk n1) (node_evaluate E cx st r tk n2).
Proof.
  intros Hn Hag. unfold node_evaluate. destruct (_ =s _); [by apply eval_null_sorted|].
  destruct (String.eqb_spec st "aggregateNodes") as [->|_].
  { destruct (Hag eq_refl) as (H1 & H2 & H3). pose proof (eval_aggregate_sorted E cx r n1 H1 n2 Hn H2 H3 tk) as H.
    destruct (eval_aggregate _ _ _ _ n1), (eval_aggregate _ _ _ _ n2); try done. destruct H as [[H _] ?]. by split. }
  destruct (_ =s _); [by apply eval_weighted_sorted|]. destruct (_ =s _); [by apply eval_default_sorted|].
  destruct (_ =s _); [by apply eval_last_sorted|]. by apply eval_none_sorted.
Qed.

Lemma sorted_answers E dd td t n e td' :
  tm_function t = "classification" → classes_reordered (tm_node t) n →
  (tm_strategy t = "aggregateNodes" → NoDup (target_values dd (target_field (tm_schema t))) ∧
     whole_records (tm_node t) ∧ tree_records (tm_node t) <= IZR (2 ^ 53)) →
  new_model E dd td (DTree t) = (Ok e, td') →
  ∃ e2, new_model E dd td (DTree (with_node t n)) = (Ok e2, td') ∧
    ∀ tk r, (evaluate E tk e r).1.2 = (evaluate E tk e2 r).1.2 ∧
      same_but_ties (target_field (tm_schema t)) (evaluate E tk e r).1.1 (evaluate E tk e2 r).1.1.
Proof.
  intros Hfn Hr Hag. cbn [new_model]. unfold new_tree_model, tree_validate, with_node.
  cbn [et_model tm_function et_dd et_ft et_root et_outkeys et_target et_compiled].
  destruct (_ && _); [done|].
  unfold tree_compile. cbn [et_model tm_lt tm_schema tm_node et_dd et_target et_validated et_compiled et_outkeys et_root
    tm_function tm_strategy tm_penalty tm_notrue tm_verification].
  rewrite mf_defaults_target.
  destruct (new_node E _ (tm_node t)) as [n1|x|p] eqn:H1; [|done..]. intros [= <- <-].
  destruct (new_node_resorted _ _ _ _ _ Hr H1) as (n2 & -> & Hn). eexists. split; [done|]. intros tk r. cbn [evaluate]. unfold tree_evaluate.
  cbn [et_validated et_compiled negb et_model tm_lt tm_strategy tm_schema et_root].
  destruct (handle_input E (tm_lt t) r) as [[u|x|p] r']; [|done..].
  unfold tree_ctx. cbn [et_ft et_dd et_target et_model tm_penalty tm_notrue].
  match goal with |- context [node_evaluate E ?c (tm_strategy t) r' tk n1] =>
    pose proof (node_evaluate_sorted E c r' (tm_strategy t) tk n1 n2 Hn) as Hev end.
  feed specialize Hev.
  { intros Hst. destruct (Hag Hst) as (Ha & Hw & Hle). split; [exact Ha|]. by eapply new_node_whole. }
  destruct (node_evaluate _ _ _ _ _ n1) as [[s v]| |], (node_evaluate _ _ _ _ _ n2) as [[s' v']| |]; try done; [|by simpl in Hev; subst..].
  destruct Hev as [Hs Hv]. simpl in Hs, Hv. subst v'. destruct v; try done.
  match goal with |- context [tree_output E ?t1 s] => match goal with |- context [tree_output E ?t2 s'] =>
    pose proof (proj1 (tree_output_class E t1 s keys_ok_empty Hfn)) as O1;
    pose proof (proj1 (tree_output_class E t2 s' keys_ok_empty Hfn)) as O2;
    destruct (tree_output E t1 s) as [o1 k1], (tree_output E t2 s') as [o2 k2] end end.
  cbn [fst snd] in *. subst o1 o2. split; [done|]. cbn [et_target]. by apply reordered_rows.
Qed.
