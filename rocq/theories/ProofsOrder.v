(** aggregateNodes with whole record counts: iteration orders permute the scores. *)
From Coq Require Import Reals Lra.
From Flocq Require Import Core.Core IEEE754.BinarySingleNaN.
From Verif Require Import Base Strconv Value Doc Expr Pred Tree Regression Model Lib FloatLib SpecPred ProofsPred
  SpecTree ProofsTree ProofsOutput ProofsEval ProofsDoc ProofsWhole ProofsClass ProofsSim
  SpecConstruct ProofsConstruct SpecEssence ProofsEssence SpecEquiv ProofsEquiv RealLib AccLib ForestLib SpecRecords ProofsRecords SpecOrder.
Local Open Scope R_scope.

Notation whole_score s := (times 1 (sc_count s) (sc_count s)).
(** the same scores, or distinct classes in another order *)
Definition reordered (s s' : list score) : Prop := s = s' ∨ (s ≡ₚ s' ∧ NoDup (sc_value <$> s)).
Lemma reordered_perm s s' : reordered s s' → s ≡ₚ s'.
Proof. by intros [->|[? _]]. Qed.

Lemma whole_self l : Forall (λ s, whole_score s) l ↔ Forall2 (scaled 1) l l.
Proof.
  split.
  - induction 1; constructor; [by split|done].
  - induction l as [|s l IH]; inversion 1 as [|? ? ? ? [_ Hs] Hl]; subst; constructor; [done|by apply IH].
Qed.
Lemma records_perm l1 l2 : l1 ≡ₚ l2 → scores_records l1 = scores_records l2.
Proof. intros H. unfold scores_records. by apply rsum_perm, Permutation_map. Qed.

Lemma whole_assoc a b c : times 1 a a → times 1 b b → times 1 c c → R64 a + R64 b + R64 c <= IZR (2 ^ 53) →
  fadd (fadd a b) c = fadd (fadd a c) b.
Proof.
  intros (x & Hx & -> & _) (y & Hy & -> & _) (z & Hz & -> & _).
  destruct (whole_of_Z x) as (_ & _ & -> & _); [lia|]. destruct (whole_of_Z y) as (_ & _ & -> & _); [lia|].
  destruct (whole_of_Z z) as (_ & _ & -> & _); [lia|]. rewrite <- !plus_IZR. intros Hle%le_IZR.
  rewrite !of_Z_add by lia. f_equal. lia.
Qed.

Lemma an_add_swap x y a t : mrel (scaled 1) a a → times 1 t t → msum a = R64 t → whole_score x → whole_score y →
  R64 t + R64 (sc_count x) + R64 (sc_count y) <= IZR (2 ^ 53) →
  an_add (an_add (a, t) x) y = an_add (an_add (a, t) y) x.
Proof.
  intros Ha Ht Hsum Hx Hy Hle. cbn [an_add]. f_equal; [|by apply whole_assoc].
  destruct (decide (sc_value x = sc_value y)) as [He|Hne].
  - rewrite He, !lookup_insert, !insert_insert. cbn [default id sc_value sc_conf sc_prob sc_count]. do 2 f_equal.
    pose proof (mrel_default (scaled 1) (Score (sc_value y) fzero fzero fzero) (Score (sc_value y) fzero fzero fzero)
      (sc_value y) a a ltac:(split; [done|apply times_zero]) Ha) as [_ Hd].
    apply whole_assoc; [done..|]. pose proof (msum_elem 1 ltac:(lia) a a (sc_value y) Ha) as Hm. lra.
  - rewrite !lookup_insert_ne by done. by rewrite insert_commute.
Qed.

Lemma an_add_one a t s : mrel (scaled 1) a a → times 1 t t → msum a = R64 t → whole_score s →
  R64 t + R64 (sc_count s) <= IZR (2 ^ 53) →
  mrel (scaled 1) (an_add (a, t) s).1 (an_add (a, t) s).1 ∧ times 1 (an_add (a, t) s).2 (an_add (a, t) s).2 ∧
  msum (an_add (a, t) s).1 = R64 (an_add (a, t) s).2 ∧ R64 (an_add (a, t) s).2 = R64 t + R64 (sc_count s).
Proof.
  intros Ha Ht Hsum Hs Hle.
  assert (IZR 1 * (R64 t + scores_records [s]) <= IZR (2 ^ 53)) as Hle'.
  { unfold scores_records, rsum. cbn [map foldr]. lra. }
  destruct (an_add_scaled 1 ltac:(lia) [s] [s] ltac:(by apply whole_self, Forall_singleton) a a t t Ha Ht Hsum Hle') as (H1 & H2 & H3).
  cbn [foldl] in *. split; [done|]. split; [done|].
  assert (R64 (an_add (a, t) s).2 = R64 t + R64 (sc_count s)) as H4.
  { cbn [an_add snd]. destruct (times_add 1 t t (sc_count s) (sc_count s) ltac:(lia) Ht Hs) as [_ ->]; [lra|done]. }
  split; [|done]. rewrite H3, H4. unfold scores_records, rsum. cbn [map foldr]. lra.
Qed.

Lemma records_whole_pos l : Forall (λ s, whole_score s) l → 0 <= scores_records l.
Proof. intros H%whole_self. by eapply (scores_records_pos 1). Qed.

Lemma an_add_perm l1 l2 : l1 ≡ₚ l2 → ∀ a t,
  Forall (λ s, whole_score s) l1 → mrel (scaled 1) a a → times 1 t t → msum a = R64 t →
  R64 t + scores_records l1 <= IZR (2 ^ 53) →
  foldl an_add (a, t) l1 = foldl an_add (a, t) l2.
Proof.
  induction 1 as [|s l1 l2 Hp IH|x y l|l1 l2 l3 Hp1 IH1 Hp2 IH2]; intros a t Hl Ha Ht Hsum Hle; [done|..].
  - apply Forall_cons in Hl as [Hs Hl]. cbn [foldl]. unfold scores_records, rsum in Hle. cbn [map foldr] in Hle.
    change (foldr Rplus 0 (map (λ s, R64 (sc_count s)) l1)) with (scores_records l1) in Hle.
    pose proof (records_whole_pos l1 Hl).
    destruct (an_add_one a t s Ha Ht Hsum Hs) as (H1 & H2 & H3 & H4); [lra|].
    rewrite (surjective_pairing (an_add (a, t) s)). apply IH; [done..|]. lra.
  - apply Forall_cons in Hl as [Hy [Hx Hl]%Forall_cons]. cbn [foldl]. unfold scores_records, rsum in Hle. cbn [map foldr] in Hle.
    change (foldr Rplus 0 (map (λ s, R64 (sc_count s)) l)) with (scores_records l) in Hle.
    pose proof (records_whole_pos l Hl).
    rewrite an_add_swap; [done..|]. lra.
  - etrans; [by apply IH1|]. apply IH2; [by rewrite <- Hp1|done..|]. by rewrite <- (records_perm _ _ Hp1).
Qed.

Lemma an_add_keys l a t : (∀ i s, a !! i = Some s → sc_value s = i) →
  ∀ i s, (foldl an_add (a, t) l).1 !! i = Some s → sc_value s = i.
Proof.
  revert a t. induction l as [|x l IH]; intros a t Ha; [done|]. cbn [foldl an_add]. apply IH.
  intros i s. destruct (decide (i = sc_value x)) as [->|Hne]; [|rewrite lookup_insert_ne by done; apply Ha].
  rewrite lookup_insert. intros [= <-]. cbn [sc_value]. destruct (a !! sc_value x) as [d|] eqn:Hd; [by apply Ha|done].
Qed.

Lemma list_fmap_ext' {A B} (f g : A → B) (l : list A) : (∀ x, x ∈ l → f x = g x) → f <$> l = g <$> l.
Proof. induction l as [|x l IH]; intros H; [done|]. rewrite !fmap_cons. f_equal; [apply H; left|apply IH; intros; apply H; by right]. Qed.

Section order.
  Context (E1 E2 : Ext) (HE : same_world E1 E2) (cx : tctx) (r : datarow).

  Definition good (b : R) (s s' : list score) : Prop :=
    reordered s s' ∧ Forall (λ s, whole_score s) s ∧ scores_records s <= b.

  Lemma eval_aggregate_order n : NoDup (target_values (cx_dd cx) (cx_target cx)) → scaled_node 1 n n →
    node_records n <= IZR (2 ^ 53) → ∀ tk1 tk2,
    both (answers (good (node_records n))) (eval_aggregate E1 cx r tk1 n) (eval_aggregate E2 cx r tk2 n).
  Proof.
    intros Hnd. induction n as [id dc cs ds t s IH] using node_rect'. intros Hn Hle tk1 tk2.
    assert (good (node_records (Node id dc cs ds t s)) (output_dist cx (Node id dc cs ds t s)) (output_dist cx (Node id dc cs ds t s))) as Hout.
    { split; [by left|]. split; [apply whole_self; by apply (output_dist_scaled cx 1)|by apply (output_dist_records cx 1 ltac:(lia) _ _ Hn)]. }
    set (W := node_records (Node id dc cs ds t s)) in *.
    inversion Hn as [? ? ? ? ? ? ? ? ? Hcs Hds Hs]; subst.
    cbn [eval_aggregate]. rewrite (run_test_world E1 E2 HE). destruct (run_test E2 _ _ _) as [v| |]; try done. cbn [rbind].
    match goal with |- both ?R (match v with RT => ?x | _ => _ end) (match v with RT => ?y | _ => _ end) =>
      assert (both R x y) as H; [|destruct v; [exact H|exact H|split; done]] end.
    set (w := rsum (map node_records cs)).
    pose proof (children_records_pos 1 ltac:(lia) _ _ Hcs) as Hw0. fold w in Hw0.
    assert (w <= W) as HwW.
    { unfold W. cbn [node_records]. fold w. pose proof (times_R 1 _ _ ltac:(lia) (proj2 Hs)).
      pose proof (scores_records_pos 1 _ _ ltac:(lia) Hds). lra. }
    eapply (both_bind (λ rs1 rs2, Forall2 (answers (good w)) rs1 rs2 ∧ scores_records (concat rs1.*1) <= w)).
    { assert (w <= IZR (2 ^ 53)) as Hle' by lra. clear -IH Hcs Hle' Hnd HE. subst w. generalize 1%nat as i.
      induction cs as [|c cs IHl]; intros i; cbn [rmapi].
      { split; [by apply Forall2_nil|]. unfold scores_records, rsum. simpl. lra. }
      apply Forall_cons in IH as [Ha IH]. inversion Hcs as [|? ? ? ? Hab Hl]; subst.
      unfold rsum in Hle' |- *. cbn [map foldr] in Hle' |- *. fold (rsum (map node_records cs)) in Hle' |- *.
      pose proof (children_records_pos 1 ltac:(lia) _ _ Hl) as Hpos. pose proof (node_records_pos 1 c ltac:(lia) c Hab) as Hpa.
      eapply both_bind; [apply Ha; [done|lra]|]. intros x y Hxy.
      eapply both_bind; [apply IHl; [done|done|lra]|]. intros xs ys [H1 H2]. destruct Hxy as [(Hs & Hwh & Hsr) Hv]. split.
      - constructor; [split; [|done]; split; [done|split; [done|lra]]|]. eapply Forall2_impl; [exact H1|].
        intros c1 c2 [(? & ? & ?) ?]. split; [|done]. split; [done|split; [done|lra]].
      - rewrite fmap_cons. cbn [concat]. unfold scores_records in *. rewrite map_app, rsum_app'. lra. }
    intros rs1 rs2 [Hrs Hcat].
    destruct (scan_related _ rs1 rs2 Hrs (false, []) (false, []) eq_refl) as [H1 (H2 & H3 & H4)].
    { split; [by left|]. split; [constructor|done]. }
    destruct (foldl scan_step _ rs1) as [u d1], (foldl scan_step _ rs2) as [u' d2]. simpl in H1, H2, H3, H4. subst u'.
    rewrite <- (Permutation_length (reordered_perm _ _ H2)). destruct (_ && _).
    { split; [|done]. split; [done|]. split; [done|]. simpl. lra. }
    destruct u; [|by split].
    assert (concat rs1.*1 ≡ₚ concat rs2.*1 ∧ Forall (λ s, whole_score s) (concat rs1.*1)) as [Hperm Hwh].
    { clear -Hrs. induction Hrs as [|x y l1 l2 [(Hx & Hw & _) _] _ [IH1 IH2]]; [by split; [|constructor]|]. rewrite !fmap_cons. cbn [concat].
      split; [by rewrite (reordered_perm _ _ Hx), IH1|by apply Forall_app]. }
    rewrite <- (an_add_perm _ _ Hperm ∅ fzero Hwh (mrel_empty _) (times_zero 1)); [|done|rewrite R64_zero; lra].
    destruct (an_add_scaled 1 ltac:(lia) _ _ (proj1 (whole_self _) Hwh) ∅ ∅ fzero fzero (mrel_empty _) (times_zero 1)) as (Ha & Ht & Hsum).
    { done. } { rewrite R64_zero. lra. }
    pose proof (an_add_keys (concat rs1.*1) ∅ fzero) as Hkeys. feed specialize Hkeys; [by intros i x; rewrite lookup_empty|].
    destruct (foldl an_add _ (concat rs1.*1)) as [agg tot]. simpl in Ha, Ht, Hsum, Hkeys.
    split; [|done]. cbn [fst]. set (f := λ '(_, a), _ : score).
    assert (∀ E tk, f <$> map_range E tk agg ≡ₚ f <$> map_to_list agg) as Hf.
    { intros E tk. apply fmap_Permutation, map_range_perm. }
    split; [right|].
    { split; [by rewrite !Hf|]. rewrite Hf. rewrite <- list_fmap_compose.
      assert (sc_value ∘ f <$> map_to_list agg = (map_to_list agg).*1) as ->; [|apply NoDup_fst_map_to_list].
      apply list_fmap_ext'. intros [i x] Hx%elem_of_map_to_list. exact (Hkeys i x Hx). }
    split.
    - rewrite Hf. apply Forall_fmap, Forall_forall. intros [i x] Hx%elem_of_map_to_list. pose proof (Ha i) as Hi. rewrite Hx in Hi.
      inversion Hi as [? ? [_ Hc]|]; subst. exact Hc.
    - rewrite (records_perm _ _ (Hf _ _)).
      assert (∀ l : list (string * score), scores_records (f <$> l) = rsum (map (λ p : string * score, R64 (sc_count p.2)) l)) as Hm.
      { unfold scores_records, rsum. induction l as [|[i x] l IHl]; [done|]. rewrite fmap_cons. cbn [map foldr]. by rewrite IHl. }
      rewrite Hm. fold (msum agg). rewrite Hsum. lra.
  Qed.
End order.

(** ** The output row *)
Lemma class_row_same target l1 l2 k : l1 ≡ₚ l2 → NoDup (sc_value <$> l1) →
  (k ≠ target ∨ k ∈ prob_key ∘ sc_value <$> l1) → class_row target l1 !! k = class_row target l2 !! k.
Proof.
  intros Hp Hnd Hk. destruct (decide (k ∈ prob_key ∘ sc_value <$> l1)) as [(s & -> & Hs)%elem_of_list_fmap|Hn].
  - assert (NoDup (sc_value <$> l2)) as Hnd2 by by rewrite <- Hp.
    assert (s ∈ l2) as Hs2 by by rewrite <- Hp. unfold compose. by rewrite !class_row_prob_nodup.
  - destruct Hk as [Hk|?]; [|done].
    assert (∀ l, l ≡ₚ l1 → class_row target l !! k = None) as H; [|by rewrite !H].
    intros l Hl. apply eq_None_not_Some. rewrite class_row_keys. intros [?|(s & Hs & ->)]; [done|].
    apply Hn. apply (elem_of_list_fmap_1 (prob_key ∘ sc_value)). by rewrite <- Hl.
Qed.

Lemma reordered_rows target l1 l2 : reordered l1 l2 →
  same_but_ties target (Ok (Some (class_row target l1))) (Ok (Some (class_row target l2))).
Proof.
  intros [->|[Hp Hnd]]; [by split|]. simpl. split; [|split].
  - intros k Hk. apply class_row_same; [done..|by left].
  - rewrite !class_row_keys. naive_solver.
  - intros (c & p & Hc & Hcp & Hwin). apply map_eq. intros k.
    destruct (decide (k = target)) as [->|Hne]; [|apply class_row_same; [done..|by left]].
    destruct (decide (target ∈ prob_key ∘ sc_value <$> l1)) as [Hin|Hn]; [apply class_row_same; [done..|by right]|].
    assert (∀ l, l ≡ₚ l1 → class_row target l !! target = Some (GStr (sc_value (pick_best l)))) as Ht.
    { intros l Hl. apply class_row_target. intros s Hs He. apply Hn. rewrite <- He.
      apply (elem_of_list_fmap_1 (prob_key ∘ sc_value)). by rewrite <- Hl. }
    rewrite (Ht l1), (Ht l2) by done. do 2 f_equal. rewrite (Ht l1) in Hc by done. injection Hc as <-.
    destruct (pick_best_inv l1) as [_ [[Hb1 Hz]|(Hpos1 & x1 & x2 & Hx & _)]].
    { rewrite Hb1. rewrite pick_best_none; [done|]. intros s Hs. apply Hz. by rewrite Hp. }
    assert (pick_best l1 ∈ l1) as Hin1 by (rewrite Hx at 2; set_solver).
    destruct (pick_best_inv l2) as [Hmax2 [[_ Hz]|(_ & y1 & y2 & Hy & _)]].
    { rewrite Hz in Hpos1; [done|]. by rewrite <- Hp. }
    assert (pick_best l2 ∈ l2) as Hin2 by (rewrite Hy at 2; set_solver).
    destruct (decide (sc_value (pick_best l2) = sc_value (pick_best l1))) as [|Hne]; [done|]. exfalso.
    unfold probability_of in Hcp, Hwin.
    change (class_row target l1 !! prob_key (sc_value (pick_best l1)) = Some (GF64 p)) in Hcp.
    rewrite class_row_prob_nodup in Hcp by done. injection Hcp as <-.
    pose proof (Hwin _ (sc_prob (pick_best l2)) Hne) as Hlt.
    rewrite (Hmax2 (pick_best l1)) in Hlt by by rewrite <- Hp. discriminate Hlt.
    change (class_row target l1 !! prob_key (sc_value (pick_best l2)) = Some (GF64 (sc_prob (pick_best l2)))).
    apply class_row_prob_nodup; [done|]. by rewrite Hp.
Qed.

Lemma new_node_whole E ft m n : whole_records m → tree_records m <= IZR (2 ^ 53) → new_node E ft m = Ok n →
  scaled_node 1 n n ∧ node_records n <= IZR (2 ^ 53).
Proof.
  intros Hw Hle Hn. pose proof (new_node_scaled E ft 1 m ltac:(lia) m Hw ltac:(lra)) as H. rewrite Hn in H.
  destruct H as [H1 H2]. split; [done|]. by rewrite H2.
Qed.

Lemma aggregate_order E1 E2 dd td t e td' calls1 calls2 tk1 tk2 r :
  same_world E1 E2 → new_model E1 dd td (DTree t) = (Ok e, td') →
  tm_function t = "classification" → tm_strategy t = "aggregateNodes" →
  whole_records (tm_node t) → tree_records (tm_node t) <= IZR (2 ^ 53) →
  NoDup (target_values dd (target_field (tm_schema t))) →
  let x := evaluate E1 tk1 (after E1 calls1 e) r in
  let y := evaluate E2 tk2 (after E2 calls2 e) r in
  x.1.2 = y.1.2 ∧ same_but_ties (target_field (tm_schema t)) x.1.1 y.1.1.
Proof.
  intros HE Hn Hf Hst Hw Hle Hnd x y.
  pose proof Hn as Hn2. rewrite (new_model_world E1 E2 HE) in Hn2.
  assert (x.1 = (evaluate E1 tk1 e r).1) as -> by (by eapply history_independent).
  assert (y.1 = (evaluate E2 tk2 e r).1) as -> by (by eapply history_independent). clear x y.
  apply new_model_tree_of in Hn as (te & -> & Hv & Hc & Hk & Hcx & Hfn & Hstr & Hlt & Hcomp & _).
  cbn [evaluate]. rewrite !tree_evaluate_run by done. rewrite (handle_input_world E1 E2 HE).
  destruct (handle_input E2 _ r) as [[u|x|p] r']; [|done..].
  destruct (new_node_whole _ _ _ _ Hw Hle Hcomp) as [Hsc Hrec].
  rewrite Hstr, Hst. cbn [node_evaluate String.eqb]. unfold node_evaluate. cbn [String.eqb Ascii.eqb Bool.eqb].
  pose proof (eval_aggregate_order E1 E2 HE (tree_ctx te) r' (et_root te)) as Hev. rewrite Hcx in Hev |- *.
  specialize (Hev Hnd Hsc Hrec tk1 tk2).
  destruct (eval_aggregate E1 _ _ _ _) as [[s v]| |], (eval_aggregate E2 _ _ _ _) as [[s' v']| |]; try done;
    [|by simpl in Hev; subst..].
  destruct Hev as [(Hs & _) Hvv]. simpl in Hvv. subst v'. destruct v; try done.
  destruct (tree_output_class E1 te s Hk) as [Ho1 _]; [by rewrite Hfn|].
  destruct (tree_output_class E2 te s' Hk) as [Ho2 _]; [by rewrite Hfn|].
  destruct (tree_output E1 te s) as [o1 k1], (tree_output E2 te s') as [o2 k2]. simpl in Ho1, Ho2 |- *. subst.
  split; [done|]. assert (et_target te = target_field (tm_schema t)) as -> by (by injection Hcx).
  by apply reordered_rows.
Qed.
