(** Dropping conditions that were tested on the way down (C153). *)
From Verif Require Import Base Strconv Value Doc Expr Pred Tree Regression Model Lib
  SpecPred ProofsPred SpecExpr ProofsExpr SpecConstruct ProofsConstruct ProofsRange
  SpecTree ProofsTree ProofsOutput ProofsEval ProofsDoc ProofsSafe ProofsWhole ProofsSim
  SpecEssence ProofsEssence SpecEquiv ProofsEquiv SpecTrim.

(** ** Trees that agree where a row gets to *)
Section reach.
  Context (E : Ext) (cx : tctx) (r : datarow).
  Notation test t := (run_test E (cx_ft cx) t r).

  (** Children count if the test is true, and with [W] also if it is unknown. *)
  Inductive agree_at (W : bool) : node → node → Prop :=
  | aa_node id dc cs1 cs2 ds t1 t2 sc :
      test t1 = test t2 → length cs1 = length cs2 →
      (test t1 = Ok RT ∨ W = true ∧ test t1 = Ok RU → Forall2 (agree_at W) cs1 cs2) →
      agree_at W (Node id dc cs1 ds t1 sc) (Node id dc cs2 ds t2 sc).

  Lemma at_ids W (cs1 cs2 : list node) (rs : list (list score * presult)) (m : gmap string (list score)) :
    Forall2 (agree_at W) cs1 cs2 →
    foldl (λ m '(c, x), <[n_id c := x.1]> m) m (zip cs1 rs) =
    foldl (λ m '(c, x), <[n_id c := x.1]> m) m (zip cs2 rs).
  Proof.
    intros H. revert rs m. induction H as [|a b l1 l2 Hab _ IH]; intros [|x rs] m; simpl; try done.
    destruct Hab. apply IH.
  Qed.
  Lemma at_collect W (cs1 cs2 : list node) (rs : list (list score * presult)) acc :
    Forall2 (agree_at W) cs1 cs2 → foldl wc_collect acc (zip cs1 rs) = foldl wc_collect acc (zip cs2 rs).
  Proof.
    intros H. revert rs acc. induction H as [|a b l1 l2 Hab _ IH]; intros [|x rs] acc; simpl; try done.
    destruct Hab. apply IH.
  Qed.
  Lemma at_with {A} W (f g : node → A) (cs1 cs2 : list node) :
    Forall (λ c1, ∀ c2, agree_at W c1 c2 → f c1 = g c2) cs1 → Forall2 (agree_at W) cs1 cs2 →
    Forall2 (λ a b, f a = g b) cs1 cs2.
  Proof.
    intros H1 H2. induction H2 as [|a b l1 l2 Hab _ IH]; [constructor|].
    apply Forall_cons in H1 as [Ha H1]. constructor; auto.
  Qed.
  Lemma at_with_i {A} W (f g : nat → node → A) (cs1 cs2 : list node) :
    Forall (λ c1, ∀ c2, agree_at W c1 c2 → ∀ i, f i c1 = g i c2) cs1 → Forall2 (agree_at W) cs1 cs2 →
    Forall2 (λ a b, ∀ i, f i a = g i b) cs1 cs2.
  Proof.
    intros H1 H2. induction H2 as [|a b l1 l2 Hab _ IH]; [constructor|].
    apply Forall_cons in H1 as [Ha H1]. constructor; auto.
  Qed.
  Lemma at_out id dc cs1 cs2 ds t1 t2 sc : length cs1 = length cs2 →
    output_dist cx (Node id dc cs1 ds t1 sc) = output_dist cx (Node id dc cs2 ds t2 sc).
  Proof. intros H. unfold output_dist. by rewrite H. Qed.

  Ltac start n1 n2 :=
    let id := fresh "id" in let IH := fresh "IH" in
    induction n1 as [id dc cs1 ds t1 sc IH] using node_rect'; intros n2 Hn;
    inversion Hn as [? ? ? cs2 ? ? t2 ? Ht Hlen Hcs]; subst; clear Hn.

  Lemma eval_none_at W n1 : ∀ n2, agree_at W n1 n2 → eval_none E cx r n1 = eval_none E cx r n2.
  Proof.
    start n1 n2. cbn [eval_none]. rewrite <- Ht, (at_out id dc cs1 cs2 ds t1 t2 sc) by done.
    destruct (test t1) as [v| |]; simpl; try done. destruct v; try done.
    eapply first_true_Forall2, at_with; [exact IH|]. apply Hcs. by left.
  Qed.
  Lemma eval_null_at W n1 : ∀ n2, agree_at W n1 n2 → eval_null E cx r n1 = eval_null E cx r n2.
  Proof.
    start n1 n2. cbn [eval_null]. rewrite <- Ht, (at_out id dc cs1 cs2 ds t1 t2 sc) by done.
    destruct (test t1) as [v| |]; simpl; try done. destruct v; try done.
    eapply first_known_Forall2, at_with; [exact IH|]. apply Hcs. by left.
  Qed.
  Lemma eval_last_at n1 : ∀ n2, agree_at true n1 n2 → eval_last E cx r n1 = eval_last E cx r n2.
  Proof.
    start n1 n2. cbn [eval_last]. rewrite <- Ht, (at_out id dc cs1 cs2 ds t1 t2 sc) by done.
    destruct (test t1) as [v| |]; simpl; try done. destruct v; try done.
    all: rewrite (rmap_Forall2 _ (eval_last E cx r) cs1 cs2); [done|]; eapply at_with; [exact IH|]; apply Hcs; auto.
  Qed.
  Lemma eval_default_at n1 : ∀ n2, agree_at true n1 n2 → eval_default E cx r n1 = eval_default E cx r n2.
  Proof.
    start n1 n2. cbn [eval_default]. rewrite <- Ht, (at_out id dc cs1 cs2 ds t1 t2 sc) by done.
    destruct (test t1) as [v| |]; simpl; try done. destruct v; try done.
    all: assert (Forall2 (agree_at true) cs1 cs2) as Hc by (apply Hcs; auto).
    all: rewrite (rmap_Forall2 _ (eval_default E cx r) cs1 cs2) by (by eapply at_with).
    all: destruct (rmap _ _) as [rs| |]; simpl; try done; by rewrite (at_ids true cs1 cs2).
  Qed.
  Lemma eval_weighted_at n1 : ∀ n2, agree_at true n1 n2 → ∀ t, eval_weighted E cx r t n1 = eval_weighted E cx r t n2.
  Proof.
    start n1 n2. intros t. cbn [eval_weighted]. rewrite <- Ht, (at_out id dc cs1 cs2 ds t1 t2 sc) by done.
    destruct (test t1) as [v| |]; simpl; try done. destruct v; try done.
    all: assert (Forall2 (agree_at true) cs1 cs2) as Hc by (apply Hcs; auto).
    all: rewrite (rmapi_Forall2 _ (λ i c, eval_weighted E cx r (i :: t) c) cs1 cs2);
      [|apply (at_with_i true (λ i c, eval_weighted E cx r (i :: t) c)); [|done]; eapply Forall_impl; [exact IH|]; simpl; auto].
    all: destruct (rmapi _ _ _) as [rs| |]; simpl; try done; by rewrite (at_collect true cs1 cs2).
  Qed.
  Lemma eval_aggregate_at n1 : ∀ n2, agree_at true n1 n2 → ∀ t, eval_aggregate E cx r t n1 = eval_aggregate E cx r t n2.
  Proof.
    start n1 n2. intros t. cbn [eval_aggregate]. rewrite <- Ht, (at_out id dc cs1 cs2 ds t1 t2 sc) by done.
    destruct (test t1) as [v| |]; simpl; try done. destruct v; try done.
    all: assert (Forall2 (agree_at true) cs1 cs2) as Hc by (apply Hcs; auto).
    all: rewrite (rmapi_Forall2 _ (λ i c, eval_aggregate E cx r (i :: t) c) cs1 cs2);
      [done|apply (at_with_i true (λ i c, eval_aggregate E cx r (i :: t) c)); [|done]; eapply Forall_impl; [exact IH|]; simpl; auto].
  Qed.
  Lemma node_evaluate_at W st tk n1 n2 : agree_at W n1 n2 →
    (W = false → st ∉ ["aggregateNodes"; "weightedConfidence"; "defaultChild"; "lastPrediction"]) →
    node_evaluate E cx st r tk n1 = node_evaluate E cx st r tk n2.
  Proof.
    intros H HW. unfold node_evaluate.
    destruct (String.eqb_spec st "nullPrediction") as [->|]; [by eapply eval_null_at|].
    destruct W.
    - repeat case_str; auto using eval_aggregate_at, eval_weighted_at, eval_default_at, eval_last_at. by eapply eval_none_at.
    - specialize (HW eq_refl).
      repeat match goal with |- context [st =s ?x] => destruct (String.eqb_spec st x); [exfalso; subst; set_solver|] end.
      by eapply eval_none_at.
  Qed.
End reach.

(** ** Predicates *)
Section trim.
  Context (E : Ext) (ft : gmap string string).
  Notation compiles p := (∃ q, compile_predicate E ft p = Ok q).

  Lemma and_compiles b ps : compiles (PCompound b ps) ↔ Forall (λ p, compiles p) ps.
  Proof.
    cbn [compile_predicate]. split.
    - intros (q & (qs & Hqs & _)%rbind_ok). apply rmap_ok in Hqs. induction Hqs as [|p q' ps qs' Hp _ IH]; constructor; eauto.
    - intros H. assert (∃ qs, rmap (compile_predicate E ft) ps = Ok qs) as [qs ->]; [|eexists; done].
      induction H as [|p ps [q Hq] _ [qs IH]]; [by eexists|]. cbn [rmap]. rewrite Hq, IH. eexists. done.
  Qed.
  Lemma part_compiles p q : part_of p q → compiles p → compiles q.
  Proof.
    induction 1 as [|ps p q Hp _ IH]; [done|]. rewrite and_compiles. intros H. apply IH. by eapply Forall_forall in H.
  Qed.

  Definition all_compile (K : list predicate) : Prop := ∀ p, p ∈ K → compiles p.
  Lemma implied_compiles K q : all_compile K → implied E ft K q → compiles q.
  Proof. intros HK (_ & H & _). by apply H. Qed.
  Lemma thinned_compiles K ps qs : all_compile K → thinned eq (implied E ft K) ps qs →
    Forall (λ p, compiles p) ps ↔ Forall (λ p, compiles p) qs.
  Proof.
    intros HK. induction 1 as [|a b l1 l2 -> _ IH|a l1 l2 Ha _ IH]; [done|..]; rewrite ?Forall_cons, IH; [done|].
    pose proof (implied_compiles K a HK Ha). tauto.
  Qed.
  Lemma trim_compiles K p1 p2 : all_compile K → trimmed_pred (implied E ft K) p1 p2 → compiles p1 ↔ compiles p2.
  Proof.
    intros HK. destruct 1 as [p|ps qs H|ps q H Hq|ps H|p H].
    - done.
    - rewrite !and_compiles. by eapply thinned_compiles.
    - rewrite and_compiles, (thinned_compiles K ps [q]) by done. by rewrite Forall_singleton.
    - split; [by eexists|]. intros _. apply and_compiles. eapply Forall_impl; [exact H|]. intros p. by apply implied_compiles.
    - split; [by eexists|]. intros _. by eapply implied_compiles.
  Qed.

  Context (r : datarow).
  Notation value := (opval E ft r).

  Lemma part_true p q : part_of p q → value p = Some RT → value q = Some RT.
  Proof.
    induction 1 as [|ps p q Hp _ IH]; [done|]. rewrite opval_compound. intros H. apply IH.
    destruct (mapM value ps) as [vs|] eqn:Hm; [|done]. cbn in H. injection H as H. apply mapM_Some in Hm.
    apply elem_of_list_lookup in Hp as [i Hi]. eapply Forall2_lookup_l in Hm as (v & Hv & ->); [|exact Hi]. f_equal.
    unfold tv_and in H. repeat case_decide; try done. apply elem_of_list_lookup_2 in Hv. destruct v; [done..|]; done.
  Qed.

  Lemma value_run p q : ¬ const_pred p → compile_predicate E ft p = Ok q →
    ∃ v, value p = Some v ∧ run_test E ft q r = Ok v.
  Proof.
    intros Hp Hq. destruct (opval_some E ft r p q Hq) as (v & Hv & Ho). exists v. split; [done|].
    rewrite run_test_operand; [done|]. by rewrite (compile_const E ft p q).
  Qed.
  Lemma holds_value p : ¬ const_pred p → holds E ft r p ↔ value p = Some RT.
  Proof.
    intros Hp. split.
    - intros (c & Hc & Ht). destruct (value_run p c Hp Hc) as (v & -> & Hv). congruence.
    - intros Hv. destruct (opval_compiles E ft r p _ Hv) as [c Hc]. exists c. split; [done|].
      destruct (value_run p c Hp Hc) as (w & Hw & ->). congruence.
  Qed.

  (** the conditions above hold *)
  Definition all_true (K : list predicate) : Prop := ∀ p, p ∈ K → holds E ft r p.
  Lemma implied_true K q : all_true K → implied E ft K q → value q = Some RT.
  Proof. intros HK (Hq & _ & H). apply holds_value; [done|]. by apply H. Qed.
  Lemma thinned_and K ps qs vs : all_true K → thinned eq (implied E ft K) ps qs → mapM value ps = Some vs →
    ∃ ws, mapM value qs = Some ws ∧ ∀ v, v ≠ RT → v ∈ vs ↔ v ∈ ws.
  Proof.
    intros HK H. revert vs. induction H as [|a b l1 l2 -> _ IH|a l1 l2 Ha _ IH]; intros vs Hm.
    - exists vs. done.
    - cbn in Hm. destruct (value b) as [v|] eqn:Hv; [|done]. cbn in Hm. destruct (mapM value l1) as [vs1|]; [|done].
      injection Hm as <-. destruct (IH vs1 eq_refl) as (ws & Hws & Hin). exists (v :: ws). cbn. rewrite Hv, Hws. split; [done|].
      intros w Hw. rewrite !elem_of_cons. by rewrite Hin.
    - cbn in Hm. rewrite (implied_true K a HK Ha) in Hm. cbn in Hm. destruct (mapM value l1) as [vs1|]; [|done].
      injection Hm as <-. destruct (IH vs1 eq_refl) as (ws & Hws & Hin). exists ws. split; [done|].
      intros w Hw. rewrite elem_of_cons, Hin by done. naive_solver.
  Qed.
  Lemma tv_and_same vs ws : (∀ v, v ≠ RT → v ∈ vs ↔ v ∈ ws) → tv_and vs = tv_and ws.
  Proof.
    intros H. unfold tv_and. pose proof (H RF ltac:(done)). pose proof (H RU ltac:(done)). repeat case_decide; tauto.
  Qed.
  Lemma trim_run K p1 p2 q1 q2 : all_true K → trimmed_pred (implied E ft K) p1 p2 →
    compile_predicate E ft p1 = Ok q1 → compile_predicate E ft p2 = Ok q2 → run_test E ft q1 r = run_test E ft q2 r.
  Proof.
    intros HK. destruct 1 as [p|ps qs H|ps q H Hq|ps H|p H]; intros H1 H2.
    - rewrite H1 in H2. by injection H2 as <-.
    - destruct (value_run (PCompound "and" ps) q1 (λ x, x) H1) as (v & Hv & ->). destruct (value_run (PCompound "and" qs) q2 (λ x, x) H2) as (w & Hw & ->).
      rewrite opval_compound in Hv, Hw. destruct (mapM value ps) as [vs|] eqn:Hm; [|done].
      destruct (thinned_and K ps qs vs HK H Hm) as (ws & Hws & Hin). rewrite Hws in Hw. cbn in Hv, Hw.
      simplify_eq. by rewrite (tv_and_same vs ws).
    - destruct (value_run (PCompound "and" ps) q1 (λ x, x) H1) as (v & Hv & ->). destruct (value_run q q2 Hq H2) as (w & Hw & ->).
      rewrite opval_compound in Hv. destruct (mapM value ps) as [vs|] eqn:Hm; [|done].
      destruct (thinned_and K ps [q] vs HK H Hm) as (ws & Hws & Hin). cbn in Hws. rewrite Hw in Hws. cbn in Hws. injection Hws as <-.
      cbn in Hv. injection Hv as <-. rewrite (tv_and_same vs [w]) by done. f_equal. by destruct w.
    - injection H2 as <-. destruct (value_run (PCompound "and" ps) q1 (λ x, x) H1) as (v & Hv & ->). cbn. f_equal.
      rewrite opval_compound in Hv. destruct (mapM value ps) as [vs|] eqn:Hm; [|done]. cbn in Hv. injection Hv as <-.
      rewrite (tv_and_same vs []); [done|].
      destruct (thinned_and K ps [] vs HK) with (2 := Hm) as (ws & [= <-] & Hin); [|exact Hin].
      clear -H. induction H; by constructor.
    - injection H2 as <-. cbn. destruct (value_run p q1) as (v & Hv & ->); [|done|].
      + by destruct H as [H _].
      + rewrite (implied_true K p HK H) in Hv. by injection Hv as <-.
  Qed.
End trim.

Lemma part_not_const p q : part_of p q → ¬ const_pred q.
Proof. by induction 1. Qed.
Lemma certain_implied E ft K q : certain K q → implied E ft K q.
Proof.
  intros (p & Hp & Hpq). pose proof (part_not_const p q Hpq) as Hq. split; [done|]. split.
  - intros HK. eapply part_compiles; [exact Hpq|]. by apply HK.
  - intros r HK. apply holds_value; [done|]. eapply part_true; [exact Hpq|]. apply holds_value; [destruct Hpq; [assumption|exact (λ x, x)]|]. by apply HK.
Qed.
Lemma thinned_weaken {A} (S : A → A → Prop) (P Q : A → Prop) l1 l2 :
  (∀ x, P x → Q x) → thinned S P l1 l2 → thinned S Q l1 l2.
Proof. intros H. induction 1; constructor; auto. Qed.
Lemma trimmed_pred_mono (C D : predicate → Prop) p1 p2 :
  (∀ q, C q → D q) → trimmed_pred C p1 p2 → trimmed_pred D p1 p2.
Proof.
  intros H. destruct 1.
  - apply tp_same.
  - apply tp_fewer. by eapply thinned_weaken.
  - apply tp_single; [|done]. by eapply thinned_weaken.
  - apply tp_none. by eapply Forall_impl.
  - apply tp_known. auto.
Qed.
Lemma trimmed_mono (C D : list predicate → predicate → Prop) m1 :
  (∀ K q, C K q → D K q) → ∀ K m2, trimmed C K m1 m2 → trimmed D K m1 m2.
Proof.
  intros H. induction m1 as [id dc sc c ds ns1 p1 IH] using mnode_rect'. intros K m2 Hm.
  inversion Hm as [? ? ? ? ? ? ns2 ? p2 Hp Hns]; subst; clear Hm. constructor.
  - eapply trimmed_pred_mono; [|exact Hp]. auto.
  - clear Hp. induction Hns as [|a b l1 l2 Hab _ IHl]; constructor; apply Forall_cons in IH as [Ha IH]; auto.
Qed.

(** ** Nodes *)
Lemma nodes_compile E ft m1 : ∀ K m2, trimmed (implied E ft) K m1 m2 → all_compile E ft K →
  (∃ n, new_node E ft m1 = Ok n) ↔ (∃ n, new_node E ft m2 = Ok n).
Proof.
  induction m1 as [id dc sc c ds ns1 p1 IH] using mnode_rect'. intros K m2 Hm HK.
  inversion Hm as [? ? ? ? ? ? ns2 ? p2 Hp Hns]; subst; clear Hm. cbn [new_node].
  pose proof (trim_compiles E ft K p1 p2 HK Hp) as Hc.
  assert (∀ q1, compile_predicate E ft p1 = Ok q1 →
    (∃ cs, rmap (new_node E ft) ns1 = Ok cs) ↔ (∃ cs, rmap (new_node E ft) ns2 = Ok cs)) as Hk.
  { intros q1 Hq1. assert (all_compile E ft (p1 :: K)) as HK1.
    { intros p [->|Hin]%elem_of_cons; [eauto|by apply HK]. }
    clear -IH Hns HK1. induction Hns as [|a b l1 l2 Hab _ IHl]; [by split; eexists|].
    apply Forall_cons in IH as [Ha IH]. specialize (Ha _ _ Hab HK1). specialize (IHl IH). cbn [rmap].
    split; intros (x & (y & Hy & (ys & Hys & _)%rbind_ok)%rbind_ok).
    - destruct Ha as [[z ->] _]; [eauto|]. destruct IHl as [[zs ->] _]; [eauto|]. eexists. done.
    - destruct Ha as [_ [z ->]]; [eauto|]. destruct IHl as [_ [zs ->]]; [eauto|]. eexists. done. }
  split; intros (n & (cs & Hcs & (q & Hq & _)%rbind_ok)%rbind_ok).
  - destruct Hc as [[q2 ->] _]; [eauto|]. destruct (Hk q Hq) as [[cs2 ->] _]; [eauto|]. eexists. done.
  - destruct Hc as [_ [q1 Hq1]]; [eauto|]. rewrite Hq1. destruct (Hk q1 Hq1) as [_ [cs2 ->]]; [eauto|]. eexists. done.
Qed.

Lemma nodes_agree E cx r W m1 : ∀ K m2 n1 n2, trimmed (implied E (cx_ft cx)) K m1 m2 → all_true E (cx_ft cx) r K →
  new_node E (cx_ft cx) m1 = Ok n1 → new_node E (cx_ft cx) m2 = Ok n2 →
  (W = true → everywhere_doc (λ m, ¬ node_truth E (cx_ft cx) r m RU) m1) → agree_at E cx r W n1 n2.
Proof.
  induction m1 as [id dc sc c ds ns1 p1 IH] using mnode_rect'. intros K m2 n1 n2 Hm HK H1 H2 HW.
  inversion Hm as [? ? ? ? ? ? ns2 ? p2 Hp Hns]; subst; clear Hm. cbn [new_node] in H1, H2.
  apply rbind_ok in H1 as (cs1 & Hcs1 & (q1 & Hq1 & [= <-])%rbind_ok).
  apply rbind_ok in H2 as (cs2 & Hcs2 & (q2 & Hq2 & [= <-])%rbind_ok).
  apply rmap_ok in Hcs1, Hcs2. constructor.
  - by eapply trim_run.
  - apply Forall2_length in Hns, Hcs1, Hcs2. congruence.
  - intros Ht. assert (run_test E (cx_ft cx) q1 r = Ok RT) as Ht1.
    { destruct Ht as [Ht|[-> Ht]]; [done|]. specialize (HW eq_refl). inversion HW as [? Hn _]; subst. destruct Hn. by exists q1. }
    assert (all_true E (cx_ft cx) r (p1 :: K)) as HK1.
    { intros p [->|Hin]%elem_of_cons; [|by apply HK]. by exists q1. }
    assert (W = true → Forall (everywhere_doc (λ m, ¬ node_truth E (cx_ft cx) r m RU)) ns1) as HW1.
    { intros Hw. specialize (HW Hw). by inversion HW. }
    clear -IH Hns HK1 Hcs1 Hcs2 HW1. revert cs1 cs2 Hcs1 Hcs2. induction Hns as [|a b l1 l2 Hab _ IHl]; intros cs1 cs2 Hcs1 Hcs2.
    + inversion Hcs1; subst. inversion Hcs2; subst. constructor.
    + inversion Hcs1; subst. inversion Hcs2; subst. apply Forall_cons in IH as [Ha IH]. constructor.
      * eapply Ha; [done..|]. intros Hw. specialize (HW1 Hw). by apply Forall_cons in HW1 as [? _].
      * apply IHl; [done| |done..]. intros Hw. specialize (HW1 Hw). by apply Forall_cons in HW1 as [_ ?].
Qed.

(** ** Trees *)
Lemma accepted_again E dd td t n e td' : new_model E dd td (DTree t) = (Ok e, td') →
  (∃ x, new_node E (field_types dd (td ++ tm_lt t)) n = Ok x) →
  ∃ e2, new_model E dd td (DTree (with_node t n)) = (Ok e2, td').
Proof.
  intros H [x Hx]. revert H. cbn [new_model]. unfold new_tree_model, tree_validate, with_node.
  cbn [et_model tm_function et_dd et_ft et_root et_outkeys et_target et_compiled]. destruct (_ && _); [done|].
  unfold tree_compile. cbn [et_model tm_lt tm_schema tm_node et_dd et_target et_validated et_compiled et_outkeys et_root
    tm_function tm_strategy tm_penalty tm_notrue tm_verification]. rewrite Hx.
  destruct (new_node _ _ (tm_node t)) as [y| |]; [|done..]. intros [= _ <-]. eauto.
Qed.

Lemma trees_trimmed E dd td t n e1 e2 td1 td2 tk r :
  trimmed (implied E (field_types dd (td ++ tm_lt t))) [] (tm_node t) n →
  new_model E dd td (DTree t) = (Ok e1, td1) → new_model E dd td (DTree (with_node t n)) = (Ok e2, td2) →
  tm_strategy t ∉ ["aggregateNodes"; "weightedConfidence"; "defaultChild"; "lastPrediction"] ∨
  (∀ r', handle_input E (tm_lt t) r = (Ok tt, r') → everywhere_doc (λ m, ¬ doc_truth E dd td t r' m RU) (tm_node t)) →
  (evaluate E tk e1 r).1 = (evaluate E tk e2 r).1.
Proof.
  intros Hn (t1 & -> & H1)%new_model_tree_of (t2 & -> & H2)%new_model_tree_of Hst. cbn [evaluate].
  assert ((tree_evaluate E tk t1 r).1 = (tree_evaluate E tk t2 r).1) as H.
  { destruct (handle_input E (tm_lt t) r) as [[[]|x|p] r'] eqn:Hi.
    - rewrite (tree_of_run E dd td t t1 tk r r' H1 Hi), (tree_of_run E dd td (with_node t n) t2 tk r r' H2 Hi).
      cbn [with_node tm_strategy tm_function tm_schema]. change (doc_ctx dd td (with_node t n)) with (doc_ctx dd td t).
      destruct H1 as (_ & _ & _ & _ & _ & _ & _ & H1 & _). destruct H2 as (_ & _ & _ & _ & _ & _ & _ & H2 & _).
      assert (∃ W, agree_at E (doc_ctx dd td t) r' W (et_root t1) (et_root t2) ∧
        (W = false → tm_strategy t ∉ ["aggregateNodes"; "weightedConfidence"; "defaultChild"; "lastPrediction"])) as (W & Ha & HW).
      { destruct Hst as [Hst|Hst]; [exists false|exists true]; (split; [|done]).
        - eapply nodes_agree; [exact Hn|intros ? []%elem_of_nil|exact H1|exact H2|done].
        - eapply nodes_agree; [exact Hn|intros ? []%elem_of_nil|exact H1|exact H2|]. intros _. by apply Hst. }
      by rewrite (node_evaluate_at E (doc_ctx dd td t) r' W (tm_strategy t) tk _ _ Ha HW).
    - destruct H1 as (Hv & Hc & _ & _ & _ & _ & Hlt & _). destruct H2 as (Hv2 & Hc2 & _ & _ & _ & _ & Hlt2 & _).
      rewrite !tree_evaluate_run by done. rewrite Hlt, Hlt2. cbn [with_node tm_lt]. by rewrite Hi.
    - destruct H1 as (Hv & Hc & _ & _ & _ & _ & Hlt & _). destruct H2 as (Hv2 & Hc2 & _ & _ & _ & _ & Hlt2 & _).
      rewrite !tree_evaluate_run by done. rewrite Hlt, Hlt2. cbn [with_node tm_lt]. by rewrite Hi. }
  by destruct (tree_evaluate E tk t1 r) as [[? ?] ?], (tree_evaluate E tk t2 r) as [[? ?] ?].
Qed.

Lemma trimmed_accepted E dd td t n : trimmed (implied E (field_types dd (td ++ tm_lt t))) [] (tm_node t) n →
  (∀ e td', new_model E dd td (DTree t) = (Ok e, td') → ∃ e2, new_model E dd td (DTree (with_node t n)) = (Ok e2, td')) ∧
  (∀ e td', new_model E dd td (DTree (with_node t n)) = (Ok e, td') → ∃ e2, new_model E dd td (DTree t) = (Ok e2, td')).
Proof.
  intros Hn. pose proof (nodes_compile E (field_types dd (td ++ tm_lt t)) _ _ _ Hn) as Hc.
  feed specialize Hc. { intros ? []%elem_of_nil. }
  split; intros e td' H; pose proof H as (te & _ & Ht)%new_model_tree_of; destruct Ht as (_ & _ & _ & _ & _ & _ & _ & Ht & _).
  - eapply accepted_again; [exact H|]. apply Hc. eexists. exact Ht.
  - destruct (accepted_again E dd td (with_node t n) (tm_node t) e td' H) as [e2 He2].
    + apply Hc. eexists. exact Ht.
    + exists e2. by destruct t.
Qed.

Lemma trimmed_stands_in E dd d1 d2 : trimmed_trees d1 d2 → stands_in E dd dd d1 d2 ∧ stands_in E dd dd d2 d1.
Proof.
  assert (∀ t1 t2, same_tree_but (λ t n1 n2,
    n1 = n2 ∨ tm_strategy t ∉ ["aggregateNodes"; "weightedConfidence"; "defaultChild"; "lastPrediction"] ∧ trimmed certain [] n1 n2) t1 t2 →
    stands_in E dd dd (DTree t1) (DTree t2) ∧ stands_in E dd dd (DTree t2) (DTree t1)) as HT.
  { intros t1 t2 [t n [<-|[Hst Hn]]].
    - assert (with_node t (tm_node t) = t) as -> by by destruct t. split; intros td e td' H; eauto.
    - split; intros td e td' H; apply (trimmed_mono _ (implied E (field_types dd (td ++ tm_lt t)))) in Hn; try apply certain_implied; destruct (trimmed_accepted E dd td t n Hn) as [Ha Hb].
      + destruct (Ha _ _ H) as [e2 H2]. exists e2. split; [done|]. intros tk r. eapply trees_trimmed; eauto.
      + destruct (Hb _ _ H) as [e2 H2]. exists e2. split; [done|]. intros tk r. symmetry. eapply trees_trimmed; eauto. }
  intros H. split.
  - eapply rewritten_stands_in; [|exact H]. intros t1 t2 Ht. by destruct (HT t1 t2 Ht).
  - eapply (rewritten_stands_in E dd dd (λ t1 t2, stands_in E dd dd (DTree t1) (DTree t2))); [done|].
    eapply rewritten_sym; [|exact H]. intros t1 t2 Ht. by destruct (HT t1 t2 Ht).
Qed.

Lemma trims_stand_in E dd d1 d2 : rtsc trimmed_trees d1 d2 → stands_in E dd dd d1 d2.
Proof.
  induction 1 as [d|d1 d2 d3 H _ IH]; [intros td e td' Hn; eauto|]. intros td e1 td' H1.
  assert (stands_in E dd dd d1 d2) as H12 by (destruct H as [H|H]; by destruct (trimmed_stands_in E dd _ _ H)).
  destruct (H12 td e1 td' H1) as (e2 & H2 & He2). destruct (IH td e2 td' H2) as (e3 & H3 & He3).
  exists e3. split; [done|]. intros tk r. by rewrite He2.
Qed.

(** ** Bounds *)
Lemma compare_trans x y z c1 c2 : SFcompare x y = Some c1 → SFcompare y z = Some c2 → c1 ≠ Gt → c2 ≠ Gt →
  SFcompare x z = Some (match c1, c2 with Eq, Eq => Eq | _, _ => Lt end).
Proof.
  intros H1 H2 G1 G2. destruct c1; [| |done]; (destruct c2; [| |done]); clear G1 G2; revert H1 H2;
  (destruct x as [[]|[]| |[] m1 e1], y as [[]|[]| |[] m2 e2], z as [[]|[]| |[] m3 e3]; cbn [SFcompare];
    try (intros; discriminate); try (intros; reflexivity)).
  all: intros [= H1] [= H2]; f_equal; revert H1 H2;
    destruct (Z.compare_spec e1 e2), (Z.compare_spec e2 e3), (Z.compare_spec e1 e3); try lia; try (intros; discriminate); try (intros; reflexivity);
    change (Pcompare m1 m2 Eq) with (Pos.compare m1 m2); change (Pcompare m2 m3 Eq) with (Pos.compare m2 m3);
    change (Pcompare m1 m3 Eq) with (Pos.compare m1 m3);
    destruct (Pos.compare_spec m1 m2), (Pos.compare_spec m2 m3), (Pos.compare_spec m1 m3); cbn [CompOpp];
    try (intros; discriminate); try (intros; reflexivity); lia.
Qed.
Ltac by_compare :=
  unfold fltb, fleb, SFltb, SFleb;
  match goal with |- ?A → ?B → _ =>
    match A with context [SFcompare ?x ?y] => match B with context [SFcompare y ?z] =>
      let C1 := fresh in let C2 := fresh in
      destruct (SFcompare x y) as [[]|] eqn:C1; try done; destruct (SFcompare y z) as [[]|] eqn:C2; try done;
      rewrite (compare_trans _ _ _ _ _ C1 C2) by done; done
    end end end.
Lemma fle_fle x y z : fleb x y = true → fleb y z = true → fleb x z = true.
Proof. by_compare. Qed.
Lemma flt_fle x y z : fltb x y = true → fleb y z = true → fltb x z = true.
Proof. by_compare. Qed.
Lemma fle_flt x y z : fleb x y = true → fltb y z = true → fltb x z = true.
Proof. by_compare. Qed.
Lemma flt_fle_le x y z : fltb x y = true → fleb y z = true → fleb x z = true.
Proof. by_compare. Qed.
Lemma fle_flt_le x y z : fleb x y = true → fltb y z = true → fleb x z = true.
Proof. by_compare. Qed.

(** The comparison of the value [v] with the literal [l]. *)
Definition compared {A} (le lt : A → A → bool) (op : string) (v l : A) : bool :=
  if op =s "lessThan" then lt v l else if op =s "lessOrEqual" then le v l
  else if op =s "greaterThan" then lt l v else if op =s "greaterOrEqual" then le l v else false.
Lemma wider_float op1 op2 a b v : wider fleb fltb a b op1 op2 →
  compared fleb fltb op1 v a = true → compared fleb fltb op2 v b = true.
Proof.
  intros Hw. destruct Hw as [op Hop H|H|H|op Hop H|H|H].
  1, 4: repeat (apply elem_of_cons in Hop as [->|Hop]); try (by apply elem_of_nil in Hop).
  all: unfold compared; simpl; intros Hv; eauto using fle_fle, flt_fle, fle_flt, flt_fle_le, fle_flt_le.
Qed.
Lemma wider_int op1 op2 a b v : wider Z.leb Z.ltb a b op1 op2 →
  compared Z.leb Z.ltb op1 v a = true → compared Z.leb Z.ltb op2 v b = true.
Proof.
  intros Hw. destruct Hw as [op Hop H|H|H|op Hop H|H|H].
  1, 4: repeat (apply elem_of_cons in Hop as [->|Hop]); try (by apply elem_of_nil in Hop).
  all: unfold compared; simpl; intros Hv; lia.
Qed.
Lemma wider_ops {A} (le lt : A → A → bool) a b op1 op2 : wider le lt a b op1 op2 →
  op1 ∈ ["lessThan"; "lessOrEqual"; "greaterThan"; "greaterOrEqual"] ∧ op2 ∈ ["lessThan"; "lessOrEqual"; "greaterThan"; "greaterOrEqual"].
Proof. destruct 1; set_solver. Qed.
Lemma bound_float E ft f dt op l x r : ft !! f = Some dt → dt ∈ ["double"; "float"] → ext_parse_float E l = Some x →
  op ∈ ["lessThan"; "lessOrEqual"; "greaterThan"; "greaterOrEqual"] →
  holds E ft r (PSimple f op l GNil) ↔ ∃ v, dr_get r f = Some v ∧ compared fleb fltb op (val_float64 E v) x = true.
Proof.
  intros Hf Hdt Hx Hop. unfold holds. cbn [compile_predicate]. rewrite Hf.
  assert (get_raw_value E dt l = Ok (GF64 x)) as ->.
  { unfold get_raw_value. repeat (apply elem_of_cons in Hdt as [->|Hdt]; [simpl; by rewrite Hx|]). by apply elem_of_nil in Hdt. }
  cbn [rbind]. split.
  - intros (c & [= <-] & H). cbn [run_test] in H. unfold eval_simple in H. rewrite Hf in H. cbn [is_nil] in H.
    destruct (dr_get r f) as [v|]; [|destruct (op =s "isMissing") eqn:Ho; [apply String.eqb_eq in Ho as ->; exfalso; set_solver|done]].
    exists v. split; [done|]. revert H. unfold ordering, compared.
    assert ((dt =s "double") || (dt =s "float") = true) as ->.
    { repeat (apply elem_of_cons in Hdt as [->|Hdt]; [done|]). by apply elem_of_nil in Hdt. }
    repeat (apply elem_of_cons in Hop as [->|Hop]; [simpl; match goal with |- context [of_bool ?x] => by destruct x end|]). by apply elem_of_nil in Hop.
  - intros (v & Hv & H). eexists. split; [done|]. cbn [run_test]. unfold eval_simple. rewrite Hf, Hv. cbn [is_nil]. revert H. unfold ordering, compared.
    assert ((dt =s "double") || (dt =s "float") = true) as ->.
    { repeat (apply elem_of_cons in Hdt as [->|Hdt]; [done|]). by apply elem_of_nil in Hdt. }
    repeat (apply elem_of_cons in Hop as [->|Hop]; [simpl; by intros ->|]). by apply elem_of_nil in Hop.
Qed.
Lemma bound_int E ft f op l x r : ft !! f = Some "integer" → parse_int l = Some x →
  op ∈ ["lessThan"; "lessOrEqual"; "greaterThan"; "greaterOrEqual"] →
  holds E ft r (PSimple f op l GNil) ↔ ∃ v, dr_get r f = Some v ∧ compared Z.leb Z.ltb op (val_int64 v) x = true.
Proof.
  intros Hf Hx Hop. unfold holds. cbn [compile_predicate]. rewrite Hf.
  assert (get_raw_value E "integer" l = Ok (GInt KInt64 x)) as -> by (unfold get_raw_value; simpl; by rewrite Hx).
  cbn [rbind]. split.
  - intros (c & [= <-] & H). cbn [run_test] in H. unfold eval_simple in H. rewrite Hf in H. cbn [is_nil] in H.
    destruct (dr_get r f) as [v|]; [|destruct (op =s "isMissing") eqn:Ho; [apply String.eqb_eq in Ho as ->; exfalso; set_solver|done]].
    exists v. split; [done|]. revert H. unfold ordering, compared.
    repeat (apply elem_of_cons in Hop as [->|Hop]; [simpl; match goal with |- context [of_bool ?x] => by destruct x end|]). by apply elem_of_nil in Hop.
  - intros (v & Hv & H). eexists. split; [done|]. cbn [run_test]. unfold eval_simple. rewrite Hf, Hv. cbn [is_nil]. revert H. unfold ordering, compared.
    repeat (apply elem_of_cons in Hop as [->|Hop]; [simpl; by intros ->|]). by apply elem_of_nil in Hop.
Qed.
Lemma implied_trans E ft K p q : certain K p → implied E ft [p] q → implied E ft K q.
Proof.
  intros Hp (Hq & Hc & Ht). apply (certain_implied E ft) in Hp as (_ & Hpc & Hpt). split; [done|]. split.
  - intros HK. apply Hc. intros p' ->%elem_of_list_singleton. by apply Hpc.
  - intros r HK. apply Ht. intros p' ->%elem_of_list_singleton. by apply Hpt.
Qed.
Lemma raw_not_nil E dt l raw : get_raw_value E dt l = Ok raw → is_nil raw = false.
Proof.
  unfold get_raw_value. repeat case_str; try (by intros [= <-]).
  all: match goal with |- match ?x with _ => _ end = _ → _ => destruct x end; by intros [= <-].
Qed.
