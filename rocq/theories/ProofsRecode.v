(** Trees look only at the order of numbers. *)
From Verif Require Import Base Strconv Value Doc Expr Pred Tree Regression Model Lib
  SpecPred ProofsPred SpecExpr ProofsExpr SpecConstruct ProofsConstruct ProofsRange
  ProofsValue SpecTree ProofsTree ProofsOutput ProofsEval ProofsDoc ProofsSafe ProofsWhole ProofsSim
  SpecModel ProofsFrame ProofsMining SpecSegments ProofsSegments PropertiesModel PropertiesRename SpecRename
  SpecEquiv ProofsEssence ProofsEquiv SpecCells ProofsCells SpecRecode.

(** ** Two nodes and two rows on which all tests agree *)
Inductive tests_at (E : Ext) (ft : gmap string string) (r1 r2 : datarow) : node → node → Prop :=
| tat_node id dc cs1 cs2 ds t1 t2 sc :
    Forall2 (tests_at E ft r1 r2) cs1 cs2 → run_test E ft t1 r1 = run_test E ft t2 r2 →
    tests_at E ft r1 r2 (Node id dc cs1 ds t1 sc) (Node id dc cs2 ds t2 sc).

Section at_rows.
  Context (E : Ext) (cx : tctx) (r1 r2 : datarow).
  Notation agree := (tests_at E (cx_ft cx) r1 r2).

  Lemma at_dist id dc cs1 cs2 ds t1 t2 sc : Forall2 agree cs1 cs2 →
    output_dist cx (Node id dc cs1 ds t1 sc) = output_dist cx (Node id dc cs2 ds t2 sc).
  Proof. intros H. unfold output_dist. by rewrite (Forall2_length _ _ _ H). Qed.
  Lemma at_ids (cs1 cs2 : list node) (rs : list (list score * presult)) (m : gmap string (list score)) :
    Forall2 agree cs1 cs2 →
    foldl (λ m '(c, x), <[n_id c := x.1]> m) m (zip cs1 rs) =
    foldl (λ m '(c, x), <[n_id c := x.1]> m) m (zip cs2 rs).
  Proof.
    intros H. revert rs m. induction H as [|a b l1 l2 Hab _ IH]; intros [|x rs] m; simpl; try done.
    destruct Hab. apply IH.
  Qed.
  Lemma at_collect (cs1 cs2 : list node) (rs : list (list score * presult)) acc :
    Forall2 agree cs1 cs2 → foldl wc_collect acc (zip cs1 rs) = foldl wc_collect acc (zip cs2 rs).
  Proof.
    intros H. revert rs acc. induction H as [|a b l1 l2 Hab _ IH]; intros [|x rs] acc; simpl; try done.
    destruct Hab. apply IH.
  Qed.

  Ltac start n1 n2 :=
    let id := fresh "id" in let IH := fresh "IH" in
    induction n1 as [id dc cs1 ds t1 sc IH] using node_rect'; intros n2 Hn;
    inversion Hn as [? ? ? cs2 ? ? t2 ? Hcs Ht]; subst; clear Hn.

  Lemma at_with {A} (f g : node → A) (cs1 cs2 : list node) :
    Forall (λ c1, ∀ c2, agree c1 c2 → f c1 = g c2) cs1 → Forall2 agree cs1 cs2 →
    Forall2 (λ a b, f a = g b) cs1 cs2.
  Proof.
    intros H1 H2. induction H2 as [|a b l1 l2 Hab _ IH]; [constructor|].
    apply Forall_cons in H1 as [Ha H1]. constructor; auto.
  Qed.
  Lemma at_with_i {A} (f g : nat → node → A) (cs1 cs2 : list node) :
    Forall (λ c1, ∀ c2, agree c1 c2 → ∀ i, f i c1 = g i c2) cs1 → Forall2 agree cs1 cs2 →
    Forall2 (λ a b, ∀ i, f i a = g i b) cs1 cs2.
  Proof.
    intros H1 H2. induction H2 as [|a b l1 l2 Hab _ IH]; [constructor|].
    apply Forall_cons in H1 as [Ha H1]. constructor; auto.
  Qed.

  Lemma at_none n1 : ∀ n2, agree n1 n2 → eval_none E cx r1 n1 = eval_none E cx r2 n2.
  Proof.
    start n1 n2. cbn [eval_none]. rewrite Ht. destruct (run_test E (cx_ft cx) t2 r2) as [v| |]; simpl; try done.
    destruct v; try done. rewrite (at_dist id dc cs1 cs2 ds t1 t2 sc) by done.
    by apply first_true_Forall2, at_with.
  Qed.
  Lemma at_null n1 : ∀ n2, agree n1 n2 → eval_null E cx r1 n1 = eval_null E cx r2 n2.
  Proof.
    start n1 n2. cbn [eval_null]. rewrite Ht. destruct (run_test E (cx_ft cx) t2 r2) as [v| |]; simpl; try done.
    destruct v; try done. rewrite (at_dist id dc cs1 cs2 ds t1 t2 sc) by done.
    by apply first_known_Forall2, at_with.
  Qed.
  Lemma at_last n1 : ∀ n2, agree n1 n2 → eval_last E cx r1 n1 = eval_last E cx r2 n2.
  Proof.
    start n1 n2. cbn [eval_last]. rewrite Ht, (at_dist id dc cs1 cs2 ds t1 t2 sc) by done.
    by rewrite (rmap_Forall2 _ (eval_last E cx r2) cs1 cs2) by by apply at_with.
  Qed.
  Lemma at_default n1 : ∀ n2, agree n1 n2 → eval_default E cx r1 n1 = eval_default E cx r2 n2.
  Proof.
    start n1 n2. cbn [eval_default]. rewrite Ht, (at_dist id dc cs1 cs2 ds t1 t2 sc) by done.
    rewrite (rmap_Forall2 _ (eval_default E cx r2) cs1 cs2) by by apply at_with.
    destruct (run_test E (cx_ft cx) t2 r2) as [[| |]| |]; simpl; try done.
    all: destruct (rmap _ _) as [rs| |]; simpl; try done; by rewrite (at_ids cs1 cs2).
  Qed.
  Lemma at_weighted n1 : ∀ n2, agree n1 n2 → ∀ t, eval_weighted E cx r1 t n1 = eval_weighted E cx r2 t n2.
  Proof.
    start n1 n2. intros t. cbn [eval_weighted]. rewrite Ht, (at_dist id dc cs1 cs2 ds t1 t2 sc) by done.
    rewrite (rmapi_Forall2 _ (λ i c, eval_weighted E cx r2 (i :: t) c) cs1 cs2).
    2:{ apply (at_with_i (λ i c, eval_weighted E cx r1 (i :: t) c)); [|done].
        eapply Forall_impl; [exact IH|]. simpl. auto. }
    destruct (run_test E (cx_ft cx) t2 r2) as [[| |]| |]; simpl; try done.
    all: destruct (rmapi _ _ _) as [rs| |]; simpl; try done; by rewrite (at_collect cs1 cs2).
  Qed.
  Lemma at_aggregate n1 : ∀ n2, agree n1 n2 → ∀ t, eval_aggregate E cx r1 t n1 = eval_aggregate E cx r2 t n2.
  Proof.
    start n1 n2. intros t. cbn [eval_aggregate]. rewrite Ht, (at_dist id dc cs1 cs2 ds t1 t2 sc) by done.
    rewrite (rmapi_Forall2 _ (λ i c, eval_aggregate E cx r2 (i :: t) c) cs1 cs2); [done|].
    apply (at_with_i (λ i c, eval_aggregate E cx r1 (i :: t) c)); [|done].
    eapply Forall_impl; [exact IH|]. simpl. auto.
  Qed.
  Lemma node_evaluate_at st tk n1 n2 :
    agree n1 n2 → node_evaluate E cx st r1 tk n1 = node_evaluate E cx st r2 tk n2.
  Proof.
    intros H. unfold node_evaluate. repeat case_str;
      auto using at_null, at_aggregate, at_weighted, at_default, at_last, at_none.
  Qed.
End at_rows.

(** ** Rows in other units *)
Section rows.
  Context (E : Ext) (F : list string) (R : string → f64 → f64 → Prop).
  Notation rec := (recoded_rows F R).
  Definition rec_rows (r1 r2 : datarow) : Prop := ∃ m1 m2, r1 = Some m1 ∧ r2 = Some m2 ∧ rec m1 m2.
  Definition rec_out {X Y} (a : res datarow * datarow * X) (b : res datarow * datarow * Y) : Prop :=
    a.1.1 = b.1.1 ∧ rec_rows a.1.2 b.1.2.

  Lemma rec_other m1 m2 k : rec m1 m2 → k ∉ F → m1 !! k = m2 !! k.
  Proof. intros H Hk. specialize (H k). by rewrite decide_False in H. Qed.
  Lemma rec_set m1 m2 k v : k ∉ F → rec m1 m2 → rec (<[k := v]> m1) (<[k := v]> m2).
  Proof.
    intros Hk H j. specialize (H j). case_decide as Hj.
    - rewrite !lookup_insert_ne by (by intros ->). done.
    - destruct (decide (k = j)) as [->|Hkj]; [by rewrite !lookup_insert|]. by rewrite !lookup_insert_ne.
  Qed.
  Lemma rec_impute tk d r1 r2 : (∀ k, k ∈ F → d !! k = None) → rec_rows r1 r2 →
    ∃ a b, impute E tk d r1 = Ok a ∧ impute E tk d r2 = Ok b ∧ rec_rows a b.
  Proof.
    intros Hd (m1 & m2 & -> & -> & H). rewrite !impute_some. do 2 eexists. split; [done|]. split; [done|].
    do 2 eexists. split; [done|]. split; [done|]. intros k. rewrite !fill_lookup. specialize (H k). case_decide as Hk.
    - rewrite (Hd k Hk). destruct H as [[-> ->]|(x & y & -> & -> & Hr)]; simpl; [by left|]. right. by exists x, y.
    - by rewrite H.
  Qed.
  Lemma rec_copy tk last r1 r2 : (∀ k, k ∈ F → dr_get last k = None) → rec_rows r1 r2 →
    ∃ a b, copy_into E tk last r1 = Ok a ∧ copy_into E tk last r2 = Ok b ∧ rec_rows a b.
  Proof.
    intros Hl (m1 & m2 & -> & -> & H). rewrite !copy_into_some. do 2 eexists. split; [done|]. split; [done|].
    do 2 eexists. split; [done|]. split; [done|]. intros k. rewrite !lookup_union. specialize (H k). case_decide as Hk.
    - assert (default ∅ last !! k = None) as ->. { specialize (Hl k Hk). by destruct last. }
      destruct H as [[-> ->]|(x & y & -> & -> & Hr)]; [by left|]. right. by exists x, y.
    - by rewrite H.
  Qed.
  Lemma rec_input lt r1 r2 : (∀ f, f ∈ F → f ∉ derived_from lt ∧ f ∉ map df_name lt) → rec_rows r1 r2 →
    (handle_input E lt r1).1 = (handle_input E lt r2).1 ∧ rec_rows (handle_input E lt r1).2 (handle_input E lt r2).2.
  Proof.
    revert r1 r2. induction lt as [|df lt IH]; intros r1 r2 Hlt Hr; [done|]. unfold derived_from in Hlt. simpl in Hlt.
    destruct Hr as (m1 & m2 & -> & -> & H). simpl.
    rewrite (handle_expr_local E (df_expr df) (Some m1) (Some m2)).
    2:{ intros f Hf. simpl. apply (rec_other m1 m2 f H). intros HF. apply Hlt in HF as [HF _]. set_solver. }
    destruct (handle_expr E (df_expr df) (Some m2)) as [v| |].
    2-3: split; [done|]; by exists m1, m2.
    simpl. apply IH.
    - intros f Hf. apply Hlt in Hf as [H1 H2]. unfold derived_from. set_solver.
    - do 2 eexists. split; [done|]. split; [done|]. apply rec_set; [|done]. intros HF. apply Hlt in HF as [_ HF]. set_solver.
  Qed.

  (** ** Ensembles *)
  Section segments.
    Context (tk : ticket) (ev1 ev2 : nat → emodel → datarow → outcome emodel) (Q : bool).
    Notation ok := (Forall2 (λ s1 s2, ∀ i r1 r2, rec_rows r1 r2 → rec_out (ev1 i s1 r1) (ev2 i s2 r2) ∧
      (Q = true → ∀ out, (ev1 i s1 r1).1.1 = Ok out → ∀ k, k ∈ F → dr_get out k = None))).

    Lemma rec_chain sm1 sm2 : Q = true → ok sm1 sm2 → ∀ i last r1 r2, (∀ k, k ∈ F → dr_get last k = None) → rec_rows r1 r2 →
      rec_out (chain E tk ev1 i last sm1 r1) (chain E tk ev2 i last sm2 r2).
    Proof.
      intros HQ. induction 1 as [|s1 s2 sm1 sm2 Hs _ IH]; intros i last r1 r2 Hl Hr; [done|]. cbn [chain].
      destruct (rec_copy (0 :: i :: tk) last r1 r2 Hl Hr) as (a & b & -> & -> & Hab).
      destruct (Hs i _ _ Hab) as [[H1 H2] H3]. specialize (H3 HQ).
      destruct (ev1 i s1 a) as [[o1 r1'] s1'], (ev2 i s2 b) as [[o2 r2'] s2']. cbn [fst snd] in H1, H2, H3. subst o2.
      destruct o1 as [out| |]; [|by split..]. specialize (IH (S i) out r1' r2' (H3 _ eq_refl) H2).
      fold (chain E tk ev1). fold (chain E tk ev2).
      destruct (chain E tk ev1 _ _ _ r1') as [[? ?] ?], (chain E tk ev2 _ _ _ r2') as [[? ?] ?]. exact IH.
    Qed.
    Lemma rec_sum cl sm1 sm2 : ok sm1 sm2 → ∀ i sc r1 r2, rec_rows r1 r2 →
      (sum_segments E tk cl ev1 i sc sm1 r1).1.1 = (sum_segments E tk cl ev2 i sc sm2 r2).1.1 ∧
      rec_rows (sum_segments E tk cl ev1 i sc sm1 r1).1.2 (sum_segments E tk cl ev2 i sc sm2 r2).1.2.
    Proof.
      induction 1 as [|s1 s2 sm1 sm2 Hs _ IH]; intros i sc r1 r2 Hr; [done|]. cbn [sum_segments].
      destruct (Hs i _ _ Hr) as [[H1 H2] _].
      destruct (ev1 i s1 r1) as [[o1 r1'] s1'], (ev2 i s2 r2) as [[o2 r2'] s2']. cbn [fst snd] in H1, H2. subst o2.
      destruct o1 as [out| |]; [|by split..].
      specialize (IH (S i) (score_add E (1 :: i :: tk) cl out sc) r1' r2' H2).
      fold (sum_segments E tk cl ev1). fold (sum_segments E tk cl ev2).
      destruct (sum_segments E tk cl ev1 _ _ _ r1') as [[? ?] ?], (sum_segments E tk cl ev2 _ _ _ r2') as [[? ?] ?]. exact IH.
    Qed.
    Lemma rec_run h sm1 sm2 r1 r2 : (mm_method (em_hdr h) = "modelChain" → Q = true) → ok sm1 sm2 → rec_rows r1 r2 →
      rec_out (run_method E tk h ev1 sm1 r1) (run_method E tk h ev2 sm2 r2).
    Proof.
      intros HQ Hs Hr. unfold run_method, average_models, sum_models.
      destruct (rec_sum (mm_function (em_hdr h) =s "classification") sm1 sm2 Hs 0 (score_init (em_outputs h) (em_targets h)) r1 r2 Hr) as [H1 H2].
      destruct (sum_segments E tk _ ev1 _ _ sm1 r1) as [[o1 r1'] s1], (sum_segments E tk _ ev2 _ _ sm2 r2) as [[o2 r2'] s2].
      cbn [fst snd] in H1, H2. subst o2.
      destruct (_ =s "average"); [by destruct o1|]. destruct (_ =s "sum"); [by destruct o1|].
      destruct (String.eqb_spec (mm_method (em_hdr h)) "modelChain") as [Hc|_].
      { apply rec_chain; [by apply HQ|done|by intros|done]. }
      destruct (_ =s "selectFirst"); [|by split].
      destruct Hs as [|s1' s2' sm1 sm2 Hs _]; [by split|]. cbn [select_first]. destruct (Hs 0 r1 r2 Hr) as [Hs' _].
      destruct (ev1 0 s1' r1) as [[? ?] ?], (ev2 0 s2' r2) as [[? ?] ?]. exact Hs'.
    Qed.
  End segments.

  (** ** One test *)
  Context (HR : same_order F R).

  Lemma order_simple ft f op x y a b m1 m2 raw1 raw2 dt :
    ft !! f = Some dt → dt = "double" ∨ dt = "float" → f ∈ F →
    raw1 = GF64 x → raw2 = GF64 y → R f x y → a = Some m1 → b = Some m2 → rec m1 m2 →
    eval_simple E ft f op raw1 a = eval_simple E ft f op raw2 b.
  Proof.
    intros Hft Hdt Hf -> -> Hxy -> -> Hm. unfold eval_simple. rewrite Hft. cbn [is_nil dr_get].
    specialize (Hm f). rewrite decide_True in Hm by done. destruct Hm as [[-> ->]|(u & v & -> & -> & Huv)]; [done|].
    pose proof (HR f u x v y Hf Huv Hxy) as H1. pose proof (HR f x u y v Hf Hxy Huv) as H2.
    unfold ordering. assert ((dt =s "double") || (dt =s "float") = true) as -> by (by destruct Hdt as [-> | ->]).
    cbn [as_f64 rbind gov_eqb val_float64]. unfold fleb, fltb, feqb, SFleb, SFltb, SFeqb. by rewrite H1, H2.
  Qed.
  Lemma recoded_compiles ft p1 p2 q1 :
    (∀ f, f ∈ F → ft !! f = Some "double" ∨ ft !! f = Some "float") →
    recoded_pred E F R p1 p2 → compile_predicate E ft p1 = Ok q1 →
    ∃ q2, compile_predicate E ft p2 = Ok q2 ∧ ∀ m1 m2, rec m1 m2 →
      eval_operand E ft (Some m1) q1 = eval_operand E ft (Some m2) q2 ∧
      run_test E ft q1 (Some m1) = run_test E ft q2 (Some m2).
  Proof.
    intros HF. revert p2 q1. induction p1 as [| |f op s raw|b ps IH|b f arr|] using predicate_rect'; intros p2 q1 Hp Hq;
      inversion Hp as [f' op' s1 s2 raw1 raw2 x y Hf H1 H2 Hxy|f' op' s' raw' Hf|b' ps' qs' Hps| | | |]; subst;
      try by (injection Hq as <-; eexists; split; [done|]; intros; split; reflexivity).
    - cbn [compile_predicate] in Hq |- *.
      assert (∃ dt, ft !! f = Some dt ∧ (dt = "double" ∨ dt = "float")) as (dt & Hft & Hdt) by (destruct (HF f Hf); eauto).
      rewrite Hft in *.
      assert (get_raw_value E dt s = Ok (GF64 x) ∧ get_raw_value E dt s2 = Ok (GF64 y)) as [Ha Hb].
      { unfold get_raw_value. rewrite H1, H2. by destruct Hdt as [-> | ->]. }
      rewrite Ha in Hq. rewrite Hb. injection Hq as <-. eexists. split; [done|]. intros m1 m2 Hm.
      cbn [eval_operand run_test]. split; by eapply order_simple.
    - exists q1. split; [done|]. cbn [compile_predicate] in Hq. destruct (ft !! f) as [dt|]; [|done].
      destruct (get_raw_value E dt s); [|done..]. injection Hq as <-. intros m1 m2 Hm. cbn [eval_operand run_test].
      rewrite (eval_simple_local E ft f op a (Some m1) (Some m2)); [done|]. simpl. by apply rec_other.
    - cbn [compile_predicate] in Hq |- *. apply rbind_ok in Hq as (qs & Hqs & [= <-]). apply rmap_ok in Hqs.
      assert (∃ qs2, rmap (compile_predicate E ft) qs' = Ok qs2 ∧ length qs2 = length qs ∧
        ∀ m1 m2, rec m1 m2 → Forall2 (λ q1 q2, eval_operand E ft (Some m1) q1 = eval_operand E ft (Some m2) q2) qs qs2) as (qs2 & -> & Hlen & Hqs2).
      { clear Hp. revert qs Hqs. induction Hps as [|p1 p2 ps qs' Hp _ IHp]; intros qs Hqs.
        - inversion Hqs. subst. exists []. split; [done|]. split; [done|]. intros. constructor.
        - inversion Hqs as [|? q1 ? qs1 Hq1 Hqs1]. subst. apply Forall_cons in IH as [IH1 IH].
          destruct (IH1 _ _ Hp Hq1) as (q2 & Hq2 & He). destruct (IHp IH _ Hqs1) as (qs2 & Hqs2 & Hlen & Hes).
          exists (q2 :: qs2). cbn [rmap]. rewrite Hq2, Hqs2. split; [done|]. split; [simpl; by rewrite Hlen|].
          intros m1 m2 Hm. constructor; [by apply He|by apply Hes]. }
      eexists. split; [done|]. intros m1 m2 Hm. cbn [eval_operand run_test]. unfold eval_compound.
      specialize (Hqs2 m1 m2 Hm). rewrite Hlen.
      assert (∀ n tc uc, compound_loop (eval_operand E ft (Some m1)) b n qs tc uc =
        compound_loop (eval_operand E ft (Some m2)) b n qs2 tc uc) as H; [|by split].
      intros n. clear Hlen Hqs. induction Hqs2 as [|q1 q2 qs qs2 Hq _ IHq]; intros tc uc; [done|].
      cbn [compound_loop]. rewrite Hq. destruct (eval_operand E ft (Some m2) q2) as [v| |]; simpl; try done.
      destruct (_ && _); [done|]. destruct v; apply IHq.
  Qed.
  Lemma recoded_node ft m1 m2 n1 :
    (∀ f, f ∈ F → ft !! f = Some "double" ∨ ft !! f = Some "float") →
    same_nodes (recoded_pred E F R) m1 m2 → new_node E ft m1 = Ok n1 →
    ∃ n2, new_node E ft m2 = Ok n2 ∧ ∀ q1 q2, rec q1 q2 → tests_at E ft (Some q1) (Some q2) n1 n2.
  Proof.
    intros HF. revert m2 n1. induction m1 as [id dc sc c ds ns1 p1 IH] using mnode_rect'. intros m2 n1 Hm.
    inversion Hm as [? ? ? ? ? ? ns2 ? p2 Hns Hp]; subst; clear Hm. cbn [new_node].
    intros (cs1 & Hcs1 & (q1 & Hq1 & [= <-])%rbind_ok)%rbind_ok.
    destruct (recoded_compiles ft _ _ _ HF Hp Hq1) as (q2 & -> & Hq).
    assert (∃ cs2, rmap (new_node E ft) ns2 = Ok cs2 ∧
      ∀ q1 q2, rec q1 q2 → Forall2 (tests_at E ft (Some q1) (Some q2)) cs1 cs2) as (cs2 & -> & Hcs2).
    { clear -IH Hns Hcs1. revert cs1 Hcs1. induction Hns as [|a b l1 l2 Hab _ IHl]; intros cs1 Hcs1.
      { simpl in Hcs1. injection Hcs1 as <-. eauto. }
      apply Forall_cons in IH as [Ha IH]. cbn [rmap] in Hcs1 |- *.
      apply rbind_ok in Hcs1 as (x & Hx & (xs & Hxs & [= <-])%rbind_ok).
      destruct (Ha _ _ Hab Hx) as (y & -> & Hy). destruct (IHl IH _ Hxs) as (ys & -> & Hys). simpl.
      eexists. split; [done|]. intros. constructor; auto. }
    eexists. split; [done|]. intros. constructor; [by apply Hcs2|]. by apply Hq.
  Qed.
End rows.

(** ** Documents *)
Section doc.
  Context (E : Ext) (dd : list data_field) (F : list string) (R : string → f64 → f64 → Prop) (HR : same_order F R).

  Definition stands_recoded (d1 d2 : doc_model) : Prop :=
    ∀ td e1 td', all_double dd td F → only_split dd d1 F → new_model E dd td d1 = (Ok e1, td') →
    ∃ e2, new_model E dd td d2 = (Ok e2, td') ∧
      ∀ tk r1 r2, rec_rows F R r1 r2 → rec_out F R (evaluate E tk e1 r1) (evaluate E tk e2 r2).

  Lemma all_double_app td l : all_double dd td F → (∀ f, f ∈ F → f ∉ map df_name l) → all_double dd (td ++ l) F.
  Proof. intros H Hl f Hf. rewrite types_untouched by auto. auto. Qed.

  Lemma tree_recoded t n : same_nodes (recoded_pred E F R) (tm_node t) n → stands_recoded (DTree t) (DTree (with_node t n)).
  Proof.
    intros Hn td e1 td' Hty Ho. cbn [new_model]. unfold new_tree_model, tree_validate, with_node.
    cbn [et_model tm_function et_dd et_ft et_root et_outkeys et_target et_compiled].
    destruct (_ && _); [done|].
    unfold tree_compile. cbn [et_model tm_lt tm_schema tm_node et_dd et_target et_validated et_compiled et_outkeys et_root
      tm_function tm_strategy tm_penalty tm_notrue tm_verification].
    assert (∀ f, f ∈ F → f ∉ derived_from (tm_lt t) ∧ f ∉ map df_name (tm_lt t)) as Hlt.
    { intros f Hf. destruct (Ho f Hf) as [H1 H2]. split; [exact H1|]. intros Hin. apply H2.
      unfold written_names. simpl. rewrite app_nil_r. apply elem_of_app. by left. }
    assert (all_double dd (td ++ tm_lt t) F) as Hty' by (apply all_double_app; [done|]; intros f Hf; by apply Hlt).
    destruct (new_node E _ (tm_node t)) as [n1|x|p] eqn:H1; [|done..]. intros [= <- <-].
    destruct (recoded_node E F R HR _ _ _ _ Hty' Hn H1) as (n2 & -> & Ha).
    eexists. split; [done|]. intros tk r1 r2 Hr. cbn [evaluate]. unfold tree_evaluate.
    cbn [et_validated et_compiled negb et_model tm_lt tm_strategy tm_schema et_root].
    destruct (rec_input E F R (tm_lt t) r1 r2 Hlt Hr) as [H2 H3].
    destruct (handle_input E (tm_lt t) r1) as [o1 r1'], (handle_input E (tm_lt t) r2) as [o2 r2'].
    cbn [fst snd] in H2, H3. subst o2. destruct o1 as [u|x|p]; [|by split..].
    unfold tree_ctx. cbn [et_ft et_dd et_target et_model tm_penalty tm_notrue].
    rewrite (node_evaluate_at E _ r1' r2' _ tk n1 n2).
    2:{ destruct H3 as (m1 & m2 & -> & -> & H3). by apply Ha. }
    destruct (node_evaluate _ _ _ _ _ _) as [[s v]| |]; [|by split..]. destruct v; [by split| |by split].
    unfold tree_output. cbn [et_model tm_function et_target et_outkeys].
    destruct (_ =s "classification"); [by destruct (foldl _ _ _)|].
    destruct (_ =s "regression"); [|by split]. done.
  Qed.

  (** sub-documents write and compute less *)
  Lemma seg_sub {A} (f : doc_model → list A) segs s d : s ∈ segs → d ∈ sg_models s →
    ∀ x, x ∈ f d → x ∈ concat (map (λ s, concat (map f (sg_models s))) segs).
  Proof.
    intros Hs Hd x Hx. apply concat_map_in. exists s. split; [done|]. apply concat_map_in. by exists d.
  Qed.
  Lemma output_sub h segs s d : s ∈ segs → d ∈ sg_models s →
    ∀ k, k ∈ output_names dd d → k ∈ output_names dd (DMining h segs).
  Proof.
    intros Hs Hd k. unfold output_names. rewrite !elem_of_app, !concat_map_in.
    intros [(x & Hx & Hk)|[(x & Hx & Hk)|(x & Hx & Hk)]]; [left|right; left|do 2 right]; exists x; (split; [|done]).
    - by eapply (seg_sub doc_trees).
    - by eapply (seg_sub doc_regrs).
    - cbn [doc_headers]. right. by eapply (seg_sub doc_headers).
  Qed.
  Lemma written_sub h segs s d : s ∈ segs → d ∈ sg_models s →
    ∀ k, k ∈ written_names dd d → k ∈ written_names dd (DMining h segs).
  Proof.
    intros Hs Hd k. unfold written_names. rewrite !elem_of_app, !concat_map_in.
    intros [(x & Hx & Hk)|[(x & Hx & Hk)|[(x & Hx & Hk)|Hk]]]; [left|right; left|do 2 right; left|do 3 right].
    - exists x. split; [|done]. by eapply (seg_sub doc_trees).
    - exists x. split; [|done]. cbn [doc_headers]. right. by eapply (seg_sub doc_headers).
    - exists x. split; [|done]. cbn [doc_headers]. right. by eapply (seg_sub doc_headers).
    - case_decide as He; [|by apply elem_of_nil in Hk]. rewrite decide_True; [by eapply output_sub|].
      cbn [doc_headers]. right. apply Exists_exists in He as (x & Hx & He). apply Exists_exists. exists x. split; [|done].
      by eapply (seg_sub doc_headers).
  Qed.
  Lemma computed_sub h segs s d : s ∈ segs → d ∈ sg_models s →
    ∀ k, k ∈ computed_from d → k ∈ computed_from (DMining h segs).
  Proof.
    intros Hs Hd k Hk. cbn [computed_from]. apply elem_of_app. right. apply concat_map_in. exists s. split; [done|].
    destruct s as [i p ms]. apply concat_map_in. by exists d.
  Qed.

  Lemma segments_recoded h segs0 Q segs1 segs2 :
    (∀ s, s ∈ segs1 → s ∈ segs0) → only_split dd (DMining h segs0) F →
    (Q = true → ∀ k, k ∈ F → k ∉ output_names dd (DMining h segs0)) →
    Forall2 (λ s1 s2, Forall2 stands_recoded (sg_models s1) (sg_models s2)) segs1 segs2 →
    let rel := λ e1 e2, ∀ tk r1 r2, rec_rows F R r1 r2 → rec_out F R (evaluate E tk e1 r1) (evaluate E tk e2 r2) ∧
      (Q = true → ∀ out, (evaluate E tk e1 r1).1.1 = Ok out → ∀ k, k ∈ F → dr_get out k = None) in
    ∀ td a1 a2 s1 td', all_double dd td F → Forall2 rel a1 a2 →
    compile_segments (new_model E dd) td a1 segs1 = (Ok tt, s1, td') →
    ∃ s2, compile_segments (new_model E dd) td a2 segs2 = (Ok tt, s2, td') ∧ Forall2 rel s1 s2.
  Proof.
    intros Hsub Ho HQ Hf rel. revert Hsub. induction Hf as [|[i1 ps1 ms1] [i2 ps2 ms2] segs1 segs2 Hs _ IH]; intros Hsub td a1 a2 s1 td' Hty Ha Hc.
    { simpl in Hc. injection Hc as <- <-. simpl. eauto. }
    simpl in Hs. cbn [compile_segments] in Hc |- *.
    destruct Hs as [|d1 d2 ms1 ms2 Hd Hs]; [done|]. destruct Hs; [|done].
    assert (Segment i1 ps1 [d1] ∈ segs0) as Hin by (apply Hsub; by left).
    assert (d1 ∈ sg_models (Segment i1 ps1 [d1])) as Hin' by by left.
    assert (only_split dd d1 F) as Ho1.
    { intros f Hf. destruct (Ho f Hf) as [H1 H2]. split; intros Hx; [apply H1|apply H2]; [by eapply computed_sub|by eapply written_sub]. }
    destruct (new_model E dd td d1) as [[e1|x|p] td1] eqn:H1; try done.
    destruct (Hd _ _ _ Hty Ho1 H1) as (e2 & -> & He). eapply IH; [| | |exact Hc].
    - intros s Hs. apply Hsub. by right.
    - assert (td1 = td ++ doc_locals d1) as ->. { eapply accepted_td, new_model_accepted; done. }
      apply all_double_app; [done|]. intros f Hf Hx. destruct (Ho1 f Hf) as [_ Hw]. by apply Hw, locals_written.
    - apply Forall2_app; [done|]. constructor; [|done]. intros tk r1 r2 Hr. split; [by apply He|].
      intros HQt out Hout k Hk. destruct (dr_get out k) eqn:Hg; [|done]. exfalso. apply (HQ HQt k Hk).
      eapply output_sub; [done..|]. apply (C29_output_names E dd td d1 e1 td1 [] tk r1 out H1 Hout k). by rewrite Hg.
  Qed.

  Lemma recoded_stands d1 d2 : recoded E F R d1 d2 → stands_recoded d1 d2.
  Proof.
    revert d2. induction d1 as [t|m|k|h segs IH] using doc_rect'; intros d2 Hr; inversion Hr as [t1 t2 Ht| | |h' sg1 segs2 Hsegs]; subst.
    - inversion Ht as [t' n Hn]; subst. by apply tree_recoded.
    - intros td e1 td' Hty Ho. simpl. intros [= <- <-]. eexists. split; [done|]. intros tk r1 r2 Hr'. cbn [evaluate]. split; [|done].
      cbn [fst]. destruct Hr' as (m1 & m2 & -> & -> & H).
      pose proof (C88_inputs E dd td (DRegr m) _ _ [] [] tk (Some m1) (Some m2) eq_refl) as H8. cbn in H8. apply H8; [done|].
      intros f Hf. simpl. eapply rec_other; [done|]. intros HF. apply Ho in HF as [HF _]. by apply HF.
    - by intros td e1 td'.
    - intros td e1 td' Hty Ho.
      assert (Forall2 (λ s1 s2, Forall2 stands_recoded (sg_models s1) (sg_models s2)) segs segs2) as Hs.
      { clear -IH Hsegs. induction Hsegs as [|s1 s2 l1 l2 Hs _ IHl]; [constructor|].
        apply Forall_cons in IH as [IH1 IH]. constructor; [|by apply IHl].
        clear -IH1 Hs. induction Hs as [|a b la lb Hab _ IHa]; [constructor|].
        apply Forall_cons in IH1 as [H1 IH1]. constructor; [by apply H1|by apply IHa]. }
      assert (∀ f, f ∈ F → f ∉ derived_from (mm_lt h) ∧ f ∉ map df_name (mm_lt h)) as Hlt.
      { intros f Hf. destruct (Ho f Hf) as [H1 H2]. cbn [computed_from] in H1. split; [set_solver|]. intros Hin. apply H2.
        apply (written_lt dd (DMining h segs) h); [by left|done]. }
      rewrite !new_model_mining. destruct (negb _); [done|].
      destruct (List.find _ _); [done|].
      destruct (compile_segments (new_model E dd) _ _ _) as [[[[]|x|p] s1] t1] eqn:Hc; try done.
      intros [= <- <-].
      destruct (segments_recoded h segs (mm_method h =s "modelChain") segs segs2) with (td := td ++ mm_lt h) (a1 := @nil emodel) (a2 := @nil emodel) (s1 := s1) (td' := t1) as (s2 & -> & He); try done.
      { intros HQ k Hk Hin. apply String.eqb_eq in HQ. destruct (Ho k Hk) as [_ Hw]. apply Hw. unfold written_names.
        rewrite !elem_of_app. do 3 right. rewrite decide_True; [done|]. cbn [doc_headers]. by left. }
      { apply all_double_app; [done|]. intros f Hf. by apply Hlt. }
      eexists. split; [done|]. intros tk r1 r2 Hr'. rewrite !mining_evaluate_run by done.
      cbn [built_mining em_defaults em_hdr].
      destruct (rec_impute E F R (4 :: tk) (default_values (mm_schema h)) r1 r2) as (a & b & -> & -> & Hab); [|done|].
      { intros k Hk. destruct (default_values (mm_schema h) !! k) eqn:Hd; [|done]. exfalso. destruct (Ho k Hk) as [_ Hw]. apply Hw.
        apply (written_default dd (DMining h segs) h); [by left|]. apply default_values_keys. by rewrite Hd. }
      rewrite header_of_lt. destruct (rec_input E F R (mm_lt h) a b Hlt Hab) as [H1 H2].
      destruct (handle_input E (mm_lt h) a) as [o1 r1'], (handle_input E (mm_lt h) b) as [o2 r2'].
      cbn [fst snd] in H1, H2. subst o2. destruct o1 as [[]| |]; [|by split..].
      rewrite (run_method_header E tk _ (built_mining dd td h segs2));
        [|done|cbn; by eapply Forall2_length|done..].
      assert (rec_out F R (run_method E tk (built_mining dd td h segs2) (λ i s r, evaluate E (5 :: i :: tk) s r) s1 r1')
                (run_method E tk (built_mining dd td h segs2) (λ i s r, evaluate E (5 :: i :: tk) s r) s2 r2')) as H3.
      { eapply (rec_run E F R tk _ _ (mm_method h =s "modelChain")); [| |done].
        - cbn [built_mining em_hdr]. unfold header_of. intros Hm. apply String.eqb_eq. revert Hm. by case_str.
        - eapply Forall2_impl; [exact He|]. intros x y Hxy i q1 q2 Hq. by apply Hxy. }
      destruct (run_method _ _ _ _ s1 _) as [[? ?] ?], (run_method _ _ _ _ s2 _) as [[? ?] ?]. exact H3.
  Qed.
End doc.
