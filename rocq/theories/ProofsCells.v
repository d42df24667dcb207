(** Rows on the same sides of all splits. *)
From Verif Require Import Base Strconv Value Doc Expr Pred Tree Regression Model Lib
  SpecPred ProofsPred SpecExpr ProofsExpr SpecConstruct ProofsConstruct ProofsRange
  ProofsValue SpecTree ProofsTree ProofsOutput ProofsEval ProofsDoc ProofsSafe ProofsWhole ProofsSim
  SpecModel SpecRename ProofsMining SpecSegments ProofsSegments PropertiesModel PropertiesRename SpecCells.

(** ** Rows that differ only where [C] allows *)
Section cells.
  Context (E : Ext) (C : string → gov → gov → Prop) (HC : ∀ f v1 v2, C f v1 v2 → v1 ≠ GNil ∧ v2 ≠ GNil).

  Definition cell_maps (m1 m2 : row) : Prop :=
    ∀ k, m1 !! k = m2 !! k ∨ ∃ v1 v2, m1 !! k = Some v1 ∧ m2 !! k = Some v2 ∧ C k v1 v2.
  Definition cell (r1 r2 : datarow) : Prop := ∃ m1 m2, r1 = Some m1 ∧ r2 = Some m2 ∧ cell_maps m1 m2.
  Definition out_cell {X Y} (a : res datarow * datarow * X) (b : res datarow * datarow * Y) : Prop :=
    a.1.1 = b.1.1 ∧ cell a.1.2 b.1.2.

  Lemma cell_set m1 m2 k v : cell_maps m1 m2 → cell_maps (<[k := v]> m1) (<[k := v]> m2).
  Proof.
    intros H j. destruct (decide (k = j)) as [->|Hk]; [left; by rewrite !lookup_insert|].
    rewrite !lookup_insert_ne by done. apply H.
  Qed.
  Lemma cell_impute tk d r1 r2 : cell r1 r2 →
    ∃ a b, impute E tk d r1 = Ok a ∧ impute E tk d r2 = Ok b ∧ cell a b.
  Proof.
    intros (m1 & m2 & -> & -> & H). rewrite !impute_some. do 2 eexists. split; [done|]. split; [done|].
    do 2 eexists. split; [done|]. split; [done|]. intros k. rewrite !fill_lookup.
    destruct (H k) as [->|(v1 & v2 & H1 & H2 & Hc)]; [by left|]. right. exists v1, v2. rewrite H1, H2.
    destruct (HC _ _ _ Hc). by destruct v1, v2.
  Qed.
  Lemma cell_copy tk last r1 r2 : cell r1 r2 →
    ∃ a b, copy_into E tk last r1 = Ok a ∧ copy_into E tk last r2 = Ok b ∧ cell a b.
  Proof.
    intros (m1 & m2 & -> & -> & H). rewrite !copy_into_some. do 2 eexists. split; [done|]. split; [done|].
    do 2 eexists. split; [done|]. split; [done|]. intros k. rewrite !lookup_union.
    destruct (H k) as [->|(v1 & v2 & H1 & H2 & Hc)]; [by left|]. rewrite H1, H2.
    destruct (default ∅ last !! k); [by left|]. right. by exists v1, v2.
  Qed.
  Lemma cell_input lt r1 r2 : (∀ f v1 v2, C f v1 v2 → f ∉ derived_from lt) → cell r1 r2 →
    (handle_input E lt r1).1 = (handle_input E lt r2).1 ∧ cell (handle_input E lt r1).2 (handle_input E lt r2).2.
  Proof.
    revert r1 r2. induction lt as [|df lt IH]; intros r1 r2 Hlt Hr; [done|]. unfold derived_from in Hlt. simpl in Hlt.
    destruct Hr as (m1 & m2 & -> & -> & H). simpl.
    rewrite (handle_expr_local E (df_expr df) (Some m1) (Some m2)).
    2:{ intros f Hf. simpl. destruct (H f) as [->|(v1 & v2 & _ & _ & Hc)]; [done|]. exfalso. apply Hlt in Hc. set_solver. }
    destruct (handle_expr E (df_expr df) (Some m2)) as [v| |].
    2-3: split; [done|]; by exists m1, m2.
    simpl. apply IH.
    - intros f v1 v2 Hc. apply Hlt in Hc. by apply not_elem_of_app in Hc as [_ Hc].
    - do 2 eexists. split; [done|]. split; [done|]. by apply cell_set.
  Qed.

  (** ** Trees *)
  Fixpoint tests_cell (ft : gmap string string) (r1 r2 : datarow) (n : node) : Prop :=
    match n with
    | Node _ _ cs _ t _ => run_test E ft t r1 = run_test E ft t r2 ∧
        (fix go l := match l with [] => True | c :: l' => tests_cell ft r1 r2 c ∧ go l' end) cs
    end.
  Lemma tests_cell_node ft r1 r2 id dc cs ds t sc :
    tests_cell ft r1 r2 (Node id dc cs ds t sc) ↔ run_test E ft t r1 = run_test E ft t r2 ∧ Forall (tests_cell ft r1 r2) cs.
  Proof.
    simpl. assert (∀ l, (fix go l := match l with [] => True | c :: l' => tests_cell ft r1 r2 c ∧ go l' end) l ↔
      Forall (tests_cell ft r1 r2) l) as H.
    { induction l as [|c l IH]; [by split|]. by rewrite Forall_cons, IH. }
    by rewrite H.
  Qed.

  Section nodes.
    Context (cx : tctx) (r1 r2 : datarow).
    Notation ok := (tests_cell (cx_ft cx) r1 r2).

    Lemma cell_none n : ok n → eval_none E cx r1 n = eval_none E cx r2 n.
    Proof.
      induction n as [id dc cs ds t sc IH] using node_rect'. intros [Ht Hc]%tests_cell_node.
      cbn [eval_none]. rewrite Ht. destruct (run_test E _ t r2) as [v| |]; simpl; try done. destruct v; try done.
      apply first_true_ext. rewrite Forall_forall in IH, Hc |- *. auto.
    Qed.
    Lemma cell_null n : ok n → eval_null E cx r1 n = eval_null E cx r2 n.
    Proof.
      induction n as [id dc cs ds t sc IH] using node_rect'. intros [Ht Hc]%tests_cell_node.
      cbn [eval_null]. rewrite Ht. destruct (run_test E _ t r2) as [v| |]; simpl; try done. destruct v; try done.
      apply first_known_ext. rewrite Forall_forall in IH, Hc |- *. auto.
    Qed.
    Lemma cell_last n : ok n → eval_last E cx r1 n = eval_last E cx r2 n.
    Proof.
      induction n as [id dc cs ds t sc IH] using node_rect'. intros [Ht Hc]%tests_cell_node.
      cbn [eval_last]. rewrite Ht. rewrite (rmap_ext (eval_last E cx r1) (eval_last E cx r2)); [done|].
      rewrite Forall_forall in IH, Hc |- *. auto.
    Qed.
    Lemma cell_default n : ok n → eval_default E cx r1 n = eval_default E cx r2 n.
    Proof.
      induction n as [id dc cs ds t sc IH] using node_rect'. intros [Ht Hc]%tests_cell_node.
      cbn [eval_default]. rewrite Ht. rewrite (rmap_ext (eval_default E cx r1) (eval_default E cx r2)); [done|].
      rewrite Forall_forall in IH, Hc |- *. auto.
    Qed.
    Lemma rmapi_ext' {A B} (f g : nat → A → res B) l : Forall (λ a, ∀ i, f i a = g i a) l → ∀ i, rmapi f i l = rmapi g i l.
    Proof. induction 1 as [|a l Ha _ IH]; intros i; [done|]. cbn [rmapi]. by rewrite Ha, IH. Qed.
    Lemma cell_weighted n : ok n → ∀ tk, eval_weighted E cx r1 tk n = eval_weighted E cx r2 tk n.
    Proof.
      induction n as [id dc cs ds t sc IH] using node_rect'. intros [Ht Hc]%tests_cell_node tk.
      cbn [eval_weighted]. rewrite Ht.
      rewrite (rmapi_ext' (λ i c, eval_weighted E cx r1 (i :: tk) c) (λ i c, eval_weighted E cx r2 (i :: tk) c)); [done|].
      rewrite Forall_forall in IH, Hc |- *. auto.
    Qed.
    Lemma cell_aggregate n : ok n → ∀ tk, eval_aggregate E cx r1 tk n = eval_aggregate E cx r2 tk n.
    Proof.
      induction n as [id dc cs ds t sc IH] using node_rect'. intros [Ht Hc]%tests_cell_node tk.
      cbn [eval_aggregate]. rewrite Ht.
      rewrite (rmapi_ext' (λ i c, eval_aggregate E cx r1 (i :: tk) c) (λ i c, eval_aggregate E cx r2 (i :: tk) c)); [done|].
      rewrite Forall_forall in IH, Hc |- *. auto.
    Qed.
    Lemma cell_node st tk n : ok n → node_evaluate E cx st r1 tk n = node_evaluate E cx st r2 tk n.
    Proof.
      intros H. unfold node_evaluate.
      repeat (destruct (_ =s _); [auto using cell_null, cell_aggregate, cell_weighted, cell_default, cell_last|]).
      by apply cell_none.
    Qed.
  End nodes.

  (** ** Ensembles *)
  Section segments.
    Context (tk : ticket) (ev : nat → emodel → datarow → outcome emodel).
    Notation ok := (Forall (λ s, ∀ i r1 r2, cell r1 r2 → out_cell (ev i s r1) (ev i s r2))).

    Lemma cell_chain sm : ok sm → ∀ i last r1 r2, cell r1 r2 →
      out_cell (chain E tk ev i last sm r1) (chain E tk ev i last sm r2).
    Proof.
      induction 1 as [|s sm Hs _ IH]; intros i last r1 r2 Hr; [done|]. cbn [chain].
      destruct (cell_copy (0 :: i :: tk) last r1 r2 Hr) as (a & b & -> & -> & Hab).
      destruct (Hs i _ _ Hab) as [H1 H2].
      destruct (ev i s a) as [[o1 r1'] s1], (ev i s b) as [[o2 r2'] s2]. cbn [fst snd] in H1, H2. subst o2.
      destruct o1 as [out| |]; [|by split..]. specialize (IH (S i) out r1' r2' H2). fold (chain E tk ev).
      destruct (chain E tk ev _ _ _ r1') as [[? ?] ?], (chain E tk ev _ _ _ r2') as [[? ?] ?]. exact IH.
    Qed.
    Lemma cell_sum cl sm : ok sm → ∀ i sc r1 r2, cell r1 r2 →
      (sum_segments E tk cl ev i sc sm r1).1.1 = (sum_segments E tk cl ev i sc sm r2).1.1 ∧
      cell (sum_segments E tk cl ev i sc sm r1).1.2 (sum_segments E tk cl ev i sc sm r2).1.2.
    Proof.
      induction 1 as [|s sm Hs _ IH]; intros i sc r1 r2 Hr; [done|]. cbn [sum_segments].
      destruct (Hs i _ _ Hr) as [H1 H2].
      destruct (ev i s r1) as [[o1 r1'] s1], (ev i s r2) as [[o2 r2'] s2]. cbn [fst snd] in H1, H2. subst o2.
      destruct o1 as [out| |]; [|by split..].
      specialize (IH (S i) (score_add E (1 :: i :: tk) cl out sc) r1' r2' H2). fold (sum_segments E tk cl ev).
      destruct (sum_segments E tk cl ev _ _ _ r1') as [[? ?] ?], (sum_segments E tk cl ev _ _ _ r2') as [[? ?] ?]. exact IH.
    Qed.
    Lemma cell_run h sm r1 r2 : ok sm → cell r1 r2 → out_cell (run_method E tk h ev sm r1) (run_method E tk h ev sm r2).
    Proof.
      intros Hs Hr. unfold run_method, average_models, sum_models.
      destruct (cell_sum (mm_function (em_hdr h) =s "classification") sm Hs 0 (score_init (em_outputs h) (em_targets h)) r1 r2 Hr) as [H1 H2].
      destruct (sum_segments E tk _ ev _ _ sm r1) as [[o1 r1'] s1], (sum_segments E tk _ ev _ _ sm r2) as [[o2 r2'] s2].
      cbn [fst snd] in H1, H2. subst o2.
      destruct (_ =s "average"); [by destruct o1|]. destruct (_ =s "sum"); [by destruct o1|].
      destruct (_ =s "modelChain"); [by apply cell_chain|]. destruct (_ =s "selectFirst"); [|by split].
      destruct Hs as [|s sm Hs _]; [by split|]. cbn [select_first]. specialize (Hs 0 r1 r2 Hr).
      destruct (ev 0 s r1) as [[? ?] ?], (ev 0 s r2) as [[? ?] ?]. exact Hs.
    Qed.
  End segments.
End cells.

(** ** One test *)
Lemma fleb_or x c : fleb x c = fltb x c || feqb x c.
Proof. unfold fleb, fltb, feqb, SFleb, SFltb, SFeqb. by destruct (SFcompare x c) as [[]|]. Qed.
Lemma feqb_sym x c : feqb x c = feqb c x.
Proof. unfold feqb, SFeqb. rewrite (SFcompare_opp x c). by destruct (SFcompare x c) as [[]|]. Qed.
Lemma zltb_side x y c : ((x < c)%Z ↔ (y < c)%Z) → Z.ltb x c = Z.ltb y c.
Proof. intros H. destruct (Z.ltb_spec x c), (Z.ltb_spec y c); try done; naive_solver lia. Qed.
Lemma same_side_nil E l dt v1 v2 : same_side E l dt v1 v2 → v1 ≠ GNil ∧ v2 ≠ GNil.
Proof. by destruct 1. Qed.
Lemma same_side_sub E l l' dt v1 v2 : (∀ s, s ∈ l' → s ∈ l) → same_side E l dt v1 v2 → same_side E l' dt v1 v2.
Proof. intros Hl. destruct 1; constructor; try done; try set_solver; eauto. Qed.
Lemma side_simple E ft f op s raw dt v1 v2 r1 r2 :
  ft !! f = Some dt → get_raw_value E dt s = Ok raw → same_side E [s] dt v1 v2 →
  dr_get r1 f = Some v1 → dr_get r2 f = Some v2 →
  eval_simple E ft f op raw r1 = eval_simple E ft f op raw r2.
Proof.
  intros Hft Hraw Hs H1 H2. unfold eval_simple. rewrite Hft, H1, H2.
  destruct Hs as [dt x y Hdt Hs|x y Hx Hy Hs|s1 s2 Hs1 Hs2].
  - assert (∃ c, raw = GF64 c ∧ ext_parse_float E s = Some c) as (c & -> & Hc).
    { revert Hraw. repeat (apply elem_of_cons in Hdt as [->|Hdt]); [..|by apply elem_of_nil in Hdt]; unfold get_raw_value; simpl;
        destruct (ext_parse_float E s) as [c|]; try done; intros [= <-]; by exists c. }
    assert ((dt =s "double") || (dt =s "float") = true) as Hd.
    { repeat (apply elem_of_cons in Hdt as [->|Hdt]); [..|by apply elem_of_nil in Hdt]; done. }
    destruct (Hs s c ltac:(by apply elem_of_list_singleton) Hc) as (Ha & Hb & Hg).
    assert (feqb c x = feqb c y) as Hb' by by rewrite (feqb_sym c x), (feqb_sym c y).
    unfold ordering. rewrite Hd. simpl. by rewrite !fleb_or, Ha, Hb, Hg, Hb'.
  - assert (∃ c, raw = GInt KInt64 c ∧ parse_int s = Some c) as (c & -> & Hc).
    { revert Hraw. unfold get_raw_value. simpl. destruct (parse_int s) as [c|]; try done. intros [= <-]. by exists c. }
    destruct (Hs s c ltac:(by apply elem_of_list_singleton) Hc) as (Ha & Hb).
    assert (Z.eqb x c = Z.eqb y c) as He by (destruct (Z.eqb_spec x c), (Z.eqb_spec y c); naive_solver).
    assert (Z.ltb x c = Z.ltb y c) as Hl by by apply zltb_side.
    assert (Z.ltb c x = Z.ltb c y) as Hg.
    { destruct (Z.ltb_spec c x), (Z.ltb_spec c y); try done; exfalso; destruct (Z.eq_dec x c), (Z.eq_dec y c); naive_solver lia. }
    assert (Z.leb x c = Z.leb y c) as Hle by by rewrite !(Z.leb_antisym c), Hg.
    assert (Z.leb c x = Z.leb c y) as Hge by by rewrite !Z.leb_antisym, Hl.
    unfold ordering. cbn -[wrap64 String.eqb]. rewrite !wrap64_small by done. by rewrite He, Hl, Hg, Hle, Hge.
  - assert (raw = GStr s) as ->. { revert Hraw. unfold get_raw_value. simpl. congruence. }
    assert (s1 =s s = false) as H3 by (apply String.eqb_neq; set_solver).
    assert (s2 =s s = false) as H4 by (apply String.eqb_neq; set_solver).
    simpl. by rewrite H3, H4.
Qed.

(** ** Documents *)
Section doc.
  Context (E : Ext) (dd : list data_field) (C : string → gov → gov → Prop).

  (** the fields that may differ are only tested in [d], by no test that tells them apart *)
  Definition only_tested (td : list derived_field) (d : doc_model) : Prop :=
    ∀ f v1 v2, C f v1 v2 → f ∉ computed_from d ∧ f ∉ map df_name (doc_locals d) ∧
      ∃ dt, field_types dd td !! f = Some dt ∧ same_side E (literals f d) dt v1 v2.

  Lemma only_tested_nil td d : only_tested td d → ∀ f v1 v2, C f v1 v2 → v1 ≠ GNil ∧ v2 ≠ GNil.
  Proof. intros Ho f v1 v2 Hc. destruct (Ho _ _ _ Hc) as (_ & _ & dt & _ & Hs). by eapply same_side_nil. Qed.
  Lemma cell_operand ft p q m1 m2 : compile_predicate E ft p = Ok q →
    (∀ f v1 v2, C f v1 v2 → ∃ dt, ft !! f = Some dt ∧ same_side E (pred_literals f p) dt v1 v2) →
    cell_maps C m1 m2 → eval_operand E ft (Some m1) q = eval_operand E ft (Some m2) q.
  Proof.
    intros Hq HC Hm. revert q Hq HC. induction p as [| |f op s raw|b ps IH|b f arr|] using predicate_rect'; intros q Hq HC; try by injection Hq as <-.
    - simpl in Hq. destruct (ft !! f) as [dt|] eqn:Hft; [|done].
      destruct (get_raw_value E dt s) as [c| |] eqn:Hraw; try done. injection Hq as <-. simpl.
      destruct (Hm f) as [Heq|(v1 & v2 & H1 & H2 & Hc)].
      + apply eval_simple_local. done.
      + destruct (HC _ _ _ Hc) as (dt' & Hdt & Hs). simplify_eq. simpl in Hs. rewrite decide_True in Hs by done.
        by eapply side_simple.
    - cbn [compile_predicate] in Hq. apply rbind_ok in Hq as (qs & Hqs & [= <-]). cbn [eval_operand].
      apply compound_loop_ext. apply rmap_ok in Hqs.
      assert (∀ f v1 v2, C f v1 v2 → ∃ dt, ft !! f = Some dt ∧ same_side E (concat (map (pred_literals f) ps)) dt v1 v2) as HC' by done.
      clear HC b. induction Hqs as [|p q ps qs Hq _ IHq]; [constructor|]. apply Forall_cons in IH as [IHp IH]. constructor.
      + apply IHp; [done|]. intros f v1 v2 Hc. destruct (HC' _ _ _ Hc) as (dt & Hdt & Hs). exists dt. split; [done|].
        eapply same_side_sub; [|exact Hs]. intros s Hs'. simpl. apply elem_of_app. by left.
      + apply IHq; [done|]. intros f v1 v2 Hc. destruct (HC' _ _ _ Hc) as (dt & Hdt & Hs). exists dt. split; [done|].
        eapply same_side_sub; [|exact Hs]. intros s Hs'. simpl. apply elem_of_app. by right.
  Qed.
  Lemma cell_test ft p q m1 m2 : compile_predicate E ft p = Ok q →
    (∀ f v1 v2, C f v1 v2 → ∃ dt, ft !! f = Some dt ∧ same_side E (pred_literals f p) dt v1 v2) →
    cell_maps C m1 m2 → run_test E ft q (Some m1) = run_test E ft q (Some m2).
  Proof.
    intros Hq HC Hm. pose proof (cell_operand ft p q m1 m2 Hq HC Hm) as H. destruct q; done.
  Qed.
  Lemma cell_tests ft m n m1 m2 : new_node E ft m = Ok n →
    (∀ f v1 v2, C f v1 v2 → ∃ dt, ft !! f = Some dt ∧ same_side E (node_literals f m) dt v1 v2) →
    cell_maps C m1 m2 → tests_cell E ft (Some m1) (Some m2) n.
  Proof.
    intros Hn HC Hm. revert n Hn HC. induction m as [id dc sc c ds ns pr IH] using mnode_rect'. intros n. cbn [new_node].
    intros (cs & Hcs & (t & Ht & [= <-])%rbind_ok)%rbind_ok HC. apply tests_cell_node. split.
    - eapply cell_test; [done| |done]. intros f v1 v2 Hc. destruct (HC _ _ _ Hc) as (dt & Hdt & Hs). exists dt. split; [done|].
      eapply same_side_sub; [|exact Hs]. intros s Hs'. simpl. apply elem_of_app. by left.
    - apply rmap_ok in Hcs. apply Forall_forall. intros x Hx.
      apply elem_of_list_lookup in Hx as [i Hi]. destruct (Forall2_lookup_r _ _ _ _ _ Hcs Hi) as (a & Ha & Hn).
      rewrite Forall_forall in IH. apply (IH a); [by eapply elem_of_list_lookup_2|done|].
      intros f v1 v2 Hc. destruct (HC _ _ _ Hc) as (dt & Hdt & Hs). exists dt. split; [done|].
      eapply same_side_sub; [|exact Hs]. intros s Hs'. simpl. apply elem_of_app. right. apply concat_map_in.
      exists a. split; [by eapply elem_of_list_lookup_2|done].
  Qed.

  Lemma cell_evaluate d : ∀ td e td', new_model E dd td d = (Ok e, td') → only_tested td d →
    ∀ tk r1 r2, cell C r1 r2 → out_cell C (evaluate E tk e r1) (evaluate E tk e r2).
  Proof.
    induction d as [t|m|k|h segs IH] using doc_rect'; intros td e td' Hn Ho tk r1 r2 Hr.
    - apply new_model_tree_inv in Hn as (te & -> & _ & Hv & Hco & _ & _ & Hm & Hft & Hroot & _).
      cbn [evaluate]. rewrite !tree_evaluate_run by done. rewrite Hm. cbn [tm_lt tm_strategy].
      destruct (cell_input E C (only_tested_nil _ _ Ho) (tm_lt t) r1 r2) as [H1 H2]; [|done|].
      { intros f v1 v2 Hc. by apply Ho in Hc as [Hc _]. }
      destruct (handle_input E (tm_lt t) r1) as [o1 r1'], (handle_input E (tm_lt t) r2) as [o2 r2'].
      cbn [fst snd] in H1, H2. subst o2. destruct o1 as [[]| |]; [|by split..].
      rewrite (cell_node E (tree_ctx te) r1' r2').
      2:{ destruct H2 as (m1 & m2 & -> & -> & H2). change (cx_ft (tree_ctx te)) with (et_ft te).
          eapply cell_tests; [done| |done]. intros f v1 v2 Hc. destruct (Ho _ _ _ Hc) as (_ & Hd & dt & Hdt & Hs).
          exists dt. split; [|done]. rewrite Hft. by rewrite types_untouched. }
      destruct (node_evaluate E _ _ r2' _ _) as [[s []]| |]; try by split.
      by destruct (tree_output E te s) as [o k].
    - injection Hn as <- <-. cbn [evaluate]. split; [|done]. cbn [fst].
      destruct Hr as (m1 & m2 & -> & -> & H).
      pose proof (C88_inputs E dd td (DRegr m) _ _ [] [] tk (Some m1) (Some m2) eq_refl) as H8. cbn in H8. apply H8; [done|].
      intros f Hf. destruct (H f) as [|(v1 & v2 & _ & _ & Hc)]; [done|]. by apply Ho in Hc as [Hc _].
    - done.
    - apply new_model_mining_inv in Hn as (sm & -> & Hs & _). rewrite !mining_evaluate_run by done.
      cbn [built_mining em_defaults em_hdr].
      destruct (cell_impute E C (only_tested_nil _ _ Ho)
        (4 :: tk) (default_values (mm_schema h)) r1 r2 Hr) as (a & b & -> & -> & Hab).
      rewrite header_of_lt.
      destruct (cell_input E C (only_tested_nil _ _ Ho) (mm_lt h) a b) as [H1 H2]; [|done|].
      { intros f v1 v2 Hc. apply Ho in Hc as [Hc _]. cbn [computed_from] in Hc. set_solver. }
      destruct (handle_input E (mm_lt h) a) as [o1 r1'], (handle_input E (mm_lt h) b) as [o2 r2'].
      cbn [fst snd] in H1, H2. subst o2. destruct o1 as [[]| |]; [|by split..].
      set (ev := λ i s r, evaluate E (5 :: i :: tk) s r).
      assert (out_cell C (run_method E tk (built_mining dd td h segs) ev sm r1') (run_method E tk (built_mining dd td h segs) ev sm r2')) as [H3 H4].
      { apply cell_run; [|done]. 
        assert (∀ f v1 v2, C f v1 v2 →
          f ∉ concat (map (λ s, match s with Segment _ _ ms => concat (map computed_from ms) end) segs) ∧
          f ∉ map df_name (concat (map (λ s, concat (map doc_locals (sg_models s))) segs)) ∧
          ∃ dt, field_types dd (td ++ mm_lt h) !! f = Some dt ∧
            same_side E (concat (map (λ s, match s with Segment _ _ ms => concat (map (literals f) ms) end) segs)) dt v1 v2) as Ho'.
        { intros f v1 v2 Hc. destruct (Ho _ _ _ Hc) as (Ha & Hb & dt & Hd & He). cbn [doc_locals] in Hb. rewrite map_app in Hb.
          cbn [computed_from] in Ha. split; [set_solver|]. split; [set_solver|]. exists dt. split; [|done].
          rewrite types_untouched; [done|set_solver]. }
        clear Ho Hr Hab H2. revert IH Ho'. generalize (built_mining dd td h segs). intros _. induction Hs as [|td1 s segs d e es td2 td3 Hd Hn Hs IHs]; intros IH Ho'; [constructor|].
        apply Forall_cons in IH as [IHd IH]. destruct s as [i p ms]. cbn [sg_models] in Hd. subst ms.
        cbn in IHd, Ho'.
        assert (td2 = td1 ++ doc_locals d) as ->. { eapply accepted_td, new_model_accepted; done. }
        apply Forall_cons_2.
        - intros i' q1 q2 Hq. apply Forall_cons in IHd as [IHd _]. eapply IHd; [done| |done]. unfold only_tested.
          intros f v1 v2 Hc. destruct (Ho' _ _ _ Hc) as (Ha & Hb & dt & Hdt & He). rewrite map_app in Hb.
          rewrite app_nil_r in Ha, Hb, He. split; [set_solver|]. split; [set_solver|]. exists dt. split; [done|].
          eapply same_side_sub; [|exact He]. set_solver.
        - apply IHs; [done|]. intros f v1 v2 Hc. destruct (Ho' _ _ _ Hc) as (Ha & Hb & dt & Hdt & He).
          rewrite map_app in Hb. rewrite app_nil_r in Ha, Hb, He.
          split; [set_solver|]. split; [set_solver|]. exists dt. split; [rewrite types_untouched; [done|set_solver]|].
          eapply same_side_sub; [|exact He]. set_solver. }
      destruct (run_method E tk _ _ sm r1') as [[x1 y1] z1], (run_method E tk _ _ sm r2') as [[x2 y2] z2].
      split; done.
  Qed.
End doc.

Lemma same_cell_run E dd td d e td' tk m1 m2 : new_model E dd td d = (Ok e, td') → same_cell E dd td d m1 m2 →
  (evaluate E tk e (Some m1)).1.1 = (evaluate E tk e (Some m2)).1.1 ∧
  (∀ f, m1 !! f = m2 !! f → dr_get (evaluate E tk e (Some m1)).1.2 f = dr_get (evaluate E tk e (Some m2)).1.2 f).
Proof.
  intros Hn Hm.
  set (C := λ f v1 v2, m1 !! f = Some v1 ∧ m2 !! f = Some v2 ∧ unsplit E dd td d f v1 v2).
  destruct (cell_evaluate E dd C d td e td' Hn) with (tk := tk) (r1 := Some m1) (r2 := Some m2) as [H1 (q1 & q2 & H2 & H3 & H4)].
  { intros f v1 v2 (_ & _ & H). exact H. }
  { exists m1, m2. split; [done|]. split; [done|]. intros k.
    destruct (Hm k) as [|(v1 & v2 & Ha & Hb & Hc)]; [by left|].
    right. by exists v1, v2. }
  split; [done|]. intros f Hf. rewrite H2, H3. destruct (H4 f) as [|(v1 & v2 & Ha & Hb & Hc & Hd & _)]; simpl; congruence.
Qed.

(** ** Numbers with no literal between them *)
Lemma SFcompare_eq_lt a b c : SFcompare a b = Some Eq → SFcompare b c = Some Lt → SFcompare a c = Some Lt.
Proof.
  destruct a as [[]|[]| |[] m1 e1], b as [[]|[]| |[] m2 e2], c as [[]|[]| |[] m3 e3];
    simpl; try naive_solver;
    destruct (Z.compare_spec e1 e2), (Z.compare_spec e2 e3), (Z.compare_spec e1 e3);
    change (Pos.compare_cont Eq) with Pos.compare;
    destruct (Pos.compare_spec m1 m2), (Pos.compare_spec m2 m3), (Pos.compare_spec m1 m3);
    simpl; try naive_solver; intros; exfalso; subst; lia.
Qed.
Lemma between_side E lits dt x y : dt ∈ ["double"; "float"] → fltb x y = true →
  (∀ s c, s ∈ lits → ext_parse_float E s = Some c → ¬ (fleb x c = true ∧ fleb c y = true)) →
  same_side E lits dt (GF64 x) (GF64 y).
Proof.
  intros Hdt Hxy H. constructor; [done|]. intros s c Hs Hc. specialize (H s c Hs Hc).
  rewrite fltb_spec in Hxy. rewrite !fleb_spec in H. unfold fltb, feqb, SFltb, SFeqb.
  rewrite (SFcompare_opp x c), (SFcompare_opp y c).
  assert (SFcompare x c = None ↔ SFcompare y c = None) as Hnone.
  { rewrite !SFcompare_none. split; intros [->| ->]; try (by right); try done. by destruct x as [[]|[]| |[]]. }
  destruct (SFcompare x c) as [[]|] eqn:Hx.
  - exfalso. apply H. split; [by right|]. left. eapply SFcompare_eq_lt; [|done]. by rewrite (SFcompare_opp x c), Hx.
  - destruct (SFcompare y c) as [[]|] eqn:Hy; try done; [..|naive_solver].
    all: exfalso; apply H; split; [by left|]; rewrite (SFcompare_opp y c), Hy; simpl; tauto.
  - assert (SFcompare c x = Some Lt) as Hcx by (by rewrite (SFcompare_opp x c), Hx).
    assert (SFcompare c y = Some Lt) as Hcy by (eapply SFcompare_lt_trans; eauto).
    by rewrite (SFcompare_opp c y), Hcy.
  - destruct (SFcompare y c); [naive_solver|done].
Qed.
Lemma between_int_side E lits x y : (- 2 ^ 63 ≤ x)%Z → (x < y)%Z → (y < 2 ^ 63)%Z →
  (∀ s c, s ∈ lits → parse_int s = Some c → ¬ (x ≤ c ≤ y)%Z) →
  same_side E lits "integer" (GInt KInt64 x) (GInt KInt64 y).
Proof. intros Hx Hxy Hy H. constructor; [lia..|]. intros s c Hs Hc. specialize (H s c Hs Hc). lia. Qed.
