(** Branches that no row can take (C154). *)
From Verif Require Import Base Strconv Value Doc Expr Pred Tree Regression Model Lib
  SpecPred ProofsPred SpecExpr ProofsExpr SpecConstruct ProofsConstruct ProofsRange
  SpecTree ProofsTree ProofsOutput ProofsEval ProofsDoc ProofsSafe ProofsWhole ProofsSim
  SpecEssence ProofsEssence SpecEquiv ProofsEquiv SpecTrim ProofsTrim SpecDead.

Section lean.
  Context (E : Ext) (cx : tctx) (r : datarow) (U : bool).
  Notation test t := (run_test E (cx_ft cx) t r).

  Inductive lean : node → node → Prop :=
  | le_node id dc cs1 cs2 ds t sc :
      output_dist cx (Node id dc cs1 ds t sc) = output_dist cx (Node id dc cs2 ds t sc) →
      (test t = Ok RT → lean_list cs1 cs2) →
      lean (Node id dc cs1 ds t sc) (Node id dc cs2 ds t sc)
  with lean_list : list node → list node → Prop :=
  | le_nil : lean_list [] []
  | le_keep n1 n2 l1 l2 : lean n1 n2 → lean_list l1 l2 → lean_list (n1 :: l1) (n2 :: l2)
  | le_drop n l1 l2 v : test (n_test n) = Ok v → v = RF ∨ U = true ∧ v = RU → lean_list l1 l2 → lean_list (n :: l1) l2
  | le_cut n1 n2 l : test (n_test n1) = Ok RT → lean n1 n2 → lean_list (n1 :: l) [n2].

  Lemma none_entered n s v : test (n_test n) = Ok RT → eval_none E cx r n = Ok (s, v) → v = RT.
  Proof.
    destruct n as [id dc cs ds t sc]. cbn [n_test eval_none]. intros ->. cbn [rbind]. generalize (output_dist cx (Node id dc cs ds t sc)). intros d.
    induction cs as [|c cs IH]; cbn [first_true]; [by intros [= _ <-]|].
    destruct (eval_none E cx r c) as [[s' v']| |]; cbn [rbind]; try done. destruct v'; [apply IH|by intros [= _ <-]|apply IH].
  Qed.
  Lemma null_entered n s v : test (n_test n) = Ok RT → eval_null E cx r n = Ok (s, v) → v ≠ RF.
  Proof.
    destruct n as [id dc cs ds t sc]. cbn [n_test eval_null]. intros ->. cbn [rbind]. generalize (output_dist cx (Node id dc cs ds t sc)). intros d.
    induction cs as [|c cs IH]; cbn [first_known]; [by intros [= _ <-]|].
    destruct (eval_null E cx r c) as [[s' v']| |]; cbn [rbind]; try done. destruct v'; [by intros [= _ <-]|by intros [= _ <-]|apply IH].
  Qed.

  Lemma eval_none_lean n1 : ∀ n2, lean n1 n2 → eval_none E cx r n1 = eval_none E cx r n2.
  Proof.
    induction n1 as [id dc cs1 ds t1 sc IH] using node_rect'. intros n2 Hn.
    inversion Hn as [? ? ? cs2 ? ? ? Ho Hcs]; subst; clear Hn. cbn [eval_none]. rewrite Ho.
    destruct (test t1) as [v| |]; cbn [rbind]; try done. destruct v; try done. specialize (Hcs eq_refl).
    generalize (output_dist cx (Node id dc cs2 ds t1 sc), RT). intros d. clear Ho.
    induction Hcs as [|n1 n2 l1 l2 H _ IHl|n l1 l2 v Ht Hv _ IHl|n1 n2 l Ht H]; [done|..]; apply Forall_cons in IH as [Hn IH]; cbn [first_true].
    - rewrite (Hn n2 H). destruct (eval_none E cx r n2) as [[s v]| |]; cbn [rbind]; try done. destruct v; auto.
    - assert (eval_none E cx r n = Ok ([], RF)) as ->.
      { destruct n. cbn [eval_none n_test] in *. rewrite Ht. cbn [rbind]. by destruct Hv as [->|[_ ->]]. }
      cbn [rbind]. auto.
    - rewrite (Hn n2 H). destruct (eval_none E cx r n2) as [[s v]| |] eqn:Hv; cbn [rbind]; try done.
      rewrite <- (Hn n2 H) in Hv. by rewrite (none_entered n1 s v Ht Hv).
  Qed.
  Lemma eval_null_lean n1 : U = false → ∀ n2, lean n1 n2 → eval_null E cx r n1 = eval_null E cx r n2.
  Proof.
    intros HU. induction n1 as [id dc cs1 ds t1 sc IH] using node_rect'. intros n2 Hn.
    inversion Hn as [? ? ? cs2 ? ? ? Ho Hcs]; subst; clear Hn. cbn [eval_null]. rewrite Ho.
    destruct (test t1) as [v| |]; cbn [rbind]; try done. destruct v; try done. specialize (Hcs eq_refl).
    generalize (output_dist cx (Node id dc cs2 ds t1 sc), RT). intros d. clear Ho.
    induction Hcs as [|n1 n2 l1 l2 H _ IHl|n l1 l2 v Ht Hv _ IHl|n1 n2 l Ht H]; [done|..]; apply Forall_cons in IH as [Hn IH]; cbn [first_known].
    - rewrite (Hn n2 H). destruct (eval_null E cx r n2) as [[s v]| |]; cbn [rbind]; try done. destruct v; auto.
    - assert (eval_null E cx r n = Ok ([], RF)) as ->.
      { destruct n. cbn [eval_null n_test] in *. rewrite Ht. cbn [rbind]. destruct Hv as [->|[? _]]; [done|congruence]. }
      cbn [rbind]. auto.
    - rewrite (Hn n2 H). destruct (eval_null E cx r n2) as [[s v]| |] eqn:Hv; cbn [rbind]; try done.
      rewrite <- (Hn n2 H) in Hv. pose proof (null_entered n1 s v Ht Hv). by destruct v.
  Qed.
  Lemma node_evaluate_lean st tk n1 n2 : lean n1 n2 →
    st ∉ ["aggregateNodes"; "weightedConfidence"; "defaultChild"; "lastPrediction"] →
    (st = "nullPrediction" → U = false) →
    node_evaluate E cx st r tk n1 = node_evaluate E cx st r tk n2.
  Proof.
    intros H HW Hst. unfold node_evaluate.
    destruct (String.eqb_spec st "nullPrediction") as [->|]; [by apply eval_null_lean; auto|].
    repeat match goal with |- context [st =s ?x] => destruct (String.eqb_spec st x); [exfalso; subst; set_solver|] end.
    by eapply eval_none_lean.
  Qed.
End lean.

(** ** Documents *)
Lemma lopped_compiles E ft D leaf m1 : ∀ K m2, lopped D leaf K m1 m2 → (∃ n, new_node E ft m1 = Ok n) → ∃ n, new_node E ft m2 = Ok n.
Proof.
  induction m1 as [id dc sc c ds ns1 p IH] using mnode_rect'. intros K m2 Hm.
  inversion Hm as [? ? ? ? ? ? ns2 ? Hns _]; subst; clear Hm. cbn [new_node].
  intros (n & (cs & Hcs & (q & -> & _)%rbind_ok)%rbind_ok).
  assert (∃ cs2, rmap (new_node E ft) ns2 = Ok cs2) as [cs2 ->]; [|by eexists].
  revert cs Hcs. remember (p :: K) as K1 eqn:HK1. clear HK1. induction Hns as [K1|K1 a b l1 l2 Hab _ IHl|K1 a l1 l2 _ _ IHl|K1 a b l Ha Hab]; intros cs Hcs; [by eexists|..];
    apply Forall_cons in IH as [Hn IH]; cbn [rmap] in *; apply rbind_ok in Hcs as (x & Hx & (xs & Hxs & _)%rbind_ok).
  - destruct (Hn _ _ Hab) as [y ->]; [eauto|]. destruct (IHl IH xs Hxs) as [ys ->]. by eexists.
  - eauto.
  - destruct (Hn _ _ Hab) as [y ->]; [eauto|]. by eexists.
Qed.

Lemma new_node_test E ft m n : new_node E ft m = Ok n → compile_predicate E ft (mn_pred m) = Ok (n_test n).
Proof. destruct m. cbn [new_node mn_pred]. by intros (cs & _ & (q & Hq & [= <-])%rbind_ok)%rbind_ok. Qed.
Lemma out_children cx id dc cs1 cs2 ds t sc : (cx_notrue cx = "returnNullPrediction" → length cs1 = 0%nat ↔ length cs2 = 0%nat) →
  output_dist cx (Node id dc cs1 ds t sc) = output_dist cx (Node id dc cs2 ds t sc).
Proof.
  intros H. unfold output_dist. destruct (String.eqb_spec (cx_notrue cx) "returnNullPrediction") as [Hn|]; [|by rewrite !andb_false_r].
  specialize (H Hn). destruct (length cs1), (length cs2); try done; exfalso; lia.
Qed.

Lemma nodes_lean E cx r U leaf m1 : (leaf = true → cx_notrue cx ≠ "returnNullPrediction") → ∀ K m2 n1 n2,
  lopped (excluded E (cx_ft cx) U) leaf K m1 m2 → all_true E (cx_ft cx) r K →
  new_node E (cx_ft cx) m1 = Ok n1 → new_node E (cx_ft cx) m2 = Ok n2 → lean E cx r U n1 n2.
Proof.
  intros Hleaf. induction m1 as [id dc sc c ds ns1 p IH] using mnode_rect'. intros K m2 n1 n2 Hm HK H1 H2.
  inversion Hm as [? ? ? ? ? ? ns2 ? Hns Hl]; subst; clear Hm. cbn [new_node] in H1, H2.
  apply rbind_ok in H1 as (cs1 & Hcs1 & (q1 & Hq1 & [= <-])%rbind_ok).
  apply rbind_ok in H2 as (cs2 & Hcs2 & (q2 & Hq2 & [= <-])%rbind_ok). rewrite Hq1 in Hq2. injection Hq2 as <-.
  apply rmap_ok in Hcs1, Hcs2. constructor.
  - apply out_children. intros Hn. destruct leaf; [by destruct (Hleaf eq_refl)|]. specialize (Hl eq_refl).
    rewrite <- (Forall2_length _ _ _ Hcs1), <- (Forall2_length _ _ _ Hcs2). destruct ns1, ns2; try done.
    + by inversion Hns.
    + by specialize (Hl eq_refl).
  - intros Ht. assert (all_true E (cx_ft cx) r (p :: K)) as HK1.
    { intros p' [->|Hin]%elem_of_cons; [by exists q1|by apply HK]. }
    clear -IH Hns HK1 Hcs1 Hcs2. revert cs1 cs2 Hcs1 Hcs2. revert HK1 Hns. generalize (p :: K). intros K1 HK1 Hns.
    induction Hns as [K1|K1 a b l1 l2 Hab _ IHl|K1 a l1 l2 Ha _ IHl|K1 a b l Ha Hab]; intros cs1 cs2 Hcs1 Hcs2.
    + inversion Hcs1; subst. inversion Hcs2; subst. constructor.
    + inversion Hcs1; subst. inversion Hcs2; subst. apply Forall_cons in IH as [Hn IH]. apply le_keep; [by eapply Hn|by apply IHl].
    + inversion Hcs1 as [|? x ? xs Hx Hxs]; subst. apply Forall_cons in IH as [_ IH]. apply new_node_test in Hx.
      destruct Ha as [Hq Ha]. destruct (run_test_total E (cx_ft cx) r _ _ Hx Hq) as [v Hv].
      eapply le_drop; [exact Hv|by eapply Ha|by apply IHl].
    + inversion Hcs1 as [|? x ? xs Hx Hxs]; subst. inversion Hcs2 as [|? y ? ys Hy Hys]; subst. inversion Hys; subst.
      apply Forall_cons in IH as [Hn IH]. apply le_cut; [|by eapply Hn]. apply new_node_test in Hx. rewrite Ha in Hx. by injection Hx as <-.
Qed.

Lemma trees_lopped E dd td t n U leaf e1 e2 td1 td2 tk r :
  lopped (excluded E (field_types dd (td ++ tm_lt t)) U) leaf [] (tm_node t) n →
  (leaf = true → tm_notrue t ≠ "returnNullPrediction") →
  tm_strategy t ∉ ["aggregateNodes"; "weightedConfidence"; "defaultChild"; "lastPrediction"] →
  (tm_strategy t = "nullPrediction" → U = false) →
  new_model E dd td (DTree t) = (Ok e1, td1) → new_model E dd td (DTree (with_node t n)) = (Ok e2, td2) →
  (evaluate E tk e1 r).1 = (evaluate E tk e2 r).1.
Proof.
  intros Hn Hl Hst HU (t1 & -> & H1)%new_model_tree_of (t2 & -> & H2)%new_model_tree_of. cbn [evaluate].
  assert ((tree_evaluate E tk t1 r).1 = (tree_evaluate E tk t2 r).1) as H.
  { destruct (handle_input E (tm_lt t) r) as [[[]|x|p] r'] eqn:Hi.
    - rewrite (tree_of_run E dd td t t1 tk r r' H1 Hi), (tree_of_run E dd td (with_node t n) t2 tk r r' H2 Hi).
      cbn [with_node tm_strategy tm_function tm_schema]. change (doc_ctx dd td (with_node t n)) with (doc_ctx dd td t).
      destruct H1 as (_ & _ & _ & _ & _ & _ & _ & H1 & _). destruct H2 as (_ & _ & _ & _ & _ & _ & _ & H2 & _).
      rewrite (node_evaluate_lean E (doc_ctx dd td t) r' U (tm_strategy t) tk (et_root t1) (et_root t2)); [done| |done|done].
      eapply (nodes_lean E (doc_ctx dd td t) r' U leaf (tm_node t) Hl []); [exact Hn|intros ? []%elem_of_nil|exact H1|exact H2].
    - destruct H1 as (Hv & Hc & _ & _ & _ & _ & Hlt & _). destruct H2 as (Hv2 & Hc2 & _ & _ & _ & _ & Hlt2 & _).
      rewrite !tree_evaluate_run by done. rewrite Hlt, Hlt2. cbn [with_node tm_lt]. by rewrite Hi.
    - destruct H1 as (Hv & Hc & _ & _ & _ & _ & Hlt & _). destruct H2 as (Hv2 & Hc2 & _ & _ & _ & _ & Hlt2 & _).
      rewrite !tree_evaluate_run by done. rewrite Hlt, Hlt2. cbn [with_node tm_lt]. by rewrite Hi. }
  by destruct (tree_evaluate E tk t1 r) as [[? ?] ?], (tree_evaluate E tk t2 r) as [[? ?] ?].
Qed.

(** ** Bounds *)
Lemma flt_le_not x y : fltb x y = true → fleb y x = false.
Proof.
  unfold fltb, fleb, SFltb, SFleb. destruct x as [[]|[]| |[] m1 e1], y as [[]|[]| |[] m2 e2]; cbn [SFcompare]; try done.
  all: destruct (Z.compare_spec e1 e2), (Z.compare_spec e2 e1); try lia; try done;
    change (Pcompare m1 m2 Eq) with (Pos.compare m1 m2); change (Pcompare m2 m1 Eq) with (Pos.compare m2 m1);
    destruct (Pos.compare_spec m1 m2), (Pos.compare_spec m2 m1); try lia; done.
Qed.
Lemma fle_lt_not x y : fleb x y = true → fltb y x = false.
Proof. intros H. destruct (fltb y x) eqn:Hl; [|done]. apply flt_le_not in Hl. congruence. Qed.
Lemma flt_lt_not x y : fltb x y = true → fltb y x = false.
Proof. intros H. apply fle_lt_not. revert H. unfold fltb, fleb, SFltb, SFleb. by destruct (SFcompare x y) as [[]|]. Qed.

Lemma apart_float a op1 b op2 v : apart fleb fltb a op1 b op2 →
  compared fleb fltb op1 v a = true → compared fleb fltb op2 v b = false.
Proof.
  intros H. assert (compared fleb fltb op1 v a = true → compared fleb fltb op2 v b = true → False) as Hf.
  { induction H as [a b op Hop H|a b H|a b H|a op1 b op2 _ IH]; [..|tauto].
    1: repeat (apply elem_of_cons in Hop as [->|Hop]); try (by apply elem_of_nil in Hop).
    all: unfold compared; simpl; intros H1 H2.
    - pose proof (flt_fle _ _ _ H1 H) as H3. apply flt_lt_not in H3. congruence.
    - pose proof (flt_fle _ _ _ H1 H) as H3. apply flt_le_not in H3. congruence.
    - pose proof (fle_fle _ _ _ H1 H) as H3. apply fle_lt_not in H3. congruence.
    - pose proof (fle_flt _ _ _ H1 H) as H3. apply flt_le_not in H3. congruence. }
  intros H1. destruct (compared fleb fltb op2 v b) eqn:H2; [by destruct Hf|done].
Qed.
Lemma apart_int a op1 b op2 v : apart Z.leb Z.ltb a op1 b op2 →
  compared Z.leb Z.ltb op1 v a = true → compared Z.leb Z.ltb op2 v b = false.
Proof.
  intros H. assert (compared Z.leb Z.ltb op1 v a = true → compared Z.leb Z.ltb op2 v b = true → False) as Hf.
  { induction H as [a b op Hop H|a b H|a b H|a op1 b op2 _ IH]; [..|tauto].
    1: repeat (apply elem_of_cons in Hop as [->|Hop]); try (by apply elem_of_nil in Hop).
    all: unfold compared; simpl; intros H1 H2; lia. }
  intros H1. destruct (compared Z.leb Z.ltb op2 v b) eqn:H2; [by destruct Hf|done].
Qed.
Lemma apart_ops {A} (le lt : A → A → bool) a b op1 op2 : apart le lt a op1 b op2 →
  op1 ∈ ["lessThan"; "lessOrEqual"; "greaterThan"; "greaterOrEqual"] ∧ op2 ∈ ["lessThan"; "lessOrEqual"; "greaterThan"; "greaterOrEqual"].
Proof. induction 1; set_solver. Qed.

(** a test of a field with a value is true or false *)
Lemma simple_known E ft f op l c r v : compile_predicate E ft (PSimple f op l GNil) = Ok c → dr_get r f ≠ None →
  run_test E ft c r = Ok v → v = RT ∨ v = RF.
Proof.
  cbn [compile_predicate]. destruct (ft !! f) as [dt|] eqn:Hf; [|done]. intros (raw & Hraw & [= <-])%rbind_ok Hd.
  cbn [run_test]. unfold eval_simple. rewrite Hf, (raw_not_nil _ _ _ _ Hraw). destruct (dr_get r f) as [x|]; [|done].
  unfold ordering, of_bool. intros H. repeat (case_str || case_match || apply rbind_ok in H as (? & ? & H)); simplify_eq; auto.
Qed.
(** an "and" with a false operand is false *)
Lemma and_false E ft ps p c r v : p ∈ ps → ¬ const_pred p → compile_predicate E ft (PCompound "and" ps) = Ok c → run_test E ft c r = Ok v →
  (∀ c' v', compile_predicate E ft p = Ok c' → run_test E ft c' r = Ok v' → v' = RF) → v = RF.
Proof.
  intros Hp Hk Hc Hv Hf. destruct (value_run E ft r (PCompound "and" ps) c (λ x, x) Hc) as (w & Hw & Hw').
  rewrite Hv in Hw'. injection Hw' as <-. rewrite opval_compound in Hw.
  destruct (mapM (opval E ft r) ps) as [vs|] eqn:Hm; [|done]. cbn in Hw. injection Hw as <-. apply mapM_Some in Hm.
  apply elem_of_list_lookup in Hp as [i Hi]. eapply Forall2_lookup_l in Hm as (w & Hw & Ho); [|exact Hi].
  destruct (opval_compiles E ft r p w Ho) as [c' Hc']. destruct (value_run E ft r p c' Hk Hc') as (w' & Hw1 & Hw2).
  rewrite Ho in Hw1. injection Hw1 as <-. rewrite (Hf _ _ Hc' Hw2) in Hw. unfold tv_and. apply elem_of_list_lookup_2 in Hw.
  by rewrite decide_True.
Qed.

