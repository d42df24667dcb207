(** Property C133: predictions that missing values cannot change any more. *)
From Verif Require Import Base Strconv Value Doc Expr Pred Tree Regression Model Lib ProofsPred ProofsOutput ProofsDoc ProofsEval ProofsWhole GoExt Samples
  SpecExpr SpecPred SpecTree PropertiesTree PropertiesEquiv SpecFinal ProofsFinal.

(** Every node has a predicate, none of them about a field being missing. *)
Definition plain_tests (t : tree_model) : Prop :=
  everywhere_doc (λ m, m_pred m ≠ PNone ∧ steady (m_pred m)) (tm_node t).

Lemma everywhere_impl {N} (kids : N → list N) (P Q : N → Prop) n : (∀ m, P m → Q m) →
  everywhere_in kids P n → everywhere_in kids Q n.
Proof.
  intros HPQ. revert n. fix IH 2. intros n [n' Hn Hk]. constructor; [by apply HPQ|].
  induction Hk as [|c l Hc _ IHl]; constructor; [by apply IH|done].
Qed.
Lemma truth_refines E ft r r2 m v : completes r r2 → m_pred m ≠ PNone → steady (m_pred m) →
  node_truth E ft r m v → ∃ w, node_truth E ft r2 m w ∧ refines v w.
Proof.
  intros Hc Hp Hs (p & Hpc & Hv). destruct (run_test_total E ft r2 _ _ Hpc Hp) as [w Hw].
  exists w. split; [by exists p|]. eapply test_refines; [done|by eapply compile_steady|done|done].
Qed.
Lemma truth_carried E ft r r2 m v : completes r r2 → m_pred m ≠ PNone → steady (m_pred m) → v ≠ RU →
  node_truth E ft r m v → node_truth E ft r2 m v.
Proof. intros Hc Hp Hs Hv H. destruct (truth_refines _ _ _ _ _ _ Hc Hp Hs H) as (w & Hw & [?|<-]); done. Qed.
Lemma truth_det E ft r m v w : node_truth E ft r m v → node_truth E ft r m w → v = w.
Proof. intros (p & Hp & Hv) (q & Hq & Hw). congruence. Qed.
Lemma truth_dec E ft r m v : node_truth E ft r m v ∨ ¬ node_truth E ft r m v.
Proof.
  destruct (compile_predicate E ft (m_pred m)) as [p| |] eqn:Hp.
  2,3: right; intros (q & Hq & _); congruence.
  destruct (run_test E ft p r) as [w| |] eqn:Hw.
  2,3: right; intros (q & Hq & ?); congruence.
  destruct (decide (w = v)) as [->|H]; [left; by exists p|]. right. intros (q & Hq & ?). congruence.
Qed.

(** A failing derived field fails Evaluate. *)
Lemma tree_input_fails E dd td t te tk r : tree_of E dd td t te →
  match handle_input E (tm_lt t) r with
  | (Ok _, _) => True
  | (Err x, _) => (tree_evaluate E tk te r).1.1 = Err x
  | (Panic x, _) => (tree_evaluate E tk te r).1.1 = Panic x
  end.
Proof.
  intros (Hv & Hc & _ & _ & _ & _ & Hlt & _). unfold tree_evaluate. rewrite Hv, Hc, Hlt. simpl.
  by destruct (handle_input E (tm_lt t) r) as [[| |] ?].
Qed.

Lemma included_completes (m m2 : row) : m ⊆ m2 → completes (Some m) (Some m2).
Proof. intros Hm f v Hf. simpl in *. by eapply lookup_weaken. Qed.

(** *** C133.  Under nullPrediction a prediction made without some inputs is the
    prediction of every row that fills them in. *)
Theorem C133_final : ∀ E dd td t e td' calls1 calls2 tk1 tk2 (m m2 : row),
  new_model E dd td (DTree t) = (Ok e, td') →
  tm_strategy t = "nullPrediction" → plain_tests t →
  m ⊆ m2 → same_sources (tm_lt t) (Some m) (Some m2) →
  (evaluate E tk1 (after E calls1 e) (Some m)).1.1 ≠ Ok None →
  (evaluate E tk2 (after E calls2 e) (Some m2)).1.1 = (evaluate E tk1 (after E calls1 e) (Some m)).1.1.
Proof.
  intros E dd td t e td' calls1 calls2 tk1 tk2 m m2 Hn Hst Hp Hm Hs Hne.
  assert (Hc := included_completes _ _ Hm).
  destruct (input_final E (tm_lt t) (Some m) (Some m2)) as [Ho Hc2]; [by left|by eexists|done|done|].
  assert (Hp1 : everywhere_doc (λ m, m_pred m ≠ PNone) (tm_node t)).
  { eapply everywhere_impl; [|exact Hp]. by intros ? []. }
  destruct (handle_input E (tm_lt t) (Some m)) as [o r'] eqn:Hi.
  destruct (handle_input E (tm_lt t) (Some m2)) as [o2 r2'] eqn:Hi2. simpl in Ho, Hc2. subst o2.
  destruct (tree_evaluator E dd td t e td' calls1 Hn) as (te & Ht & _ & Hx).
  destruct (tree_evaluator E dd td t e td' calls2 Hn) as (te2 & Ht2 & _ & Hx2).
  pose proof (tree_input_fails _ _ _ _ _ tk1 (Some m) Ht) as Hf. rewrite Hi in Hf.
  pose proof (tree_input_fails _ _ _ _ _ tk2 (Some m2) Ht2) as Hf2. rewrite Hi2 in Hf2.
  destruct o as [[]|x|x]; [|by rewrite Hx, Hx2, Hf, Hf2..].
  destruct (C16_null_prediction E dd td t e td' calls1 tk1 _ _ Hn Hst Hp1 Hi) as (HA & HB & HC).
  destruct (C16_null_prediction E dd td t e td' calls2 tk2 _ _ Hn Hst Hp1 Hi2) as (HA2 & _ & _).
  assert (Hroot : doc_truth E dd td t r' (tm_node t) RT).
  { destruct (truth_dec E (field_types dd (td ++ tm_lt t)) r' (tm_node t) RT) as [Hd|Hd]; [done|].
    exfalso. apply Hne. rewrite HB; [done|]. by left. }
  destruct HC as [[leaf Hleaf]|Hu].
  2:{ exfalso. apply Hne. rewrite HB; [done|]. by right. }
  rewrite (HA leaf Hroot Hleaf). rewrite (HA2 leaf); [done| |].
  - inversion Hp as [n [? ?] ?]; subst. by eapply truth_carried.
  - eapply null_carried; [|exact Hleaf]. eapply everywhere_impl; [|exact Hp].
    intros c [H1 H2]. split; intros ?; by eapply truth_carried.
Qed.
Print Assumptions C133_final.

(** The golf example: with an overcast sky the humidity is not asked for. *)
Definition overcast : row := {["outlook" := GStr "overcast"; "kmh" := GF64 (fl "36")]}.
Definition overcast_humid : row := <["humidity" := GF64 (fl "90")]> overcast.
Example C133_example :
  plain_tests (golf_tree "nullPrediction" "0.5") ∧ overcast ⊆ overcast_humid ∧
  same_sources golf_lt (Some overcast) (Some overcast_humid) ∧
  dumped (run go_ext golf_dd (golf "nullPrediction") (Some overcast)) =
    dumped (Some (Ok (Some (class_row "play" (node_dist golf_dd (golf_tree "nullPrediction" "0.5") (kid golf_root 1)))), None)) ∧
  dumped (run go_ext golf_dd (golf "nullPrediction") (Some overcast_humid)) =
  dumped (run go_ext golf_dd (golf "nullPrediction") (Some overcast)) ∧
  dumped (run go_ext golf_dd (golf "nullPrediction") sunny_nohum) = Some (Ok None).
Proof.
  split; [repeat constructor; done|]. split; [by apply insert_subseteq|].
  split; [|by vm_compute]. intros df f Hd Hf. apply elem_of_list_singleton in Hd as ->.
  simpl in Hf. apply elem_of_list_singleton in Hf as ->. by vm_compute.
Qed.

(** ** lastPrediction *)

Section last.
  Context {N : Type} (kids : N → list N) (t1 t2 : N → presult → Prop).
  (** a node and the nodes below it *)
  Inductive below : N → N → Prop :=
  | below_here n : below n n
  | below_kid n c x : c ∈ kids n → below c x → below n x.

  Lemma descend_last_below n leaf : descend_last kids t2 n leaf → below n leaf.
  Proof. induction 1; [constructor..|]. econstructor; done. Qed.

  Lemma last_below root n leaf :
    (∀ m v w, t2 m v → t2 m w → v = w) →
    everywhere_in kids (λ m, (t1 m RT → t2 m RT) ∧ (t1 m RF → t2 m RF) ∧ (t1 m RT ∨ t1 m RF ∨ t1 m RU) ∧
                             single_true kids t2 m) root →
    descend_last kids t1 root n → descend_last kids t2 root leaf → below n leaf.
  Proof.
    intros Hdet He Hd. revert He. induction Hd as [n c Hc Hu|n Hf|n c n' Hk Hc Ht Hd IH]; intros He H2.
    1,2: by apply descend_last_below.
    inversion He as [m (HT & HF & Htot & Hone) Hkids]; subst. rewrite Forall_forall in Hkids.
    assert (Hc2 : t2 c RT). { specialize (Hkids _ Hc). inversion Hkids as [? (? & ? & ?)]; subst. auto. }
    inversion H2 as [m c' Hc' Hu'|m Hf'|m c' leaf' Hk' Hc' Ht' Hd']; subst.
    - exfalso. specialize (Hkids _ Hc'). inversion Hkids as [? (H1 & H3 & [H4|[H4|H4]] & _)]; subst.
      + by apply H1, (Hdet _ _ _ Hu') in H4.
      + by apply H3, (Hdet _ _ _ Hu') in H4.
      + by apply (Hk _ Hc').
    - exfalso. by apply Hf', (Hdet _ _ _ Hc2) in Hc.
    - apply IH; [by apply Hkids|].
      apply elem_of_list_split in Hc as (l1 & l2 & Hl). rewrite Hl in Hc'.
      assert (c' = c ∨ c' ∈ l1 ++ l2) as [->|Hin] by set_solver; [done|].
      exfalso. by apply (Hone l1 c l2 c' Hl Hc2 Hin).
  Qed.
End last.

Lemma new_node_compiles E ft m : ∀ n, new_node E ft m = Ok n →
  everywhere_doc (λ m, ∃ p, compile_predicate E ft (m_pred m) = Ok p) m.
Proof.
  induction m as [i d s c ds ns p IH] using mnode_rect'. intros n. cbn [new_node].
  destruct (rmap (new_node E ft) ns) as [cs| |] eqn:Hcs; try done. cbn [rbind].
  destruct (compile_predicate E ft p) as [q| |] eqn:Hq; try done. intros _.
  constructor; [by exists q|]. simpl. apply rmap_ok in Hcs.
  induction Hcs as [|x y ns cs Hx _ IHc]; constructor.
  - apply Forall_cons in IH as [IH _]. by eapply IH.
  - apply Forall_cons in IH as [_ IH]. by apply IHc.
Qed.

Lemma everywhere_and {N} (kids : N → list N) (P Q : N → Prop) n :
  everywhere_in kids P n → everywhere_in kids Q n → everywhere_in kids (λ m, P m ∧ Q m) n.
Proof.
  revert n. fix IH 2. intros n [n' Hn Hk] HQ. inversion HQ as [? Hn2 Hk2]; subst. constructor; [done|].
  induction Hk as [|c l Hc _ IHl]; constructor.
  - apply IH; [done|]. by inversion Hk2.
  - apply IHl. by inversion Hk2.
Qed.

(** Under the conditions of C17 a row that fills in inputs is answered by the node the
    incomplete row stopped at or by one below it. *)
Theorem C133_last_prediction : ∀ E dd td t e td' calls1 calls2 tk1 tk2 (m m2 : row) r' r2',
  new_model E dd td (DTree t) = (Ok e, td') →
  tm_strategy t = "lastPrediction" → plain_tests t →
  m ⊆ m2 → same_sources (tm_lt t) (Some m) (Some m2) →
  handle_input E (tm_lt t) (Some m) = (Ok tt, r') → handle_input E (tm_lt t) (Some m2) = (Ok tt, r2') →
  let truth1 := doc_truth E dd td t r' in let truth2 := doc_truth E dd td t r2' in
  truth1 (tm_node t) RT →
  everywhere_doc (λ n, truth1 n RU → m_nodes n = []) (tm_node t) →
  everywhere_doc (single_true m_nodes truth2) (tm_node t) →
  everywhere_doc (λ n, node_dist dd t n ≠ []) (tm_node t) →
  ∃ n leaf, below m_nodes n leaf ∧
    (evaluate E tk1 (after E calls1 e) (Some m)).1.1 = reported E t (node_dist dd t n) ∧
    (evaluate E tk2 (after E calls2 e) (Some m2)).1.1 = reported E t (node_dist dd t leaf).
Proof.
  intros E dd td t e td' calls1 calls2 tk1 tk2 m m2 r' r2' Hn Hst Hp Hm Hs Hi Hi2 truth1 truth2 Hr Hu H1 Hd.
  assert (Hc := included_completes _ _ Hm).
  destruct (input_final E (tm_lt t) (Some m) (Some m2)) as [_ Hc2]; [by left|by eexists|done|done|].
  rewrite Hi, Hi2 in Hc2. simpl in Hc2.
  assert (Hp1 : everywhere_doc (λ m, m_pred m ≠ PNone) (tm_node t)).
  { eapply everywhere_impl; [|exact Hp]. by intros ? []. }
  assert (Hcar : everywhere_doc (λ n, (truth1 n RT → truth2 n RT) ∧ (truth1 n RF → truth2 n RF) ∧
    (truth1 n RT ∨ truth1 n RF ∨ truth1 n RU) ∧ (truth2 n RU → truth1 n RU)) (tm_node t)).
  { destruct (tree_evaluator E dd td t e td' calls1 Hn) as (te & (_ & _ & _ & _ & _ & _ & _ & Hroot & _) & _).
    eapply everywhere_impl; [|eapply everywhere_and; [exact Hp|eapply new_node_compiles; exact Hroot]].
    intros n [[Hn1 Hn2] [p Hpc]]. destruct (run_test_total E _ r' _ _ Hpc Hn1) as [v Hv].
    assert (Hv' : truth1 n v) by (exists p; done). split; [|split; [|split]].
    - intros ?; by eapply truth_carried.
    - intros ?; by eapply truth_carried.
    - destruct v; auto.
    - intros Hx. destruct (truth_refines _ _ _ _ _ _ Hc2 Hn1 Hn2 Hv') as (w & Hw & [->|<-]); [done|].
      by rewrite <- (truth_det _ _ _ _ _ _ Hw Hx). }
  assert (Hone1 : everywhere_doc (single_true m_nodes truth1) (tm_node t)).
  { clear - H1 Hcar. induction (tm_node t) as [i d s c ds ns p IH] using mnode_rect'.
    inversion H1 as [? Ha Hb]; inversion Hcar as [? Hx Hy]; subst. simpl in *. constructor.
    - intros l1 k l2 k' Hk Ht Hin Ht'. simpl in Hk. rewrite Forall_forall in Hy.
      apply (Ha l1 k l2 k' Hk); [|done|].
      + assert (Hi : k ∈ ns) by (rewrite Hk; set_solver). specialize (Hy _ Hi). inversion Hy as [? []]; subst. auto.
      + assert (Hi : k' ∈ ns) by (rewrite Hk; set_solver). specialize (Hy _ Hi). inversion Hy as [? []]; subst. auto.
    - simpl. rewrite Forall_forall in *. intros k Hk. by apply IH; [|apply Hb|apply Hy]. }
  assert (Hu2 : everywhere_doc (λ n, truth2 n RU → m_nodes n = []) (tm_node t)).
  { eapply everywhere_impl; [|eapply everywhere_and; [exact Hu|exact Hcar]].
    intros n [Ha (_ & _ & _ & Hb)]. auto. }
  assert (Hr2 : truth2 (tm_node t) RT). { inversion Hcar as [? [H _]]; subst. auto. }
  destruct (C17_last_prediction_partial E dd td t e td' calls1 tk1 _ _ Hn Hst Hp1 Hi Hr Hu Hone1 Hd) as (n & Hn1 & Hn2).
  destruct (C17_last_prediction_partial E dd td t e td' calls2 tk2 _ _ Hn Hst Hp1 Hi2 Hr2 Hu2 H1 Hd) as (leaf & Hl1 & Hl2).
  exists n, leaf. rewrite Hn2, Hl2. split; [|done].
  eapply last_below; [| |exact Hn1|exact Hl1].
  - intros c v w. apply truth_det.
  - eapply everywhere_impl; [|eapply everywhere_and; [exact Hcar|exact H1]]. intros c [(? & ? & ? & _) ?]. done.
Qed.
Print Assumptions C133_last_prediction.

Example C133_last_example :
  sunny_nohum = Some {["outlook" := GStr "sunny"; "kmh" := GF64 (fl "36")]} ∧
  below m_nodes (kid golf_root 0) (kid (kid golf_root 0) 0) ∧
  dumped (run go_ext golf_dd (golf "lastPrediction") sunny_nohum) =
    dumped (Some (Ok (Some (class_row "play" (node_dist golf_dd (golf_tree "lastPrediction" "0.5") (kid golf_root 0)))), None)) ∧
  dumped (run go_ext golf_dd (golf "lastPrediction") sunny) =
    dumped (Some (Ok (Some (class_row "play" (node_dist golf_dd (golf_tree "lastPrediction" "0.5") (kid (kid golf_root 0) 0)))), None)).
Proof.
  split; [done|]. split; [|by vm_compute].
  eapply (below_kid _ _ (kid (kid golf_root 0) 0)); [by left|constructor].
Qed.

(** ** Where it fails *)

Lemma rows_apart E dd d r r2 :
  is_ok (new_model E dd [] d).1 = true → dumped (run E dd d r) ≠ Some (Ok None) →
  dumped (run E dd d r) ≠ dumped (run E dd d r2) →
  ∃ e td', new_model E dd [] d = (Ok e, td') ∧ (evaluate E [] e r).1.1 ≠ Ok None ∧
    (evaluate E [] e r).1.1 ≠ (evaluate E [] e r2).1.1.
Proof.
  unfold run. destruct (new_model E dd [] d) as [[e| |] td1]; try done.
  intros _ H0 Hd. exists e, td1. split; [done|].
  destruct (evaluate E [] e r) as [[o1 r1] m1], (evaluate E [] e r2) as [[o2 r3] m2]. simpl in *.
  split; intros ->; [by apply H0|by apply Hd].
Qed.

(** The other strategies predict something else once the input is known. *)
Theorem C133_other_strategies_refuted : ∃ E dd t (m m2 : row),
  plain_tests (t "none") ∧ m ⊆ m2 ∧ same_sources (tm_lt (t "none")) (Some m) (Some m2) ∧
  ∀ st, st ∈ ["none"; "lastPrediction"; "defaultChild"; "weightedConfidence"; "aggregateNodes"] →
  tm_strategy (t st) = st ∧
  ∃ e td', new_model E dd [] (DTree (t st)) = (Ok e, td') ∧
    (evaluate E [] e (Some m)).1.1 ≠ Ok None ∧
    (evaluate E [] e (Some m)).1.1 ≠ (evaluate E [] e (Some m2)).1.1.
Proof.
  exists go_ext, golf_dd, (λ st, golf_tree st "0.5"), {["outlook" := GStr "sunny"; "kmh" := GF64 (fl "36")]},
    (<["humidity" := GF64 (fl "70")]> {["outlook" := GStr "sunny"; "kmh" := GF64 (fl "36")]}).
  split; [repeat constructor; done|]. split; [by apply insert_subseteq|]. split.
  { intros df f Hd Hf. apply elem_of_list_singleton in Hd as ->.
    simpl in Hf. apply elem_of_list_singleton in Hf as ->. by vm_compute. }
  intros st Hst. split; [done|].
  repeat (apply elem_of_cons in Hst as [->|Hst]); [..|by apply elem_of_nil in Hst].
  all: apply rows_apart; by vm_compute.
Qed.
Print Assumptions C133_other_strategies_refuted.

(** A derived field of a missing field has a value (C40), so a prediction that rests on
    it is not final, nullPrediction or not. *)
Theorem C133_derived_refuted : ∃ E dd t (m m2 : row) e td',
  tm_strategy t = "nullPrediction" ∧ plain_tests t ∧ m ⊆ m2 ∧ new_model E dd [] (DTree t) = (Ok e, td') ∧
  (evaluate E [] e (Some m)).1.1 ≠ Ok None ∧
  (evaluate E [] e (Some m)).1.1 ≠ (evaluate E [] e (Some m2)).1.1.
Proof.
  exists go_ext, golf_dd, (golf_tree "nullPrediction" "0.5"), {["outlook" := GStr "rainy"]},
    (<["kmh" := GF64 (fl "36")]> {["outlook" := GStr "rainy"]}).
  edestruct (rows_apart go_ext golf_dd (golf "nullPrediction") (Some {["outlook" := GStr "rainy"]})
    (Some (<["kmh" := GF64 (fl "36")]> {["outlook" := GStr "rainy"]}))) as (e & td' & He & Hne); [by vm_compute..|].
  exists e, td'. split; [done|]. split; [repeat constructor; done|]. split; [by apply insert_subseteq|]. done.
Qed.
Print Assumptions C133_derived_refuted.

(** An ensemble adds up the members that predict and leaves out the others without
    notice, so its total is not final either. *)
Theorem C133_forest_refuted : ∃ E dd t (m m2 : row),
  tm_strategy t = "nullPrediction" ∧ plain_tests t ∧ m ⊆ m2 ∧ same_sources (tm_lt t) (Some m) (Some m2) ∧
  (∃ et tdt, new_model E dd [] (DTree t) = (Ok et, tdt) ∧ (evaluate E [] et (Some m)).1.1 = Ok None) ∧
  ∀ method, method ∈ ["sum"; "average"] →
  ∃ e td', new_model E dd [] (mining "classification" method [] [OF "probability(yes)" "probability" "yes"] [] [DTree t]) = (Ok e, td') ∧
    (evaluate E [] e (Some m)).1.1 ≠ Ok None ∧
    (evaluate E [] e (Some m)).1.1 ≠ (evaluate E [] e (Some m2)).1.1.
Proof.
  exists go_ext, golf_dd, (golf_tree "nullPrediction" "0.5"), {["outlook" := GStr "sunny"; "kmh" := GF64 (fl "36")]},
    (<["humidity" := GF64 (fl "70")]> {["outlook" := GStr "sunny"; "kmh" := GF64 (fl "36")]}).
  split; [done|]. split; [repeat constructor; done|]. split; [by apply insert_subseteq|]. split; [|split].
  - intros df f Hd Hf. apply elem_of_list_singleton in Hd as ->.
    simpl in Hf. apply elem_of_list_singleton in Hf as ->. by vm_compute.
  - exists (built go_ext golf_dd (golf "nullPrediction")), (new_model go_ext golf_dd [] (golf "nullPrediction")).2.
    split; [apply built_ok; by vm_compute|]. apply run_out; by vm_compute.
  - intros method Hst. repeat (apply elem_of_cons in Hst as [->|Hst]); [..|by apply elem_of_nil in Hst].
    all: apply rows_apart; by vm_compute.
Qed.
Print Assumptions C133_forest_refuted.
