(** Property C135: trees that predict for every row. *)
From Verif Require Import Base Strconv Value Doc Expr Pred Tree Regression Model Lib SpecTree ProofsTree ProofsOutput ProofsDoc ProofsEval ProofsClass ProofsAnswer ProofsWhole
  GoExt Samples PropertiesTree PropertiesEquiv PropertiesFinal ProofsPredicts.

(** No strategy for missing values. *)
Definition none_strategy (st : string) : Prop :=
  st ∉ ["nullPrediction"; "aggregateNodes"; "weightedConfidence"; "defaultChild"; "lastPrediction"].

Definition value_at (k : string) (o : option (res datarow * datarow)) : option value :=
  match o with Some (Ok (Some out), _) => out !! k | _ => None end.
Lemma with_target dd d r k v :
  value_at k (run go_ext dd d r) = Some v →
  ∃ e td' out, new_model go_ext dd [] d = (Ok e, td') ∧
    (evaluate go_ext [] e r).1.1 = Ok (Some out) ∧ out !! k = Some v.
Proof.
  unfold run. destruct (new_model go_ext dd [] d) as [[e| |] td']; try done. intros H. exists e, td'.
  destruct (evaluate go_ext [] e r) as [[[[out|]| |] r'] m]; try done. simpl in *. eauto.
Qed.

Lemma everywhere_tested (P : mnode → Prop) (f : mnode → bool) m :
  (∀ m, f m = true → P m) → forallb f (doc_nodes m) = true → everywhere_doc P m.
Proof.
  intros Hf. induction m as [id dc sc c ds ns p IH] using mnode_rect'. simpl. intros [H1 H2]%andb_true_iff.
  constructor; [by apply Hf|]. simpl. clear H1. induction ns as [|n ns IHn]; [constructor|].
  apply Forall_cons in IH as [IH1 IH2]. simpl in H2. rewrite forallb_app in H2. apply andb_true_iff in H2 as [H2 H3].
  constructor; [by apply IH1|by apply IHn].
Qed.
Lemma some_positive dd t root :
  forallb (λ m, existsb (λ s, SFltb (S754_zero false) (sc_prob s)) (node_dist dd t m)) (doc_nodes root) = true →
  everywhere_doc (λ m, Exists (λ s, SFltb (S754_zero false) (sc_prob s) = true) (node_dist dd t m)) root.
Proof.
  apply everywhere_tested. intros m (s & Hs & Hp)%existsb_exists. apply Exists_exists. exists s.
  by rewrite elem_of_list_In.
Qed.
Lemma keys_apart dd t k root :
  forallb (λ m, forallb (λ s, negb (prob_key (sc_value s) =s k)) (node_dist dd t m)) (doc_nodes root) = true →
  everywhere_doc (λ m, Forall (λ s, prob_key (sc_value s) ≠ k) (node_dist dd t m)) root.
Proof.
  apply everywhere_tested. intros m Hm. apply Forall_forall. intros s Hs%elem_of_list_In.
  rewrite forallb_forall in Hm. specialize (Hm s Hs). by apply negb_true_iff, String.eqb_neq in Hm.
Qed.

(** *** C135.  Without a strategy for missing values, and under lastPrediction, every
    row is answered with the distribution of some node of the tree. *)
Theorem C135_some_node : ∀ E dd td t e td' calls tk r r',
  new_model E dd td (DTree t) = (Ok e, td') →
  none_strategy (tm_strategy t) ∨ tm_strategy t = "lastPrediction" →
  everywhere_doc (λ m, m_pred m ≠ PNone) (tm_node t) →
  handle_input E (tm_lt t) r = (Ok tt, r') →
  doc_truth E dd td t r' (tm_node t) RT →
  ∃ n, below m_nodes (tm_node t) n ∧
    (evaluate E tk (after E calls e) r).1 = (reported E t (node_dist dd t n), r').
Proof.
  intros E dd td t e td' calls tk r r' Hn Hst Hp Hi Hr. destruct Hst as [Hst|Hst].
  - destruct (C15_strategy_none E dd td t e td' calls tk r r' Hn Hst Hp Hi) as [H _].
    destruct (H Hr) as [[leaf Hl] Hev]. exists leaf. split; [by eapply descend_none_below|by apply Hev].
  - destruct (C17_last_prediction_exact E dd td t e td' calls tk r r' Hn Hst Hp Hi) as [[x Hx] Hev].
    rewrite (Hev x Hx). unfold final.
    assert (Ht : x.2 = RT) by (eapply last_answer_true; [|exact Hx|exact Hr]; intros v w; apply truth_fun).
    destruct (last_answer_below _ _ _ _ Hx) as (n & Hb & Hd); [by rewrite Ht|]. exists n. split; [done|].
    by rewrite Ht, Hd.
Qed.
Print Assumptions C135_some_node.

(** Under aggregateNodes and weightedConfidence some scores are reported. *)
Lemma weighted_reports E dd td t te tk r r' : tree_of E dd td t te →
  tm_strategy t = "weightedConfidence" → everywhere_doc (λ m, m_pred m ≠ PNone) (tm_node t) →
  handle_input E (tm_lt t) r = (Ok tt, r') → doc_truth E dd td t r' (tm_node t) RT →
  everywhere_doc (λ m, node_dist dd t m ≠ []) (tm_node t) →
  ∃ s, s ≠ [] ∧ (tree_evaluate E tk te r).1 = (reported E t s, r').
Proof.
  intros Ht Hst Hp Hi Hr Hd. set (ft := field_types dd (td ++ tm_lt t)).
  destruct (weighted_some E (doc_ctx dd td t) r' (et_root te) tk) as (s & v & Hs & Hne & Hv).
  { apply everywhere_and; [exact (doc_verdicts E dd td t te Ht r' Hp)|].
    eapply (transport_everywhere m_nodes n_children (compiled_to E ft)); [..|exact Hd|exact (doc_root _ _ _ _ _ Ht)].
    - intros a b Hab. apply compiled_kids. exact Hab.
    - intros a b Hab. unfold node_dist. by rewrite <- (doc_dist_of E dd td t a b Hab). }
  assert (Hvt : v = RT).
  { apply Hv. by apply (compiled_truth _ _ _ _ _ _ (doc_root _ _ _ _ _ Ht)). }
  subst v. exists s. split; [by apply Hne|].
  rewrite (root_answer E dd td t te tk r r' s RT Ht Hi); [done|]. exists (et_root te).
  split; [exact (doc_root _ _ _ _ _ Ht)|]. by rewrite Hst.
Qed.

Theorem C135_reports : ∀ E dd td t e td' calls tk r r',
  new_model E dd td (DTree t) = (Ok e, td') →
  none_strategy (tm_strategy t) ∨ tm_strategy t ∈ ["lastPrediction"; "aggregateNodes"; "weightedConfidence"] →
  everywhere_doc (λ m, m_pred m ≠ PNone) (tm_node t) →
  everywhere_doc (λ m, node_dist dd t m ≠ []) (tm_node t) →
  handle_input E (tm_lt t) r = (Ok tt, r') →
  doc_truth E dd td t r' (tm_node t) RT →
  ∃ s, s ≠ [] ∧ (evaluate E tk (after E calls e) r).1 = (reported E t s, r').
Proof.
  intros E dd td t e td' calls tk r r' Hn Hst Hp Hd Hi Hr.
  assert (Hcases : (none_strategy (tm_strategy t) ∨ tm_strategy t = "lastPrediction") ∨
    tm_strategy t = "aggregateNodes" ∨ tm_strategy t = "weightedConfidence") by set_solver.
  destruct Hcases as [H|[H|H]].
  - destruct (C135_some_node E dd td t e td' calls tk r r' Hn H Hp Hi Hr) as (n & Hb & Hev).
    exists (node_dist dd t n). split; [|done]. clear -Hd Hb.
    induction Hb as [|n c x Hc Hb IH]; [by inversion Hd|]. apply IH. inversion Hd as [? _ Hk]; subst.
    rewrite Forall_forall in Hk. by apply Hk.
  - destruct (C20_aggregate_nodes E dd td t e td' calls tk r r' Hn H Hp Hi) as (x & Hx & Hev).
    exists x.1. split; [by eapply aggregate_answer_some|]. rewrite Hev. unfold final.
    by rewrite (aggregate_answer_true _ _ _ _ (λ v w, truth_fun E dd td t r' _ v w) Hx Hr).
  - destruct (tree_evaluator E dd td t e td' calls Hn) as (te & Ht & _ & Hev). rewrite Hev.
    by eapply weighted_reports.
Qed.
Print Assumptions C135_reports.

(** For classification this is a row with the class and its probabilities, for
    regression a number, or the error of a score that is none; it is never nil and
    never a panic. *)
Theorem C135_predicts : ∀ E dd td t e td' calls tk r r',
  new_model E dd td (DTree t) = (Ok e, td') →
  none_strategy (tm_strategy t) ∨ tm_strategy t ∈ ["lastPrediction"; "aggregateNodes"; "weightedConfidence"] →
  everywhere_doc (λ m, m_pred m ≠ PNone) (tm_node t) →
  everywhere_doc (λ m, node_dist dd t m ≠ []) (tm_node t) →
  handle_input E (tm_lt t) r = (Ok tt, r') →
  doc_truth E dd td t r' (tm_node t) RT →
  (tm_function t = "classification" →
     ∃ out c p, (evaluate E tk (after E calls e) r).1.1 = Ok (Some out) ∧ out !! prob_key c = Some (GF64 p)) ∧
  (tm_function t = "regression" →
     (∃ x, (evaluate E tk (after E calls e) r).1.1 = Ok (Some {["score" := GF64 x]})) ∨
     ∃ c, ext_parse_float E c = None ∧ (evaluate E tk (after E calls e) r).1.1 = Err (EParseFloat c)).
Proof.
  intros E dd td t e td' calls tk r r' Hn Hst Hp Hd Hi Hr.
  destruct (C135_reports E dd td t e td' calls tk r r' Hn Hst Hp Hd Hi Hr) as (s & Hs & ->).
  unfold reported, report. split; intros ->; simpl.
  - destruct s as [|s0 ss _] using rev_ind; [done|]. eexists _, (sc_value s0), (sc_prob s0). split; [done|].
    unfold class_row. rewrite foldl_app. simpl. by rewrite lookup_insert.
  - destruct s as [|s0 ss]; [done|]. destruct (ext_parse_float E (sc_value s0)) as [x|] eqn:Hx; [by left; exists x|].
    right. by exists (sc_value s0).
Qed.
Print Assumptions C135_predicts.

(** The class is that of some node, if every node has a class of positive probability. *)
Theorem C135_class : ∀ E dd td t e td' calls tk r r',
  new_model E dd td (DTree t) = (Ok e, td') →
  tm_function t = "classification" →
  none_strategy (tm_strategy t) ∨ tm_strategy t = "lastPrediction" →
  everywhere_doc (λ m, m_pred m ≠ PNone) (tm_node t) →
  everywhere_doc (λ m, Exists (λ s, SFltb (S754_zero false) (sc_prob s) = true) (node_dist dd t m)) (tm_node t) →
  everywhere_doc (λ m, Forall (λ s, prob_key (sc_value s) ≠ target_field (tm_schema t)) (node_dist dd t m)) (tm_node t) →
  handle_input E (tm_lt t) r = (Ok tt, r') →
  doc_truth E dd td t r' (tm_node t) RT →
  ∃ n s out, below m_nodes (tm_node t) n ∧ s ∈ node_dist dd t n ∧
    (evaluate E tk (after E calls e) r).1.1 = Ok (Some out) ∧
    out !! target_field (tm_schema t) = Some (GStr (sc_value s)).
Proof.
  intros E dd td t e td' calls tk r r' Hn Hf Hst Hp Hpos Hk Hi Hr.
  destruct (C135_some_node E dd td t e td' calls tk r r' Hn Hst Hp Hi Hr) as (n & Hb & ->).
  assert (Hdown : ∀ P, everywhere_doc P (tm_node t) → P n).
  { clear -Hb. intros P HP. induction Hb as [|n c x Hc Hb IH]; [by inversion HP|]. apply IH. inversion HP as [? _ Hk]; subst.
    rewrite Forall_forall in Hk. by apply Hk. }
  pose proof (Hdown _ Hpos) as Hn1. pose proof (Hdown _ Hk) as Hn2. simpl in Hn1, Hn2. rewrite Forall_forall in Hn2.
  exists n, (pick_best (node_dist dd t n)). eexists. split; [done|]. split; [by apply pick_positive|].
  unfold reported, report. rewrite Hf. simpl. split; [done|]. by apply class_row_target.
Qed.
Print Assumptions C135_class.

(** No outlook and no humidity: the four answers for golf. *)
Example C135_example : ∀ st, st ∈ ["none"; "lastPrediction"; "aggregateNodes"; "weightedConfidence"] →
  everywhere_doc (λ m, m_pred m ≠ PNone) golf_root ∧
  everywhere_doc (λ m, Exists (λ s, SFltb (S754_zero false) (sc_prob s) = true) (node_dist golf_dd (golf_tree st "0.5") m)) golf_root ∧
  everywhere_doc (λ m, Forall (λ s, prob_key (sc_value s) ≠ "play") (node_dist golf_dd (golf_tree st "0.5") m)) golf_root ∧
  target_field (tm_schema (golf_tree st "0.5")) = "play" ∧
  (∀ r, doc_truth go_ext golf_dd [] (golf_tree st "0.5") r golf_root RT) ∧
  ∃ e td' out, new_model go_ext golf_dd [] (golf st) = (Ok e, td') ∧
    (evaluate go_ext [] e (Some {["kmh" := GF64 (fl "36")]})).1.1 = Ok (Some out) ∧ out !! "play" = Some (GStr "yes").
Proof.
  intros st Hst. split; [repeat constructor; done|].
  repeat (apply elem_of_cons in Hst as [->|Hst]); [..|by apply elem_of_nil in Hst].
  all: split; [apply some_positive; by vm_compute|].
  all: split; [apply keys_apart; by vm_compute|].
  all: split; [done|]; split; [intros r; by exists PTrue|].
  all: apply with_target; by vm_compute.
Qed.

(** ** Where it fails *)

Definition wet_dd : list data_field :=
  [DataField "rain" "double" []; DataField "sun" "double" []; DataField "play" "string" ["yes"; "no"]].
Definition wet_root (count : string) : mnode :=
  MNode "1" "2" "yes" (fl count) []
    [MNode "2" "" "yes" (fl count) [] [] (SP "rain" "equal" "0");
     MNode "3" "" "no" (fl count) [] [] (SP "sun" "equal" "0")] PTrue.
Definition wet (fn st count : string) : tree_model :=
  TreeModel fn st (fl "0.5") "returnLastPrediction" []
    [MF "rain" "active"; MF "sun" "active"; MF "play" "target"] None (wet_root count).
Definition wet_row : datarow := Some {["rain" := GF64 (fl "1")]}.

(** Under defaultChild every node may have a default child, and a row still gets the
    empty class or, from a regression tree, a panic: a false default child hands up
    nothing. *)
Theorem C135_default_refuted : ∃ E dd (t : string → tree_model) r,
  (∀ fn, tm_strategy (t fn) = "defaultChild" ∧ tm_function (t fn) = fn ∧
    everywhere_doc (λ m, m_pred m ≠ PNone) (tm_node (t fn)) ∧
    everywhere_doc (λ m, m_nodes m = [] ∨ m_default m ∈ m_id <$> m_nodes m) (tm_node (t fn)) ∧
    everywhere_doc (λ m, node_dist dd (t fn) m ≠ []) (tm_node (t fn)) ∧
    doc_truth E dd [] (t fn) r (tm_node (t fn)) RT) ∧
  (∃ e td', new_model E dd [] (DTree (t "classification")) = (Ok e, td') ∧
    (evaluate E [] e r).1.1 = Ok (Some {["play" := GStr ""]})) ∧
  ∃ e td', new_model E dd [] (DTree (t "regression")) = (Ok e, td') ∧ (evaluate E [] e r).1.1 = Panic PIndex.
Proof.
  exists go_ext, wet_dd, (λ fn, wet fn "defaultChild" "1"), wet_row. split; [|split].
  - intros fn. split; [done|]. split; [done|]. split; [repeat constructor; done|]. split; [|split].
    + constructor; [right; simpl; set_solver|]. repeat constructor.
    + apply (everywhere_tested _ (λ m, negb (Nat.eqb (length (node_dist wet_dd (wet fn "defaultChild" "1") m)) 0))).
      { intros m H Hm. by rewrite Hm in H. }
      by vm_compute.
    + by exists PTrue.
  - eexists (built go_ext wet_dd (DTree (wet "classification" "defaultChild" "1"))), _.
    split; [apply built_ok; by vm_compute|]. apply run_out; by vm_compute.
  - eexists (built go_ext wet_dd (DTree (wet "regression" "defaultChild" "1"))), _.
    split; [apply built_ok; by vm_compute|]. apply run_panic; by vm_compute.
Qed.
Print Assumptions C135_default_refuted.

(** Nodes without record counts have a class, and still aggregateNodes and
    weightedConfidence report the empty class: the shares are 0 / 0. *)
Theorem C135_counts_refuted : ∃ E dd (t : string → tree_model) r,
  (∀ st, tm_strategy (t st) = st ∧
    everywhere_doc (λ m, m_pred m ≠ PNone) (tm_node (t st)) ∧
    everywhere_doc (λ m, Exists (λ s, SFltb (S754_zero false) (sc_prob s) = true) (node_dist dd (t st) m)) (tm_node (t st)) ∧
    doc_truth E dd [] (t st) r (tm_node (t st)) RT) ∧
  ∀ st, st ∈ ["aggregateNodes"; "weightedConfidence"] →
  ∃ e td' out, new_model E dd [] (DTree (t st)) = (Ok e, td') ∧
    (evaluate E [] e r).1.1 = Ok (Some out) ∧ out !! "play" = Some (GStr "").
Proof.
  exists go_ext, wet_dd, (λ st, wet "classification" st "0"), wet_row. split.
  - intros st. split; [done|]. split; [repeat constructor; done|]. split.
    + apply some_positive. by vm_compute.
    + by exists PTrue.
  - intros st Hst. repeat (apply elem_of_cons in Hst as [->|Hst]); [..|by apply elem_of_nil in Hst].
    all: apply with_target; by vm_compute.
Qed.
Print Assumptions C135_counts_refuted.
