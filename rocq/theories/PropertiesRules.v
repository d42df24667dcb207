(** Property C136: a tree is the list of its rules. *)
From Verif Require Import Base Strconv Value Doc Expr Pred Tree Regression Model Lib ProofsWhole ProofsSim GoExt Samples
  SpecTree SpecEquiv PropertiesTree PropertiesEquiv ProofsEquiv PropertiesCollapse SpecRules ProofsRules.

(** *** C136.  Without a strategy for missing values and under nullPrediction, a tree may
    be written as the list of its rules, deepest first, in any number of trees. *)
Theorem C136_rules : ∀ E dd td d1 d2 e1 td' calls1 calls2,
  ruled d1 d2 → new_model E dd td d1 = (Ok e1, td') →
  ∃ e2, new_model E dd td d2 = (Ok e2, td') ∧
    ∀ tk r, (evaluate E tk (after E calls1 e1) r).1 = (evaluate E tk (after E calls2 e2) r).1.
Proof.
  intros E dd td d1 d2 e1 td' calls1 calls2 Hc H1.
  destruct (ruled_stands_in E dd d1 d2 Hc _ _ _ H1) as (e2 & H2 & He). exists e2. split; [done|]. intros tk r.
  by rewrite (history_independent _ _ _ _ _ _ _ _ _ H1), (history_independent _ _ _ _ _ _ _ _ _ H2).
Qed.
Print Assumptions C136_rules.

Lemma all_of_some ps : Forall (λ p, p ≠ PNone) ps → all_of ps ≠ PNone.
Proof.
  intros H. unfold all_of. destruct (existsb is_false_pred ps); [done|].
  destruct (filter _ ps) as [|p [|p' l]] eqn:Hf; [done| |done].
  assert (Hp : p ∈ filter (λ p, is_true_pred p = false) ps) by (rewrite Hf; by left).
  apply elem_of_list_filter in Hp as [_ Hp]. rewrite Forall_forall in H. by apply H.
Qed.

Lemma rules_leaves m : ∀ path x, everywhere_doc (λ m, m_pred m ≠ PNone) m → Forall (λ p, p ≠ PNone) path →
  x ∈ rules path m → m_nodes x = [] ∧ m_pred x ≠ PNone.
Proof.
  induction m as [id dc sc c ds ns p IH] using mnode_rect'. intros path x Hev Hpath. inversion Hev as [? Hp Hk]; subst.
  simpl in Hp, Hk. cbn [rules].
  assert (Hpath' : Forall (λ p, p ≠ PNone) (path ++ [p])) by (apply Forall_app; split; [done|by repeat constructor]).
  intros [Hx|Hx]%elem_of_app.
  - apply elem_of_list_In, in_concat in Hx as (l & Hl & Hx). apply in_map_iff in Hl as (m & <- & Hm).
    apply elem_of_list_In in Hm, Hx. rewrite Forall_forall in IH, Hk. by eapply (IH m Hm); [apply Hk| |].
  - apply elem_of_list_singleton in Hx as ->. split; [done|]. by apply all_of_some.
Qed.

(** So the first rule that holds decides; if none does, the root. *)
Theorem C136_first_rule : ∀ E dd td t e td' calls tk r r',
  new_model E dd td (DTree t) = (Ok e, td') →
  tm_strategy t ∉ ["nullPrediction"; "aggregateNodes"; "weightedConfidence"; "defaultChild"; "lastPrediction"] →
  tm_notrue t ≠ "returnNullPrediction" →
  everywhere_doc (λ m, m_pred m ≠ PNone) (tm_node t) →
  handle_input E (tm_lt t) r = (Ok tt, r') →
  let truth := doc_truth E dd td t r' in
  truth (tm_node t) RT →
  let rs := concat (map (rules []) (m_nodes (tm_node t))) in
  (∃ l1 rule l2, rs = l1 ++ rule :: l2 ∧ (∀ x, x ∈ l1 → ¬ truth x RT) ∧ truth rule RT ∧
     (evaluate E tk (after E calls e) r).1 = (reported E t (node_dist dd t rule), r')) ∨
  ((∀ x, x ∈ rs → ¬ truth x RT) ∧
     (evaluate E tk (after E calls e) r).1 = (reported E t (node_dist dd t (tm_node t)), r')).
Proof.
  intros E dd td t e td' calls tk r r' Hn Hst Hnt Hp Hi truth Hr rs.
  set (t2 := with_node t (as_rules (tm_node t))).
  assert (Hru : ruled (DTree t) (DTree t2)).
  { constructor. right. constructor. split; [|done]. split; [set_solver|done]. }
  destruct (C136_rules E dd td _ _ e td' calls [] Hru Hn) as (e2 & Hn2 & Hev). rewrite Hev.
  assert (Hleaf : ∀ x, x ∈ rs → m_nodes x = [] ∧ m_pred x ≠ PNone).
  { intros x Hx. subst rs. apply elem_of_list_In, in_concat in Hx as (l & Hl & Hx). apply in_map_iff in Hl as (m & <- & Hm).
    apply elem_of_list_In in Hm, Hx. eapply rules_leaves; [|constructor|exact Hx].
    inversion Hp as [? _ Hk]; subst. rewrite Forall_forall in Hk. by apply Hk. }
  assert (Hk : m_nodes (as_rules (tm_node t)) = rs) by (by destruct (tm_node t)).
  assert (Hp2 : everywhere_doc (λ m, m_pred m ≠ PNone) (tm_node t2)).
  { simpl. inversion Hp as [? Hp1 _]; subst. constructor; [by destruct (tm_node t)|]. rewrite Hk. apply Forall_forall.
    intros x [Hx1 Hx2]%Hleaf. constructor; [done|]. rewrite Hx1. constructor. }
  assert (Hr2 : truth (as_rules (tm_node t)) RT).
  { destruct Hr as (p & Hc & Ht). exists p. split; [|done]. by destruct (tm_node t). }
  destruct (C15_strategy_none E dd td t2 e2 td' [] tk r r' Hn2 Hst Hp2 Hi) as [H _].
  destruct (H Hr2) as [[leaf Hl] Hans]. specialize (Hans leaf Hl).
  change (after E [] e2) with e2 in *. rewrite Hans. clear Hans H. simpl in Hl.
  inversion Hl as [? Hno|? l1 c l2 ? Hsplit Hbefore Hct Hd]; subst.
  - right. rewrite Hk in Hno. split; [done|].
    assert (Hd : node_dist dd t2 (as_rules (tm_node t)) = node_dist dd t (tm_node t)); [|by rewrite Hd].
    unfold node_dist, t2, with_node, doc_dist. cbn [tm_notrue tm_schema].
    do 2 (rewrite (decide_False (P := _ ∧ tm_notrue t = _)) by (by intros [_ ?])). by destruct (tm_node t).
  - left. rewrite Hk in Hsplit. exists l1, c, l2. split; [done|]. split; [done|]. split; [done|].
    assert (leaf = c) as ->; [|done].
    assert (Hc : m_nodes c = []) by (apply Hleaf; rewrite Hsplit; set_solver).
    inversion Hd as [|? l3 ? l4 ? Hs']; subst; [done|]. rewrite Hc in Hs'. by destruct l3.
Qed.
Print Assumptions C136_first_rule.

(** The rules of golf: four of them, two below the sunny node. *)
Definition golf_rules (st : string) : tree_model := with_node (golf_tree st "0.5") (as_rules golf_root).
Example C136_example :
  (m_pred <$> concat (map (rules []) (m_nodes golf_root))) =
    [PCompound "and" [SP "outlook" "equal" "sunny"; SP "humidity" "lessOrEqual" "75"];
     PCompound "and" [SP "outlook" "equal" "sunny"; SP "humidity" "greaterThan" "75"];
     SP "outlook" "equal" "sunny";
     PCompound "or" [SP "outlook" "equal" "overcast"; SP "wind" "lessThan" "5"]] ∧
  (∀ st, st ∈ ["none"; "nullPrediction"] → ruled (golf st) (DTree (golf_rules st))) ∧
  map (λ st, dumped (run go_ext golf_dd (DTree (golf_rules st)) sunny)) ["none"; "nullPrediction"] =
    replicate 2 (dumped (Some (golf_out "yes" "1" "0", None))) ∧
  map (λ st, dumped (run go_ext golf_dd (DTree (golf_rules st)) sunny_nohum)) ["none"; "nullPrediction"] =
    [dumped (Some (golf_out "no" "0.4" "0.6", None)); Some (Ok None)].
Proof.
  split; [done|]. split; [|by vm_compute]. intros st Hst. constructor. right. constructor. split; [|done].
  split; [|split; [done|repeat constructor; done]]. simpl. set_solver.
Qed.

(** The other strategies ask all rules, and the last true one, or some mixture, wins. *)
Theorem C136_only_these : ∀ st, st ∈ ["lastPrediction"; "defaultChild"; "aggregateNodes"; "weightedConfidence"] →
  ∃ E dd t r e1 e2 td1 td2,
    tm_strategy t = st ∧ tm_notrue t ≠ "returnNullPrediction" ∧ everywhere_doc (λ m, m_pred m ≠ PNone) (tm_node t) ∧
    new_model E dd [] (DTree t) = (Ok e1, td1) ∧
    new_model E dd [] (DTree (with_node t (as_rules (tm_node t)))) = (Ok e2, td2) ∧
    (evaluate E [] e1 r).1.1 ≠ (evaluate E [] e2 r).1.1.
Proof.
  intros st Hst. exists go_ext, golf_dd, (golf_tree st "0.5"), sunny.
  destruct (told_apart go_ext golf_dd (golf st) (DTree (golf_rules st)) sunny) as (e1 & e2 & td1 & td2 & H).
  1-3: repeat (apply elem_of_cons in Hst as [->|Hst]); [..|by apply elem_of_nil in Hst]; by vm_compute.
  exists e1, e2, td1, td2. split; [done|]. split; [done|]. split; [repeat constructor; done|]. exact H.
Qed.
Print Assumptions C136_only_these.

(** With returnNullPrediction the inner nodes give no prediction, and their rules do. *)
Theorem C136_not_null : ∃ E dd t r e1 e2 td1 td2,
  tm_strategy t = "none" ∧ tm_notrue t = "returnNullPrediction" ∧ everywhere_doc (λ m, m_pred m ≠ PNone) (tm_node t) ∧
  new_model E dd [] (DTree t) = (Ok e1, td1) ∧
  new_model E dd [] (DTree (with_node t (as_rules (tm_node t)))) = (Ok e2, td2) ∧
  (evaluate E [] e1 r).1.1 ≠ (evaluate E [] e2 r).1.1.
Proof.
  set (t := TreeModel "classification" "none" (fl "0.5") "returnNullPrediction" golf_lt (tm_schema (golf_tree "none" "0.5")) None golf_root).
  exists go_ext, golf_dd, t, sunny_nohum.
  destruct (told_apart go_ext golf_dd (DTree t) (DTree (with_node t (as_rules golf_root))) sunny_nohum) as (e1 & e2 & td1 & td2 & H).
  1-3: by vm_compute.
  exists e1, e2, td1, td2. split; [done|]. split; [done|]. split; [repeat constructor; done|]. exact H.
Qed.
Print Assumptions C136_not_null.
