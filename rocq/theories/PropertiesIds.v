(** Property C131: identifiers of nodes. *)
From Verif Require Import Base Strconv Value Doc Expr Pred Tree Regression Model Lib ProofsDoc ProofsEval ProofsAnswer ProofsWhole ProofsSim GoExt Samples
  SpecTree SpecEquiv PropertiesTree PropertiesEquiv ProofsEquiv SpecIds ProofsIds.

(** *** C131.  Nodes may be identified differently, as long as every defaultChild names
    the same children. *)
Theorem C131_identifiers : ∀ E dd td d1 d2 e1 td' calls1 calls2,
  renumbered d1 d2 → new_model E dd td d1 = (Ok e1, td') →
  ∃ e2, new_model E dd td d2 = (Ok e2, td') ∧
    ∀ tk r, (evaluate E tk (after E calls1 e1) r).1 = (evaluate E tk (after E calls2 e2) r).1.
Proof.
  intros E dd td d1 d2 e1 td' calls1 calls2 Hc H1.
  destruct (renumbered_stands_in E dd d1 d2 Hc _ _ _ H1) as (e2 & H2 & He). exists e2. split; [done|]. intros tk r.
  by rewrite (history_independent _ _ _ _ _ _ _ _ _ H1), (history_independent _ _ _ _ _ _ _ _ _ H2).
Qed.
Print Assumptions C131_identifiers.

Theorem C131_accepted : ∀ E dd td d1 d2, renumbered d1 d2 →
  (∃ e td', new_model E dd td d1 = (Ok e, td')) ↔ (∃ e td', new_model E dd td d2 = (Ok e, td')).
Proof.
  intros E dd td d1 d2 H. split; intros (e & td' & Hn).
  - destruct (renumbered_stands_in E dd d1 d2 H _ _ _ Hn) as (e2 & H2 & _). eauto.
  - destruct (renumbered_stands_in E dd d2 d1 (renumbered_sym _ _ H) _ _ _ Hn) as (e2 & H2 & _). eauto.
Qed.
Print Assumptions C131_accepted.

(** weightedConfidence: the order in which siblings are visited may follow from their
    identifiers, so the answer is one of the answers of the original. *)
Theorem C131_weighted : ∀ E dd td t n e td' calls tk r r',
  reidentified (tm_node t) n → tm_strategy t = "weightedConfidence" →
  everywhere_doc (λ m, m_pred m ≠ PNone) n → everywhere_doc (λ m, NoDup (m_id <$> m_nodes m)) n →
  new_model E dd td (DTree (with_node t n)) = (Ok e, td') → handle_input E (tm_lt t) r = (Ok tt, r') →
  ∃ x, weighted_answer (doc_truth E dd td t r') (node_dist dd t) (tm_node t) x ∧
    (evaluate E tk (after E calls e) r).1 = (final E t x, r').
Proof.
  intros E dd td t n e td' calls tk r r' Hre Hst Hp Hid Hn Hi.
  destruct (C19_weighted_confidence E dd td (with_node t n) e td' calls tk r r' Hn Hst Hp Hid Hi) as (x & Hx & He).
  exists x. split; [|done]. eapply weighted_reid; [exact Hx|]. by apply reidentified_sym.
Qed.
Print Assumptions C131_weighted.

(** the golf tree with letters for numbers; leaf "4" of the second node now shares the
    identifier of the root *)
Definition lettered : mnode :=
  MNode "a" "b" "yes" (fl "14") [SD "yes" "9"; SD "no" "5"]
    [MNode "b" "a" "yes" (fl "5") [SD "yes" "2"; SD "no" "3"]
       [MNode "a" "x" "yes" (fl "2") [SD "yes" "2"; SD "no" "0"] [] (SP "humidity" "lessOrEqual" "75");
        MNode "c" "y" "no" (fl "3") [SD "yes" "0"; SD "no" "3"] [] (SP "humidity" "greaterThan" "75")]
       (SP "outlook" "equal" "sunny");
     MNode "d" "" "yes" (fl "9") [SD "yes" "7"; SD "no" "2"] []
       (PCompound "or" [SP "outlook" "equal" "overcast"; SP "wind" "lessThan" "5"])]
    PTrue.
Lemma lettered_golf : reidentified golf_root lettered.
Proof. repeat (constructor || split); done. Qed.
Example C131_example :
  renumbered (golf "defaultChild") (DTree (with_node (golf_tree "defaultChild" "0.5") lettered)) ∧
  map (λ d, dumped (run go_ext golf_dd d sunny_nohum)) [golf "defaultChild"; DTree (with_node (golf_tree "defaultChild" "0.5") lettered)]
    = replicate 2 (dumped (Some (golf_out "yes" "0.5" "0", None))) ∧
  everywhere_doc (λ m, NoDup (m_id <$> m_nodes m)) lettered ∧
  dumped (run go_ext golf_dd (DTree (with_node (golf_tree "weightedConfidence" "0.5") lettered)) sunny_nohum)
    = dumped (Some (golf_out "no" "0.4" "0.6", None)).
Proof.
  split; [|split; [by vm_compute|split; [repeat constructor; simpl; set_solver|by vm_compute]]].
  constructor. right. apply (stb _ (golf_tree "defaultChild" "0.5") lettered). split; [done|apply lettered_golf].
Qed.

(** Identifiers that are left out count as one: without defaultChild attributes, the
    last sibling becomes the default child and the only one with a weight. *)
Definition undirected (st : string) : tree_model :=
  TreeModel "classification" st fone "returnLastPrediction" [] [MF "play" "target"] None
    (MNode "1" "" "yes" (fl "10") [SD "yes" "4"; SD "no" "6"]
       [MNode "2" "" "no" (fl "6") [SD "yes" "0"; SD "no" "6"] [] (SP "humidity" "lessThan" "75");
        MNode "3" "" "yes" (fl "4") [SD "yes" "4"; SD "no" "0"] [] (SP "humidity" "greaterOrEqual" "75")] PTrue).
Theorem C131_left_out_refuted : ∀ st, st ∈ ["defaultChild"; "weightedConfidence"] →
  ∃ E dd t r, tm_strategy t = st ∧ everywhere_doc (λ m, m_default m = "") (tm_node t) ∧
    ∃ e1 e2 td1 td2, new_model E dd [] (DTree t) = (Ok e1, td1) ∧
      new_model E dd [] (DTree (with_node t (anonymous (tm_node t)))) = (Ok e2, td2) ∧
      (evaluate E [] e1 r).1.1 ≠ (evaluate E [] e2 r).1.1.
Proof.
  intros st Hst. exists go_ext, golf_dd, (undirected st), (Some ∅). split; [done|]. split; [by repeat constructor|].
  rewrite !elem_of_cons in Hst. destruct Hst as [->|[->|Hst%elem_of_nil]]; [..|done].
  - apply told_apart; by vm_compute.
  - apply told_apart; by vm_compute.
Qed.
Print Assumptions C131_left_out_refuted.

(** what the two documents answer *)
Example C131_left_out_example :
  map (λ d, dumped (run go_ext golf_dd d (Some ∅)))
    [DTree (undirected "defaultChild"); DTree (with_node (undirected "defaultChild") (anonymous (tm_node (undirected "defaultChild"))))]
  = [Some (Ok None); dumped (Some (golf_out "yes" "1" "0", None))] ∧
  map (λ d, dumped (run go_ext golf_dd d (Some ∅)))
    [DTree (undirected "weightedConfidence"); DTree (with_node (undirected "weightedConfidence") (anonymous (tm_node (undirected "defaultChild"))))]
  = [dumped (Some (golf_out "no" "0.4" "0.6", None)); dumped (Some (golf_out "yes" "0.4" "0", None))].
Proof. by vm_compute. Qed.
