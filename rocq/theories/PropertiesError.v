(** Property theorems about the errors of Evaluate (C123). *)
From Verif Require Import Base Strconv Value Doc Expr Pred Tree Regression Model Lib SpecTree ProofsWhole ProofsSim ProofsPanic
  SpecError ProofsError GoExt Samples.

(** *** C123: every error Evaluate returns is due to a fault of the document, or to a field the
    caller's row lacks *)
Theorem C123_error_causes : ∀ E dd td d e td' calls tk m x,
  new_model E dd td d = (Ok e, td') →
  (evaluate E tk (after E calls e) (Some m)).1.1 = Err x → fault E dd m d x.
Proof.
  intros E dd td d e td' calls tk m x Hn. rewrite (history_independent E dd td d e td' calls tk (Some m) Hn).
  destruct (evaluate E tk e (Some m)) as [[o r'] e'] eqn:He. simpl. intros ->.
  by destruct (evaluate_fault E dd m td d e td' tk _ _ _ _ Hn (above_refl m) He) as [_ Ho].
Qed.
Print Assumptions C123_error_causes.

(** A document without faults whose trees cannot panic answers every row that has the fields
    it insists on. *)
Theorem C123_always_answers : ∀ E dd td d e td' calls tk m,
  new_model E dd td d = (Ok e, td') →
  (∀ x, ¬ fault E dd m d x) →
  (∀ t, t ∈ doc_trees d → everywhere_doc (λ m, m_pred m ≠ PNone) (tm_node t)) →
  (∀ t, t ∈ doc_trees d → tm_function t = "regression" →
     tm_strategy t ≠ "defaultChild" ∧ everywhere_doc (λ m, node_dist dd t m ≠ []) (tm_node t)) →
  ∃ out, (evaluate E tk (after E calls e) (Some m)).1.1 = Ok out.
Proof.
  intros E dd td d e td' calls tk m Hn Hf Hp Hs. rewrite (history_independent E dd td d e td' calls tk (Some m) Hn).
  destruct (evaluate E tk e (Some m)) as [[[out|x|p] r'] e'] eqn:He; simpl; [by exists out| |].
  - destruct (evaluate_fault E dd m td d e td' tk _ _ _ _ Hn (above_refl m) He) as [_ Ho]. by apply Hf in Ho.
  - destruct (evaluate_panics E dd (doc_trees d) tk e m _ _ _ (new_model_steady E dd td d e td' Hn) He p eq_refl)
      as [(_ & t & Ht & H)|(_ & t & Ht & Hr & H)].
    + destruct H. by apply Hp.
    + destruct H. by apply Hs.
Qed.
Print Assumptions C123_always_answers.

Definition bad_derived : tree_model :=
  TreeModel "classification" "none" fone "returnLastPrediction"
    [DerivedField "half" "continuous" "double" (XApply "if" None None
       [XApply "isMissing" None None [XField "humidity" None]; XConst "integer" "0"; XField "humidity" None])]
    [MF "play" "target"] None (MNode "1" "" "yes" (fl "1") [SD "yes" "1"] [] PTrue).
Definition odd_score : tree_model :=
  TreeModel "regression" "none" fone "returnLastPrediction" [] [MF "area" "active"; MF "price" "target"] None
    (MNode "1" "" "100" (fl "2") [SD "a lot" "1"] [] PTrue).

Example C123_example :
  (evaluate go_ext [] (built go_ext golf_dd (DTree bad_derived)) (Some ∅)).1.1 = Err (EConstType "integer") ∧
  fault go_ext golf_dd ∅ (DTree bad_derived) (EConstType "integer") ∧
  (evaluate go_ext [] (built go_ext price_dd (mining "regression" "modelChain" [] [OF "price" "" ""] [] [DTree price_tree; DRegr lin_model]))
     (Some {["area" := GF64 (fl "70")]})).1.1 = Err (EMissingTerm "rooms") ∧
  (evaluate go_ext [] (built go_ext price_dd (mining "regression" "sum" [] [OF "price" "" ""] [] [DTree price_tree; DTree odd_score])) (Some ∅)).1.1
    = Err (EParseFloat "a lot") ∧
  (evaluate go_ext [] (built go_ext price_dd (mining "regression" "selectFirst" [] [] [] [])) (Some ∅)).1.1 = Err ENoSegments.
Proof.
  split; [by vm_compute|]. split; [|by vm_compute].
  eapply tree_input; [left|]. apply (argument _ _ _ _ _ _ (XConst "integer" "0")); [set_solver|]. by constructor.
Qed.

Example C123_answers_example :
  (∀ m x, ¬ fault go_ext golf_dd m (golf "weightedConfidence") x) ∧
  (∀ m calls tk, ∃ out, (evaluate go_ext tk (after go_ext calls (built go_ext golf_dd (golf "weightedConfidence"))) (Some m)).1.1 = Ok out).
Proof.
  assert (∀ m x, ¬ fault go_ext golf_dd m (golf "weightedConfidence") x) as Hf.
  { intros m x Hx. inversion Hx as [? f ? Hin He|? ? Hr| | | | |]; subst; [|done].
    apply elem_of_list_singleton in Hin as ->. simpl in He.
    inversion He as [| | | | |? ? ? ? Hfn|? ? ? ? ? Hfn Hl|? ? ? ? a ? Ha Hx2]; subst; [set_solver|..].
    - assert (n = 2) as -> by set_solver. done.
    - apply elem_of_cons in Ha as [->|Ha]; [|apply elem_of_list_singleton in Ha as ->]; inversion Hx2 as [|v Hv| | | | | |]; subst; [done|].
      by vm_compute in Hv. }
  split; [exact Hf|]. intros m calls tk.
  eapply C123_always_answers; [by apply built_ok; vm_compute|apply Hf|..].
  - intros t ->%elem_of_list_singleton. by repeat constructor.
  - intros t ->%elem_of_list_singleton. done.
Qed.
