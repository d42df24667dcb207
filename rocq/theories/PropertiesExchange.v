(** Property C157: members of ensembles exchanged for others that answer alike. *)
From Verif Require Import Base Strconv Value Doc Expr Pred Tree Regression Model Api Lib ProofsDoc ProofsWhole ProofsSim GoExt Samples
  SpecEquiv SpecVerify PropertiesEquiv SpecTrim PropertiesTrim PropertiesAlike SpecExchange ProofsExchange.

(** *** C157.  Members, at any depth, can be exchanged for documents that answer alike, again and again. *)
Theorem C157_exchanged : ∀ E dd td d1 d2 e1 td' calls1 calls2,
  rtc (exchanged (answers_for E dd)) d1 d2 → new_model E dd td d1 = (Ok e1, td') →
  ∃ e2, new_model E dd td d2 = (Ok e2, td') ∧
    ∀ tk r, (evaluate E tk (after E calls1 e1) r).1 = (evaluate E tk (after E calls2 e2) r).1.
Proof.
  intros E dd td d1 d2 e1 td' calls1 calls2 Hd H1.
  destruct (exchanges_answer E dd _ _ Hd _ _ _ H1) as (e2 & H2 & He). exists e2. split; [done|]. intros tk r.
  by rewrite (history_independent _ _ _ _ _ _ _ _ _ H1), (history_independent _ _ _ _ _ _ _ _ _ H2).
Qed.
Print Assumptions C157_exchanged.

(** Verify then comes to the same verdict. *)
Theorem C157_verdict : ∀ E dd td d1 d2 e1 e2 td1 td2 calls1 calls2 tk,
  rtc (exchanged (answers_for E dd)) d1 d2 → doc_verification d1 = doc_verification d2 →
  new_model E dd td d1 = (Ok e1, td1) → new_model E dd td d2 = (Ok e2, td2) →
  (model_verify E tk (after E calls1 e1)).1 = (model_verify E tk (after E calls2 e2)).1.
Proof.
  intros E dd td d1 d2 e1 e2 td1 td2 calls1 calls2 tk Hd Hv H1 H2. eapply C155_same_predictions; [exact H1|exact H2|done|].
  destruct (C157_exchanged E dd td d1 d2 e1 td1 [] [] Hd H1) as (e2' & H2' & He). rewrite H2 in H2'. injection H2' as <- _.
  intros tk' r. specialize (He tk' r). cbn in He. by rewrite He.
Qed.
Print Assumptions C157_verdict.

(** The sunny branch of C153, inside two mining models. *)
Definition nested (leaf : string → string → predicate) : doc_model :=
  mining "classification" "modelChain" [] [] []
    [DTree (golf_tree "defaultChild" "0.5"); mining "classification" "selectFirst" [] [] [] [DTree (branch_tree "none" leaf)]].
Lemma branch_answers : answers_for go_ext golf_dd (DTree (branch_tree "none" full_leaf)) (DTree (branch_tree "none" short_leaf)).
Proof.
  intros td e1 td' H1. apply (C153_repeated go_ext golf_dd td (DTree (branch_tree "none" full_leaf)) _ e1 td' [] []); [|exact H1].
  exact (proj1 C153_example).
Qed.
Example C157_example :
  exchanged (answers_for go_ext golf_dd) (nested full_leaf) (nested short_leaf) ∧ nested full_leaf ≠ nested short_leaf ∧
  dumped (run go_ext golf_dd (nested full_leaf) branch_row) = dumped (run go_ext golf_dd (nested short_leaf) branch_row) ∧
  dumped (run go_ext golf_dd (nested full_leaf) branch_row) =
    Some (Ok (dump (Some {["play" := GStr "yes"; "probability(yes)" := GF64 (fl "1"); "probability(no)" := GF64 (fl "0")]}))).
Proof.
  split; [|split; [done|split; by vm_compute]].
  apply ex_members. apply Forall2_cons. split; [apply Forall2_cons; split; [apply ex_keep|constructor]|].
  apply Forall2_cons. split; [|constructor]. apply Forall2_cons. split; [|constructor].
  apply ex_members. apply Forall2_cons. split; [|constructor]. apply Forall2_cons. split; [|constructor].
  apply ex_here, branch_answers.
Qed.

(** Equal results are not enough: the members of an ensemble share the row, in which a member leaves its
    derived fields, and the transformation dictionary, to which it adds them. *)
Definition bystander (lt : list derived_field) : tree_model :=
  TreeModel "regression" "none" fone "" lt [MF "area" "active"; MF "price" "target"] None (MNode "1" "" "7" fone [SD "7" "1"] [] PTrue).
Definition onlooker : tree_model :=
  TreeModel "regression" "none" fone "returnLastPrediction" [] [MF "area" "active"; MF "price" "target"] None
    (MNode "1" "" "1" fone [SD "1" "1"] [MNode "2" "" "2" fone [SD "2" "1"] [] (SP "hint" "greaterThan" "5")] PTrue).
Definition hinted (c : string) : list derived_field := [DF "hint" "double" (XConst "double" c)].
Definition crowd (lt : list derived_field) : doc_model :=
  mining "regression" "modelChain" [] [] [] [DTree (bystander lt); DTree onlooker].
Theorem C157_rows_matter : ∃ E dd d1 d2 d3 e1 e2 td1 td2 f1 f2,
  new_model E dd [] d1 = (Ok e1, td1) ∧ new_model E dd [] d2 = (Ok e2, td2) ∧
  (∀ tk m, (evaluate E tk e1 (Some m)).1.1 = (evaluate E tk e2 (Some m)).1.1) ∧
  (new_model E dd [] (mining "regression" "modelChain" [] [] [] [d1; d3])).1 = Ok f1 ∧
  (new_model E dd [] (mining "regression" "modelChain" [] [] [] [d2; d3])).1 = Ok f2 ∧
  ∀ tk, (evaluate E tk f1 (Some ∅)).1.1 ≠ (evaluate E tk f2 (Some ∅)).1.1.
Proof.
  exists go_ext, price_dd, (DTree (bystander (hinted "9"))), (DTree (bystander (hinted "3"))), (DTree onlooker),
    (built go_ext price_dd (DTree (bystander (hinted "9")))), (built go_ext price_dd (DTree (bystander (hinted "3")))),
    (hinted "9"), (hinted "3"), (built go_ext price_dd (crowd (hinted "9"))), (built go_ext price_dd (crowd (hinted "3"))).
  split; [by apply built_ok; vm_compute|]. split; [by apply built_ok; vm_compute|].
  split; [intros tk m; by vm_compute|]. split; [by vm_compute|]. split; [by vm_compute|].
  intros tk H. apply (f_equal (λ x, match x with Ok o => dump o | _ => None end)) in H. by vm_compute in H.
Qed.
Print Assumptions C157_rows_matter.

(** Without the derived field the ensemble is rejected, though the member alone answers alike. *)
Theorem C157_dictionary_matters : ∃ E dd d1 d2 d3 e1 e2 td1 td2 f1 x,
  new_model E dd [] d1 = (Ok e1, td1) ∧ new_model E dd [] d2 = (Ok e2, td2) ∧
  (∀ tk m, (evaluate E tk e1 (Some m)).1.1 = (evaluate E tk e2 (Some m)).1.1) ∧
  (new_model E dd [] (mining "regression" "modelChain" [] [] [] [d1; d3])).1 = Ok f1 ∧
  (new_model E dd [] (mining "regression" "modelChain" [] [] [] [d2; d3])).1 = Err x.
Proof.
  exists go_ext, price_dd, (DTree (bystander (hinted "9"))), (DTree (bystander [])), (DTree onlooker),
    (built go_ext price_dd (DTree (bystander (hinted "9")))), (built go_ext price_dd (DTree (bystander []))),
    (hinted "9"), [], (built go_ext price_dd (crowd (hinted "9"))), (EUnknownField "hint").
  split; [by apply built_ok; vm_compute|]. split; [by apply built_ok; vm_compute|].
  split; [intros tk m; by vm_compute|]. split; by vm_compute.
Qed.
Print Assumptions C157_dictionary_matters.
