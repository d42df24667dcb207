(** Property C152: constant members of a sum. *)
From Verif Require Import Base Strconv Value Doc Expr Pred Tree Regression Model Lib ProofsDoc ProofsWhole ProofsSim GoExt Samples
  SpecTree SpecEquiv ProofsEquiv PropertiesTree PropertiesEquiv SpecConstant ProofsConstant.

(** *** C152.  A last member of a sum that always predicts the same number can be written
    as the rescaleConstant of the outputs, in every sum of a document, and back. *)
Theorem C152_folded : ∀ E dd td d1 d2 e1 td' calls1 calls2,
  rtsc (constants_folded E) d1 d2 → new_model E dd td d1 = (Ok e1, td') →
  ∃ e2, new_model E dd td d2 = (Ok e2, td') ∧
    ∀ tk r, (evaluate E tk (after E calls1 e1) r).1 = (evaluate E tk (after E calls2 e2) r).1.
Proof.
  intros E dd td d1 d2 e1 td' calls1 calls2 Hd H1.
  destruct (folds_stand_in E dd d1 d2 Hd _ _ _ H1) as (e2 & H2 & He). exists e2. split; [done|]. intros tk r.
  by rewrite (history_independent _ _ _ _ _ _ _ _ _ H1), (history_independent _ _ _ _ _ _ _ _ _ H2).
Qed.
Print Assumptions C152_folded.

(** The result of the sum is the sum of the others plus the number. *)
Definition number_tree (text : string) : tree_model :=
  TreeModel "regression" "weightedConfidence" fone "returnNullPrediction" [] [MF "area" "active"] None
    (MNode "1" "" text (fl "1") [] [] PTrue).
Definition total (method : string) (tgs : list target) (ds : list doc_model) : doc_model :=
  mining "regression" method [] [OF "price" "" ""] tgs ds.
Definition nested (d : doc_model) : doc_model := mining "regression" "modelChain" [] [] [] [DTree price_tree; d].
Definition priced (d : doc_model) : option (option gov) :=
  match (evaluate go_ext [] (built go_ext price_dd d) (Some {["area" := GF64 (fl "40")]})).1.1 with
  | Ok out => Some (dr_get out "price") | _ => None end.
Example C152_example :
  let d1 := nested (total "sum" [] [DTree price_tree; DTree (number_tree "12.25")]) in
  let d2 := nested (total "sum" [Target "price" None (Some (fl "12.25"))] [DTree price_tree]) in
  rtsc (constants_folded go_ext) d1 d2 ∧
  (new_model go_ext price_dd [] d1).1 = Ok (built go_ext price_dd d1) ∧ priced d1 = Some (Some (GF64 (fl "62.75"))).
Proof.
  split; [|split; by vm_compute]. apply rtc_once. left. apply cf_in.
  apply Forall2_cons. split; [apply Forall2_cons; split; constructor|].
  apply Forall2_cons. split; [|constructor]. apply Forall2_cons. split; [|constructor].
  apply (cf_here go_ext (MiningHeader "regression" "sum" [] [] [OF "price" "" ""] [] None) [seg (DTree price_tree)]
    (seg (DTree (number_tree "12.25"))) (number_tree "12.25") (fl "12.25")); [by left|done|done| |done|].
  - apply NoDup_singleton.
  - eapply ct_score; [reflexivity..| |by vm_compute]. intros f ->%elem_of_list_singleton. done.
Qed.

(** Only a last one: sums are rounded in the order of the members. *)
Theorem C152_last : ∃ E dd t c e1 e2 td1 td2 r,
  constant_tree E c t ∧
  new_model E dd [] (total "sum" [] [DTree t; DTree price_tree; DTree price_tree]) = (Ok e1, td1) ∧
  new_model E dd [] (total "sum" [Target "price" None (Some c)] [DTree price_tree; DTree price_tree]) = (Ok e2, td2) ∧
  (evaluate E [] e1 r).1.1 ≠ (evaluate E [] e2 r).1.1.
Proof.
  exists go_ext, price_dd, (number_tree "0.01"), (fl "0.01").
  exists (built go_ext price_dd (total "sum" [] [DTree (number_tree "0.01"); DTree price_tree; DTree price_tree])).
  exists (built go_ext price_dd (total "sum" [Target "price" None (Some (fl "0.01"))] [DTree price_tree; DTree price_tree])).
  do 2 eexists. exists (Some {["area" := GF64 (fl "40")]}).
  split; [eapply ct_score; [reflexivity..| |by vm_compute]; intros f ->%elem_of_list_singleton; done|].
  split; [apply built_ok; by vm_compute|]. split; [apply built_ok; by vm_compute|].
  intros H. apply (f_equal (λ x, match x with Ok (Some o) => o !! "price" | _ => None end)) in H. vm_compute in H. done.
Qed.
Print Assumptions C152_last.

(** An average counts the member: its constant is divided like the others. *)
Theorem C152_average : ∃ E dd t c e1 e2 td1 td2 r,
  constant_tree E c t ∧
  new_model E dd [] (total "average" [] [DTree price_tree; DTree t]) = (Ok e1, td1) ∧
  new_model E dd [] (total "average" [Target "price" None (Some c)] [DTree price_tree]) = (Ok e2, td2) ∧
  (evaluate E [] e1 r).1.1 ≠ (evaluate E [] e2 r).1.1.
Proof.
  exists go_ext, price_dd, (number_tree "10"), (fl "10").
  exists (built go_ext price_dd (total "average" [] [DTree price_tree; DTree (number_tree "10")])).
  exists (built go_ext price_dd (total "average" [Target "price" None (Some (fl "10"))] [DTree price_tree])).
  do 2 eexists. exists (Some {["area" := GF64 (fl "40")]}).
  split; [eapply ct_score; [reflexivity..| |by vm_compute]; intros f ->%elem_of_list_singleton; done|].
  split; [apply built_ok; by vm_compute|]. split; [apply built_ok; by vm_compute|].
  intros H. apply (f_equal (λ x, match x with Ok (Some o) => o !! "price" | _ => None end)) in H. vm_compute in H. done.
Qed.
Print Assumptions C152_average.

(** An output declared twice gets its rescaleConstant twice. *)
Theorem C152_once : ∃ E dd h t c e1 e2 td1 td2 r,
  constant_tree E c t ∧ mm_method h = "sum" ∧ mm_targets h = [] ∧
  new_model E dd [] (DMining h [seg (DTree price_tree); seg (DTree t)]) = (Ok e1, td1) ∧
  new_model E dd [] (DMining (with_constant c h) [seg (DTree price_tree)]) = (Ok e2, td2) ∧
  (evaluate E [] e1 r).1.1 ≠ (evaluate E [] e2 r).1.1.
Proof.
  set (h := MiningHeader "regression" "sum" [] [] [OF "price" "" ""; OF "price" "" ""] [] None).
  exists go_ext, price_dd, h, (number_tree "10"), (fl "10").
  exists (built go_ext price_dd (DMining h [seg (DTree price_tree); seg (DTree (number_tree "10"))])).
  exists (built go_ext price_dd (DMining (with_constant (fl "10") h) [seg (DTree price_tree)])).
  do 2 eexists. exists (Some {["area" := GF64 (fl "40")]}).
  split; [eapply ct_score; [reflexivity..| |by vm_compute]; intros f ->%elem_of_list_singleton; done|].
  split; [done|]. split; [done|].
  split; [apply built_ok; by vm_compute|]. split; [apply built_ok; by vm_compute|].
  intros H. apply (f_equal (λ x, match x with Ok (Some o) => o !! "price" | _ => None end)) in H. vm_compute in H. done.
Qed.
Print Assumptions C152_once.
