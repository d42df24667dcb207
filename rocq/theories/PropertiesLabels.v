(** Property C132: the names of the classes. *)
From Verif Require Import Base Strconv Value Doc Expr Pred Tree Regression Model Lib ProofsDoc ProofsWhole ProofsSim GoExt Samples
  SpecTree SpecEquiv ProofsEquiv PropertiesTree PropertiesEquiv SpecLabels ProofsLabels.

(** *** C132.  A classifier whose classes are renamed, in the tree and in the dictionary,
    predicts the renamed class with the same probabilities. *)
Theorem C132_classes : ∀ σ E dd td t e td' calls calls2,
  (∀ a b, σ a = σ b → a = b) → σ "" = "" → tm_function t = "classification" →
  tm_strategy t ∉ ["aggregateNodes"; "weightedConfidence"] → (∀ c, target_field (tm_schema t) ≠ probability_of c) →
  new_model E dd td (DTree t) = (Ok e, td') →
  ∃ e2, new_model E (relabel_dictionary σ (target_field (tm_schema t)) dd) td (DTree (relabel_tree σ t)) = (Ok e2, td') ∧
    ∀ tk r, (evaluate E tk (after E calls e) r).1.2 = (evaluate E tk (after E calls2 e2) r).1.2 ∧
      answers_relabelled σ (target_field (tm_schema t))
        (evaluate E tk (after E calls e) r).1.1 (evaluate E tk (after E calls2 e2) r).1.1.
Proof.
  intros σ E dd td t e td' calls calls2 Hi He Hf Hs Ht Hn.
  destruct (relabel_answers σ E dd td t e td' Hi He Hf Hs Ht Hn) as (e2 & H2 & H). exists e2. split; [done|]. intros tk r.
  rewrite (history_independent _ _ _ _ _ _ _ _ _ Hn), (history_independent _ _ _ _ _ _ _ _ _ H2). apply H.
Qed.
Print Assumptions C132_classes.

(** yes and no swapped *)
Definition swapped (c : string) : string := if c =s "yes" then "no" else if c =s "no" then "yes" else c.
Lemma swapped_inj a b : swapped a = swapped b → a = b.
Proof.
  unfold swapped. destruct (String.eqb_spec a "yes"), (String.eqb_spec a "no"), (String.eqb_spec b "yes"), (String.eqb_spec b "no");
    intros; subst; done.
Qed.
Lemma play_key c : "play" ≠ probability_of c.
Proof. done. Qed.
Example C132_example :
  (∀ a b, swapped a = swapped b → a = b) ∧ swapped "" = "" ∧ target_field (tm_schema (golf_tree "defaultChild" "0.5")) = "play" ∧
  dumped (run go_ext golf_dd (golf "defaultChild") sunny_nohum) = dumped (Some (golf_out "yes" "0.5" "0", None)) ∧
  dumped (run go_ext (relabel_dictionary swapped "play" golf_dd) (DTree (relabel_tree swapped (golf_tree "defaultChild" "0.5"))) sunny_nohum)
    = dumped (Some (golf_out "no" "0" "0.5", None)).
Proof. split; [exact swapped_inj|]. split; [done|]. split; [done|]. split; by vm_compute. Qed.

(** Among classes of equal record counts, aggregateNodes chooses in map order, which may
    follow from their names. *)
Definition even_tree : tree_model :=
  TreeModel "classification" "aggregateNodes" fone "returnLastPrediction" [] [MF "play" "target"] None
    (MNode "1" "" "yes" (fl "10") [SD "yes" "5"; SD "no" "5"]
       [MNode "2" "" "no" (fl "5") [SD "yes" "0"; SD "no" "5"] [] (SP "humidity" "lessThan" "75");
        MNode "3" "" "yes" (fl "5") [SD "yes" "5"; SD "no" "0"] [] (SP "humidity" "greaterOrEqual" "75")] PTrue).
Theorem C132_ties_refuted : ∃ σ E dd t e e2 td1 td2 r,
  (∀ a b, σ a = σ b → a = b) ∧ σ "" = "" ∧ tm_function t = "classification" ∧
  (∀ c, target_field (tm_schema t) ≠ probability_of c) ∧
  new_model E dd [] (DTree t) = (Ok e, td1) ∧
  new_model E (relabel_dictionary σ (target_field (tm_schema t)) dd) [] (DTree (relabel_tree σ t)) = (Ok e2, td2) ∧
  ¬ answers_relabelled σ (target_field (tm_schema t)) (evaluate E [] e r).1.1 (evaluate E [] e2 r).1.1.
Proof.
  set (dd2 := relabel_dictionary swapped "play" golf_dd). set (t2 := DTree (relabel_tree swapped even_tree)).
  exists swapped, go_ext, golf_dd, even_tree, (built go_ext golf_dd (DTree even_tree)), (built go_ext dd2 t2),
    (new_model go_ext golf_dd [] (DTree even_tree)).2, (new_model go_ext dd2 [] t2).2, (Some ∅).
  split; [exact swapped_inj|]. split; [done|]. split; [done|]. split; [apply play_key|].
  split; [apply built_ok; by vm_compute|]. split; [apply built_ok; by vm_compute|].
  rewrite (run_out go_ext golf_dd (DTree even_tree) _ (Some {["play" := GStr "no"; "probability(yes)" := GF64 (fl "0.5"); "probability(no)" := GF64 (fl "0.5")]})).
  2-3: by vm_compute.
  rewrite (run_out go_ext dd2 t2 _ (Some {["play" := GStr "no"; "probability(yes)" := GF64 (fl "0.5"); "probability(no)" := GF64 (fl "0.5")]})).
  2-3: by vm_compute.
  intros [(v & Hv & Hv2) _]. change (target_field (tm_schema even_tree)) with "play" in *. rewrite lookup_insert in Hv, Hv2. injection Hv as <-. by injection Hv2.
Qed.
Print Assumptions C132_ties_refuted.

(** A regression model reports under the names of its output fields: with its classes
    renamed, in the tables and in the outputs, it answers as before, also as a member of an
    ensemble. *)
Theorem C132_regressions : ∀ E dd td d1 d2 e1 td' calls1 calls2,
  regressions_relabelled d1 d2 → new_model E dd td d1 = (Ok e1, td') →
  ∃ e2, new_model E dd td d2 = (Ok e2, td') ∧
    ∀ tk r, (evaluate E tk (after E calls1 e1) r).1 = (evaluate E tk (after E calls2 e2) r).1.
Proof.
  intros E dd td d1 d2 e1 td' calls1 calls2 Hd H1.
  destruct (regressions_stand_in E dd d1 d2 Hd _ _ _ H1) as (e2 & H2 & He). exists e2. split; [done|]. intros tk r.
  by rewrite (history_independent _ _ _ _ _ _ _ _ _ H1), (history_independent _ _ _ _ _ _ _ _ _ H2).
Qed.
Print Assumptions C132_regressions.

(** An ensemble of a tree and a classification with three classes, of which two are swapped. *)
Definition three_classes : regr_model :=
  RegrModel "classification" "softmax" [] [MF "area" "active"; MF "play" "target"]
    [RegrTable (fl "0") "yes" [Predictor "area" (fl "0.25") 1]; RegrTable (fl "1") "no" []; RegrTable (fl "0") "maybe" []]
    [OF "p_yes" "probability" "yes"; OF "p_no" "probability" "no"; OF "p_maybe" "probability" "maybe"] None.
Definition three_doc (m : regr_model) : doc_model := mining "classification" "modelChain" [] [] [] [golf "defaultChild"; DRegr m].
Definition three_out (m : regr_model) : option (datarow * datarow) :=
  match evaluate go_ext [] (built go_ext golf_dd (three_doc m)) (Some {["area" := GF64 (fl "4"); "outlook" := GStr "sunny"; "humidity" := GF64 (fl "60")]}) with
  | (Ok o, r, _) => Some (o, r) | _ => None end.
Example C132_regressions_example :
  regressions_relabelled (three_doc three_classes) (three_doc (relabel_regr swapped three_classes)) ∧
  rt_category <$> rm_tables (relabel_regr swapped three_classes) = ["no"; "yes"; "maybe"] ∧
  (new_model go_ext golf_dd [] (three_doc three_classes)).1 = Ok (built go_ext golf_dd (three_doc three_classes)) ∧
  (∃ out r, three_out three_classes = Some (Some out, r) ∧ out !! "p_maybe" ≠ out !! "p_no" ∧ is_Some (out !! "p_no")).
Proof.
  split; [|split; [done|split; [by vm_compute|]]].
  - constructor. apply Forall2_cons. split; [apply Forall2_cons; split; constructor|].
    apply Forall2_cons. split; [|constructor]. apply Forall2_cons. split; [|constructor].
    constructor. exact swapped_inj.
  - vm_compute. eexists _, _. split; [reflexivity|]. split; [done|by eexists].
Qed.

(** Classes that are given the same name are mixed up. *)
Theorem C132_one_to_one : ∃ E dd td m σ e1 e2 td1 td2 r,
  new_model E dd td (DRegr m) = (Ok e1, td1) ∧ new_model E dd td (DRegr (relabel_regr σ m)) = (Ok e2, td2) ∧
  (evaluate E [] e1 r).1 ≠ (evaluate E [] e2 r).1.
Proof.
  exists go_ext, [], [], three_classes, (λ _, "yes"). do 4 eexists. exists (Some {["area" := GF64 (fl "4")]}).
  split; [reflexivity|]. split; [reflexivity|]. intros H. apply (f_equal (λ x, match x.1 with Ok (Some o) => o !! "p_yes" | _ => None end)) in H.
  vm_compute in H. done.
Qed.
Print Assumptions C132_one_to_one.
