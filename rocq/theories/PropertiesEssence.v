(** Properties C73 - C77: which parts of a document decide a prediction. *)
From Verif Require Import Base Strconv Value Doc Expr Pred Tree Regression Model Xml Decode Lib GoExt Samples
  ProofsConstruct ProofsEval ProofsWhole ProofsSim SpecEssence ProofsEssence SpecFile.

(** *** C73: annotations do not influence predictions *)
Theorem C73_unread_parts : ∀ E dd td d1 d2 e1 td1 calls1 calls2 tk r,
  essence d1 = essence d2 → new_model E dd td d1 = (Ok e1, td1) →
  ∃ e2 td2, new_model E dd td d2 = (Ok e2, td2) ∧
    (evaluate E tk (after E calls1 e1) r).1 = (evaluate E tk (after E calls2 e2) r).1.
Proof. intros. by eapply same_essence. Qed.
Print Assumptions C73_unread_parts.

(** Nor do they influence why a document is rejected. *)
Theorem C73_unread_rejected : ∀ E dd td d1 d2 x td1,
  essence d1 = essence d2 → new_model E dd td d1 = (Err x, td1) →
  ∃ td2, new_model E dd td d2 = (Err x, td2).
Proof.
  intros E dd td d1 d2 x td1 Hd H1.
  destruct (essence_alike E dd d1 td td eq_refl) as [_ A1].
  destruct (essence_alike E dd d2 td td eq_refl) as [_ A2].
  rewrite H1 in A1. rewrite <- Hd in A2.
  destruct (new_model E dd td (essence d1)) as [[e0|y|p] td0]; simpl in A1; try done. subst y.
  destruct (new_model E dd td d2) as [[e2|y|p] td2]; simpl in A2; try done. subst y. by eexists.
Qed.
Print Assumptions C73_unread_rejected.

(** the golf tree with verification data, other identifiers, usage types *)
Definition annotated_golf : doc_model :=
  DTree (TreeModel "classification" "lastPrediction" (fl "0.9") "returnLastPrediction"
    [DerivedField "wind" "continuous" "double" (XApply "/" (Some "1") (Some "2") [XField "kmh" (Some "9"); XConst "double" "3.6"])]
    [MiningField "kmh" "supplementary" (Some "1") "asExtremeValues" "asMissing"; MF "play" "target"]
    (Some (Verification [VerField "kmh" "data:kmh" None] []))
    (MNode "root" "none" "yes" (fl "14") [SD "yes" "9"; ScoreDistribution "no" (fl "5") (Some (fl "0.5")) None]
       [MNode "x" "y" "no" (fl "5") [] [] (SP "humidity" "lessOrEqual" "75")] PTrue)).
Definition plain_golf : doc_model :=
  DTree (TreeModel "classification" "lastPrediction" fone "" 
    [DerivedField "wind" "continuous" "double" (XA "/" [XF "kmh"; XConst "double" "3.6"])]
    [MF "play" "target"; MF "humidity" ""] None
    (MNode "" "" "yes" (fl "14") [SD "yes" "9"; SD "no" "5"]
       [MNode "" "" "no" (fl "5") [] [] (SP "humidity" "lessOrEqual" "75")] PTrue)).
Example C73_example :
  annotated_golf ≠ plain_golf ∧ essence annotated_golf = essence plain_golf ∧
  is_ok (new_model go_ext golf_dd [] annotated_golf).1 = true.
Proof. split; [discriminate|]. split; by vm_compute. Qed.

(** *** C74: defaults *)
Theorem C74_defaults_partial : ∀ E dd td d e td1 calls1 calls2 tk r,
  new_model E dd td d = (Ok e, td1) →
  ∃ e2 td2, new_model E dd td (spelled_out d) = (Ok e2, td2) ∧
    (evaluate E tk (after E calls1 e) r).1 = (evaluate E tk (after E calls2 e2) r).1.
Proof. intros. eapply C73_unread_parts; [|done]. by rewrite spelled_essence. Qed.
Print Assumptions C74_defaults_partial.

Definition answer_of (x : option (res datarow)) : datarow :=
  match x with Some (Ok o) => o | _ => None end.
Definition answered (x : option (res datarow)) : bool :=
  match x with Some (Ok _) => true | _ => false end.
Lemma answered_ok x : answered x = true → x = Some (Ok (answer_of x)).
Proof. by destruct x as [[]|]. Qed.

Definition default_tree (atts : list (string * string)) : xml :=
  Elem "PMML" [("version", "4.3")] "" [
    Elem "DataDictionary" [] "" [
      Elem "DataField" [("name", "x"); ("dataType", "double")] "" [];
      Elem "DataField" [("name", "play"); ("dataType", "string")] "" [
        Elem "Value" [("value", "yes")] "" []; Elem "Value" [("value", "no")] "" []]];
    Elem "TreeModel" (("functionName", "classification") :: atts) "" [
      Elem "MiningSchema" [] "" [
        Elem "MiningField" [("name", "x")] "" [];
        Elem "MiningField" [("name", "play"); ("usageType", "target")] "" []];
      Elem "Node" [("id", "1"); ("score", "no"); ("defaultChild", "2")] "" [
        Elem "True" [] "" [];
        Elem "Node" [("id", "2"); ("score", "yes")] "" [
          Elem "SimplePredicate" [("field", "x"); ("operator", "lessThan"); ("value", "1")] "" []]]]].
Definition default_ensemble : xml :=
  Elem "PMML" [("version", "4.3")] "" [
    Elem "DataDictionary" [] "" [];
    Elem "MiningModel" [("functionName", "regression")] "" [
      Elem "MiningSchema" [] "" [];
      Elem "Output" [] "" [Elem "OutputField" [("name", "y")] "" []];
      Elem "Segmentation" [("multipleModelMethod", "sum")] "" [
        Elem "Segment" [] "" [Elem "True" [] "" [];
          Elem "TreeModel" [("functionName", "regression")] "" [
            Elem "MiningSchema" [] "" [];
            Elem "Node" [("score", "7")] "" [Elem "True" [] "" []]]]]]].

(** Without missingValuePenalty (default 1) the default child's probabilities
    are multiplied by 0, and the empty class is reported. *)
Theorem C74_penalty_refuted : ∃ x r o1 o2,
  file_answer go_ext (λ _ _, true) x [] r = Some (Ok o1) ∧
  file_answer go_ext (λ _ _, true) (add_default "TreeModel" "missingValuePenalty" "1.0" x) [] r = Some (Ok o2) ∧
  dr_get o1 "play" = Some (GStr "") ∧ dr_get o2 "play" = Some (GStr "yes").
Proof.
  exists (default_tree [("missingValueStrategy", "defaultChild")]), (Some ∅).
  eexists (answer_of _), (answer_of _).
  split; [apply answered_ok; by vm_compute|]. split; [apply answered_ok; by vm_compute|].
  split; by vm_compute.
Qed.
Print Assumptions C74_penalty_refuted.

(** Without noTrueChildStrategy (default returnNullPrediction) the last
    prediction is returned. *)
Theorem C74_no_true_child_refuted : ∃ x r o1 o2,
  file_answer go_ext (λ _ _, true) x [] r = Some (Ok o1) ∧
  file_answer go_ext (λ _ _, true) (add_default "TreeModel" "noTrueChildStrategy" "returnNullPrediction" x) [] r
    = Some (Ok o2) ∧
  dr_get o1 "play" = Some (GStr "no") ∧ dr_get o2 "play" = Some (GStr "").
Proof.
  exists (default_tree []), (Some {["x" := GF64 (fl "2")]}).
  eexists (answer_of _), (answer_of _).
  split; [apply answered_ok; by vm_compute|]. split; [apply answered_ok; by vm_compute|].
  split; by vm_compute.
Qed.
Print Assumptions C74_no_true_child_refuted.

(** An output field without feature is accepted in an ensemble, one with the
    default feature predictedValue is not. *)
Theorem C74_feature_refuted : ∃ x r o,
  file_answer go_ext (λ _ _, true) x [] r = Some (Ok o) ∧ dr_get o "y" = Some (GF64 (fl "7")) ∧
  file_answer go_ext (λ _ _, true) (add_default "OutputField" "feature" "predictedValue" x) [] r
    = Some (Err (EOutputFeature "predictedValue")).
Proof.
  exists default_ensemble, (Some ∅). eexists (answer_of _).
  split; [apply answered_ok; by vm_compute|]. split; by vm_compute.
Qed.
Print Assumptions C74_feature_refuted.

Example C74_example :
  spelled_out (golf "") ≠ golf "" ∧ is_ok (new_model go_ext golf_dd [] (golf "")).1 = true.
Proof. split; [discriminate|by vm_compute]. Qed.

(** *** C75: replacements inside expressions *)
Theorem C75_map_missing_refuted : ∃ E f v r x,
  dr_get r f = None ∧ get_raw_value E "string" v = Ok x ∧
  handle_expr E (XField f (Some v)) r ≠ Ok x.
Proof. by exists go_ext, "x", "7", (Some ∅), (GStr "7"). Qed.
Print Assumptions C75_map_missing_refuted.

Theorem C75_apply_default_refuted : ∃ E e f v r x,
  e = XApply "+" (Some v) (Some v) [XField f None; XConst "double" "1"] ∧
  dr_get r f = None ∧ get_raw_value E "double" v = Ok x ∧ handle_expr E e r ≠ Ok x.
Proof.
  exists go_ext. eexists. exists "x", "7", (Some ∅), (GF64 (fl "7")).
  split; [done|]. split; [done|]. split; [by vm_compute|]. vm_compute. discriminate.
Qed.
Print Assumptions C75_apply_default_refuted.

(** They are never used: expressions differing only there have the same value. *)
Theorem C75_never_replaced : ∀ E e1 e2 r,
  essential_expr e1 = essential_expr e2 → handle_expr E e1 r = handle_expr E e2 r.
Proof.
  intros E e1 e2 r H. by rewrite <- (handle_expr_essential E e1), H, handle_expr_essential.
Qed.
Print Assumptions C75_never_replaced.
Example C75_example :
  essential_expr (XApply "+" (Some "7") None [XField "x" (Some "1"); XConst "double" "1"]) =
  essential_expr (XA "+" [XF "x"; XConst "double" "1"]).
Proof. done. Qed.

(** *** C76: derived fields of a regression model *)
Theorem C76_derived_predictor_refuted : ∃ E dd m e td' r o,
  new_model E dd (rm_lt m) (DRegr m) = (Ok e, td') ∧
  handle_input E (rm_lt m) r = (Ok tt, Some o) ∧ is_Some (o !! "double_area") ∧
  Forall (λ t, np_name <$> rt_predictors t = ["double_area"]) (rm_tables m) ∧
  (evaluate E [] e r).1.1 = Err (EMissingTerm "double_area").
Proof.
  set (m := RegrModel "regression" "exp" [DF "double_area" "double" (XA "+" [XF "area"; XF "area"])]
    [MF "area" "active"] [RegrTable (fl "1") "" [Predictor "double_area" (fl "1") 1]] [OF "y" "" ""] None).
  exists go_ext, price_dd, m, (ERegr (ERegr_ m)), (rm_lt m), (Some {["area" := GF64 (fl "2")]}).
  eexists. split; [done|]. split; [reflexivity|]. split; [by vm_compute; eexists|].
  split; [by repeat constructor|]. by vm_compute.
Qed.
Print Assumptions C76_derived_predictor_refuted.

(** The local transformations of a regression model are never computed. *)
Theorem C76_transformations_ignored : ∀ E dd td f n lt1 lt2 sch ts os v e1 td1 calls1 calls2 tk r,
  new_model E dd td (DRegr (RegrModel f n lt1 sch ts os v)) = (Ok e1, td1) →
  ∃ e2 td2, new_model E dd td (DRegr (RegrModel f n lt2 sch ts os v)) = (Ok e2, td2) ∧
    (evaluate E tk (after E calls1 e1) r).1 = (evaluate E tk (after E calls2 e2) r).1 ∧
    (evaluate E tk (after E calls1 e1) r).1.2 = r.
Proof.
  intros E dd td f n lt1 lt2 sch ts os v e1 td1 calls1 calls2 tk r H.
  destruct (C73_unread_parts E dd td (DRegr (RegrModel f n lt1 sch ts os v)) (DRegr (RegrModel f n lt2 sch ts os v))
    e1 td1 calls1 calls2 tk r eq_refl H)
    as (e2 & td2 & H2 & H3).
  exists e2, td2. split; [done|]. split; [done|].
  rewrite (history_independent _ _ _ _ _ _ _ _ _ H). simpl in H. simplify_eq. done.
Qed.
Print Assumptions C76_transformations_ignored.

(** *** C77: the transformation dictionary *)
(** What defines its fields does not matter. *)
Theorem C77_definitions_ignored : ∀ E dd td1 td2 d e1 td1' calls1 calls2 tk r,
  same_fields td1 td2 → new_model E dd td1 d = (Ok e1, td1') →
  ∃ e2 td2', new_model E dd td2 d = (Ok e2, td2') ∧
    (evaluate E tk (after E calls1 e1) r).1 = (evaluate E tk (after E calls2 e2) r).1.
Proof. intros. by eapply same_essence. Qed.
Print Assumptions C77_definitions_ignored.

(** A split on a field of the transformation dictionary takes no branch even
    though its inputs are present. *)
Theorem C77_dictionary_field_refuted : ∃ E dd td d e td' r o v,
  new_model E dd td d = (Ok e, td') ∧ handle_input E td r = (Ok tt, Some o) ∧
  o !! "half" = Some (GF64 v) ∧ fltb v (fl "60") = true ∧
  (evaluate E [] e r).1.1 = Ok (Some {["score" := GF64 (fl "100")]}).
Proof.
  set (td := [DF "half" "double" (XA "/" [XF "area"; XConst "double" "2"])]).
  set (d := DTree (TreeModel "regression" "none" fone "" [] [] None
    (MNode "1" "" "100" (fl "1") [] [MNode "2" "" "50" (fl "1") [] [] (SP "half" "lessThan" "60")] PTrue))).
  assert (is_ok (new_model go_ext price_dd td d).1 = true) as Hok by by vm_compute.
  destruct (new_model go_ext price_dd td d) as [[e|x|p] td'] eqn:Hn; try done. clear Hok.
  exists go_ext, price_dd, td, d, e, td', (Some {["area" := GF64 (fl "80")]}).
  eexists. exists (fl "40"). split; [done|]. split; [reflexivity|]. split; [by vm_compute|]. split; [by vm_compute|].
  apply eval_out. vm_compute in Hn. simplify_eq. by vm_compute.
Qed.
Print Assumptions C77_dictionary_field_refuted.
Example C77_example :
  same_fields [DF "half" "double" (XF "area")] [DF "half" "double" (XConst "double" "1")].
Proof. done. Qed.
