(** The repository's own tests, replayed in the model (evaluation_test.go and
    tree_test.go).  These are tests of the model's faithfulness, not proofs
    about it: the documents are those of the repository, decoded by the model's
    decoder. *)
From Verif Require Import Base Strconv Value Doc Expr Pred Tree Regression Model Xml Decode GoExt TestData.

(** xml.Decode, then NewModel on the only model, evaluation_test.go:46-55. *)
Definition load (x : xml) : option (res emodel) :=
  match decode go_ext (λ _ _, true) x with
  | Some p => match pm_models p with
              | [d] => Some (new_model go_ext (pm_dd p) (pm_td p) d).1
              | _ => None
              end
  | None => None
  end.

(** Verify, and how many rows it had to check. *)
Definition verified (x : xml) : option (res unit * nat) :=
  match load x with
  | Some (Ok e) =>
      Some ((model_verify go_ext [] e).1,
            match verification_of e with Some v => length (vr_rows v) | None => 0 end)
  | _ => None
  end.

Example test_evaluation :
  map verified [tree_10; tree_11; tree_12; tree_13; tree_14; tree_15; tree_16; xgb; logreg_pca] =
    replicate 9 (Some (Ok tt, 15)).
Proof. by vm_compute. Qed.

(** tm.Evaluate on a row; the class and the reported values *)
Definition answer (x : xml) (r : row) : option (list (string * gov)) :=
  match load x with
  | Some (Ok e) =>
      match (evaluate go_ext [] e (Some r)).1.1 with
      | Ok o => Some (map_to_list (default ∅ o))
      | _ => None
      end
  | _ => None
  end.
Definition answers (x : xml) (r : row) (n : nat) (expect : list (string * gov)) : bool :=
  match answer x r with
  | Some l => Nat.eqb (length l) n && forallb (λ e, existsb (λ a, (a.1 =s e.1) && gov_eqb a.2 e.2) l) expect
  | None => false
  end.

Definition gint (z : Z) : gov := GInt KInt z.

(** TestTreeModel, tree_test.go:428-465 *)
Example test_tree_model :
  answers test_normal
    {["temperature" := gint 75; "humidity" := gint 55; "windy" := GBool false; "outlook" := GStr "overcast"]}
    4 [("whatIdo", GStr "may play")] = true.
Proof. by vm_compute. Qed.

(** TestTreeMode_Confidence1, 467-502 *)
Example test_confidence1 :
  answers test_missingValueStrategies
    {["temperature" := gint 45; "humidity" := gint 60; "outlook" := GStr "sunny"]}
    4 [("whatIdo", GStr "no play")] = true.
Proof. by vm_compute. Qed.

(** TestTreeMode_WeightedConfidence, 504-538 *)
Example test_weighted_confidence :
  answers test_missingValueStrategies {["outlook" := GStr "sunny"]}
    4 [("whatIdo", GStr "will play"); ("probability(will play)", GF64 (fl "0.8"))] = true.
Proof. by vm_compute. Qed.

(** TestTreeMode_DefaultChild, 540-574 *)
Example test_default_child :
  answers test_defaultChild {["temperature" := GF64 (fl "40.0"); "humidity" := GF64 (fl "70.0")]}
    4 [("whatIdo", GStr "no play"); ("probability(no play)", GF64 (fl "0.48"))] = true.
Proof. by vm_compute. Qed.

(** TestTreeMode_LastPrediction, 576-609 *)
Example test_last_prediction :
  answers test_lastPrediction {["outlook" := GStr "sunny"]}
    4 [("whatIdo", GStr "will play"); ("probability(will play)", GF64 (fl "0.8"))] = true.
Proof. by vm_compute. Qed.

(** TestTreeMode_AggregateNodes, 611-644 *)
Example test_aggregate_nodes :
  answers test_aggregateNodes {["temperature" := GF64 (fl "45.0"); "humidity" := GF64 (fl "90.0")]}
    4 [("whatIdo", GStr "may play")] = true.
Proof. by vm_compute. Qed.

(** TestTreeMode_NullPredictedValue, 646-677 *)
Example test_null_predicted_value : answers test_nullPredictedValue {["outlook" := GStr "sunny"]} 0 [] = true.
Proof. by vm_compute. Qed.

(** TestApply, elements_test.go:139-185 *)
Example test_apply :
  dec_expr go_ext (λ _ _, true)
    (Elem "Apply" [("function", "if")] ""
      [Elem "Apply" [("function", "greaterThan")] ""
         [Elem "FieldRef" [("field", "score")] "" []; Elem "Constant" [("dataType", "double")] "1" [Chars "1"]];
       Elem "Constant" [("dataType", "string")] "True" [Chars "True"];
       Elem "Constant" [("dataType", "string")] "False" [Chars "False"]]) =
  Some (Some (XApply "if" None None
    [XApply "greaterThan" None None [XField "score" None; XConst "double" "1"];
     XConst "string" "True"; XConst "string" "False"])).
Proof. by vm_compute. Qed.
