(** Property C156: exported boosted trees and forests. *)
From Verif Require Import Base Strconv Value Doc Expr Pred Tree Regression Model Api Lib ProofsDoc ProofsWhole ProofsSim GoExt Samples
  SpecModel ProofsMining PropertiesModel SpecBoosted ProofsBoosted.

(** *** C156.  A boosted classifier, a chain of a sum of trees and a logistic regression, predicts
    the logistic function of the sum of its trees' scores; the row additionally holds the sum. *)
Theorem C156_classifier : ∀ E dd td h xv pa pb i ts d e td' calls tk m m2 ss,
  boosted_classifier h xv pa pb i ts d → new_model E dd td d = (Ok e, td') →
  prepared E h m m2 → scores E dd (td ++ mm_lt h) ts m2 ss →
  ∃ p, p = fadd i (logistic E (added ss)) ∧
    (evaluate E tk (after E calls e) (Some m)).1 =
      (Ok (Some (<[pb := GF64 (fsub fone p)]> {[pa := GF64 p]})), Some (<[xv := GF64 (added ss)]> m2)).
Proof. intros. eexists. split; [done|]. by eapply boosted_run. Qed.
Print Assumptions C156_classifier.

(** With the intercept 0, as it is exported, the logistic function alone. *)
Theorem C156_no_intercept : ∀ E x, logistic E x ≠ S754_zero true → fadd fzero (logistic E x) = logistic E x.
Proof. intros E x H. by destruct (logistic E x) as [[]|[]| |[] ? ?]. Qed.
Print Assumptions C156_no_intercept.

(** A boosted regressor, a sum of trees with one target: its rescaleConstant is added last. *)
Theorem C156_regressor : ∀ E dd td h segs ts y c e td' calls tk m m2 ss,
  mm_method h = "sum" ∨ mm_method h = "" → mm_function h = "regression" → mm_output h = [] →
  mm_targets h = [Target y None (Some c)] → holds_trees segs ts →
  new_model E dd td (DMining h segs) = (Ok e, td') → prepared E h m m2 → scores E dd (td ++ mm_lt h) ts m2 ss →
  (evaluate E tk (after E calls e) (Some m)).1 = (Ok (Some {[y := GF64 (fadd (added ss) c)]}), Some m2).
Proof.
  intros E dd td h segs ts y c e td' calls tk m m2 ss Hm Hf Ho Ht Hs Hn Hp Hss.
  destruct (sum_of_trees E dd td h segs ts m m2 ss e td' calls tk Hn Hm) as (out & -> & Hout); [by rewrite Hf|done..|].
  do 3 f_equal. apply map_eq. intros k. rewrite Hout. unfold header_output_names. rewrite Ho, Ht. cbn [map app].
  destruct (decide (k = y)) as [->|Hk].
  - rewrite decide_True by (by left). rewrite lookup_singleton, filter_cons_True by done. done.
  - rewrite decide_False by (by rewrite elem_of_list_singleton). by rewrite lookup_singleton_ne.
Qed.
Print Assumptions C156_regressor.

(** A forest, an average of classification trees: every declared probability is the sum of the
    trees' probabilities divided by their number. *)
Theorem C156_forest : ∀ E dd td h segs ts e td' calls tk m m2 os,
  mm_method h = "average" → mm_function h = "classification" → mm_targets h = [] → holds_trees segs ts →
  new_model E dd td (DMining h segs) = (Ok e, td') → prepared E h m m2 → predictions E dd (td ++ mm_lt h) ts m2 os →
  ∃ out, (evaluate E tk (after E calls e) (Some m)).1 = (Ok (Some out), Some m2) ∧
    dom out = list_to_set (map of_name (mm_output h)) ∧
    ∀ k ps, k ∈ map of_name (mm_output h) → Forall2 (λ (o : row) p, o !! k = Some (GF64 p)) os ps →
      out !! k = Some (GF64 (fdiv (added ps) (f64_of_Z (Z.of_nat (length ts))))).
Proof.
  intros E dd td h segs ts e td' calls tk m m2 os Hm Hf Ht Hs Hn Hp Ho.
  destruct (predictions_models _ _ _ _ _ _ _ Hs Ho) as (es & Hes & _ & _ & Hso).
  destruct (C49_average E dd td h segs e td' calls tk m m2 es _ m2 Hn Hm Hp Hes (Hso _ (seg_tickets_length _ _ _))) as (out & He & Hout).
  exists out. split; [done|]. split.
  - apply set_eq. intros k. rewrite elem_of_dom, Hout, elem_of_list_to_set. unfold header_output_names. rewrite Ht, app_nil_r.
    case_decide; [naive_solver|]. split; [by intros [? ?]|done].
  - intros k ps Hk Hps. rewrite Hout. unfold header_output_names. rewrite Ht. cbn [map]. rewrite app_nil_r, decide_True by done.
    rewrite <- (Forall2_length _ _ _ Hs). unfold sum_total. rewrite Ht. cbn [filter list_filter foldl].
    assert (contributions E h k (Some <$> os) = ps) as ->; [|done].
    unfold contributions. rewrite decide_True by done. clear -Hps. induction Hps as [|o p os ps Hop _ IH]; [done|].
    rewrite fmap_cons. cbn [omap list_omap dr_get]. rewrite Hop. cbn. by f_equal.
Qed.
Print Assumptions C156_forest.

(** The classifier of evaluation/testdata/xgboost/xgboost.xml, without its verification data. *)
Definition xgb_dd : list data_field :=
  [DataField "label" "string" ["fraud"; "good"]; DataField "b" "float" []; DataField "c" "float" []].
Definition xgb_node (id dc score : string) (p : predicate) (ns : list mnode) : mnode := MNode id dc score fzero [] ns p.
Definition xgb_tree (fs : list mining_field) (n : mnode) : tree_model :=
  TreeModel "regression" "defaultChild" fzero "" [] fs None n.
Definition xgb_first : tree_model := xgb_tree [MF "b" ""]
  (xgb_node "0" "1" "" PTrue
    [xgb_node "1" "3" "" (SP "b" "lessThan" "0.65")
       [xgb_node "3" "" "-0.06666667" (SP "b" "lessThan" "0.2") []; xgb_node "4" "" "-0.3" (SP "b" "greaterOrEqual" "0.2") []];
     xgb_node "2" "5" "" (SP "b" "greaterOrEqual" "0.65")
       [xgb_node "5" "" "0.3" (SP "b" "lessThan" "0.75") []; xgb_node "6" "" "0.05454546" (SP "b" "greaterOrEqual" "0.75") []]]).
Definition xgb_later (x y z : string) : tree_model := xgb_tree [MF "b" ""; MF "c" ""]
  (xgb_node "0" "1" "" PTrue
    [xgb_node "1" "" x (SP "b" "lessThan" "0.65") [];
     xgb_node "2" "3" "" (SP "b" "greaterOrEqual" "0.65")
       [xgb_node "3" "" y (SP "c" "lessThan" "0.75") []; xgb_node "4" "" z (SP "c" "greaterOrEqual" "0.75") []]]).
Definition xgb_trees : list tree_model :=
  [xgb_first; xgb_later "-0.19702125" "0.20973434" "0.049608637"; xgb_later "-0.15952669" "0.17563345" "0.041443404"].
Definition xgb_header : mining_header :=
  MiningHeader "classification" "modelChain" [] [MF "label" "target"; MF "b" ""; MF "c" ""] [] [] None.
Definition xgb_sum : mining_header := MiningHeader "regression" "sum" [] [MF "b" ""; MF "c" ""] [OF "xgbValue" "" ""] [] None.
Definition xgb_regression : regr_model :=
  RegrModel "classification" "logit" [] [MF "label" "target"; MF "xgbValue" ""]
    [RegrTable (fl "0.0") "good" [Predictor "xgbValue" (fl "1.0") 1]; RegrTable (fl "0.0") "fraud" []]
    [OF "probability(fraud)" "probability" "fraud"; OF "probability(good)" "probability" "good"] None.
Definition xgb_doc : doc_model :=
  DMining xgb_header [seg (DMining xgb_sum (map (λ t, seg (DTree t)) xgb_trees)); seg (DRegr xgb_regression)].
Definition xgb_row : row := {["b" := GF64 (fl "0.7"); "c" := GF64 (fl "0.8")]}.
Example C156_example :
  boosted_classifier xgb_header "xgbValue" "probability(good)" "probability(fraud)" (fl "0.0") xgb_trees xgb_doc ∧
  prepared go_ext xgb_header xgb_row xgb_row ∧
  scores go_ext xgb_dd [] xgb_trees xgb_row [fl "0.3"; fl "0.049608637"; fl "0.041443404"] ∧
  is_ok (new_model go_ext xgb_dd [] xgb_doc).1 = true ∧
  (* the file's verification data say 0.596536 for this row; they were computed with float32 numbers, so the
     two differ by about 7e-8, and [go_exp] is itself an approximation *)
  fltb (fabs (fsub (logistic go_ext (added [fl "0.3"; fl "0.049608637"; fl "0.041443404"])) (fl "0.596536"))) (fl "0.000001") = true.
Proof.
  split; [|split; [|split; [|split; by vm_compute]]].
  - assert (plain_header xgb_sum) as Hp.
    { split; [done|]. intros f Hf. repeat (apply elem_of_cons in Hf as [->|Hf]; [done|]). by apply elem_of_nil in Hf. }
    eapply (bc_doc _ _ _ _ _ _ xgb_sum _ _ _ _ _ _ _ "good" "fraud"
      (OF "probability(good)" "probability" "good") (OF "probability(fraud)" "probability" "fraud"));
      [reflexivity|reflexivity|reflexivity|exact Hp|by left|reflexivity|reflexivity|reflexivity
      |by repeat apply Forall2_cons_2|reflexivity|reflexivity|reflexivity|by right|reflexivity|reflexivity|done|reflexivity|reflexivity].
  - apply plain_prepared. split; [done|]. intros f Hf. repeat (apply elem_of_cons in Hf as [->|Hf]; [done|]). by apply elem_of_nil in Hf.
  - repeat (apply Forall2_cons; split; [|]); [..|constructor].
    all: match goal with |- ∃ e, new_model _ _ _ ?d = _ ∧ _ => exists (built go_ext xgb_dd d) end; split; [apply built_ok; by vm_compute|].
    all: intros tk; apply eval_ok; split; by vm_compute.
Qed.

(** The same trees as a regressor. *)
Definition xgb_price : mining_header :=
  MiningHeader "regression" "sum" [] [MF "b" ""; MF "c" ""; MF "price" "target"] [] [Target "price" None (Some (fl "0.5"))] None.
Definition xgb_segs : list (segment doc_model) := map (λ t, seg (DTree t)) xgb_trees.
Example C156_regressor_example :
  holds_trees xgb_segs xgb_trees ∧ prepared go_ext xgb_price xgb_row xgb_row ∧
  dumped (run go_ext xgb_dd (DMining xgb_price xgb_segs) (Some xgb_row)) =
    Some (Ok (dump (Some {["price" := GF64 (fadd (added [fl "0.3"; fl "0.049608637"; fl "0.041443404"]) (fl "0.5"))]}))).
Proof.
  split; [by repeat apply Forall2_cons_2|split; [|by vm_compute]].
  apply plain_prepared. split; [done|]. intros f Hf. repeat (apply elem_of_cons in Hf as [->|Hf]; [done|]). by apply elem_of_nil in Hf.
Qed.

(** A forest of two trees. *)
Definition wood_tree (f at_ : string) : tree_model :=
  TreeModel "classification" "none" fzero "" [] [MF "b" ""; MF "c" ""; MF "label" "target"] None
    (MNode "0" "" "" fzero []
      [MNode "1" "" "good" fzero [SD "good" "3"; SD "fraud" "1"] [] (SP f "lessThan" at_);
       MNode "2" "" "fraud" fzero [SD "good" "1"; SD "fraud" "3"] [] PTrue] PTrue).
Definition wood : list tree_model := [wood_tree "b" "0.75"; wood_tree "c" "0.75"].
Definition wood_header : mining_header :=
  MiningHeader "classification" "average" [] [MF "b" ""; MF "c" ""; MF "label" "target"]
    [OF "probability(good)" "probability" "good"; OF "probability(fraud)" "probability" "fraud"] [] None.
Definition wood_row (l g f : string) : row :=
  {["label" := GStr l; "probability(good)" := GF64 (fl g); "probability(fraud)" := GF64 (fl f)]}.
Example C156_forest_example :
  prepared go_ext wood_header xgb_row xgb_row ∧
  predictions go_ext xgb_dd [] wood xgb_row [wood_row "good" "0.75" "0.25"; wood_row "fraud" "0.25" "0.75"] ∧
  dumped (run go_ext xgb_dd (DMining wood_header (map (λ t, seg (DTree t)) wood)) (Some xgb_row)) =
    Some (Ok (dump (Some {["probability(good)" := GF64 (fdiv (added [fl "0.75"; fl "0.25"]) (f64_of_Z 2));
                            "probability(fraud)" := GF64 (fdiv (added [fl "0.25"; fl "0.75"]) (f64_of_Z 2))]}))).
Proof.
  split; [|split; [|by vm_compute]].
  - apply plain_prepared. split; [done|]. intros f Hf. repeat (apply elem_of_cons in Hf as [->|Hf]; [done|]). by apply elem_of_nil in Hf.
  - repeat (apply Forall2_cons; split; [|]); [..|constructor].
    all: match goal with |- ∃ e, new_model _ _ _ ?d = _ ∧ _ => exists (built go_ext xgb_dd d) end; split; [apply built_ok; by vm_compute|].
    all: intros tk; apply eval_ok; split; by vm_compute.
Qed.
