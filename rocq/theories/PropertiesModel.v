(** Property theorems about whole models: histories, the caller's row,
    determinism (C28 - C32), and mining models (C44 - C51). *)
From Verif Require Import Base Strconv Value Doc Expr Pred Tree Regression Model Api Lib SpecPred ProofsPred
  SpecExpr ProofsExpr SpecConstruct ProofsConstruct SpecTree ProofsTree ProofsOutput ProofsRange ProofsEval
  ProofsDoc ProofsSafe ProofsWhole ProofsClass ProofsAnswer SpecModel ProofsFrame ProofsSim SpecShare ProofsHistory
  ProofsMining GoExt Samples.

(** a sum of two price trees, rescaled, with a derived field and a replacement *)
Definition houses (method : string) : doc_model :=
  DMining (MiningHeader "regression" method [DF "area2" "double" (XA "*" [XF "area"; XConst "double" "2"])]
             [MiningField "area" "active" (Some "70") "" ""; MF "price" "target"]
             [OF "price" "" ""] [Target "price" (Some (fl "2")) (Some (fl "1"))] None)
    [seg (DTree price_tree); seg (DTree price_tree)].
Definition small : datarow := Some {["area" := GF64 (fl "50")]}.
Definition noarea : datarow := Some {["rooms" := GInt KInt 3]}.

Definition sunny_row : datarow :=
  Some {["outlook" := GStr "sunny"; "humidity" := GF64 (fl "70"); "kmh" := GF64 (fl "36")]}.

(** *** C28: histories of Evaluate and Verify *)
Theorem C28_history_independent : ∀ E dd td d e td' calls tk r,
  new_model E dd td d = (Ok e, td') →
  (∀ c, c ∈ calls → c ≠ CValidate ∧ c ≠ CCompile) →
  (evaluate E tk (history E calls (e, td')).1 r).1 = (evaluate E tk e r).1.
Proof.
  intros E dd td d e td' calls tk r Hn Hc.
  assert (∃ cs, history E calls (e, td') = (after E cs e, td')) as [cs ->].
  { clear Hn. revert e Hc. induction calls as [|c calls IH]; intros e Hc; [by exists []|].
    unfold history. cbn [foldl]. fold (history E calls).
    assert (∃ cs, call_step E (e, td') c = (after E cs e, td')) as [cs1 ->].
    { destruct (Hc c ltac:(left)). destruct c as [| |tk' r'|tk']; try done; simpl.
      - by exists [(tk', r')].
      - destruct (verify_after E tk' e) as [cs ->]. by exists cs. }
    destruct (IH (after E cs1 e)) as [cs2 Hcs2]; [intros c' ?; apply Hc; by right|].
    exists (cs1 ++ cs2). rewrite after_app. exact Hcs2. }
  simpl. by eapply history_independent.
Qed.
Print Assumptions C28_history_independent.

(** two rows with different classes, the second after the first and after Verify *)
Example C28_example :
  let calls := [CEvaluate [] (Some {["outlook" := GStr "sunny"; "humidity" := GF64 (fl "90");
                                     "kmh" := GF64 (fl "36")]}); CVerify [];
                CEvaluate [] (Some {["outlook" := GStr "overcast"; "kmh" := GF64 (fl "3.6")]})] in
  let e := built go_ext golf_dd (golf "lastPrediction") in
  (∀ c, c ∈ calls → c ≠ CValidate ∧ c ≠ CCompile) ∧
  match (evaluate go_ext [] (history go_ext calls (e, golf_lt)).1
      (Some {["outlook" := GStr "overcast"; "kmh" := GF64 (fl "3.6")]})).1 with
  | (Ok out, _) => dump out = dump (Some {["play" := GStr "yes"; "probability(yes)" := GF64 (fdiv (fl "7") (fl "9"));
                                          "probability(no)" := GF64 (fdiv (fl "2") (fl "9"))]})
  | _ => False
  end.
Proof. split; [set_solver|by vm_compute]. Qed.

(** *** C29: the caller's row *)
Theorem C29_row_frame : ∀ E dd td d e td' calls tk r o r' e',
  new_model E dd td d = (Ok e, td') →
  evaluate E tk (after E calls e) r = (o, r', e') →
  (∀ k, k ∉ written_names dd d → dr_get r' k = dr_get r k) ∧
  (∀ k, is_Some (dr_get r k) → is_Some (dr_get r' k)) ∧
  (written_names dd d = [] → r' = r).
Proof.
  intros E dd td d e td' calls tk r o r' e' Hn He.
  pose proof (history_independent E dd td d e td' calls tk r Hn) as Hh. rewrite He in Hh. simpl in Hh.
  destruct (evaluate E tk e r) as [[o1 r1] e1] eqn:He1. simpl in Hh. simplify_eq.
  apply new_model_all in Hn.
  destruct (frame_evaluate E dd d tk e r o1 r1 e1 Hn He1) as (_ & (H1 & H2 & H3) & _).
  split; [exact H2|]. split; [exact H3|]. intros Hw.
  destruct r as [m|], r1 as [m'|]; [|by destruct H1 as [? ?]; naive_solver..|done].
  f_equal. apply map_eq. intros k. apply (H2 k). rewrite Hw. by apply not_elem_of_nil.
Qed.
Print Assumptions C29_row_frame.

(** The returned row has only announced names. *)
Theorem C29_output_names : ∀ E dd td d e td' calls tk r out,
  new_model E dd td d = (Ok e, td') →
  (evaluate E tk (after E calls e) r).1.1 = Ok out →
  ∀ k, is_Some (dr_get out k) → k ∈ output_names dd d.
Proof.
  intros E dd td d e td' calls tk r out Hn. rewrite (history_independent E dd td d e td' calls tk r Hn).
  destruct (evaluate E tk e r) as [[o1 r1] e1] eqn:He1. simpl. intros -> k Hk.
  apply new_model_all in Hn.
  destruct (frame_evaluate E dd d tk e r (Ok out) r1 e1 Hn He1) as (_ & _ & Ho).
  apply (Ho out eq_refl). by destruct out.
Qed.
Print Assumptions C29_output_names.

(** the houses example may write area2, area and nothing else; an evaluation
    that fails midway still keeps the frame *)
Example C29_example :
  written_names price_dd (houses "sum") = ["area2"; "area"] ∧
  written_names price_dd (DTree price_tree) = [] ∧
  dumped_row (run go_ext price_dd (houses "sum") noarea) =
    Some (dump (Some {["rooms" := GInt KInt 3; "area" := GStr "70"; "area2" := GF64 (fl "140")]})) ∧
  dumped_row (run go_ext price_dd (DTree price_tree) small) = Some (dump small).
Proof. by vm_compute. Qed.

(** *** C30: iteration orders *)

(** Two worlds that differ only in the iteration orders. *)
Theorem C30_deterministic_partial : ∀ E1 E2 dd td d e td' calls1 calls2 tk1 tk2 r,
  same_world E1 E2 →
  (∀ t, t ∈ doc_trees d → tm_strategy t ≠ "weightedConfidence" ∧ tm_strategy t ≠ "aggregateNodes") →
  new_model E1 dd td d = (Ok e, td') →
  new_model E2 dd td d = (Ok e, td') ∧
  (evaluate E1 tk1 (after E1 calls1 e) r).1 = (evaluate E2 tk2 (after E2 calls2 e) r).1.
Proof.
  intros E1 E2 dd td d e td' calls1 calls2 tk1 tk2 r HE Hd Hn. apply deterministic; [done| |done].
  unfold order_free_doc. by apply Forall_forall.
Qed.
Print Assumptions C30_deterministic_partial.

Example C30_example :
  same_world go_ext go_ext_rev ∧
  (∀ t, t ∈ doc_trees (houses "average") → tm_strategy t ≠ "weightedConfidence" ∧ tm_strategy t ≠ "aggregateNodes") ∧
  dumped (run go_ext price_dd (houses "average") small) = Some (Ok (dump (Some {["price" := GF64 (fl "101.5")]}))) ∧
  dumped (run go_ext_rev price_dd (houses "average") small) = Some (Ok (dump (Some {["price" := GF64 (fl "101.5")]}))).
Proof.
  split; [done|]. split; [|by vm_compute]. intros t Ht. simpl in Ht. set_solver.
Qed.

(** Two unknown children with equal weight: the class depends on the order. *)
Definition tie_tree (strategy : string) : tree_model :=
  TreeModel "classification" strategy fone "returnLastPrediction" []
    [MF "outlook" "active"; MF "play" "target"] None
    (MNode "1" "" "" (fl "2") []
       [MNode "2" "" "yes" (fl "1") [SD "yes" "1"] [] (SP "outlook" "equal" "sunny");
        MNode "3" "" "no" (fl "1") [SD "no" "1"] [] (SP "outlook" "equal" "rain")] PTrue).
Theorem C30_tie_refuted : ∀ strategy, strategy = "weightedConfidence" ∨ strategy = "aggregateNodes" →
  ∃ E1 E2 dd t e td' r out1 out2,
    same_world E1 E2 ∧ tm_strategy t = strategy ∧ new_model E1 dd [] (DTree t) = (Ok e, td') ∧
    (evaluate E1 [] e r).1.1 = Ok out1 ∧ (evaluate E2 [] e r).1.1 = Ok out2 ∧
    dr_get out1 "play" = Some (GStr "yes") ∧ dr_get out2 "play" = Some (GStr "no").
Proof.
  intros st Hst.
  set (out c := Some {["play" := GStr c; "probability(yes)" := GF64 (fl "0.5"); "probability(no)" := GF64 (fl "0.5")]} : datarow).
  assert (∃ E1 E2, same_world E1 E2 ∧ is_ok (new_model E1 golf_dd [] (DTree (tie_tree st))).1 = true ∧
    is_ok (new_model E2 golf_dd [] (DTree (tie_tree st))).1 = true ∧
    built E1 golf_dd (DTree (tie_tree st)) = built E2 golf_dd (DTree (tie_tree st)) ∧
    dumped (run E1 golf_dd (DTree (tie_tree st)) (Some ∅)) = Some (Ok (dump (out "yes"))) ∧
    dumped (run E2 golf_dd (DTree (tie_tree st)) (Some ∅)) = Some (Ok (dump (out "no"))))
    as (E1 & E2 & HE & H1 & H2 & Hbb & Ho1 & Ho2).
  { destruct Hst as [-> | ->].
    - first [exists go_ext, go_ext_rev; split; [repeat split|]; repeat apply conj; vm_compute; reflexivity
            |exists go_ext_rev, go_ext; split; [repeat split|]; repeat apply conj; vm_compute; reflexivity].
    - first [exists go_ext, go_ext_rev; split; [repeat split|]; repeat apply conj; vm_compute; reflexivity
            |exists go_ext_rev, go_ext; split; [repeat split|]; repeat apply conj; vm_compute; reflexivity]. }
  exists E1, E2, golf_dd, (tie_tree st), (built E1 golf_dd (DTree (tie_tree st))),
    (new_model E1 golf_dd [] (DTree (tie_tree st))).2, (Some ∅), (out "yes"), (out "no").
  split; [done|]. split; [done|]. split; [by apply built_ok|].
  split; [by apply run_out|]. split; [rewrite Hbb; by apply run_out|]. done.
Qed.
Print Assumptions C30_tie_refuted.

(** *** C31: compiling again *)
Theorem C31_recompile_tree_partial : ∀ E dd td t e td' calls tk r,
  new_model E dd td (DTree t) = (Ok e, td') →
  (evaluate E tk (history E calls (e, td')).1 r).1 = (evaluate E tk e r).1 ∧
  (model_validate (history E calls (e, td')).1).1 = Ok tt ∧
  (model_compile E (history E calls (e, td')).2 (history E calls (e, td')).1).1.1 = Ok tt.
Proof.
  intros E dd td t e td' calls tk r Hn. split; [by eapply tree_history|].
  pose proof (tree_history_ok E dd td t e td' calls Hn) as H.
  by destruct (history E calls (e, td')) as [e2 td2].
Qed.
Print Assumptions C31_recompile_tree_partial.

Theorem C31_recompile_select_first_partial : ∀ E dd td h segs e td' calls tk r,
  new_model E dd td (DMining h segs) = (Ok e, td') → mm_method h = "selectFirst" → segs ≠ [] →
  one_type (all_declared dd td (DMining h segs)) →
  (evaluate E tk (history E calls (e, td')).1 r).1 = (evaluate E tk e r).1.
Proof. intros. by eapply select_first_history. Qed.
Print Assumptions C31_recompile_select_first_partial.

Theorem C31_recompile_regression_partial : ∀ E dd td m e td' calls tk r,
  new_model E dd td (DRegr m) = (Ok e, td') → rm_norm m ≠ "" →
  (evaluate E tk (history E calls (e, td')).1 r).1 = (evaluate E tk e r).1.
Proof. intros E dd td m e td' calls tk r [= <- <-] Hm. by rewrite regr_history. Qed.
Print Assumptions C31_recompile_regression_partial.

Definition lin_softmax : regr_model :=
  RegrModel "regression" "softmax" [] [MF "area" "active"; MF "price" "target"] (rm_tables lin_model)
    (rm_output lin_model) None.
Example C31_example :
  let calls := [CCompile; CEvaluate [] sunny_row; CValidate; CCompile] in
  let e := built go_ext golf_dd (golf "defaultChild") in
  (history go_ext calls (e, golf_lt)).2 = golf_lt ++ golf_lt ++ golf_lt ∧
  match (evaluate go_ext [] (history go_ext calls (e, golf_lt)).1 sunny_row).1.1 with
  | Ok out => dump out = dump (Some {["play" := GStr "yes"; "probability(yes)" := GF64 (fl "1"); "probability(no)" := GF64 (fl "0")]})
  | _ => False
  end ∧
  mm_method (MiningHeader "regression" "selectFirst" [] [] [] [] None) = "selectFirst" ∧
  is_ok (new_model go_ext price_dd [] (houses "selectFirst")).1 = true ∧
  one_type (all_declared price_dd [] (houses "selectFirst")) ∧ rm_norm lin_softmax ≠ "".
Proof.
  repeat apply conj; try by vm_compute. intros f a b Ha Hb. vm_compute in Ha, Hb.
  set_unfold in Ha. set_unfold in Hb. naive_solver.
Qed.

(** A segment that declares area again, with another type: after a second
    Compile the first segment's tests hold literals of that type. *)
Definition retyped : doc_model :=
  mining "regression" "selectFirst" [] [OF "price" "" ""] []
    [DTree price_tree;
     DTree (TreeModel "regression" "none" fone "returnLastPrediction" [DF "area" "integer" (XF "rooms")]
              (tm_schema price_tree) None (tm_node price_tree))].
Theorem C31_recompile_select_first_refuted : ∃ E dd h segs e td' r out p,
  new_model E dd [] (DMining h segs) = (Ok e, td') ∧ mm_method h = "selectFirst" ∧ segs ≠ [] ∧
  (evaluate E [] e r).1.1 = Ok out ∧
  (model_compile E td' e).1.1 = Ok tt ∧
  (evaluate E [] (history E [CCompile] (e, td')).1 r).1.1 = Panic p.
Proof.
  exists go_ext, price_dd, (MiningHeader "regression" "selectFirst" [] [] [OF "price" "" ""] [] None),
    (match retyped with DMining _ segs => segs | _ => [] end),
    (built go_ext price_dd retyped), (new_model go_ext price_dd [] retyped).2, small,
    (Some {["score" := GF64 (fl "50.5")]}), PTypeAssert.
  split; [apply built_ok; by vm_compute|]. split; [done|]. split; [done|].
  split; [apply run_out; by vm_compute|]. split; by vm_compute.
Qed.
Print Assumptions C31_recompile_select_first_refuted.

(** A mining model that sums (or averages, or chains) runs its segments twice
    after a second Compile. *)
Theorem C31_recompile_sum_refuted : ∃ E dd d e td' r out1 out2,
  new_model E dd [] d = (Ok e, td') ∧
  (model_compile E td' e).1.1 = Ok tt ∧
  (evaluate E [] e r).1.1 = Ok out1 ∧
  (evaluate E [] (history E [CCompile] (e, td')).1 r).1.1 = Ok out2 ∧
  dr_get out1 "price" = Some (GF64 (fl "203")) ∧ dr_get out2 "price" = Some (GF64 (fl "405")).
Proof.
  set (d := houses "sum").
  exists go_ext, price_dd, d, (built go_ext price_dd d), (new_model go_ext price_dd [] d).2, small,
    (Some {["price" := GF64 (fl "203")]}), (Some {["price" := GF64 (fl "405")]}).
  split; [apply built_ok; by vm_compute|]. split; [by vm_compute|].
  split; [apply run_out; by vm_compute|]. split; [|done].
  assert (match (evaluate go_ext [] (history go_ext [CCompile] (built go_ext price_dd d, (new_model go_ext price_dd [] d).2)).1 small).1.1 with
    | Ok out => dump out = dump (Some {["price" := GF64 (fl "405")]}) | _ => False end) as H by by vm_compute.
  destruct (evaluate _ _ _ _).1.1; try done. f_equal. by apply dump_inj.
Qed.
Print Assumptions C31_recompile_sum_refuted.

(** A regression model without normalizationMethod reports another error after
    Validate. *)
Theorem C31_validate_regression_refuted : ∃ E dd m e td' r,
  new_model E dd [] (DRegr m) = (Ok e, td') ∧ rm_norm m = "" ∧
  (evaluate E [] e r).1.1 = Err (ENormalization "") ∧
  (evaluate E [] (history E [CValidate] (e, td')).1 r).1.1 = Err (ENormalization "none").
Proof.
  set (m := RegrModel "regression" "" [] [] (rm_tables lin_model) (rm_output lin_model) None).
  exists go_ext, price_dd, m, (ERegr (ERegr_ m)), [],
    (Some {["area" := GF64 (fl "50"); "rooms" := GInt KInt 3]}).
  repeat apply conj; by vm_compute.
Qed.
Print Assumptions C31_validate_regression_refuted.

(** *** C32: the same row again *)
Theorem C32_same_row_partial : ∀ E dd td d e td' tk1 tk2 r o r1 e1,
  new_model E dd td d = (Ok e, td') →
  (tk1 = tk2 ∨ ∀ t, t ∈ doc_trees d → tm_strategy t ≠ "weightedConfidence" ∧ tm_strategy t ≠ "aggregateNodes") →
  (∃ t, d = DTree t ∧ well_ordered (tm_lt t)) ∨ written_names dd d = [] →
  evaluate E tk1 e r = (o, r1, e1) →
  (evaluate E tk2 e1 r1).1 = (o, r1).
Proof.
  intros E dd td d e td' tk1 tk2 r o r1 e1 Hn Htk Hd He. destruct Hd as [(t & -> & Hw)|Hw].
  - apply new_model_tree_of in Hn as (te & -> & Ht). simpl in He.
    destruct (tree_evaluate E tk1 te r) as [[o' r'] te'] eqn:Hte. simplify_eq.
    pose proof (tree_again E dd td t te tk1 tk2 r o r1 te' Ht Hw) as Hx. simpl.
    destruct (tree_evaluate E tk2 te' r1) as [[? ?] ?]. apply Hx; [|done].
    destruct Htk as [->|H]; [by left|]. right. apply H. simpl. by left.
  - assert (r1 = r) as ->.
    { pose proof (C29_row_frame E dd td d e td' [] tk1 r o r1 e1 Hn He) as (_ & _ & H). by apply H. }
    pose proof (history_independent E dd td d e td' [(tk1, r)] tk2 r Hn) as Hh.
    change (after E [(tk1, r)] e) with (evaluate E tk1 e r).2 in Hh. rewrite He in Hh. simpl in Hh. rewrite Hh.
    destruct Htk as [->|H]; [by rewrite He|].
    pose proof (C30_deterministic_partial E E dd td d e td' [] [] tk1 tk2 r (same_world_refl E) H Hn) as [_ Hx].
    simpl in Hx. rewrite He in Hx. by rewrite <- Hx.
Qed.
Print Assumptions C32_same_row_partial.

Example C32_example :
  well_ordered golf_lt ∧ written_names price_dd (DTree price_tree) = [] ∧
  let e := built go_ext golf_dd (golf "none") in
  dump (evaluate go_ext [] e sunny_row).1.2 ≠ dump sunny_row ∧
  match (evaluate go_ext [] (evaluate go_ext [] e sunny_row).2 (evaluate go_ext [] e sunny_row).1.2).1.1,
        (evaluate go_ext [] e sunny_row).1.1 with
  | Ok o1, Ok o2 => dump o1 = dump o2
  | _, _ => False
  end.
Proof. split; [simpl; set_solver|]. split; [by vm_compute|]. split; [vm_compute; discriminate|by vm_compute]. Qed.

(** A derived field that redefines its own input. *)
Theorem C32_self_reference_refuted : ∃ E dd d e td' r o1 o2,
  new_model E dd [] d = (Ok e, td') ∧
  (evaluate E [] e r).1.1 = Ok o1 ∧
  (evaluate E [] (evaluate E [] e r).2 (evaluate E [] e r).1.2).1.1 = Ok o2 ∧
  dr_get o1 "score" = Some (GF64 (fl "50.5")) ∧ dr_get o2 "score" = Some (GF64 (fl "200")).
Proof.
  set (d := DTree (TreeModel "regression" "none" fone "returnLastPrediction"
    [DF "area" "double" (XA "+" [XF "area"; XConst "double" "8"])] (tm_schema price_tree) None (tm_node price_tree))).
  exists go_ext, price_dd, d, (built go_ext price_dd d), (new_model go_ext price_dd [] d).2, small,
    (Some {["score" := GF64 (fl "50.5")]}), (Some {["score" := GF64 (fl "200")]}).
  split; [apply built_ok; by vm_compute|]. split; [apply run_out; by vm_compute|]. split; [|done].
  set (x := (evaluate _ _ (evaluate _ _ _ _).2 _).1.1).
  assert (match x with Ok out => dump out = dump (Some {["score" := GF64 (fl "200")]}) | _ => False end) as H by by vm_compute.
  destruct x; try done. f_equal. by apply dump_inj.
Qed.
Print Assumptions C32_self_reference_refuted.

(** A chain leaves its outputs in the row: a first segment that tests the
    output of the second behaves differently the second time. *)
Theorem C32_chain_refuted : ∃ E dd d e td' r o1 o2,
  new_model E dd [] d = (Ok e, td') ∧ doc_locals d = [] ∧
  (evaluate E [] e r).1.1 = Ok o1 ∧
  (evaluate E [] (evaluate E [] e r).2 (evaluate E [] e r).1.2).1.1 = Ok o2 ∧
  dr_get o1 "score" = Some (GF64 (fl "1")) ∧ dr_get o2 "score" = Some (GF64 (fl "2")).
Proof.
  set (t lo hi := TreeModel "regression" "none" fone "returnLastPrediction" [] [] None
    (MNode "1" "" lo (fl "1") [] [MNode "2" "" hi (fl "1") [] [] (SP "score" "lessThan" "0")] PTrue)).
  set (d := mining "regression" "modelChain" [] [] []
    [DTree (t "-1" "5"); DTree (TreeModel "regression" "none" fone "returnLastPrediction" [] [] None
      (MNode "1" "" "1" (fl "1") [] [MNode "2" "" "2" (fl "1") [] [] (SP "score" "greaterThan" "4")] PTrue))]).
  exists go_ext, [DataField "score" "double" []], d, (built go_ext [DataField "score" "double" []] d),
    (new_model go_ext [DataField "score" "double" []] [] d).2, (Some ∅),
    (Some {["score" := GF64 (fl "1")]}), (Some {["score" := GF64 (fl "2")]}).
  split; [apply built_ok; by vm_compute|]. split; [done|]. split; [apply run_out; by vm_compute|]. split; [|done].
  set (x := (evaluate _ _ (evaluate _ _ _ _).2 _).1.1).
  assert (match x with Ok out => dump out = dump (Some {["score" := GF64 (fl "2")]}) | _ => False end) as H by by vm_compute.
  destruct x; try done. f_equal. by apply dump_inj.
Qed.
Print Assumptions C32_chain_refuted.

(** *** C44: imputation *)
Theorem C44_imputation : ∀ E dd td h segs e td' calls tk m m',
  new_model E dd td (DMining h segs) = (Ok e, td') →
  imputed (mm_schema h) m m' →
  ∃ e0, new_model E dd td (DMining (no_replacements h) segs) = (Ok e0, td') ∧
    (evaluate E tk (after E calls e) (Some m)).1 = (evaluate E tk e0 (Some m')).1.
Proof. intros. by eapply imputation_rewrites. Qed.
Print Assumptions C44_imputation.

(** There is exactly one imputed row. *)
Theorem C44_imputed_unique : ∀ l m, ∃ m', imputed l m m' ∧ ∀ m'', imputed l m m'' → m'' = m'.
Proof.
  intros l m. exists (fill (default_values l) m). split; [by apply imputed_iff|].
  intros m'' H. by apply imputed_iff.
Qed.
Print Assumptions C44_imputed_unique.

Theorem C44_nil_row_panics : ∀ E dd td h segs e td' calls tk,
  new_model E dd td (DMining h segs) = (Ok e, td') →
  (∃ f, f ∈ mm_schema h ∧ mf_replacement f ≠ None) →
  (evaluate E tk (after E calls e) None).1 = (Panic PNilMapWrite, None).
Proof.
  intros E dd td h segs e td' calls tk Hn Hf. rewrite (history_independent E _ _ _ _ _ calls tk _ Hn).
  by eapply mining_nil.
Qed.
Print Assumptions C44_nil_row_panics.

Example C44_example :
  imputed [MiningField "area" "active" (Some "70") "" ""; MF "price" "target"]
    {["area" := GNil; "rooms" := GInt KInt 3]} {["area" := GStr "70"; "rooms" := GInt KInt 3]} ∧
  dumped (run go_ext price_dd (houses "sum") (Some {["area" := GNil; "rooms" := GInt KInt 3]})) =
    Some (Ok (dump (Some {["price" := GF64 (fl "801")]}))).
Proof.
  split; [|by vm_compute]. apply imputed_iff. apply map_to_list_inj. vm_compute. reflexivity.
Qed.

(** *** C45: selectFirst *)
Theorem C45_select_first : ∀ E dd td h s segs e td' calls tk m m2,
  new_model E dd td (DMining h (s :: segs)) = (Ok e, td') → mm_method h = "selectFirst" →
  prepared E h m m2 →
  ∃ d e1 td1 tk1, sg_models s = [d] ∧ new_model E dd (td ++ mm_lt h) d = (Ok e1, td1) ∧
    (evaluate E tk (after E calls e) (Some m)).1 = (evaluate E tk1 e1 (Some m2)).1.
Proof.
  intros E dd td h s segs e td' calls tk m m2 Hn Hm Hp.
  rewrite (history_independent E _ _ _ _ _ calls tk _ Hn).
  destruct (mining_parts E dd td h (s :: segs) e td' Hn) as (es & He & Hs & _).
  inversion Hs as [|? ? ? d e1 es' td1 Hd Hnd Hr]; subst. exists d, e1, td1, (5 :: 0 :: tk).
  split; [done|]. split; [done|].
  rewrite (mining_run E dd td h (s :: segs) _ td' Hn (e1 :: es') tk m m2 Hp eq_refl).
  unfold run_method. simpl em_hdr. unfold header_of. rewrite Hm. simpl. rewrite Hm. simpl.
  by destruct (evaluate E _ e1 _) as [[? ?] ?].
Qed.
Print Assumptions C45_select_first.

Theorem C45_no_segments : ∀ E dd td h e td' calls tk m m2,
  new_model E dd td (DMining h []) = (Ok e, td') → mm_method h = "selectFirst" →
  prepared E h m m2 →
  (evaluate E tk (after E calls e) (Some m)).1 = (Err ENoSegments, Some m2).
Proof.
  intros E dd td h e td' calls tk m m2 Hn Hm Hp.
  rewrite (history_independent E _ _ _ _ _ calls tk _ Hn).
  destruct (mining_parts E dd td h [] e td' Hn) as (es & He & Hs & _). inversion Hs; subst.
  rewrite (mining_run E dd td h [] _ td' Hn [] tk m m2 Hp eq_refl).
  unfold run_method. simpl em_hdr. unfold header_of. rewrite Hm. simpl. by rewrite Hm.
Qed.
Print Assumptions C45_no_segments.

Definition houses_header (method : string) : mining_header :=
  match houses method with DMining h _ => h | _ => MiningHeader "" "" [] [] [] [] None end.
Lemma houses_prepared method :
  prepared go_ext (houses_header method) {["area" := GF64 (fl "50")]}
    {["area" := GF64 (fl "50"); "area2" := GF64 (fl "100")]}.
Proof.
  exists {["area" := GF64 (fl "50")]}. split.
  - apply imputed_iff. apply map_to_list_inj. vm_compute. reflexivity.
  - assert ((handle_input go_ext (mm_lt (houses_header method)) (Some {["area" := GF64 (fl "50")]})).1 = Ok tt) as H1
      by by vm_compute.
    assert (dump (handle_input go_ext (mm_lt (houses_header method)) (Some {["area" := GF64 (fl "50")]})).2 =
      dump (Some {["area" := GF64 (fl "50"); "area2" := GF64 (fl "100")]})) as H2 by by vm_compute.
    apply dump_inj in H2. destruct (handle_input _ _ _). by simpl in *; subst.
Qed.
Example C45_example :
  prepared go_ext (houses_header "selectFirst") {["area" := GF64 (fl "50")]}
    {["area" := GF64 (fl "50"); "area2" := GF64 (fl "100")]} ∧
  dumped (run go_ext price_dd (houses "selectFirst") small) = Some (Ok (dump (Some {["score" := GF64 (fl "50.5")]}))) ∧
  is_ok (new_model go_ext price_dd [] (DMining (houses_header "selectFirst") [])).1 = true.
Proof. split; [apply houses_prepared|by vm_compute]. Qed.

(** *** C46: segment predicates *)
Theorem C46_predicates_ignored : ∀ E dd td h s1 s2 e1 td' calls1 calls2 tk r,
  Forall2 (λ a b, sg_models a = sg_models b) s1 s2 →
  new_model E dd td (DMining h s1) = (Ok e1, td') →
  ∃ e2, new_model E dd td (DMining h s2) = (Ok e2, td') ∧
    (evaluate E tk (after E calls1 e1) r).1 = (evaluate E tk (after E calls2 e2) r).1.
Proof. intros. by eapply predicates_ignored. Qed.
Print Assumptions C46_predicates_ignored.

(** A segment with predicate False decides the outcome. *)
Theorem C46_false_segment_refuted : ∃ E dd h s1 s2 e td' r,
  sg_preds s1 = [PFalse] ∧ sg_preds s2 = [PTrue] ∧
  new_model E dd [] (DMining h [s1; s2]) = (Ok e, td') ∧ mm_method h = "selectFirst" ∧
  sg_models s1 ≠ sg_models s2 ∧
  (evaluate E [] e r).1.1 = Ok (Some {["score" := GF64 (fl "50.5")]}).
Proof.
  set (h := houses_header "selectFirst").
  set (s1 := Segment "1" [PFalse] [DTree price_tree] : segment doc_model).
  set (s2 := Segment "2" [PTrue] [DRegr lin_softmax] : segment doc_model).
  exists go_ext, price_dd, h, s1, s2, (built go_ext price_dd (DMining h [s1; s2])),
    (new_model go_ext price_dd [] (DMining h [s1; s2])).2, small.
  split; [done|]. split; [done|]. split; [apply built_ok; by vm_compute|]. split; [done|]. split; [done|].
  apply run_out; by vm_compute.
Qed.
Print Assumptions C46_false_segment_refuted.

(** *** C47: modelChain *)
Theorem C47_chain : ∀ E dd td h segs e td' calls tk m m2 es final m3,
  new_model E dd td (DMining h segs) = (Ok e, td') → mm_method h = "modelChain" →
  prepared E h m m2 →
  segment_models E dd (td ++ mm_lt h) segs es →
  chain_outputs E (seg_tickets tk 0 (length segs)) es (Some ∅) m2 final m3 →
  (evaluate E tk (after E calls e) (Some m)).1 = (Ok final, Some m3).
Proof.
  intros E dd td h segs e td' calls tk m m2 es final m3 Hn Hm Hp Hs Ho.
  rewrite (history_independent E _ _ _ _ _ calls tk _ Hn).
  destruct (mining_parts E dd td h segs e td' Hn) as (es' & He & Hs' & Hl).
  rewrite (segment_models_fun _ _ _ _ _ _ Hs Hs') in Ho. rewrite <- Hl in Ho.
  rewrite (mining_run E dd td h segs _ td' Hn es' tk m m2 Hp He).
  unfold run_method. simpl em_hdr. unfold header_of. rewrite Hm. simpl. rewrite Hm. simpl.
  by apply chain_ok.
Qed.
Print Assumptions C47_chain.

Theorem C47_no_segments : ∀ E dd td h e td' calls tk m m2,
  new_model E dd td (DMining h []) = (Ok e, td') → mm_method h = "modelChain" →
  prepared E h m m2 →
  (evaluate E tk (after E calls e) (Some m)).1 = (Ok (Some ∅), Some m2).
Proof. intros. eapply C47_chain; [done..|constructor|constructor]. Qed.
Print Assumptions C47_no_segments.

(** a chain of a tree and a tree that reads the first one's score: the chain
    relation holds, with outputs 50.5 and then 7 *)
Definition score_dd : list data_field := DataField "score" "double" [] :: price_dd.
Definition after_tree : tree_model :=
  TreeModel "regression" "none" fone "returnLastPrediction" [] [] None
    (MNode "1" "" "3" (fl "1") [] [MNode "2" "" "7" (fl "1") [] [] (SP "score" "greaterThan" "50")] PTrue).
Definition chain_header : mining_header := MiningHeader "regression" "modelChain" [] [] [] [] None.
Definition chain_segs : list (segment doc_model) := [seg (DTree price_tree); seg (DTree after_tree)].
Lemma seg_models2 dd d1 d2 :
  is_ok (new_model go_ext dd [] d1).1 = true → is_ok (new_model go_ext dd [] d2).1 = true →
  (new_model go_ext dd [] d1).2 = [] →
  segment_models go_ext dd [] [seg d1; seg d2] [built go_ext dd d1; built go_ext dd d2].
Proof.
  intros H1 H2 H3. econstructor; [done|by apply built_ok|]. rewrite H3.
  econstructor; [done|by apply built_ok|constructor].
Qed.
Example C47_example :
  segment_models go_ext score_dd [] chain_segs
    [built go_ext score_dd (DTree price_tree); built go_ext score_dd (DTree after_tree)] ∧
  chain_outputs go_ext (seg_tickets [] 0 2)
    [built go_ext score_dd (DTree price_tree); built go_ext score_dd (DTree after_tree)]
    (Some ∅) {["area" := GF64 (fl "50")]} (Some {["score" := GF64 (fl "7")]})
    {["area" := GF64 (fl "50"); "score" := GF64 (fl "50.5")]} ∧
  dumped (run go_ext score_dd (DMining chain_header chain_segs) small) = Some (Ok (dump (Some {["score" := GF64 (fl "7")]}))).
Proof.
  split; [apply seg_models2; by vm_compute|]. split; [|by vm_compute].
  eapply (co_cons _ _ _ _ _ _ _ {["area" := GF64 (fl "50")]} (Some {["score" := GF64 (fl "50.5")]})
    {["area" := GF64 (fl "50")]}).
  - intros k. simpl. by rewrite lookup_empty.
  - apply eval_ok; split; by vm_compute.
  - eapply (co_cons _ _ _ _ _ _ _ {["area" := GF64 (fl "50"); "score" := GF64 (fl "50.5")]}
      (Some {["score" := GF64 (fl "7")]}) {["area" := GF64 (fl "50"); "score" := GF64 (fl "50.5")]}).
    + intros k. simpl. destruct (decide (k = "score")) as [->|Hs].
      * rewrite lookup_singleton. by rewrite lookup_insert_ne, lookup_singleton.
      * rewrite lookup_singleton_ne by done. destruct (decide (k = "area")) as [->|Ha].
        -- by rewrite lookup_insert, lookup_singleton.
        -- by rewrite lookup_insert_ne, !lookup_singleton_ne by done.
    + apply eval_ok; split; by vm_compute.
    + constructor.
Qed.

(** *** C48: sum *)
Theorem C48_sum : ∀ E dd td h segs e td' calls tk m m2 es outs m3,
  new_model E dd td (DMining h segs) = (Ok e, td') → mm_method h = "sum" ∨ mm_method h = "" →
  prepared E h m m2 →
  segment_models E dd (td ++ mm_lt h) segs es →
  seg_outputs E (seg_tickets tk 0 (length segs)) es m2 outs m3 →
  ∃ out, (evaluate E tk (after E calls e) (Some m)).1 = (Ok (Some out), Some m3) ∧
    ∀ k, out !! k = if decide (k ∈ header_output_names h) then Some (GF64 (sum_total E h k outs)) else None.
Proof.
  intros E dd td h segs e td' calls tk m m2 es outs m3 Hn Hm Hp Hs Ho.
  rewrite (history_independent E _ _ _ _ _ calls tk _ Hn).
  destruct (mining_parts E dd td h segs e td' Hn) as (es' & He & Hs' & Hl).
  rewrite (segment_models_fun _ _ _ _ _ _ Hs Hs') in Ho. rewrite <- Hl in Ho.
  rewrite (mining_run E dd td h segs _ td' Hn es' tk m m2 Hp He).
  destruct (sum_models_ok E tk dd td h segs es' m2 outs m3 Ho) as (out & es2 & Hsum & Hout).
  exists out. split; [|exact Hout]. unfold run_method. simpl em_hdr. fold (seg_eval E tk). rewrite Hsum.
  unfold header_of. by destruct Hm as [Hm|Hm]; rewrite Hm; simpl; rewrite ?Hm.
Qed.
Print Assumptions C48_sum.

(** two segments, 50.5 each, rescaled by 2 and 1: 203; average 101.5 *)
Definition two_prices : list emodel :=
  [built go_ext price_dd (DTree price_tree); built go_ext price_dd (DTree price_tree)].
Definition small2 : row := {["area" := GF64 (fl "50"); "area2" := GF64 (fl "100")]}.
Lemma two_prices_outputs :
  seg_outputs go_ext (seg_tickets [] 0 2) two_prices small2
    [Some {["score" := GF64 (fl "50.5")]}; Some {["score" := GF64 (fl "50.5")]}] small2.
Proof.
  apply (so_cons _ _ _ _ _ _ _ small2); [apply eval_ok; split; by vm_compute|].
  apply (so_cons _ _ _ _ _ _ _ small2); [apply eval_ok; split; by vm_compute|]. constructor.
Qed.
Example C48_example :
  seg_outputs go_ext (seg_tickets [] 0 2) two_prices small2
    [Some {["score" := GF64 (fl "50.5")]}; Some {["score" := GF64 (fl "50.5")]}] small2 ∧
  header_output_names (houses_header "sum") = ["price"; "price"] ∧
  sum_total go_ext (houses_header "sum") "price"
    [Some {["score" := GF64 (fl "50.5")]}; Some {["score" := GF64 (fl "50.5")]}] = fl "203" ∧
  dumped (run go_ext price_dd (houses "sum") small) = Some (Ok (dump (Some {["price" := GF64 (fl "203")]}))) ∧
  dumped (run go_ext price_dd (houses "") small) = Some (Ok (dump (Some {["price" := GF64 (fl "203")]}))).
Proof. split; [apply two_prices_outputs|by vm_compute]. Qed.

(** *** C49: average *)
Theorem C49_average : ∀ E dd td h segs e td' calls tk m m2 es outs m3,
  new_model E dd td (DMining h segs) = (Ok e, td') → mm_method h = "average" →
  prepared E h m m2 →
  segment_models E dd (td ++ mm_lt h) segs es →
  seg_outputs E (seg_tickets tk 0 (length segs)) es m2 outs m3 →
  ∃ out, (evaluate E tk (after E calls e) (Some m)).1 = (Ok (Some out), Some m3) ∧
    ∀ k, out !! k = if decide (k ∈ header_output_names h)
      then Some (GF64 (fdiv (sum_total E h k outs) (f64_of_Z (Z.of_nat (length segs))))) else None.
Proof.
  intros E dd td h segs e td' calls tk m m2 es outs m3 Hn Hm Hp Hs Ho.
  rewrite (history_independent E _ _ _ _ _ calls tk _ Hn).
  destruct (mining_parts E dd td h segs e td' Hn) as (es' & He & Hs' & Hl).
  rewrite (segment_models_fun _ _ _ _ _ _ Hs Hs') in Ho. rewrite <- Hl in Ho.
  rewrite (mining_run E dd td h segs _ td' Hn es' tk m m2 Hp He).
  destruct (sum_models_ok E tk dd td h segs es' m2 outs m3 Ho) as (out & es2 & Hsum & Hout).
  eexists. unfold run_method, average_models. simpl em_hdr. fold (seg_eval E tk). rewrite Hsum.
  unfold header_of. rewrite Hm. simpl. rewrite Hm. simpl. split; [done|].
  intros k. rewrite average_row_eq, lookup_fmap, Hout. by case_decide.
Qed.
Print Assumptions C49_average.

Example C49_example :
  fdiv (sum_total go_ext (houses_header "average") "price"
    [Some {["score" := GF64 (fl "50.5")]}; Some {["score" := GF64 (fl "50.5")]}]) (f64_of_Z 2) = fl "101.5" ∧
  dumped (run go_ext price_dd (houses "average") small) = Some (Ok (dump (Some {["price" := GF64 (fl "101.5")]}))).
Proof. by vm_compute. Qed.

(** *** C50: a failing segment *)
Theorem C50_failing_segment_sum : ∀ E dd td h segs e td' calls tk m m2 l1 s l2 outs m3 o r4,
  new_model E dd td (DMining h segs) = (Ok e, td') → mm_method h ∈ ["sum"; ""; "average"] →
  prepared E h m m2 →
  segment_models E dd (td ++ mm_lt h) segs (l1 ++ s :: l2) →
  seg_outputs E (seg_tickets tk 0 (length l1)) l1 m2 outs m3 →
  (evaluate E (5 :: length l1 :: tk) s (Some m3)).1 = (o, r4) → (∀ out, o ≠ Ok out) →
  (evaluate E tk (after E calls e) (Some m)).1 = (o, r4).
Proof.
  intros E dd td h segs e td' calls tk m m2 l1 s l2 outs m3 o r4 Hn Hm Hp Hs Ho Hf Hno.
  rewrite (history_independent E _ _ _ _ _ calls tk _ Hn).
  destruct (mining_parts E dd td h segs e td' Hn) as (es' & He & Hs' & Hl).
  rewrite <- (segment_models_fun _ _ _ _ _ _ Hs Hs') in *.
  rewrite (mining_run E dd td h segs _ td' Hn _ tk m m2 Hp He).
  pose proof (sum_models_fail E tk dd td h segs l1 s l2 m2 outs m3 o r4 Ho Hf Hno) as Hsum.
  unfold run_method, average_models. simpl em_hdr. fold (seg_eval E tk).
  destruct (sum_models _ _ _ _ _ _) as [[o1 r1] es1]. simpl in Hsum. simplify_eq.
  unfold header_of. rewrite !elem_of_cons in Hm.
  destruct o as [out|x|p]; [by destruct (Hno out)|..].
  all: destruct Hm as [Hm|[Hm|[Hm|Hm%elem_of_nil]]]; [rewrite Hm; simpl; by rewrite ?Hm..|done].
Qed.
Print Assumptions C50_failing_segment_sum.

Theorem C50_failing_segment_chain : ∀ E dd td h segs e td' calls tk m m2 l1 s l2 out m3 m4 o r5,
  new_model E dd td (DMining h segs) = (Ok e, td') → mm_method h = "modelChain" →
  prepared E h m m2 →
  segment_models E dd (td ++ mm_lt h) segs (l1 ++ s :: l2) →
  chain_outputs E (seg_tickets tk 0 (length l1)) l1 (Some ∅) m2 out m3 →
  (∀ k, m4 !! k = match dr_get out k with Some v => Some v | None => m3 !! k end) →
  (evaluate E (5 :: length l1 :: tk) s (Some m4)).1 = (o, r5) → (∀ out, o ≠ Ok out) →
  (evaluate E tk (after E calls e) (Some m)).1 = (o, r5).
Proof.
  intros E dd td h segs e td' calls tk m m2 l1 s l2 out m3 m4 o r5 Hn Hm Hp Hs Ho Hm4 Hf Hno.
  rewrite (history_independent E _ _ _ _ _ calls tk _ Hn).
  destruct (mining_parts E dd td h segs e td' Hn) as (es' & He & Hs' & Hl).
  rewrite <- (segment_models_fun _ _ _ _ _ _ Hs Hs') in *.
  rewrite (mining_run E dd td h segs _ td' Hn _ tk m m2 Hp He).
  unfold run_method. simpl em_hdr. unfold header_of. rewrite Hm. simpl. rewrite Hm. simpl.
  by eapply chain_fail.
Qed.
Print Assumptions C50_failing_segment_chain.

(** the second segment is a regression model whose predictor rooms is missing *)
Definition failing_houses (method : string) : doc_model :=
  DMining (houses_header method) [seg (DTree price_tree); seg (DRegr lin_softmax)].
Example C50_example :
  Forall (λ method, dumped (run go_ext price_dd (failing_houses method) small) = Some (Err (EMissingTerm "rooms")))
    ["sum"; ""; "average"; "modelChain"] ∧
  seg_outputs go_ext (seg_tickets [] 0 1) [built go_ext price_dd (DTree price_tree)] small2
    [Some {["score" := GF64 (fl "50.5")]}] small2.
Proof.
  split; [repeat constructor; by vm_compute|]. apply (so_cons _ _ _ _ _ _ _ small2); [apply eval_ok; split; by vm_compute|constructor].
Qed.

(** *** C51: the keys of sum and average *)
Theorem C51_declared_keys : ∀ E dd td h segs e td' calls tk r out r',
  new_model E dd td (DMining h segs) = (Ok e, td') → mm_method h ∈ ["sum"; ""; "average"] →
  (evaluate E tk (after E calls e) r).1 = (Ok out, r') →
  is_Some out ∧ ∀ k, is_Some (dr_get out k) ↔ k ∈ header_output_names h.
Proof.
  intros E dd td h segs e td' calls tk r out r' Hn Hm.
  rewrite (history_independent E _ _ _ _ _ calls tk _ Hn).
  destruct (mining_parts E dd td h segs e td' Hn) as (es' & -> & Hs' & Hl).
  rewrite mining_evaluate_run by done. destruct (impute _ _ _ _) as [r1|x|p]; [|done..].
  destruct (handle_input _ _ _) as [[u|x|p] r2]; [|done..].
  rewrite !elem_of_cons in Hm.
  assert (mm_method (header_of h) = "sum" ∨ mm_method (header_of h) = "average") as Hm'.
  { unfold header_of. destruct Hm as [Hm|[Hm|[Hm|Hm%elem_of_nil]]]; [| | |done]; rewrite Hm; simpl; rewrite ?Hm; auto. }
  unfold run_method. simpl em_hdr. destruct Hm' as [-> | ->]; simpl.
  - destruct (sum_models _ _ _ _ _ _) as [[[o| |] r3] es3] eqn:Hsum; simpl; [|done..].
    intros [= <- <-]. split; [by eexists|]. exact (sum_models_keys _ _ _ _ _ _ _ _ _ Hsum).
  - destruct (average_models _ _ _ _ _ _) as [[[o| |] r3] es3] eqn:Hsum; simpl; [|done..].
    intros [= <- <-]. split; [by eexists|]. exact (average_models_keys _ _ _ _ _ _ _ _ _ Hsum).
Qed.
Print Assumptions C51_declared_keys.

(** outputs the segments never produce are reported as 0 *)
Example C51_example :
  dumped (run go_ext price_dd
    (mining "classification" "sum" [] [OF "price" "" ""; OF "score" "" ""] [Target "t" None None] [DTree price_tree]) small)
  = Some (Ok (dump (Some {["price" := GF64 fzero; "score" := GF64 (fl "50.5"); "t" := GF64 fzero]}))).
Proof. by vm_compute. Qed.
