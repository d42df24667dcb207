(** Property C158: averages written as rescaled sums. *)
From Coq Require Import Reals.
From Verif Require Import Base Strconv Value Doc Expr Pred Tree Regression Model Api Lib ProofsDoc ProofsWhole ProofsSim GoExt Samples
  SpecModel SpecExchange ProofsExchange PropertiesExchange SpecMean ProofsMean.

(** *** C158.  An average of 1, 2, 4, 8, ... members is their sum with the rescaleFactor one over their
    number, wherever the average stands in the document. *)
Theorem C158_power_of_two : ∀ E dd td d1 d2 e1 td' calls1 calls2,
  rtsc (exchanged rescaled_average) d1 d2 → new_model E dd td d1 = (Ok e1, td') →
  ∃ e2, new_model E dd td d2 = (Ok e2, td') ∧
    ∀ tk r, (evaluate E tk (after E calls1 e1) r).1 = (evaluate E tk (after E calls2 e2) r).1.
Proof. intros. eapply C157_exchanged; [by eapply averages_answer|done]. Qed.
Print Assumptions C158_power_of_two.

Definition lone_leaf (score : string) : doc_model :=
  DTree (TreeModel "regression" "none" fone "" [] [MF "area" "active"] None (MNode "1" "" score fone [SD score "1"] [] PTrue)).
Definition mean_header : mining_header :=
  MiningHeader "regression" "average" [] [MF "area" "active"] [OF "guess" "" ""] [Target "price" None (Some (fl "2"))] None.
Definition outputs : list string := ["guess"; "price"].
Definition mean_of (ss : list string) : doc_model := DMining mean_header (seg <$> (DTree price_tree :: (lone_leaf <$> ss))).
Definition total_of (n : string) (ss : list string) : doc_model :=
  DMining (as_sum (fdiv fone (fl n)) outputs mean_header) (seg <$> (DTree price_tree :: (lone_leaf <$> ss))).
Definition mean_row : datarow := Some {["area" := GF64 (fl "50")]}.
Example C158_example :
  rescaled_average (mean_of ["1"; "2"; "2.1"]) (total_of "4" ["1"; "2"; "2.1"]) ∧
  dumped (run go_ext price_dd (mean_of ["1"; "2"; "2.1"]) mean_row) = dumped (run go_ext price_dd (total_of "4" ["1"; "2"; "2.1"]) mean_row) ∧
  dumped (run go_ext price_dd (mean_of ["1"; "2"; "2.1"]) mean_row) =
    Some (Ok (dump (Some {["guess" := GF64 (fl "13.9"); "price" := GF64 (fl "14.4")]}))).
Proof.
  split; [|split; by vm_compute].
  assert (fl "4" = f64_of_Z (Z.of_nat (length (seg <$> (DTree price_tree :: (lone_leaf <$> ["1"; "2"; "2.1"])))))) as H4 by by vm_compute.
  unfold total_of. rewrite H4. apply (ra_doc _ _ outputs 2); [done| |done|done|lia].
  repeat constructor; set_solver.
Qed.

(** For other numbers of members the last digits can differ. *)
Theorem C158_three_members : ∃ E dd h segs ks e1 e2 td tk m out1 out2,
  mm_method h = "average" ∧ length segs = 3%nat ∧ NoDup ks ∧ (∀ k, k ∈ ks ↔ k ∈ header_output_names h) ∧
  new_model E dd [] (DMining h segs) = (Ok e1, td) ∧
  new_model E dd [] (DMining (as_sum (fdiv fone (f64_of_Z 3)) ks h) segs) = (Ok e2, td) ∧
  (evaluate E tk e1 (Some m)).1.1 = Ok (Some out1) ∧ (evaluate E tk e2 (Some m)).1.1 = Ok (Some out2) ∧
  out1 !! "guess" = Some (GF64 (fl "1.6666666666666667")) ∧ out2 !! "guess" = Some (GF64 (fl "1.6666666666666665")).
Proof.
  set (h := MiningHeader "regression" "average" [] [] [OF "guess" "" ""] [] None).
  set (segs := seg <$> (lone_leaf <$> ["1"; "2"; "2"])).
  exists go_ext, price_dd, h, segs, ["guess"], (built go_ext price_dd (DMining h segs)),
    (built go_ext price_dd (DMining (as_sum (fdiv fone (f64_of_Z 3)) ["guess"] h) segs)), [], [], ∅,
    {["guess" := GF64 (fl "1.6666666666666667")]}, {["guess" := GF64 (fl "1.6666666666666665")]}.
  split; [done|]. split; [done|]. split; [repeat constructor; set_solver|]. split; [done|].
  split; [by apply built_ok; vm_compute|]. split; [by apply built_ok; vm_compute|].
  split; [by apply run_out; vm_compute|]. split; [by apply run_out; vm_compute|]. by vm_compute.
Qed.
Print Assumptions C158_three_members.
