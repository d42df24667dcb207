(** Property C112: only the proportions of record counts matter. *)
From Coq Require Import Reals Lra.
From Flocq Require Import Core.Core IEEE754.BinarySingleNaN.
From Verif Require Import Base Strconv Value Doc Expr Pred Tree Regression Model Lib GoExt Samples SpecPred ProofsPred
  SpecTree ProofsTree SpecConstruct ProofsConstruct ProofsWhole ProofsSim SpecEquiv ProofsEquiv RealLib AccLib ForestLib SpecRecords ProofsRecords.
Local Open Scope R_scope.

(** *** C112: the size of the training set does not matter *)

Theorem C112_proportions : ∀ E dd td d1 d2 e1 td' calls1 calls2,
  rewritten (same_proportions dd) d1 d2 → new_model E dd td d1 = (Ok e1, td') →
  ∃ e2, new_model E dd td d2 = (Ok e2, td') ∧
    ∀ tk r, (evaluate E tk (after E calls1 e1) r).1 = (evaluate E tk (after E calls2 e2) r).1.
Proof.
  intros E dd td d1 d2 e1 td' calls1 calls2 Hr H1.
  destruct (rewritten_stands_in E dd dd _ (proportions_stand_in E dd) d1 d2 Hr _ _ _ H1) as (e2 & H2 & He).
  exists e2. split; [done|]. intros tk r.
  by rewrite (history_independent _ _ _ _ _ _ _ _ _ H1), (history_independent _ _ _ _ _ _ _ _ _ H2).
Qed.
Print Assumptions C112_proportions.

(** ten times the records, twice: in an ensemble, with missing values *)
Definition n_records (k z : Z) : f64 := f64_of_Z (k * z).
Definition grown (k : Z) : mnode :=
  MNode "1" "2" "yes" (n_records k 10) [ScoreDistribution "yes" (n_records k 6) None None; ScoreDistribution "no" (n_records k 4) None None]
    [MNode "2" "" "yes" (n_records k 7)
       [ScoreDistribution "yes" (n_records k 5) None None; ScoreDistribution "no" (n_records k 2) None None] [] (SP "humidity" "lessThan" "80");
     MNode "3" "" "no" (n_records k 3)
       [ScoreDistribution "yes" (n_records k 1) None None; ScoreDistribution "no" (n_records k 2) None None] [] (SP "humidity" "greaterOrEqual" "80")]
    PTrue.
Definition grown_tree (st : string) (k : Z) : tree_model :=
  TreeModel "classification" st fone "returnLastPrediction" [] [MF "humidity" "active"; MF "play" "target"] None (grown k).
Definition grown_forest (k1 k2 : Z) : doc_model :=
  mining "classification" "average" [] [OF "probability(no)" "" ""] []
    [DTree (grown_tree "aggregateNodes" k1); DTree (grown_tree "weightedConfidence" k2)].

Lemma grown_proportions k st : (1 <= k <= 1000)%Z →
  same_proportions golf_dd (grown_tree st 1) (grown_tree st k).
Proof.
  intros Hk. exists k. split; [lia|]. apply (stb _ (grown_tree st 1) (grown k)). cbn [grown_tree tm_node].
  assert (∀ z, (0 <= z <= 10)%Z → times k (n_records 1 z) (n_records k z)) as Ht.
  { intros z Hz. exists z. split; [nia|]. split; [|done]. unfold n_records. by rewrite Z.mul_1_l. }
  assert (∀ z, (0 <= z <= 10)%Z → R64 (n_records 1 z) = IZR z) as Hr.
  { intros z Hz. unfold n_records. rewrite of_Z_exact by lia. by rewrite Z.mul_1_l. }
  split; [|split].
  - repeat (constructor || apply Ht || lia).
  - unfold tree_records, grown. cbn [doc_nodes map concat app m_count m_dists]. unfold real_sum, rsum. cbn [map foldr sd_count].
    rewrite !Hr by lia. assert (IZR k <= 1000) by (apply IZR_le; lia). assert (1 <= IZR k) by (apply IZR_le; lia).
    change (2 ^ 53)%Z with 9007199254740992%Z. nra.
  - intros _. by vm_compute; repeat constructor; set_solver.
Qed.

Example C112_example :
  rewritten (same_proportions golf_dd) (grown_forest 1 1) (grown_forest 7 1000) ∧
  dumped (run go_ext golf_dd (grown_forest 1 1) (Some ∅)) =
    Some (Ok (dump (Some {["probability(no)" := GF64 (fl "0.4")]}))).
Proof.
  split; [|by vm_compute]. constructor. constructor; [|constructor; [|constructor]].
  - constructor; [|constructor]. constructor. by apply grown_proportions.
  - constructor; [|constructor]. constructor. by apply grown_proportions.
Qed.

(** Fractional record counts are rounded when they are added up: 0.3 and 0.1 give
    another probability than 3 and 1. *)
Definition counted_leaf (yes no : string) : doc_model :=
  DTree (TreeModel "classification" "none" fone "" [] [MF "play" "target"] None
    (MNode "1" "" "yes" fzero [SD "yes" yes; SD "no" no] [] PTrue)).
Theorem C112_fraction_refuted : ∃ E dd e1 e2 td tk out1 out2,
  new_model E dd [] (counted_leaf "0.3" "0.1") = (Ok e1, td) ∧ new_model E dd [] (counted_leaf "3" "1") = (Ok e2, td) ∧
  (evaluate E tk e1 (Some ∅)).1.1 = Ok (Some out1) ∧ (evaluate E tk e2 (Some ∅)).1.1 = Ok (Some out2) ∧
  out1 !! "probability(yes)" = Some (GF64 (fl "0.7499999999999999")) ∧ out2 !! "probability(yes)" = Some (GF64 (fl "0.75")).
Proof.
  exists go_ext, golf_dd, (built go_ext golf_dd (counted_leaf "0.3" "0.1")), (built go_ext golf_dd (counted_leaf "3" "1")), [], [],
    {["play" := GStr "yes"; "probability(yes)" := GF64 (fl "0.7499999999999999"); "probability(no)" := GF64 (fl "0.25")]},
    {["play" := GStr "yes"; "probability(yes)" := GF64 (fl "0.75"); "probability(no)" := GF64 (fl "0.25")]}.
  split; [by rewrite built_ok; [|by vm_compute]|]. split; [by rewrite built_ok; [|by vm_compute]|].
  split; [by apply run_out; vm_compute|]. split; [by apply run_out; vm_compute|]. by vm_compute.
Qed.
Print Assumptions C112_fraction_refuted.
