(** Property C154: branches that no row can take. *)
From Verif Require Import Base Strconv Value Doc Expr Pred Tree Regression Model Lib ProofsDoc ProofsWhole ProofsSim GoExt Samples
  SpecPred ProofsPred SpecTree ProofsClass SpecEquiv ProofsEquiv PropertiesTree PropertiesEquiv SpecTrim ProofsTrim PropertiesTrim SpecDead ProofsDead.

(** *** C154.  Where children are only looked at when their parent's condition is true,
    branches that contradict the conditions above them can be taken away, and so can all
    branches after a sibling with the condition True. *)
Theorem C154_removed : ∀ E dd td t n U leaf e1 td' calls1 calls2,
  tm_strategy t ∉ ["aggregateNodes"; "weightedConfidence"; "defaultChild"; "lastPrediction"] →
  (tm_strategy t = "nullPrediction" → U = false) →
  (leaf = true → tm_notrue t ≠ "returnNullPrediction") →
  lopped (excluded E (field_types dd (td ++ tm_lt t)) U) leaf [] (tm_node t) n →
  new_model E dd td (DTree t) = (Ok e1, td') →
  ∃ e2, new_model E dd td (DTree (with_node t n)) = (Ok e2, td') ∧
    ∀ tk r, (evaluate E tk (after E calls1 e1) r).1 = (evaluate E tk (after E calls2 e2) r).1.
Proof.
  intros E dd td t n U leaf e1 td' calls1 calls2 Hst HU Hl Hn H1.
  assert (∃ e2, new_model E dd td (DTree (with_node t n)) = (Ok e2, td')) as [e2 H2].
  { eapply accepted_again; [exact H1|]. eapply lopped_compiles; [exact Hn|].
    apply new_model_tree_of in H1 as (te & _ & Ht). destruct Ht as (_ & _ & _ & _ & _ & _ & _ & Ht & _). eexists. exact Ht. }
  exists e2. split; [done|]. intros tk r.
  rewrite (history_independent _ _ _ _ _ _ _ _ _ H1), (history_independent _ _ _ _ _ _ _ _ _ H2).
  eapply trees_lopped; eauto.
Qed.
Print Assumptions C154_removed.

(** Bounds that exclude each other, for every value a float64 can have. *)
Theorem C154_bounds : ∀ E ft U K f dt op1 op2 a b x y,
  ft !! f = Some dt → dt ∈ ["double"; "float"] → ext_parse_float E a = Some x → ext_parse_float E b = Some y →
  apart fleb fltb x op1 y op2 → certain K (PSimple f op1 a GNil) → excluded E ft U K (PSimple f op2 b GNil).
Proof.
  intros E ft U K f dt op1 op2 a b x y Hf Hdt Ha Hb Hw HK. split; [done|]. intros r c v Hr Hc Hv. left.
  destruct (apart_ops _ _ _ _ _ _ Hw) as [Ho1 Ho2].
  apply (certain_implied E ft) in HK as (_ & _ & HK). specialize (HK r Hr).
  apply (bound_float E ft f dt op1 a x r Hf Hdt Ha Ho1) in HK as (w & Hw1 & Hw2).
  destruct (simple_known E ft f op2 b c r v Hc) as [->|]; [by rewrite Hw1|done| |done]. exfalso.
  assert (holds E ft r (PSimple f op2 b GNil)) as H by (by exists c).
  apply (bound_float E ft f dt op2 b y r Hf Hdt Hb Ho2) in H as (w' & Hw3 & Hw4).
  rewrite Hw1 in Hw3. injection Hw3 as <-. by rewrite (apart_float _ _ _ _ _ Hw Hw2) in Hw4.
Qed.
Print Assumptions C154_bounds.
Theorem C154_integer_bounds : ∀ E ft U K f op1 op2 a b x y,
  ft !! f = Some "integer" → parse_int a = Some x → parse_int b = Some y →
  apart Z.leb Z.ltb x op1 y op2 → certain K (PSimple f op1 a GNil) → excluded E ft U K (PSimple f op2 b GNil).
Proof.
  intros E ft U K f op1 op2 a b x y Hf Ha Hb Hw HK. split; [done|]. intros r c v Hr Hc Hv. left.
  destruct (apart_ops _ _ _ _ _ _ Hw) as [Ho1 Ho2].
  apply (certain_implied E ft) in HK as (_ & _ & HK). specialize (HK r Hr).
  apply (bound_int E ft f op1 a x r Hf Ha Ho1) in HK as (w & Hw1 & Hw2).
  destruct (simple_known E ft f op2 b c r v Hc) as [->|]; [by rewrite Hw1|done| |done]. exfalso.
  assert (holds E ft r (PSimple f op2 b GNil)) as H by (by exists c).
  apply (bound_int E ft f op2 b y r Hf Hb Ho2) in H as (w' & Hw3 & Hw4).
  rewrite Hw1 in Hw3. injection Hw3 as <-. by rewrite (apart_int _ _ _ _ _ Hw Hw2) in Hw4.
Qed.
Print Assumptions C154_integer_bounds.

(** Two different categories. *)
Theorem C154_categories : ∀ E ft U K f a b,
  ft !! f = Some "string" → a ≠ b → certain K (PSimple f "equal" a GNil) → excluded E ft U K (PSimple f "equal" b GNil).
Proof.
  intros E ft U K f a b Hf Hab HK. split; [done|]. intros r c v Hr Hc Hv. left.
  apply (certain_implied E ft) in HK as (_ & _ & HK). destruct (HK r Hr) as (c1 & Hc1 & Ht).
  cbn [compile_predicate] in Hc, Hc1. rewrite Hf in Hc, Hc1. injection Hc as <-. injection Hc1 as <-.
  cbn [run_test] in *. unfold eval_simple in *. rewrite Hf in *. cbn [is_nil] in *. destruct (dr_get r f) as [x|]; [|done].
  simpl in *. injection Hv as <-. injection Ht as Ht. destruct x; try done. simpl in *. revert Ht.
  match goal with |- context [?s =s a] => destruct (String.eqb_spec s a) as [->|]; [|done] end. intros _. by destruct (String.eqb_spec a b).
Qed.
Print Assumptions C154_categories.

(** A conjunction with such an operand. *)
Theorem C154_operand : ∀ E ft U K ps p, p ∈ ps → ¬ const_pred p → excluded E ft false K p → excluded E ft U K (PCompound "and" ps).
Proof.
  intros E ft U K ps p Hp Hk [_ H]. split; [done|]. intros r c v Hr Hc Hv. left.
  eapply and_false; [exact Hp|exact Hk|exact Hc|exact Hv|]. intros c' v' Hc' Hv'. by destruct (H r c' v' Hr Hc' Hv') as [|[? _]].
Qed.
Print Assumptions C154_operand.

(** A conjunction that contradicts itself is never true. *)
Theorem C154_contradiction : ∀ E ft K p, p ≠ PNone → ¬ const_pred p → excluded E ft true (p :: K) p → excluded E ft true K p.
Proof.
  intros E ft K p Hn Hk [_ H]. split; [done|]. intros r c v Hr Hc Hv. destruct v; [by right| |by left].
  apply (H r c RT); [|done|done]. intros p' [->|Hp]%elem_of_cons; [by exists c|by apply Hr].
Qed.
Print Assumptions C154_contradiction.

(** Below an area of less than 60, a branch for 70 to 90; a branch for less than 10 and more than 20;
    and branches after one with True. *)
Definition stuffed (dead : bool) : mnode :=
  MNode "1" "" "0" (fl "1") []
    ([MNode "2" "" "100" (fl "1") []
       ((if dead then [MNode "3" "" "50" (fl "1") [] [] (PCompound "and" [SP "area" "greaterOrEqual" "70"; SP "area" "lessThan" "90"]);
                       MNode "4" "" "55" (fl "1") [] [] (PCompound "and" [SP "area" "lessThan" "10"; SP "area" "greaterThan" "20"])] else []) ++
        [MNode "5" "" "60" (fl "1") [] [] (SP "rooms" "lessThan" "3")])
       (SP "area" "lessThan" "60");
      MNode "6" "" "300" (fl "1") [] [] PTrue] ++
     (if dead then [MNode "7" "" "400" (fl "1") [] [] (SP "rooms" "equal" "9")] else [])) PTrue.
Definition stuffed_tree (st notrue : string) (dead : bool) : tree_model := TreeModel "regression" st fone notrue [] [] None (stuffed dead).
Example C154_example :
  lopped (excluded go_ext (field_types price_dd []) true) false [] (stuffed true) (stuffed false) ∧
  dumped (run go_ext price_dd (DTree (stuffed_tree "none" "" true)) (Some {["area" := GF64 (fl "40"); "rooms" := GInt KInt 2%Z]})) =
  Some (Ok (Some [("score", GF64 (fl "60"))])).
Proof.
  split; [|by vm_compute]. apply lo_node; [|done]. apply lo_keep.
  - apply lo_node; [|done].
    apply lo_drop.
    { cbn [mn_pred]. apply (C154_operand _ _ _ _ _ (SP "area" "greaterOrEqual" "70")); [left|exact (λ x, x)|].
      apply (C154_bounds go_ext _ _ _ _ "double" "lessThan" _ "60" "70" (fl "60") (fl "70")); [by vm_compute|by left|by vm_compute..| |].
      - apply ap_lt; [set_solver|by vm_compute].
      - eexists. split; [left|]. apply po_self. exact (λ x, x). }
    apply lo_drop; [|apply lo_keep; [apply lo_node; [constructor|done]|constructor]].
    cbn [mn_pred]. apply C154_contradiction; [done|exact (λ x, x)|].
    apply (C154_operand _ _ _ _ _ (SP "area" "greaterThan" "20")); [right; left|exact (λ x, x)|].
    apply (C154_bounds go_ext _ _ _ _ "double" "lessThan" _ "10" "20" (fl "10") (fl "20")); [by vm_compute|by left|by vm_compute..| |].
    + apply ap_lt; [set_solver|by vm_compute].
    + eexists. split; [left|]. eapply po_operand; [left|]. apply po_self. exact (λ x, x).
  - apply lo_cut; [done|]. apply lo_node; [constructor|done].
Qed.

(** Under lastPrediction a branch below an unknown condition is looked at: with the area missing the
    branch for 70 to 90 is unknown too, and keeps its siblings from being taken. *)
Theorem C154_last_prediction : ∃ E dd t n e1 e2 td1 td2 r, tm_strategy t = "lastPrediction" ∧
  lopped (excluded E (field_types dd []) false) false [] (tm_node t) n ∧
  new_model E dd [] (DTree t) = (Ok e1, td1) ∧ new_model E dd [] (DTree (with_node t n)) = (Ok e2, td2) ∧
  (evaluate E [] e1 r).1.1 ≠ (evaluate E [] e2 r).1.1.
Proof.
  exists go_ext, price_dd.
  exists (TreeModel "regression" "lastPrediction" fone "" [] [] None (MNode "1" "" "0" (fl "1") []
    [MNode "3" "" "50" (fl "1") [] [] (SP "area" "greaterOrEqual" "70"); MNode "5" "" "60" (fl "1") [] [] (SP "rooms" "lessThan" "3")]
    (SP "area" "lessThan" "60"))).
  exists (MNode "1" "" "0" (fl "1") [] [MNode "5" "" "60" (fl "1") [] [] (SP "rooms" "lessThan" "3")] (SP "area" "lessThan" "60")).
  do 4 eexists. exists (Some {["rooms" := GInt KInt 2%Z]}). split; [done|]. split.
  { apply lo_node; [|done]. apply lo_drop; [|apply lo_keep; [apply lo_node; [constructor|done]|constructor]]. cbn [mn_pred].
    apply (C154_bounds go_ext _ _ _ _ "double" "lessThan" _ "60" "70" (fl "60") (fl "70")); [by vm_compute|by left|by vm_compute..| |].
    - apply ap_lt; [set_solver|by vm_compute].
    - eexists. split; [left|]. apply po_self. exact (λ x, x). }
  split; [vm_compute; reflexivity|]. split; [vm_compute; reflexivity|].
  intros H. vm_compute in H. discriminate H.
Qed.
Print Assumptions C154_last_prediction.

(** A node that loses all its children under returnNullPrediction starts to predict. *)
Theorem C154_last_child : ∃ E dd t n e1 e2 td1 td2 r, tm_strategy t = "none" ∧ tm_notrue t = "returnNullPrediction" ∧
  lopped (excluded E (field_types dd []) false) true [] (tm_node t) n ∧
  new_model E dd [] (DTree t) = (Ok e1, td1) ∧ new_model E dd [] (DTree (with_node t n)) = (Ok e2, td2) ∧
  (evaluate E [] e1 r).1.1 ≠ (evaluate E [] e2 r).1.1.
Proof.
  exists go_ext, price_dd.
  exists (TreeModel "regression" "none" fone "returnNullPrediction" [] [] None (MNode "1" "" "0" (fl "1") []
    [MNode "3" "" "50" (fl "1") [] [] (SP "area" "greaterOrEqual" "70")] (SP "area" "lessThan" "60"))).
  exists (MNode "1" "" "0" (fl "1") [] [] (SP "area" "lessThan" "60")).
  do 4 eexists. exists (Some {["area" := GF64 (fl "40")]}). split; [done|]. split; [done|]. split.
  { apply lo_node; [|done]. apply lo_drop; [|constructor]. cbn [mn_pred].
    apply (C154_bounds go_ext _ _ _ _ "double" "lessThan" _ "60" "70" (fl "60") (fl "70")); [by vm_compute|by left|by vm_compute..| |].
    - apply ap_lt; [set_solver|by vm_compute].
    - eexists. split; [left|]. apply po_self. exact (λ x, x). }
  split; [vm_compute; reflexivity|]. split; [vm_compute; reflexivity|].
  intros H. vm_compute in H. discriminate H.
Qed.
Print Assumptions C154_last_child.
