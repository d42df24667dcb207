(** Property C153: conditions that were tested on the way down. *)
From Verif Require Import Base Strconv Value Doc Expr Pred Tree Regression Model Lib ProofsDoc ProofsWhole ProofsSim GoExt Samples
  SpecPred ProofsPred SpecTree ProofsClass SpecEquiv ProofsEquiv PropertiesTree PropertiesEquiv SpecTrim ProofsTrim.

(** *** C153.  Where children are only looked at when their parent's condition is true, a
    child need not repeat that condition, or any other one tested above it. *)
Theorem C153_repeated : ∀ E dd td d1 d2 e1 td' calls1 calls2,
  rtsc trimmed_trees d1 d2 → new_model E dd td d1 = (Ok e1, td') →
  ∃ e2, new_model E dd td d2 = (Ok e2, td') ∧
    ∀ tk r, (evaluate E tk (after E calls1 e1) r).1 = (evaluate E tk (after E calls2 e2) r).1.
Proof.
  intros E dd td d1 d2 e1 td' calls1 calls2 Hd H1.
  destruct (trims_stand_in E dd d1 d2 Hd _ _ _ H1) as (e2 & H2 & He). exists e2. split; [done|]. intros tk r.
  by rewrite (history_independent _ _ _ _ _ _ _ _ _ H1), (history_independent _ _ _ _ _ _ _ _ _ H2).
Qed.
Print Assumptions C153_repeated.

(** Under every strategy, for the rows in which no condition of the tree is unknown. *)
Theorem C153_known_rows : ∀ E dd td t n e1 td' calls1 calls2,
  trimmed certain [] (tm_node t) n → new_model E dd td (DTree t) = (Ok e1, td') →
  ∃ e2, new_model E dd td (DTree (with_node t n)) = (Ok e2, td') ∧
    ∀ tk r, (∀ r', handle_input E (tm_lt t) r = (Ok tt, r') → everywhere_doc (λ m, ¬ doc_truth E dd td t r' m RU) (tm_node t)) →
      (evaluate E tk (after E calls1 e1) r).1 = (evaluate E tk (after E calls2 e2) r).1.
Proof.
  intros E dd td t n e1 td' calls1 calls2 Hn H1. 
  apply (trimmed_mono _ (implied E (field_types dd (td ++ tm_lt t)))) in Hn; [|apply certain_implied].
  destruct (trimmed_accepted E dd td t n Hn) as [Ha _].
  destruct (Ha _ _ H1) as [e2 H2]. exists e2. split; [done|]. intros tk r Hr.
  rewrite (history_independent _ _ _ _ _ _ _ _ _ H1), (history_independent _ _ _ _ _ _ _ _ _ H2).
  eapply trees_trimmed; eauto.
Qed.
Print Assumptions C153_known_rows.

(** The sunny branch of the golf tree, its leaves with and without the condition of the branch. *)
Definition sunny_branch (leaf : string → string → predicate) : mnode :=
  MNode "1" "2" "yes" (fl "14") [SD "yes" "9"; SD "no" "5"]
    [MNode "3" "" "yes" (fl "9") [SD "yes" "7"; SD "no" "2"] [] (SP "wind" "lessThan" "5");
     MNode "2" "4" "yes" (fl "5") [SD "yes" "2"; SD "no" "3"]
       [MNode "4" "" "yes" (fl "2") [SD "yes" "2"; SD "no" "0"] [] (leaf "lessOrEqual" "75");
        MNode "5" "" "no" (fl "3") [SD "yes" "0"; SD "no" "3"] [] (leaf "greaterThan" "75")]
       (PCompound "and" [SP "outlook" "equal" "sunny"; SP "wind" "lessThan" "20"])]
    PTrue.
Definition full_leaf (op v : string) : predicate := PCompound "and" [SP "outlook" "equal" "sunny"; SP "humidity" op v].
Definition short_leaf (op v : string) : predicate := SP "humidity" op v.
Definition branch_tree (st : string) (leaf : string → string → predicate) : tree_model :=
  with_node (golf_tree st "0.5") (sunny_branch leaf).
Lemma branch_trimmed : trimmed certain [] (sunny_branch full_leaf) (sunny_branch short_leaf).
Proof.
  assert (∀ op v K, trimmed_pred (certain (PCompound "and" [SP "outlook" "equal" "sunny"; SP "wind" "lessThan" "20"] :: K))
    (full_leaf op v) (short_leaf op v)) as H.
  { intros op v K. apply tp_single; [|exact (λ x, x)]. apply th_drop.
    - eexists. split; [left|]. eapply po_operand; [left|]. apply po_self; exact (λ x, x).
    - apply th_keep; [done|constructor]. }
  constructor; [constructor|]. apply Forall2_cons. split; [by do 2 constructor|]. apply Forall2_cons. split; [|constructor].
  constructor; [constructor|]. apply Forall2_cons. split; [by constructor; [apply H|constructor]|].
  apply Forall2_cons. split; [by constructor; [apply H|constructor]|constructor].
Qed.
Definition branch_row : datarow := Some {["outlook" := GStr "sunny"; "kmh" := GF64 (fl "36"); "humidity" := GF64 (fl "60")]}.
Definition branch_out (st : string) leaf : option (res (option (list (string * gov)))) :=
  dumped (run go_ext golf_dd (DTree (branch_tree st leaf)) branch_row).
Example C153_example :
  rtsc trimmed_trees (DTree (branch_tree "none" full_leaf)) (DTree (branch_tree "none" short_leaf)) ∧
  branch_out "none" full_leaf = dumped (Some (golf_out "yes" "1" "0", None)) ∧
  branch_out "none" short_leaf = dumped (Some (golf_out "yes" "1" "0", None)).
Proof.
  split; [|split; by vm_compute]. apply rtc_once. left. constructor.
  apply (stb _ (branch_tree "none" full_leaf) (sunny_branch short_leaf)). right. split; [set_solver|exact branch_trimmed].
Qed.
(** No condition is unknown in that row. *)
Example C153_known_example : ∀ r', handle_input go_ext golf_lt branch_row = (Ok tt, r') →
  everywhere_doc (λ m, ¬ doc_truth go_ext golf_dd [] (branch_tree "weightedConfidence" full_leaf) r' m RU) (sunny_branch full_leaf).
Proof.
  intros r' Hr. apply everywhere_doc_nodes. intros m Hm (p & Hp & Ht).
  vm_compute in Hr. injection Hr as <-. unfold sunny_branch in Hm. cbn [doc_nodes map concat app] in Hm.
  repeat (apply elem_of_cons in Hm as [->|Hm]; [vm_compute in Hp; injection Hp as <-; vm_compute in Ht; discriminate Ht|]).
  by apply elem_of_nil in Hm.
Qed.

(** More generally, an operand can be left out that is true in every row in which the
    conditions above are. *)
Theorem C153_implied : ∀ E dd td t n e1 td' calls1 calls2,
  tm_strategy t ∉ ["aggregateNodes"; "weightedConfidence"; "defaultChild"; "lastPrediction"] →
  trimmed (implied E (field_types dd (td ++ tm_lt t))) [] (tm_node t) n → new_model E dd td (DTree t) = (Ok e1, td') →
  ∃ e2, new_model E dd td (DTree (with_node t n)) = (Ok e2, td') ∧
    ∀ tk r, (evaluate E tk (after E calls1 e1) r).1 = (evaluate E tk (after E calls2 e2) r).1.
Proof.
  intros E dd td t n e1 td' calls1 calls2 Hst Hn H1. destruct (trimmed_accepted E dd td t n Hn) as [Ha _].
  destruct (Ha _ _ H1) as [e2 H2]. exists e2. split; [done|]. intros tk r.
  rewrite (history_independent _ _ _ _ _ _ _ _ _ H1), (history_independent _ _ _ _ _ _ _ _ _ H2).
  eapply trees_trimmed; eauto.
Qed.
Print Assumptions C153_implied.

(** A wider bound follows from a narrower one, for every float64 value, infinities and NaN included. *)
Theorem C153_bounds : ∀ E ft K f dt op1 op2 a b x y,
  ft !! f = Some dt → dt ∈ ["double"; "float"] → ext_parse_float E a = Some x → ext_parse_float E b = Some y →
  wider fleb fltb x y op1 op2 → certain K (PSimple f op1 a GNil) → implied E ft K (PSimple f op2 b GNil).
Proof.
  intros E ft K f dt op1 op2 a b x y Hf Hdt Ha Hb Hw HK. eapply implied_trans; [exact HK|].
  destruct (wider_ops _ _ _ _ _ _ Hw) as [Ho1 Ho2]. split; [exact (λ x, x)|]. split.
  - intros _. cbn [compile_predicate]. rewrite Hf. unfold get_raw_value.
    repeat (apply elem_of_cons in Hdt as [->|Hdt]; [simpl; rewrite Hb; by eexists|]). by apply elem_of_nil in Hdt.
  - intros r Hr. apply (bound_float E ft f dt op2 b y r Hf Hdt Hb Ho2).
    destruct (proj1 (bound_float E ft f dt op1 a x r Hf Hdt Ha Ho1) (Hr _ (elem_of_list_here _ _))) as (v & Hv & H).
    exists v. split; [done|]. by eapply wider_float.
Qed.
Print Assumptions C153_bounds.
Theorem C153_integer_bounds : ∀ E ft K f op1 op2 a b x y,
  ft !! f = Some "integer" → parse_int a = Some x → parse_int b = Some y →
  wider Z.leb Z.ltb x y op1 op2 → certain K (PSimple f op1 a GNil) → implied E ft K (PSimple f op2 b GNil).
Proof.
  intros E ft K f op1 op2 a b x y Hf Ha Hb Hw HK. eapply implied_trans; [exact HK|].
  destruct (wider_ops _ _ _ _ _ _ Hw) as [Ho1 Ho2]. split; [exact (λ x, x)|]. split.
  - intros _. cbn [compile_predicate]. rewrite Hf. unfold get_raw_value. simpl. rewrite Hb. by eexists.
  - intros r Hr. apply (bound_int E ft f op2 b y r Hf Hb Ho2).
    destruct (proj1 (bound_int E ft f op1 a x r Hf Ha Ho1) (Hr _ (elem_of_list_here _ _))) as (v & Hv & H).
    exists v. split; [done|]. by eapply wider_int.
Qed.
Print Assumptions C153_integer_bounds.
(** Below a test of a field that is not isMissing, the field is not missing. *)
Theorem C153_not_missing : ∀ E ft K f dt op a b raw,
  ft !! f = Some dt → get_raw_value E dt b = Ok raw → op ≠ "isMissing" →
  certain K (PSimple f op a GNil) → implied E ft K (PSimple f "isNotMissing" b GNil).
Proof.
  intros E ft K f dt op a b raw Hf Hb Hop HK. eapply implied_trans; [exact HK|]. split; [exact (λ x, x)|].
  assert (compile_predicate E ft (PSimple f "isNotMissing" b GNil) = Ok (PSimple f "isNotMissing" b raw)) as Hc
    by (cbn [compile_predicate]; by rewrite Hf, Hb).
  split; [eauto|]. intros r Hr. eexists. split; [exact Hc|]. destruct (Hr _ (elem_of_list_here _ _)) as (c & Hc1 & Ht).
  cbn [compile_predicate] in Hc1. rewrite Hf in Hc1. apply rbind_ok in Hc1 as (raw1 & Hraw1 & [= <-]).
  cbn [run_test] in *. unfold eval_simple in *. rewrite Hf in *. rewrite (raw_not_nil _ _ _ _ Hb). rewrite (raw_not_nil _ _ _ _ Hraw1) in Ht.
  destruct (dr_get r f); [done|]. destruct (String.eqb_spec op "isMissing"); done.
Qed.
Print Assumptions C153_not_missing.

(** A price tree whose inner node repeats a wider bound and asks again for the area. *)
Definition bounded (leaf : predicate) : mnode :=
  MNode "1" "" "0" (fl "1") []
    [MNode "2" "" "100" (fl "1") []
       [MNode "3" "" "50" (fl "1") [] [] leaf; MNode "4" "" "80" (fl "1") [] [] PTrue]
       (SP "area" "lessThan" "60");
     MNode "5" "" "300" (fl "1") [] [] PTrue] PTrue.
Definition bounded_tree (leaf : predicate) : tree_model := TreeModel "regression" "none" fone "" [] [] None (bounded leaf).
Definition wordy_leaf : predicate :=
  PCompound "and" [SP "area" "isNotMissing" "0"; SP "area" "lessOrEqual" "60.5"; SP "area" "greaterThan" "20"].
Example C153_bounds_example :
  trimmed (implied go_ext (field_types price_dd [])) [] (bounded wordy_leaf) (bounded (SP "area" "greaterThan" "20")) ∧
  dumped (run go_ext price_dd (DTree (bounded_tree wordy_leaf)) (Some {["area" := GF64 (fl "40")]})) =
  Some (Ok (Some [("score", GF64 (fl "50"))])).
Proof.
  split; [|by vm_compute]. constructor; [constructor|]. apply Forall2_cons. split; [|by apply Forall2_cons; split; [do 2 constructor|]].
  constructor; [constructor|]. apply Forall2_cons. split; [|by apply Forall2_cons; split; [do 2 constructor|]].
  constructor; [|constructor]. apply tp_single; [|exact (λ x, x)].
  assert (certain [SP "area" "lessThan" "60"; PTrue] (SP "area" "lessThan" "60")) as HK.
  { eexists. split; [left|]. apply po_self. exact (λ x, x). }
  apply th_drop.
  { apply (C153_not_missing go_ext _ _ _ "double" _ "60" "0" (GF64 (fl "0"))) with (4 := HK); [by vm_compute..|done]. }
  apply th_drop; [|apply th_keep; [done|constructor]].
  apply (C153_bounds go_ext _ _ _ "double" _ _ "60" "60.5" (fl "60") (fl "60.5")) with (6 := HK); [by vm_compute|by left|by vm_compute..|]. apply wi_lt; [set_solver|by vm_compute].
Qed.

(** Under the other strategies the children of a node are looked at also when its condition
    is unknown: without the outlook, the repeated condition makes a difference. *)
Theorem C153_unknown_rows : ∀ st, st ∈ ["lastPrediction"; "defaultChild"; "weightedConfidence"; "aggregateNodes"] →
  ∃ E dd t n e1 e2 td1 td2 r, tm_strategy t = st ∧ trimmed certain [] (tm_node t) n ∧
    new_model E dd [] (DTree t) = (Ok e1, td1) ∧ new_model E dd [] (DTree (with_node t n)) = (Ok e2, td2) ∧
    (evaluate E [] e1 r).1.1 ≠ (evaluate E [] e2 r).1.1.
Proof.
  intros st Hst. exists go_ext, golf_dd, (branch_tree st full_leaf), (sunny_branch short_leaf).
  exists (built go_ext golf_dd (DTree (branch_tree st full_leaf))), (built go_ext golf_dd (DTree (branch_tree st short_leaf))).
  do 2 eexists. exists (Some {["kmh" := GF64 (fl "9"); "humidity" := GF64 (fl "60")]}).
  split; [done|]. split; [exact branch_trimmed|].
  repeat (apply elem_of_cons in Hst as [->|Hst]; [split; [apply built_ok; by vm_compute|split; [apply built_ok; by vm_compute|
    intros H; apply (f_equal (λ x, match x with Ok (Some o) => o !! "probability(yes)" | _ => None end)) in H; vm_compute in H; discriminate H]]|]).
  by apply elem_of_nil in Hst.
Qed.
Print Assumptions C153_unknown_rows.

(** True is not a condition that can be left out: inside "and" it counts as unknown (C09). *)
Theorem C153_not_true : ∃ E dd p e1 e2 td1 td2 r,
  let t q := TreeModel "regression" "none" fone "" [] [] None (MNode "1" "" "0" (fl "1") [] [MNode "2" "" "1" (fl "1") [] [] q] PTrue) in
  new_model E dd [] (DTree (t (PCompound "and" [PTrue; p]))) = (Ok e1, td1) ∧ new_model E dd [] (DTree (t p)) = (Ok e2, td2) ∧
  (evaluate E [] e1 r).1.1 ≠ (evaluate E [] e2 r).1.1.
Proof.
  exists go_ext, price_dd, (SP "area" "lessThan" "60"). do 4 eexists. exists (Some {["area" := GF64 (fl "40")]}). cbv zeta.
  split; [vm_compute; reflexivity|]. split; [vm_compute; reflexivity|].
  intros H. apply (f_equal (λ x, match x with Ok (Some o) => o !! "score" | _ => None end)) in H. vm_compute in H. discriminate H.
Qed.
Print Assumptions C153_not_true.
