(** Property theorems about predicates: C06 - C14.  Each is closed by a lemma of
    ProofsPred.v; the Example below each theorem is a concrete case. *)
From Verif Require Import Base Strconv Value Doc Expr Pred Tree Model Lib SpecPred ProofsPred GoExt.

(** *** Sample predicates used by the examples *)
Definition ex_ft : fieldtypes :=
  {["temp" := "double"; "hum" := "integer"; "outlook" := "string"; "windy" := "boolean"]}.
Definition ex_row : datarow :=
  Some {["temp" := GF64 (fl "75.5"); "hum" := GInt KInt 55; "outlook" := GStr "sunny"]}.
Definition ex_lt : predicate := PSimple "temp" "lessThan" "80" GNil.
Definition ex_and : predicate :=
  PCompound "and" [ex_lt; PSimple "windy" "equal" "true" GNil;
                   PCompound "or" [PSimple "hum" "greaterThan" "50" GNil;
                                   PSimple "outlook" "equal" "rain" GNil]].

(** *** C06: numeric comparisons *)
Theorem C06_float_order : ∀ E ft f op lit raw0 p r v dt x,
  compile_predicate E ft (PSimple f op lit raw0) = Ok p →
  ft !! f = Some dt → dt = "double" ∨ dt = "float" →
  ext_parse_float E lit = Some x → dr_get r f = Some v → op ∈ order_ops →
  run_test E ft p r = Ok (if order_holds op (SFcompare (val_float64 E v) x) then RT else RF).
Proof. exact numeric_order. Qed.
Print Assumptions C06_float_order.

Theorem C06_integer_order : ∀ E ft f op lit raw0 p r v z,
  compile_predicate E ft (PSimple f op lit raw0) = Ok p →
  ft !! f = Some "integer" →
  integer_text lit z → dr_get r f = Some v → op ∈ order_ops →
  run_test E ft p r = Ok (if order_holds op (Some (val_int64 v ?= z)%Z) then RT else RF).
Proof. exact integer_order. Qed.
Print Assumptions C06_integer_order.

Example C06_example :
  (p <-! compile_predicate go_ext ex_ft ex_lt; run_test go_ext ex_ft p ex_row) = Ok RT ∧
  (p <-! compile_predicate go_ext ex_ft (PSimple "hum" "greaterOrEqual" "56" GNil);
   run_test go_ext ex_ft p ex_row) = Ok RF ∧
  go_parse_float "80" = Some (fl "80") ∧ integer_text "56" 56.
Proof. split; [by vm_compute|]. split; [by vm_compute|]. split; [by vm_compute|]. by apply parse_int_text. Qed.

(** *** C07: unknown exactly on absent fields *)
Theorem C07_unknown_iff_absent : ∀ E ft f op lit raw0 p r,
  compile_predicate E ft (PSimple f op lit raw0) = Ok p →
  run_test E ft p r = Ok RU ↔ dr_get r f = None ∧ op ≠ "isMissing".
Proof. exact simple_unknown_iff. Qed.
Print Assumptions C07_unknown_iff_absent.

Theorem C07_isMissing : ∀ E ft f lit raw0 p r,
  compile_predicate E ft (PSimple f "isMissing" lit raw0) = Ok p →
  run_test E ft p r = Ok (match dr_get r f with None => RT | Some _ => RF end).
Proof. exact isMissing_iff. Qed.
Print Assumptions C07_isMissing.

Theorem C07_isNotMissing : ∀ E ft f lit raw0 p r,
  compile_predicate E ft (PSimple f "isNotMissing" lit raw0) = Ok p →
  run_test E ft p r = Ok (match dr_get r f with None => RU | Some _ => RT end).
Proof. exact isNotMissing_iff. Qed.
Print Assumptions C07_isNotMissing.

Example C07_example :
  (p <-! compile_predicate go_ext ex_ft (PSimple "windy" "equal" "true" GNil);
   run_test go_ext ex_ft p ex_row) = Ok RU ∧
  (p <-! compile_predicate go_ext ex_ft (PSimple "outlook" "isMissing" "" GNil);
   run_test go_ext ex_ft p None) = Ok RT.
Proof. vm_compute. done. Qed.

(** *** C08: compound predicates *)
Theorem C08_three_valued_logic : ∀ E ft r p p',
  compile_predicate E ft p = Ok p' → p ≠ PNone → no_const_operand p →
  run_test E ft p' r = Ok (pred_meaning E ft r p).
Proof. exact run_test_meaning. Qed.
Print Assumptions C08_three_valued_logic.

Example C08_example :
  no_const_operand ex_and ∧
  (p <-! compile_predicate go_ext ex_ft ex_and; run_test go_ext ex_ft p ex_row) = Ok RU ∧
  pred_meaning go_ext ex_ft ex_row ex_and = RU.
Proof. vm_compute. tauto. Qed.

(** *** C09: True and False operands *)
Theorem C09_constants_keep_value_refuted : ∃ E ft r b ps p',
  compile_predicate E ft (PCompound b ps) = Ok p' ∧ PTrue ∈ ps ∧
  pred_meaning E ft r (PCompound b ps) = RT ∧ run_test E ft p' r = Ok RU.
Proof.
  exists go_ext, ex_ft, ex_row, "and", [PTrue; ex_lt].
  eexists. split; [vm_compute; reflexivity|]. split; [left|]. vm_compute. done.
Qed.
Print Assumptions C09_constants_keep_value_refuted.

(** what happens instead: a constant operand counts as unknown *)
Theorem C09_constants_are_unknown : ∀ E ft r b ps p',
  compile_predicate E ft (PCompound b ps) = Ok p' →
  Forall no_const_operand ps →
  run_test E ft p' r =
  Ok (tv_compound b ((λ q, match q with PTrue | PFalse | PNone => RU
                           | _ => pred_meaning E ft r q end) <$> ps)).
Proof. exact compound_const_unknown. Qed.
Print Assumptions C09_constants_are_unknown.

(** *** C10: no panic *)
Theorem C10_compiled_predicates_total : ∀ E ft r p p',
  compile_predicate E ft p = Ok p' → p ≠ PNone → ∃ v, run_test E ft p' r = Ok v.
Proof. exact run_test_total. Qed.
Print Assumptions C10_compiled_predicates_total.

Example C10_example :
  (p <-! compile_predicate go_ext ex_ft ex_and;
   run_test go_ext ex_ft p (Some {["windy" := GOther 3 None; "hum" := GStr "x"]})) = Ok RF.
Proof. vm_compute. done. Qed.

(** *** C11: locality *)
Theorem C11_predicate_locality : ∀ E ft r1 r2 p,
  (∀ f, f ∈ pred_fields p → dr_get r1 f = dr_get r2 f) →
  run_test E ft p r1 = run_test E ft p r2.
Proof. exact run_test_local. Qed.
Print Assumptions C11_predicate_locality.

Example C11_example : pred_fields ex_and = ["temp"; "windy"; "hum"; "outlook"].
Proof. done. Qed.

(** *** C12: set predicates *)
Theorem C12_membership_refuted : ∃ E ft r f arr,
  set_meaning E "isIn" arr (dr_get r f) = RT ∧
  run_test E ft (PSet "isIn" f arr) r = Ok RF.
Proof. exists go_ext, ex_ft, ex_row, "outlook", ["rain"; "sunny"]. vm_compute. done. Qed.
Print Assumptions C12_membership_refuted.

Theorem C12_set_always_false : ∀ E ft b f a r,
  compile_predicate E ft (PSet b f a) = Ok (PSet b f a) ∧ run_test E ft (PSet b f a) r = Ok RF.
Proof. exact set_always_false. Qed.
Print Assumptions C12_set_always_false.

(** *** C13: equal / notEqual *)
Theorem C13_equal_notEqual : ∀ E ft f lit raw1 raw2 p q r,
  compile_predicate E ft (PSimple f "equal" lit raw1) = Ok p →
  compile_predicate E ft (PSimple f "notEqual" lit raw2) = Ok q →
  ∃ v, run_test E ft p r = Ok v ∧
       run_test E ft q r = Ok (match v with RT => RF | RF => RT | RU => RU end) ∧
       (v = RU ↔ dr_get r f = None).
Proof. exact equal_notEqual. Qed.
Print Assumptions C13_equal_notEqual.

Example C13_example :
  (p <-! compile_predicate go_ext ex_ft (PSimple "temp" "equal" "NaN" GNil);
   run_test go_ext ex_ft p (Some {["temp" := GF64 S754_nan]})) = Ok RF ∧
  (q <-! compile_predicate go_ext ex_ft (PSimple "temp" "notEqual" "NaN" GNil);
   run_test go_ext ex_ft q (Some {["temp" := GF64 S754_nan]})) = Ok RT.
Proof. vm_compute. done. Qed.

(** *** C14: binary splits *)
Theorem C14_splits : ∀ E ft dt f lit raw1 raw2 op1 op2 p q r v,
  compile_predicate E ft (PSimple f op1 lit raw1) = Ok p →
  compile_predicate E ft (PSimple f op2 lit raw2) = Ok q →
  (op1 = "lessOrEqual" ∧ op2 = "greaterThan") ∨ (op1 = "lessThan" ∧ op2 = "greaterOrEqual") →
  ft !! f = Some dt → dt ∈ ["double"; "float"; "integer"] →
  dr_get r f = Some v →
  ((run_test E ft p r = Ok RT ∧ run_test E ft q r = Ok RF) ∨
   (run_test E ft p r = Ok RF ∧ run_test E ft q r = Ok RT)) ∨
  (dt ≠ "integer" ∧ (val_float64 E v = S754_nan ∨ ext_parse_float E lit = Some S754_nan) ∧
   run_test E ft p r = Ok RF ∧ run_test E ft q r = Ok RF).
Proof. exact splits. Qed.
Print Assumptions C14_splits.

Example C14_example :
  (p <-! compile_predicate go_ext ex_ft (PSimple "temp" "lessOrEqual" "75.5" GNil);
   run_test go_ext ex_ft p ex_row) = Ok RT ∧
  (q <-! compile_predicate go_ext ex_ft (PSimple "temp" "greaterThan" "75.5" GNil);
   run_test go_ext ex_ft q ex_row) = Ok RF.
Proof. vm_compute. done. Qed.
