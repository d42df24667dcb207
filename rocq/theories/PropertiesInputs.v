(** Properties C94 - C96: missing values, nil values and the Go types of the
    values in a row. *)
From Verif Require Import Base Strconv Value Doc Expr Pred Tree Regression Model Lib GoExt Samples
  SpecPred SpecConstruct ProofsValue ProofsPred ProofsConstruct ProofsRegr.

(** *** C94: testing for missing values *)

(** In PMML a SimplePredicate with isMissing or isNotMissing has no value. *)
Theorem C94_valueless_exact : ∀ E ft f op raw,
  (∃ p, compile_predicate E ft (PSimple f op "" raw) = Ok p) ↔ ft !! f = Some "string".
Proof.
  intros E ft f op raw. split.
  - intros [p Hp]. apply compile_simple_inv in Hp as (dt & x & Hft & Hx & _). rewrite Hft. f_equal.
    unfold get_raw_value in Hx. rewrite ext_parse_float_empty in Hx.
    destruct (dt =s "boolean"); [done|]. destruct (dt =s "double"); [done|].
    destruct (dt =s "float"); [done|]. destruct (dt =s "integer"); [done|].
    destruct (dt =s "string") eqn:H; [by apply String.eqb_eq in H|done].
  - intros Hft. eexists. apply compile_simple_inv. by exists "string", (GStr "").
Qed.
Print Assumptions C94_valueless_exact.

Theorem C94_document_partial : ∀ E dd td t e td' f,
  new_model E dd td (DTree t) = (Ok e, td') → (f, "") ∈ tree_simples (tm_node t) →
  declared_as dd (td ++ tm_lt t) f "string".
Proof.
  intros E dd td t e td' f Hn Hf.
  assert (tree_ok E dd td t) as [_ H].
  { apply new_tree_model_ok_iff. simpl in Hn. destruct (new_tree_model E dd td t) as [[te| |] td1]; naive_solver. }
  destruct (H f "" Hf) as (dt & Hd & Hl).
  assert (dt = "string") as ->; [|done].
  destruct Hl as [[_ Hl]|[[_ Hl]|[[_ [z Hz]]|Hl]]]; [set_solver| | |done].
  - rewrite ext_parse_float_empty in Hl. by destruct Hl.
  - by apply parse_int_text in Hz.
Qed.
Print Assumptions C94_document_partial.

(** A valid document that NewModel refuses: the first split sends the rows without
    a humidity to the right. *)
Definition missing_split (v : string) : doc_model :=
  DTree (TreeModel "classification" "none" fone "" [] [MF "play" "target"] None
    (MNode "1" "" "yes" (fl "2") [SD "yes" "2"]
       [MNode "2" "" "yes" (fl "1") [SD "yes" "1"] [] (SP "humidity" "isNotMissing" v);
        MNode "3" "" "no" (fl "1") [SD "no" "1"] [] (SP "humidity" "isMissing" v)] PTrue)).
Theorem C94_isMissing_refuted : ∃ E dd td d, d = missing_split "" ∧
  ("humidity" ∈ dd_name <$> dd) ∧ new_model E dd td d = (Err (EParseFloat ""), td).
Proof.
  exists go_ext, golf_dd, [], (missing_split ""). split; [done|]. split; [cbn; set_solver|]. by vm_compute.
Qed.
Print Assumptions C94_isMissing_refuted.

(** With a value that parses, which the test then ignores, it works. *)
Example C94_example :
  dumped (run go_ext golf_dd (missing_split "0") (Some ∅)) =
    Some (Ok (dump (Some {["play" := GStr "no"; "probability(no)" := GF64 fone]}))) ∧
  (∃ p, compile_predicate go_ext (field_types golf_dd []) (SP "outlook" "isMissing" "") = Ok p).
Proof. split; [by vm_compute|]. by apply C94_valueless_exact. Qed.

(** *** C95: a nil value counts as missing *)

(** For a predicate it is present: never unknown, and not missing. *)
Theorem C95_nil_present : ∀ E ft f op lit raw p r,
  compile_predicate E ft (PSimple f op lit raw) = Ok p → dr_get r f = Some GNil →
  run_test E ft p r ≠ Ok RU ∧
  (op = "isMissing" → run_test E ft p r = Ok RF) ∧ (op = "isNotMissing" → run_test E ft p r = Ok RT).
Proof.
  intros E ft f op lit raw p r Hc Hn. split; [|split].
  - rewrite (simple_unknown_iff _ _ _ _ _ _ _ _ Hc), Hn. by intros [? _].
  - intros ->. by rewrite (isMissing_iff _ _ _ _ _ _ _ Hc), Hn.
  - intros ->. by rewrite (isNotMissing_iff _ _ _ _ _ _ _ Hc), Hn.
Qed.
Print Assumptions C95_nil_present.

(** It compares as zero, and a regression computes with it as zero. *)
Theorem C95_nil_is_zero : ∀ E ft f op lit raw p m,
  compile_predicate E ft (PSimple f op lit raw) = Ok p → op ∈ order_ops →
  run_test E ft p (Some (<[f := GNil]> m)) = run_test E ft p (Some (<[f := GInt KInt64 0]> m)).
Proof.
  intros E ft f op lit raw p m Hc Ho.
  destruct (compiled_simple_meaning _ _ _ _ _ _ _ (Some (<[f := GNil]> m)) Hc) as (dt & Hft & ->).
  destruct (compiled_simple_meaning _ _ _ _ _ _ _ (Some (<[f := GInt KInt64 0]> m)) Hc) as (dt' & Hft' & ->).
  simplify_eq. unfold dr_get. rewrite !lookup_insert, !simple_meaning_order by done.
  unfold compare_literal. done.
Qed.
Print Assumptions C95_nil_is_zero.

Lemma linear_form_zero E ps f m : ∀ y,
  linear_form E y ps (Some (<[f := GNil]> m)) = linear_form E y ps (Some (<[f := GInt KInt64 0]> m)).
Proof.
  induction ps as [|p ps IH]; intros y; [done|]. simpl. destruct (decide (np_name p = f)) as [->|Hne].
  - by rewrite !lookup_insert.
  - rewrite !lookup_insert_ne by done. by destruct (m !! np_name p).
Qed.
Lemma binary_form_zero E norm ps f m : ∀ y,
  binary_form E norm y ps (Some (<[f := GNil]> m)) = binary_form E norm y ps (Some (<[f := GInt KInt64 0]> m)).
Proof.
  induction ps as [|p ps IH]; intros y; [done|]. simpl. destruct (decide (np_name p = f)) as [->|Hne].
  - rewrite !lookup_insert. change (val_float64 E GNil) with (val_float64 E (GInt KInt64 0)).
    destruct (normalize _ _ _); [apply IH|done|done].
  - rewrite !lookup_insert_ne by done. destruct (m !! np_name p); [|done].
    destruct (normalize _ _ _); [apply IH|done|done].
Qed.

Theorem C95_regression_nil_is_zero : ∀ E tk x f m,
  (evaluate E tk (ERegr x) (Some (<[f := GNil]> m))).1.1 =
  (evaluate E tk (ERegr x) (Some (<[f := GInt KInt64 0]> m))).1.1.
Proof.
  intros E tk x f m. simpl. unfold regr_evaluate, eval_regression, eval_binary, eval_multiclass.
  set (r0 := Some (<[f := GNil]> m)). set (r1 := Some (<[f := GInt KInt64 0]> m)).
  destruct (rm_function (er_model x) =s "regression").
  { destruct (rm_tables (er_model x)) as [|t [|]]; try done. destruct (rm_output (er_model x)) as [|o [|]]; try done.
    unfold r0, r1. by rewrite linear_form_zero. }
  destruct ((rm_function (er_model x) =s "classification") && Nat.eqb (length (rm_output (er_model x))) 2).
  { generalize fone as final, (∅ : row) as out. induction (rm_tables (er_model x)) as [|t ts IH]; intros final out; [done|].
    simpl. unfold r0, r1 in *. rewrite binary_form_zero.
    destruct (if Nat.ltb 0 (length (rt_predictors t)) then _ else _); [apply IH|done|done]. }
  destruct (rm_function (er_model x) =s "classification"); [|done].
  assert (rmap (λ t, linear_form E (rt_intercept t) (rt_predictors t) r0) (rm_tables (er_model x)) =
          rmap (λ t, linear_form E (rt_intercept t) (rt_predictors t) r1) (rm_tables (er_model x))) as ->; [|done].
  induction (rm_tables (er_model x)) as [|t ts IH]; [done|]. simpl. unfold r0, r1 in *.
  by rewrite linear_form_zero, IH.
Qed.
Print Assumptions C95_regression_nil_is_zero.

(** The expressions isMissing and isNotMissing do take it for missing. *)
Theorem C95_expression_missing_partial : ∀ E f d m1 m2 d2 r, dr_get r f = Some GNil ∨ dr_get r f = None →
  handle_expr E (XApply "isMissing" m1 d [XField f d2]) r = Ok (GBool true) ∧
  handle_expr E (XApply "isNotMissing" m2 d [XField f d2]) r = Ok (GBool false).
Proof. intros E f d m1 m2 d2 r [Hf|Hf]; simpl; by rewrite Hf. Qed.
Print Assumptions C95_expression_missing_partial.

(** So a nil is answered differently from an absent field. *)
Definition nil_tree : doc_model := missing_split "0".
Theorem C95_nil_refuted : ∃ E dd td d e td' f,
  new_model E dd td d = (Ok e, td') ∧
  (evaluate E [] e (Some {[f := GNil]})).1.1 ≠ (evaluate E [] e (Some ∅)).1.1.
Proof.
  exists go_ext, golf_dd, [], nil_tree, (built go_ext golf_dd nil_tree), (new_model go_ext golf_dd [] nil_tree).2,
    "humidity".
  split; [apply built_ok; by vm_compute|].
  rewrite (run_out go_ext golf_dd nil_tree (Some {["humidity" := GNil]})
             (Some {["play" := GStr "yes"; "probability(yes)" := GF64 fone]})) by (by vm_compute).
  rewrite (run_out go_ext golf_dd nil_tree (Some ∅)
             (Some {["play" := GStr "no"; "probability(no)" := GF64 fone]})) by (by vm_compute).
  by intros [= H].
Qed.
Print Assumptions C95_nil_refuted.

Example C95_example :
  let area := PSimple "area" "lessThan" "60" GNil in
  (p <-! compile_predicate go_ext (field_types price_dd []) area;
   run_test go_ext (field_types price_dd []) p (Some {["area" := GNil]})) = Ok RT ∧
  (p <-! compile_predicate go_ext (field_types price_dd []) area;
   run_test go_ext (field_types price_dd []) p (Some ∅)) = Ok RU.
Proof. by vm_compute. Qed.

(** *** C96: a number means the same in every Go type *)

(** equal demands the Go type that getRawValue gives the literal. *)
Theorem C96_equal_exact : ∀ E ft f lit raw p r dt v,
  compile_predicate E ft (PSimple f "equal" lit raw) = Ok p → ft !! f = Some dt → dr_get r f = Some v →
  run_test E ft p r = Ok RT ↔
    match v with
    | GF64 x => (dt = "double" ∨ dt = "float") ∧ ∃ y, ext_parse_float E lit = Some y ∧ SFcompare x y = Some Eq
    | GInt KInt64 z => dt = "integer" ∧ parse_int lit = Some z
    | GStr s => dt = "string" ∧ s = lit
    | GBool b => dt = "boolean" ∧ parse_bool lit = Some b
    | _ => False
    end.
Proof.
  intros E ft f lit raw p r dt v Hc Hft Hv.
  destruct (compiled_simple_meaning _ _ _ _ _ _ _ r Hc) as (dt' & Hft' & ->).
  rewrite Hft in Hft'. injection Hft' as <-. rewrite Hv.
  change (simple_meaning E dt "equal" lit (Some v)) with (of_bool (same_as_literal E dt v lit)).
  trans (same_as_literal E dt v lit = true); [by destruct (same_as_literal _ _ _ _)|].
  unfold same_as_literal. destruct v as [|b|x|x|s|k z|tag o]; try done.
  - by rewrite andb_true_iff, String.eqb_eq, bool_decide_eq_true.
  - rewrite andb_true_iff, orb_true_iff, !String.eqb_eq. f_equiv.
    destruct (ext_parse_float E lit) as [y|]; [|naive_solver]. rewrite bool_decide_eq_true. naive_solver.
  - by rewrite andb_true_iff, String.eqb_eq, bool_decide_eq_true.
  - destruct k; try done. rewrite andb_true_iff, String.eqb_eq, bool_decide_eq_true. done.
Qed.
Print Assumptions C96_equal_exact.

(** Order comparisons of floating point fields accept every Go number. *)
Theorem C96_float_field_partial : ∀ E ft f op lit raw p m dt k z,
  compile_predicate E ft (PSimple f op lit raw) = Ok p → op ∈ order_ops →
  ft !! f = Some dt → dt = "double" ∨ dt = "float" → (- 2 ^ 63 <= z < 2 ^ 63)%Z →
  run_test E ft p (Some (<[f := GInt k z]> m)) = run_test E ft p (Some (<[f := GF64 (f64_of_Z z)]> m)).
Proof.
  intros E ft f op lit raw p m dt k z Hc Ho Hft Hdt Hz.
  destruct (compiled_simple_meaning _ _ _ _ _ _ _ (Some (<[f := GInt k z]> m)) Hc) as (dt1 & H1 & ->).
  destruct (compiled_simple_meaning _ _ _ _ _ _ _ (Some (<[f := GF64 (f64_of_Z z)]> m)) Hc) as (dt2 & H2 & ->).
  simplify_eq. unfold dr_get. rewrite !lookup_insert, !simple_meaning_order by done.
  unfold compare_literal. destruct Hdt as [-> | ->]; simpl; by rewrite wrap64_small.
Qed.
Print Assumptions C96_float_field_partial.

(** Integer fields do not: whatever is not a Go integer counts as 0, a number from
    a JSON decoder for one. *)
Theorem C96_integer_field_exact : ∀ E ft f op lit raw p m v,
  compile_predicate E ft (PSimple f op lit raw) = Ok p → op ∈ order_ops → ft !! f = Some "integer" →
  (∀ k z, v ≠ GInt k z) →
  run_test E ft p (Some (<[f := v]> m)) = run_test E ft p (Some (<[f := GInt KInt64 0]> m)).
Proof.
  intros E ft f op lit raw p m v Hc Ho Hft Hv.
  destruct (compiled_simple_meaning _ _ _ _ _ _ _ (Some (<[f := v]> m)) Hc) as (dt1 & H1 & ->).
  destruct (compiled_simple_meaning _ _ _ _ _ _ _ (Some (<[f := GInt KInt64 0]> m)) Hc) as (dt2 & H2 & ->).
  simplify_eq. unfold dr_get. rewrite !lookup_insert, !simple_meaning_order by done.
  unfold compare_literal. simpl. assert (val_int64 v = 0%Z) as ->; [|done].
  destruct v; try done. by destruct (Hv k z).
Qed.
Print Assumptions C96_integer_field_exact.

Theorem C96_equal_refuted : ∃ E ft f lit p k1 k2 z,
  compile_predicate E ft (PSimple f "equal" lit GNil) = Ok p ∧ ft !! f = Some "integer" ∧
  run_test E ft p (Some {[f := GInt k1 z]}) = Ok RT ∧ run_test E ft p (Some {[f := GInt k2 z]}) = Ok RF.
Proof.
  exists go_ext, (field_types price_dd []), "rooms", "3", (PSimple "rooms" "equal" "3" (GInt KInt64 3)), KInt64, KInt, 3%Z.
  by vm_compute.
Qed.
Print Assumptions C96_equal_refuted.

Theorem C96_json_refuted : ∃ E ft f p,
  compile_predicate E ft (PSimple f "greaterThan" "2" GNil) = Ok p ∧ ft !! f = Some "integer" ∧
  run_test E ft p (Some {[f := GInt KInt64 3]}) = Ok RT ∧
  ∀ x : f64, run_test E ft p (Some {[f := GF64 x]}) = Ok RF.
Proof.
  exists go_ext, (field_types price_dd []), "rooms", (PSimple "rooms" "greaterThan" "2" (GInt KInt64 2)).
  split; [by vm_compute|]. split; [by vm_compute|]. split; [by vm_compute|]. intros x.
  change {["rooms" := GF64 x]} with (<["rooms" := GF64 x]> (∅ : row)).
  rewrite (C96_integer_field_exact go_ext (field_types price_dd []) "rooms" "greaterThan" "2" GNil
    (PSimple "rooms" "greaterThan" "2" (GInt KInt64 2)) ∅ (GF64 x));
    [by vm_compute|by vm_compute|unfold order_ops; set_solver|by vm_compute|done].
Qed.
Print Assumptions C96_json_refuted.

Example C96_example :
  (p <-! compile_predicate go_ext (field_types price_dd []) (SP "area" "greaterOrEqual" "60");
   run_test go_ext (field_types price_dd []) p (Some {["area" := GInt KUint8 60]})) = Ok RT ∧
  (p <-! compile_predicate go_ext (field_types price_dd []) (SP "area" "equal" "60");
   run_test go_ext (field_types price_dd []) p (Some {["area" := GInt KUint8 60]})) = Ok RF ∧
  (p <-! compile_predicate go_ext (field_types price_dd []) (SP "area" "equal" "60");
   run_test go_ext (field_types price_dd []) p (Some {["area" := GF64 (fl "60")]})) = Ok RT.
Proof. by vm_compute. Qed.
