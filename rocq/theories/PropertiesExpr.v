(** Property theorems about expressions and derived fields (C34 - C41) and
    values (C42, C43).  C42's "nearest float64" is in PropertiesReal.v. *)
From stdpp Require Import pretty.
From Verif Require Import Base Strconv Value Doc Expr Pred Tree Regression Model Lib SpecPred ProofsPred
  SpecExpr ProofsExpr SpecConstruct ProofsConstruct ProofsEval ProofsValue ProofsDecode GoExt Samples.

Definition ex_ft42 : fieldtypes := {["temp" := "double"; "hum" := "integer"]}.
Definition xrow : datarow :=
  Some {["a" := GF64 (fl "6"); "b" := GStr "1.5"; "c" := GInt KUint8 2; "n" := GNil]}.

(** *** C34: locality *)
Theorem C34_expression_locality : ∀ E e r1 r2,
  (∀ f, f ∈ expr_fields e → dr_get r1 f = dr_get r2 f) →
  handle_expr E e r1 = handle_expr E e r2.
Proof. exact handle_expr_local. Qed.
Print Assumptions C34_expression_locality.

Example C34_example :
  let e := XA "if" [XA "isMissing" [XF "x"]; XA "+" [XF "a"; XF "b"]; XF "a"] in
  let r2 : datarow := Some {["a" := GF64 (fl "6"); "b" := GStr "1.5"; "zzz" := GBool true]} in
  expr_fields e = ["x"; "a"; "b"; "a"] ∧
  handle_expr go_ext e xrow = Ok (GF64 (fl "7.5")) ∧ handle_expr go_ext e r2 = Ok (GF64 (fl "7.5")).
Proof. vm_compute. done. Qed.

(** *** C35: arithmetic *)
Theorem C35_binary_arithmetic : ∀ E fn op d m args r,
  arith_meaning fn = Some op →
  handle_expr E (XApply fn d m args) r =
  match args with
  | [a; b] =>
      match handle_expr E a r with
      | Ok x =>
          match handle_expr E b r with
          | Ok y => Ok (GF64 (op (val_float64 E x) (val_float64 E y)))
          | Err e => Err e
          | Panic p => Panic p
          end
      | Err e => Err e
      | Panic p => Panic p
      end
  | _ => Err (EArity fn (length args))
  end.
Proof. intros E fn op d m args r. exact (handle_arith E fn d m args r op). Qed.
Print Assumptions C35_binary_arithmetic.

Theorem C35_sum : ∀ E d m args r vs,
  Forall2 (λ a v, handle_expr E a r = Ok v) args vs →
  handle_expr E (XApply "sum" d m args) r =
  Ok (GF64 (foldl (λ acc v, SFadd 53 1024 acc (val_float64 E v)) (S754_zero false) vs)).
Proof.
  intros E d m args r vs H. rewrite handle_sum. apply sum_loop_ok. by apply rmap_ok.
Qed.
Print Assumptions C35_sum.

(** a failing argument of sum (the first one) fails the sum *)
Theorem C35_sum_error : ∀ E d m l1 a l2 r vs e,
  Forall2 (λ a v, handle_expr E a r = Ok v) l1 vs →
  handle_expr E a r = Err e →
  handle_expr E (XApply "sum" d m (l1 ++ a :: l2)) r = Err e.
Proof. exact sum_first_error. Qed.
Print Assumptions C35_sum_error.

Example C35_example :
  handle_expr go_ext (XA "/" [XF "a"; XA "*" [XF "b"; XF "c"]]) xrow = Ok (GF64 (fl "2")) ∧
  handle_expr go_ext (XA "sum" [XF "a"; XF "b"; XF "c"]) xrow = Ok (GF64 (fl "9.5")) ∧
  handle_expr go_ext (XA "-" [XF "a"]) xrow = Err (EArity "-" 1) ∧
  handle_expr go_ext (XA "sum" [XF "a"; XOther "TextIndex"; XA "?" []]) xrow = Err ETransformation.
Proof. vm_compute. done. Qed.

(** *** C36: isMissing and isNotMissing *)
Theorem C36_isMissing : ∀ E d m f mm r,
  handle_expr E (XApply "isMissing" d m [XField f mm]) r =
  Ok (GBool (match dr_get r f with None | Some GNil => true | _ => false end)).
Proof.
  intros E d m f mm r. rewrite handle_isMissing. simpl.
  destruct (dr_get r f) as [[]|]; reflexivity.
Qed.
Print Assumptions C36_isMissing.

Theorem C36_complement : ∀ E d m d' m' args r,
  (∃ b, handle_expr E (XApply "isMissing" d m args) r = Ok (GBool b) ∧
        handle_expr E (XApply "isNotMissing" d' m' args) r = Ok (GBool (negb b))) ∨
  (∃ e e', handle_expr E (XApply "isMissing" d m args) r = Err e ∧
           handle_expr E (XApply "isNotMissing" d' m' args) r = Err e').
Proof. exact missing_complement. Qed.
Print Assumptions C36_complement.

Example C36_example :
  handle_expr go_ext (XA "isMissing" [XF "n"]) xrow = Ok (GBool true) ∧
  handle_expr go_ext (XA "isNotMissing" [XF "a"]) xrow = Ok (GBool true) ∧
  handle_expr go_ext (XA "isNotMissing" [XA "isMissing" []]) xrow = Err (EArity "isMissing" 0).
Proof. vm_compute. done. Qed.

(** *** C37: lazy if *)
Theorem C37_if : ∀ E d m c a b r,
  handle_expr E (XApply "if" d m [c; a; b]) r =
  match handle_expr E c r with
  | Ok (GBool true) => handle_expr E a r
  | Ok _ => handle_expr E b r
  | Err e => Err e
  | Panic p => Panic p
  end.
Proof. exact handle_if. Qed.
Print Assumptions C37_if.

Example C37_example :
  handle_expr go_ext (XA "if" [XA "isMissing" [XF "n"]; XF "a"; XOther "boom"]) xrow
    = Ok (GF64 (fl "6")) ∧
  handle_expr go_ext (XA "if" [XF "c"; XOther "boom"; XF "b"]) xrow = Ok (GStr "1.5") ∧
  handle_expr go_ext (XA "if" [XOther "boom"; XF "a"; XF "b"]) xrow = Err ETransformation.
Proof. vm_compute. done. Qed.

(** *** C38: MapValues *)
Theorem C38_map_values : ∀ E pairs tables dflt dt oc mmt r,
  (∀ f, (f, "data:output") ∉ pairs) →
  handle_expr E (XMap pairs tables dflt dt oc mmt) r =
  match map_match tables (val_string E (default GNil (map_input pairs r))) with
  | Some rw => Ok (GStr (default "" (rw !! "output")))
  | None =>
      match dflt with
      | Some d => get_raw_value E dt d
      | None => match map_input pairs r with Some v => Ok v | None => Err EMapValues end
      end
  end.
Proof. exact handle_map_spec. Qed.
Print Assumptions C38_map_values.

Lemma map_match_one key out s :
  map_match [[{["input" := key; "output" := out]}]] s =
  if decide (key = s) then Some {["input" := key; "output" := out]} else None.
Proof.
  unfold map_match. cbn [concat app]. destruct (decide (key = s)) as [Hk|Hk].
  - rewrite filter_cons_True; [done|]. by rewrite lookup_insert.
  - rewrite filter_cons_False; [done|]. by rewrite lookup_insert.
Qed.

(** integers of every kind, also those beyond int64, match the one row whose input is
    their decimal numeral *)
Theorem C38_integer_keys : ∀ z : Z, ∃ s, signed_val s = Some z ∧
  ∀ E f k r key out dt oc mmt, dr_get r f = Some (GInt k z) →
    handle_expr E (XMap [(f, "data:input")] [[{["input" := key; "output" := out]}]] None dt oc mmt) r =
    if decide (key = s) then Ok (GStr out) else Ok (GInt k z).
Proof.
  intros z. exists (pretty z). split; [apply signed_pretty|]. intros E f k r key out dt oc mmt Hr.
  rewrite C38_map_values.
  2:{ intros g Hg. apply elem_of_list_singleton in Hg. done. }
  unfold map_input. cbn [omap list_omap String.eqb Ascii.eqb Bool.eqb]. rewrite Hr. cbn [last default id val_string].
  rewrite map_match_one. case_decide; [|done].
  by rewrite lookup_insert_ne, lookup_singleton by done.
Qed.
Print Assumptions C38_integer_keys.

(** strings match themselves, booleans and missing values fixed words *)
Theorem C38_other_keys : ∀ E f v s r key out dt oc mmt,
  (v, s) ∈ [(GBool true, "true"); (GBool false, "false"); (GNil, "<nil>")] ∨ v = GStr s →
  dr_get r f = Some v →
  handle_expr E (XMap [(f, "data:input")] [[{["input" := key; "output" := out]}]] None dt oc mmt) r =
  if decide (key = s) then Ok (GStr out) else Ok v.
Proof.
  intros E f v s r key out dt oc mmt Hv Hr. rewrite C38_map_values.
  2:{ intros g Hg. apply elem_of_list_singleton in Hg. done. }
  unfold map_input. cbn [omap list_omap String.eqb Ascii.eqb Bool.eqb]. rewrite Hr. cbn [last default id].
  assert (val_string E v = s) as ->.
  { destruct Hv as [Hv| ->]; [|done]. repeat (apply elem_of_cons in Hv as [[= -> ->]|Hv]; [done|]). by apply elem_of_nil in Hv. }
  rewrite map_match_one. case_decide; [|done].
  by rewrite lookup_insert_ne, lookup_singleton by done.
Qed.
Print Assumptions C38_other_keys.

Example C38_keys_example :
  let tab k : list (list (gmap string string)) := [[{["input" := k; "output" := "hit"]}]] in
  let ask v k := handle_expr go_ext (XMap [("f", "data:input")] (tab k) None "" "" None) (Some {["f" := v]}) in
  ask (GInt KUint64 (2 ^ 64 - 1)) "18446744073709551615" = Ok (GStr "hit") ∧
  ask (GInt KUint64 (2 ^ 64 - 1)) "-1" = Ok (GInt KUint64 (2 ^ 64 - 1)) ∧
  ask (GInt KInt8 (-1)) "-1" = Ok (GStr "hit") ∧
  ask (GStr "007") "7" = Ok (GStr "007") ∧ ask (GBool true) "true" = Ok (GStr "hit") ∧ ask GNil "<nil>" = Ok (GStr "hit").
Proof. vm_compute. done. Qed.

Example C38_example :
  let rw i o : gmap string string := {["input" := i; "output" := o]} in
  let tables := [[rw "1.5" "low"; rw "2" "mid"]; [rw "1.5" "LOW"]] in
  handle_expr go_ext (XMap [("b", "data:input")] tables None "" "" None) xrow = Ok (GStr "LOW") ∧
  handle_expr go_ext (XMap [("c", "data:input")] tables (Some "7") "integer" "" None) xrow
    = Ok (GStr "mid") ∧
  handle_expr go_ext (XMap [("zz", "data:input")] tables (Some "7") "integer" "" None) xrow
    = Ok (GInt KInt64 7) ∧
  handle_expr go_ext (XMap [("a", "data:input")] tables None "" "" None) xrow = Ok (GF64 (fl "6")) ∧
  handle_expr go_ext (XMap [("zz", "data:input")] tables None "" "" None) xrow = Err EMapValues ∧
  (∀ f, (f, "data:output") ∉ [("b", "data:input")]).
Proof. vm_compute. repeat split; try done. intros f H. set_solver. Qed.

(** *** C39: derived fields *)
Theorem C39_frame : ∀ E lt m o r' k,
  handle_input E lt (Some m) = (o, r') → k ∉ map df_name lt →
  ∃ m', r' = Some m' ∧ m' !! k = m !! k.
Proof. exact handle_input_frame. Qed.
Print Assumptions C39_frame.

Theorem C39_document_order : ∀ E l1 df l2 m r',
  handle_input E (l1 ++ df :: l2) (Some m) = (Ok tt, r') →
  ∃ mid v m', handle_input E l1 (Some m) = (Ok tt, Some mid) ∧
    handle_expr E (df_expr df) (Some mid) = Ok v ∧
    r' = Some m' ∧
    (df_name df ∉ map df_name l2 → m' !! df_name df = Some (stored E df v)).
Proof. exact handle_input_each. Qed.
Print Assumptions C39_document_order.

(** with single definitions that only use earlier fields, every defining
    equation holds of the final row *)
Theorem C39_equations : ∀ E lt m r',
  well_ordered lt → handle_input E lt (Some m) = (Ok tt, r') →
  ∃ m', r' = Some m' ∧
  ∀ df, df ∈ lt → ∃ v, handle_expr E (df_expr df) (Some m') = Ok v ∧
                       m' !! df_name df = Some (stored E df v).
Proof. exact handle_input_solves. Qed.
Print Assumptions C39_equations.

Definition xlt : list derived_field :=
  [DerivedField "d1" "continuous" "double" (XA "+" [XF "a"; XF "b"]);
   DerivedField "d2" "categorical" "string" (XF "b");
   DerivedField "d3" "continuous" "double" (XA "*" [XF "d1"; XF "d1"])].

Example C39_example :
  well_ordered xlt ∧
  handle_input go_ext xlt xrow =
    (Ok tt, Some {["a" := GF64 (fl "6"); "b" := GStr "1.5"; "c" := GInt KUint8 2; "n" := GNil;
                   "d1" := GF64 (fl "7.5"); "d2" := GStr "1.5"; "d3" := GF64 (fl "56.25")]}).
Proof.
  split; [simpl; set_solver|]. apply injective_projections; [by vm_compute|].
  apply dump_inj. by vm_compute.
Qed.

(** *** C40: missing inputs through derived fields *)

(** A derived field that copies an absent field becomes present: 0.0 when it is
    continuous, an explicit nil otherwise.  So isMissing as a predicate is false
    on it, and numeric tests see 0. *)
Theorem C40_missing_stays_missing_refuted :
  ∃ E df m m',
    df_expr df = XField "x" None ∧ m !! "x" = None ∧
    handle_input E [df] (Some m) = (Ok tt, Some m') ∧
    m' !! df_name df = Some (GF64 fzero).
Proof.
  exists go_ext, (DerivedField "d" "continuous" "double" (XField "x" None)), ∅.
  eexists. repeat split.
Qed.
Print Assumptions C40_missing_stays_missing_refuted.

(** What does happen, for every document, row and field. *)
Theorem C40_missing_becomes_present : ∀ E df m x mm,
  df_expr df = XField x mm → m !! x = None →
  handle_input E [df] (Some m) =
    (Ok tt, Some (<[df_name df :=
       if df_optype df =s "continuous" then GF64 (S754_zero false) else GNil]> m)).
Proof.
  intros E df m x mm He Hm. simpl. rewrite He. simpl. rewrite Hm. simpl.
  destruct (df_optype df =s "continuous"); reflexivity.
Qed.
Print Assumptions C40_missing_becomes_present.

(** so a predicate on the derived field is never unknown *)
Theorem C40_predicate_not_unknown : ∀ E ft df m x mm r' op lit raw0 p,
  df_expr df = XField x mm → m !! x = None →
  handle_input E [df] (Some m) = (Ok tt, r') →
  compile_predicate E ft (PSimple (df_name df) op lit raw0) = Ok p →
  run_test E ft p r' ≠ Ok RU.
Proof.
  intros E ft df m x mm r' op lit raw0 p He Hm H Hc.
  rewrite (C40_missing_becomes_present E df m x mm He Hm) in H. simplify_eq.
  rewrite (simple_unknown_iff _ _ _ _ _ _ _ _ Hc). simpl. rewrite lookup_insert. naive_solver.
Qed.
Print Assumptions C40_predicate_not_unknown.

Example C40_example :
  (p <-! compile_predicate go_ext {["d" := "double"]} (PSimple "d" "lessThan" "1" GNil);
   run_test go_ext {["d" := "double"]} p
     (handle_input go_ext [DerivedField "d" "continuous" "double" (XF "gone")] xrow).2) = Ok RT.
Proof. vm_compute. done. Qed.

(** *** C41: failing transformations *)
Theorem C41_tree : ∀ E dd td t e td' tk l1 df l2 r r1 x,
  new_model E dd td (DTree t) = (Ok e, td') →
  tm_lt t = l1 ++ df :: l2 →
  handle_input E l1 r = (Ok tt, r1) →
  handle_expr E (df_expr df) r1 = Err x →
  evaluate E tk e r = (Err x, r1, e).
Proof. exact failing_transformation_tree. Qed.
Print Assumptions C41_tree.

Theorem C41_mining : ∀ E dd td h segs e td' tk l1 df l2 r r0 r1 x,
  new_model E dd td (DMining h segs) = (Ok e, td') →
  mm_lt h = l1 ++ df :: l2 →
  impute E (4 :: tk) (default_values (mm_schema h)) r = Ok r0 →
  handle_input E l1 r0 = (Ok tt, r1) →
  handle_expr E (df_expr df) r1 = Err x →
  evaluate E tk e r = (Err x, r1, e).
Proof. exact failing_transformation_mining. Qed.
Print Assumptions C41_mining.

Definition x41_tree : tree_model :=
  TreeModel "classification" "" fzero ""
    (xlt ++ [DerivedField "d4" "continuous" "double" (XOther "Aggregate");
             DerivedField "d5" "continuous" "double" (XF "a")])
    [MiningField "y" "target" None "" ""] None
    (MNode "" "" "yes" fone [] [] PTrue).
Example C41_example :
  match new_model go_ext [] [] (DTree x41_tree) with
  | (Ok e, _) =>
      match evaluate go_ext [] e xrow with
      | (o, r', _) => o = Err ETransformation ∧ dr_get r' "d3" = Some (GF64 (fl "56.25"))
                      ∧ dr_get r' "d5" = None
      end
  | _ => False
  end.
Proof. vm_compute. done. Qed.

(** *** C42: integers *)
Theorem C42_int64_exact : ∀ k z, (- 2 ^ 63 ≤ z < 2 ^ 63)%Z → val_int64 (GInt k z) = z.
Proof. intros k z H. by apply wrap64_small. Qed.
Print Assumptions C42_int64_exact.

Theorem C42_int64_wraps : ∀ k z, (2 ^ 63 ≤ z < 2 ^ 64)%Z → val_int64 (GInt k z) = (z - 2 ^ 64)%Z.
Proof. intros k z H. by apply wrap64_big. Qed.
Print Assumptions C42_int64_wraps.

Theorem C42_int64_other : ∀ v, (∀ k z, v ≠ GInt k z) → val_int64 v = 0%Z.
Proof. intros [] H; try done. by edestruct H. Qed.
Print Assumptions C42_int64_other.

(** for order comparisons the width of the Go type is irrelevant *)
Theorem C42_width_irrelevant : ∀ E ft p f op lit raw0 k1 k2 z m,
  compile_predicate E ft (PSimple f op lit raw0) = Ok p → op ∈ order_ops →
  run_test E ft p (Some (<[f := GInt k1 z]> m)) = run_test E ft p (Some (<[f := GInt k2 z]> m)).
Proof. exact order_int_kind. Qed.
Print Assumptions C42_width_irrelevant.

Example C42_example :
  val_int64 (GInt KUint64 18446744073709551615) = (-1)%Z ∧
  val_int64 (GInt KInt8 (-128)) = (-128)%Z ∧ val_int64 (GStr "12") = 0%Z ∧
  (p <-! compile_predicate go_ext ex_ft42 (PSimple "hum" "lessThan" "56" GNil);
   run_test go_ext ex_ft42 p (Some {["hum" := GInt KUint16 55]})) = Ok RT.
Proof. vm_compute. done. Qed.

(** *** C43: numeric strings *)
Theorem C43_float64_of_string : ∀ E s,
  val_float64 E (GStr s) = match ext_parse_float E s with Some x => x | None => S754_zero false end.
Proof. reflexivity. Qed.
Print Assumptions C43_float64_of_string.

Theorem C43_string_compares_as_number : ∀ E ft p f op lit raw0 s x m dt,
  compile_predicate E ft (PSimple f op lit raw0) = Ok p → op ∈ order_ops →
  ft !! f = Some dt → dt = "double" ∨ dt = "float" →
  ext_parse_float E s = Some x →
  run_test E ft p (Some (<[f := GStr s]> m)) = run_test E ft p (Some (<[f := GF64 x]> m)).
Proof. exact order_float_string. Qed.
Print Assumptions C43_string_compares_as_number.

Example C43_example :
  (p <-! compile_predicate go_ext ex_ft42 (PSimple "temp" "greaterThan" "70" GNil);
   run_test go_ext ex_ft42 p (Some {["temp" := GStr "70.5"]})) = Ok RT ∧
  (p <-! compile_predicate go_ext ex_ft42 (PSimple "temp" "greaterThan" "70" GNil);
   run_test go_ext ex_ft42 p (Some {["temp" := GF64 (fl "70.5")]})) = Ok RT.
Proof. vm_compute. done. Qed.
