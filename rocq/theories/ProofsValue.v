(** Proofs about Value (miningschema.go): integers and numeric strings. *)
From Verif Require Import Base Strconv Value Doc Expr Pred Lib SpecPred ProofsPred.
Local Open Scope Z_scope.

Lemma wrap64_range z : - 2 ^ 63 ≤ wrap64 z < 2 ^ 63.
Proof. unfold wrap64. pose proof (Z.mod_pos_bound (z + 2 ^ 63) (2 ^ 64)). lia. Qed.

Lemma wrap64_congr z : (wrap64 z) mod 2 ^ 64 = z mod 2 ^ 64.
Proof.
  unfold wrap64. rewrite Zminus_mod_idemp_l. f_equal. lia.
Qed.

Lemma wrap64_small z : - 2 ^ 63 ≤ z < 2 ^ 63 → wrap64 z = z.
Proof. intros H. unfold wrap64. rewrite Z.mod_small; lia. Qed.

Lemma wrap64_big z : 2 ^ 63 ≤ z < 2 ^ 64 → wrap64 z = z - 2 ^ 64.
Proof.
  intros H. unfold wrap64.
  replace (z + 2 ^ 63) with (z - 2 ^ 63 + 1 * 2 ^ 64) by lia.
  rewrite Z.mod_add by lia. rewrite Z.mod_small; lia.
Qed.

(** Two values with the same Float64 and Int64 are compared alike. *)
Lemma order_ops_same_numbers E ft p f op lit raw0 r1 r2 v1 v2 :
  compile_predicate E ft (PSimple f op lit raw0) = Ok p →
  op ∈ order_ops →
  dr_get r1 f = Some v1 → dr_get r2 f = Some v2 →
  (∀ dt, ft !! f = Some dt → dt = "double" ∨ dt = "float" → val_float64 E v1 = val_float64 E v2) →
  (ft !! f = Some "integer" → val_int64 v1 = val_int64 v2) →
  run_test E ft p r1 = run_test E ft p r2.
Proof.
  intros Hc Hop H1 H2 Hf Hi.
  destruct (compiled_simple_meaning _ _ _ _ _ _ _ r1 Hc) as (dt & Hdt & ->).
  destruct (compiled_simple_meaning _ _ _ _ _ _ _ r2 Hc) as (dt' & Hdt' & ->).
  simplify_eq. rewrite H1, H2. simpl.
  assert (op ≠ "isNotMissing" ∧ op ≠ "equal" ∧ op ≠ "notEqual") as (N2 & N3 & N4).
  { unfold order_ops in Hop. repeat split; intros ->; set_solver. }
  apply String.eqb_neq in N2, N3, N4. rewrite N2, N3, N4.
  do 3 f_equal. unfold compare_literal.
  destruct (String.eqb_spec dt "double") as [->|Hd].
  { simpl. by rewrite (Hf "double"); [|done|left]. }
  destruct (String.eqb_spec dt "float") as [->|Hd'].
  { simpl. by rewrite (Hf "float"); [|done|right]. }
  simpl. destruct (String.eqb_spec dt "integer") as [->|Hd'']; [|done].
  by rewrite Hi.
Qed.

(** For the order operators the Go type that carries an integer is irrelevant. *)
Lemma order_int_kind E ft p f op lit raw0 k1 k2 z m :
  compile_predicate E ft (PSimple f op lit raw0) = Ok p → op ∈ order_ops →
  run_test E ft p (Some (<[f := GInt k1 z]> m)) = run_test E ft p (Some (<[f := GInt k2 z]> m)).
Proof.
  intros Hc Hop.
  eapply (order_ops_same_numbers _ _ _ _ _ _ _ _ _ (GInt k1 z) (GInt k2 z)); eauto;
    simpl; by rewrite lookup_insert.
Qed.

(** A string carrying a number is compared as that number on float fields. *)
Lemma order_float_string E ft p f op lit raw0 s x m dt :
  compile_predicate E ft (PSimple f op lit raw0) = Ok p → op ∈ order_ops →
  ft !! f = Some dt → dt = "double" ∨ dt = "float" →
  ext_parse_float E s = Some x →
  run_test E ft p (Some (<[f := GStr s]> m)) = run_test E ft p (Some (<[f := GF64 x]> m)).
Proof.
  intros Hc Hop Hdt Hd Hs.
  eapply (order_ops_same_numbers _ _ _ _ _ _ _ _ _ (GStr s) (GF64 x)); eauto;
    simpl; rewrite ?lookup_insert, ?Hs; try done.
Qed.
