(** Property C115: how derived fields are written does not matter. *)
From Verif Require Import Base Strconv Value Doc Expr Pred Tree Regression Model Lib GoExt Samples
  SpecExpr SpecConstruct ProofsWhole ProofsSim SpecDerive ProofsDerive.

(** *** C115: derived fields written differently *)

Theorem C115_redefined : ∀ E dd td d1 d2 e1 td1 calls1 calls2,
  redefined same_derivation d1 d2 → new_model E dd td d1 = (Ok e1, td1) →
  ∃ e2 td2, new_model E dd td d2 = (Ok e2, td2) ∧
    ∀ tk r, (evaluate E tk (after E calls1 e1) r).1 = (evaluate E tk (after E calls2 e2) r).1.
Proof. intros. eapply redefined_same; [apply same_derivation_sound|done..]. Qed.
Print Assumptions C115_redefined.

(** What is refused is refused with the same error. *)
Theorem C115_refused : ∀ E dd td d1 d2 x,
  redefined same_derivation d1 d2 → ((new_model E dd td d1).1 = Err x ↔ (new_model E dd td d2).1 = Err x).
Proof.
  intros E dd td d1 d2 x Hd.
  destruct (redefined_no_different E dd _ same_derivation_sound d1 d2 Hd td td (λ _, eq_refl)) as [_ H].
  destruct (new_model E dd td d1) as [[e1|x1|p1] ?], (new_model E dd td d2) as [[e2|x2|p2] ?]; simpl in *; try done. by subst.
Qed.
Print Assumptions C115_refused.

(** an ensemble over two derived fields, written twice *)
Definition twice_tree : tree_model :=
  TreeModel "regression" "none" fone "returnLastPrediction" [] [MF "area" "active"; MF "price" "target"] None
    (MNode "1" "" "100" (fl "2") [SD "100" "1"]
       [MNode "2" "" "50" (fl "1") [SD "50.5" "1"] [] (PCompound "and" [SP "twice" "lessThan" "110"; SP "total" "greaterThan" "52"])]
       PTrue).
Definition twice_doc (lt : list derived_field) : doc_model :=
  mining "regression" "sum" lt [OF "price" "" ""] [] [DTree twice_tree].
Definition twice_lt1 : list derived_field :=
  [DF "total" "double" (XA "+" [XF "area"; XF "rooms"]); DF "twice" "double" (XA "+" [XF "total"; XF "total"])].
Definition twice_lt2 : list derived_field :=
  [DF "twice" "double" (XA "+" [XA "+" [XF "rooms"; XF "area"]; XA "+" [XF "rooms"; XF "area"]]);
   DF "total" "double" (XA "+" [XF "rooms"; XF "area"])].

Example C115_example :
  redefined same_derivation (twice_doc twice_lt1) (twice_doc twice_lt2) ∧
  is_ok (new_model go_ext price_dd [] (twice_doc twice_lt1)).1 = true ∧
  dumped (run go_ext price_dd (twice_doc twice_lt2) (Some {["area" := GF64 (fl "50"); "rooms" := GInt KInt64 3]})) =
    Some (Ok (dump (Some {["price" := GF64 (fl "50.5")]}))).
Proof.
  split; [|split; by vm_compute].
  assert (same_derivation twice_lt1 twice_lt2) as H.
  { eapply sd_trans.
    { apply (sd_expr [] (DF "total" "double" (XA "+" [XF "area"; XF "rooms"]))
        (XA "+" [XF "rooms"; XF "area"]) [DF "twice" "double" (XA "+" [XF "total"; XF "total"])]).
      by apply se_swap; [set_solver|]. }
    eapply sd_trans.
    { apply (sd_inline [] (DF "total" "double" (XA "+" [XF "rooms"; XF "area"])) []
        (DF "twice" "double" (XA "+" [XF "total"; XF "total"])) []); simpl; try set_solver; right; set_solver. }
    apply (sd_order [] (DF "total" "double" (XA "+" [XF "rooms"; XF "area"]))
      (DF "twice" "double" (XA "+" [XA "+" [XF "rooms"; XF "area"]; XA "+" [XF "rooms"; XF "area"]])) []); simpl; try done; set_solver. }
  unfold twice_doc, mining.
  apply (rd_mining same_derivation (MiningHeader "regression" "sum" twice_lt1 [] [OF "price" "" ""] [] None) twice_lt2); [done|].
  repeat constructor.
Qed.

(** Derived fields that can fail are not interchangeable, even when neither reads the
    other: the first failure is the one reported. *)
Theorem C115_failing_refuted : ∃ E dd a b d r e1 e2 td1 td2,
  df_name a ≠ df_name b ∧ df_name a ∉ expr_fields (df_expr b) ∧ df_name b ∉ expr_fields (df_expr a) ∧
  new_model E dd [] (mining "regression" "sum" [a; b] [] [] [d]) = (Ok e1, td1) ∧
  new_model E dd [] (mining "regression" "sum" [b; a] [] [] [d]) = (Ok e2, td2) ∧
  (evaluate E [] e1 r).1.1 ≠ (evaluate E [] e2 r).1.1.
Proof.
  exists go_ext, price_dd, (DF "x" "double" (XA "pow" [])), (DF "y" "double" (XA "log" [])), (DTree price_tree),
    (Some {["area" := GF64 (fl "50"); "rooms" := GInt KInt64 3]}).
  eexists (built _ _ _), (built _ _ _), _, _. split; [done|]. split; [set_solver|]. split; [set_solver|].
  split; [by rewrite built_ok; [|by vm_compute]|]. split; [by rewrite built_ok; [|by vm_compute]|].
  rewrite (run_err _ _ _ _ (EApplyFunction "pow")); [|by vm_compute..].
  rewrite (run_err _ _ _ _ (EApplyFunction "log")); [|by vm_compute..]. done.
Qed.
Print Assumptions C115_failing_refuted.

(** Writing out a derived field by its definition is not harmless when it is continuous
    and the definition can be missing: stored, it is a number. *)
Theorem C115_inline_refuted : ∃ E dd a b d r e1 e2 td1 td2,
  df_name a ∉ expr_fields (df_expr a) ∧
  new_model E dd [] (mining "regression" "sum" [a; b] [] [] [d]) = (Ok e1, td1) ∧
  new_model E dd [] (mining "regression" "sum" [a; with_expr b (inline (df_name a) (df_expr a) (df_expr b))] [] [] [d]) =
    (Ok e2, td2) ∧
  (evaluate E [] e1 r).1.2 ≠ (evaluate E [] e2 r).1.2.
Proof.
  exists go_ext, price_dd, (DF "x" "double" (XF "yard")),
    (DerivedField "y" "categorical" "boolean" (XA "isMissing" [XF "x"])), (DTree price_tree),
    (Some {["area" := GF64 (fl "50"); "rooms" := GInt KInt64 3]}).
  eexists (built _ _ _), (built _ _ _), _, _. split; [set_solver|].
  split; [by rewrite built_ok; [|by vm_compute]|]. split; [by rewrite built_ok; [|by vm_compute]|].
  rewrite (run_row _ _ _ _ (Some {["area" := GF64 (fl "50"); "rooms" := GInt KInt64 3; "x" := GF64 fzero; "y" := GBool false]})); [|by vm_compute..].
  rewrite (run_row _ _ _ _ (Some {["area" := GF64 (fl "50"); "rooms" := GInt KInt64 3; "x" := GF64 fzero; "y" := GBool true]})); [|by vm_compute..].
  by vm_compute.
Qed.
Print Assumptions C115_inline_refuted.

(** [sum] of two is not [+]: it starts from zero, and a negative zero is lost. *)
Theorem C115_sum_refuted : ∃ E dd n x y d r e1 e2 td1 td2,
  new_model E dd [] (mining "regression" "sum" [DF n "double" (XA "sum" [x; y])] [] [] [d]) = (Ok e1, td1) ∧
  new_model E dd [] (mining "regression" "sum" [DF n "double" (XA "+" [x; y])] [] [] [d]) = (Ok e2, td2) ∧
  (evaluate E [] e1 r).1.2 ≠ (evaluate E [] e2 r).1.2.
Proof.
  exists go_ext, price_dd, "x", (XF "area"), (XF "rooms"), (DTree price_tree),
    (Some {["area" := GF64 (S754_zero true); "rooms" := GF64 (S754_zero true)]}).
  eexists (built _ _ _), (built _ _ _), _, _.
  split; [by rewrite built_ok; [|by vm_compute]|]. split; [by rewrite built_ok; [|by vm_compute]|].
  rewrite (run_row _ _ _ _ (Some {["area" := GF64 (S754_zero true); "rooms" := GF64 (S754_zero true); "x" := GF64 (S754_zero false)]})); [|by vm_compute..].
  rewrite (run_row _ _ _ _ (Some {["area" := GF64 (S754_zero true); "rooms" := GF64 (S754_zero true); "x" := GF64 (S754_zero true)]})); [|by vm_compute..].
  by vm_compute.
Qed.
Print Assumptions C115_sum_refuted.
