(** Properties C97 - C99: documents that are written differently and mean the same. *)
From Verif Require Import Base Strconv Value Doc Expr Pred Tree Regression Model Lib GoExt Samples
  SpecPred ProofsPred SpecConstruct ProofsConstruct ProofsWhole ProofsSim SpecEquiv ProofsEquiv ProofsPrune SpecTree.

(** *** C97: how compound predicates are written does not matter *)

Theorem C97_rearranged : ∀ E dd td d1 d2 e1 td' calls1 calls2,
  rearranged d1 d2 → new_model E dd td d1 = (Ok e1, td') →
  ∃ e2, new_model E dd td d2 = (Ok e2, td') ∧
    ∀ tk r, (evaluate E tk (after E calls1 e1) r).1 = (evaluate E tk (after E calls2 e2) r).1.
Proof.
  intros E dd td d1 d2 e1 td' calls1 calls2 Hr H1.
  destruct (rearranged_stands_in E dd d1 d2 Hr _ _ _ H1) as (e2 & H2 & He). exists e2. split; [done|]. intros tk r.
  by rewrite (history_independent _ _ _ _ _ _ _ _ _ H1), (history_independent _ _ _ _ _ _ _ _ _ H2).
Qed.
Print Assumptions C97_rearranged.

(** Neither is accepted where the other is refused. *)
Theorem C97_accepted : ∀ E dd td d1 d2, rearranged d1 d2 →
  is_ok (new_model E dd td d1).1 = is_ok (new_model E dd td d2).1.
Proof.
  intros E dd td d1 d2 Hr.
  pose proof (rearranged_stands_in E dd _ _ Hr td) as H1.
  pose proof (rearranged_stands_in E dd _ _ (rearranged_sym _ _ Hr) td) as H2.
  destruct (new_model E dd td d1) as [[e1| |] td1].
  { by destruct (H1 _ _ eq_refl) as (e2 & -> & _). }
  all: destruct (new_model E dd td d2) as [[e2| |] td2]; try done.
  all: by destruct (H2 _ _ eq_refl) as (e1 & He & _).
Qed.
Print Assumptions C97_accepted.

(** The operands of surrogate are ordered: the first that is known decides. *)
Theorem C97_surrogate_is_ordered : ∃ E ft p q r, 
  is_ok (compile_predicate E ft (PCompound "surrogate" [p; q])) = true ∧
  is_ok (compile_predicate E ft (PCompound "surrogate" [q; p])) = true ∧
  (x <-! compile_predicate E ft (PCompound "surrogate" [p; q]); run_test E ft x r) ≠
  (x <-! compile_predicate E ft (PCompound "surrogate" [q; p]); run_test E ft x r).
Proof.
  exists go_ext, (field_types price_dd []), (SP "area" "lessThan" "60"), (SP "rooms" "greaterThan" "2"),
    (Some {["area" := GF64 (fl "50"); "rooms" := GInt KInt64 1]}). by vm_compute.
Qed.
Print Assumptions C97_surrogate_is_ordered.

(** and of xor a repeated operand cancels out *)
Theorem C97_xor_counts : ∃ E ft p q r,
  is_ok (compile_predicate E ft (PCompound "xor" [p; p; q])) = true ∧
  (x <-! compile_predicate E ft (PCompound "xor" [p; p; q]); run_test E ft x r) ≠
  (x <-! compile_predicate E ft (PCompound "xor" [p; q]); run_test E ft x r).
Proof.
  exists go_ext, (field_types price_dd []), (SP "area" "lessThan" "60"), (SP "rooms" "greaterThan" "2"),
    (Some {["area" := GF64 (fl "50"); "rooms" := GInt KInt64 3]}). by vm_compute.
Qed.
Print Assumptions C97_xor_counts.

(** one leaf of an ensemble, written twice *)
Definition cond_tree (p : predicate) : tree_model :=
  TreeModel "regression" "none" fone "returnLastPrediction" [] [MF "area" "active"; MF "price" "target"] None
    (MNode "1" "" "100" (fl "2") [SD "100" "1"] [MNode "2" "" "50" (fl "1") [SD "50" "1"] [] p] PTrue).
Definition cond_nested : predicate :=
  PCompound "and" [PCompound "and" [SP "area" "lessThan" "60"; SP "rooms" "greaterThan" "2"];
                   PCompound "or" [SP "area" "greaterThan" "10"]].
Definition cond_flat : predicate :=
  PCompound "and" [SP "area" "greaterThan" "10"; SP "rooms" "greaterThan" "2"; SP "area" "lessThan" "60"].
Definition cond_doc (p : predicate) : doc_model :=
  mining "regression" "sum" [] [OF "price" "" ""] [] [DTree price_tree; DTree (cond_tree p)].

Example C97_example :
  rearranged (cond_doc cond_nested) (cond_doc cond_flat) ∧
  is_ok (new_model go_ext price_dd [] (cond_doc cond_nested)).1 = true ∧
  dumped (run go_ext price_dd (cond_doc cond_flat) (Some {["area" := GF64 (fl "50"); "rooms" := GInt KInt64 3]})) =
    Some (Ok (dump (Some {["price" := GF64 (fl "100.5")]}))).
Proof.
  split; [|split; by vm_compute].
  assert (same_pred cond_nested cond_flat) as Hp.
  { eapply sp_trans.
    { apply (sp_nest "and" [] [SP "area" "lessThan" "60"; SP "rooms" "greaterThan" "2"]
        [PCompound "or" [SP "area" "greaterThan" "10"]]). set_solver. }
    eapply sp_trans.
    { apply (sp_inside "and" [SP "area" "lessThan" "60"; SP "rooms" "greaterThan" "2"] []).
      apply (sp_single "or" (SP "area" "greaterThan" "10")); [set_solver|by intros []]. }
    apply sp_order; [set_solver|]. simpl.
    eapply perm_trans; [apply perm_swap|]. eapply perm_trans; [apply perm_skip, perm_swap|].
    eapply perm_trans; [apply perm_swap|]. apply perm_skip. apply perm_skip. done. }
  unfold rearranged, cond_doc, mining. constructor. simpl. constructor; [|constructor; [|constructor]].
  - constructor; [|constructor]. apply rewritten_refl. intros t.
    replace t with (with_node t (tm_node t)) at 2 by by destruct t. constructor.
    apply (same_nodes_refl _ (λ _, True)); [intros; apply sp_refl|done].
  - constructor; [|constructor]. constructor.
    apply (stb _ (cond_tree cond_nested) (tm_node (cond_tree cond_flat))). simpl.
    constructor; [|apply sp_refl]. constructor; [|constructor]. by constructor.
Qed.

(** *** C98: the data dictionary is looked up by name *)

Theorem C98_dictionary : ∀ E dd1 dd2 td d e1 td' calls1 calls2,
  (∀ f, f ∈ looked_up d → entries f dd1 = entries f dd2) → new_model E dd1 td d = (Ok e1, td') →
  ∃ e2, new_model E dd2 td d = (Ok e2, td') ∧
    ∀ tk r, (evaluate E tk (after E calls1 e1) r).1 = (evaluate E tk (after E calls2 e2) r).1.
Proof.
  intros E dd1 dd2 td d e1 td' calls1 calls2 Hd H1.
  destruct (dictionary_stands_in E dd1 dd2 d Hd _ _ _ H1) as (e2 & H2 & He). exists e2. split; [done|]. intros tk r.
  by rewrite (history_independent _ _ _ _ _ _ _ _ _ H1), (history_independent _ _ _ _ _ _ _ _ _ H2).
Qed.
Print Assumptions C98_dictionary.

(** The order of the data fields is irrelevant when their names are distinct. *)
Theorem C98_order : ∀ E dd1 dd2 td d e1 td' calls1 calls2,
  NoDup (dd_name <$> dd1) → Permutation dd1 dd2 → new_model E dd1 td d = (Ok e1, td') →
  ∃ e2, new_model E dd2 td d = (Ok e2, td') ∧
    ∀ tk r, (evaluate E tk (after E calls1 e1) r).1 = (evaluate E tk (after E calls2 e2) r).1.
Proof.
  intros E dd1 dd2 td d e1 td' calls1 calls2 Hn Hp. apply C98_dictionary. intros f _.
  by apply entries_perm.
Qed.
Print Assumptions C98_order.

(** A data field that no predicate tests and no tree predicts can be added or dropped. *)
Theorem C98_unused : ∀ E dd1 dd2 x td d e1 td' calls1 calls2,
  dd_name x ∉ looked_up d → new_model E (dd1 ++ x :: dd2) td d = (Ok e1, td') →
  ∃ e2, new_model E (dd1 ++ dd2) td d = (Ok e2, td') ∧
    ∀ tk r, (evaluate E tk (after E calls1 e1) r).1 = (evaluate E tk (after E calls2 e2) r).1.
Proof.
  intros E dd1 dd2 x td d e1 td' calls1 calls2 Hx. apply C98_dictionary. intros f Hf.
  unfold entries. rewrite !filter_app, filter_cons_False; [done|]. congruence.
Qed.
Print Assumptions C98_unused.

Example C98_example :
  looked_up (golf "none") = ["outlook"; "humidity"; "humidity"; "outlook"; "wind"; "play"] ∧
  NoDup (dd_name <$> golf_dd) ∧ "kmh" ∉ looked_up (golf "none") ∧
  dumped (run go_ext (rev golf_dd) (golf "none") (Some {["outlook" := GStr "overcast"; "kmh" := GF64 (fl "36")]})) =
  dumped (run go_ext golf_dd (golf "none") (Some {["outlook" := GStr "overcast"; "kmh" := GF64 (fl "36")]})).
Proof.
  split; [done|]. split; [cbn; repeat constructor; set_solver|]. split; [cbn; set_solver|]. by vm_compute.
Qed.

(** *** C99: a branch the row does not enter has no influence *)

Theorem C99_false_branch_partial : ∀ E dd td t n e1 td' r (D : string → mnode → Prop) calls1 calls2,
  new_model E dd td (DTree t) = (Ok e1, td') →
  (∀ dc m, D dc m →
     (∃ q, compile_predicate E (field_types dd td') (mn_pred m) = Ok q ∧
           run_test E (field_types dd td') q (handle_input E (tm_lt t) r).2 = Ok RF) ∧
     (tm_strategy t = "defaultChild" → mn_id m ≠ dc)) →
  ignores_false (tm_strategy t) → tm_notrue t ≠ "returnNullPrediction" →
  pruned D (tm_node t) n →
  ∃ e2, new_model E dd td (DTree (with_node t n)) = (Ok e2, td') ∧
    ∀ tk, (evaluate E tk (after E calls1 e1) r).1 = (evaluate E tk (after E calls2 e2) r).1.
Proof.
  intros E dd td t n e1 td' r D calls1 calls2 H1 HD Hs Hn Hp.
  destruct (tree_pruned E dd td t n e1 td' r D H1 HD Hs Hn Hp) as (e2 & H2 & He). exists e2. split; [done|]. intros tk.
  by rewrite (history_independent _ _ _ _ _ _ _ _ _ H1), (history_independent _ _ _ _ _ _ _ _ _ H2).
Qed.
Print Assumptions C99_false_branch_partial.

(** Branches under False can be dropped everywhere in a document. *)
Theorem C99_never_entered_partial : ∀ E dd td d1 d2 e1 td' calls1 calls2,
  cleared d1 d2 → new_model E dd td d1 = (Ok e1, td') →
  ∃ e2, new_model E dd td d2 = (Ok e2, td') ∧
    ∀ tk r, (evaluate E tk (after E calls1 e1) r).1 = (evaluate E tk (after E calls2 e2) r).1.
Proof.
  intros E dd td d1 d2 e1 td' calls1 calls2 Hc H1.
  destruct (cleared_stands_in E dd d1 d2 Hc _ _ _ H1) as (e2 & H2 & He). exists e2. split; [done|]. intros tk r.
  by rewrite (history_independent _ _ _ _ _ _ _ _ _ H1), (history_independent _ _ _ _ _ _ _ _ _ H2).
Qed.
Print Assumptions C99_never_entered_partial.

(** [ns] below one node *)
Definition weather (st notrue dc : string) (ns : list mnode) : doc_model :=
  DTree (TreeModel "classification" st fone notrue [] [MF "play" "target"] None
           (MNode "1" dc "yes" (fl "10") [SD "yes" "6"; SD "no" "4"] ns PTrue)).
Definition dry : mnode := MNode "2" "" "yes" (fl "6") [SD "yes" "6"; SD "no" "0"] [] (SP "humidity" "lessThan" "50").
Definition rainy : mnode := MNode "3" "" "no" (fl "4") [SD "yes" "0"; SD "no" "4"] [] (SP "outlook" "equal" "rain").
Definition shut : mnode := MNode "4" "" "no" (fl "9") [SD "yes" "0"; SD "no" "9"] [] PFalse.

Lemma told_apart E dd d1 d2 r :
  is_ok (new_model E dd [] d1).1 = true → is_ok (new_model E dd [] d2).1 = true →
  dumped (run E dd d1 r) ≠ dumped (run E dd d2 r) →
  ∃ e1 e2 td1 td2, new_model E dd [] d1 = (Ok e1, td1) ∧ new_model E dd [] d2 = (Ok e2, td2) ∧
    (evaluate E [] e1 r).1.1 ≠ (evaluate E [] e2 r).1.1.
Proof.
  unfold run. destruct (new_model E dd [] d1) as [[e1| |] td1], (new_model E dd [] d2) as [[e2| |] td2]; try done.
  intros _ _ Hd. exists e1, e2, td1, td2. split; [done|]. split; [done|]. intros H. apply Hd.
  destruct (evaluate E [] e1 r) as [[o1 r1] m1], (evaluate E [] e2 r) as [[o2 r2] m2]. simpl in *. by subst.
Qed.

(** aggregateNodes counts the records of branches whose predicate is false. *)
Theorem C99_aggregate_refuted : ∃ E dd ns m r,
  mn_pred m = PFalse ∧
  ∃ e1 e2 td1 td2,
    new_model E dd [] (weather "aggregateNodes" "" "" (ns ++ [m])) = (Ok e1, td1) ∧
    new_model E dd [] (weather "aggregateNodes" "" "" ns) = (Ok e2, td2) ∧
    (evaluate E [] e1 r).1.1 ≠ (evaluate E [] e2 r).1.1.
Proof.
  exists go_ext, golf_dd, [dry; rainy], shut, (Some {["outlook" := GStr "sunny"]}). split; [done|].
  apply told_apart; by vm_compute.
Qed.
Print Assumptions C99_aggregate_refuted.

(** With returnNullPrediction a childless node still predicts, one with a branch does not. *)
Theorem C99_null_refuted : ∃ E dd m r,
  mn_pred m = PFalse ∧
  ∃ e1 e2 td1 td2,
    new_model E dd [] (weather "none" "returnNullPrediction" "" [m]) = (Ok e1, td1) ∧
    new_model E dd [] (weather "none" "returnNullPrediction" "" []) = (Ok e2, td2) ∧
    (evaluate E [] e1 r).1.1 ≠ (evaluate E [] e2 r).1.1.
Proof. exists go_ext, golf_dd, shut, (Some ∅). split; [done|]. apply told_apart; by vm_compute. Qed.
Print Assumptions C99_null_refuted.

(** A false branch that is the default child is entered, and predicts nothing. *)
Theorem C99_default_refuted : ∃ E dd ns m r,
  mn_pred m = PFalse ∧
  ∃ e1 e2 td1 td2,
    new_model E dd [] (weather "defaultChild" "" "4" (ns ++ [m])) = (Ok e1, td1) ∧
    new_model E dd [] (weather "defaultChild" "" "4" ns) = (Ok e2, td2) ∧
    (evaluate E [] e1 r).1.1 ≠ (evaluate E [] e2 r).1.1.
Proof.
  exists go_ext, golf_dd, [dry; rainy], shut, (Some {["outlook" := GStr "sunny"]}). split; [done|].
  apply told_apart; by vm_compute.
Qed.
Print Assumptions C99_default_refuted.

Example C99_example :
  cleared (weather "lastPrediction" "" "" [shut; dry; rainy]) (weather "lastPrediction" "" "" [dry; rainy]) ∧
  dumped (run go_ext golf_dd (weather "lastPrediction" "" "" [shut; dry; rainy])
            (Some {["humidity" := GF64 (fl "40"); "outlook" := GStr "sunny"]})) =
    Some (Ok (dump (Some {["play" := GStr "yes"; "probability(yes)" := GF64 fone; "probability(no)" := GF64 fzero]}))).
Proof.
  split; [|by vm_compute]. constructor. right.
  apply (stb _ (TreeModel "classification" "lastPrediction" fone "" [] [MF "play" "target"] None
           (MNode "1" "" "yes" (fl "10") [SD "yes" "6"; SD "no" "4"] [shut; dry; rainy] PTrue))
           (MNode "1" "" "yes" (fl "10") [SD "yes" "6"; SD "no" "4"] [dry; rainy] PTrue)).
  split; [done|]. split; [done|]. constructor. apply th_drop; [done|].
  apply th_keep; [constructor; constructor|]. apply th_keep; [constructor; constructor|]. constructor.
Qed.
