(** C149: a member whose results nobody uses only has to succeed. *)
From Verif Require Import Base Strconv Value Doc Expr Pred Tree Regression Model SpecPred SpecExpr SpecConstruct SpecModel
  ProofsWhole ProofsSim SpecUnread SpecSilent ProofsUnread ProofsSilent PropertiesEquiv GoExt Samples.

(** The answers with and without the member [d]. *)
Definition only_succeeds (E : Ext) (dd : list data_field) (d : doc_model) (G : list string)
    (with_it without_it : res datarow * datarow) : Prop :=
  (with_it.1 = without_it.1 ∧ ∀ k, k ∉ G → dr_get with_it.2 k = dr_get without_it.2 k) ∨
  own_failure E dd d with_it.1.

Lemma rel_only_succeeds E dd G d a b : rel E dd G d a b → only_succeeds E dd d G a b.
Proof. intros [[H1 H2]|H]; [left|by right]. split; [done|]. intros k. by apply (off_get G true). Qed.

(** In a modelChain, every member but the last one whose outputs and written
    fields no later member reads. *)
Theorem C149_chain : ∀ E dd td h l1 s l2 d e1 td1 calls1 calls2,
  new_model E dd td (DMining h (l1 ++ s :: l2)) = (Ok e1, td1) → mm_method h = "modelChain" →
  sg_models s = [d] → l2 ≠ [] → unread (written_names dd d ++ output_names dd d) l2 → ordered l2 →
  ∃ e2 td2, new_model E dd td (DMining h (l1 ++ l2)) = (Ok e2, td2) ∧
    ∀ tk m, only_succeeds E dd d (written_names dd d ++ output_names dd d)
      (evaluate E tk (after E calls1 e1) (Some m)).1 (evaluate E tk (after E calls2 e2) (Some m)).1.
Proof.
  intros E dd td h l1 s l2 d e1 td1 calls1 calls2 H1 Hm Hd Hne Hu Ho.
  destruct (left_out E dd (written_names dd d ++ output_names dd d) td h l1 s l2 d e1 td1 H1 Hd) as (e2 & td2 & H2 & H); [set_solver|done..| |].
  { left. split; [done|]. split; [done|]. set_solver. }
  exists e2, td2. split; [done|]. intros tk m.
  rewrite (history_independent _ _ _ _ _ _ _ _ _ H1), (history_independent _ _ _ _ _ _ _ _ _ H2). apply rel_only_succeeds, H.
Qed.
Print Assumptions C149_chain.

(** In a sum, every member that reports nothing the sum adds up. *)
Theorem C149_sum : ∀ E dd td h l1 s l2 d e1 td1 calls1 calls2,
  new_model E dd td (DMining h (l1 ++ s :: l2)) = (Ok e1, td1) → mm_method h = "sum" ∨ mm_method h = "" →
  sg_models s = [d] →
  (mm_function h = "classification" → ∀ k, k ∈ header_output_names h → k ∉ output_names dd d) →
  (mm_function h ≠ "classification" → "score" ∉ output_names dd d) →
  unread (written_names dd d) l2 → ordered l2 →
  ∃ e2 td2, new_model E dd td (DMining h (l1 ++ l2)) = (Ok e2, td2) ∧
    ∀ tk m, only_succeeds E dd d (written_names dd d)
      (evaluate E tk (after E calls1 e1) (Some m)).1 (evaluate E tk (after E calls2 e2) (Some m)).1.
Proof.
  intros E dd td h l1 s l2 d e1 td1 calls1 calls2 H1 Hm Hd Hc Hr Hu Ho.
  destruct (left_out E dd (written_names dd d) td h l1 s l2 d e1 td1 H1 Hd) as (e2 & td2 & H2 & H); [done..| |].
  { right; left. split; [done|]. unfold silent. destruct (String.eqb_spec (mm_function h) "classification"); auto. }
  exists e2, td2. split; [done|]. intros tk m.
  rewrite (history_independent _ _ _ _ _ _ _ _ _ H1), (history_independent _ _ _ _ _ _ _ _ _ H2). apply rel_only_succeeds, H.
Qed.
Print Assumptions C149_sum.

(** Under selectFirst, every member but the first: it is not even asked. *)
Theorem C149_first : ∀ E dd td h a l1 s l2 d e1 td1 calls1 calls2,
  new_model E dd td (DMining h (a :: l1 ++ s :: l2)) = (Ok e1, td1) → mm_method h = "selectFirst" →
  sg_models s = [d] → unread (written_names dd d) l2 → ordered l2 →
  ∃ e2 td2, new_model E dd td (DMining h (a :: l1 ++ l2)) = (Ok e2, td2) ∧
    ∀ tk r, (evaluate E tk (after E calls1 e1) r).1 = (evaluate E tk (after E calls2 e2) r).1.
Proof.
  intros E dd td h a l1 s l2 d e1 td1 calls1 calls2 H1 Hm Hd Hu Ho.
  destruct (left_out_first E dd (written_names dd d) td h a l1 s l2 d e1 td1 H1 Hd) as (e2 & td2 & H2 & H); [done..|].
  exists e2, td2. split; [done|]. intros tk r.
  by rewrite (history_independent _ _ _ _ _ _ _ _ _ H1), (history_independent _ _ _ _ _ _ _ _ _ H2).
Qed.
Print Assumptions C149_first.

(** A chance of approval nobody reads, a price, and a tree that tests the first score. *)
Definition asked (method : string) (ds : list doc_model) : doc_model := mining "regression" method [] [OF "price" "" ""] [] ds.
Definition by_score : doc_model :=
  DTree (TreeModel "regression" "none" fone "" [DF "x" "double" (XF "score")] [] None
    (MNode "1" "" "0" (fl "1") [] [MNode "2" "" "1" (fl "1") [] [] (SP "x" "greaterThan" "60")] PTrue)).

(** It has to succeed: a missing predictor of the unused member fails the chain and the sum. *)
Theorem C149_must_succeed : ∀ method, method ∈ ["modelChain"; "sum"] →
  ∃ E dd d1 d2 e1 e2 td1 td2 m x out,
    new_model E dd [] (asked method [d1; d2]) = (Ok e1, td1) ∧ new_model E dd [] (asked method [d2]) = (Ok e2, td2) ∧
    (evaluate E [] e1 (Some m)).1.1 = Err x ∧ (evaluate E [] e2 (Some m)).1.1 = Ok (Some out).
Proof.
  intros method Hm. set (d1 := DRegr logit_model). set (d2 := DTree price_tree).
  exists go_ext, price_dd, d1, d2, (built go_ext price_dd (asked method [d1; d2])), (built go_ext price_dd (asked method [d2])).
  exists (new_model go_ext price_dd [] (asked method [d1; d2])).2, (new_model go_ext price_dd [] (asked method [d2])).2.
  apply elem_of_cons in Hm as [->|Hm%elem_of_list_singleton]; [|subst method].
  - exists {["rooms" := GInt KInt 3]}, (EMissingTerm "area"), {["score" := GF64 (fl "100")]}.
    split; [apply built_ok; by vm_compute|]. split; [apply built_ok; by vm_compute|]. split; [by vm_compute|].
    apply eval_out; by vm_compute.
  - exists {["rooms" := GInt KInt 3]}, (EMissingTerm "area"), {["price" := GF64 (fl "100")]}.
    split; [apply built_ok; by vm_compute|]. split; [apply built_ok; by vm_compute|]. split; [by vm_compute|].
    apply eval_out; by vm_compute.
Qed.
Print Assumptions C149_must_succeed.

(** An average counts every member, and a later member that reads the score notices. *)
Theorem C149_noticed : ∃ E dd d1 d2 d3 r,
  "score" ∉ output_names dd d1 ∧ written_names dd d1 = [] ∧
  (∃ e1 e2 td1 td2, new_model E dd [] (asked "average" [d1; d2]) = (Ok e1, td1) ∧
    new_model E dd [] (asked "average" [d2]) = (Ok e2, td2) ∧ (evaluate E [] e1 r).1.1 ≠ (evaluate E [] e2 r).1.1) ∧
  (∃ e1 e2 td1 td2, new_model E dd [] (asked "modelChain" [d2; d3]) = (Ok e1, td1) ∧
    new_model E dd [] (asked "modelChain" [d3]) = (Ok e2, td2) ∧ (evaluate E [] e1 r).1.1 ≠ (evaluate E [] e2 r).1.1).
Proof.
  exists go_ext, price_dd, (DRegr logit_model), (DTree price_tree), by_score, (Some {["area" := GF64 (fl "70"); "score" := GF64 (fl "1")]}).
  split; [apply (bool_decide_unpack _); by vm_compute|]. split; [done|].
  split; apply told_apart; by vm_compute.
Qed.
Print Assumptions C149_noticed.

Example C149_example :
  unread (written_names price_dd (DRegr logit_model) ++ output_names price_dd (DRegr logit_model)) [seg (DTree price_tree)] ∧
  ordered [seg (DTree price_tree)] ∧
  dumped (run go_ext price_dd (asked "modelChain" [DRegr logit_model; DTree price_tree]) (Some {["area" := GF64 (fl "70")]})) =
    Some (Ok (dump (Some {["score" := GF64 (fl "200")]}))) ∧
  dumped (run go_ext price_dd (asked "modelChain" [DTree price_tree]) (Some {["area" := GF64 (fl "70")]})) =
    Some (Ok (dump (Some {["score" := GF64 (fl "200")]}))) ∧
  dumped (run go_ext price_dd (asked "sum" [DTree price_tree; DRegr logit_model]) (Some {["area" := GF64 (fl "70")]})) =
    Some (Ok (dump (Some {["price" := GF64 (fl "200")]}))).
Proof.
  split. { intros s d f ->%elem_of_list_singleton ->%elem_of_list_singleton Hf.
    assert (f = "area") as ->.
    { replace (all_reads (DTree price_tree)) with ["area"; "area"] in Hf by by vm_compute.
      by repeat (apply elem_of_cons in Hf as [->|Hf]; [done|]); apply elem_of_nil in Hf. }
    apply (bool_decide_unpack _). by vm_compute. }
  split. { intros s d t ->%elem_of_list_singleton ->%elem_of_list_singleton Ht%elem_of_list_singleton. by subst. }
  by vm_compute.
Qed.
