(** Property C152, continued: members of a sum that always predict 0. *)
From Verif Require Import Base Strconv Value Doc Expr Pred Tree Regression Model Lib ProofsDoc ProofsWhole ProofsSim GoExt Samples RealLib
  SpecTree SpecEquiv ProofsEquiv SpecSilent PropertiesTree PropertiesEquiv SpecConstant ProofsConstant ProofsLeftZero PropertiesConstant.

(** A member that always predicts 0 can be left out of a sum wherever it stands,
    after regression trees and before members that do not go through a Go map. *)
Theorem C152_zero : ∀ E dd td h l1 s l2 t b,
  (∀ s x, ext_parse_float E s = Some x → valid x) →
  mm_method h = "sum" ∨ mm_method h = "" → mm_function h ≠ "classification" → regression_trees l1 → ordered l2 →
  sg_models s = [DTree t] → constant_tree E (S754_zero b) t →
  (∀ e1 td' calls1 calls2, new_model E dd td (DMining h (l1 ++ s :: l2)) = (Ok e1, td') →
   ∃ e2, new_model E dd td (DMining h (l1 ++ l2)) = (Ok e2, td') ∧
     ∀ tk r, (evaluate E tk (after E calls1 e1) r).1 = (evaluate E tk (after E calls2 e2) r).1) ∧
  (∀ e2 td', new_model E dd td (DMining h (l1 ++ l2)) = (Ok e2, td') →
   ∃ e1, new_model E dd td (DMining h (l1 ++ s :: l2)) = (Ok e1, td')).
Proof.
  intros E dd td h l1 s l2 t b Hpf Hm Hf Hr Ho Hs Hc.
  pose proof (zero_pair E Hpf dd td h l1 s l2 t b Hm Hf Hr Ho Hs Hc) as Hp. split.
  - intros e1 td' calls1 calls2 H1. rewrite H1 in Hp.
    destruct (new_model E dd td (DMining h (l1 ++ l2))) as [[e2| |] td2] eqn:H2; try done.
    destruct Hp as [-> Hp]. exists e2. split; [done|]. intros tk r.
    by rewrite (history_independent _ _ _ _ _ _ _ _ _ H1), (history_independent _ _ _ _ _ _ _ _ _ H2).
  - intros e2 td' H2. rewrite H2 in Hp.
    destruct (new_model E dd td (DMining h (l1 ++ s :: l2))) as [[e1| |] td1] eqn:H1; try done.
    destruct Hp as [-> _]. eauto.
Qed.
Print Assumptions C152_zero.

Example C152_zero_example :
  let d := total "sum" [Target "price" (Some (fl "2")) None] in
  let d1 := d [DTree price_tree; DTree (number_tree "-0"); DTree price_tree] in
  (∀ s x, ext_parse_float go_ext s = Some x → valid x) ∧ regression_trees [seg (DTree price_tree)] ∧ ordered [seg (DTree price_tree)] ∧
  constant_tree go_ext (S754_zero true) (number_tree "-0") ∧
  (new_model go_ext price_dd [] d1).1 = Ok (built go_ext price_dd d1) ∧
  priced d1 = Some (Some (GF64 (fl "202"))) ∧ priced (d [DTree price_tree; DTree price_tree]) = Some (Some (GF64 (fl "202"))).
Proof.
  intros d d1. split; [exact go_parse_valid|]. split; [|split; [|split; [|split; [|split]]]]; [| | |by vm_compute..].
  - intros s x ->%elem_of_list_singleton ->%elem_of_list_singleton. by exists price_tree.
  - intros s x t ->%elem_of_list_singleton ->%elem_of_list_singleton ->%elem_of_list_singleton. done.
  - eapply ct_score; [reflexivity..| |by vm_compute]. intros f ->%elem_of_list_singleton. done.
Qed.
