(** C142: which keys, Go types and classes a returned row may hold. *)
From Verif Require Import Base Strconv Value Doc Expr Pred Tree Regression Model SpecTree SpecModel
  ProofsWhole ProofsSim SpecTypes ProofsTypes GoExt Samples.

Theorem C142_reported : ∀ E dd td d e td' calls tk r out,
  new_model E dd td d = (Ok e, td') →
  (evaluate E tk (after E calls e) r).1.1 = Ok (Some out) →
  ∀ k v, out !! k = Some v → may_report E dd d k v.
Proof.
  intros E dd td d e td' calls tk r out Hn. rewrite (history_independent E dd td d e td' calls tk r Hn).
  destruct (evaluate E tk e r) as [[o1 r1] e1] eqn:He1. simpl. intros -> k v. by eapply reports.
Qed.
Print Assumptions C142_reported.

(** Every value is a float64 or a string; a string is the predicted class of the
    classification tree that answers for the document. *)
Theorem C142_types : ∀ E dd td d e td' calls tk r out,
  new_model E dd td d = (Ok e, td') →
  (evaluate E tk (after E calls e) r).1.1 = Ok (Some out) →
  ∀ k v, out !! k = Some v →
    (∃ x, v = GF64 x) ∨
    ∃ t c, v = GStr c ∧ speaker d (DTree t) ∧ tm_function t = "classification" ∧
      k = target_field (tm_schema t) ∧ (c = "" ∨ c ∈ tree_classes dd t).
Proof.
  intros E dd td d e td' calls tk r out Hn Ho k v Hk.
  pose proof (C142_reported E dd td d e td' calls tk r out Hn Ho k v Hk) as H. clear Hn Ho Hk.
  induction H as [t c Hf Hc| | | | |h segs s d k v Hm Hl Hd _ [?|(t & c & ? & ? & ?)]
                 |h segs s d k v Hm Hl Hd _ [?|(t & c & ? & ? & ?)]]; eauto.
  - right. exists t, c. split; [done|]. split; [constructor|done].
  - right. exists t, c. split; [done|]. split; [by eapply sp_last|done].
  - right. exists t, c. split; [done|]. split; [by eapply sp_first|done].
Qed.
Print Assumptions C142_types.

Lemma combined_method m : m ∈ [""; "average"; "sum"] → m ≠ "modelChain" ∧ m ≠ "selectFirst".
Proof. intros H. split; intros ->; by apply elem_of_list_In in H as [?|[?|[?|[]]]]. Qed.

(** Only one model answers for a document. *)
Lemma speaker_fun d a b : speaker d a → speaker d b → a = b.
Proof.
  intros H. revert b. induction H as [| |h segs Hm|h segs s d d' Hm Hl Hd _ IH|h segs s d d' Hm Hl Hd _ IH];
    intros b Hb; inversion Hb as [| |? ? Hm2|? ? ? ? ? Hm2 Hl2 Hd2 Hs2|? ? ? ? ? Hm2 Hl2 Hd2 Hs2]; subst; try done.
  1-2: by apply combined_method in Hm as [].
  1,4: by apply combined_method in Hm2 as [].
  2,3: by rewrite Hm in Hm2.
  all: rewrite Hl in Hl2; injection Hl2 as <-; rewrite Hd in Hd2; injection Hd2 as <-; by apply IH.
Qed.

(** Where anything but a classification tree answers, every value is a float64. *)
Theorem C142_numbers : ∀ E dd td d d' e td' calls tk r out,
  new_model E dd td d = (Ok e, td') →
  speaker d d' → (∀ t, d' = DTree t → tm_function t ≠ "classification") →
  (evaluate E tk (after E calls e) r).1.1 = Ok (Some out) →
  ∀ k v, out !! k = Some v → ∃ x, v = GF64 x.
Proof.
  intros E dd td d d' e td' calls tk r out Hn Hs Hf Ho k v Hk.
  destruct (C142_types E dd td d e td' calls tk r out Hn Ho k v Hk) as [?|(t & c & _ & Ht & Hc & _)]; [done|].
  by destruct (Hf t (speaker_fun _ _ _ Hs Ht)).
Qed.
Print Assumptions C142_numbers.

(** A chain whose last member selects the golf tree: the tree answers, with its
    class as a string and numbers beside it.  A sum over the same tree answers
    with numbers only. *)
Definition golf_last : doc_model :=
  mining "classification" "modelChain" [] [] []
    [mining "regression" "sum" [] [OF "one" "" ""] [] [golf "none"];
     mining "classification" "selectFirst" [] [] [] [golf "none"; DRegr lin_model]].
Definition golf_sum : doc_model :=
  mining "classification" "sum" [] [OF "probability(yes)" "" ""; OF "probability(no)" "" ""] [] [golf "none"; golf "none"].
Definition sunny : datarow :=
  Some {["outlook" := GStr "sunny"; "humidity" := GF64 (fl "80"); "kmh" := GF64 (fl "10")]}.

Example C142_example :
  is_ok (new_model go_ext golf_dd [] golf_last).1 = true ∧
  is_ok (new_model go_ext golf_dd [] golf_sum).1 = true ∧
  speaker golf_last (golf "none") ∧ speaker golf_sum golf_sum ∧
  dumped (run go_ext golf_dd golf_last sunny) = Some (Ok (dump (Some
    {["play" := GStr "no"; "probability(yes)" := GF64 (fl "0"); "probability(no)" := GF64 (fl "1")]}))) ∧
  dumped (run go_ext golf_dd golf_sum sunny) = Some (Ok (dump (Some
    {["probability(yes)" := GF64 (fl "0"); "probability(no)" := GF64 (fl "2")]}))).
Proof.
  split; [by vm_compute|]. split; [by vm_compute|].
  split. { eapply sp_last; [done..|]. eapply sp_first; [done..|]. constructor. }
  split. { apply sp_combined. simpl. set_solver. }
  split; by vm_compute.
Qed.
