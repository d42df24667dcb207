(** Property C128: how ensembles are nested. *)
From Verif Require Import Base Strconv Value Doc Expr Pred Tree Regression Model Lib ProofsWhole ProofsSim GoExt Samples
  SpecConstruct PropertiesModel SpecNest ProofsNest.

(** *** C128.  Documents that group the same models differently answer alike: every row
    gets the same answer, and is left the same, whatever was evaluated before and in
    whichever order maps are iterated. *)
Theorem C128_answers : ∀ E dd td d d' e td',
  regrouped d d' →
  (∀ t, t ∈ doc_trees d → tm_strategy t ≠ "weightedConfidence" ∧ tm_strategy t ≠ "aggregateNodes") →
  new_model E dd td d = (Ok e, td') →
  ∃ e', new_model E dd td d' = (Ok e', td') ∧
    ∀ calls calls' tk tk' r, (evaluate E tk (after E calls e) r).1 = (evaluate E tk' (after E calls' e') r).1.
Proof.
  intros E dd td d d' e td' Hr Ho Hn. pose proof (regrouped_alike E dd d d' Hr) as H.
  feed specialize H. { unfold order_free_doc. by apply Forall_forall. }
  specialize (H td). rewrite Hn in H. destruct (new_model E dd td d') as [[e'|x|p] t'] eqn:Hn'; [|done..].
  destruct H as [<- H]. exists e'. split; [done|]. intros calls calls' tk tk' r.
  rewrite (history_independent E dd td d e td' calls tk r Hn), (history_independent E dd td d' e' td' calls' tk' r Hn'). apply H.
Qed.
Print Assumptions C128_answers.

(** If one of them is rejected then so is the other, with the same error. *)
Theorem C128_rejected : ∀ E dd td d d' x td',
  regrouped d d' →
  (∀ t, t ∈ doc_trees d → tm_strategy t ≠ "weightedConfidence" ∧ tm_strategy t ≠ "aggregateNodes") →
  new_model E dd td d = (Err x, td') → new_model E dd td d' = (Err x, td').
Proof.
  intros E dd td d d' e td' Hr Ho Hn. pose proof (regrouped_alike E dd d d' Hr) as H.
  feed specialize H. { unfold order_free_doc. by apply Forall_forall. }
  specialize (H td). rewrite Hn in H. destruct (new_model E dd td d') as [[e'|x|p] t'] eqn:Hn'; [done| |done].
  by destruct H as [<- <-].
Qed.
Print Assumptions C128_rejected.

(** Three models in one chain, or two of them in a chain of their own, behind or in
    front, or in a chain within a selection. *)
Definition chain_of (l : list doc_model) : doc_model := DMining chain_header (seg <$> l).
Definition first_of (l : list doc_model) : doc_model :=
  DMining (MiningHeader "regression" "selectFirst" [] [] [] [] None) (seg <$> l).
Definition one_chain : doc_model := chain_of [DTree price_tree; DTree after_tree; DTree after_tree].
Definition nested_chains : list doc_model :=
  [chain_of [DTree price_tree; chain_of [DTree after_tree; DTree after_tree]];
   chain_of [chain_of [DTree price_tree; DTree after_tree]; DTree after_tree];
   chain_of [DTree price_tree; chain_of []; DTree after_tree; first_of [DTree after_tree]];
   first_of [one_chain]].
Lemma chain_header_groups : only_groups chain_header.
Proof. split; [|split; [done|constructor]]. split; [|intros o Ho%elem_of_nil; done]. simpl. set_solver. Qed.
Lemma first_header_groups : only_groups (MiningHeader "regression" "selectFirst" [] [] [] [] None).
Proof. split; [|split; [done|constructor]]. split; [|intros o Ho%elem_of_nil; done]. simpl. set_solver. Qed.
Lemma nested_regrouped : Forall (λ d, regrouped d one_chain) nested_chains.
Proof.
  pose proof chain_header_groups as Hc. pose proof first_header_groups as Hf.
  unfold nested_chains. rewrite !Forall_cons, Forall_nil. split; [|split; [|split; [|split; [|done]]]].
  - apply (rg_chain chain_header [seg (DTree price_tree)] _ chain_header [] [seg (DTree after_tree); seg (DTree after_tree)]); try done. by left.
  - apply (rg_chain chain_header [] _ chain_header [seg (DTree after_tree)] [seg (DTree price_tree); seg (DTree after_tree)]); try done. by left.
  - eapply rg_trans.
    { apply (rg_chain chain_header [seg (DTree price_tree)] _ chain_header _ []); try done. by right. }
    apply (rg_inside chain_header [seg (DTree price_tree); seg (DTree after_tree)] "" [PTrue] _ (DTree after_tree) []).
    eapply rg_single; [|done|done]. apply elem_of_list_here.
  - eapply rg_single; [|done|done]. apply elem_of_list_here.
Qed.
Example C128_example :
  Forall (λ d, regrouped d one_chain) nested_chains ∧
  (∀ t, t ∈ doc_trees one_chain → tm_strategy t ≠ "weightedConfidence" ∧ tm_strategy t ≠ "aggregateNodes") ∧
  map (λ d, dumped (run go_ext score_dd d small)) (one_chain :: nested_chains) =
  replicate 5 (Some (Ok (dump (Some {["score" := GF64 (fl "3")]})))).
Proof.
  split; [apply nested_regrouped|]. split; [|by vm_compute]. intros t Ht. vm_compute in Ht. set_solver.
Qed.
