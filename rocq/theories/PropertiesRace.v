(** Goroutines that share an evaluator: C33. *)
From Verif Require Import Base Strconv Value Doc Expr Pred Tree Regression Model Lib GoExt Samples
  SpecConstruct ProofsWhole ProofsSim ProofsHistory Race ProofsRace.

(** *** C33: concurrent Evaluate calls *)

(** A race needs a call that fills in a cache entry: calls that leave the
    evaluator as it is can run concurrently, in any number and any interleaving. *)
Theorem C33_unchanged_race_free_partial : ∀ E dd td d e0 td' hist calls,
  new_model E dd td d = (Ok e0, td') →
  Forall (λ c, (evaluate E c.1 (after E hist e0) c.2).2 = after E hist e0) calls →
  race_free E (after E hist e0) calls.
Proof. intros. apply unchanged_race_free; [by eapply after_msim|done]. Qed.
Print Assumptions C33_unchanged_race_free_partial.

(** Two goroutines making the same call race exactly when that call changes the
    evaluator. *)
Theorem C33_same_call_race_iff : ∀ E dd td d e0 td' hist c,
  new_model E dd td d = (Ok e0, td') →
  race_free E (after E hist e0) [c; c] ↔ (evaluate E c.1 (after E hist e0) c.2).2 = after E hist e0.
Proof.
  intros E dd td d e0 td' hist c Hn. pose proof (after_msim E dd td d e0 td' hist Hn) as He. split.
  - intros Hrf.
    destruct (evaluate E c.1 (after E hist e0) c.2) as [[o r'] e'] eqn:Hev. simpl.
    destruct (evaluate_memo E c.1 [] _ c.2 o r' e' He Hev) as (l & Hm & Hf & _).
    destruct (first_miss (caches (after E hist e0)) l (caches_ok _ He)) as [Hall|(l1 & p & v & l2 & -> & Hp & Hl)].
    + pose proof (evaluate_step E c.1 _ c.2 He) as Hs. rewrite Hev in Hs. simpl in Hs. symmetry.
      apply msim_caches; [done|]. intros q v. rewrite Hf. simpl.
      destruct (decide ((q, v) ∈ l)) as [Hin|Hin]; [rewrite entry_in by done; by apply Hall|by rewrite entry_out].
    + exfalso. apply (changing_race E (after E hist e0) c He); [|done]. rewrite Hev. simpl. intros ->.
      specialize (Hf p v). simpl in Hf. rewrite Hp, entry_in in Hf by set_solver. done.
  - intros Hu. apply unchanged_race_free; [done|]. by repeat constructor.
Qed.
Print Assumptions C33_same_call_race_iff.

(** Rows evaluated once before the goroutines start no longer race. *)
Theorem C33_warmed_race_free_partial : ∀ E dd td d e0 td' hist calls,
  order_free_doc d → new_model E dd td d = (Ok e0, td') →
  Forall (λ c, ∃ tk, (tk, c.2) ∈ hist) calls →
  race_free E (after E hist e0) calls.
Proof.
  intros E dd td d e0 td' hist calls Hd Hn Hc. apply unchanged_race_free; [by eapply after_msim|].
  eapply Forall_impl; [exact Hc|]. intros [tk r] [tk' Hin]. simpl in *.
  rewrite (ticket_free E dd td d e0 td' hist tk tk' r Hd Hn).
  exact (replay_unchanged E dd td d e0 td' hist (tk', r) Hn Hin).
Qed.
Print Assumptions C33_warmed_race_free_partial.

(** A document without classification trees never races. *)
Theorem C33_no_classification_race_free_partial : ∀ E dd td d e0 td' hist calls,
  new_model E dd td d = (Ok e0, td') →
  Forall (λ t, tm_function t ≠ "classification") (doc_trees d) →
  race_free E (after E hist e0) calls.
Proof.
  intros E dd td d e0 td' hist calls Hn Hd. pose proof (new_model_no_class _ _ _ _ _ _ Hn Hd) as He.
  apply unchanged_race_free; [by eapply after_msim|]. rewrite (no_class_after E hist e0 He).
  apply Forall_forall. intros c _. by apply no_class_unchanged.
Qed.
Print Assumptions C33_no_classification_race_free_partial.

(** Even when they race, goroutines whose map accesses are atomic all return what
    their calls would have returned alone, and each can always finish. *)
Theorem C33_same_replies_partial : ∀ E dd td d e0 td' hist calls tr σ ths i c,
  new_model E dd td d = (Ok e0, td') →
  exec (caches (after E hist e0)) (goroutines E (after E hist e0) calls) tr σ ths →
  calls !! i = Some c →
  (∀ a, ths !! i = Some (Ret a) → a = (evaluate E c.1 e0 c.2).1) ∧
  ∃ tr' σ' a, exec σ ths tr' σ' (<[i := Ret a]> ths).
Proof.
  intros E dd td d e0 td' hist calls tr σ ths i c Hn Hex Hc.
  pose proof (after_msim E dd td d e0 td' hist Hn) as He. split.
  - intros a Ha. rewrite <- (history_independent E dd td d e0 td' hist c.1 c.2 Hn). by eapply exec_answers.
  - assert (length ths = length calls) as Hlen.
    { transitivity (length (goroutines E (after E hist e0) calls)); [|unfold goroutines; by rewrite fmap_length].
      clear -Hex. induction Hex as [|σ ths a σ1 ths1 tr σ2 ths2 Hs _ IH]; [done|]. rewrite IH.
      destruct Hs; by rewrite insert_length. }
    destruct (lookup_lt_is_Some_2 ths i) as [m Hm]; [rewrite Hlen; by eapply lookup_lt_Some|].
    by eapply can_finish.
Qed.
Print Assumptions C33_same_replies_partial.

(** A fresh classification tree: two goroutines evaluating the same row race. *)
Definition golf_row : datarow := Some {["outlook" := GStr "sunny"; "humidity" := GF64 (fl "70"); "kmh" := GF64 (fl "36")]}.
Theorem C33_race_refuted : ∃ E dd d e td' r,
  new_model E dd [] d = (Ok e, td') ∧ ¬ race_free E e [([], r); ([], r)].
Proof.
  exists go_ext, golf_dd, (golf "lastPrediction"), (built go_ext golf_dd (golf "lastPrediction")), (golf_lt), golf_row.
  assert (new_model go_ext golf_dd [] (golf "lastPrediction")
    = (Ok (built go_ext golf_dd (golf "lastPrediction")), golf_lt)) as Hn
    by (rewrite (built_ok go_ext golf_dd (golf "lastPrediction")); [f_equal; by vm_compute|by vm_compute]).
  split; [done|]. set (e := built go_ext golf_dd (golf "lastPrediction")) in *.
  pose proof (C33_same_call_race_iff go_ext golf_dd [] _ e _ [] ([], golf_row) Hn) as [H _]. intros Hrf.
  specialize (H Hrf). simpl in H.
  assert (caches (evaluate go_ext [] e golf_row).2 [] "yes" = Some "probability(yes)") as H1 by by vm_compute.
  change (after go_ext [] e) with e in H. rewrite H in H1. by vm_compute in H1.
Qed.
Print Assumptions C33_race_refuted.

(** evaluated once, that row is cached; a row with missing values needs no more
    entries; a regression tree has none *)
Example C33_example :
  let e := built go_ext golf_dd (golf "lastPrediction") in
  let warm := after go_ext [([], golf_row)] e in
  (caches e [] "yes", caches warm [] "yes", caches warm [] "no")
    = (None, Some "probability(yes)", Some "probability(no)") ∧
  Forall (λ r, map_to_list (match (evaluate go_ext [] warm r).2 with ETree t => et_outkeys t | _ => ∅ end)
               = map_to_list (match warm with ETree t => et_outkeys t | _ => ∅ end))
    [golf_row; Some {["outlook" := GStr "overcast"]}] ∧
  order_free_doc (golf "lastPrediction") ∧
  Forall (λ t, tm_function t ≠ "classification") (doc_trees (DTree price_tree)).
Proof.
  repeat apply conj; [by vm_compute| |by repeat constructor|by repeat constructor].
  repeat constructor; by vm_compute.
Qed.
