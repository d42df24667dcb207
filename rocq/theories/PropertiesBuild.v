(** Building evaluators in parallel: C122. *)
From Verif Require Import Base Strconv Value Doc Expr Pred Tree Regression Model Lib SpecTree SpecConstruct ProofsConstruct
  ProofsWhole GoExt Samples Build SpecBuild ProofsBuild.

Lemma single_run {A} td (m : bprog A) tr td' m' : bexec td [m] tr td' [m'] → brun td m = brun td' m'.
Proof.
  remember [m] as l eqn:Hl. remember [m'] as l' eqn:Hl'. intros H. revert m m' Hl Hl'.
  induction H as [|td ths a td1 ths1 tr td2 ths2 Hs _ IH]; intros m m' -> Hl'; [by simplify_eq|].
  inversion Hs as [? ? i k Hi|? ? i td3 k Hi|? ? i w x k Hi]; subst;
    (destruct i as [|i]; [|done]; simpl in Hi; injection Hi as ->; by rewrite <- (IH _ m' eq_refl eq_refl)).
Qed.

(** *** C122: NewModel calls in several goroutines, sharing dd and td *)

(** A goroutine that runs alone does what [new_model] says. *)
Theorem C122_alone : ∀ E dd n d td tr td' o,
  bexec td (builders E dd [(n, d)]) tr td' [BRet o] → new_model E dd td d = (o, td').
Proof. intros E dd n d td tr td' o H. rewrite <- (build_alone E dd n []). by apply single_run in H. Qed.
Print Assumptions C122_alone.

(** Goroutines that build the same document race exactly when building it writes to
    the document or the dictionaries at all. *)
Theorem C122_same_document : ∀ E dd td n d k e td',
  new_model E dd td d = (Ok e, td') → 2 ≤ k →
  build_race_free E dd td (replicate k (n, d)) ↔ ¬ written_document d.
Proof.
  intros E dd td n d k e td' Hn Hk. split.
  - intros Hrf Hw. destruct (build_writes E dd n d [] td e td' Hn Hw) as [y Hy].
    assert (∀ i, i < k → builders E dd (replicate k (n, d)) !! i = Some (build_steps E dd n [] d)) as Hl.
    { intros i Hi. unfold builders. rewrite list_lookup_fmap, lookup_replicate_2 by done. done. }
    destruct (lockstep 0 1 _ td _ y ltac:(done) (Hl 0 ltac:(lia)) (Hl 1 ltac:(lia)) Hy) as (tr & td1 & ths & He & Hr).
    by apply (Hrf tr td1 ths).
  - intros Hw tr td1 ths He (a & b & Ha & _ & _ & _ & Hwr).
    assert (Forall (λ a, b_write a = false) tr) as Hall.
    { apply (bexec_within (λ _ _ w, w = false) _ _ _ _ _ He). intros i m Hi. unfold builders in Hi.
      apply list_lookup_fmap_inv in Hi as ([n' d'] & -> & [[= -> ->] _]%lookup_replicate).
      unfold written_document in Hw.
      apply build_within; intros; try done; exfalso; apply Hw.
      - by left.
      - right. left. eexists. split; [done|]. by left.
      - right. left. eexists. split; [done|]. right. eauto.
      - right. right. eauto. }
    rewrite Forall_forall in Hall. rewrite (Hall a Ha) in Hwr. done.
Qed.
Print Assumptions C122_same_document.

(** Goroutines that build different documents race exactly when one of them has
    derived fields to register and another is not a plain regression model. *)
Theorem C122_separate_documents : ∀ E dd td ds,
  Forall (λ d, ∃ e td', new_model E dd td d = (Ok e, td')) ds →
  build_race_free E dd td (imap pair ds) ↔
  ∀ i j d1 d2, i ≠ j → ds !! i = Some d1 → ds !! j = Some d2 → doc_locals d1 ≠ [] → ∃ r, d2 = DRegr r.
Proof.
  intros E dd td ds Hok. split.
  - intros Hrf i j d1 d2 Hne Hi Hj Hl. destruct d2 as [t|h segs|r|k]; [exfalso| |by eexists|exfalso]; [|exfalso|].
    3:{ rewrite Forall_lookup in Hok. destruct (Hok _ _ Hj) as (? & ? & ?). done. }
    all: rewrite Forall_lookup in Hok; destruct (Hok _ _ Hi) as (e1 & td1 & H1); destruct (Hok _ _ Hj) as (e2 & td2 & H2);
      assert (∀ i d, ds !! i = Some d → builders E dd (imap pair ds) !! i = Some (build_steps E dd i [] d)) as Hb
        by (intros i0 d0 H0; unfold builders; rewrite list_lookup_fmap, list_lookup_imap, H0; done);
      pose proof (bexec_alone i _ td _ (Hb i d1 Hi)) as X1; rewrite build_alone, H1 in X1; cbn [fst snd] in X1;
      assert (<[i:=BRet (Ok e1)]> (builders E dd (imap pair ds)) !! j = Some (build_steps E dd j [] _)) as Hj'
        by (rewrite list_lookup_insert_ne by done; apply (Hb j _ Hj));
      pose proof (bexec_alone j _ td1 _ Hj') as X2;
      eapply (Hrf _ _ _ (bexec_app _ _ _ _ _ _ _ _ X1 X2));
      destruct (build_reads E dd j _ [] td td1 e2 td2 H2 ltac:(done)) as [w Hw];
      exists (BAccess i AtDerived true), (BAccess j AtDerived w); (split; [|split; [|done]]);
      apply elem_of_app; [left|right]; apply elem_of_list_fmap.
    all: try (eexists (_, _); split; [|exact Hw]; done).
    all: exists (AtDerived, true); split; [done|]; apply changed_writes; rewrite build_alone, H1; simpl;
      apply new_model_accepted, accepted_td in H1 as ->; intros Heq; apply Hl, (app_inv_head td); by rewrite app_nil_r.
  - intros Hcond tr td' ths He (a & b & Ha & Hb & Hne & Hpl & Hwr).
    set (P i x (w : bool) := ∃ d, ds !! i = Some d ∧
      match x with
      | AtDerived => (w = true → doc_locals d ≠ []) ∧ ∀ r, d ≠ DRegr r
      | AtField n _ _ | AtMethod n _ | AtLiteral n _ _ _ => n = i
      end).
    assert (Forall (λ a, P (b_by a) (b_place a) (b_write a)) tr) as Hall.
    { apply (bexec_within P _ _ _ _ _ He). intros i m Hi. unfold builders in Hi.
      apply list_lookup_fmap_inv in Hi as ([n d] & -> & Hi). rewrite list_lookup_imap in Hi.
      destruct (ds !! i) as [d'|] eqn:Hd; [|done]. injection Hi as <- <-. simpl. unfold P.
      apply build_within; intros; exists d'; try done.
      split; [done|]. split; [done|]. intros r ->. done. }
    rewrite Forall_forall in Hall. destruct (Hall a Ha) as (d1 & Hd1 & Q1), (Hall b Hb) as (d2 & Hd2 & Q2).
    rewrite <- Hpl in Q2. destruct (b_place a); [|congruence..].
    destruct Q1 as [Q1 _]. destruct Q2 as [_ Q2]. destruct (Hcond _ _ _ _ Hne Hd1 Hd2 (Q1 Hwr)) as [r ->]. by apply (Q2 r).
Qed.
Print Assumptions C122_separate_documents.

(** When no document has derived fields, each goroutine gets what NewModel alone
    returns, the same document or not, and can always finish. *)
Theorem C122_same_results_partial : ∀ E dd td ds tr td' ths i n d,
  Forall (λ x, doc_locals x.2 = []) ds →
  bexec td (builders E dd ds) tr td' ths → ds !! i = Some (n, d) →
  td' = td ∧ (∀ o, ths !! i = Some (BRet o) → o = (new_model E dd td d).1) ∧
  ∃ tr' , bexec td ths tr' td (<[i := BRet (new_model E dd td d).1]> ths).
Proof.
  intros E dd td ds tr td' ths i n d Hl He Hi.
  assert (∀ i m, builders E dd ds !! i = Some m → no_append m) as Hna.
  { intros i0 m ([n0 d0] & -> & H0)%list_lookup_fmap_inv. apply build_within; intros; try done. exfalso.
    rewrite Forall_lookup in Hl. specialize (Hl _ _ H0). done. }
  destruct (bexec_steady _ _ _ _ _ He Hna) as [-> Hf].
  assert (builders E dd ds !! i = Some (build_steps E dd n [] d)) as Hb
    by (unfold builders; rewrite list_lookup_fmap, Hi; done).
  destruct (Forall2_lookup_l _ _ _ _ _ Hf Hb) as (m & Hm & Heq). rewrite build_alone in Heq.
  split; [done|]. split.
  - intros o Ho. rewrite Ho in Hm. injection Hm as <-. done.
  - pose proof (bexec_alone i m td ths Hm) as X. eexists. rewrite Heq.
    destruct (bexec_steady _ _ _ _ _ (bexec_app _ _ _ _ _ _ _ _ He X) Hna) as [Htd _]. rewrite Htd in X. exact X.
Qed.
Print Assumptions C122_same_results_partial.

(** Otherwise an append to td.DerivedFields may be lost: two trees that NewModel
    accepts in either order, and an interleaving in which one of the calls fails
    because its derived field is unknown. *)
Fixpoint schedule {A} (sch : list nat) (td : list derived_field) (ths : list (bprog A))
    : list derived_field * list (bprog A) :=
  match sch with
  | [] => (td, ths)
  | i :: sch' =>
      match ths !! i with
      | Some (BRead k) => schedule sch' td (<[i := k td]> ths)
      | Some (BWrite td' k) => schedule sch' td' (<[i := k]> ths)
      | Some (BTouch w x k) => schedule sch' td (<[i := k]> ths)
      | _ => schedule sch' td ths
      end
  end.
Lemma schedule_exec {A} sch td (ths : list (bprog A)) :
  ∃ tr, bexec td ths tr (schedule sch td ths).1 (schedule sch td ths).2.
Proof.
  revert td ths. induction sch as [|i sch IH]; intros td ths; simpl; [exists []; constructor|].
  destruct (ths !! i) as [[a|k|td' k|w x k]|] eqn:Hi; [by apply IH|..|by apply IH].
  - destruct (IH td (<[i := k td]> ths)) as [tr H]. eexists. econstructor; [by apply (bstep_read _ _ i)|exact H].
  - destruct (IH td' (<[i := k]> ths)) as [tr H]. eexists. econstructor; [by apply (bstep_write _ _ i)|exact H].
  - destruct (IH td (<[i := k]> ths)) as [tr H]. eexists. econstructor; [by apply (bstep_touch _ _ i)|exact H].
Qed.

Definition local_tree (f : string) : doc_model :=
  DTree (TreeModel "classification" "none" fone "returnLastPrediction" [DF f "double" (XF "humidity")]
    [MF "humidity" "active"; MF "play" "target"] None
    (MNode "1" "" "yes" (fl "9") [] [MNode "2" "" "no" (fl "5") [] [] (SP f "lessThan" "70")] PTrue)).

Theorem C122_lost_derived_field_refuted : ∃ E dd d1 d2 tr td' ths e1 e2 f,
  (∃ td1 td2 a1 a2, new_model E dd [] d1 = (Ok a1, td1) ∧ new_model E dd td1 d2 = (Ok a2, td2)) ∧
  (∃ td1 td2 a1 a2, new_model E dd [] d2 = (Ok a2, td1) ∧ new_model E dd td1 d1 = (Ok a1, td2)) ∧
  bexec [] (builders E dd [(0, d1); (1, d2)]) tr td' ths ∧ ths = [BRet (Err e1); BRet (Ok e2)] ∧ e1 = EUnknownField f.
Proof.
  set (sch := replicate 7 0 ++ replicate 7 1 ++ [0; 1; 0; 1; 1; 1]).
  destruct (schedule_exec sch [] (builders go_ext golf_dd [(0, local_tree "a"); (1, local_tree "b")])) as [tr H].
  assert (∃ a td1, new_model go_ext golf_dd [] (local_tree "a") = (Ok a, td1)) as (a & tda & Ha).
  { exists (built go_ext golf_dd (local_tree "a")). eexists. apply built_ok. by vm_compute. }
  assert (∃ a td1, new_model go_ext golf_dd [] (local_tree "b") = (Ok a, td1)) as (b & tdb & Hb).
  { exists (built go_ext golf_dd (local_tree "b")). eexists. apply built_ok. by vm_compute. }
  assert (is_ok (new_model go_ext golf_dd tda (local_tree "b")).1 = true) as Hab.
  { apply new_model_accepted, accepted_td in Ha as ->. by vm_compute. }
  assert (is_ok (new_model go_ext golf_dd tdb (local_tree "a")).1 = true) as Hba.
  { apply new_model_accepted, accepted_td in Hb as ->. by vm_compute. }
  destruct (new_model go_ext golf_dd tda (local_tree "b")) as [[b'| |] tdab] eqn:Hab'; [|done..].
  destruct (new_model go_ext golf_dd tdb (local_tree "a")) as [[a'| |] tdba] eqn:Hba'; [|done..].
  assert (∃ e2, (schedule sch [] (builders go_ext golf_dd [(0, local_tree "a"); (1, local_tree "b")])).2
    = [BRet (Err (EUnknownField "a")); BRet (Ok e2)]) as [e2 He2] by (eexists; vm_compute; reflexivity).
  eexists go_ext, golf_dd, (local_tree "a"), (local_tree "b"), tr, _, _, (EUnknownField "a"), e2, "a".
  split; [by exists tda, tdab, a, b'|]. split; [by exists tdb, tdba, a', b|]. split; [exact H|]. done.
Qed.
Print Assumptions C122_lost_derived_field_refuted.

(** Golf trees race with themselves and each other; regression models and chains of
    them under a named method never do; a tree without derived fields may be built
    beside another one. *)
Definition bare_tree : doc_model :=
  DTree (TreeModel "classification" "none" fone "returnLastPrediction" [] [MF "humidity" "active"; MF "play" "target"] None
    (MNode "1" "" "yes" (fl "9") [] [MNode "2" "" "no" (fl "5") [] [] (SP "humidity" "lessThan" "70")] PTrue)).
Example C122_example :
  let regr := DRegr lin_model in
  written_document (golf "none") ∧ ¬ written_document (mining "regression" "sum" [] [] [] [regr; regr]) ∧
  doc_locals bare_tree = [] ∧ doc_locals (golf "none") ≠ [] ∧
  is_ok (new_model go_ext golf_dd [] bare_tree).1 = true ∧
  is_ok (new_model go_ext golf_dd [] (golf "none")).1 = true ∧
  is_ok (new_model go_ext golf_dd [] (mining "regression" "sum" [] [] [] [regr; regr])).1 = true ∧
  build_race_free go_ext golf_dd [] (imap pair [bare_tree; bare_tree; regr]) ∧
  ¬ build_race_free go_ext golf_dd [] (imap pair [bare_tree; golf "none"]).
Proof.
  cbv zeta.
  assert (∀ d, is_ok (new_model go_ext golf_dd [] d).1 = true → ∃ e td', new_model go_ext golf_dd [] d = (Ok e, td')) as Hacc.
  { intros d H. destruct (new_model go_ext golf_dd [] d) as [[e| |] td']; [by eexists _, _|done..]. }
  repeat apply conj; try by vm_compute.
  - by left.
  - intros [H|[(t & Ht & _)|(h & Hh & Hm)]]; [by vm_compute in H|by vm_compute in Ht; apply elem_of_nil in Ht|].
    vm_compute in Hh. apply elem_of_list_singleton in Hh as ->. done.
  - apply C122_separate_documents; [repeat constructor; apply Hacc; by vm_compute|].
    intros [|[|[|?]]] j d1 d2 Hne Hi Hj Hl; simplify_eq/=; by vm_compute in Hl.
  - rewrite C122_separate_documents by (repeat constructor; apply Hacc; by vm_compute).
    intros H. destruct (H 1 0 (golf "none") bare_tree) as [r Hr]; done.
Qed.
