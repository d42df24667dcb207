(** Evaluating while evaluators are built: C124. *)
From Verif Require Import Base Strconv Value Doc Expr Pred Tree Regression Model Lib SpecTree SpecConstruct ProofsConstruct
  ProofsWhole GoExt Samples Race Build SpecBuild ProofsBuild PropertiesBuild Beside SpecBeside ProofsBeside.

Lemma within_trace {A} (P : place → bool → Prop) (m : bprog A) td y : within P m → y ∈ btrace td m → P y.1 y.2.
Proof.
  revert td. induction m as [a|k IH|td' k IH|w x k IH]; intros td Hw Hy; simpl in *; [by apply elem_of_nil in Hy|..];
    destruct Hw as [H1 H2]; apply elem_of_cons in Hy as [->|Hy]; eauto.
Qed.
Lemma quiet_trace {A} n (m : bprog A) td : quiet n m → btrace td m = btrace [] m.
Proof.
  induction m as [a|k IH|td' k IH|w x k IH]; intros Hq; simpl; [done|..]; destruct Hq as [[_ H] Hq].
  - by destruct H as [|[]].
  - by destruct H as [|[]].
  - by rewrite IH.
Qed.
Lemma quiet_methods {A} n (m : bprog A) : quiet n m → ¬ (∃ x, literal n x ∧ (x, false) ∈ btrace [] m) →
  within (λ x w, w = false ∧ ∃ p, x = AtMethod n p) m.
Proof.
  induction m as [a|k IH|td' k IH|w x k IH]; intros Hq Hn; simpl; [done|..]; destruct Hq as [[Hw H] Hq].
  - by destruct H as [|[]].
  - by destruct H as [|[]].
  - subst w. split.
    + split; [done|]. destruct H as [H|H]; [|done]. exfalso. apply Hn. exists x. split; [done|]. by left.
    + apply IH; [done|]. intros (y & Hy & Hin). apply Hn. exists y. split; [done|]. by right.
Qed.

(** *** C124: Evaluate calls beside NewModel calls *)

(** An Evaluate goroutine that runs alone does what [evaluate] says. *)
Theorem C124_alone : ∀ E dd n e tk r td tr td' o,
  bexec td (task_steps E dd <$> [Evaluating n e tk r]) tr td' [BRet o] → o = inl (evaluate E tk e r).1 ∧ td' = td.
Proof.
  intros E dd n e tk r td tr td' o H. apply single_run in H. simpl in H. rewrite brun_bind in H.
  destruct (evaluate_does n E tk [] e r) as [Hr _]. rewrite Hr in H. simpl in H. by simplify_eq.
Qed.
Print Assumptions C124_alone.

(** Evaluators may be used, shared or not, while other documents are built: Evaluate
    touches nothing that NewModel on another document writes, not even when that one
    registers derived fields. *)
Theorem C124_other_documents : ∀ E dd td l,
  (∀ i j n e tk r n' d, l !! i = Some (Evaluating n e tk r) → l !! j = Some (Building n' d) → n ≠ n') →
  (∀ i j n1 d1 n2 d2, i ≠ j → l !! i = Some (Building n1 d1) → l !! j = Some (Building n2 d2) →
     n1 ≠ n2 ∧ (doc_locals d1 ≠ [] → ∃ r, d2 = DRegr r)) →
  tasks_race_free E dd td l.
Proof.
  intros E dd td l Hev Hb tr td' ths He (a & b & Ha & Hbt & Hne & Hpl & Hwr).
  set (P i x (w : bool) := match l !! i with
    | Some (Evaluating n e tk r) => w = false ∧ (literal n x ∨ ∃ p, x = AtMethod n p)
    | Some (Building n d) =>
        match x with
        | AtDerived => (w = true → doc_locals d ≠ []) ∧ ∀ r, d ≠ DRegr r
        | AtField n' _ _ | AtMethod n' _ | AtLiteral n' _ _ _ => n' = n
        end
    | None => False
    end).
  assert (Forall (λ a, P (b_by a) (b_place a) (b_write a)) tr) as Hall.
  { apply (bexec_within P _ _ _ _ _ He). intros i m (t & -> & Ht)%list_lookup_fmap_inv. unfold P. rewrite Ht.
    destruct t as [n e tk r|n d]; simpl; (apply within_bind; [|done]).
    - apply evaluate_does.
    - apply build_within; intros; try done. split; [done|]. intros r ->. done. }
  rewrite Forall_forall in Hall. pose proof (Hall a Ha) as Q1. pose proof (Hall b Hbt) as Q2. unfold P in Q1, Q2.
  rewrite <- Hpl in Q2. rewrite Hwr in Q1.
  destruct (l !! b_by a) as [[n1 e1 tk1 r1|n1 d1]|] eqn:H1; [by destruct Q1| |done].
  destruct (l !! b_by b) as [[n2 e2 tk2 r2|n2 d2]|] eqn:H2; [| |done].
  - pose proof (Hev _ _ _ _ _ _ _ _ H2 H1) as Hn. destruct Q2 as [_ [Q2|[p Q2]]].
    + by destruct (b_place a); simpl in Q2; simplify_eq.
    + rewrite Q2 in Q1. by simplify_eq.
  - destruct (Hb _ _ _ _ _ _ Hne H1 H2) as [Hn Hl]. destruct (b_place a); [|congruence..].
    destruct Q1 as [Q1 _]. destruct Q2 as [_ Q2]. destruct (Hl (Q1 eq_refl)) as [r ->]. by apply (Q2 r).
Qed.
Print Assumptions C124_other_documents.

(** The document has been built before, so that its methods are named; [evals] are
    Evaluate calls on evaluators built from it, in use for any time.  Building it once
    more beside them races exactly when one of them tests a simple predicate. *)
Theorem C124_same_document : ∀ E dd td n d e' td' evals,
  (∀ h, h ∈ doc_headers d → mm_method h ≠ "") →
  new_model E dd td d = (Ok e', td') →
  Forall (λ x : emodel * ticket * datarow, ∃ dd0 td0 e0 td1 hist,
    new_model E dd0 td0 d = (Ok e0, td1) ∧ x.1.1 = after E hist e0) evals →
  tasks_race_free E dd td (Building n d :: ((λ x, Evaluating n x.1.1 x.1.2 x.2) <$> evals)) ↔
  ∀ e tk r, (e, tk, r) ∈ evals → ¬ model_asks E tk e r.
Proof.
  intros E dd td n d e' td' evals Hm Hn Hev. split.
  - intros Hrf e tk r Hin Hask. apply elem_of_list_lookup in Hin as [i Hi].
    rewrite Forall_lookup in Hev. destruct (Hev _ _ Hi) as (dd0 & td0 & e0 & td1 & hist & Hn0 & He0). simpl in He0.
    set (l := Building n d :: _) in Hrf.
    assert ((task_steps E dd <$> l) !! 0 = Some (task_steps E dd (Building n d))) as H0 by done.
    pose proof (bexec_alone 0 _ td _ H0) as X1.
    assert (<[0 := BRet (brun td (task_steps E dd (Building n d))).1]> (task_steps E dd <$> l) !! S i =
      Some (task_steps E dd (Evaluating n e tk r))) as H1.
    { rewrite list_lookup_insert_ne by done. rewrite list_lookup_fmap. unfold l. simpl. rewrite list_lookup_fmap, Hi. done. }
    pose proof (bexec_alone (S i) _ (brun td (task_steps E dd (Building n d))).2 _ H1) as X2.
    apply (Hrf _ _ _ (bexec_app _ _ _ _ _ _ _ _ X1 X2)).
    destruct (evaluate_does n E tk [] e r) as (_ & Hq & Hiff). destruct (proj2 Hiff Hask) as (x & Hx & Hin).
    assert (shaped e d) as Hsh by (rewrite He0; by eapply after_shaped).
    pose proof (model_covered n d e E dd n [] td e' td' (λ y, (y, true) ∈ btrace td (build_steps E dd n [] d)) E tk r Hsh Hn
      ltac:(intros y Hy; exact Hy)) as Hcov.
    pose proof (within_trace _ _ [] _ Hcov Hin Hx) as Hw. simpl in Hw.
    exists (BAccess 0 x true), (BAccess (S i) x false). split; [|split; [|done]]; apply elem_of_app.
    + left. apply elem_of_list_fmap. exists (x, true). split; [done|]. simpl. rewrite btrace_bind. set_solver.
    + right. apply elem_of_list_fmap. exists (x, false). split; [done|]. simpl. rewrite btrace_bind.
      apply elem_of_app. left. by rewrite (quiet_trace n).
  - intros Hno tr td2 ths He (a & b & Ha & Hb & Hne & Hpl & Hwr).
    set (P i x (w : bool) := match i with
      | 0 => w = true → ∀ p, x ≠ AtMethod n p
      | S _ => w = false ∧ ∃ p, x = AtMethod n p
      end).
    assert (Forall (λ a, P (b_by a) (b_place a) (b_write a)) tr) as Hall.
    { apply (bexec_within P _ _ _ _ _ He). intros [|i] m Hi; simpl in Hi.
      - injection Hi as <-. apply within_bind; [|done]. apply build_within; simpl; try done.
        intros h Hh He1. by destruct (Hm h).
      - rewrite list_lookup_fmap in Hi. rewrite list_lookup_fmap in Hi. destruct (evals !! i) as [[[e tk] r]|] eqn:Hi'; [|done]. simpl in Hi. injection Hi as <-.
        apply within_bind; [|done]. destruct (evaluate_does n E tk [] e r) as (_ & Hq & Hiff).
        apply quiet_methods; [done|]. rewrite Hiff. eapply Hno. by eapply elem_of_list_lookup_2. }
    rewrite Forall_forall in Hall. pose proof (Hall a Ha) as Q1. pose proof (Hall b Hb) as Q2. unfold P in Q1, Q2.
    rewrite Hwr in Q1. rewrite <- Hpl in Q2. destruct (b_by a) as [|i]; [|by destruct Q1].
    destruct (b_by b) as [|j]; [done|]. destruct Q2 as (_ & p & Hp). by apply (Q1 eq_refl p).
Qed.
Print Assumptions C124_same_document.

(** A row that reaches the humidity test of the golf tree asks; a tree that is one
    True leaf never does, so that it may be evaluated while it is built again. *)
Definition plain_leaf : doc_model :=
  DTree (TreeModel "classification" "none" fone "returnLastPrediction" [] [MF "humidity" "active"; MF "play" "target"] None
    (MNode "1" "" "yes" (fl "9") [] [] PTrue)).
Lemma one_pair E dd d e td' r : new_model E dd [] d = (Ok e, td') → (∀ h, h ∈ doc_headers d → mm_method h ≠ "") →
  tasks_race_free E dd [] [Building 0 d; Evaluating 0 e [] r] ↔ ¬ model_asks E [] e r.
Proof.
  intros He Hm. rewrite (C124_same_document E dd [] 0 d e td' [(e, [], r)] Hm He).
  - split; [intros H; apply H; by left|]. by intros H e' tk r' [= -> -> ->]%elem_of_list_singleton.
  - apply Forall_singleton. exists dd, [], e, td', []. done.
Qed.
Lemma two_evaluations E dd d e r : tasks_race_free E dd [] [Evaluating 0 e [] r; Building 1 d; Evaluating 0 e [] r].
Proof.
  apply C124_other_documents.
  - intros [|[|[|i]]] [|[|[|j]]]; simpl; intros; by simplify_eq.
  - intros [|[|[|i]]] [|[|[|j]]]; simpl; intros; by simplify_eq.
Qed.
Lemma leaf_quiet E cx st r id dc ds sc : ¬ node_asks E cx st r (Node id dc [] ds PTrue sc).
Proof.
  intros [Hn|(v & _ & _ & Hr)]%node_asks_iff; [inversion Hn|]. by apply reached_nil in Hr.
Qed.
Lemma leaf_silent E tk t r : n_children (et_root t) = [] → n_test (et_root t) = PTrue → ¬ model_asks E tk (ETree t) r.
Proof.
  intros H1 H2 H. inversion H as [? ? ? r' _ _ _ Hn|]; subst. destruct (et_root t). simpl in *. subst.
  by apply leaf_quiet in Hn.
Qed.
Lemma child_asks E tk t r r' c cs : et_validated t = true → et_compiled t = true →
  handle_input E (tm_lt (et_model t)) r = (Ok tt, r') → n_test (et_root t) = PTrue → n_children (et_root t) = c :: cs →
  (∃ f op v raw, n_test c = PSimple f op v raw ∧ is_Some (et_ft t !! f)) → model_asks E tk (ETree t) r.
Proof.
  intros H1 H2 H3 H4 H5 (f & op & v & raw & H6 & H7). eapply asks_tree; [done..|].
  eapply (node_asks_child _ _ _ _ _ RT []); [exact H5|by rewrite H4|by left|constructor|].
  apply node_asks_test. rewrite H6. by apply asks_simple.
Qed.

Example C124_example :
  let e := built go_ext golf_dd bare_tree in
  let leaf := built go_ext golf_dd plain_leaf in
  model_asks go_ext [] e (Some ∅) ∧
  ¬ tasks_race_free go_ext golf_dd [] [Building 0 bare_tree; Evaluating 0 e [] (Some ∅)] ∧
  tasks_race_free go_ext golf_dd [] [Building 0 plain_leaf; Evaluating 0 leaf [] (Some ∅)] ∧
  tasks_race_free go_ext golf_dd [] [Evaluating 0 e [] (Some ∅); Building 1 (golf "none"); Evaluating 0 e [] (Some ∅)].
Proof.
  cbv zeta.
  assert (∃ td', new_model go_ext golf_dd [] bare_tree = (Ok (built go_ext golf_dd bare_tree), td')) as [td1 He]
    by (eexists; apply built_ok; by vm_compute).
  assert (∃ td', new_model go_ext golf_dd [] plain_leaf = (Ok (built go_ext golf_dd plain_leaf), td')) as [td2 Hl]
    by (eexists; apply built_ok; by vm_compute).
  assert (model_asks go_ext [] (built go_ext golf_dd bare_tree) (Some ∅)) as Hask.
  { assert (∃ t c cs, built go_ext golf_dd bare_tree = ETree t ∧ et_validated t = true ∧ et_compiled t = true ∧
      handle_input go_ext (tm_lt (et_model t)) (Some ∅) = (Ok tt, Some ∅) ∧ n_test (et_root t) = PTrue ∧ n_children (et_root t) = c :: cs ∧
      ∃ f op v raw, n_test c = PSimple f op v raw ∧ is_Some (et_ft t !! f)) as (t & c & cs & -> & H1 & H2 & H3 & H4 & H5 & H6).
    { eexists _, _, _. split; [vm_compute; reflexivity|]. repeat split; try (vm_compute; reflexivity).
      eexists _, _, _, _. split; [vm_compute; reflexivity|]. eexists. vm_compute. reflexivity. }
    by eapply child_asks. }
  assert (¬ model_asks go_ext [] (built go_ext golf_dd plain_leaf) (Some ∅)) as Hleaf.
  { assert (∃ t, built go_ext golf_dd plain_leaf = ETree t ∧ n_children (et_root t) = [] ∧ n_test (et_root t) = PTrue) as (t & -> & H1 & H2).
    { eexists. split; [vm_compute; reflexivity|]. split; vm_compute; reflexivity. }
    by apply leaf_silent. }
  split; [exact Hask|]. split; [|split].
  - rewrite (one_pair _ _ _ _ _ _ He) by by intros h []%elem_of_nil. intros H. exact (H Hask).
  - rewrite (one_pair _ _ _ _ _ _ Hl) by by intros h []%elem_of_nil. exact Hleaf.
  - apply two_evaluations.
Qed.
