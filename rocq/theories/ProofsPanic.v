(** Which panics there are. *)
From Verif Require Import Base Strconv Value Doc Expr Pred Tree Regression Model Lib
  SpecPred ProofsPred SpecExpr ProofsExpr SpecConstruct ProofsConstruct ProofsRange
  SpecTree ProofsTree ProofsOutput ProofsEval ProofsDoc ProofsSafe ProofsWhole.

(** the result of a call that panics in no other way than by calling a nil test *)
Definition nil_only {A} (x : res A) : Prop := match x with Panic p => p = PNilFunc | _ => True end.

Lemma nil_only_bind {A B} (x : res A) (f : A → res B) : nil_only x → (∀ a, nil_only (f a)) → nil_only (x <-! x; f x).
Proof. destruct x; simpl; auto. Qed.
Lemma nil_only_rmap {A B} (f : A → res B) l : Forall (λ a, nil_only (f a)) l → nil_only (rmap f l).
Proof.
  induction 1 as [|a l Ha _ IH]; simpl; [done|]. apply nil_only_bind; [done|]. intros b. by apply nil_only_bind.
Qed.
Lemma nil_only_rmapi {A B} (f : nat → A → res B) l : Forall (λ a, ∀ i, nil_only (f i a)) l → ∀ i, nil_only (rmapi f i l).
Proof.
  induction 1 as [|a l Ha _ IH]; intros i; simpl; [done|]. apply nil_only_bind; [done|]. intros b. by apply nil_only_bind.
Qed.
Lemma nil_only_first_true {A} (f : A → res (list score * presult)) d l :
  Forall (λ a, nil_only (f a)) l → nil_only (first_true f d l).
Proof.
  induction 1 as [|a l Ha _ IH]; simpl; [done|]. apply nil_only_bind; [done|]. intros [s [| |]]; done.
Qed.
Lemma nil_only_first_known {A} (f : A → res (list score * presult)) d l :
  Forall (λ a, nil_only (f a)) l → nil_only (first_known f d l).
Proof.
  induction 1 as [|a l Ha _ IH]; simpl; [done|]. apply nil_only_bind; [done|]. intros [s [| |]]; done.
Qed.

Section nodes.
  Context (E : Ext) (cx : tctx) (r : datarow).
  Notation ok := (everywhere (λ n, match n with Node _ _ _ _ t _ => nil_only (run_test E (cx_ft cx) t r) end)).
  Ltac start n := induction n as [id dc cs ds t sc IH] using node_rect'; inversion 1 as [? Hp Hf]; subst;
    cbn [n_children] in Hf; rewrite Forall_forall in IH, Hf.

  Lemma nil_none n : ok n → nil_only (eval_none E cx r n).
  Proof.
    start n. cbn [eval_none]. apply nil_only_bind; [done|]. intros [| |]; try done.
    apply nil_only_first_true, Forall_forall. auto.
  Qed.
  Lemma nil_null n : ok n → nil_only (eval_null E cx r n).
  Proof.
    start n. cbn [eval_null]. apply nil_only_bind; [done|]. intros [| |]; try done.
    apply nil_only_first_known, Forall_forall. auto.
  Qed.
  Lemma nil_last n : ok n → nil_only (eval_last E cx r n).
  Proof.
    start n. cbn [eval_last]. apply nil_only_bind; [done|]. intros v.
    destruct v; try done; (apply nil_only_bind; [apply nil_only_rmap, Forall_forall; auto|]);
      intros rs; destruct (foldl _ _ _) as [u td]; by destruct (negb u && _).
  Qed.
  Lemma nil_default n : ok n → nil_only (eval_default E cx r n).
  Proof.
    start n. cbn [eval_default]. apply nil_only_bind; [done|]. intros v.
    destruct v; try done; (apply nil_only_bind; [apply nil_only_rmap, Forall_forall; auto|]);
      intros rs; destruct (foldl scan_step _ _) as [u td]; (destruct (negb u && _); [done|]);
      destruct u; [destruct (_ !! _)| |destruct (_ !! _)|]; done.
  Qed.
  Lemma nil_weighted n : ok n → ∀ tk, nil_only (eval_weighted E cx r tk n).
  Proof.
    start n. intros tk. cbn [eval_weighted]. apply nil_only_bind; [done|]. intros v.
    destruct v; try done; (apply nil_only_bind; [apply nil_only_rmapi, Forall_forall; auto|]);
      intros rs; destruct (foldl scan_step _ _) as [u td]; destruct (foldl wc_collect _ _) as [[co ss] to];
      (destruct (negb u && _); [done|]); by destruct u.
  Qed.
  Lemma nil_aggregate n : ok n → ∀ tk, nil_only (eval_aggregate E cx r tk n).
  Proof.
    start n. intros tk. cbn [eval_aggregate]. apply nil_only_bind; [done|]. intros v.
    destruct v; try done; (apply nil_only_bind; [apply nil_only_rmapi, Forall_forall; auto|]);
      intros rs; destruct (foldl scan_step _ _) as [u td]; (destruct (negb u && _); [done|]);
      destruct u; try done; by destruct (foldl an_add _ _).
  Qed.
  Lemma nil_node st tk n : ok n → nil_only (node_evaluate E cx st r tk n).
  Proof.
    intros H. unfold node_evaluate.
    destruct (_ =s _); [by apply nil_null|]. destruct (_ =s _); [by apply nil_aggregate|].
    destruct (_ =s _); [by apply nil_weighted|]. destruct (_ =s _); [by apply nil_default|].
    destruct (_ =s _); [by apply nil_last|]. by apply nil_none.
  Qed.
End nodes.

Lemma new_node_nil_only E ft r m n :
  new_node E ft m = Ok n → everywhere (λ n, match n with Node _ _ _ _ t _ => nil_only (run_test E ft t r) end) n.
Proof.
  revert n. induction m as [id dc sc c ds ns p IH] using mnode_rect'. intros n. simpl.
  intros (cs & Hcs & (t & Ht & [= <-])%rbind_ok)%rbind_ok. constructor.
  - assert (p = PNone ∨ p ≠ PNone) as [->|Hp] by (destruct p; (by left) || (by right)); [by injection Ht as <-|].
    destruct (run_test_total E ft r p t Ht Hp) as [v ->]. done.
  - simpl. apply rmap_ok in Hcs. clear Ht.
    induction Hcs as [|x y ns cs Hx _ IHc]; constructor.
    + apply Forall_cons in IH as [IH _]. by apply IH.
    + apply Forall_cons in IH as [_ IH]. by apply IHc.
Qed.

(** why a tree may panic *)
Definition panic_cause (dd : list data_field) (ts : list tree_model) (p : panic) : Prop :=
  (p = PNilFunc ∧ ∃ t, t ∈ ts ∧ ¬ everywhere_doc has_pred (tm_node t)) ∨
  (p = PIndex ∧ ∃ t, t ∈ ts ∧ tm_function t = "regression" ∧
     ¬ (tm_strategy t ≠ "defaultChild" ∧
        everywhere_doc (λ m, doc_dist dd (target_field (tm_schema t)) (tm_notrue t) m ≠ []) (tm_node t))).

Lemma tree_of_panics E dd td t te tk m p r' e' :
  tree_of E dd td t te → tree_evaluate E tk te (Some m) = (Panic p, r', e') → panic_cause dd [t] p.
Proof.
  intros Ht H.
  destruct (handle_input E (tm_lt t) (Some m)) as [[[]|x|q] r1] eqn:Hi.
  2:{ destruct Ht as (Hv & Hc & _ & _ & _ & _ & Hlt & _). rewrite tree_evaluate_run in H by done.
      by rewrite Hlt, Hi in H. }
  2:{ by apply handle_input_no_panic in Hi. }
  pose proof (tree_of_run _ _ _ _ _ tk _ _ Ht Hi) as Hrun. rewrite H in Hrun. simpl in Hrun.
  assert (nil_only (node_evaluate E (doc_ctx dd td t) (tm_strategy t) r1 tk (et_root te))) as Hnil.
  { apply nil_node. eapply new_node_nil_only. apply (doc_root E dd td t te Ht). }
  destruct (node_evaluate E (doc_ctx dd td t) (tm_strategy t) r1 tk (et_root te)) as [[s v]|x|q] eqn:Hs; try done.
  - destruct v; try done.
    injection Hrun as Hrep _. unfold report in Hrep. case_decide; [done|].
    destruct s as [|s0 ss]; [|by destruct (ext_parse_float _ _)]. injection Hrep as ->.
    right. split; [done|]. exists t. split; [by left|].
    pose proof Ht as (_ & _ & _ & _ & _ & _ & _ & Hn & Hf).
    split; [by destruct Hf|]. intros [Hst Hd].
    eapply node_evaluate_filled in Hs; [done|done|].
    eapply (transport_everywhere m_nodes n_children (compiled_to E _)); [..|exact Hd|exact Hn].
    + intros a b. apply compiled_kids.
    + intros a b Hab Ha. by rewrite (doc_dist_of E dd td t _ _ Hab).
  - injection Hrun as <- _. left. split; [done|]. exists t. split; [by left|]. intros Hp.
    pose proof (doc_verdicts E dd td t te Ht r1 Hp) as Hv.
    destruct (node_evaluate_total E (doc_ctx dd td t) (tm_strategy t) r1 tk (et_root te) Hv) as [x Hx].
    by rewrite Hx in Hs.
Qed.

Lemma panic_cause_in dd t ts p : t ∈ ts → panic_cause dd [t] p → panic_cause dd ts p.
Proof.
  intros Ht [(Hp & t' & ->%elem_of_list_singleton & H)|(Hp & t' & ->%elem_of_list_singleton & H)].
  - left. eauto.
  - right. eauto.
Qed.

Lemma evaluate_panics E dd ts tk e m o r' e' :
  steady E dd ts e → evaluate E tk e (Some m) = (o, r', e') →
  ∀ p, o = Panic p → panic_cause dd ts p.
Proof.
  intros He H.
  assert (steady E dd ts e' ∧ (∃ m', r' = Some m') ∧
          good (λ _, True) (λ x, True) (panic_cause dd ts) o) as (_ & _ & Ho).
  { eapply (evaluate_rule E _ _ _ (λ r, ∃ m, r = Some m)); [..|exact He|by eauto|exact H].
    - intros tk0 t r o0 r0' t' (td & d & Hd & Ht) [m0 ->] H0. split; [|split].
      + exists td, d. split; [done|]. by eapply tree_of_stable.
      + pose proof Ht as (Hv & Hc & _). rewrite tree_evaluate_run in H0 by done.
        destruct (handle_input _ _ _) as [o1 r1] eqn:Hi.
        destruct (handle_input_ok_some _ _ _ _ _ Hi) as [m1 ->].
        repeat case_match; simplify_eq; eauto.
      + destruct o0; simpl; try done. eapply panic_cause_in; [done|]. by eapply tree_of_panics.
    - intros x r0 _ _. destruct (regr_evaluate _ _ _) eqn:Hr; simpl; try done.
      by eapply regr_evaluate_no_panic in Hr.
    - done.
    - intros tk0 h r0 _ [m0 ->]. rewrite impute_some. eauto.
    - intros h r0 o0 r0' _ [m0 ->] Hi. split; [by eapply handle_input_ok_some|].
      destruct o0; try done. by eapply handle_input_no_panic in Hi.
    - intros h _ _ tk0 out r0 _ [m0 ->]. rewrite copy_into_some. eauto.
    - done.
    - done.
    - done.
    - done. }
  intros p ->. exact Ho.
Qed.
