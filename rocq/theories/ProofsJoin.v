(** Proofs for C148. *)
From Verif Require Import Base Strconv Value Doc Expr Pred Tree Regression Model Lib SpecPred ProofsPred SpecExpr ProofsExpr
  SpecConstruct ProofsConstruct SpecTree ProofsTree ProofsOutput ProofsEval ProofsDoc ProofsSafe ProofsWhole ProofsClass ProofsAnswer
  SpecEquiv ProofsEquiv ProofsPrune SpecElse ProofsElse SpecWrap ProofsWrap SpecJoin.

Definition nretested (id : string) (t : predicate) (n : node) : node :=
  match n with Node _ dc cs ds _ sc => Node id dc cs ds t sc end.

Inductive njoined_list (G : predicate → Prop) (R : node → node → Prop) : list node → list node → Prop :=
| njo_nil : njoined_list G R [] []
| njo_keep a b l1 l2 : R a b → njoined_list G R l1 l2 → njoined_list G R (a :: l1) (b :: l2)
| njo_join a b id q id' l1 l2 :
    R a b → G (n_test a) → G q → njoined_list G R l1 l2 →
    njoined_list G R (a :: nretested id q a :: l1) (nretested id' (PCompound "or" [n_test a; q]) b :: l2).
Inductive njoined (G : predicate → Prop) : node → node → Prop :=
| njo_node id dc cs1 cs2 ds t sc :
    njoined_list G (njoined G) cs1 cs2 → njoined G (Node id dc cs1 ds t sc) (Node id dc cs2 ds t sc).

Definition compiled_test E ft (q : predicate) : Prop :=
  ∃ p, tests_fields p ∧ compile_predicate E ft p = Ok q.

Lemma compiled_value E ft q r : compiled_test E ft q →
  ∃ v, run_test E ft q r = Ok v ∧ eval_operand E ft r q = Ok v.
Proof.
  intros (p & Hp & Hc). destruct (eval_operand_total E ft r _ _ Hc) as [v Hv]. exists v. split; [|done].
  destruct p; try done; cbn [compile_predicate] in Hc.
  - destruct (ft !! _); [|done]. by apply rbind_ok in Hc as (? & _ & [= <-]).
  - by apply rbind_ok in Hc as (? & _ & [= <-]).
Qed.
Lemma compiled_or E ft r q1 q2 v1 v2 :
  eval_operand E ft r q1 = Ok v1 → eval_operand E ft r q2 = Ok v2 →
  run_test E ft (PCompound "or" [q1; q2]) r = Ok (tv_compound "or" [v1; v2]).
Proof. intros H1 H2. cbn [run_test]. unfold eval_compound. apply (compound_loop_spec _ "or"). by repeat constructor. Qed.

Lemma new_node_retested E ft m n id p q : new_node E ft m = Ok n → compile_predicate E ft p = Ok q →
  new_node E ft (retested id p m) = Ok (nretested id q n).
Proof.
  destruct m. cbn [new_node retested]. intros (cs & -> & (t & _ & [= <-])%rbind_ok)%rbind_ok ->. done.
Qed.
Lemma new_node_test E ft m n : new_node E ft m = Ok n → compile_predicate E ft (m_pred m) = Ok (n_test n).
Proof. destruct m. cbn [new_node m_pred]. by intros (cs & _ & (t & -> & [= <-])%rbind_ok)%rbind_ok. Qed.

Lemma new_node_joined E ft m1 : ∀ m2 n1, joined m1 m2 → new_node E ft m1 = Ok n1 →
  ∃ n2, new_node E ft m2 = Ok n2 ∧ njoined (compiled_test E ft) n1 n2.
Proof.
  induction m1 as [id dc sc c ds ns1 p IH] using mnode_rect'. intros m2 n1 Hm.
  inversion Hm as [? ? ? ? ? ? ns2 ? Hns]; subst; clear Hm. cbn [new_node].
  intros (cs1 & Hcs1 & (q1 & -> & [= <-])%rbind_ok)%rbind_ok.
  assert (∃ cs2, rmap (new_node E ft) ns2 = Ok cs2 ∧ njoined_list (compiled_test E ft) (njoined (compiled_test E ft)) cs1 cs2)
    as (cs2 & -> & Hcs2).
  { clear -IH Hns Hcs1. revert cs1 Hcs1. induction Hns as [|a b l1 l2 Hab _ IHl|a b id q id' l1 l2 Hab Hpa Hq _ IHl]; intros cs1 Hcs1.
    - simpl in Hcs1. injection Hcs1 as <-. eexists. split; [done|]. constructor.
    - apply Forall_cons in IH as [Ha IH]. cbn [rmap] in Hcs1 |- *.
      apply rbind_ok in Hcs1 as (x & Hx & (xs & Hxs & [= <-])%rbind_ok).
      destruct (Ha _ _ Hab Hx) as (y & -> & Hy). destruct (IHl IH _ Hxs) as (ys & -> & Hys). simpl.
      eexists. split; [done|]. by constructor.
    - apply Forall_cons in IH as [Ha IH]. apply Forall_cons in IH as [_ IH]. cbn [rmap] in Hcs1 |- *.
      apply rbind_ok in Hcs1 as (x & Hx & (xs' & (x2 & Hx2 & (xs & Hxs & [= <-])%rbind_ok)%rbind_ok & [= <-])%rbind_ok).
      destruct (Ha _ _ Hab Hx) as (y & Hy & Hxy). destruct (IHl IH _ Hxs) as (ys & -> & Hys).
      pose proof (new_node_test _ _ _ _ Hx) as Hta. pose proof (new_node_test _ _ _ _ Hx2) as Htq.
      replace (m_pred (retested id q a)) with q in Htq by by destruct a.
      rewrite (new_node_retested E ft a x id q _ Hx Htq) in Hx2. injection Hx2 as Hx2. rewrite <- Hx2 in *.
      replace (n_test (nretested id (n_test x2) x)) with (n_test x2) in * by by destruct x.
      rewrite (new_node_retested E ft b y id' _ (PCompound "or" [n_test x; n_test x2]) Hy)
        by (cbn [compile_predicate rmap]; by rewrite Hta, Htq).
      simpl. eexists. split; [done|]. constructor; [done|by exists (m_pred a)|by exists q|done]. }
  eexists. split; [done|]. by constructor.
Qed.

Section join.
  Context (E : Ext) (cx : tctx) (r : datarow).
  Notation G := (compiled_test E (cx_ft cx)).

  Lemma njoined_list_empty R cs1 cs2 : njoined_list G R cs1 cs2 → Nat.eqb (length cs1) 0 = Nat.eqb (length cs2) 0.
  Proof. by destruct 1. Qed.
  Lemma output_dist_joined id id' t t' dc cs1 cs2 ds sc :
    njoined_list G (njoined G) cs1 cs2 →
    output_dist cx (Node id dc cs1 ds t sc) = output_dist cx (Node id' dc cs2 ds t' sc).
  Proof. intros H%njoined_list_empty. unfold output_dist. by rewrite H. Qed.

  Lemma none_test id t n : eval_none E cx r (nretested id t n) =
    (v <-! run_test E (cx_ft cx) t r; match v with RT => eval_none E cx r (nretested id PTrue n) | _ => Ok ([], RF) end).
  Proof. destruct n. cbn [nretested eval_none run_test]. by destruct (run_test _ _ t _) as [[| |]| |]. Qed.
  Lemma none_id id id' t n : eval_none E cx r (nretested id t n) = eval_none E cx r (nretested id' t n).
  Proof. by destruct n. Qed.
  Lemma null_test id t n : eval_null E cx r (nretested id t n) =
    (v <-! run_test E (cx_ft cx) t r; match v with RT => eval_null E cx r (nretested id PTrue n) | v => Ok ([], v) end).
  Proof. destruct n. cbn [nretested eval_null run_test]. by destruct (run_test _ _ t _) as [[| |]| |]. Qed.
  Lemma null_id id id' t n : eval_null E cx r (nretested id t n) = eval_null E cx r (nretested id' t n).
  Proof. by destruct n. Qed.
  Lemma nretested_self n : nretested (n_id n) (n_test n) n = n.
  Proof. by destruct n. Qed.

  (** the evaluation of a node that passed its test *)
  Lemma none_true_true id n x : eval_none E cx r (nretested id PTrue n) = Ok x → x.2 = RT.
  Proof. destruct n. cbn [nretested eval_none run_test rbind]. apply first_true_true. Qed.
  Lemma null_true_known id n x : eval_null E cx r (nretested id PTrue n) = Ok x → x.2 = RT ∨ x = ([], RU).
  Proof. destruct n. cbn [nretested eval_null run_test rbind]. apply first_known_known. Qed.

  Lemma eval_none_joined n1 : ∀ n2, njoined G n1 n2 → ∀ t id id',
    eval_none E cx r (nretested id t n1) = eval_none E cx r (nretested id' t n2).
  Proof.
    induction n1 as [i0 dc cs1 ds t0 sc IH] using node_rect'. intros n2 Hn t id id'.
    inversion Hn as [? ? ? cs2 ? ? ? Hcs]; subst; clear Hn. cbn [nretested eval_none].
    destruct (run_test _ _ t _) as [[| |]| |]; cbn [rbind]; try done.
    rewrite (output_dist_joined id id' t t dc cs1 cs2 ds sc Hcs). generalize (output_dist cx (Node id' dc cs2 ds t sc), RT). intros d.
    induction Hcs as [|a b l1 l2 Hab _ IHl|a b ida q idb l1 l2 Hab Ha Hq _ IHl]; [done|..].
    - apply Forall_cons in IH as [IHa IH]. cbn [first_true].
      rewrite <- (nretested_self a), <- (nretested_self b).
      assert (n_test a = n_test b) as -> by by destruct Hab.
      rewrite (IHa _ Hab _ _ (n_id b)). destruct (eval_none _ _ _ _) as [[s [| |]]| |]; simpl; auto.
    - apply Forall_cons in IH as [IHa IH]. apply Forall_cons in IH as [_ IH]. cbn [first_true].
      rewrite <- (nretested_self a) at 1. rewrite (IHa _ Hab (n_test a) _ idb).
      assert (∀ t, eval_none E cx r (nretested ida t a) = eval_none E cx r (nretested idb t b)) as -> by (intros; by apply IHa).
      rewrite (none_test idb (n_test a)), (none_test idb q), (none_test idb (PCompound _ _)).
      destruct (compiled_value _ _ _ r Ha) as (v1 & R1 & O1), (compiled_value _ _ _ r Hq) as (v2 & R2 & O2).
      rewrite R1, R2, (compiled_or _ _ _ _ _ _ _ O1 O2). cbn [rbind].
      destruct (eval_none E cx r (nretested idb PTrue b)) as [[s v]| |] eqn:Hb.
      + apply none_true_true in Hb. simpl in Hb. subst v. destruct v1, v2; simpl; auto.
      + destruct v1, v2; simpl; auto.
      + destruct v1, v2; simpl; auto.
  Qed.

  Lemma eval_null_joined n1 : ∀ n2, njoined G n1 n2 → Forall (everywhere (known E (cx_ft cx) r)) (n_children n1) → ∀ t id id',
    eval_null E cx r (nretested id t n1) = eval_null E cx r (nretested id' t n2).
  Proof.
    induction n1 as [i0 dc cs1 ds t0 sc IH] using node_rect'. intros n2 Hn Hk t id id'.
    inversion Hn as [? ? ? cs2 ? ? ? Hcs]; subst; clear Hn. cbn [nretested eval_null n_children] in *.
    destruct (run_test _ _ t _) as [[| |]| |]; cbn [rbind]; try done.
    rewrite (output_dist_joined id id' t t dc cs1 cs2 ds sc Hcs). generalize (output_dist cx (Node id' dc cs2 ds t sc), RT). intros d.
    induction Hcs as [|a b l1 l2 Hab _ IHl|a b ida q idb l1 l2 Hab Ha Hq _ IHl]; [done|..].
    - apply Forall_cons in IH as [IHa IH]. apply Forall_cons in Hk as [Hka Hk]. cbn [first_known].
      rewrite <- (nretested_self a), <- (nretested_self b).
      assert (n_test a = n_test b) as -> by by destruct Hab.
      rewrite (IHa _ Hab ltac:(by inversion Hka) _ _ (n_id b)). destruct (eval_null _ _ _ _) as [[s [| |]]| |]; simpl; auto.
    - apply Forall_cons in IH as [IHa IH]. apply Forall_cons in IH as [_ IH].
      apply Forall_cons in Hk as [Hka Hk]. apply Forall_cons in Hk as [Hkq Hk]. cbn [first_known].
      rewrite <- (nretested_self a) at 1.
      assert (∀ id t, eval_null E cx r (nretested id t a) = eval_null E cx r (nretested idb t b)) as Hab'
        by (intros; apply IHa; [done|by inversion Hka]).
      rewrite !Hab', (null_test idb (n_test a)), (null_test idb q), (null_test idb (PCompound _ _)).
      destruct (compiled_value _ _ _ r Ha) as (v1 & R1 & O1), (compiled_value _ _ _ r Hq) as (v2 & R2 & O2).
      apply everywhere_here in Hka, Hkq. unfold known, verdict in Hka, Hkq.
      replace (n_test (nretested ida q a)) with q in Hkq by by destruct a. rewrite R1 in Hka. rewrite R2 in Hkq.
      rewrite R1, R2, (compiled_or _ _ _ _ _ _ _ O1 O2). cbn [rbind].
      destruct (eval_null E cx r (nretested idb PTrue b)) as [[s v]| |] eqn:Hb.
      + apply null_true_known in Hb. simpl in Hb. destruct Hb as [->|[= -> ->]]; destruct Hka as [[= ->]|[= ->]], Hkq as [[= ->]|[= ->]]; simpl; auto.
      + destruct Hka as [[= ->]|[= ->]], Hkq as [[= ->]|[= ->]]; simpl; auto.
      + destruct Hka as [[= ->]|[= ->]], Hkq as [[= ->]|[= ->]]; simpl; auto.
  Qed.
End join.

(** Trees whose roots evaluate alike on one row. *)
Lemma tree_replaced_at E dd td t n e td' r :
  new_model E dd td (DTree t) = (Ok e, td') →
  (∀ n1, new_node E (field_types dd (td ++ tm_lt t)) (tm_node t) = Ok n1 →
     ∃ n2, new_node E (field_types dd (td ++ tm_lt t)) n = Ok n2 ∧
     ∀ cx r' tk, cx_ft cx = field_types dd (td ++ tm_lt t) → handle_input E (tm_lt t) r = (Ok tt, r') →
       node_evaluate E cx (tm_strategy t) r' tk n1 = node_evaluate E cx (tm_strategy t) r' tk n2) →
  ∃ e', new_model E dd td (DTree (with_node t n)) = (Ok e', td') ∧
        ∀ tk, (evaluate E tk e r).1 = (evaluate E tk e' r).1.
Proof.
  intros Hnew HR. revert Hnew. cbn [new_model]. unfold new_tree_model, tree_validate, with_node.
  cbn [et_model tm_function et_dd et_ft et_root et_outkeys et_target et_compiled].
  destruct (_ && _); [done|].
  unfold tree_compile. cbn [et_model tm_lt tm_schema tm_node et_dd et_target et_validated et_compiled et_outkeys et_root
    tm_function tm_strategy tm_penalty tm_notrue tm_verification].
  destruct (new_node E _ (tm_node t)) as [n1|x|p] eqn:H1; [|done..]. intros [= <- <-].
  destruct (HR _ eq_refl) as (n2 & -> & Hn2).
  eexists. split; [done|]. intros tk. cbn [evaluate]. unfold tree_evaluate.
  cbn [et_validated et_compiled negb et_model tm_lt tm_strategy tm_schema et_root].
  destruct (handle_input E (tm_lt t) r) as [[[]|x|p] r0]; [|done..].
  unfold tree_ctx. cbn [et_ft et_dd et_target et_model tm_penalty tm_notrue]. rewrite Hn2 by done.
  destruct (node_evaluate _ _ _ _ _ _) as [[s v]| |]; try done. destruct v; try done.
  unfold tree_output. cbn [et_model tm_function et_target et_outkeys].
  destruct (_ =s "classification"); [by destruct (foldl _ _ _)|].
  destruct (_ =s "regression"); [|done]. done.
Qed.

Lemma rejoined_stands_in E dd d1 d2 : rejoined d1 d2 → stands_in E dd dd d1 d2.
Proof.
  apply rewritten_stands_in. intros t1 t2 [<-|[t n (H1 & Hj)]]; [apply stands_in_refl|].
  intros td e td' He.
  assert (∀ r, ∃ e', new_model E dd td (DTree (with_node t n)) = (Ok e', td') ∧
        ∀ tk, (evaluate E tk e r).1 = (evaluate E tk e' r).1) as Hall.
  { intros r. eapply tree_replaced_at; [exact He|]. intros n1 Hn1.
    destruct (new_node_joined _ _ _ _ _ Hj Hn1) as (n2 & Hn2 & Hr). exists n2. split; [done|]. intros cx r' tk Hcx _. rewrite <- Hcx in Hr.
    rewrite !not_elem_of_cons in H1. destruct H1 as (? & ? & ? & ? & ? & _). unfold node_evaluate.
    repeat case_str; try done. rewrite <- (nretested_self n1), <- (nretested_self n2).
    assert (n_test n1 = n_test n2) as -> by by destruct Hr. by apply eval_none_joined. }
  destruct (Hall None) as (e' & He' & _). exists e'. split; [done|]. intros tk r.
  destruct (Hall r) as (e'' & He'' & Heq). rewrite He' in He''. injection He'' as <-. apply Heq.
Qed.

Lemma joined_null E dd td t n e td' r r' :
  new_model E dd td (DTree t) = (Ok e, td') → joined (tm_node t) n → tm_strategy t = "nullPrediction" →
  handle_input E (tm_lt t) r = (Ok tt, r') →
  everywhere_doc (λ m, doc_truth E dd td t r' m RT ∨ doc_truth E dd td t r' m RF) (tm_node t) →
  ∃ e', new_model E dd td (DTree (with_node t n)) = (Ok e', td') ∧ ∀ tk, (evaluate E tk e r).1 = (evaluate E tk e' r).1.
Proof.
  intros He Hj Hst Hi Hk. eapply tree_replaced_at; [exact He|]. intros n1 Hn1.
  destruct (new_node_joined _ _ _ _ _ Hj Hn1) as (n2 & Hn2 & Hr). exists n2. split; [done|]. intros cx r0 tk Hcx Hi'.
  rewrite Hi in Hi'. injection Hi' as <-. rewrite Hst. unfold node_evaluate. cbn [String.eqb Ascii.eqb Bool.eqb].
  assert (everywhere (known E (cx_ft cx) r') n1) as Hkn.
  { rewrite Hcx. eapply (transport_everywhere m_nodes n_children (compiled_to E (field_types dd (td ++ tm_lt t)))); [..|exact Hk|exact Hn1].
    - intros a b. apply compiled_kids.
    - intros a b Hab [Hx|Hx]; apply (compiled_truth _ _ _ _ _ _ Hab) in Hx; [by left|by right]. }
  rewrite <- Hcx in Hr. rewrite <- (nretested_self n1), <- (nretested_self n2).
  assert (n_test n1 = n_test n2) as -> by by destruct Hr. apply eval_null_joined; [done|by inversion Hkn].
Qed.

Lemma joined_accepted E dd td t n e td' :
  joined (tm_node t) n → new_model E dd td (DTree t) = (Ok e, td') → ∃ e', new_model E dd td (DTree (with_node t n)) = (Ok e', td').
Proof.
  intros Hj. cbn [new_model]. unfold new_tree_model, tree_validate, with_node.
  cbn [et_model tm_function et_dd et_ft et_root et_outkeys et_target et_compiled].
  destruct (_ && _); [done|].
  unfold tree_compile. cbn [et_model tm_lt tm_schema tm_node et_dd et_target et_validated et_compiled et_outkeys et_root
    tm_function tm_strategy tm_penalty tm_notrue tm_verification].
  destruct (new_node E _ (tm_node t)) as [n1|x|p] eqn:H1; [|done..]. intros [= <- <-].
  destruct (new_node_joined _ _ _ _ _ Hj H1) as (n2 & -> & _). eauto.
Qed.

(** ** The last true child *)
Section late.
  Context (truth : mnode → presult → Prop).
  Context (Hpred : ∀ m1 m2 v, m_pred m1 = m_pred m2 → truth m1 v → truth m2 v).
  Context (Hfun : ∀ m v w, truth m v → truth m w → v = w).
  Context (Hor : ∀ a b m v w, tests_fields (m_pred a) → tests_fields (m_pred b) → truth a v → truth b w →
    m_pred m = PCompound "or" [m_pred a; m_pred b] → truth m (tv_compound "or" [v; w])).
  Notation known_doc := (λ m, truth m RT ∨ truth m RF).

  Lemma retested_pred id p m : m_pred (retested id p m) = p.
  Proof. by destruct m. Qed.
  Lemma retested_nodes id p m : m_nodes (retested id p m) = m_nodes m.
  Proof. by destruct m. Qed.

  Lemma joined_known m1 : ∀ m2, joined m1 m2 → everywhere_doc known_doc m1 → everywhere_doc known_doc m2.
  Proof.
    induction m1 as [i0 dc sc c ds ns1 p IH] using mnode_rect'. intros m2 Hm He.
    inversion Hm as [? ? ? ? ? ? ns2 ? Hns]; subst; clear Hm. inversion He as [? Hh Hc]; subst. cbn [m_nodes] in Hc.
    constructor; [destruct Hh as [Hh|Hh]; [left|right]; by eapply Hpred; [|exact Hh]|]. cbn [m_nodes]. clear Hh He.
    induction Hns as [|a b l1 l2 Hab _ IHl|a b id q id' l1 l2 Hab Ha Hq _ IHl]; [done|..].
    - apply Forall_cons in IH as [IHa IH]. apply Forall_cons in Hc as [Hca Hc]. constructor; auto.
    - apply Forall_cons in IH as [IHa IH]. apply Forall_cons in IH as [_ IH].
      apply Forall_cons in Hc as [Hca Hc]. apply Forall_cons in Hc as [Hcq Hc]. constructor; [|auto].
      pose proof (IHa _ Hab Hca) as Hb. inversion Hb as [? _ Hbc]; subst. constructor; [|by rewrite retested_nodes].
      inversion Hca as [? Hka _]; subst. inversion Hcq as [? Hkq _]; subst.
      assert (tests_fields (m_pred (retested id q a))) as Hq' by by rewrite retested_pred.
      assert (∀ v w, truth a v → truth (retested id q a) w →
        truth (retested id' (PCompound "or" [m_pred a; q]) b) (tv_compound "or" [v; w])) as Hj.
      { intros v w Hv Hw. eapply (Hor a (retested id q a)); try done. by rewrite !retested_pred. }
      destruct Hka as [Hka|Hka], Hkq as [Hkq|Hkq]; specialize (Hj _ _ Hka Hkq); [by left..|by right].
  Qed.

  (** the last element of a list that is true *)
  Definition last_true (l : list mnode) (k : mnode) : Prop :=
    ∃ l1 l2, l = l1 ++ k :: l2 ∧ truth k RT ∧ ∀ x, x ∈ l2 → ¬ truth x RT.
  Lemma last_true_cons x l k :
    last_true (x :: l) k ↔ last_true l k ∨ (k = x ∧ truth x RT ∧ ∀ y, y ∈ l → ¬ truth y RT).
  Proof.
    split.
    - intros ([|y l1] & l2 & [= -> ->] & Hk & Hl); [right; done|left]. by exists l1, l2.
    - intros [(l1 & l2 & -> & Hk & Hl)|(-> & Hk & Hl)]; [by exists (x :: l1), l2|by exists [], l].
  Qed.
  Lemma descend_late_iff n leaf : descend_late m_nodes truth n leaf ↔
    (leaf = n ∧ ∀ c, c ∈ m_nodes n → ¬ truth c RT) ∨ ∃ k, last_true (m_nodes n) k ∧ descend_late m_nodes truth k leaf.
  Proof.
    split.
    - intros H. inversion H as [? Hn|? l1 c l2 ? Hk Hl Hc Hd]; subst; [by left|right]. exists c. split; [|done]. by exists l1, l2.
    - intros [[-> Hn]|(k & (l1 & l2 & Hk & Ht & Hl) & Hd)]; [by apply late_stop|by eapply late_step].
  Qed.

  Lemma joined_late m1 : ∀ m2, joined m1 m2 → everywhere_doc known_doc m1 → ∀ id p id' p' l1,
    descend_late m_nodes truth (retested id p m1) l1 →
    ∃ l2, descend_late m_nodes truth (retested id' p' m2) l2 ∧ same_words l1 l2.
  Proof.
    induction m1 as [i0 dc sc c ds ns1 p0 IH] using mnode_rect'. intros m2 Hm He id p id' p' leaf Hd.
    inversion Hm as [? ? ? ? ? ? ns2 ? Hns]; subst; clear Hm. inversion He as [? _ Hc]; subst. cbn [m_nodes] in Hc. clear He.
    assert (((∀ x, x ∈ ns1 → ¬ truth x RT) → (∀ x, x ∈ ns2 → ¬ truth x RT)) ∧
      (∀ k1, last_true ns1 k1 → ∃ k2, last_true ns2 k2 ∧ ∀ l1, descend_late m_nodes truth k1 l1 →
         ∃ l2, descend_late m_nodes truth k2 l2 ∧ same_words l1 l2)) as [Hno Hlast].
    { clear Hd. induction Hns as [|a b l1 l2 Hab _ IHl|a b ida q idb l1 l2 Hab Ha Hq _ IHl].
      - split; [done|]. intros k (l1 & l2 & Hl & _). by destruct l1.
      - apply Forall_cons in IH as [IHa IH]. apply Forall_cons in Hc as [Hca Hc]. destruct (IHl IH Hc) as [IH1 IH2].
        assert (m_pred a = m_pred b) as Hp by by destruct Hab.
        split.
        + intros Hn x [->|Hx]%elem_of_cons; [|apply IH1; [|done]; intros y Hy; apply Hn; by right].
          intros Hx. apply (Hn a); [by left|]. by eapply Hpred.
        + intros k1 [Hk|(-> & Hk & Hl)]%last_true_cons.
          * destruct (IH2 _ Hk) as (k2 & Hk2 & Hd2). exists k2. split; [|done]. apply last_true_cons. by left.
          * exists b. split; [apply last_true_cons; right; split; [done|split; [by eapply Hpred|by apply IH1]]|].
            intros l3 Hd3. destruct a, b. by apply (IHa _ Hab Hca _ _ _ _ l3 Hd3).
      - apply Forall_cons in IH as [IHa IH]. apply Forall_cons in IH as [_ IH].
        apply Forall_cons in Hc as [Hca Hc]. apply Forall_cons in Hc as [Hcq Hc]. destruct (IHl IH Hc) as [IH1 IH2].
        inversion Hca as [? Hka _]; subst. inversion Hcq as [? Hkq _]; subst.
        set (a2 := retested ida q a) in *. set (b2 := retested idb (PCompound "or" [m_pred a; q]) b).
        assert (tests_fields (m_pred a2)) as Hq' by (subst a2; by rewrite retested_pred).
        assert (∀ v w, truth a v → truth a2 w → truth b2 (tv_compound "or" [v; w])) as Hj.
        { intros v w Hv Hw. eapply (Hor a a2); try done. subst a2 b2. by rewrite !retested_pred. }
        assert (∀ idk pk l3, descend_late m_nodes truth (retested idk pk a) l3 →
          ∃ l4, descend_late m_nodes truth b2 l4 ∧ same_words l3 l4) as Hdown.
        { intros idk pk l3 Hd3. by apply (IHa _ Hab Hca idk pk _ _ l3 Hd3). }
        split.
        + intros Hn x [->|Hx]%elem_of_cons; [|apply IH1; [|done]; intros y Hy; apply Hn; by do 2 right].
          assert (truth a RF) as Hfa by (destruct Hka as [H|H]; [by destruct (Hn a ltac:(left))|done]).
          assert (truth a2 RF) as Hfq by (destruct Hkq as [H|H]; [destruct (Hn a2); [right; left|done]|done]).
          intros Hx. by pose proof (Hfun _ _ _ Hx (Hj _ _ Hfa Hfq)).
        + assert (∀ k1, k1 = a ∨ k1 = a2 → truth k1 RT → (∀ y, y ∈ l1 → ¬ truth y RT) → ∃ k2, last_true (b2 :: l2) k2 ∧
            ∀ l3, descend_late m_nodes truth k1 l3 → ∃ l4, descend_late m_nodes truth k2 l4 ∧ same_words l3 l4) as Hgo.
          { intros k1 Hk1 Ht Hl. exists b2. split.
            - apply last_true_cons. right. split; [done|]. split; [|by apply IH1].
              destruct Hk1 as [->| ->]; [destruct Hkq as [H|H]; by apply (Hj _ _ Ht H)|destruct Hka as [H|H]; by apply (Hj _ _ H Ht)].
            - intros l3 Hd3. destruct Hk1 as [->| ->]; [|by apply (Hdown _ _ _ Hd3)].
              apply (Hdown (m_id a) (m_pred a)). by destruct a. }
          intros k1 [[Hk|(-> & Hk & Hl)]%last_true_cons|(-> & Hk & Hl)]%last_true_cons.
          * destruct (IH2 _ Hk) as (k2 & Hk2 & Hd2). exists k2. split; [|done]. apply last_true_cons. by left.
          * apply Hgo; auto.
          * apply Hgo; auto. intros y Hy. apply Hl. by right. }
    apply descend_late_iff in Hd as [[-> Hn]|(k1 & Hk1 & Hd)]; cbn [retested m_nodes] in *.
    - eexists. split; [apply descend_late_iff; left; split; [done|]; cbn [m_nodes]; by apply Hno|].
      split_and!; try done. simpl. by destruct Hns.
    - destruct (Hlast _ Hk1) as (k2 & Hk2 & Hd2). destruct (Hd2 _ Hd) as (l2 & Hl2 & Hs). exists l2. split; [|done].
      apply descend_late_iff. right. by exists k2.
  Qed.
End late.

Lemma or_truth E ft r a b m v w :
  tests_fields (m_pred a) → tests_fields (m_pred b) → node_truth E ft r a v → node_truth E ft r b w →
  m_pred m = PCompound "or" [m_pred a; m_pred b] → node_truth E ft r m (tv_compound "or" [v; w]).
Proof.
  intros Ha Hb (p & Hp & Hv) (q & Hq & Hw) Hm. unfold node_truth. rewrite Hm. exists (PCompound "or" [p; q]).
  split; [cbn [compile_predicate rmap]; by rewrite Hp, Hq|].
  destruct (compiled_value E ft p r) as (v' & R1 & O1); [by exists (m_pred a)|].
  destruct (compiled_value E ft q r) as (w' & R2 & O2); [by exists (m_pred b)|]. rewrite Hv in R1. rewrite Hw in R2. injection R1 as <-. injection R2 as <-. by apply compiled_or.
Qed.
