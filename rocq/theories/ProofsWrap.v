(** Proofs for C147. *)
From Verif Require Import Base Strconv Value Doc Expr Pred Tree Regression Model Lib SpecPred ProofsPred SpecExpr ProofsExpr
  SpecConstruct ProofsConstruct SpecTree ProofsTree ProofsOutput ProofsEval ProofsDoc ProofsSafe ProofsWhole ProofsClass ProofsAnswer
  SpecEquiv ProofsEquiv ProofsPrune SpecElse ProofsElse SpecWrap.

Lemma wrapped_ind' (P : mnode → mnode → Prop) :
  (∀ id dc sc c ds ns1 ns2 p, Forall2 wrapped ns1 ns2 → Forall2 P ns1 ns2 →
     P (MNode id dc sc c ds ns1 p) (MNode id dc sc c ds ns2 p)) →
  (∀ id dc sc c ds ns1 ns2 p id1 dc1 sc1 c1 ds1 id2, Forall2 wrapped ns1 ns2 → Forall2 P ns1 ns2 →
     P (MNode id dc sc c ds ns1 p) (MNode id1 dc1 sc1 c1 ds1 [MNode id2 dc sc c ds ns2 PTrue] p)) →
  ∀ m1 m2, wrapped m1 m2 → P m1 m2.
Proof.
  intros H1 H2 m1. induction m1 as [id dc sc c ds ns p IH] using mnode_rect'. intros m2 Hm.
  assert (∀ ns2, Forall2 wrapped ns ns2 → Forall2 P ns ns2) as Hns.
  { intros ns2 H. clear -IH H. induction H as [|a b l1 l2 Hab _ IHl]; constructor; apply Forall_cons in IH as [Ha IH]; auto. }
  inversion Hm; subst; eauto.
Qed.

Inductive nwrapped : node → node → Prop :=
| nw_keep id dc cs1 cs2 ds t sc :
    Forall2 nwrapped cs1 cs2 → nwrapped (Node id dc cs1 ds t sc) (Node id dc cs2 ds t sc)
| nw_wrap id dc cs1 cs2 ds t sc id1 dc1 ds1 sc1 id2 :
    Forall2 nwrapped cs1 cs2 →
    nwrapped (Node id dc cs1 ds t sc) (Node id1 dc1 [Node id2 dc cs2 ds PTrue sc] ds1 t sc1).

Lemma new_node_wrapped E ft m1 m2 : wrapped m1 m2 →
  ∀ n1, new_node E ft m1 = Ok n1 → ∃ n2, new_node E ft m2 = Ok n2 ∧ nwrapped n1 n2.
Proof.
  intros H. induction H as [id dc sc c ds ns1 ns2 p _ IH|id dc sc c ds ns1 ns2 p id1 dc1 sc1 c1 ds1 id2 _ IH] using wrapped_ind'.
  all: intros n1; cbn [new_node]; intros (cs1 & Hcs1 & (q1 & Hq & [= <-])%rbind_ok)%rbind_ok.
  all: assert (∃ cs2, rmap (new_node E ft) ns2 = Ok cs2 ∧ Forall2 nwrapped cs1 cs2) as (cs2 & Hcs2 & Hcs)
    by (clear -IH Hcs1; revert cs1 Hcs1; induction IH as [|a b l1 l2 Hab _ IHl]; intros cs1 Hcs1;
        [simpl in *; injection Hcs1 as <-; eauto|];
        cbn [rmap] in Hcs1 |- *; apply rbind_ok in Hcs1 as (x & Hx & (xs & Hxs & [= <-])%rbind_ok);
        destruct (Hab _ Hx) as (y & -> & Hy); destruct (IHl _ Hxs) as (ys & -> & Hys); simpl; eauto).
  - rewrite Hcs2, Hq. eexists. split; [done|]. by constructor.
  - cbn [rmap new_node]. rewrite Hcs2. cbn [rbind compile_predicate]. rewrite Hq. cbn [rbind]. eexists. split; [done|]. by constructor.
Qed.

Lemma output_dist_wrapped cx id dc cs1 cs2 ds t sc id2 t2 :
  Forall2 nwrapped cs1 cs2 → output_dist cx (Node id dc cs1 ds t sc) = output_dist cx (Node id2 dc cs2 ds t2 sc).
Proof. intros H%Forall2_length. unfold output_dist. by rewrite H. Qed.

Section wrap.
  Context (E : Ext) (cx : tctx) (r : datarow).

  Lemma first_true_alike (f : node → res (list score * presult)) d cs1 cs2 :
    Forall2 (λ a b, f a = f b) cs1 cs2 → first_true f d cs1 = first_true f d cs2.
  Proof. induction 1 as [|a b l1 l2 Hab _ IH]; [done|]. cbn [first_true]. rewrite Hab. destruct (f b) as [[s [| |]]| |]; simpl; auto. Qed.
  Lemma first_known_alike (f : node → res (list score * presult)) d cs1 cs2 :
    Forall2 (λ a b, f a = f b) cs1 cs2 → first_known f d cs1 = first_known f d cs2.
  Proof. induction 1 as [|a b l1 l2 Hab _ IH]; [done|]. cbn [first_known]. rewrite Hab. destruct (f b) as [[s [| |]]| |]; simpl; auto. Qed.
  Lemma first_true_true (f : node → res (list score * presult)) s cs x : first_true f (s, RT) cs = Ok x → x.2 = RT.
  Proof.
    induction cs as [|c cs IH]; cbn [first_true]; [by intros [= <-]|].
    destruct (f c) as [[s' [| |]]| |]; cbn [rbind]; try done; by intros [= <-].
  Qed.
  Lemma first_known_known (f : node → res (list score * presult)) s cs x : first_known f (s, RT) cs = Ok x → x.2 = RT ∨ x = ([], RU).
  Proof.
    induction cs as [|c cs IH]; cbn [first_known]; [intros [= <-]; by left|].
    destruct (f c) as [[s' [| |]]| |]; cbn [rbind]; try done; intros [= <-]; auto.
  Qed.

  Lemma nwrapped_ind' (P : node → node → Prop) :
    (∀ id dc cs1 cs2 ds t sc, Forall2 nwrapped cs1 cs2 → Forall2 P cs1 cs2 → P (Node id dc cs1 ds t sc) (Node id dc cs2 ds t sc)) →
    (∀ id dc cs1 cs2 ds t sc id1 dc1 ds1 sc1 id2, Forall2 nwrapped cs1 cs2 → Forall2 P cs1 cs2 →
       P (Node id dc cs1 ds t sc) (Node id1 dc1 [Node id2 dc cs2 ds PTrue sc] ds1 t sc1)) →
    ∀ n1 n2, nwrapped n1 n2 → P n1 n2.
  Proof.
    intros H1 H2 n1. induction n1 as [id dc cs ds t sc IH] using node_rect'. intros n2 Hn.
    assert (∀ cs2, Forall2 nwrapped cs cs2 → Forall2 P cs cs2) as Hcs.
    { intros cs2 H. clear -IH H. induction H as [|a b l1 l2 Hab _ IHl]; constructor; apply Forall_cons in IH as [Ha IH]; auto. }
    inversion Hn; subst; eauto.
  Qed.

  Lemma eval_none_wrapped n1 n2 : nwrapped n1 n2 → eval_none E cx r n1 = eval_none E cx r n2.
  Proof.
    intros H. induction H as [id dc cs1 cs2 ds t sc Hw IH|id dc cs1 cs2 ds t sc id1 dc1 ds1 sc1 id2 Hw IH] using nwrapped_ind';
      cbn [eval_none]; destruct (run_test _ _ t _) as [[| |]| |]; cbn [rbind]; try done.
    - rewrite (output_dist_wrapped cx id dc cs1 cs2 ds t sc id t Hw). by apply first_true_alike.
    - cbn [first_true eval_none run_test rbind].
      rewrite (output_dist_wrapped cx id dc cs1 cs2 ds t sc id2 PTrue Hw), (first_true_alike _ _ cs1 cs2 IH).
      destruct (first_true _ _ cs2) as [[s v]| |] eqn:Hf; [|done..]. apply first_true_true in Hf. simpl in Hf. by subst v.
  Qed.
  Lemma eval_null_wrapped n1 n2 : nwrapped n1 n2 → eval_null E cx r n1 = eval_null E cx r n2.
  Proof.
    intros H. induction H as [id dc cs1 cs2 ds t sc Hw IH|id dc cs1 cs2 ds t sc id1 dc1 ds1 sc1 id2 Hw IH] using nwrapped_ind';
      cbn [eval_null]; destruct (run_test _ _ t _) as [[| |]| |]; cbn [rbind]; try done.
    - rewrite (output_dist_wrapped cx id dc cs1 cs2 ds t sc id t Hw). by apply first_known_alike.
    - cbn [first_known eval_null run_test rbind].
      rewrite (output_dist_wrapped cx id dc cs1 cs2 ds t sc id2 PTrue Hw), (first_known_alike _ _ cs1 cs2 IH).
      destruct (first_known _ _ cs2) as [[s v]| |] eqn:Hf; [|done..]. apply first_known_known in Hf. simpl in Hf.
      by destruct Hf as [->|[= -> ->]].
  Qed.
  Lemma node_evaluate_wrapped st tk n1 n2 :
    st ∉ ["aggregateNodes"; "weightedConfidence"; "defaultChild"; "lastPrediction"] → nwrapped n1 n2 →
    node_evaluate E cx st r tk n1 = node_evaluate E cx st r tk n2.
  Proof.
    intros Hst Hn. rewrite !not_elem_of_cons in Hst. destruct Hst as (H1 & H2 & H3 & H4 & _). unfold node_evaluate.
    repeat case_str; try done; auto using eval_null_wrapped, eval_none_wrapped.
  Qed.
End wrap.

(** Trees whose roots evaluate alike. *)
Lemma tree_replaced E dd td t n e td' r :
  new_model E dd td (DTree t) = (Ok e, td') →
  (∀ ft n1, new_node E ft (tm_node t) = Ok n1 → ∃ n2, new_node E ft n = Ok n2 ∧
     ∀ cx r tk, node_evaluate E cx (tm_strategy t) r tk n1 = node_evaluate E cx (tm_strategy t) r tk n2) →
  ∃ e', new_model E dd td (DTree (with_node t n)) = (Ok e', td') ∧
        ∀ tk, (evaluate E tk e r).1 = (evaluate E tk e' r).1.
Proof.
  intros Hnew HR. revert Hnew. cbn [new_model]. unfold new_tree_model, tree_validate, with_node.
  cbn [et_model tm_function et_dd et_ft et_root et_outkeys et_target et_compiled].
  destruct (_ && _); [done|].
  unfold tree_compile. cbn [et_model tm_lt tm_schema tm_node et_dd et_target et_validated et_compiled et_outkeys et_root
    tm_function tm_strategy tm_penalty tm_notrue tm_verification].
  destruct (new_node E _ (tm_node t)) as [n1|x|p] eqn:H1; [|done..]. intros [= <- <-].
  destruct (HR _ _ H1) as (n2 & -> & Hn2).
  eexists. split; [done|]. intros tk. cbn [evaluate]. unfold tree_evaluate.
  cbn [et_validated et_compiled negb et_model tm_lt tm_strategy tm_schema et_root].
  destruct (handle_input E (tm_lt t) r) as [[u|x|p] r0]; [|done..].
  unfold tree_ctx. cbn [et_ft et_dd et_target et_model tm_penalty tm_notrue]. rewrite Hn2.
  destruct (node_evaluate _ _ _ _ _ _) as [[s v]| |]; try done. destruct v; try done.
  unfold tree_output. cbn [et_model tm_function et_target et_outkeys].
  destruct (_ =s "classification"); [by destruct (foldl _ _ _)|].
  destruct (_ =s "regression"); [|done]. done.
Qed.

Lemma rewrapped_stands_in E dd d1 d2 : rewrapped d1 d2 → stands_in E dd dd d1 d2.
Proof.
  apply rewritten_stands_in. intros t1 t2 [<-|[t n (H1 & Hw)]]; [apply stands_in_refl|].
  intros td e td' He.
  assert (∀ r, ∃ e', new_model E dd td (DTree (with_node t n)) = (Ok e', td') ∧
        ∀ tk, (evaluate E tk e r).1 = (evaluate E tk e' r).1) as Hall.
  { intros r. eapply tree_replaced; [exact He|]. intros ft n1 Hn1.
    destruct (new_node_wrapped _ _ _ _ Hw _ Hn1) as (n2 & Hn2 & Hr). exists n2. split; [done|]. intros. by apply node_evaluate_wrapped. }
  destruct (Hall None) as (e' & He' & _). exists e'. split; [done|]. intros tk r.
  destruct (Hall r) as (e'' & He'' & Heq). rewrite He' in He''. injection He'' as <-. apply Heq.
Qed.

(** ** Rows that leave nothing unknown *)
Lemma wrapped_accepted E dd td t n e td' :
  wrapped (tm_node t) n → new_model E dd td (DTree t) = (Ok e, td') → ∃ e', new_model E dd td (DTree (with_node t n)) = (Ok e', td').
Proof.
  intros Hw. cbn [new_model]. unfold new_tree_model, tree_validate, with_node.
  cbn [et_model tm_function et_dd et_ft et_root et_outkeys et_target et_compiled].
  destruct (_ && _); [done|].
  unfold tree_compile. cbn [et_model tm_lt tm_schema tm_node et_dd et_target et_validated et_compiled et_outkeys et_root
    tm_function tm_strategy tm_penalty tm_notrue tm_verification].
  destruct (new_node E _ (tm_node t)) as [n1|x|p] eqn:H1; [|done..]. intros [= <- <-].
  destruct (new_node_wrapped _ _ _ _ Hw _ H1) as (n2 & -> & _). eauto.
Qed.

Lemma late_fun (truth : mnode → presult → Prop) n l1 l2 : descend_late m_nodes truth n l1 → descend_late m_nodes truth n l2 → l1 = l2.
Proof.
  intros H1. revert l2. induction H1 as [n Hn|n a c b leaf Hk Hb Hc _ IH]; intros l2 H2; inversion H2 as [? Hn'|? a' c' b' ? Hk' Hb' Hc' Hd']; subst.
  - done.
  - exfalso. apply (Hn c'); [rewrite Hk'; set_solver|done].
  - exfalso. apply (Hn' c); [rewrite Hk; set_solver|done].
  - assert (c = c') as <-; [|by apply IH]. rewrite Hk in Hk'. clear -Hk' Hb Hb' Hc Hc'.
    revert a' Hk'. induction a as [|x a IHa]; intros [|y a'] Hk'; simplify_eq/=; [done|..].
    + exfalso. apply (Hb c'); [set_solver|done].
    + exfalso. apply (Hb' c); [set_solver|done].
    + by eapply IHa.
Qed.

Section known.
  Context (truth : mnode → presult → Prop).
  Context (Hpred : ∀ m1 m2 v, m_pred m1 = m_pred m2 → truth m1 v → truth m2 v).
  Context (Htrue : ∀ m, m_pred m = PTrue → truth m RT).

  Lemma wrapped_pred m1 m2 : wrapped m1 m2 → m_pred m1 = m_pred m2.
  Proof. by destruct 1. Qed.

  Lemma wrapped_everywhere (P : mnode → Prop) m1 m2 :
    (∀ a b, m_pred a = m_pred b → P a → P b) → (∀ a, m_pred a = PTrue → P a) →
    wrapped m1 m2 → everywhere_doc P m1 → everywhere_doc P m2.
  Proof.
    intros HP HT H. induction H as [id dc sc c ds ns1 ns2 p Hw IH|id dc sc c ds ns1 ns2 p id1 dc1 sc1 c1 ds1 id2 Hw IH] using wrapped_ind';
      intros He; inversion He as [? Hh Hc]; subst; cbn [m_nodes] in Hc.
    all: assert (Forall (everywhere_doc P) ns2) as Hns
      by (rewrite Forall_lookup in Hc |- *; intros i x Hi; destruct (Forall2_lookup_r _ _ _ _ _ IH Hi) as (a & Ha & Hab); eauto).
    - constructor; [by eapply HP; [|exact Hh]|done].
    - constructor; [by eapply HP; [|exact Hh]|]. cbn [m_nodes]. constructor; [|done]. constructor; [by apply HT|done].
  Qed.

  (** leaves that say the same *)
  Definition same_words (a b : mnode) : Prop :=
    m_dists a = m_dists b ∧ m_score a = m_score b ∧ m_count a = m_count b ∧ (m_nodes a = [] ↔ m_nodes b = []).

  Lemma late_wrapped n1 n2 : wrapped n1 n2 → ∀ l1, descend_late m_nodes truth n1 l1 →
    ∃ l2, descend_late m_nodes truth n2 l2 ∧ same_words l1 l2.
  Proof.
    intros Hw. induction Hw as [id dc sc c ds ns1 ns2 p Hw IH|id dc sc c ds ns1 ns2 p id1 dc1 sc1 c1 ds1 id2 Hw IH] using wrapped_ind'.
    all: assert (∀ ida p1 idb p2 l1, descend_late m_nodes truth (MNode ida dc sc c ds ns1 p1) l1 →
      ∃ l2, descend_late m_nodes truth (MNode idb dc sc c ds ns2 p2) l2 ∧ same_words l1 l2) as Hgo.
    1,3: intros ida p1 idb p2 l1 Hd; inversion Hd as [? Hn|? a k b ? Hk Hb Hc Hd']; subst; cbn [m_nodes] in *;
      [ eexists; split; [apply late_stop; cbn [m_nodes]; intros x Hx Hv; apply elem_of_list_lookup in Hx as [i Hi];
          destruct (Forall2_lookup_r _ _ _ _ _ Hw Hi) as (y & Hy & Hyx); apply (Hn y); [by eapply elem_of_list_lookup_2|];
          eapply Hpred; [symmetry; by apply wrapped_pred|done]
        | split_and!; try done; simpl; pose proof (Forall2_length _ _ _ Hw) as Hlen; destruct ns1, ns2; done ]
      | subst ns1; apply Forall2_app_inv_l in Hw as (a2 & b2' & Ha2 & Hb2' & ->);
        apply Forall2_cons_inv_l in Hb2' as (k2 & b2 & Hk2 & Hb2 & ->);
        apply Forall2_app_inv in IH as [_ IH]; [|by eapply Forall2_length];
        apply Forall2_cons in IH as [IH _]; destruct (IH _ Hd') as (l2 & Hl2 & Hs); exists l2; split; [|done];
        apply (late_step _ _ _ a2 k2 b2); [done| |eapply Hpred; [by apply wrapped_pred|done]|done];
        intros x Hx Hv; apply elem_of_list_lookup in Hx as [i Hi]; destruct (Forall2_lookup_r _ _ _ _ _ Hb2 Hi) as (y & Hy & Hyx);
        apply (Hb y); [by eapply elem_of_list_lookup_2|]; eapply Hpred; [symmetry; by apply wrapped_pred|done] ].
    - intros l1. apply Hgo.
    - intros l1 Hd. destruct (Hgo _ _ id2 PTrue _ Hd) as (l2 & Hl2 & Hs). exists l2. split; [|done].
      apply (late_step _ _ _ [] (MNode id2 dc sc c ds ns2 PTrue) []); [done| |by apply Htrue|done]. intros x Hx. by apply elem_of_nil in Hx.
  Qed.
End known.

Lemma same_words_dist dd t a b : same_words a b → node_dist dd t a = node_dist dd t b.
Proof.
  intros (H1 & H2 & H3 & H4). unfold node_dist, doc_dist. rewrite H1, H2, H3.
  rewrite (decide_ext (m_nodes a ≠ [] ∧ _) (m_nodes b ≠ [] ∧ tm_notrue t = "returnNullPrediction")) by (by rewrite H4). done.
Qed.
