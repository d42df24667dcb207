(** The answers of subtrees under the four strategies that ask every child. *)
From Verif Require Import Base Strconv Value Doc Expr Pred Tree Lib SpecPred ProofsPred
  SpecExpr ProofsExpr SpecConstruct ProofsConstruct SpecTree ProofsTree ProofsOutput ProofsEval ProofsDoc ProofsClass.

Lemma everywhere_in_mono {N} (kids : N → list N) (P Q : N → Prop) n :
  (∀ n, P n → Q n) → everywhere_in kids P n → everywhere_in kids Q n.
Proof. intros H. apply everywhere_in_ind'. intros m Hm Hk. constructor; auto. Qed.

Lemma everywhere_in_and {N} (kids : N → list N) (P Q : N → Prop) n :
  everywhere_in kids P n → everywhere_in kids Q n → everywhere_in kids (λ n, P n ∧ Q n) n.
Proof.
  intros HP. revert n HP. apply (everywhere_in_ind' kids P (λ n, everywhere_in kids Q n → everywhere_in kids (λ n, P n ∧ Q n) n)).
  intros n Hn Hk HQ. inversion HQ as [? HQn HQk]; subst. constructor; [done|].
  apply Forall_forall. intros c Hc. rewrite Forall_forall in Hk, HQk. by apply Hk, HQk.
Qed.

(** ** Uniqueness *)
Lemma subtree_answer_fun (truth : mnode → presult → Prop) dist (falses : mnode → list score → Prop) trues
    (unknown : mnode → presult → list answer_t → answer_t → Prop) m x y :
  (∀ m v w, truth m v → truth m w → v = w) →
  (∀ m s s', falses m s → falses m s' → s = s') →
  (∀ m w rs x y, unknown m w rs x → unknown m w rs y → x = y) →
  subtree_answer truth dist falses trues unknown m x →
  subtree_answer truth dist falses trues unknown m y → x = y.
Proof.
  intros Ht Hf Hu Hx. revert y.
  induction Hx as [m s Hr Hs|m w rs x Hw Hne Hlen _ IH Hex Hunk|m w rs Hw Hne Hlen _ IH Hall Hts|m w rs Hw Hne Hlen _ IH Hall Hts];
    intros y Hy; destruct Hy as [m s' Hr' Hs'|m w' rs' y Hw' Hne' Hlen' Hy Hex' Hunk'|m w' rs' Hw' Hne' Hlen' Hy Hall' Hts'|m w' rs' Hw' Hne' Hlen' Hy Hall' Hts'];
    try (pose proof (Ht _ _ _ Hw Hw') as <-); try (pose proof (Ht _ _ _ Hr Hr') as Heq);
    try (exfalso; by eauto).
  1: by rewrite (Hf _ _ _ Hs Hs').
  all: assert (rs = rs') as <-; [|try done; try (by destruct Hex as (z & Hz & Hzu); apply Hall' in Hz);
         try (by destruct Hex' as (z & Hz & Hzu); apply Hall in Hz); try (by eapply Hu)].
  all: apply list_eq; intros i; destruct (m_nodes m !! i) as [c|] eqn:Hc.
  all: pose proof (lookup_lt_is_Some (m_nodes m) i) as Hlt; rewrite Hc in Hlt.
  all: try (rewrite !lookup_ge_None_2; [done|apply lookup_ge_None in Hc; lia|apply lookup_ge_None in Hc; lia]).
  all: apply proj1 in Hlt; specialize (Hlt ltac:(eauto)).
  all: assert (is_Some (rs !! i)) as [a Ha] by (apply lookup_lt_is_Some; lia).
  all: assert (is_Some (rs' !! i)) as [b Hb] by (apply lookup_lt_is_Some; lia).
  all: rewrite Ha, Hb; f_equal; eapply IH; eauto.
Qed.

Section strategies.
  Context (E : Ext) (dd : list data_field) (td : list derived_field) (t : tree_model) (r : datarow).
  Let ft : fieldtypes := field_types dd (td ++ tm_lt t).
  Let truth := doc_truth E dd td t r.
  Let dist := node_dist dd t.

  Lemma answer_fun tk m x y : answer E dd td t tk r m x → answer E dd td t tk r m y → x = y.
  Proof. intros (n & Hn & Hx) (n' & Hn' & Hy). unfold compiled_to in *. congruence. Qed.

  Lemma truth_fun m v w : truth m v → truth m w → v = w.
  Proof. intros (p & Hp & Hx) (p' & Hp' & Hy). congruence. Qed.

  (** the induction behind the four totality lemmas; [ct] numbers the children's
      map ranges *)
  Lemma subtree_total falses trues unknown (ct : nat → ticket → ticket) (ok : mnode → Prop) :
    (∀ tk m n, ok m → compiled_to E ft m n → truth m RF → ∃ s, falses m s ∧ answer E dd td t tk r m (s, RF)) →
    (∀ tk m w rs, ok m → truth m w → w ≠ RF → length rs = length (m_nodes m) →
       (∀ i c x, m_nodes m !! i = Some c → rs !! i = Some x → answer E dd td t (ct i tk) r c x) →
       (∃ x, x ∈ rs ∧ x.2 = RU) → ∃ x, unknown m w rs x ∧ answer E dd td t tk r m x) →
    (∀ tk m w rs, ok m → truth m w → w ≠ RF → length rs = length (m_nodes m) →
       (∀ i c x, m_nodes m !! i = Some c → rs !! i = Some x → answer E dd td t (ct i tk) r c x) →
       (∀ x, x ∈ rs → x.2 ≠ RU) →
       answer E dd td t tk r m (if decide (true_scores rs = []) then (dist m, w) else (true_scores rs, trues w))) →
    ∀ m n tk, compiled_to E ft m n → everywhere_doc (λ m, ok m ∧ ∃ v, truth m v) m →
      ∃ x, subtree_answer truth dist falses trues unknown m x ∧ answer E dd td t tk r m x.
  Proof.
    intros Hf Hu Hk m. induction m as [id dc sc c ds ns pr IH] using mnode_rect'. intros n tk Hn Hev.
    set (m := MNode id dc sc c ds ns pr) in *.
    inversion Hev as [? [Hok [w Hw]] Hkids]; subst. simpl in Hkids.
    destruct (decide (w = RF)) as [->|Hne].
    { destruct (Hf tk m n Hok Hn Hw) as (s & Hs & Ha). exists (s, RF). split; [by apply ans_false|done]. }
    assert (∀ f : nat → ticket, ∃ rs, length rs = length ns ∧ ∀ i c x, ns !! i = Some c → rs !! i = Some x →
              subtree_answer truth dist falses trues unknown c x ∧ answer E dd td t (f i) r c x) as Hch.
    { apply compiled_kids in Hn. simpl in Hn. clear Hev.
      revert Hn Hkids IH. generalize (n_children n) as cs. clear. intros cs Hcs.
      induction Hcs as [|a b l k Hab _ IHl]; intros Hkids IH f.
      - exists []. split; [done|]. intros i c x. by rewrite lookup_nil.
      - apply Forall_cons in Hkids as [Ha Hl]. apply Forall_cons in IH as [IHa IH].
        destruct (IHl Hl IH (λ i, f (S i))) as (rs & Hlen & Hrs). destruct (IHa b (f 0) Hab Ha) as (x & Hx).
        exists (x :: rs). split; [simpl; by rewrite Hlen|]. intros [|i] c y H1 H2; simpl in *; [by simplify_eq|by apply Hrs]. }
    destruct (Hch (λ i, ct i tk)) as (rs & Hlen & Hrs).
    assert (Hsub : ∀ i c y, m_nodes m !! i = Some c → rs !! i = Some y →
      subtree_answer truth dist falses trues unknown c y) by (intros; by eapply Hrs).
    assert (Hans : ∀ i c y, m_nodes m !! i = Some c → rs !! i = Some y → answer E dd td t (ct i tk) r c y)
      by (intros; by eapply Hrs).
    destruct (decide (Exists (λ x, x.2 = RU) rs)) as [Hex%Exists_exists|Hno].
    - destruct (Hu tk m w rs Hok Hw Hne Hlen Hans Hex) as (x & Hx & Ha). exists x. split; [|done].
      by eapply ans_unknown.
    - assert (Hall : ∀ x, x ∈ rs → x.2 ≠ RU).
      { intros x Hx Hxu. apply Hno, Exists_exists. eauto. }
      specialize (Hk tk m w rs Hok Hw Hne Hlen Hans Hall). eexists. split; [|exact Hk].
      case_decide; [by eapply ans_stop|by eapply ans_true].
  Qed.

  Lemma to_Forall2 tk m rs :
    length rs = length (m_nodes m) →
    (∀ i c x, m_nodes m !! i = Some c → rs !! i = Some x → answer E dd td t tk r c x) →
    Forall2 (answer E dd td t tk r) (m_nodes m) rs.
  Proof. intros Hlen H. apply Forall2_same_length_lookup. split; [done|]. exact H. Qed.

  Lemma last_known_cases {A} (rs : list answer_t) (f : list score → A) (d : A) :
    match last (filter (λ x : list score * presult, x.2 = RT) rs) with
    | Some (s :: ss, _) => f (s :: ss)
    | _ => d
    end = if decide (true_scores rs = []) then d else f (true_scores rs).
  Proof.
    unfold true_scores. destruct (last _) as [[[|s ss] v]|]; done.
  Qed.

  (** *** defaultChild *)
  Lemma default_total m n tk :
    tm_strategy t = "defaultChild" → compiled_to E ft m n →
    everywhere_doc (λ m, ∃ v, truth m v) m →
    ∃ x, default_answer truth dist (tm_penalty t) m x ∧ answer E dd td t tk r m x.
  Proof.
    intros Hst Hn Hev. eapply (subtree_total _ _ _ (λ _ tk, tk) (λ _, True)); [..|exact Hn|].
    - intros tk' m' n' _ Hn' (p & Hp & Hr). exists []. split; [done|]. exists n'. split; [done|].
      destruct m' as [id dc sc c ds ns pr]. unfold compiled_to in Hn'. simpl in Hn', Hp. fold ft in Hp, Hr.
      apply rbind_ok in Hn' as (cs & _ & Hn'). rewrite Hp in Hn'. simpl in Hn'. injection Hn' as <-.
      rewrite Hst. unfold node_evaluate. simpl. fold ft. by rewrite Hr.
    - intros tk' m' w rs _ Hw Hne Hlen Hrs Hu. eexists. split; [reflexivity|].
      apply (default_answer_unknown E dd td t r tk' m' w rs Hst Hw Hne); [|done]. by apply to_Forall2.
    - intros tk' m' w rs _ Hw Hne Hlen Hrs Hk.
      pose proof (default_answer_known E dd td t r tk' m' w rs Hst Hw Hne (to_Forall2 _ _ _ Hlen Hrs) Hk) as H.
      rewrite <- (last_known_cases rs (λ s, (s, RT)) (dist m', w)). exact H.
    - eapply everywhere_in_mono; [|exact Hev]. done.
  Qed.

  (** *** lastPrediction *)
  Lemma last_ask tk m w rs :
    tm_strategy t = "lastPrediction" → truth m w → w ≠ RF →
    Forall2 (answer E dd td t tk r) (m_nodes m) rs →
    answer E dd td t tk r m
      (let '(unk, td') := foldl scan_step (false, []) rs in
       if negb unk && negb (Nat.eqb (length td') 0) then (td', RT) else (dist m, w)).
  Proof.
    intros Hst Hw Hne (ns & Hns & Hev)%children_answers. unfold answer in *. rewrite Hst in *.
    destruct (compiled_build E ft r m w ns Hw Hns) as (n & Hn & Hch & Hv).
    exists n. split; [done|]. 
    change (node_evaluate E (doc_ctx dd td t) "lastPrediction" r tk n) with (eval_last E (doc_ctx dd td t) r n).
    change (Forall2 (λ n x, eval_last E (doc_ctx dd td t) r n = Ok x) ns rs) in Hev.
    apply rmap_ok in Hev. unfold dist, node_dist. rewrite <- (doc_dist_of E dd td t m n Hn).
    destruct n as [id dc cs ds te sc]. simpl in Hch. subst cs. unfold verdict in Hv. simpl in Hv |- *.
    fold ft in Hv |- *. rewrite Hv. simpl. rewrite Hev. simpl.
    destruct (foldl scan_step (false, []) rs) as [unk td']. 
    destruct w; [|..|done]; by destruct (negb unk && negb (Nat.eqb (length td') 0)).
  Qed.

  Lemma last_total m n tk :
    tm_strategy t = "lastPrediction" → compiled_to E ft m n →
    everywhere_doc (λ m, ∃ v, truth m v) m →
    ∃ x, last_answer truth dist m x ∧ answer E dd td t tk r m x.
  Proof.
    intros Hst Hn Hev. eapply (subtree_total _ _ _ (λ _ tk, tk) (λ _, True)); [..|exact Hn|].
    - intros tk' m' n' _ Hn' (p & Hp & Hr). exists []. split; [done|]. exists n'. split; [done|].
      destruct m' as [id dc sc c ds ns pr]. unfold compiled_to in Hn'. simpl in Hn', Hp. fold ft in Hp, Hr.
      apply rbind_ok in Hn' as (cs & _ & Hn'). rewrite Hp in Hn'. simpl in Hn'. injection Hn' as <-.
      rewrite Hst. unfold node_evaluate. simpl. fold ft. by rewrite Hr.
    - intros tk' m' w rs _ Hw Hne Hlen Hrs Hu. eexists. split; [reflexivity|].
      pose proof (last_ask tk' m' w rs Hst Hw Hne (to_Forall2 _ _ _ Hlen Hrs)) as H.
      apply scan_unknown_true in Hu. destruct (foldl scan_step _ _) as [unk td']. simpl in Hu. by subst unk.
    - intros tk' m' w rs _ Hw Hne Hlen Hrs Hk.
      pose proof (last_ask tk' m' w rs Hst Hw Hne (to_Forall2 _ _ _ Hlen Hrs)) as H.
      assert (Hf : (foldl scan_step (false, []) rs).1 = false) by (apply scan_unknown_false, Forall_forall; exact Hk).
      pose proof (scan_true (false, []) rs) as Ht. unfold true_scores.
      destruct (foldl scan_step _ _) as [unk td']. simpl in Hf, Ht. subst unk. rewrite <- Ht.
      clear Ht. by destruct td'.
    - eapply everywhere_in_mono; [|exact Hev]. done.
  Qed.

  (** *** aggregateNodes *)
  Lemma aggregate_answer_known tk m w rs :
    tm_strategy t = "aggregateNodes" → truth m w → w ≠ RF →
    length rs = length (m_nodes m) →
    (∀ i c x, m_nodes m !! i = Some c → rs !! i = Some x → answer E dd td t (S i :: tk) r c x) →
    (∀ x, x ∈ rs → x.2 ≠ RU) →
    answer E dd td t tk r m (if decide (true_scores rs = []) then (dist m, w) else (true_scores rs, w)).
  Proof.
    intros Hst Hw Hne Hlen Hrs Hk.
    destruct (children_answers_i E dd td t r tk 1 m rs Hlen Hrs) as (ns & Hns & Hev).
    unfold answer in *. rewrite Hst in *.
    destruct (compiled_build E ft r m w ns Hw Hns) as (n & Hn & Hch & Hv).
    exists n. split; [done|].
    change (node_evaluate E (doc_ctx dd td t) "aggregateNodes" r tk n) with (eval_aggregate E (doc_ctx dd td t) r tk n).
    change (rmapi (λ i n, eval_aggregate E (doc_ctx dd td t) r (i :: tk) n) 1 ns = Ok rs) in Hev.
    unfold dist, node_dist. rewrite <- (doc_dist_of E dd td t m n Hn).
    destruct n as [id dc cs ds te sc]. simpl in Hch. subst cs. unfold verdict in Hv. simpl in Hv |- *.
    fold ft in Hv |- *. rewrite Hv. simpl. rewrite Hev. simpl.
    assert (Hf : (foldl scan_step (false, []) rs).1 = false) by (apply scan_unknown_false, Forall_forall; exact Hk).
    pose proof (scan_true (false, []) rs) as Ht. unfold true_scores.
    destruct (foldl scan_step _ _) as [unk td']. simpl in Hf, Ht. subst unk. rewrite <- Ht.
    clear Ht. by destruct td', w.
  Qed.

  Lemma aggregate_total m n tk :
    tm_strategy t = "aggregateNodes" → compiled_to E ft m n →
    everywhere_doc (λ m, ∃ v, truth m v) m →
    ∃ x, aggregate_answer truth dist m x ∧ answer E dd td t tk r m x.
  Proof.
    intros Hst Hn Hev. eapply (subtree_total _ _ _ (λ i tk, S i :: tk) (λ _, True)); [..|exact Hn|].
    - intros tk' m' n' _ Hn' (p & Hp & Hr). exists (dist m'). split; [done|]. exists n'. split; [done|].
      unfold dist, node_dist. rewrite <- (doc_dist_of E dd td t m' n' Hn').
      destruct m' as [id dc sc c ds ns pr]. unfold compiled_to in Hn'. simpl in Hn', Hp. fold ft in Hp, Hr.
      apply rbind_ok in Hn' as (cs & _ & Hn'). rewrite Hp in Hn'. simpl in Hn'. injection Hn' as <-.
      rewrite Hst. unfold node_evaluate. simpl. fold ft. by rewrite Hr.
    - intros tk' m' w rs _ Hw Hne Hlen Hrs Hu.
      destruct (aggregate_answer_unknown E dd td t r tk' m' w rs Hst Hw Hne Hlen Hrs Hu) as (out & Ha & Hnd & Hs).
      exists (out, RT). split; [|done]. split; [|done]. by split.
    - intros tk' m' w rs _ Hw Hne Hlen Hrs Hk. by apply aggregate_answer_known.
    - eapply everywhere_in_mono; [|exact Hev]. done.
  Qed.

  (** *** weightedConfidence *)
  Lemma weighted_answer_known tk m w rs :
    tm_strategy t = "weightedConfidence" → truth m w → w ≠ RF →
    length rs = length (m_nodes m) →
    (∀ i c x, m_nodes m !! i = Some c → rs !! i = Some x → answer E dd td t (S (S i) :: tk) r c x) →
    (∀ x, x ∈ rs → x.2 ≠ RU) →
    answer E dd td t tk r m (if decide (true_scores rs = []) then (dist m, w) else (true_scores rs, w)).
  Proof.
    intros Hst Hw Hne Hlen Hrs Hk.
    destruct (children_answers_i E dd td t r tk 2 m rs Hlen Hrs) as (ns & Hns & Hev).
    unfold answer in *. rewrite Hst in *.
    destruct (compiled_build E ft r m w ns Hw Hns) as (n & Hn & Hch & Hv).
    exists n. split; [done|].
    change (node_evaluate E (doc_ctx dd td t) "weightedConfidence" r tk n) with (eval_weighted E (doc_ctx dd td t) r tk n).
    change (rmapi (λ i n, eval_weighted E (doc_ctx dd td t) r (i :: tk) n) 2 ns = Ok rs) in Hev.
    unfold dist, node_dist. rewrite <- (doc_dist_of E dd td t m n Hn).
    destruct n as [id dc cs ds te sc]. simpl in Hch. subst cs. unfold verdict in Hv. simpl in Hv |- *.
    fold ft in Hv |- *. rewrite Hv. simpl. rewrite Hev. simpl.
    assert (Hf : (foldl scan_step (false, []) rs).1 = false) by (apply scan_unknown_false, Forall_forall; exact Hk).
    pose proof (scan_true (false, []) rs) as Ht. unfold true_scores.
    destruct (foldl scan_step _ _) as [unk td']. simpl in Hf, Ht. subst unk. rewrite <- Ht.
    destruct (foldl wc_collect _ _) as [[counts scores] total].
    clear Ht. by destruct td', w.
  Qed.

  Lemma weighted_total m n tk :
    tm_strategy t = "weightedConfidence" → compiled_to E ft m n →
    everywhere_doc (λ m, NoDup (m_id <$> m_nodes m) ∧ ∃ v, truth m v) m →
    ∃ x, weighted_answer truth dist m x ∧ answer E dd td t tk r m x.
  Proof.
    intros Hst Hn Hev.
    eapply (subtree_total _ _ _ (λ i tk, S (S i) :: tk) (λ m, NoDup (m_id <$> m_nodes m))); [..|exact Hn|exact Hev].
    - intros tk' m' n' _ Hn' (p & Hp & Hr).
      destruct m' as [id dc sc c ds ns pr]. unfold answer, compiled_to in *. simpl in Hn', Hp |- *. fold ft in Hp, Hr.
      pose proof Hn' as Hn2.
      apply rbind_ok in Hn' as (cs & _ & Hn'). rewrite Hp in Hn'. simpl in Hn'. injection Hn' as <-.
      eexists. split; [done|]. eexists. split; [exact Hn2|].
      rewrite Hst. unfold node_evaluate. simpl. fold ft. by rewrite Hr.
    - intros tk' m' w rs Hok Hw Hne Hlen Hrs Hu.
      destruct (weighted_answer_unknown E dd td t r tk' m' w rs Hst Hw Hne Hok Hlen Hrs Hu)
        as (out & l & Ha & Hnd & Hp & Hs).
      exists (out, RT). split; [|done]. split; [|done]. exists l. split; [done|]. by split.
    - intros tk' m' w rs _ Hw Hne Hlen Hrs Hk. by apply weighted_answer_known.
  Qed.

  (** every node of an accepted document has a truth value *)
  Lemma all_truths te :
    tree_of E dd td t te → everywhere_doc has_pred (tm_node t) →
    everywhere_doc (λ m, ∃ v, truth m v) (tm_node t).
  Proof.
    intros Ht Hp. pose proof (doc_verdicts E dd td t te Ht r Hp) as Hv.
    eapply (transport_everywhere n_children m_nodes (flip (compiled_to E ft))); [..|exact Hv|exact (doc_root _ _ _ _ _ Ht)].
    - intros a b Hab. apply compiled_kids'. exact Hab.
    - intros a b Hab [v Hx]. exists v. by apply (compiled_truth _ _ _ _ _ _ Hab).
  Qed.
End strategies.

(** ** Evaluate *)
Section documents.
  Context (E : Ext) (dd : list data_field) (td : list derived_field) (t : tree_model).
  Context (te : etree) (Ht : tree_of E dd td t te).
  Context (tk : ticket) (r r' : datarow) (Hi : handle_input E (tm_lt t) r = (Ok tt, r')).
  Context (Hp : everywhere_doc has_pred (tm_node t)).
  Let truth := doc_truth E dd td t r'.
  Let dist := node_dist dd t.

  Lemma root_final x :
    answer E dd td t tk r' (tm_node t) x → (tree_evaluate E tk te r).1 = (final E t x, r').
  Proof. destruct x as [s v]. intros Ha. by rewrite (root_answer E dd td t te tk r r' s v Ht Hi Ha). Qed.

  Lemma last_exact :
    tm_strategy t = "lastPrediction" →
    (∃ x, last_answer truth dist (tm_node t) x) ∧
    ∀ x, last_answer truth dist (tm_node t) x → (tree_evaluate E tk te r).1 = (final E t x, r').
  Proof.
    intros Hst. destruct (last_total E dd td t r' (tm_node t) (et_root te) tk Hst (doc_root _ _ _ _ _ Ht)
      (all_truths E dd td t r' te Ht Hp)) as (x & Hx & Ha).
    split; [by exists x|]. intros y Hy. assert (y = x) as ->; [|by apply root_final].
    eapply subtree_answer_fun; [..|exact Hy|exact Hx]; [apply truth_fun|..]; naive_solver.
  Qed.

  Lemma default_exact :
    tm_strategy t = "defaultChild" →
    (∃ x, default_answer truth dist (tm_penalty t) (tm_node t) x) ∧
    ∀ x, default_answer truth dist (tm_penalty t) (tm_node t) x →
      (tree_evaluate E tk te r).1 = (final E t x, r').
  Proof.
    intros Hst. destruct (default_total E dd td t r' (tm_node t) (et_root te) tk Hst (doc_root _ _ _ _ _ Ht)
      (all_truths E dd td t r' te Ht Hp)) as (x & Hx & Ha).
    split; [by exists x|]. intros y Hy. assert (y = x) as ->; [|by apply root_final].
    eapply subtree_answer_fun; [..|exact Hy|exact Hx]; [apply truth_fun|..]; naive_solver.
  Qed.

  Lemma aggregate_exact :
    tm_strategy t = "aggregateNodes" →
    ∃ x, aggregate_answer truth dist (tm_node t) x ∧ (tree_evaluate E tk te r).1 = (final E t x, r').
  Proof.
    intros Hst. destruct (aggregate_total E dd td t r' (tm_node t) (et_root te) tk Hst (doc_root _ _ _ _ _ Ht)
      (all_truths E dd td t r' te Ht Hp)) as (x & Hx & Ha).
    exists x. split; [done|]. by apply root_final.
  Qed.

  Lemma weighted_exact :
    tm_strategy t = "weightedConfidence" →
    everywhere_doc (λ m, NoDup (m_id <$> m_nodes m)) (tm_node t) →
    ∃ x, weighted_answer truth dist (tm_node t) x ∧ (tree_evaluate E tk te r).1 = (final E t x, r').
  Proof.
    intros Hst Hid. destruct (weighted_total E dd td t r' (tm_node t) (et_root te) tk Hst (doc_root _ _ _ _ _ Ht))
      as (x & Hx & Ha).
    { apply everywhere_in_and; [done|]. by apply (all_truths E dd td t r' te). }
    exists x. split; [done|]. by apply root_final.
  Qed.
End documents.
