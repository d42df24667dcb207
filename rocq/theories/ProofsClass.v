(** The classes a tree can report, and what its strategies answer, in terms of
    the document. *)
From Verif Require Import Base Strconv Value Doc Expr Pred Tree Regression Model Lib
  SpecPred ProofsPred SpecExpr ProofsExpr SpecConstruct ProofsConstruct ProofsRange
  SpecTree ProofsTree ProofsOutput ProofsEval ProofsDoc ProofsSafe ProofsWhole.

(** a list of scores with (under ND) one entry per class, all classes in P *)
Definition class_list (ND : Prop) (P : string → Prop) (s : list score) : Prop :=
  (ND → NoDup (sc_value <$> s)) ∧ ∀ v, v ∈ sc_value <$> s → P v.

Lemma class_list_nil ND P : class_list ND P [].
Proof. split; [constructor|]. by intros v ?%elem_of_nil. Qed.

Section classes.
  Context (ND : Prop) (P : string → Prop).
  Notation cls := (class_list ND P).

  Lemma adjust_class p s : cls s → cls (adjust p <$> s).
  Proof.
    unfold class_list. rewrite <- list_fmap_compose.
    replace (sc_value ∘ adjust p <$> s) with (sc_value <$> s); [done|]. by apply list_fmap_ext.
  Qed.

  Lemma scan_class acc rs :
    cls acc.2 → Forall (λ x : list score * presult, x.2 = RT → cls x.1) rs →
    cls (foldl scan_step acc rs).2.
  Proof.
    intros Ha H. revert acc Ha. induction H as [|[s v] rs Hx _ IH]; intros [u td] Ha; [done|].
    cbn [foldl]. apply IH. destruct v; simpl in *; auto.
  Qed.

  (** aggregated maps: keyed by their own class *)
  Definition keyed (agg : gmap string score) : Prop :=
    ∀ k a, agg !! k = Some a → sc_value a = k ∧ P k.

  Lemma keyed_empty : keyed ∅.
  Proof. intros k a H. by rewrite lookup_empty in H. Qed.

  Lemma keyed_range {A} E tk agg (f : string * score → A) (g : A → string) :
    keyed agg → (∀ k a, g (f (k, a)) = sc_value a) →
    (ND → NoDup (g <$> (f <$> map_range E tk agg))) ∧
    ∀ v, v ∈ g <$> (f <$> map_range E tk agg) → P v.
  Proof.
    intros Hk Hg.
    assert (g <$> (f <$> map_range E tk agg) = (map_range E tk agg).*1) as ->.
    { rewrite <- list_fmap_compose. apply fmap_ext_in. intros [k a] Hin. simpl. rewrite Hg.
      apply map_range_elem in Hin. by apply Hk in Hin as [? _]. }
    split; [intros _; apply map_range_nodup|]. intros v ([k a] & -> & Hin)%elem_of_list_fmap.
    apply map_range_elem in Hin. by apply Hk in Hin as [_ ?].
  Qed.

  Lemma wc_add_keyed w agg s : keyed agg → P (sc_value s) → keyed (wc_add w agg s).
  Proof.
    intros Hk Hs k a. unfold wc_add. destruct (decide (k = sc_value s)) as [->|Hne].
    - rewrite lookup_insert. intros [= <-]. split; [|done]. simpl.
      destruct (agg !! sc_value s) as [b|] eqn:Hb; simpl; [by apply Hk in Hb as [? _]|done].
    - rewrite lookup_insert_ne by done. apply Hk.
  Qed.

  Lemma wc_adds_keyed w agg ss :
    keyed agg → (∀ v, v ∈ sc_value <$> ss → P v) → keyed (foldl (wc_add w) agg ss).
  Proof.
    revert agg. induction ss as [|s ss IH]; intros agg Hk Hs; [done|]. cbn [foldl].
    apply IH; [|intros v Hv; apply Hs; simpl; set_solver].
    apply wc_add_keyed; [done|]. apply Hs. simpl. set_solver.
  Qed.

  Lemma an_add_keyed acc s : keyed acc.1 → P (sc_value s) → keyed (an_add acc s).1.
  Proof.
    destruct acc as [agg total]. simpl. intros Hk Hs k a.
    destruct (decide (k = sc_value s)) as [->|Hne].
    - rewrite lookup_insert. intros [= <-]. split; [|done]. simpl.
      destruct (agg !! sc_value s) as [b|] eqn:Hb; simpl; [by apply Hk in Hb as [? _]|done].
    - rewrite lookup_insert_ne by done. apply Hk.
  Qed.

  Lemma an_adds_keyed acc ss :
    keyed acc.1 → (∀ v, v ∈ sc_value <$> ss → P v) → keyed (foldl an_add acc ss).1.
  Proof.
    revert acc. induction ss as [|s ss IH]; intros acc Hk Hs; [done|]. cbn [foldl].
    apply IH; [|intros v Hv; apply Hs; simpl; set_solver].
    apply an_add_keyed; [done|]. apply Hs. simpl. set_solver.
  Qed.

  Lemma wc_collect_classes l acc :
    (∀ k ss, acc.1.2 !! k = Some ss → cls ss) →
    Forall (λ x : node * (list score * presult), cls x.2.1) l →
    ∀ k ss, (foldl wc_collect acc l).1.2 !! k = Some ss → cls ss.
  Proof.
    intros Ha H. revert acc Ha. induction H as [|[c [s v]] l Hx _ IH]; intros [[co sc] to] Ha; [done|].
    cbn [foldl]. apply IH. intros k ss. destruct v; simpl in *; [| |apply Ha].
    - destruct (decide (k = n_id c)) as [->|Hne]; [rewrite lookup_insert; naive_solver|].
      rewrite lookup_insert_ne by done. apply Ha.
    - destruct (decide (k = n_id c)) as [->|Hne]; [rewrite lookup_insert; naive_solver|].
      rewrite lookup_insert_ne by done. apply Ha.
  Qed.

  Section nodes.
    Context (E : Ext) (cx : tctx) (r : datarow).
    Notation nodes_ok := (everywhere (λ n, cls (output_dist cx n) ∧ cls (n_dists n))).

    Lemma eval_none_class n x : nodes_ok n → eval_none E cx r n = Ok x → cls x.1.
    Proof.
      revert x. induction n as [id dc cs ds t sc IH] using node_rect'. intros x Hd.
      inversion Hd as [? Hn Hc]; subst. cbn [eval_none]. cbn [n_children] in Hc.
      intros (v & Hv & H)%rbind_ok. destruct v; try (injection H as <-; apply class_list_nil).
      apply first_true_spec in H as [[_ ->]|(l1 & a & l2 & s & -> & _ & Ha & ->)]; [apply Hn|].
      rewrite Forall_forall in IH, Hc. assert (a ∈ l1 ++ a :: l2) as Hin by set_solver.
      by apply (IH a Hin _ (Hc a Hin) Ha).
    Qed.

    Lemma eval_null_class n x : nodes_ok n → eval_null E cx r n = Ok x → cls x.1.
    Proof.
      revert x. induction n as [id dc cs ds t sc IH] using node_rect'. intros x Hd.
      inversion Hd as [? Hn Hc]; subst. cbn [eval_null]. cbn [n_children] in Hc.
      intros (v & Hv & H)%rbind_ok. destruct v; try (injection H as <-; apply class_list_nil).
      apply first_known_spec in H as [[_ ->]|(l1 & a & l2 & s & -> & _ & [[Ha ->]|[Ha ->]])];
        [apply Hn| |apply class_list_nil].
      rewrite Forall_forall in IH, Hc. assert (a ∈ l1 ++ a :: l2) as Hin by set_solver.
      by apply (IH a Hin _ (Hc a Hin) Ha).
    Qed.

    Lemma rmap_class {A} (f : A → res (list score * presult)) l rs :
      Forall (λ c, ∀ x, f c = Ok x → cls x.1) l → rmap f l = Ok rs →
      Forall (λ x : list score * presult, cls x.1) rs.
    Proof.
      intros H Hr%rmap_ok. induction Hr as [|a b l k Hab _ IH]; [constructor|].
      apply Forall_cons in H as [H1 H2]. constructor; auto.
    Qed.

    Lemma rmapi_class {A} (f : nat → A → res (list score * presult)) i l rs :
      Forall (λ c, ∀ i x, f i c = Ok x → cls x.1) l → rmapi f i l = Ok rs →
      Forall (λ x : list score * presult, cls x.1) rs.
    Proof.
      revert i rs. induction l as [|a l IH]; intros i rs H; cbn [rmapi].
      - intros [= <-]. constructor.
      - apply Forall_cons in H as [Ha H].
        intros (b & Hb & (bs & Hbs & [= <-])%rbind_ok)%rbind_ok. constructor; eauto.
    Qed.

    Lemma eval_last_class n x : nodes_ok n → eval_last E cx r n = Ok x → cls x.1.
    Proof.
      revert x. induction n as [id dc cs ds t sc IH] using node_rect'. intros x Hd.
      inversion Hd as [? Hn Hc]; subst. cbn [eval_last]. cbn [n_children] in Hc.
      assert (IH' : Forall (λ c, ∀ x, eval_last E cx r c = Ok x → cls x.1) cs).
      { rewrite Forall_forall in *. intros c Hin y Hy. apply (IH c Hin); [by apply Hc|done]. }
      intros (v & Hv & H)%rbind_ok. destruct v; try (by injection H as <-; apply class_list_nil);
        apply rbind_ok in H as (rs & Hrs & H); pose proof (rmap_class _ _ _ IH' Hrs) as Hcl;
        pose proof (scan_class (false, []) rs (class_list_nil ND P)) as Hs;
        (feed specialize Hs; [by eapply Forall_impl; [exact Hcl|]|]);
        destruct (foldl _ _ _) as [u td]; destruct (negb u && _); simplify_eq; try done; apply Hn.
    Qed.

    Lemma eval_default_class n x : nodes_ok n → eval_default E cx r n = Ok x → cls x.1.
    Proof.
      revert x. induction n as [id dc cs ds t sc IH] using node_rect'. intros x Hd.
      inversion Hd as [? Hn Hc]; subst. cbn [eval_default]. cbn [n_children] in Hc.
      assert (IH' : Forall (λ c, ∀ x, eval_default E cx r c = Ok x → cls x.1) cs).
      { rewrite Forall_forall in *. intros c Hin y Hy. apply (IH c Hin); [by apply Hc|done]. }
      intros (v & Hv & H)%rbind_ok. destruct v; try (by injection H as <-; apply class_list_nil);
        apply rbind_ok in H as (rs & Hrs & H); pose proof (rmap_class _ _ _ IH' Hrs) as Hcl;
        pose proof (scan_class (false, []) rs (class_list_nil ND P)) as Hs;
        (feed specialize Hs; [by eapply Forall_impl; [exact Hcl|]|]);
        cbv zeta in H; rewrite child_scores_lookup in H;
        destruct (foldl scan_step _ _) as [u td]; destruct (negb u && _); simplify_eq; try done;
        (destruct u; simplify_eq; [|apply Hn]);
        destruct (last _) as [[k ss]|] eqn:Hl; simpl in H; simplify_eq; try apply class_list_nil;
        apply adjust_class;
        apply last_filter_some in Hl as (l1 & l2 & Hz & _ & _);
        assert (ss ∈ rs.*1) as Hin;
        try (assert ((k, ss) ∈ zip (n_id <$> cs) rs.*1) as Hzz by (rewrite Hz; set_solver);
             by eapply elem_of_zip_r);
        apply elem_of_list_fmap in Hin as (y & -> & Hin); rewrite Forall_forall in Hcl; by apply Hcl.
    Qed.

    Lemma eval_weighted_class tk n x : nodes_ok n → eval_weighted E cx r tk n = Ok x → cls x.1.
    Proof.
      revert tk x. induction n as [id dc cs ds t sc IH] using node_rect'. intros tk x Hd.
      inversion Hd as [? Hn Hc]; subst. cbn [eval_weighted]. cbn [n_children] in Hc.
      assert (IH' : Forall (λ c, ∀ i x, eval_weighted E cx r (i :: tk) c = Ok x → cls x.1) cs).
      { rewrite Forall_forall in *. intros c Hin i y Hy. apply (IH c Hin (i :: tk)); [by apply Hc|done]. }
      assert (Hcl : ∀ rs, rmapi (λ i c, eval_weighted E cx r (i :: tk) c) 2 cs = Ok rs →
        Forall (λ x : list score * presult, cls x.1) rs) by (intros rs; by apply rmapi_class).
      intros (v & Hv & H)%rbind_ok. destruct v; [| |injection H as <-; apply Hn].
      all: apply rbind_ok in H as (rs & Hrs & H); specialize (Hcl rs Hrs).
      all: pose proof (scan_class (false, []) rs (class_list_nil ND P)) as Hs;
        (feed specialize Hs; [by eapply Forall_impl; [exact Hcl|]|]).
      all: pose proof (wc_collect_classes (zip cs rs) (∅, ∅, fzero)) as Hw;
        feed specialize Hw;
        [by intros k ss Hx; simpl in Hx; rewrite lookup_empty in Hx
        |apply Forall_forall; intros [c y] Hin; rewrite Forall_forall in Hcl; apply Hcl;
         by eapply elem_of_zip_r|].
      all: destruct (foldl scan_step _ _) as [u td], (foldl wc_collect _ _) as [[co scs] to].
      all: destruct (negb u && _); simplify_eq; try done.
      all: destruct u; simplify_eq; [|apply Hn].
      all: cbn [fst]; set (agg := foldl _ ∅ _).
      all: assert (keyed agg) as Hk.
      1,3: unfold agg; cbn [fst snd] in Hw;
        assert (∀ k ss, (k, ss) ∈ map_range E (0 :: tk) scs → cls ss) as Hr
          by (intros k ss Hin%map_range_elem; by eapply Hw);
        clear -Hr; revert Hr; generalize (map_range E (0 :: tk) scs) as l, (∅ : gmap string score) as m, keyed_empty;
        intros l m Hm; revert m Hm; induction l as [|[k ss] l IHl]; intros m Hm Hr; [done|]; cbn [foldl];
        apply IHl; [apply wc_adds_keyed; [done|]; eapply Hr; left|intros; eapply Hr; by right].
      all: pose proof (keyed_range E (1 :: tk) agg snd sc_value Hk (λ _ _, eq_refl)) as Hr; exact Hr.
    Qed.

    Lemma eval_aggregate_class tk n x : nodes_ok n → eval_aggregate E cx r tk n = Ok x → cls x.1.
    Proof.
      revert tk x. induction n as [id dc cs ds t sc IH] using node_rect'. intros tk x Hd.
      inversion Hd as [? Hn Hc]; subst. cbn [eval_aggregate]. cbn [n_children] in Hc.
      assert (IH' : Forall (λ c, ∀ i x, eval_aggregate E cx r (i :: tk) c = Ok x → cls x.1) cs).
      { rewrite Forall_forall in *. intros c Hin i y Hy. apply (IH c Hin (i :: tk)); [by apply Hc|done]. }
      assert (Hcl : ∀ rs, rmapi (λ i c, eval_aggregate E cx r (i :: tk) c) 1 cs = Ok rs →
        Forall (λ x : list score * presult, cls x.1) rs) by (intros rs; by apply rmapi_class).
      intros (v & Hv & H)%rbind_ok. destruct v; [| |injection H as <-; apply Hn].
      all: apply rbind_ok in H as (rs & Hrs & H); specialize (Hcl rs Hrs).
      all: pose proof (scan_class (false, []) rs (class_list_nil ND P)) as Hs;
        (feed specialize Hs; [by eapply Forall_impl; [exact Hcl|]|]).
      all: pose proof (an_adds_keyed (∅, fzero) (concat rs.*1) keyed_empty) as Hk;
        feed specialize Hk;
        [intros v (s & -> & (y & Hin & Hss)%(elem_of_concat_map fst))%elem_of_list_fmap; rewrite Forall_forall in Hcl;
         apply (Hcl _ Hin); apply elem_of_list_fmap; eauto|].
      all: destruct (foldl scan_step _ _) as [u td].
      all: destruct (negb u && _); simplify_eq; try done.
      all: destruct u; simplify_eq; [|apply Hn].
      all: cbv zeta in H; destruct (foldl an_add _ _) as [agg total]; injection H as <-; cbn [fst] in *.
      all: apply (keyed_range E (0 :: tk) agg
        (λ '(_, a), Score (sc_value a) (fdiv (sc_count a) total) (fdiv (sc_count a) total) (sc_count a))
        sc_value Hk); done.
    Qed.

    Lemma node_evaluate_class st tk n x :
      nodes_ok n → node_evaluate E cx st r tk n = Ok x → cls x.1.
    Proof.
      intros Hn. unfold node_evaluate. repeat case_str.
      - by apply eval_null_class.
      - by apply eval_aggregate_class.
      - by apply eval_weighted_class.
      - by apply eval_default_class.
      - by apply eval_last_class.
      - by apply eval_none_class.
    Qed.
  End nodes.
End classes.

(** ** Classes of the document *)

Lemma doc_nodes_kids m c x : c ∈ m_nodes m → x ∈ doc_nodes c → x ∈ doc_nodes m.
Proof.
  destruct m as [? ? ? ? ? ns ?]. simpl. intros Hc Hx. apply elem_of_cons. right.
  apply elem_of_concat_map. eauto.
Qed.

Lemma doc_nodes_self m : m ∈ doc_nodes m.
Proof. destruct m. simpl. left. Qed.

Lemma everywhere_doc_nodes (P : mnode → Prop) m :
  (∀ x, x ∈ doc_nodes m → P x) → everywhere_doc P m.
Proof.
  induction m as [id dc sc c ds ns pr IH] using mnode_rect'. intros H. constructor.
  - apply H. apply doc_nodes_self.
  - simpl. rewrite Forall_forall in *. intros d Hd. apply (IH d Hd). intros x Hx. apply H.
    by eapply doc_nodes_kids.
Qed.

Lemma doc_dist_values dd tg nt m v :
  v ∈ sc_value <$> doc_dist dd tg nt m →
  v ∈ sd_value <$> m_dists m ∨ v ∈ target_values dd tg ∨ (tg = "" ∧ v = m_score m).
Proof.
  unfold doc_dist. intros (s & -> & Hs)%elem_of_list_fmap. repeat case_decide.
  - by apply elem_of_nil in Hs.
  - apply elem_of_list_fmap in Hs as (d & -> & Hd). left. apply elem_of_list_fmap. by exists d.
  - apply elem_of_list_singleton in Hs as ->. right; right. done.
  - apply elem_of_list_fmap in Hs as (w & -> & Hd). right; left. by case_decide.
Qed.

Lemma doc_dist_nodup dd tg nt m :
  NoDup (sd_value <$> m_dists m) → NoDup (target_values dd tg) →
  NoDup (sc_value <$> doc_dist dd tg nt m).
Proof.
  intros H1 H2. unfold doc_dist. repeat case_decide.
  - constructor.
  - rewrite <- list_fmap_compose. exact H1.
  - simpl. apply NoDup_singleton.
  - rewrite <- list_fmap_compose.
    replace (_ <$> target_values dd tg) with (id <$> target_values dd tg); [by rewrite list_fmap_id|].
    apply list_fmap_ext. intros i v _. simpl. by case_decide.
Qed.

Lemma convert_dists_values ds : sc_value <$> convert_dists ds = sd_value <$> ds.
Proof. unfold convert_dists. by rewrite <- list_fmap_compose. Qed.

Lemma doc_class_list E dd td t e :
  tree_of E dd td t e →
  everywhere (λ n,
    class_list (distinct_classes dd t) (λ v, v ∈ tree_classes dd t) (output_dist (doc_ctx dd td t) n) ∧
    class_list (distinct_classes dd t) (λ v, v ∈ tree_classes dd t) (n_dists n)) (et_root e).
Proof.
  intros Ht. pose proof (doc_root _ _ _ _ _ Ht) as Hroot.
  eapply (transport_everywhere m_nodes n_children
    (compiled_to E (field_types dd (td ++ tm_lt t)))
    (λ m, m ∈ doc_nodes (tm_node t))); [..|exact Hroot].
  - intros a b. apply compiled_kids.
  - intros m n Hmn Hin. split.
    + erewrite doc_dist_of by done. split; [intros [Hd1 Hd2]; apply doc_dist_nodup; [by apply Hd1|done]|].
      intros v Hv%doc_dist_values. unfold tree_classes. rewrite !elem_of_app.
      destruct Hv as [Hv|[Hv|[He Hv]]].
      * left. apply elem_of_concat_map. eauto.
      * right; by left.
      * right; right. rewrite decide_True by done. subst. apply elem_of_list_fmap. eauto.
    + apply compiled_inv in Hmn as (_ & _ & -> & _). split.
      * rewrite convert_dists_values. intros [Hd1 Hd2]. by apply Hd1.
      * intros v. rewrite convert_dists_values. intros Hv. unfold tree_classes. rewrite !elem_of_app.
        left. apply elem_of_concat_map. eauto.
  - by apply everywhere_doc_nodes.
Qed.

Lemma tree_after E dd td t te calls :
  tree_of E dd td t te → ∃ te', after E calls (ETree te) = ETree te' ∧ tree_of E dd td t te'.
Proof.
  intros Ht. revert te Ht. induction calls as [|[tk r] calls IH]; intros te Ht; [by exists te|].
  unfold after. cbn [foldl]. simpl. destruct (tree_evaluate E tk te r) as [[o r'] t'] eqn:He. simpl.
  apply IH. by eapply tree_of_stable.
Qed.

(** every score list a tree reports *)
Lemma report_classes E dd td t te tk r out r' te' :
  tree_of E dd td t te →
  tree_evaluate E tk te r = (Ok (Some out), r', te') →
  ∃ scores, class_list (distinct_classes dd t) (λ v, v ∈ tree_classes dd t) scores ∧
    report E (tm_function t) (target_field (tm_schema t)) scores = Ok (Some out).
Proof.
  intros Ht He. destruct (handle_input E (tm_lt t) r) as [[[]|x|p] r1] eqn:Hi.
  - pose proof (tree_of_run _ _ _ _ _ tk _ _ Ht Hi) as Hr. rewrite He in Hr. simpl in Hr.
    destruct (node_evaluate _ _ _ _ _ _) as [[scores [| |]]|x|p] eqn:Hn; simplify_eq.
    exists scores. split; [|done].
    apply (node_evaluate_class _ _ _ _ _ _ _ _ _ (doc_class_list _ _ _ _ _ Ht)) in Hn. done.
  - destruct Ht as (Hv & Hc & _ & _ & _ & _ & Hlt & _). rewrite tree_evaluate_run in He by done.
    rewrite Hlt, Hi in He. done.
  - destruct Ht as (Hv & Hc & _ & _ & _ & _ & Hlt & _). rewrite tree_evaluate_run in He by done.
    rewrite Hlt, Hi in He. done.
Qed.

Lemma class_row_prob_nodup target scores s :
  NoDup (sc_value <$> scores) → s ∈ scores →
  class_row target scores !! prob_key (sc_value s) = Some (GF64 (sc_prob s)).
Proof.
  intros Hnd (l1 & l2 & ->)%elem_of_list_split. apply class_row_prob. intros s' Hs' Heq.
  rewrite fmap_app, fmap_cons in Hnd. apply NoDup_app in Hnd as (_ & _ & Hnd).
  apply NoDup_cons in Hnd as [Hnd _]. apply Hnd. rewrite <- Heq. by apply elem_of_list_fmap_1.
Qed.

Lemma argmax_row target scores :
  NoDup (sc_value <$> scores) → (∀ s, s ∈ scores → prob_key (sc_value s) ≠ target) →
  let out := class_row target scores in
  out !! target = Some (GStr (sc_value (pick_best scores))) ∧
  ((∃ v p, out !! prob_key v = Some (GF64 p) ∧ SFltb (S754_zero false) p = true) →
   ∃ q, out !! prob_key (sc_value (pick_best scores)) = Some (GF64 q) ∧
     ∀ v p, out !! prob_key v = Some (GF64 p) → SFltb q p = false).
Proof.
  intros Hnd Htg out.
  assert (Hentry : ∀ v p, out !! prob_key v = Some (GF64 p) →
    ∃ s, s ∈ scores ∧ sc_value s = v ∧ sc_prob s = p).
  { intros v p Hp. assert (is_Some (out !! prob_key v)) as Hs by eauto.
    apply class_row_keys in Hs as [Heq|(s & Hs & Heq)].
    - rewrite Heq in Hp. unfold out in Hp. rewrite class_row_target in Hp by done. done.
    - apply prob_key_inj in Heq as ->. exists s. unfold out in Hp.
      rewrite class_row_prob_nodup in Hp by done. by simplify_eq. }
  split; [by apply class_row_target|].
  intros (v & p & Hp & Hpos). destruct (Hentry v p Hp) as (s & Hs & <- & <-).
  destruct (pick_best_argmax scores s Hs Hpos) as (l1 & l2 & Hl & Hmax & _).
  assert (Hbest : pick_best scores ∈ scores) by (rewrite Hl at 2; set_solver).
  exists (sc_prob (pick_best scores)). split; [by apply class_row_prob_nodup|].
  intros v' p' Hp'. destruct (Hentry v' p' Hp') as (s' & Hs' & _ & <-). by apply Hmax.
Qed.

(** ** Answers of subtrees *)

(** what node.evaluate answers for the compiled form of a document node *)
Definition answer (E : Ext) (dd : list data_field) (td : list derived_field) (t : tree_model)
    (tk : ticket) (r : datarow) (m : mnode) (x : list score * presult) : Prop :=
  ∃ n, compiled_to E (field_types dd (td ++ tm_lt t)) m n ∧
    node_evaluate E (doc_ctx dd td t) (tm_strategy t) r tk n = Ok x.

Lemma root_answer E dd td t te tk r r' s v :
  tree_of E dd td t te → handle_input E (tm_lt t) r = (Ok tt, r') →
  answer E dd td t tk r' (tm_node t) (s, v) →
  (tree_evaluate E tk te r).1 =
  (match v with
   | RT => report E (tm_function t) (target_field (tm_schema t)) s
   | _ => Ok None
   end, r').
Proof.
  intros Ht Hi (n & Hn & He). rewrite (tree_of_run _ _ _ _ _ _ _ _ Ht Hi).
  assert (n = et_root te) as -> by (pose proof (doc_root _ _ _ _ _ Ht); unfold compiled_to in *; congruence).
  rewrite He. by destruct v.
Qed.

Lemma compiled_build E ft r m v ns :
  node_truth E ft r m v → Forall2 (compiled_to E ft) (m_nodes m) ns →
  ∃ n, compiled_to E ft m n ∧ n_children n = ns ∧ verdict E ft r n v.
Proof.
  intros (p & Hp & Hr) Hns. apply rmap_ok in Hns. destruct m as [id dc sc c ds ms pr]. simpl in *.
  eexists. split; [unfold compiled_to; simpl; rewrite Hns; simpl; rewrite Hp; done|]. done.
Qed.

Lemma Forall2_perm_r {A B} (R : A → B → Prop) l k k' :
  Forall2 R l k → Permutation k k' → ∃ l', Permutation l l' ∧ Forall2 R l' k'.
Proof.
  intros Hf Hp. revert l Hf. induction Hp as [|b k k' _ IH|b c k|k1 k2 k3 _ IH1 _ IH2]; intros l Hf.
  - exists l. by inversion Hf.
  - inversion Hf as [|a ? l' ? Hab Hf']; subst. destruct (IH l' Hf') as (l2 & H1 & H2).
    exists (a :: l2). split; [by constructor|by constructor].
  - inversion Hf as [|a ? l' ? Hab Hf']; subst. inversion Hf' as [|a' ? l2 ? Hab' Hf2]; subst.
    exists (a' :: a :: l2). split; [by constructor|by repeat constructor].
  - destruct (IH1 l Hf) as (l2 & H1 & H2). destruct (IH2 l2 H2) as (l3 & H3 & H4).
    exists l3. split; [by etrans|done].
Qed.

Section answers.
  Context (E : Ext) (dd : list data_field) (td : list derived_field) (t : tree_model) (r : datarow).
  Let ft : fieldtypes := field_types dd (td ++ tm_lt t).

  Lemma children_answers tk m rs :
    Forall2 (answer E dd td t tk r) (m_nodes m) rs →
    ∃ ns, Forall2 (compiled_to E ft) (m_nodes m) ns ∧
      Forall2 (λ n x, node_evaluate E (doc_ctx dd td t) (tm_strategy t) r tk n = Ok x) ns rs.
  Proof.
    intros Hrs. induction Hrs as [|a b l k (n & Hn & Hx) _ (ns & H1 & H2)]; [exists []; by constructor|].
    exists (n :: ns). by repeat constructor.
  Qed.

  Lemma default_answer_unknown tk m w rs :
    tm_strategy t = "defaultChild" → node_truth E ft r m w → w ≠ RF →
    Forall2 (answer E dd td t tk r) (m_nodes m) rs →
    (∃ x, x ∈ rs ∧ x.2 = RU) →
    answer E dd td t tk r m
      (match last (filter (λ p, m_id p.1 = m_default m) (zip (m_nodes m) rs)) with
       | Some (_, (ds, _)) =>
           ((λ s, Score (sc_value s) (SFmul 53 1024 (sc_conf s) (tm_penalty t))
                        (SFmul 53 1024 (sc_prob s) (tm_penalty t)) (sc_count s)) <$> ds, RT)
       | None => ([], RU)
       end).
  Proof.
    intros Hst Hw Hne (ns & Hns & Hev)%children_answers Hu. unfold answer in *. rewrite Hst in *.
    destruct (compiled_build E ft r m w ns Hw Hns) as (n & Hn & Hch & Hv).
    exists n. split; [done|].
    change (node_evaluate E (doc_ctx dd td t) "defaultChild" r tk n) with (eval_default E (doc_ctx dd td t) r n).
    assert (Hev' : Forall2 (λ c x, eval_default E (doc_ctx dd td t) r c = Ok x) (n_children n) rs)
      by (by rewrite Hch).
    rewrite (eval_default_unknown E (doc_ctx dd td t) r n rs w Hv Hne Hev' Hu).
    pose proof (compiled_inv _ _ _ _ Hn) as (_ & -> & _ & _ & _ & Hk). rewrite Hch.
    assert (snd <$> last (filter (λ p, p.1 = m_default m) (zip (n_id <$> ns) rs.*1)) =
            (λ p, p.2.1) <$> last (filter (λ p, m_id p.1 = m_default m) (zip (m_nodes m) rs))) as ->.
    { rewrite Hch in Hk. generalize (m_default m) as dc. clear -Hk. revert rs.
      induction Hk as [|a b l k Hab _ IH]; intros rs dc; [done|].
      destruct rs as [|x rs]; [done|]. rewrite !fmap_cons. cbn [zip_with]. rewrite !filter_cons. cbn [fst snd].
      apply compiled_inv in Hab as (-> & _). specialize (IH rs dc).
      case_decide; [|exact IH]. rewrite !last_cons_default. cbn [fmap option_fmap option_map].
      revert IH. generalize (last (filter (λ p : string * list score, p.1 = dc) (zip (n_id <$> k) rs.*1))) as y.
      generalize (last (filter (λ p : mnode * (list score * presult), m_id p.1 = dc) (zip l rs))) as z.
      intros [z|] [y|]; simpl; congruence. }
    by destruct (last _) as [[d [ds v]]|].
  Qed.

  Lemma default_answer_known tk m w rs :
    tm_strategy t = "defaultChild" → node_truth E ft r m w → w ≠ RF →
    Forall2 (answer E dd td t tk r) (m_nodes m) rs →
    (∀ x, x ∈ rs → x.2 ≠ RU) →
    answer E dd td t tk r m
      (match last (filter (λ x : list score * presult, x.2 = RT) rs) with
       | Some (s :: ss, _) => (s :: ss, RT)
       | _ => (doc_dist dd (target_field (tm_schema t)) (tm_notrue t) m, w)
       end).
  Proof.
    intros Hst Hw Hne (ns & Hns & Hev)%children_answers Hu. unfold answer in *. rewrite Hst in *.
    destruct (compiled_build E ft r m w ns Hw Hns) as (n & Hn & Hch & Hv).
    exists n. split; [done|].
    change (node_evaluate E (doc_ctx dd td t) "defaultChild" r tk n) with (eval_default E (doc_ctx dd td t) r n).
    assert (Hev' : Forall2 (λ c x, eval_default E (doc_ctx dd td t) r c = Ok x) (n_children n) rs)
      by (by rewrite Hch).
    rewrite (eval_default_known E (doc_ctx dd td t) r n rs w Hv Hne Hev' Hu).
    rewrite (output_dist_doc E ft (doc_ctx dd td t) m n Hn).
    destruct (last _) as [[[|s ss] v]|]; done.
  Qed.

  (** children numbered from [k] on, each with its own ticket *)
  Lemma children_answers_i tk k m rs :
    length rs = length (m_nodes m) →
    (∀ i c x, m_nodes m !! i = Some c → rs !! i = Some x → answer E dd td t (k + i :: tk) r c x) →
    ∃ ns, Forall2 (compiled_to E ft) (m_nodes m) ns ∧
      rmapi (λ i n, node_evaluate E (doc_ctx dd td t) (tm_strategy t) r (i :: tk) n) k ns = Ok rs.
  Proof.
    generalize (m_nodes m) as l. intros l. revert k rs.
    induction l as [|c l IH]; intros k [|x rs] Hlen H; try done.
    - exists []. by split.
    - injection Hlen as Hlen. destruct (H 0 c x eq_refl eq_refl) as (n & Hn & Hx).
      rewrite Nat.add_0_r in Hx.
      destruct (IH (S k) rs Hlen) as (ns & H1 & H2).
      { intros i c' x' Hc Hx'. specialize (H (S i) c' x' Hc Hx'). by rewrite Nat.add_succ_r in H. }
      exists (n :: ns). split; [by constructor|]. cbn [rmapi]. rewrite Hx. cbn [rbind].
      rewrite H2. done.
  Qed.

  Lemma aggregate_answer_unknown tk m w rs :
    tm_strategy t = "aggregateNodes" → node_truth E ft r m w → w ≠ RF →
    length rs = length (m_nodes m) →
    (∀ i c x, m_nodes m !! i = Some c → rs !! i = Some x → answer E dd td t (S i :: tk) r c x) →
    (∃ x, x ∈ rs ∧ x.2 = RU) →
    ∃ out, answer E dd td t tk r m (out, RT) ∧ NoDup (sc_value <$> out) ∧
      ∀ s, s ∈ out ↔ ∃ v, v ∈ sc_value <$> concat rs.*1 ∧
        let total := foldl (λ acc s, SFadd 53 1024 acc (sc_count s)) (S754_zero false) (concat rs.*1) in
        let count := sum_over sc_count v (concat rs.*1) in
        s = Score v (SFdiv 53 1024 count total) (SFdiv 53 1024 count total) count.
  Proof.
    intros Hst Hw Hne Hlen Hrs Hu.
    destruct (children_answers_i tk 1 m rs Hlen Hrs) as (ns & Hns & Hev).
    unfold answer in *. rewrite Hst in *.
    destruct (compiled_build E ft r m w ns Hw Hns) as (n & Hn & Hch & Hv).
    rewrite <- Hch in Hev.
    destruct (eval_aggregate_unknown E (doc_ctx dd td t) r tk n rs w Hv Hne Hev Hu) as (out & Ho & Hnd & Hs).
    exists out. split; [by exists n|]. split; [done|]. exact Hs.
  Qed.

  Lemma weighted_answer_unknown tk m w rs :
    tm_strategy t = "weightedConfidence" → node_truth E ft r m w → w ≠ RF →
    NoDup (m_id <$> m_nodes m) →
    length rs = length (m_nodes m) →
    (∀ i c x, m_nodes m !! i = Some c → rs !! i = Some x → answer E dd td t (S (S i) :: tk) r c x) →
    (∃ x, x ∈ rs ∧ x.2 = RU) →
    (* the children that are not false, with their answers, in some order *)
    ∃ out l, answer E dd td t tk r m (out, RT) ∧ NoDup (sc_value <$> out) ∧
      Permutation l (filter (λ p, p.2.2 ≠ RF) (zip (m_nodes m) rs)) ∧
      let total := foldl (λ acc p, SFadd 53 1024 acc (m_count p.1)) (S754_zero false)
                         (filter (λ p, p.2.2 ≠ RF) (zip (m_nodes m) rs)) in
      let weighted f v :=
        foldl (λ acc ws, SFadd 53 1024 acc (SFmul 53 1024 (f ws.2) ws.1)) (S754_zero false)
          (filter (λ ws, sc_value ws.2 = v)
             (concat (map (λ p, (λ s, (SFdiv 53 1024 (m_count p.1) total, s)) <$> p.2.1) l))) in
      ∀ s, s ∈ out ↔ ∃ v, v ∈ sc_value <$> concat (map (λ p, p.2.1) l) ∧
        s = Score v (weighted sc_conf v) (weighted sc_prob v) (sum_over sc_count v (concat (map (λ p, p.2.1) l))).
  Proof.
    intros Hst Hw Hne Hnd Hlen Hrs Hu.
    destruct (children_answers_i tk 2 m rs Hlen Hrs) as (ns & Hns & Hev).
    unfold answer in *. rewrite Hst in *.
    destruct (compiled_build E ft r m w ns Hw Hns) as (n & Hn & Hch & Hv).
    rewrite <- Hch in Hev.
    assert (Hids : n_id <$> ns = m_id <$> m_nodes m).
    { clear -Hns. induction Hns as [|a b l k Hab _ IH]; [done|]. rewrite !fmap_cons, IH.
      by apply compiled_inv in Hab as (-> & _). }
    destruct (eval_weighted_unknown E (doc_ctx dd td t) r tk n rs w Hv Hne Hev Hu) as (out & nf' & Ho & Hp & Hndo & Hs).
    { by rewrite Hch, Hids. }
    rewrite Hch in *.
    (* pull the visiting order back to the document *)
    assert (Hz : Forall2 (λ (p : mnode * (list score * presult)) (q : node * (list score * presult)),
                   m_count p.1 = sc_count (n_score q.1) ∧ p.2 = q.2)
                 (filter (λ p, p.2.2 ≠ RF) (zip (m_nodes m) rs)) (non_false ns rs)).
    { unfold non_false. clear -Hns Hlen. revert rs Hlen.
      induction Hns as [|a b l k Hab _ IH]; intros [|x rs] Hlen; try done; [constructor|].
      simpl. rewrite !filter_cons. simpl. injection Hlen as Hlen.
      case_decide; [|by apply IH]. constructor; [|by apply IH]. simpl.
      apply compiled_inv in Hab as (_ & _ & _ & -> & _). done. }
    destruct (Forall2_perm_r _ _ _ _ Hz (Permutation_sym Hp)) as (l & Hl & Hf).
    exists out, l. split; [by exists n|]. split; [done|]. split; [by symmetry|]. cbv zeta.
    assert (Htot : record_total (non_false ns rs) =
      foldl (λ acc p, SFadd 53 1024 acc (m_count p.1)) (S754_zero false)
        (filter (λ p, p.2.2 ≠ RF) (zip (m_nodes m) rs))).
    { unfold record_total. clear -Hz. unfold fzero. generalize (S754_zero false).
      induction Hz as [|p q l k [Hc _] _ IH]; intros a; simpl; [done|]. rewrite IH, Hc. done. }
    assert (Hcc : concat (map (λ p, p.2.1) l) = concat (map (λ x, x.2.1) nf')).
    { clear -Hf. induction Hf as [|p q l k [_ Hc] _ IH]; simpl; [done|]. by rewrite IH, Hc. }
    assert (Hww : ∀ total, concat (map (λ p, (λ s, (SFdiv 53 1024 (m_count p.1) total, s)) <$> p.2.1) l) =
      concat (map (λ x, map (λ s, (fdiv (sc_count (n_score x.1)) total, s)) x.2.1) nf')).
    { intros total. clear -Hf. induction Hf as [|p q l k [Hc Hd] _ IH]; simpl; [done|]. by rewrite IH, Hc, Hd. }
    intros s. rewrite Hs. rewrite Hcc.
    assert (Hcl : ∀ v, v ∈ sc_value <$> concat (map (λ x, x.2.1) (non_false ns rs)) ↔
                       v ∈ sc_value <$> concat (map (λ x, x.2.1) nf')).
    { intros v. rewrite !elem_of_list_fmap. setoid_rewrite elem_of_concat_map.
      setoid_rewrite Hp. done. }
    setoid_rewrite Hcl. rewrite Hww, Htot. unfold weighted_sum, plain_sum, sum_over. done.
  Qed.
End answers.

(** ** The strategies agree on fully known rows *)
Lemma agree_doc E dd td t te tk r r' :
  tree_of E dd td t te → handle_input E (tm_lt t) r = (Ok tt, r') →
  let truth := node_truth E (field_types dd (td ++ tm_lt t)) r' in
  truth (tm_node t) RT →
  everywhere_doc (λ m, truth m RT ∨ truth m RF) (tm_node t) →
  everywhere_doc (single_true m_nodes truth) (tm_node t) →
  everywhere_doc (λ m, doc_dist dd (target_field (tm_schema t)) (tm_notrue t) m ≠ []) (tm_node t) →
  ∃ leaf, descend_none m_nodes truth (tm_node t) leaf ∧
  (tree_evaluate E tk te r).1 =
  (report E (tm_function t) (target_field (tm_schema t))
     (doc_dist dd (target_field (tm_schema t)) (tm_notrue t) leaf), r').
Proof.
  intros Ht Hi truth Hrt Hk Hone Hd. rewrite (tree_of_run _ _ _ _ _ _ _ _ Ht Hi).
  pose proof (doc_root _ _ _ _ _ Ht) as Hroot. set (ft := field_types dd (td ++ tm_lt t)) in *.
  apply (compiled_truth _ _ _ _ _ _ Hroot) in Hrt.
  assert (settled E (doc_ctx dd td t) r' (et_root te)) as Hset.
  { split; [|split].
    - eapply (transport_everywhere m_nodes n_children (compiled_to E ft)); [..|exact Hk|exact Hroot].
      + intros a b. apply compiled_kids.
      + intros a b Hab [Hx|Hx]; apply (compiled_truth _ _ _ _ _ _ Hab) in Hx; [by left|by right].
    - eapply (transport_everywhere m_nodes n_children (compiled_to E ft)); [..|exact Hone|exact Hroot].
      + intros a b. apply compiled_kids.
      + intros a b Hab. apply (transport_single _ _ _ _ (compiled_to E ft)); [| |done].
        * intros ? ?. apply compiled_kids.
        * intros ? ? ?. apply compiled_truth.
    - eapply (transport_everywhere m_nodes n_children (compiled_to E ft)); [..|exact Hd|exact Hroot].
      + intros a b. apply compiled_kids.
      + intros a b Hab. by rewrite (doc_dist_of _ _ _ _ _ _ Hab). }
  rewrite (strategies_agree E (doc_ctx dd td t) r' tk (tm_strategy t) _ Hset Hrt).
  assert (Hv : everywhere (has_verdict E ft r') (et_root te)).
  { destruct Hset as [Hs _]. eapply everywhere_impl; [|exact Hs]. intros n. apply known_has_verdict. }
  destruct (eval_none_total E (doc_ctx dd td t) r' (et_root te) Hv) as [[s v] Hs].
  assert (v = RT) as -> by (by apply (eval_none_verdict _ _ _ _ _ _ Hs)).
  rewrite Hs. apply eval_none_path in Hs as (_ & leaf & Hl & ->); [|done].
  edestruct (transport_none n_children m_nodes (verdict E ft r') truth
    (flip (compiled_to E ft))) as (y & Hly & Hy); [..|exact Hl|exact Hroot|].
  - intros a b. apply compiled_kids'.
  - intros a b v. apply compiled_truth'.
  - exists y. split; [done|]. by rewrite (doc_dist_of _ _ _ _ _ _ Hly).
Qed.
