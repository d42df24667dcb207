(** Proofs about compiled trees: descents, strategies, outputs. *)
From Verif Require Import Base Strconv Value Doc Expr Pred Tree Lib
  SpecPred ProofsPred SpecExpr ProofsExpr SpecConstruct ProofsConstruct SpecTree.

Global Arguments output_dist : simpl never.

(** ** Predicates of nodes *)

Lemma ordering_no_err E f g dt v raw e : ordering E f g dt v raw ≠ Err e.
Proof.
  unfold ordering, as_f64, as_i64. destruct (_ || _); [by destruct raw|].
  destruct (_ =s _); [|done]. by destruct raw as [| | | | |[]|].
Qed.

Lemma eval_simple_no_err E ft f op raw r e : eval_simple E ft f op raw r ≠ Err e.
Proof.
  unfold eval_simple. repeat case_match; try done; apply ordering_no_err.
Qed.

Lemma compound_loop_no_err ev b n l tc uc e :
  Forall (λ p, ∀ e, ev p ≠ Err e) l → compound_loop ev b n l tc uc ≠ Err e.
Proof.
  intros H. revert tc uc. induction H as [|p l Hp _ IH]; intros tc uc; simpl; [done|].
  intros [He|(v & Hv & He)]%rbind_err; [by apply Hp in He|].
  destruct (_ && _); [done|]. destruct v; by apply IH in He.
Qed.

Lemma eval_operand_no_err E ft r p e : eval_operand E ft r p ≠ Err e.
Proof.
  revert e. induction p as [| |f op v raw|b ps IH|b f a|] using predicate_rect'; intros e;
    simpl; try done.
  - apply eval_simple_no_err.
  - by apply compound_loop_no_err.
Qed.

Lemma run_test_no_err E ft p r e : run_test E ft p r ≠ Err e.
Proof.
  destruct p; simpl; try done; [apply eval_simple_no_err|].
  unfold eval_compound. apply compound_loop_no_err. apply Forall_forall.
  intros. apply eval_operand_no_err.
Qed.

(** compiled predicates have a verdict *)
Definition has_verdict (E : Ext) (ft : fieldtypes) (r : datarow) (n : node) : Prop :=
  ∃ v, verdict E ft r n v.

Lemma verdict_fun E ft r n v1 v2 : verdict E ft r n v1 → verdict E ft r n v2 → v1 = v2.
Proof. unfold verdict. intros H1 H2. congruence. Qed.

Lemma new_node_verdicts E ft r m n :
  new_node E ft m = Ok n → everywhere_doc (λ m, m_pred m ≠ PNone) m →
  everywhere (has_verdict E ft r) n.
Proof.
  revert n. induction m as [id dc sc c ds ns p IH] using mnode_rect'. intros n. simpl.
  intros (cs & Hcs & (t & Ht & [= <-])%rbind_ok)%rbind_ok Hp.
  inversion Hp as [m' Hp1 Hp2]; subst. simpl in *. constructor.
  - unfold has_verdict, verdict. simpl. by eapply run_test_total.
  - simpl. apply rmap_ok in Hcs. clear Hp Ht Hp1.
    induction Hcs as [|x y ns cs Hx _ IHc]; constructor.
    + apply Forall_cons in IH as [IH _]. apply Forall_cons in Hp2 as [Hp2 _]. by apply IH.
    + apply Forall_cons in IH as [_ IH]. apply Forall_cons in Hp2 as [_ Hp2]. by apply IHc.
Qed.

Lemma everywhere_here P n : everywhere P n → P n.
Proof. by inversion 1. Qed.
Lemma everywhere_child P n c : everywhere P n → c ∈ n_children n → everywhere P c.
Proof. inversion 1 as [n' Hp Hf]; subst. rewrite Forall_forall in Hf. auto. Qed.
Lemma everywhere_impl (P Q : node → Prop) n :
  (∀ n, P n → Q n) → everywhere P n → everywhere Q n.
Proof.
  intros HPQ. induction n as [id dc cs ds t sc IH] using node_rect'.
  inversion 1 as [n' Hp Hf]; subst. constructor; [by apply HPQ|]. simpl in *.
  rewrite Forall_forall in *. auto.
Qed.
Lemma everywhere_and (P Q : node → Prop) n :
  everywhere P n → everywhere Q n → everywhere (λ n, P n ∧ Q n) n.
Proof.
  induction n as [id dc cs ds t sc IH] using node_rect'.
  inversion 1 as [n' Hp Hf]; inversion 1 as [n'' Hq Hg]; subst. constructor; [done|]. simpl in *.
  rewrite Forall_forall in *. auto.
Qed.

Lemma has_verdict_cases E ft r n :
  has_verdict E ft r n → verdict E ft r n RT ∨ verdict E ft r n RF ∨ verdict E ft r n RU.
Proof. intros [[] H]; auto. Qed.

(** ** Strategy none *)

Lemma first_true_spec {A} (f : A → res (list score * presult)) dflt l x :
  first_true f dflt l = Ok x →
  (Forall (λ a, ∃ s v, f a = Ok (s, v) ∧ v ≠ RT) l ∧ x = dflt) ∨
  (∃ l1 a l2 s, l = l1 ++ a :: l2 ∧ Forall (λ a, ∃ s v, f a = Ok (s, v) ∧ v ≠ RT) l1 ∧
                f a = Ok (s, RT) ∧ x = (s, RT)).
Proof.
  induction l as [|a l IH]; simpl.
  - intros [= <-]. left. split; [constructor|done].
  - intros ([s v] & Ha & H)%rbind_ok. destruct v.
    + destruct (IH H) as [[Hl ->]|(l1 & a' & l2 & s' & -> & Hl1 & Ha' & ->)].
      * left. split; [|done]. constructor; [eauto|done].
      * right. exists (a :: l1), a', l2, s'. split; [done|]. split; [|done]. constructor; [eauto|done].
    + simplify_eq. right. exists [], a, l, s. done.
    + destruct (IH H) as [[Hl ->]|(l1 & a' & l2 & s' & -> & Hl1 & Ha' & ->)].
      * left. split; [|done]. constructor; [eauto|done].
      * right. exists (a :: l1), a', l2, s'. split; [done|]. split; [|done]. constructor; [eauto|done].
Qed.

Lemma first_true_total {A} (f : A → res (list score * presult)) dflt l :
  Forall (λ a, ∃ x, f a = Ok x) l → ∃ x, first_true f dflt l = Ok x.
Proof.
  induction 1 as [|a l [[s v] Ha] _ IH]; simpl; [eauto|].
  rewrite Ha. simpl. destruct v; eauto.
Qed.

(** what eval_none says about a node *)
Lemma eval_none_verdict E cx r n s v :
  eval_none E cx r n = Ok (s, v) → v = RT ↔ verdict E (cx_ft cx) r n RT.
Proof.
  destruct n as [id dc cs ds t sc]. simpl. unfold verdict. simpl.
  intros (w & Hw & H)%rbind_ok. rewrite Hw. destruct w; simplify_eq; try naive_solver.
  apply first_true_spec in H as [[_ H]|(? & ? & ? & ? & _ & _ & _ & H)]; simplify_eq; done.
Qed.

Lemma eval_none_total E cx r n :
  everywhere (has_verdict E (cx_ft cx) r) n → ∃ x, eval_none E cx r n = Ok x.
Proof.
  induction n as [id dc cs ds t sc IH] using node_rect'.
  inversion 1 as [n' [v Hp] Hf]; subst. unfold verdict in Hp. simpl in *. rewrite Hp. simpl.
  destruct v; eauto. apply first_true_total. rewrite Forall_forall in *. auto.
Qed.

Lemma eval_none_false E cx r n :
  ¬ verdict E (cx_ft cx) r n RT → has_verdict E (cx_ft cx) r n → eval_none E cx r n = Ok ([], RF).
Proof.
  destruct n as [id dc cs ds t sc]. unfold has_verdict, verdict. simpl. intros Hn [v Hv].
  rewrite Hv. simpl. destruct v; done.
Qed.

Lemma eval_none_path E cx r n s :
  everywhere (has_verdict E (cx_ft cx) r) n →
  eval_none E cx r n = Ok (s, RT) ↔
  verdict E (cx_ft cx) r n RT ∧
  ∃ leaf, none_path E (cx_ft cx) r n leaf ∧ s = output_dist cx leaf.
Proof.
  revert s. induction n as [id dc cs ds t sc IH] using node_rect'. intros s Hall.
  pose proof (everywhere_here _ _ Hall) as [v Hv].
  assert (Hch : Forall (everywhere (has_verdict E (cx_ft cx) r)) cs) by (by inversion Hall).
  split.
  - intros H. pose proof (eval_none_verdict _ _ _ _ _ _ H) as [HRT _]. specialize (HRT eq_refl).
    split; [done|]. unfold verdict in HRT. simpl in *. rewrite HRT in H. simpl in H.
    apply first_true_spec in H as [[Hl H]|(l1 & a & l2 & s' & -> & Hl1 & Ha & H)].
    + simplify_eq. eexists. split; [apply none_stop|done].
      simpl. intros c Hc Hcv. rewrite Forall_forall in Hl.
      destruct (Hl c Hc) as (s' & v' & He & Hne). by apply eval_none_verdict in He as [_ ?]; auto.
    + simplify_eq. rewrite Forall_app, Forall_cons in IH. destruct IH as (_ & IHa & _).
      rewrite Forall_app, Forall_cons in Hch. destruct Hch as (_ & Hcha & _).
      pose proof (proj1 (IHa _ Hcha) Ha) as (Hav & leaf & Hp & ->).
      exists leaf. split; [|done]. eapply none_step; [done| |done|done].
      intros c Hc Hcv. rewrite Forall_forall in Hl1.
      destruct (Hl1 c Hc) as (s1 & v' & He & Hne). by apply eval_none_verdict in He as [_ ?]; auto.
  - intros (Hn & leaf & Hp & ->). unfold verdict in Hn. simpl in Hn |- *. rewrite Hn. simpl.
    inversion Hp as [n' Hno|n' l1 c l2 leaf' Hcs Hno Hc Hp']; subst; simpl in *.
    + assert (∀ l, (∀ c, c ∈ l → c ∈ cs) →
        first_true (eval_none E cx r) (output_dist cx (Node id dc cs ds t sc), RT) l
        = Ok (output_dist cx (Node id dc cs ds t sc), RT)) as Hl; [|by apply Hl].
      induction l as [|c l IHl]; intros Hin; [done|]. cbn [first_true].
      rewrite eval_none_false; [|by apply Hno, Hin; left|
        eapply everywhere_here; rewrite Forall_forall in Hch; by apply Hch, Hin; left].
      simpl. apply IHl. intros; apply Hin; by right.
    + subst cs. rewrite Forall_app, Forall_cons in IH. destruct IH as (_ & IHc & _).
      rewrite Forall_app, Forall_cons in Hch. destruct Hch as (Hch1 & Hchc & _).
      assert (He : eval_none E cx r c = Ok (output_dist cx leaf, RT)).
      { apply IHc; [done|]. split; [done|]. eauto. }
      generalize (output_dist cx (Node id dc (l1 ++ c :: l2) ds t sc), RT). intros dflt.
      clear Hp Hall. induction l1 as [|c1 l1 IHl]; simpl.
      * by rewrite He.
      * apply Forall_cons in Hch1 as [Hc1 Hch1].
        rewrite eval_none_false; [|by apply Hno; left|by eapply everywhere_here].
        simpl. apply IHl; try done. intros; apply Hno; by right.
Qed.

(** ** Strategy nullPrediction *)

Lemma first_known_spec {A} (f : A → res (list score * presult)) dflt l x :
  first_known f dflt l = Ok x →
  (Forall (λ a, ∃ s, f a = Ok (s, RF)) l ∧ x = dflt) ∨
  (∃ l1 a l2 s, l = l1 ++ a :: l2 ∧ Forall (λ a, ∃ s, f a = Ok (s, RF)) l1 ∧
     ((f a = Ok (s, RT) ∧ x = (s, RT)) ∨ (f a = Ok (s, RU) ∧ x = ([], RU)))).
Proof.
  induction l as [|a l IH]; simpl.
  - intros [= <-]. left. split; [constructor|done].
  - intros ([s v] & Ha & H)%rbind_ok. destruct v.
    + simplify_eq. right. exists [], a, l, s. naive_solver.
    + simplify_eq. right. exists [], a, l, s. naive_solver.
    + destruct (IH H) as [[Hl ->]|(l1 & a' & l2 & s' & -> & Hl1 & Ha')].
      * left. split; [|done]. constructor; [eauto|done].
      * right. exists (a :: l1), a', l2, s'. split; [done|]. split; [|done]. constructor; [eauto|done].
Qed.

Lemma first_known_total {A} (f : A → res (list score * presult)) dflt l :
  Forall (λ a, ∃ x, f a = Ok x) l → ∃ x, first_known f dflt l = Ok x.
Proof.
  induction 1 as [|a l [[s v] Ha] _ IH]; simpl; [eauto|].
  rewrite Ha. simpl. destruct v; eauto.
Qed.

Lemma eval_null_total E cx r n :
  everywhere (has_verdict E (cx_ft cx) r) n → ∃ x, eval_null E cx r n = Ok x.
Proof.
  induction n as [id dc cs ds t sc IH] using node_rect'.
  inversion 1 as [n' [v Hp] Hf]; subst. unfold verdict in Hp. simpl in *. rewrite Hp. simpl.
  destruct v; eauto. apply first_known_total. rewrite Forall_forall in *. auto.
Qed.

(** the verdict behind each answer of eval_null *)
Lemma eval_null_answer E cx r n s v :
  eval_null E cx r n = Ok (s, v) →
  match v with
  | RF => verdict E (cx_ft cx) r n RF
  | RT => verdict E (cx_ft cx) r n RT ∧
          ∃ leaf, null_path E (cx_ft cx) r n leaf ∧ s = output_dist cx leaf
  | RU => s = [] ∧ (verdict E (cx_ft cx) r n RU ∨
          (verdict E (cx_ft cx) r n RT ∧ null_unknown E (cx_ft cx) r n))
  end.
Proof.
  revert s v. induction n as [id dc cs ds t sc IH] using node_rect'. intros s v. simpl.
  intros (w & Hw & H)%rbind_ok. unfold verdict. simpl. rewrite Hw.
  destruct w; simplify_eq; auto.
  apply first_known_spec in H as [[Hl H]|(l1 & a & l2 & s' & -> & Hl1 & H)].
  - simplify_eq. split; [done|]. eexists. split; [apply null_stop|done]. simpl.
    intros c Hc. rewrite Forall_forall in Hl. destruct (Hl c Hc) as [s' Hs'].
    rewrite Forall_forall in IH. by apply (IH c Hc) in Hs'.
  - rewrite Forall_app, Forall_cons in IH. destruct IH as (IH1 & IHa & _).
    assert (Hf : ∀ c', c' ∈ l1 → verdict E (cx_ft cx) r c' RF).
    { intros c Hc. rewrite Forall_forall in Hl1. destruct (Hl1 c Hc) as [s1 Hs1].
      rewrite Forall_forall in IH1. by apply (IH1 c Hc) in Hs1. }
    destruct H as [[Ha H]|[Ha H]]; simplify_eq.
    + apply IHa in Ha as (Hav & leaf & Hp & ->). split; [done|]. exists leaf. split; [|done].
      by eapply null_step.
    + apply IHa in Ha as (_ & [Hav|[Hav Hu]]); (split; [done|]; right; split; [done|]).
      * by eapply null_here.
      * by eapply null_below.
Qed.

(** the three cases exclude each other *)
Lemma split_unique {A} (P : A → Prop) (l1 l1' : list A) a a' l2 l2' :
  l1 ++ a :: l2 = l1' ++ a' :: l2' →
  (∀ x, x ∈ l1 → P x) → (∀ x, x ∈ l1' → P x) → ¬ P a → ¬ P a' → l1 = l1' ∧ a = a' ∧ l2 = l2'.
Proof.
  revert l1'. induction l1 as [|b l1 IH]; intros [|b' l1'] Heq H1 H2 Ha Ha'; simplify_eq/=.
  - done.
  - destruct Ha. apply H2. left.
  - destruct Ha'. apply H1. left.
  - destruct (IH l1') as (-> & -> & ->); auto; intros; [apply H1|apply H2]; by right.
Qed.

Lemma null_path_fun E ft r n a b :
  null_path E ft r n a → null_path E ft r n b → a = b.
Proof.
  intros H. revert b. induction H as [n Hn|n l1 c l2 leaf Hcs Hl1 Hc Hp IH]; intros b Hb.
  - inversion Hb as [|n' l1 c l2 leaf Hcs Hl1 Hc Hp]; subst; [done|].
    assert (c ∈ n_children n) as Hin by (rewrite Hcs; set_solver).
    apply Hn in Hin. pose proof (verdict_fun _ _ _ _ _ _ Hin Hc). done.
  - inversion Hb as [n' Hn|n' l1' c' l2' leaf' Hcs' Hl1' Hc' Hp']; subst.
    + assert (c ∈ n_children b) as Hin by (rewrite Hcs; set_solver).
      apply Hn in Hin. pose proof (verdict_fun _ _ _ _ _ _ Hin Hc). done.
    + rewrite Hcs in Hcs'.
      destruct (split_unique (λ c, verdict E ft r c RF) _ _ _ _ _ _ Hcs' Hl1 Hl1') as (_ & -> & _).
      * intros Hx. by pose proof (verdict_fun _ _ _ _ _ _ Hx Hc).
      * intros Hx. by pose proof (verdict_fun _ _ _ _ _ _ Hx Hc').
      * by apply IH.
Qed.

Lemma null_path_unknown E ft r n leaf : null_path E ft r n leaf → ¬ null_unknown E ft r n.
Proof.
  induction 1 as [n Hn|n l1 c l2 leaf Hcs Hl1 Hc Hp IH]; intros Hu.
  - assert (∀ c v l1 l2, n_children n = l1 ++ c :: l2 → verdict E ft r c v → v = RF) as Hx.
    { intros c v l1 l2 Hcs Hv. eapply verdict_fun; [done|]. apply Hn. rewrite Hcs. set_solver. }
    inversion Hu as [n' l1 c l2 Hcs Hl Hc|n' l1 c l2 Hcs Hl Hc _]; subst;
      specialize (Hx _ _ _ _ Hcs Hc); done.
  - inversion Hu as [n' l1' c' l2' Hcs' Hl' Hc'|n' l1' c' l2' Hcs' Hl' Hc' Hu']; subst;
      rewrite Hcs in Hcs';
      destruct (split_unique (λ c, verdict E ft r c RF) _ _ _ _ _ _ Hcs' Hl1 Hl') as (_ & -> & _);
      try (intros Hx; by pose proof (verdict_fun _ _ _ _ _ _ Hx Hc));
      try (intros Hx; by pose proof (verdict_fun _ _ _ _ _ _ Hx Hc')).
    + by pose proof (verdict_fun _ _ _ _ _ _ Hc Hc').
    + done.
Qed.

Lemma eval_null_path E cx r n s :
  everywhere (has_verdict E (cx_ft cx) r) n →
  eval_null E cx r n = Ok (s, RT) ↔
  verdict E (cx_ft cx) r n RT ∧
  ∃ leaf, null_path E (cx_ft cx) r n leaf ∧ s = output_dist cx leaf.
Proof.
  intros Hall. split; [intros H; by apply eval_null_answer in H|].
  intros (Hv & leaf & Hp & ->). destruct (eval_null_total _ _ _ _ Hall) as [[s' v] He].
  rewrite He. apply eval_null_answer in He. destruct v.
  - destruct He as [-> [Hx|[_ Hx]]]; [by pose proof (verdict_fun _ _ _ _ _ _ Hx Hv)|].
    by apply null_path_unknown in Hp.
  - destruct He as (_ & leaf' & Hp' & ->). by rewrite (null_path_fun _ _ _ _ _ _ Hp Hp').
  - by pose proof (verdict_fun _ _ _ _ _ _ He Hv).
Qed.

Lemma eval_null_none E cx r n s :
  everywhere (has_verdict E (cx_ft cx) r) n →
  eval_null E cx r n = Ok (s, RU) ↔
  s = [] ∧ (verdict E (cx_ft cx) r n RU ∨
            verdict E (cx_ft cx) r n RT ∧ null_unknown E (cx_ft cx) r n).
Proof.
  intros Hall. split; [intros H; by apply eval_null_answer in H|].
  intros [-> H]. destruct (eval_null_total _ _ _ _ Hall) as [[s' v] He].
  rewrite He. apply eval_null_answer in He. destruct v.
  - by destruct He as [-> _].
  - destruct He as (Hv & leaf & Hp & _). destruct H as [H|[_ H]];
      [by pose proof (verdict_fun _ _ _ _ _ _ H Hv)|by apply null_path_unknown in Hp].
  - destruct H as [H|[H _]]; by pose proof (verdict_fun _ _ _ _ _ _ H He).
Qed.

(** ** The loop over all children (lastPrediction, defaultChild, ...) *)

Definition known_answer (x : list score * presult) : Prop := x.2 ≠ RU.

Lemma scan_unknown acc rs :
  (foldl scan_step acc rs).1 = true ↔ acc.1 = true ∨ ∃ x, x ∈ rs ∧ x.2 = RU.
Proof.
  revert acc. induction rs as [|[s v] rs IH]; intros [u td].
  - simpl. split; [by left|]. intros [?|(? & H & _)]; [done|]. by apply elem_of_nil in H.
  - cbn [foldl]. rewrite IH. split.
    + intros [H|(x & Hx & Hu)].
      * destruct v; simpl in *; [|by left..]. right. exists (s, RU). split; [left|done].
      * right. exists x. split; [by right|done].
    + intros [H|(x & [->|Hx]%elem_of_cons & Hu)].
      * left. destruct v; simpl in *; done.
      * simpl in Hu. subst. by left.
      * right. eauto.
Qed.

Lemma scan_true acc rs :
  (foldl scan_step acc rs).2 =
  default acc.2 (fst <$> last (filter (λ x : list score * presult, x.2 = RT) rs)).
Proof.
  revert acc. induction rs as [|[s v] rs IH]; intros [u td]; [done|].
  cbn [foldl]. rewrite IH, filter_cons. destruct v; simpl; try done.
  set (l := filter _ rs). rewrite (last_cons_default (s, RT) l). by destruct (last l).
Qed.

Lemma scan_unknown_false rs :
  (foldl scan_step (false, []) rs).1 = false ↔ Forall known_answer rs.
Proof.
  pose proof (scan_unknown (false, []) rs) as H. rewrite Forall_forall. split.
  - intros Hf x Hx Hu. rewrite (proj2 H) in Hf; [done|]. right. eauto.
  - intros Hk. apply not_true_is_false. intros [?|(x & Hx & Hu)]%H; [done|]. by apply (Hk x Hx).
Qed.

Lemma scan_unknown_true rs :
  (foldl scan_step (false, []) rs).1 = true ↔ ∃ x, x ∈ rs ∧ x.2 = RU.
Proof. rewrite scan_unknown. naive_solver. Qed.

(** no answer is true: no true distribution *)
Lemma scan_no_true rs :
  (∀ x, x ∈ rs → x.2 ≠ RT) → (foldl scan_step (false, []) rs).2 = [].
Proof.
  intros H. rewrite scan_true.
  assert (filter (λ x : list score * presult, x.2 = RT) rs = []) as ->; [|done].
  induction rs as [|x rs IH]; [done|]. rewrite filter_cons_False by (apply H; left).
  apply IH. intros; apply H; by right.
Qed.

(** exactly one answer is true: its distribution *)
Lemma scan_one_true l1 s l2 :
  (∀ x, x ∈ l2 → x.2 ≠ RT) → (foldl scan_step (false, []) (l1 ++ (s, RT) :: l2)).2 = s.
Proof.
  intros H. rewrite scan_true, filter_app, filter_cons_True by done.
  assert (filter (λ x : list score * presult, x.2 = RT) l2 = []) as ->; [|by rewrite last_snoc].
  induction l2 as [|x rs IH]; [done|]. rewrite filter_cons_False by (apply H; left).
  apply IH. intros; apply H; by right.
Qed.

(** ** Strategy lastPrediction *)

(** Nodes with an unknown predicate have no children. *)
Definition unknown_leaf E ft r (n : node) : Prop := verdict E ft r n RU → n_children n = [].

Lemma children_split E ft r n :
  everywhere (has_verdict E ft r) n →
  (∃ c, c ∈ n_children n ∧ verdict E ft r c RU) ∨
  (∀ c, c ∈ n_children n → ¬ verdict E ft r c RU).
Proof.
  intros H. inversion H as [n' _ Hf]; subst.
  induction Hf as [|c l Hc _ IH]; [right; set_solver|].
  apply everywhere_here in Hc as [v Hv]. destruct v.
  - left. exists c. split; [left|done].
  - destruct IH as [(c' & Hin & Hc')|IH]; [left; exists c'; split; [by right|done]|].
    right. intros c' [->|Hin]%elem_of_cons Hc'; [by pose proof (verdict_fun _ _ _ _ _ _ Hv Hc')|].
    by apply (IH c').
  - destruct IH as [(c' & Hin & Hc')|IH]; [left; exists c'; split; [by right|done]|].
    right. intros c' [->|Hin]%elem_of_cons Hc'; [by pose proof (verdict_fun _ _ _ _ _ _ Hv Hc')|].
    by apply (IH c').
Qed.

Lemma children_true E ft r n :
  everywhere (has_verdict E ft r) n →
  (∃ l1 c l2, n_children n = l1 ++ c :: l2 ∧ verdict E ft r c RT) ∨
  (∀ c, c ∈ n_children n → ¬ verdict E ft r c RT).
Proof.
  intros H. inversion H as [n' _ Hf]; subst. clear H.
  induction Hf as [|c l Hc _ IH]; [right; set_solver|].
  apply everywhere_here in Hc as [v Hv]. destruct (decide (v = RT)) as [->|Hne].
  - left. exists [], c, l. done.
  - destruct IH as [(l1 & c' & l2 & -> & Hc')|IH]; [left; exists (c :: l1), c', l2; done|].
    right. intros c' [->|Hin]%elem_of_cons Hc'; [by pose proof (verdict_fun _ _ _ _ _ _ Hv Hc')|].
    by apply (IH c').
Qed.

(** a strategy whose recursive calls answer each child with its verdict *)
Definition answers_verdict {A} (E : Ext) ft r (ev : node → res A) (f : A → list score * presult)
    (c : node) : Prop :=
  ∃ x, ev c = Ok x ∧ verdict E ft r c (f x).2.

Lemma eval_last_path E cx r n :
  everywhere (has_verdict E (cx_ft cx) r) n →
  everywhere (unknown_leaf E (cx_ft cx) r) n →
  everywhere (one_true E (cx_ft cx) r) n →
  everywhere (λ n, output_dist cx n ≠ []) n →
  ∃ s v, eval_last E cx r n = Ok (s, v) ∧ verdict E (cx_ft cx) r n v ∧
    (v ≠ RF → s ≠ []) ∧
    (v = RT → ∀ leaf, last_path E (cx_ft cx) r n leaf → s = output_dist cx leaf).
Proof.
  induction n as [id dc cs ds t sc IH] using node_rect'. intros Hv Hu Ho Hd.
  assert (Hchv := Hv). inversion Hchv as [? [v Hvn] Hvc]; subst. clear Hchv.
  assert (Hu' := Hu). inversion Hu' as [? Hun Huc]; subst. clear Hu'.
  assert (Ho' := Ho). inversion Ho' as [? Hon Hoc]; subst. clear Ho'.
  assert (Hd' := Hd). inversion Hd' as [? Hdn Hdc]; subst. clear Hd'.
  unfold verdict in Hvn |- *. simpl in *. rewrite Hvn. simpl.
  destruct v as [| |].
  - (* unknown: a leaf *)
    unfold unknown_leaf, verdict in Hun. simpl in Hun. specialize (Hun Hvn). subst cs. simpl.
    eexists _, _. split; [done|]. split; [done|]. split; [by auto|]. done.
  - (* true *)
    assert (Hrs : ∃ rs, Forall2 (λ c x, eval_last E cx r c = Ok x ∧ verdict E (cx_ft cx) r c x.2 ∧
        (x.2 ≠ RF → x.1 ≠ []) ∧
        (x.2 = RT → ∀ leaf, last_path E (cx_ft cx) r c leaf → x.1 = output_dist cx leaf)) cs rs).
    { clear Hv Hu Ho Hd Hvn Hun Hon Hdn. induction IH as [|c cs Hc _ IHcs]; [by eexists|].
      apply Forall_cons in Hvc as [? ?], Huc as [? ?], Hoc as [? ?], Hdc as [? ?].
      destruct IHcs as [rs Hrs]; try done.
      destruct Hc as (s & v & Hc); try done. exists ((s, v) :: rs). by constructor. }
    destruct Hrs as [rs Hrs].
    assert (Hmap : rmap (eval_last E cx r) cs = Ok rs).
    { apply rmap_ok. eapply Forall2_impl; [done|]. naive_solver. }
    rewrite Hmap. simpl. clear Hmap.
    assert (Hunk : (foldl scan_step (false, []) rs).1 = true ↔
                   ∃ c, c ∈ cs ∧ verdict E (cx_ft cx) r c RU).
    { rewrite scan_unknown_true. split.
      - intros (x & Hx & Hxu). 
        apply elem_of_list_lookup in Hx as [i Hi].
        destruct (Forall2_lookup_r _ _ _ _ _ Hrs Hi) as (c & Hc & _ & Hcv & _).
        exists c. split; [by eapply elem_of_list_lookup_2|]. by rewrite <-Hxu.
      - intros (c & Hc & Hcv). apply elem_of_list_lookup in Hc as [i Hi].
        destruct (Forall2_lookup_l _ _ _ _ _ Hrs Hi) as (x & Hx & _ & Hxv & _).
        exists x. split; [by eapply elem_of_list_lookup_2|]. by eapply verdict_fun. }
    destruct (foldl scan_step (false, []) rs) as [unk td] eqn:Hs.
    destruct unk; simpl.
    + (* some child unknown *)
      eexists _, _. split; [done|]. split; [done|]. split; [by auto|]. intros _ leaf Hp.
      destruct (proj1 Hunk eq_refl) as (c & Hc & Hcv).
      inversion Hp as [| ? Hno |? c' leaf' Hno ?]; subst; simpl in *; [done|done|].
      by destruct (Hno c Hc).
    + assert (Hno : ∀ c, c ∈ cs → ¬ verdict E (cx_ft cx) r c RU).
      { intros c Hc Hcv. assert (false = true) by (apply Hunk; eauto). done. }
      destruct (children_true _ _ _ _ Hv) as [(l1 & c & l2 & Hcs & Hc)|Hnt]; simpl in *.
      * subst cs. apply Forall2_app_inv_l in Hrs as (rs1 & rs2' & Hrs1 & Hrs2' & ->).
        apply Forall2_cons_inv_l in Hrs2' as ([s v] & rs2 & Hcx & Hrs2 & ->).
        destruct Hcx as (Hce & Hcv & Hcne & Hcp). simpl in *.
        assert (v = RT) as -> by (by eapply verdict_fun).
        assert (Hl2 : ∀ x, x ∈ rs2 → x.2 ≠ RT).
        { intros x Hx Hx2. apply elem_of_list_lookup in Hx as [i Hi].
          destruct (Forall2_lookup_r _ _ _ _ _ Hrs2 Hi) as (c' & Hc' & _ & Hcv' & _).
          apply (Hon l1 c l2 c' eq_refl Hc); [|by rewrite <-Hx2].
          apply elem_of_app. right. by eapply elem_of_list_lookup_2. }
        pose proof (scan_one_true rs1 s rs2 Hl2) as Hst. rewrite Hs in Hst. simpl in Hst. subst td.
        assert (Nat.eqb (length s) 0 = false) as ->.
        { apply Nat.eqb_neq. intros Hz. apply nil_length_inv in Hz. by apply Hcne. }
        simpl. eexists _, _. split; [done|]. split; [done|]. split; [by auto|].
        intros _ leaf Hp.
        inversion Hp as [? c' Hin Hcu|? Hnf |? c' leaf' _ Hin Hc' Hp']; subst; simpl in *.
        -- by destruct (Hno c' Hin).
        -- pose proof (Hnf c ltac:(set_solver)) as Hf.
           by pose proof (verdict_fun _ _ _ _ _ _ Hf Hc).
        -- apply Hcp; [done|].
           apply elem_of_app in Hin as [Hin|[->|Hin]%elem_of_cons]; [|done|].
           ++ by destruct (Hon l1 c l2 c' eq_refl Hc ltac:(set_solver)).
           ++ by destruct (Hon l1 c l2 c' eq_refl Hc ltac:(set_solver)).
      * assert (Hnr : ∀ x, x ∈ rs → x.2 ≠ RT).
        { intros x Hx Hx2. apply elem_of_list_lookup in Hx as [i Hi].
          destruct (Forall2_lookup_r _ _ _ _ _ Hrs Hi) as (c' & Hc' & _ & Hcv' & _).
          apply (Hnt c'); [by eapply elem_of_list_lookup_2|by rewrite <-Hx2]. }
        pose proof (scan_no_true rs Hnr) as Hst. rewrite Hs in Hst. simpl in Hst. subst td.
        simpl. eexists _, _. split; [done|]. split; [done|]. split; [done|].
        intros _ leaf Hp.
        inversion Hp as [? c' Hin Hcu|? Hnf |? c' leaf' _ Hin Hc' Hp']; subst; simpl in *.
        -- done.
        -- done.
        -- by destruct (Hnt c' Hin).
  - eexists _, _. split; [done|]. done.
Qed.

Lemma last_path_total E ft r n :
  everywhere (has_verdict E ft r) n → ∃ leaf, last_path E ft r n leaf.
Proof.
  induction n as [id dc cs ds t sc IH] using node_rect'. intros Hv.
  destruct (children_split _ _ _ _ Hv) as [(c & Hin & Hc)|Hno].
  { eexists. by eapply last_unknown. }
  destruct (children_true _ _ _ _ Hv) as [(l1 & c & l2 & Hcs & Hc)|Hnt].
  - assert (Hin : c ∈ cs) by (simpl in Hcs; subst; set_solver).
    rewrite Forall_forall in IH. destruct (IH c Hin) as [leaf Hl].
    { by eapply everywhere_child. }
    exists leaf. by eapply last_step.
  - eexists. apply last_stop. intros c Hin.
    destruct (has_verdict_cases E ft r c) as [H|[H|H]].
    + eapply everywhere_here. by eapply everywhere_child.
    + by destruct (Hnt c Hin).
    + done.
    + by destruct (Hno c Hin).
Qed.

Lemma eval_last_leaf E cx r n :
  everywhere (has_verdict E (cx_ft cx) r) n →
  everywhere (unknown_leaf E (cx_ft cx) r) n →
  everywhere (one_true E (cx_ft cx) r) n →
  everywhere (λ n, output_dist cx n ≠ []) n →
  verdict E (cx_ft cx) r n RT →
  ∃ leaf, last_path E (cx_ft cx) r n leaf ∧
          eval_last E cx r n = Ok (output_dist cx leaf, RT).
Proof.
  intros Hv Hu Ho Hd Hn. destruct (eval_last_path E cx r n Hv Hu Ho Hd) as (s & v & He & Hv' & _ & Hp).
  assert (v = RT) as -> by (by eapply verdict_fun).
  destruct (last_path_total _ _ _ _ Hv) as [leaf Hl]. exists leaf. split; [done|].
  by rewrite He, (Hp eq_refl leaf Hl).
Qed.

(** ** Strategy defaultChild *)

Lemma child_scores_lookup (cs : list node) (rs : list (list score * presult)) dc :
  foldl (λ (m : gmap string (list score)) '(c, x), <[n_id c := x.1]> m) ∅ (zip cs rs) !! dc =
  snd <$> last (filter (λ p, p.1 = dc) (zip (n_id <$> cs) (fst <$> rs))).
Proof.
  pose proof (foldl_insert_last (λ p : node * (list score * presult), (n_id p.1, p.2.1))
                (zip cs rs) ∅ dc) as H.
  etrans; [|etrans; [exact H|]].
  - clear H. generalize (∅ : gmap string (list score)).
    induction (zip cs rs) as [|[c x] l IH]; intros m; simpl; [done|]. by rewrite IH.
  - clear H. rewrite lookup_empty.
    assert (map (λ p : node * (list score * presult), (n_id p.1, p.2.1)) (zip cs rs)
            = zip (n_id <$> cs) (fst <$> rs)) as ->.
    { revert rs. induction cs as [|c cs IH]; intros [|x rs]; simpl; try done. by rewrite IH. }
    by destruct (last _).
Qed.

Lemma eval_default_unknown E cx r n rs w :
  verdict E (cx_ft cx) r n w → w ≠ RF →
  Forall2 (λ c x, eval_default E cx r c = Ok x) (n_children n) rs →
  (∃ x, x ∈ rs ∧ x.2 = RU) →
  eval_default E cx r n =
  match snd <$> last (filter (λ p, p.1 = n_default n) (zip (n_id <$> n_children n) (fst <$> rs))) with
  | Some ds => Ok (adjust (cx_penalty cx) <$> ds, RT)
  | None => Ok ([], RU)
  end.
Proof.
  destruct n as [id dc cs ds t sc]. unfold verdict. simpl. intros Hw Hne Hrs Hu.
  rewrite Hw. simpl. apply rmap_ok in Hrs. rewrite Hrs. simpl.
  apply scan_unknown_true in Hu. rewrite <-child_scores_lookup.
  destruct (foldl scan_step _ _) as [unk td]. simpl in Hu. subst unk. simpl.
  destruct w; done.
Qed.

Lemma eval_default_known E cx r n rs w :
  verdict E (cx_ft cx) r n w → w ≠ RF →
  Forall2 (λ c x, eval_default E cx r c = Ok x) (n_children n) rs →
  (∀ x, x ∈ rs → x.2 ≠ RU) →
  eval_default E cx r n =
  match last (filter (λ x : list score * presult, x.2 = RT) rs) with
  | Some (s :: ss, _) => Ok (s :: ss, RT)
  | _ => Ok (output_dist cx n, w)
  end.
Proof.
  destruct n as [id dc cs ds t sc]. unfold verdict. simpl. intros Hw Hne Hrs Hu.
  rewrite Hw. simpl. apply rmap_ok in Hrs. rewrite Hrs. simpl.
  assert (Hk : (foldl scan_step (false, []) rs).1 = false).
  { apply scan_unknown_false. by apply Forall_forall. }
  pose proof (scan_true (false, []) rs) as Ht.
  destruct (foldl scan_step _ _) as [unk td]. simpl in Hk, Ht. subst unk td. simpl.
  destruct (last _) as [[[|s ss] v]|]; simpl; destruct w; done.
Qed.

(** ** Strategy aggregateNodes *)

Definition class_sum (f : score → f64) (v : string) (l : list score) : f64 :=
  foldl (λ acc s, fadd acc (f s)) fzero (filter (λ s, sc_value s = v) l).

Lemma foldl_snoc {A B} (f : A → B → A) a l x : foldl f a (l ++ [x]) = f (foldl f a l) x.
Proof. by rewrite foldl_app. Qed.

Lemma an_fold (l : list score) :
  let '(agg, total) := foldl an_add (∅, fzero) l in
  total = foldl (λ acc s, fadd acc (sc_count s)) fzero l ∧
  ∀ v, agg !! v = if decide (v ∈ sc_value <$> l)
                  then Some (Score v fzero fzero (class_sum sc_count v l)) else None.
Proof.
  induction l as [|s l IH] using rev_ind; [done|].
  rewrite !foldl_snoc. destruct (foldl an_add _ l) as [agg total]. destruct IH as [-> IH].
  simpl. split; [done|]. intros v. unfold class_sum. rewrite filter_app.
  rewrite fmap_app. destruct (decide (v = sc_value s)) as [->|Hne].
  - rewrite lookup_insert, filter_cons_True by done. rewrite filter_nil, foldl_snoc.
    rewrite decide_True by set_solver. rewrite IH.
    case_decide as Hin; simpl; [done|]. do 2 f_equal.
    assert (filter (λ s0, sc_value s0 = sc_value s) l = []) as ->; [|done].
    clear IH. induction l as [|s' l IHl]; [done|]. rewrite filter_cons_False.
    + apply IHl. set_solver.
    + intros Heq. apply Hin. rewrite <-Heq. simpl. set_solver.
  - rewrite lookup_insert_ne by done. rewrite IH.
    rewrite filter_cons_False by done. rewrite filter_nil, app_nil_r.
    destruct (decide (v ∈ sc_value <$> l)) as [H1|H1],
             (decide (v ∈ (sc_value <$> l) ++ (sc_value <$> [s]))) as [H2|H2]; try done;
      exfalso; set_solver.
Qed.

Lemma eval_aggregate_unknown E cx r tk n rs w :
  verdict E (cx_ft cx) r n w → w ≠ RF →
  rmapi (λ i c, eval_aggregate E cx r (i :: tk) c) 1 (n_children n) = Ok rs →
  (∃ x, x ∈ rs ∧ x.2 = RU) →
  ∃ out, eval_aggregate E cx r tk n = Ok (out, RT) ∧
    NoDup (sc_value <$> out) ∧
    (∀ s, s ∈ out ↔ ∃ v, v ∈ sc_value <$> concat rs.*1 ∧
       let total := foldl (λ acc s, fadd acc (sc_count s)) fzero (concat rs.*1) in
       let count := class_sum sc_count v (concat rs.*1) in
       s = Score v (fdiv count total) (fdiv count total) count).
Proof.
  destruct n as [id dc cs ds t sc]. unfold verdict. simpl. intros Hw Hne Hrs Hu.
  rewrite Hw. simpl. rewrite Hrs. simpl.
  apply scan_unknown_true in Hu. destruct (foldl scan_step _ _) as [unk td]. simpl in Hu. subst unk. simpl.
  pose proof (an_fold (concat rs.*1)) as Hagg.
  destruct (foldl an_add _ _) as [agg total]. destruct Hagg as [-> Hagg].
  exists ((λ '(_, a), Score (sc_value a)
     (fdiv (sc_count a) (foldl (λ acc s, fadd acc (sc_count s)) fzero (concat rs.*1)))
     (fdiv (sc_count a) (foldl (λ acc s, fadd acc (sc_count s)) fzero (concat rs.*1)))
     (sc_count a)) <$> map_range E (0 :: tk) agg).
  split; [destruct w; done|]. split.
  - rewrite <-list_fmap_compose.
    assert (sc_value ∘ (λ '(_, a), Score (sc_value a)
       (fdiv (sc_count a) (foldl (λ acc s, fadd acc (sc_count s)) fzero (concat rs.*1)))
       (fdiv (sc_count a) (foldl (λ acc s, fadd acc (sc_count s)) fzero (concat rs.*1)))
       (sc_count a)) <$> map_range E (0 :: tk) agg = (map_range E (0 :: tk) agg).*1) as ->;
      [|apply map_range_nodup].
    apply fmap_ext_in. intros [k a] Hin. simpl.
    apply map_range_elem in Hin. rewrite Hagg in Hin. case_decide; [|done]. by simplify_eq.
  - intros s. rewrite elem_of_list_fmap. split.
    + intros ([k a] & -> & Hin). apply map_range_elem in Hin. rewrite Hagg in Hin.
      case_decide; [|done]. simplify_eq/=. eauto.
    + intros (v & Hv & ->). exists (v, Score v fzero fzero (class_sum sc_count v (concat rs.*1))).
      split; [done|]. apply map_range_elem. rewrite Hagg. by rewrite decide_True.
Qed.

(** ** Strategy weightedConfidence *)

(** The non-false children, with their answers. *)
Definition non_false (cs : list node) (rs : list (list score * presult))
    : list (node * (list score * presult)) :=
  filter (λ x, x.2.2 ≠ RF) (zip cs rs).

Definition record_total (l : list (node * (list score * presult))) : f64 :=
  foldl (λ acc x, fadd acc (sc_count (n_score x.1))) fzero l.

(** class [v]: the products of the scores with the children's weights, in the
    order of the list *)
Definition weighted_sum (f : score → f64) (total : f64) (v : string)
    (l : list (node * (list score * presult))) : f64 :=
  foldl (λ acc p, fadd acc (fmul (f p.2) p.1)) fzero
    (filter (λ p, sc_value p.2 = v)
       (concat (map (λ x, map (λ s, (fdiv (sc_count (n_score x.1)) total, s)) x.2.1) l))).

Definition plain_sum (v : string) (l : list (node * (list score * presult))) : f64 :=
  foldl (λ acc s, fadd acc (sc_count s)) fzero
    (filter (λ s, sc_value s = v) (concat (map (λ x, x.2.1) l))).

(** the maps counts, scores and the total after the loop *)
Lemma wc_collect_spec (l : list (node * (list score * presult))) :
  NoDup (n_id <$> l.*1) →
  let '(counts, scores, total) := foldl wc_collect (∅, ∅, fzero) l in
  let nf := filter (λ x, x.2.2 ≠ RF) l in
  total = record_total nf ∧
  counts = list_to_map ((λ x, (n_id x.1, sc_count (n_score x.1))) <$> nf) ∧
  scores = list_to_map ((λ x, (n_id x.1, x.2.1)) <$> nf).
Proof.
  induction l as [|[c [s v]] l IH] using rev_ind; [done|]. rewrite fmap_app, fmap_app. intros Hnd.
  apply NoDup_app in Hnd as (Hnd & Hdis & _). specialize (IH Hnd).
  rewrite foldl_snoc. destruct (foldl wc_collect _ l) as [[counts scores] total].
  destruct IH as (-> & -> & ->). simpl. rewrite filter_app.
  assert (Hnotin : ∀ x, x ∈ filter (λ x : node * (list score * presult), x.2.2 ≠ RF) l → n_id x.1 ≠ n_id c).
  { intros x Hx Heq. apply elem_of_list_filter in Hx as [_ Hx].
    apply (Hdis (n_id c)); [|simpl; set_solver]. rewrite <-Heq.
    apply elem_of_list_fmap. exists x.1. split; [done|]. apply elem_of_list_fmap. eauto. }
  assert (Hext : ∀ {B} (g : node * (list score * presult) → B) (b : B) nf,
    (∀ x, x ∈ nf → n_id x.1 ≠ n_id c) →
    <[n_id c := b]> (list_to_map ((λ x, (n_id x.1, g x)) <$> nf) : gmap string B) =
    list_to_map (((λ x, (n_id x.1, g x)) <$> nf) ++ [(n_id c, b)])).
  { intros B g b nf Hn. rewrite list_to_map_app. simpl. apply map_eq. intros i.
    rewrite lookup_union. destruct (decide (i = n_id c)) as [->|Hi].
    - rewrite !lookup_insert.
      rewrite (proj1 (not_elem_of_list_to_map ((λ x, (n_id x.1, g x)) <$> nf) (n_id c))); [done|].
      rewrite <-list_fmap_compose. intros (x & Hx & Hin)%elem_of_list_fmap. by apply (Hn x Hin).
    - rewrite !lookup_insert_ne by done. rewrite lookup_empty.
      by destruct (_ !! i). }
  destruct v.
  - rewrite filter_cons_True by done. rewrite filter_nil, !fmap_app.
    split; [unfold record_total; by rewrite foldl_snoc|].
    split; [by apply (Hext _ (λ x, sc_count (n_score x.1)))|by apply (Hext _ (λ x, x.2.1))].
  - rewrite filter_cons_True by done. rewrite filter_nil, !fmap_app.
    split; [unfold record_total; by rewrite foldl_snoc|].
    split; [by apply (Hext _ (λ x, sc_count (n_score x.1)))|by apply (Hext _ (λ x, x.2.1))].
  - rewrite filter_cons_False by naive_solver. by rewrite filter_nil, app_nil_r.
Qed.

(** one class after adding a list of weighted scores *)
Lemma wc_add_fold (l : list (f64 * score)) :
  let agg := foldl (λ agg p, wc_add p.1 agg p.2) ∅ l in
  ∀ v, agg !! v =
    if decide (v ∈ sc_value ∘ snd <$> l) then
      Some (Score v
        (foldl (λ acc p, fadd acc (fmul (sc_conf p.2) p.1)) fzero (filter (λ p, sc_value p.2 = v) l))
        (foldl (λ acc p, fadd acc (fmul (sc_prob p.2) p.1)) fzero (filter (λ p, sc_value p.2 = v) l))
        (foldl (λ acc p, fadd acc (sc_count p.2)) fzero (filter (λ p, sc_value p.2 = v) l)))
    else None.
Proof.
  induction l as [|[w s] l IH] using rev_ind; [done|]. cbv zeta in *. intros v.
  rewrite foldl_snoc. cbn [fst snd].
  set (agg := foldl _ ∅ l) in *.
  unfold wc_add. rewrite filter_app, fmap_app.
  destruct (decide (v = sc_value s)) as [->|Hne].
  - rewrite lookup_insert, filter_cons_True by done. rewrite filter_nil, !foldl_snoc.
    rewrite decide_True by (simpl; set_solver). rewrite IH.
    case_decide as Hin; simpl; [done|].
    assert (filter (λ p : f64 * score, sc_value p.2 = sc_value s) l = []) as ->; [|done].
    clear IH agg. induction l as [|s' l IHl]; [done|]. rewrite filter_cons_False.
    + apply IHl. set_solver.
    + intros Heq. apply Hin. rewrite <-Heq. simpl. set_solver.
  - rewrite lookup_insert_ne by done. rewrite IH.
    rewrite filter_cons_False by done. rewrite filter_nil, app_nil_r.
    destruct (decide (v ∈ sc_value ∘ snd <$> l)) as [H1|H1],
      (decide (v ∈ (sc_value ∘ snd <$> l) ++ (sc_value ∘ snd <$> [(w, s)]))) as [H2|H2]; try done;
      exfalso; simpl in *; set_solver.
Qed.

Lemma wc_nested {A} (f : A → f64) (g : A → list score) (l : list A) (agg : gmap string score) :
  foldl (λ agg x, foldl (wc_add (f x)) agg (g x)) agg l =
  foldl (λ agg p, wc_add p.1 agg p.2) agg (concat (map (λ x, map (λ s, (f x, s)) (g x)) l)).
Proof.
  revert agg. induction l as [|x l IH]; intros agg; simpl; [done|].
  rewrite foldl_app, <-IH. f_equal. generalize (g x). intros ss. revert agg.
  induction ss as [|s ss IHs]; intros agg; simpl; [done|]. by rewrite IHs.
Qed.

Lemma eval_weighted_unknown E cx r tk n rs w :
  verdict E (cx_ft cx) r n w → w ≠ RF →
  rmapi (λ i c, eval_weighted E cx r (i :: tk) c) 2 (n_children n) = Ok rs →
  (∃ x, x ∈ rs ∧ x.2 = RU) →
  NoDup (n_id <$> n_children n) →
  let nf := non_false (n_children n) rs in
  ∃ out nf', eval_weighted E cx r tk n = Ok (out, RT) ∧
    Permutation nf' nf ∧ NoDup (sc_value <$> out) ∧
    (∀ s, s ∈ out ↔ ∃ v, v ∈ sc_value <$> concat (map (λ x, x.2.1) nf) ∧
       s = Score v (weighted_sum sc_conf (record_total nf) v nf')
                   (weighted_sum sc_prob (record_total nf) v nf')
                   (plain_sum v nf')).
Proof.
  destruct n as [id dc cs ds t sc]. unfold verdict. simpl. intros Hw Hne Hrs Hu Hnd.
  rewrite Hw. simpl. rewrite Hrs. simpl.
  apply scan_unknown_true in Hu. destruct (foldl scan_step _ _) as [unk td]. simpl in Hu. subst unk. simpl.
  assert (Hlen : length cs = length rs) by (apply rmapi_ok in Hrs; naive_solver).
  pose proof (wc_collect_spec (zip cs rs)) as Hc.
  rewrite fst_zip in Hc by lia. specialize (Hc Hnd).
  destruct (foldl wc_collect _ _) as [[counts scores] total]. fold (non_false cs rs) in Hc.
  destruct Hc as (-> & -> & ->).
  set (nf := non_false cs rs).
  assert (Hndf : NoDup ((λ x : node * (list score * presult), (n_id x.1, x.2.1)) <$> nf).*1).
  { rewrite <-list_fmap_compose. unfold nf, non_false.
    assert (n_id <$> cs = (λ x : node * (list score * presult), n_id x.1) <$> zip cs rs) as Hz.
    { rewrite <-(fst_zip cs rs) at 1 by lia. by rewrite <-list_fmap_compose. }
    rewrite Hz in Hnd. clear -Hnd. induction (zip cs rs) as [|x l IH]; [constructor|].
    simpl in Hnd. apply NoDup_cons in Hnd as [Hx Hnd]. rewrite filter_cons.
    case_decide; [|by apply IH]. simpl. constructor; [|by apply IH].
    intros (y & Hy & [_ Hin]%elem_of_list_filter)%elem_of_list_fmap. apply Hx.
    apply elem_of_list_fmap. exists y. simpl in Hy. done. }
  (* the order in which the children are visited *)
  set (sm := list_to_map ((λ x, (n_id x.1, x.2.1)) <$> nf) : gmap string (list score)).
  assert (Hperm : Permutation (map_range E (0 :: tk) sm) ((λ x, (n_id x.1, x.2.1)) <$> nf)).
  { rewrite map_range_perm. by apply map_to_list_to_map. }
  apply Permutation_sym in Hperm.
  destruct (Permutation_map_inv _ _ (Permutation_sym Hperm)) as (nf' & Hnf' & Hp').
  assert (Hr : map_range E (0 :: tk) sm = (λ x, (n_id x.1, x.2.1)) <$> nf') by exact Hnf'.
  rewrite Hr.
  assert (Hcount : ∀ x, x ∈ nf →
    (list_to_map ((λ x, (n_id x.1, sc_count (n_score x.1))) <$> nf) : gmap string f64) !! n_id x.1
    = Some (sc_count (n_score x.1))).
  { intros x Hx. apply elem_of_list_to_map_1.
    - rewrite <-list_fmap_compose. rewrite <-list_fmap_compose in Hndf. exact Hndf.
    - apply elem_of_list_fmap. eauto. }
  set (agg := foldl _ ∅ ((λ x, (n_id x.1, x.2.1)) <$> nf')).
  assert (Hagg : agg = foldl (λ agg p, wc_add p.1 agg p.2) ∅
    (concat (map (λ x, map (λ s, (fdiv (sc_count (n_score x.1)) (record_total nf), s)) x.2.1) nf'))).
  { rewrite <-(wc_nested (λ x, fdiv (sc_count (n_score x.1)) (record_total nf)) (λ x, x.2.1)).
    unfold agg. assert (Hsub : ∀ x, x ∈ nf' → x ∈ nf) by (intros x; by rewrite Hp').
    generalize (∅ : gmap string score). clear -Hcount Hsub.
    induction nf' as [|x nf' IH]; intros m; simpl; [done|].
    rewrite Hcount by (apply Hsub; left). simpl. apply IH. intros; apply Hsub; by right. }
  exists (map_range E (1 :: tk) agg).*2, nf'.
  split; [destruct w; done|]. split; [by symmetry|].
  pose proof (wc_add_fold (concat (map (λ x,
    map (λ s, (fdiv (sc_count (n_score x.1)) (record_total nf), s)) x.2.1) nf'))) as Hv.
  cbv zeta in Hv. rewrite <-Hagg in Hv. clear Hagg.
  set (flat := concat _) in Hv.
  assert (Hkeys : ∀ v, v ∈ sc_value ∘ snd <$> flat ↔ v ∈ sc_value <$> concat (map (λ x, x.2.1) nf)).
  { intros v. transitivity (∃ x s, x ∈ nf' ∧ s ∈ x.2.1 ∧ v = sc_value s).
    - unfold flat. rewrite elem_of_list_fmap. setoid_rewrite elem_of_concat_map. split.
      + intros ([w0 s] & -> & (x & Hx & Hs)). apply elem_of_list_In, in_map_iff in Hs as (s' & [= _ ->] & Hs).
        apply elem_of_list_In in Hs. eauto.
      + intros (x & s & Hx & Hs & ->). eexists (_, s). split; [done|]. exists x. split; [done|].
        apply elem_of_list_In, in_map_iff. exists s. split; [done|]. by apply elem_of_list_In.
    - rewrite elem_of_list_fmap. setoid_rewrite elem_of_concat_map. setoid_rewrite Hp'. naive_solver. }
  assert (Hentry : ∀ v, v ∈ sc_value ∘ snd <$> flat →
    agg !! v = Some (Score v (weighted_sum sc_conf (record_total nf) v nf')
                   (weighted_sum sc_prob (record_total nf) v nf') (plain_sum v nf'))).
  { intros v Hin. rewrite Hv, decide_True by done. do 2 f_equal. unfold plain_sum, flat. clear.
    generalize fzero. induction nf' as [|x nf' IH]; intros a; simpl; [done|].
    rewrite !filter_app, !foldl_app. rewrite IH. f_equal. clear IH. generalize x.2.1. intros ss.
    revert a. induction ss as [|s ss IHs]; intros a; simpl; [done|].
    rewrite !filter_cons. simpl. case_decide; simpl; apply IHs. }
  split.
  - assert (sc_value <$> (map_range E (1 :: tk) agg).*2 = (map_range E (1 :: tk) agg).*1) as ->;
      [|apply map_range_nodup].
    rewrite <-list_fmap_compose. apply fmap_ext_in. intros [k a] Hin. simpl.
    apply map_range_elem in Hin. rewrite Hv in Hin. case_decide; [|done]. by simplify_eq.
  - intros s. rewrite elem_of_list_fmap. setoid_rewrite <-Hkeys. split.
    + intros ([k a] & -> & Hin). apply map_range_elem in Hin.
      assert (Hk : k ∈ sc_value ∘ snd <$> flat).
      { rewrite Hv in Hin. by case_decide. }
      rewrite Hentry in Hin by done. simplify_eq/=. eauto.
    + intros (v & Hin & ->). eexists (v, _). split; [done|]. apply map_range_elem. by apply Hentry.
Qed.

(** ** All strategies agree on fully known rows *)

Definition known E ft r (n : node) : Prop := verdict E ft r n RT ∨ verdict E ft r n RF.

Lemma known_has_verdict E ft r n : known E ft r n → has_verdict E ft r n.
Proof. intros [H|H]; by eexists. Qed.

(** [x] is an answer for the node that agrees with strategy none *)
Definition agrees E cx r (n : node) (x : list score * presult) : Prop :=
  verdict E (cx_ft cx) r n x.2 ∧
  (x.2 = RT → eval_none E cx r n = Ok x ∧ x.1 ≠ []).

Lemma agree_children E cx r id dc cs ds t sc rs :
  let n := Node id dc cs ds t sc in
  everywhere (known E (cx_ft cx) r) n → one_true E (cx_ft cx) r n →
  output_dist cx n ≠ [] → verdict E (cx_ft cx) r n RT →
  Forall2 (agrees E cx r) cs rs →
  (foldl scan_step (false, []) rs).1 = false ∧
  (if Nat.eqb (length (foldl scan_step (false, []) rs).2) 0
   then eval_none E cx r n = Ok (output_dist cx n, RT)
   else eval_none E cx r n = Ok ((foldl scan_step (false, []) rs).2, RT)).
Proof.
  intros n Hk Hone Hout Hn Hrs. assert (Hk' := Hk).
  inversion Hk' as [? _ Hkc]; subst. clear Hk'. simpl in Hkc.
  assert (Hall : everywhere (has_verdict E (cx_ft cx) r) n).
  { eapply everywhere_impl; [|done]. apply known_has_verdict. }
  split.
  - apply scan_unknown_false. apply Forall_forall. intros x Hx Hu.
    apply elem_of_list_lookup in Hx as [i Hi].
    destruct (Forall2_lookup_r _ _ _ _ _ Hrs Hi) as (c & Hc & Hv & _).
    rewrite Hu in Hv. apply elem_of_list_lookup_2 in Hc.
    rewrite Forall_forall in Hkc. destruct (everywhere_here _ _ (Hkc c Hc)) as [H|H];
      by pose proof (verdict_fun _ _ _ _ _ _ H Hv).
  - destruct (children_true _ _ _ _ Hall) as [(l1 & c & l2 & Hcs & Hc)|Hnt].
    + simpl in Hcs. subst cs. apply Forall2_app_inv_l in Hrs as (rs1 & rs2' & Hrs1 & Hrs2' & ->).
      apply Forall2_cons_inv_l in Hrs2' as ([s v] & rs2 & Hcx & Hrs2 & ->).
      destruct Hcx as (Hcv & Hct). simpl in *.
      assert (v = RT) as -> by (by eapply verdict_fun).
      destruct (Hct eq_refl) as [Hce Hcn].
      assert (Hl : ∀ c' x, c' ∈ l1 ++ l2 → agrees E cx r c' x → x.2 ≠ RT).
      { intros c' x Hc' [Hv' _] Heq. rewrite Heq in Hv'.
        by apply (Hone l1 c l2 c' eq_refl Hc Hc'). }
      rewrite (scan_one_true rs1 s rs2).
      2:{ intros x Hx. apply elem_of_list_lookup in Hx as [i Hi].
          destruct (Forall2_lookup_r _ _ _ _ _ Hrs2 Hi) as (c' & Hc' & Ha).
          eapply Hl; [|done]. apply elem_of_app. right. by eapply elem_of_list_lookup_2. }
      assert (Nat.eqb (length s) 0 = false) as ->.
      { apply Nat.eqb_neq. intros Hz. by apply nil_length_inv in Hz. }
      apply (eval_none_path E cx r n); [done|]. split; [done|].
      assert (Hcall : everywhere (has_verdict E (cx_ft cx) r) c).
      { eapply everywhere_child; [done|]. simpl. set_solver. }
      apply (eval_none_path E cx r c) in Hce as (_ & leaf & Hp & ->); [|done].
      exists leaf. split; [|done]. eapply none_step; [done| |done|done].
      intros c' Hc'. apply (Hone l1 c l2 c' eq_refl Hc). set_solver.
    + rewrite (scan_no_true rs).
      2:{ intros x Hx. apply elem_of_list_lookup in Hx as [i Hi].
          destruct (Forall2_lookup_r _ _ _ _ _ Hrs Hi) as (c' & Hc' & [Hv _]).
          intros Heq. rewrite Heq in Hv. apply elem_of_list_lookup_2 in Hc'.
          by apply (Hnt c' Hc'). }
      simpl. apply (eval_none_path E cx r n); [done|]. split; [done|].
      exists n. split; [|done]. by apply none_stop.
Qed.

Section agree.
  Context (E : Ext) (cx : tctx) (r : datarow).

  Definition settled (n : node) : Prop :=
    everywhere (known E (cx_ft cx) r) n ∧ everywhere (one_true E (cx_ft cx) r) n ∧
    everywhere (λ n, output_dist cx n ≠ []) n.

  Lemma settled_child n c : settled n → c ∈ n_children n → settled c.
  Proof. intros (H1 & H2 & H3) Hc. split; [|split]; by eapply everywhere_child. Qed.

  Lemma agrees_true_none n : settled n → verdict E (cx_ft cx) r n RT →
    ∃ s, eval_none E cx r n = Ok (s, RT) ∧ s ≠ [].
  Proof.
    intros (H1 & H2 & H3) Hv.
    assert (Hall : everywhere (has_verdict E (cx_ft cx) r) n).
    { eapply everywhere_impl; [|exact H1]. apply known_has_verdict. }
    destruct (eval_none_total E cx r n Hall) as [[s v] He].
    assert (v = RT) as -> by (by eapply eval_none_verdict).
    exists s. split; [done|]. apply (eval_none_path E cx r n) in He as (_ & leaf & Hp & ->); [|done].
    clear -Hp H3. induction Hp as [n Hn|n l1 c l2 leaf Hcs Hl1 Hc Hp IH].
    - by apply everywhere_here in H3.
    - apply IH. eapply everywhere_child; [done|]. rewrite Hcs. set_solver.
  Qed.

  Lemma agree_map {A} (ev : A → node → res (list score * presult)) (g : nat → A) i cs :
    (∀ c a, c ∈ cs → ∃ x, ev a c = Ok x ∧ agrees E cx r c x) →
    ∃ rs, rmapi (λ i c, ev (g i) c) i cs = Ok rs ∧ Forall2 (agrees E cx r) cs rs.
  Proof.
    revert i. induction cs as [|c cs IH]; intros i H; simpl; [by eexists|].
    destruct (H c (g i) ltac:(left)) as (x & Hx & Ha). rewrite Hx. simpl.
    destruct (IH (S i)) as (rs & Hrs & Hf); [intros; apply H; by right|].
    rewrite Hrs. simpl. eexists. split; [done|]. by constructor.
  Qed.

  Lemma agree_rmap (ev : node → res (list score * presult)) cs :
    (∀ c, c ∈ cs → ∃ x, ev c = Ok x ∧ agrees E cx r c x) →
    ∃ rs, rmap ev cs = Ok rs ∧ Forall2 (agrees E cx r) cs rs.
  Proof.
    induction cs as [|c cs IH]; intros H; simpl; [by eexists|].
    destruct (H c ltac:(left)) as (x & Hx & Ha). rewrite Hx. simpl.
    destruct IH as (rs & Hrs & Hf); [intros; apply H; by right|].
    rewrite Hrs. simpl. eexists. split; [done|]. by constructor.
  Qed.

  Ltac start :=
    match goal with |- settled ?n → _ => intros Hset end;
    match goal with
    | Hset : settled (Node ?id ?dc ?cs ?ds ?t ?sc) |- _ =>
        pose proof (λ c, settled_child _ c Hset) as Hsetc;
        destruct Hset as (Hk & Ho & Hd);
        destruct (everywhere_here _ _ Hk) as [Hv|Hv];
        pose proof (everywhere_here _ _ Ho) as Hon;
        pose proof (everywhere_here _ _ Hd) as Hdn;
        pose proof Hv as Hv'; unfold verdict in Hv'; simpl in Hv'
    end.

  Lemma agree_last n : settled n → ∃ x, eval_last E cx r n = Ok x ∧ agrees E cx r n x.
  Proof.
    induction n as [id dc cs ds t sc IH] using node_rect'. rewrite Forall_forall in IH. start.
    - simpl. rewrite Hv'. simpl.
      destruct (agree_rmap (eval_last E cx r) cs) as (rs & Hrs & Hf); [eauto|].
      rewrite Hrs. simpl. destruct (agree_children _ _ _ _ _ _ _ _ _ rs Hk Hon Hdn Hv Hf) as [Hu Ht].
      destruct (agrees_true_none _ (conj Hk (conj Ho Hd)) Hv) as (s & Hs & Hsn).
      destruct (foldl scan_step _ _) as [u td]. simpl in *. subst u. simpl.
      destruct (Nat.eqb (length td) 0) eqn:Hl; simpl.
      + eexists; split; [done|]. split; [done|]. simpl. split; [done|]. done.
      + eexists; split; [done|]. split; [done|]. simpl. intros _. split; [done|].
        intros ->. done.
    - simpl. rewrite Hv'. simpl. eexists; split; [done|]. by split.
  Qed.

  Lemma agree_default n : settled n → ∃ x, eval_default E cx r n = Ok x ∧ agrees E cx r n x.
  Proof.
    induction n as [id dc cs ds t sc IH] using node_rect'. rewrite Forall_forall in IH. start.
    - simpl. rewrite Hv'. simpl.
      destruct (agree_rmap (eval_default E cx r) cs) as (rs & Hrs & Hf); [eauto|].
      rewrite Hrs. simpl. destruct (agree_children _ _ _ _ _ _ _ _ _ rs Hk Hon Hdn Hv Hf) as [Hu Ht].
      destruct (foldl scan_step _ _) as [u td]. simpl in *. subst u. simpl.
      destruct (Nat.eqb (length td) 0) eqn:Hl; simpl.
      + eexists; split; [done|]. split; [done|]. simpl. split; [done|]. done.
      + eexists; split; [done|]. split; [done|]. simpl. intros _. split; [done|].
        intros ->. done.
    - simpl. rewrite Hv'. simpl. eexists; split; [done|]. by split.
  Qed.

  Lemma agree_null n : settled n → ∃ x, eval_null E cx r n = Ok x ∧ agrees E cx r n x.
  Proof.
    intros Hset.
    assert (Hall : everywhere (has_verdict E (cx_ft cx) r) n).
    { eapply everywhere_impl; [|exact (proj1 Hset)]. apply known_has_verdict. }
    destruct (eval_null_total E cx r n Hall) as [[s v] He]. eexists. split; [done|].
    pose proof (eval_null_answer _ _ _ _ _ _ He) as Ha.
    assert (Hnu : ∀ n, settled n → ¬ null_unknown E (cx_ft cx) r n).
    { clear. intros n Hs Hu. induction Hu as [n l1 c l2 Hcs Hl Hc|n l1 c l2 Hcs Hl Hc Hu IH].
      - assert (settled c) as (Hk & _) by (eapply settled_child; [done|]; rewrite Hcs; set_solver).
        destruct (everywhere_here _ _ Hk) as [H|H]; by pose proof (verdict_fun _ _ _ _ _ _ H Hc).
      - apply IH. eapply settled_child; [done|]; rewrite Hcs; set_solver. }
    destruct v; simpl in *.
    - destruct Ha as [_ [Ha|[_ Ha]]]; [|by apply Hnu in Ha].
      destruct (everywhere_here _ _ (proj1 Hset)) as [H|H]; by pose proof (verdict_fun _ _ _ _ _ _ H Ha).
    - destruct Ha as (Hv & leaf & Hp & ->). split; [done|]. simpl. intros _.
      assert (none_path E (cx_ft cx) r n leaf) as Hnp.
      { clear -Hp. induction Hp as [n Hn|n l1 c l2 leaf Hcs Hl1 Hc Hp IH].
        - apply none_stop. intros c Hc Hv. specialize (Hn c Hc).
          by pose proof (verdict_fun _ _ _ _ _ _ Hn Hv).
        - eapply none_step; [done| |done|done]. intros c' Hc' Hv. specialize (Hl1 c' Hc').
          by pose proof (verdict_fun _ _ _ _ _ _ Hl1 Hv). }
      destruct (agrees_true_none _ Hset Hv) as (s & Hs & Hsn).
      assert (He' : eval_none E cx r n = Ok (output_dist cx leaf, RT)).
      { apply eval_none_path; [done|]. eauto. }
      split; [done|]. rewrite Hs in He'. by simplify_eq.
    - split; [done|]. done.
  Qed.

  Lemma agree_weighted tk n : settled n → ∃ x, eval_weighted E cx r tk n = Ok x ∧ agrees E cx r n x.
  Proof.
    revert tk. induction n as [id dc cs ds t sc IH] using node_rect'. rewrite Forall_forall in IH.
    intros tk. start.
    - simpl. rewrite Hv'. simpl.
      destruct (agree_map (eval_weighted E cx r) (λ i, i :: tk) 2 cs) as (rs & Hrs & Hf); [eauto|].
      rewrite Hrs. simpl. destruct (agree_children _ _ _ _ _ _ _ _ _ rs Hk Hon Hdn Hv Hf) as [Hu Ht].
      destruct (foldl scan_step _ _) as [u td]. simpl in *. subst u. simpl.
      destruct (foldl wc_collect _ _) as [[counts scores] total].
      destruct td as [|s0 td]; simpl in *.
      + eexists; split; [done|]. split; [done|]. simpl. split; [done|]. done.
      + eexists; split; [done|]. split; [done|]. simpl. intros _. split; [done|]. done.
    - simpl. rewrite Hv'. simpl. eexists; split; [done|]. by split.
  Qed.

  Lemma agree_aggregate tk n : settled n → ∃ x, eval_aggregate E cx r tk n = Ok x ∧ agrees E cx r n x.
  Proof.
    revert tk. induction n as [id dc cs ds t sc IH] using node_rect'. rewrite Forall_forall in IH.
    intros tk. start.
    - simpl. rewrite Hv'. simpl.
      destruct (agree_map (eval_aggregate E cx r) (λ i, i :: tk) 1 cs) as (rs & Hrs & Hf); [eauto|].
      rewrite Hrs. simpl. destruct (agree_children _ _ _ _ _ _ _ _ _ rs Hk Hon Hdn Hv Hf) as [Hu Ht].
      destruct (foldl scan_step _ _) as [u td]. simpl in *. subst u. simpl.
      destruct td as [|s0 td]; simpl in *.
      + eexists; split; [done|]. split; [done|]. simpl. split; [done|]. done.
      + eexists; split; [done|]. split; [done|]. simpl. intros _. split; [done|]. done.
    - simpl. rewrite Hv'. simpl. eexists; split; [done|]. by split.
  Qed.

  Lemma strategies_agree tk st n :
    settled n → verdict E (cx_ft cx) r n RT →
    node_evaluate E cx st r tk n = eval_none E cx r n.
  Proof.
    intros Hset Hv. unfold node_evaluate.
    assert (Hx : ∀ x, agrees E cx r n x → Ok x = eval_none E cx r n).
    { intros [s v] [Hv' Ht]. assert (v = RT) as -> by (by eapply verdict_fun).
      symmetry. by apply Ht. }
    repeat case_str.
    - destruct (agree_null n Hset) as (x & -> & Ha). by apply Hx.
    - destruct (agree_aggregate tk n Hset) as (x & -> & Ha). by apply Hx.
    - destruct (agree_weighted tk n Hset) as (x & -> & Ha). by apply Hx.
    - destruct (agree_default n Hset) as (x & -> & Ha). by apply Hx.
    - destruct (agree_last n Hset) as (x & -> & Ha). by apply Hx.
    - done.
  Qed.
End agree.
