(** Evaluators built from the same document share its predicates: when a further
    NewModel changes them, and when it does not. *)
From Verif Require Import Base Strconv Value Doc Expr Pred Tree Regression Model Lib
  SpecPred ProofsPred SpecConstruct ProofsConstruct ProofsEval ProofsSim SpecShare.

(** ** Predicates and nodes no compilation within [T] changes *)

Definition fixed_pred (E : Ext) (T : fieldtypes) (p : predicate) : Prop :=
  ∀ ft, ft ⊆ T → (touch_pred E ft p).2 = p.
Definition fixed_node (E : Ext) (T : fieldtypes) (n : node) : Prop :=
  ∀ ft, ft ⊆ T → (touch_node E ft n).2 = n.

Lemma touch_list_fixed {A} (f : A → bool * A) l :
  Forall (λ a, (f a).2 = a) l → (touch_list f l).2 = l.
Proof.
  induction 1 as [|a l Ha _ IH]; simpl; [done|]. fold (touch_list f).
  destruct (f a) as [[] a']; simpl in *; subst; [|done].
  destruct (touch_list f l) as [ok l2]. simpl in *. by subst.
Qed.

Lemma compile_predicate_fixed E T ft p p' :
  ft ⊆ T → compile_predicate E ft p = Ok p' → fixed_pred E T p'.
Proof.
  intros HT. revert p'.
  induction p as [| |f op v raw|b ps IH|b f arr|] using predicate_rect'; intros p'; simpl;
    try (by intros [= <-] ? ?).
  - destruct (ft !! f) as [dt|] eqn:Hf; [|done]. intros (x & Hx & [= <-])%rbind_ok ft' Hft'. simpl.
    destruct (ft' !! f) as [dt'|] eqn:Hf'; [|done].
    assert (dt' = dt) as ->. { eapply lookup_weaken in Hf, Hf'; [|done..]. congruence. }
    by rewrite Hx.
  - intros (ps' & Hps & [= <-])%rbind_ok ft' Hft'. simpl. apply rmap_ok in Hps.
    assert (Forall (fixed_pred E T) ps') as H.
    { clear -IH Hps. induction Hps; [constructor|]. apply Forall_cons in IH as [H1 H2].
      constructor; [by apply H1|by apply IHHps]. }
    assert ((touch_list (touch_pred E ft') ps').2 = ps') as Hx.
    { apply touch_list_fixed. eapply Forall_impl; [done|]. intros q Hq. by apply Hq. }
    destruct (touch_list _ _) as [ok l2]. simpl in *. by subst.
Qed.

Lemma touch_node_eq E ft id dc cs ds t sc :
  (touch_list (touch_node E ft) cs).2 = cs → (touch_pred E ft t).2 = t →
  (touch_node E ft (Node id dc cs ds t sc)).2 = Node id dc cs ds t sc.
Proof.
  simpl. destruct (touch_list _ _) as [[] cs']; simpl; intros ->; [|done].
  destruct (touch_pred E ft t) as [ok t']. simpl. by intros ->.
Qed.

Lemma new_node_fixed E T ft m n :
  ft ⊆ T → new_node E ft m = Ok n → fixed_node E T n.
Proof.
  intros HT. revert n. induction m as [id dc sc c ds ns pr IH] using mnode_rect'. intros n. simpl.
  intros (cs & Hcs & (t & Ht & [= <-])%rbind_ok)%rbind_ok ft' Hft'. apply rmap_ok in Hcs.
  apply touch_node_eq.
  - apply touch_list_fixed.
    assert (Forall (fixed_node E T) cs) as H.
    { clear -IH Hcs. induction Hcs; [constructor|]. apply Forall_cons in IH as [H1 H2].
      constructor; [by apply H1|by apply IHHcs]. }
    eapply Forall_impl; [done|]. intros q Hq. by apply Hq.
  - exact (compile_predicate_fixed E T ft pr t HT Ht ft' Hft').
Qed.

(** ** Dictionaries that agree with [T] *)

Definition agree_dd (T : fieldtypes) (dd : list data_field) : Prop :=
  Forall (λ x, T !! dd_name x = Some (dd_datatype x)) dd.
Definition agree_td (T : fieldtypes) (td : list derived_field) : Prop :=
  Forall (λ x, T !! df_name x = Some (df_datatype x)) td.

Lemma field_types_agree T dd td : agree_dd T dd → agree_td T td → field_types dd td ⊆ T.
Proof.
  intros Hd Ht. unfold field_types.
  assert (foldl (λ ft df, <[dd_name df := dd_datatype df]> ft) ∅ dd ⊆ T) as H.
  { assert (∀ m : fieldtypes, m ⊆ T → foldl (λ ft df, <[dd_name df := dd_datatype df]> ft) m dd ⊆ T) as H;
      [|apply H, map_empty_subseteq].
    induction Hd as [|x dd Hx _ IH]; intros m Hm; [done|]. simpl. apply IH. by apply insert_subseteq_l. }
  revert H. generalize (foldl (λ ft df, <[dd_name df := dd_datatype df]> ft) (∅ : fieldtypes) dd).
  induction Ht as [|x td Hx _ IH]; intros m Hm; [done|]. simpl. apply IH. by apply insert_subseteq_l.
Qed.

Lemma one_type_map l : one_type l → ∃ T : fieldtypes, ∀ f a, (f, a) ∈ l → T !! f = Some a.
Proof.
  intros H. exists (list_to_map l). intros f a Hin. apply elem_of_list_to_map_1'; [|done].
  intros b Hb. by eapply H.
Qed.

Lemma declarations_agree T dd td :
  (∀ f a, (f, a) ∈ declarations dd td → T !! f = Some a) ↔ agree_dd T dd ∧ agree_td T td.
Proof.
  unfold agree_dd, agree_td, declarations. rewrite !Forall_forall. split.
  - intros H. split; intros x Hx; apply H, elem_of_app; [left|right]; apply elem_of_list_fmap; by exists x.
  - intros [H1 H2] f a [(x & [= -> ->] & Hx)%elem_of_list_fmap|(x & [= -> ->] & Hx)%elem_of_list_fmap]%elem_of_app;
      auto.
Qed.

(** ** Evaluators *)

Inductive fixed_model (E : Ext) (T : fieldtypes) : emodel → Prop :=
| fixed_tree t : fixed_node E T (et_root t) → agree_td T (tm_lt (et_model t)) → fixed_model E T (ETree t)
| fixed_regr x : fixed_model E T (ERegr x)
| fixed_mining h sm :
    agree_td T (mm_lt (em_hdr h)) → Forall (fixed_model E T) sm → fixed_model E T (EMining h sm).

Lemma touch_models_fixed T f td sm :
  agree_td T td →
  Forall (λ e, ∀ td, agree_td T td → (f td e).1.2 = e ∧ agree_td T (f td e).2) sm →
  (touch_models f td sm).1.2 = sm ∧ agree_td T (touch_models f td sm).2.
Proof.
  intros Htd H. revert td Htd. induction H as [|e sm He _ IH]; intros td Htd; simpl; [done|].
  fold (touch_models f). destruct (He td Htd) as [H1 H2].
  destruct (f td e) as [[[] e'] td1]; simpl in *; subst; [|done].
  destruct (IH td1 H2) as [H3 H4]. destruct (touch_models f td1 sm) as [[ok sm2] td2]. simpl in *. by subst.
Qed.

Lemma touch_fixed E T dd td e :
  agree_dd T dd → agree_td T td → fixed_model E T e →
  (touch E dd td e).1.2 = e ∧ agree_td T (touch E dd td e).2.
Proof.
  intros Hdd. revert td. induction e as [t|x|h sm IH] using emodel_rect'; intros td Htd He;
    inversion He as [? Hr Hl|?|? ? Hl Hsm]; subst; simpl; [|done|].
  - assert (agree_td T (td ++ tm_lt (et_model t))) as Ha by (by apply Forall_app).
    specialize (Hr _ (field_types_agree T dd _ Hdd Ha)).
    destruct (touch_node _ _ _) as [ok root]. simpl in *. subst root. by destruct t.
  - assert (agree_td T (td ++ mm_lt (em_hdr h))) as Ha by (by apply Forall_app).
    destruct (touch_models_fixed T (touch E dd) _ sm Ha) as [H1 H2].
    { apply Forall_forall. intros e Hin td1 Htd1. rewrite Forall_forall in IH, Hsm. by apply IH; auto. }
    destruct (touch_models _ _ _) as [[ok sm'] td']. simpl in *. by subst.
Qed.

Lemma touch_rounds_fixed E T dd td rounds sm :
  agree_dd T dd → agree_td T td → Forall (fixed_model E T) sm →
  touch_rounds E dd td rounds sm = sm.
Proof.
  intros Hdd Htd. revert sm. induction rounds as [|n rounds IH]; intros sm Hsm; simpl; [done|].
  rewrite IH by (by apply Forall_drop).
  destruct (touch_models_fixed T (touch E dd) td (take n sm) Htd) as [-> _]; [|by rewrite take_drop].
  apply (Forall_take _ n) in Hsm. eapply Forall_impl; [done|]. intros e He td1 Htd1. by apply touch_fixed.
Qed.

Lemma fixed_model_msim E T e1 e2 :
  msim same_tree e1 e2 → fixed_model E T e1 → fixed_model E T e2.
Proof.
  revert e2. induction e1 as [t|x|h sm IH] using emodel_rect'; intros e2 Hs He;
    inversion Hs as [? t2 Ht|?|? ? sm2 Hsm]; subst; [|done|];
    inversion He as [? Hr Hl|?|? ? Hl Hf]; subst.
  - destruct Ht as (_ & _ & _ & _ & _ & Hm & _ & Hroot & _). apply fixed_tree; [by rewrite <- Hroot|by rewrite <- Hm].
  - constructor; [done|]. clear -IH Hsm Hf. induction Hsm; [constructor|].
    apply Forall_cons in IH as [IH1 IH2]. apply Forall_cons in Hf as [Hf1 Hf2]. constructor; auto.
Qed.

Lemma agree_concat T (d : doc_model) s segs :
  agree_td T (concat (map (λ s, concat (map doc_locals (sg_models s))) segs)) →
  s ∈ segs → d ∈ sg_models s → agree_td T (doc_locals d).
Proof.
  intros H Hs Hd. apply Forall_forall. intros x Hx.
  unfold agree_td in H. rewrite Forall_forall in H. apply H.
  apply elem_of_list_In, in_concat. exists (concat (map doc_locals (sg_models s))). split.
  - apply elem_of_list_In, elem_of_list_fmap. by exists s.
  - apply in_concat. exists (doc_locals d). split; [|by apply elem_of_list_In].
    apply elem_of_list_In, elem_of_list_fmap. by exists d.
Qed.

Lemma new_model_agree E T dd d td o td' :
  agree_td T td → agree_td T (doc_locals d) → new_model E dd td d = (o, td') → agree_td T td'.
Proof.
  intros Htd Hl (l1 & l2 & -> & Hd)%new_model_td_prefix. rewrite Hd in Hl.
  apply Forall_app in Hl as [Hl _]. by apply Forall_app.
Qed.

Lemma compile_segments_fixed E T dd td acc segs :
  agree_td T td → agree_td T (concat (map (λ s, concat (map doc_locals (sg_models s))) segs)) →
  Forall (fixed_model E T) acc →
  Forall (λ s, Forall (λ d, ∀ td e td', agree_td T td → agree_td T (doc_locals d) →
    new_model E dd td d = (Ok e, td') → fixed_model E T e) (sg_models s)) segs →
  Forall (fixed_model E T) (compile_segments (new_model E dd) td acc segs).1.2 ∧
  agree_td T (compile_segments (new_model E dd) td acc segs).2.
Proof.
  intros Htd Hl Hacc H. revert td acc Htd Hl Hacc.
  induction H as [|[i ps ms] segs Hs _ IH]; intros td acc Htd Hl Hacc; simpl; [done|].
  destruct ms as [|d [|? ?]]; [done| |done]. simpl in *. rewrite app_nil_r in Hl.
  apply Forall_app in Hl as [Hl1 Hl2]. apply Forall_cons in Hs as [Hd _].
  destruct (new_model E dd td d) as [[e| |] td1] eqn:Hn; simpl.
  - apply IH; [exact (new_model_agree E T dd d td _ _ Htd Hl1 Hn)|done|]. apply Forall_app. split; [done|].
    constructor; [exact (Hd td e td1 Htd Hl1 Hn)|constructor].
  - split; [done|]. exact (new_model_agree E T dd d td _ _ Htd Hl1 Hn).
  - split; [done|]. exact (new_model_agree E T dd d td _ _ Htd Hl1 Hn).
Qed.

Lemma new_model_fixed E T dd d : ∀ td e td',
  agree_dd T dd → agree_td T td → agree_td T (doc_locals d) →
  new_model E dd td d = (Ok e, td') → fixed_model E T e.
Proof.
  induction d as [t|r|k|h segs IH] using doc_rect'; intros td e td' Hdd Htd Hl.
  - intros (te & -> & _ & (_ & _ & _ & _ & Hm & Hft & Hn & _))%new_model_tree_inv. constructor.
    + eapply new_node_fixed; [|done]. rewrite Hft. apply field_types_agree; [done|]. by apply Forall_app.
    + by rewrite Hm.
  - intros [= <- <-]. constructor.
  - done.
  - simpl in Hl. apply Forall_app in Hl as [Hl1 Hl2].
    intros (sm & -> & Hb & _)%new_model_mining_inv. constructor.
    + simpl. unfold header_of. by case_match.
    + apply (compile_segments_of_built _ _ _ []) in Hb. simpl in Hb.
      destruct (compile_segments_fixed E T dd (td ++ mm_lt h) [] segs) as [H _]; [by apply Forall_app|done|done| |].
      * eapply Forall_impl; [done|]. simpl. intros s Hs. eapply Forall_impl; [done|]. simpl. naive_solver.
      * by rewrite Hb in H.
Qed.

(** ** A further NewModel on the same document *)

Lemma touch_compiled E ft0 ft p p0 :
  compile_predicate E ft0 p = Ok p0 →
  ((touch_pred E ft p0).1 = true ↔ is_ok (compile_predicate E ft p) = true) ∧
  ∀ p1, compile_predicate E ft p = Ok p1 → (touch_pred E ft p0).2 = p1.
Proof.
  revert p0. induction p as [| |f op v raw|b ps IH|b f arr|] using predicate_rect'; intros p0; simpl;
    try (by intros [= <-]; split; [done|]; intros ? [= <-]).
  - destruct (ft0 !! f) as [dt0|]; [|done]. intros (x & _ & [= <-])%rbind_ok. simpl.
    destruct (ft !! f) as [dt|]; simpl; [|done]. destruct (get_raw_value E dt v); simpl; split; try done.
    by intros ? [= <-].
  - intros (ps0 & Hps & [= <-])%rbind_ok. simpl. apply rmap_ok in Hps.
    assert (((touch_list (touch_pred E ft) ps0).1 = true ↔ is_ok (rmap (compile_predicate E ft) ps) = true) ∧
      ∀ ps1, rmap (compile_predicate E ft) ps = Ok ps1 → (touch_list (touch_pred E ft) ps0).2 = ps1) as [H1 H2].
    { clear -IH Hps. induction Hps as [|q q0 ps ps0 Hq Hps IHps]; simpl; [by split; [|intros ? [= <-]]|].
      fold (touch_list (touch_pred E ft)) (rmap (compile_predicate E ft)).
      apply Forall_cons in IH as [Hh Ht]. destruct (Hh q0 Hq) as [Hh1 Hh2]. destruct (IHps Ht) as [Ht1 Ht2].
      destruct (touch_pred E ft q0) as [[] q']; simpl in *.
      - destruct (compile_predicate E ft q) as [q1| |]; simpl in *; [|naive_solver..].
        destruct (touch_list _ _) as [ok l2]. simpl in *. rewrite (Hh2 _ eq_refl).
        destruct (rmap _ _) as [l| |]; simpl in *; split; try naive_solver.
      - destruct (compile_predicate E ft q) as [q1| |]; simpl in *; [naive_solver|done..]. }
    destruct (touch_list _ _) as [ok l2]. simpl in *. destruct (rmap _ _); simpl in *; split; try done.
    intros ? [= <-]. f_equal. by apply H2.
Qed.

Lemma touch_new_node E ft0 ft m n0 :
  new_node E ft0 m = Ok n0 →
  ((touch_node E ft n0).1 = true ↔ is_ok (new_node E ft m) = true) ∧
  ∀ n1, new_node E ft m = Ok n1 → (touch_node E ft n0).2 = n1.
Proof.
  revert n0. induction m as [id dc sc c ds ns pr IH] using mnode_rect'. intros n0. simpl.
  intros (cs & Hcs & (t & Ht & [= <-])%rbind_ok)%rbind_ok. apply rmap_ok in Hcs. simpl.
  assert (((touch_list (touch_node E ft) cs).1 = true ↔ is_ok (rmap (new_node E ft) ns) = true) ∧
      ∀ ps1, rmap (new_node E ft) ns = Ok ps1 → (touch_list (touch_node E ft) cs).2 = ps1) as [H1 H2].
  { clear -IH Hcs. induction Hcs as [|q q0 ns cs Hq Hps IHps]; simpl; [by split; [|intros ? [= <-]]|].
    fold (touch_list (touch_node E ft)) (rmap (new_node E ft)).
    apply Forall_cons in IH as [Hh Htl]. destruct (Hh q0 Hq) as [Hh1 Hh2]. destruct (IHps Htl) as [Ht1 Ht2].
    destruct (touch_node E ft q0) as [[] q']; simpl in *.
    - destruct (new_node E ft q) as [q1| |]; simpl in *; [|naive_solver..].
      destruct (touch_list _ _) as [ok l2]. simpl in *. rewrite (Hh2 _ eq_refl).
      destruct (rmap _ _) as [l| |]; simpl in *; split; try naive_solver.
    - destruct (new_node E ft q) as [q1| |]; simpl in *; [naive_solver|done..]. }
  destruct (touch_compiled E ft0 ft pr t Ht) as [H3 H4].
  destruct (touch_list _ _) as [ok l2]. simpl in *. destruct (rmap _ _) as [cs1| |]; simpl in *.
  - destruct ok; [|naive_solver]. rewrite (H2 _ eq_refl).
    destruct (touch_pred E ft t) as [ok' t']. simpl in *.
    destruct (compile_predicate E ft pr) as [t1| |]; simpl in *; split; try naive_solver.
  - destruct ok; [naive_solver|]. done.
  - destruct ok; [naive_solver|]. done.
Qed.

Lemma new_tree_model_again E dd0 td0 dd td t e0 td0' :
  new_tree_model E dd0 td0 t = (Ok e0, td0') →
  (touch E dd td (ETree e0)).2 = (new_tree_model E dd td t).2 ∧
  ((touch E dd td (ETree e0)).1.1 = true ↔ is_ok (new_tree_model E dd td t).1 = true) ∧
  ∀ e1, (new_tree_model E dd td t).1 = Ok e1 → same_tests (touch E dd td (ETree e0)).1.2 (ETree e1).
Proof.
  intros [_ (_ & _ & _ & _ & Hm & Hft & Hn & _ & Hf)]%new_tree_model_inv.
  unfold new_tree_model, tree_validate. simpl.
  assert (negb (tm_function t =s "classification") && negb (tm_function t =s "regression") = false) as ->.
  { by destruct Hf as [-> | ->]. }
  unfold tree_compile. simpl. rewrite Hm. simpl.
  destruct (touch_new_node E _ (field_types dd (td ++ tm_lt t)) _ _ Hn) as [H1 H2].
  destruct (touch_node _ _ _) as [ok root]. simpl in *.
  clear Hn. destruct (new_node _ _ _) as [n1| |]; simpl in *; (split; [done|]); (split; [done|]); try done.
  intros e1 [= <-]. constructor. simpl. by apply H2.
Qed.

Lemma new_model_again E dd0 dd d : ∀ td0 td e0 td0',
  new_model E dd0 td0 d = (Ok e0, td0') →
  (touch E dd td e0).2 = (new_model E dd td d).2 ∧
  ((touch E dd td e0).1.1 = true ↔ is_ok (new_model E dd td d).1 = true) ∧
  ∀ e1, (new_model E dd td d).1 = Ok e1 → same_tests (touch E dd td e0).1.2 e1.
Proof.
  induction d as [t|r|k|h segs IH] using doc_rect'; intros td0 td e0 td0' H0.
  - simpl in H0. destruct (new_tree_model E dd0 td0 t) as [[te| |] td1] eqn:Ht; [|done..].
    injection H0 as <- <-. pose proof (new_tree_model_again E dd0 td0 dd td t te td1 Ht) as (H1 & H2 & H3).
    cbn [new_model]. destruct (new_tree_model E dd td t) as [[x| |] td2]; simpl in *; (split; [done|]); (split; [done|]); try done.
    intros e1 [= <-]. by apply H3.
  - injection H0 as <- <-. simpl. repeat split; try done. intros ? [= <-]. constructor.
  - done.
  - apply new_model_mining_inv in H0 as (sm & -> & Hb & [Hm Hf]).
    rewrite new_model_mining. apply method_ok_iff in Hm. rewrite Hm. cbn [negb].
    apply (proj2 (bad_feature_none _)) in Hf. rewrite Hf.
    assert (mm_lt (em_hdr (built_mining dd0 td0 h segs)) = mm_lt h) as Hlt.
    { simpl. unfold header_of. by case_match. }
    cbn [touch]. rewrite Hlt.
    assert (∀ acc,
      (touch_models (touch E dd) (td ++ mm_lt h) sm).2 = (compile_segments (new_model E dd) (td ++ mm_lt h) acc segs).2 ∧
      ((touch_models (touch E dd) (td ++ mm_lt h) sm).1.1 = true ↔
        is_ok (compile_segments (new_model E dd) (td ++ mm_lt h) acc segs).1.1 = true) ∧
      ((compile_segments (new_model E dd) (td ++ mm_lt h) acc segs).1.1 = Ok tt →
       ∃ es, (compile_segments (new_model E dd) (td ++ mm_lt h) acc segs).1.2 = acc ++ es ∧
        Forall2 same_tests (touch_models (touch E dd) (td ++ mm_lt h) sm).1.2 es)) as Hc.
    { clear Hlt Hm Hf. generalize (td ++ mm_lt h) as td1. revert Hb. generalize (td0 ++ mm_lt h). intros tda Hb.
      induction Hb as [tda|tda [i ps ms] segs d e es tdb tdc Hd Hn Hb IHb]; intros td1 acc; simpl.
      - split; [done|]. split; [done|]. intros _. exists []. by rewrite app_nil_r.
      - simpl in Hd. subst ms. fold (touch_models (touch E dd)).
        apply Forall_cons in IH as [Hh Ht]. simpl in Hh. apply Forall_cons in Hh as [Hh _].
        destruct (Hh _ td1 _ _ Hn) as (G1 & G2 & G3).
        destruct (touch E dd td1 e) as [[[] e'] td2], (new_model E dd td1 d) as [[e1| |] td3]; simpl in *;
          subst td2; try (exfalso; destruct G2 as [G2 G2']; first [discriminate (G2 eq_refl)|discriminate (G2' eq_refl)]);
          try (by split; [|split]).
        destruct (IHb Ht td3 (acc ++ [e1])) as (K1 & K2 & K3).
        destruct (touch_models _ _ _) as [[ok sm2] td4]. simpl in *. split; [done|]. split; [done|].
        intros Hok. destruct (K3 Hok) as (es' & -> & Hes). exists (e1 :: es').
        rewrite <-app_assoc. split; [done|]. constructor; [by apply G3|done]. }
    destruct (Hc []) as (H1 & H2 & H3). clear Hc.
    destruct (touch_models _ _ _) as [[ok sm'] td']. simpl in *.
    destruct (compile_segments _ _ _ _) as [[[[]| |] sm2] td2]; simpl in *; (split; [done|]); (split; [done|]); try done.
    intros e1 [= <-]. destruct (H3 eq_refl) as (es & -> & Hes). by constructor.
Qed.
