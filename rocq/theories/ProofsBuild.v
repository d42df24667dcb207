(** NewModel as a program over shared memory: run alone it is [new_model]. *)
From Verif Require Import Base Strconv Value Doc Expr Pred Tree Regression Model Lib SpecTree SpecConstruct ProofsConstruct
  ProofsWhole Build SpecBuild.

(** ** Running alone *)

Fixpoint brun {A} (td : list derived_field) (m : bprog A) : A * list derived_field :=
  match m with
  | BRet a => (a, td)
  | BRead k => brun td (k td)
  | BWrite td' k => brun td' k
  | BTouch _ _ k => brun td k
  end.
Fixpoint btrace {A} (td : list derived_field) (m : bprog A) : list (place * bool) :=
  match m with
  | BRet _ => []
  | BRead k => (AtDerived, false) :: btrace td (k td)
  | BWrite td' k => (AtDerived, true) :: btrace td' k
  | BTouch w x k => (x, w) :: btrace td k
  end.

Lemma brun_bind {A B} td (m : bprog A) (f : A → bprog B) :
  brun td (bbind m f) = brun (brun td m).2 (f (brun td m).1).
Proof. revert td. induction m as [a|k IH|td' k IH|w x k IH]; intros td; simpl; [done|apply IH..]. Qed.
Lemma btrace_bind {A B} td (m : bprog A) (f : A → bprog B) :
  btrace td (bbind m f) = btrace td m ++ btrace (brun td m).2 (f (brun td m).1).
Proof. revert td. induction m as [a|k IH|td' k IH|w x k IH]; intros td; simpl; [done|by rewrite IH..]. Qed.

Lemma brun_each {A B} (f : nat → A → bprog (res B)) (g : A → res B) td i l :
  (∀ a j, a ∈ l → brun td (f j a) = (g a, td)) →
  brun td (each_steps f i l) = (rmap g l, td).
Proof.
  revert i. induction l as [|a l IH]; intros i H; simpl; [done|]. rewrite brun_bind, H by by left. simpl.
  destruct (g a) as [b|e|x]; simpl; [|done..]. rewrite brun_bind, IH by (intros; apply H; by right). simpl.
  by destruct (rmap g l).
Qed.

Lemma pred_alone E ft x q p td : brun td (pred_steps E ft x q p) = (compile_predicate E ft p, td).
Proof.
  revert q. induction p as [| |f op v raw|b ps IH|b f a|] using predicate_rect'; intros q; simpl; try done.
  - destruct (ft !! f) as [dt|]; [|done]. by destruct (get_raw_value E dt v).
  - rewrite brun_bind, (brun_each _ (compile_predicate E ft)).
    + by destruct (rmap _ ps).
    + intros a j Ha. rewrite Forall_forall in IH. by apply IH.
Qed.
Lemma node_alone E ft x n m td : brun td (node_steps E ft x n m) = (new_node E ft m, td).
Proof.
  revert n. induction m as [id dc sc c ds ns p IH] using mnode_rect'; intros n; simpl.
  rewrite brun_bind, (brun_each _ (new_node E ft)).
  - simpl. destruct (rmap (new_node E ft) ns) as [cs| |]; simpl; [|done..]. rewrite brun_bind, pred_alone. simpl.
    by destruct (compile_predicate E ft p).
  - intros a j Ha. rewrite Forall_forall in IH. by apply IH.
Qed.
Lemma brun_schema {A} d p i l (k : bprog A) td : brun td (schema_steps d p i l k) = brun td k.
Proof. revert i. induction l as [|f l IH]; intros i; simpl; [done|apply IH]. Qed.
Lemma brun_target {A} d p i l (k : bprog A) td : brun td (target_steps d p i l k) = brun td k.
Proof. revert i. induction l as [|f l IH]; intros i; simpl; [done|apply IH]. Qed.
Lemma brun_append {A} lt (k : bprog A) td : brun td (append_steps lt k) = brun (td ++ lt) k.
Proof.
  revert td. induction lt as [|f lt IH]; intros td; simpl; [by rewrite app_nil_r|]. rewrite IH.
  by rewrite <- app_assoc.
Qed.
Lemma tree_alone E dd d p t td : brun td (tree_steps E dd d p t) = new_tree_model E dd td t.
Proof.
  unfold tree_steps, new_tree_model. unfold tree_validate. cbn [et_model]. destruct (_ && _); [done|].
  rewrite brun_schema, brun_target, brun_append. cbn [brun]. rewrite brun_bind, node_alone. cbn [fst snd brun].
  unfold tree_compile. cbn [et_model tm_lt et_dd tm_node tm_schema et_validated et_outkeys et_target].
  by destruct (new_node E _ (tm_node t)).
Qed.

Lemma segments_alone (nm : list derived_field → doc_model → res emodel * list derived_field)
    (f : nat → doc_model → bprog (res emodel)) segs :
  (∀ s d i td, s ∈ segs → d ∈ sg_models s → brun td (f i d) = nm td d) →
  ∀ i td acc, compile_segments nm td acc segs =
    match brun td (segment_steps f i segs) with
    | (Ok sm, td') => (Ok tt, acc ++ sm, td')
    | (Err e, td') => (Err e, (compile_segments nm td acc segs).1.2, td')
    | (Panic e, td') => (Panic e, (compile_segments nm td acc segs).1.2, td')
    end.
Proof.
  intros H. induction segs as [|[id ps ms] segs IH]; intros i td acc; simpl; [by rewrite app_nil_r|].
  destruct ms as [|d [|d2 ms]]; simpl; [done| |done].
  rewrite brun_bind, (H (Segment id ps [d]) d) by set_solver.
  destruct (nm td d) as [[e|e|e] td1]; simpl; [|done..].
  rewrite brun_bind. rewrite (IH ltac:(intros; eapply H; [by right|done]) (S i)). unfold segment_steps.
  destruct (brun td1 (each_steps _ (S i) segs)) as [[sm|e'|e'] td2]; simpl; [|done..]. by rewrite <- app_assoc.
Qed.

Theorem build_alone E dd n p d td : brun td (build_steps E dd n p d) = new_model E dd td d.
Proof.
  revert p td. induction d as [t|r|k|h segs IH] using doc_rect'; intros p td; [|done..|].
  - simpl. rewrite brun_bind, tree_alone. simpl. by destruct (new_tree_model E dd td t) as [[| |] ?].
  - simpl. assert (∀ A (b : bool) x (m : bprog A), brun td ((if b then BTouch true x else id) m) = brun td m) as Hif
      by (intros A [] x m; done).
    rewrite Hif. unfold mining_validate. cbn [em_hdr mining_fresh em_validated em_compiled em_dd em_segs].
    destruct (negb _); [done|]. destruct (List.find _ _); [done|].
    rewrite brun_append. cbn [brun]. rewrite brun_bind. cbn [mining_prepare em_hdr em_dd].
    assert (mm_lt (if mm_method h =s "" then set_method h "sum" else h) = mm_lt h) as -> by (by destruct (_ =s _)).
    rewrite (segments_alone _ (λ i d, build_steps E dd n (p ++ [i]) d) segs) with (i := 0).
    2:{ intros s d i td0 Hs Hd. rewrite Forall_forall in IH. specialize (IH s Hs). rewrite Forall_forall in IH. by apply IH. }
    destruct (brun (td ++ mm_lt h) (segment_steps _ 0 segs)) as [[sm|e|e] td2]; cbn [fst snd brun]; [|done..].
    f_equal. f_equal. cbn [app]. unfold add_round, mining_compiled.
    cbn [em_validated em_compiled em_dd em_hdr em_segs em_defaults em_ft em_target em_outputs em_targets em_rounds].
    destruct (mm_method h =s ""); done.
Qed.

(** ** What a program may access *)

Fixpoint within {A} (P : place → bool → Prop) (m : bprog A) : Prop :=
  match m with
  | BRet _ => True
  | BRead k => P AtDerived false ∧ ∀ td, within P (k td)
  | BWrite _ k => P AtDerived true ∧ within P k
  | BTouch w x k => P x w ∧ within P k
  end.
Lemma within_bind {A B} (P : place → bool → Prop) (m : bprog A) (f : A → bprog B) :
  within P m → (∀ a, within P (f a)) → within P (bbind m f).
Proof. intros Hm Hf. induction m; simpl in *; naive_solver. Qed.
Lemma within_each {A B} (P : place → bool → Prop) (f : nat → A → bprog (res B)) i l :
  (∀ a j, a ∈ l → within P (f j a)) → within P (each_steps f i l).
Proof.
  revert i. induction l as [|a l IH]; intros i H; simpl; [done|]. apply within_bind; [apply H; by left|].
  intros [b|e|e]; [|done..]. apply within_bind; [apply IH; intros; apply H; by right|done].
Qed.

Lemma pred_within (P : place → bool → Prop) E ft x q p : (has_literal p → ∀ q, P (x q) true) → within P (pred_steps E ft x q p).
Proof.
  revert q. induction p as [| |f op v raw|b ps IH|b f a|] using predicate_rect'; intros q H; simpl; try done.
  - destruct (ft !! f) as [dt|]; [|done]. destruct (get_raw_value E dt v); [|done..]. split; [|done]. apply H. constructor.
  - apply within_bind; [|done]. apply within_each. intros a j Ha. rewrite Forall_forall in IH. apply IH; [done|].
    intros Hl. apply H. by econstructor.
Qed.
Lemma node_within (P : place → bool → Prop) E ft x n m :
  (∀ m', m' ∈ doc_nodes m → has_literal (m_pred m') → ∀ n q, P (x n q) true) → within P (node_steps E ft x n m).
Proof.
  revert n. induction m as [id dc sc c ds ns p IH] using mnode_rect'; intros n H; simpl.
  apply within_bind.
  - apply within_each. intros a j Ha. rewrite Forall_forall in IH. apply IH; [done|]. intros m' Hm'. apply H. simpl. right.
    apply elem_of_concat_map. eauto.
  - intros [cs|e|e]; [|done..]. apply within_bind; [|done]. apply pred_within. intros Hl q.
    apply (H (MNode id dc sc c ds ns p)); [by left|done].
Qed.
Lemma schema_within {A} (P : place → bool → Prop) d p i l (k : bprog A) :
  (l ≠ [] → ∀ i w, P (AtField d p i) w) → within P k → within P (schema_steps d p i l k).
Proof.
  revert i. induction l as [|f l IH]; intros i H Hk; simpl; [done|].
  split; [by apply H|]. split; [by apply H|]. apply IH; [|done]. intros. by apply H.
Qed.
Lemma target_within {A} (P : place → bool → Prop) d p i l (k : bprog A) :
  (l ≠ [] → ∀ i w, P (AtField d p i) w) → within P k → within P (target_steps d p i l k).
Proof.
  revert i. induction l as [|f l IH]; intros i H Hk; simpl; [done|].
  split; [by apply H|]. apply IH; [|done]. intros. by apply H.
Qed.
Lemma append_within {A} (P : place → bool → Prop) lt (k : bprog A) :
  P AtDerived false → (lt ≠ [] → P AtDerived true) → within P k → within P (append_steps lt k).
Proof.
  intros Hr Hw Hk. induction lt as [|f lt IH]; simpl; [done|]. split; [done|]. intros td. split; [by apply Hw|].
  apply IH. intros. by apply Hw.
Qed.

Lemma build_within (P : place → bool → Prop) E dd n p d :
  ((∀ r, d ≠ DRegr r) → P AtDerived false) →
  (doc_locals d ≠ [] → P AtDerived true) →
  (∀ t, t ∈ doc_trees d → tm_schema t ≠ [] → ∀ p i w, P (AtField n p i) w) →
  (∀ t m, t ∈ doc_trees d → m ∈ doc_nodes (tm_node t) → has_literal (m_pred m) → ∀ p k q, P (AtLiteral n p k q) true) →
  (∀ p, P (AtMethod n p) false) →
  (∀ h, h ∈ doc_headers d → mm_method h = "" → ∀ p, P (AtMethod n p) true) →
  within P (build_steps E dd n p d).
Proof.
  intros H1 H2 H3 H4 H5 H6. revert p. induction d as [t|r|k|h segs IH] using doc_rect'; intros p; [|done..|].
  - simpl. apply within_bind; [|done]. unfold tree_steps. destruct (tree_validate _) as [[[]| |] t1]; [|done..].
    apply schema_within; [intros; eapply H3; [by left|done]|]. apply target_within; [intros; eapply H3; [by left|done]|].
    apply append_within; [by apply H1|done|]. split; [by apply H1|]. intros td. apply within_bind; [|done].
    apply node_within. intros m Hm Hl k q. eapply H4; [by left|done|done].
  - simpl. split; [done|]. assert (within P (match mining_validate (mining_fresh dd h segs) with
      | (Ok _, m1) =>
          append_steps (mm_lt h) (BRead (λ td,
            bbind (segment_steps (λ i d, build_steps E dd n (p ++ [i]) d) 0 segs) (λ o, BRet (
              sm <-! o;
              Ok (EMining (EMining_ (em_validated m1) true dd (em_hdr m1) segs
                            (default_values (mm_schema h)) (field_types dd td)
                            (target_of "" (mm_schema h)) (mm_output h) (mm_targets h) [length sm]) sm)))))
      | (Err e, _) => BRet (Err e)
      | (Panic e, _) => BRet (Panic e)
      end)) as Hk.
    { destruct (mining_validate _) as [[[]| |] m1]; [|done..].
      apply append_within; [by apply H1|intros Hne; apply H2; simpl; intros [? _]%app_eq_nil; done|].
      split; [by apply H1|]. intros td. apply within_bind; [|done]. apply within_each. intros s j Hs.
      destruct (sg_models s) as [|d [|d2 ms]] eqn:Hd; [done| |done].
      rewrite Forall_forall in IH. specialize (IH s Hs). rewrite Hd in IH. apply Forall_cons in IH as [IH _].
      assert (∀ A (f : doc_model → list A) x, x ∈ f d → x ∈ concat (map (λ s, concat (map f (sg_models s))) segs)) as Hin.
      { intros A f x Hx. apply elem_of_concat_map. exists s. split; [done|]. rewrite Hd. simpl. by rewrite app_nil_r. }
      apply IH.
      - intros _. by apply H1.
      - intros Hne. apply H2. simpl. intros [_ Hc]%app_eq_nil. destruct (doc_locals d) as [|x l] eqn:Hl; [done|].
        assert (x ∈ doc_locals d) as Hx%Hin by (rewrite Hl; by left). rewrite Hc in Hx. by apply elem_of_nil in Hx.
      - intros t Ht. apply H3. by apply Hin.
      - intros t m Ht. apply (H4 t). by apply Hin.
      - intros h' Hh. apply H6. right. by apply Hin. }
    destruct (mm_method h =s "") eqn:He; [|done]. split; [|done]. apply String.eqb_eq in He. eapply H6; [by left|done].
Qed.

(** ** What a program run alone does write *)

Lemma changed_writes {A} td (m : bprog A) : (brun td m).2 ≠ td → (AtDerived, true) ∈ btrace td m.
Proof.
  revert td. induction m as [a|k IH|td' k IH|w x k IH]; intros td; simpl; [done|..].
  - intros H. right. by apply IH.
  - intros _. by left.
  - intros H. right. by apply IH.
Qed.

Lemma each_trace {A B} (f : nat → A → bprog (res B)) td i l bs td' a :
  brun td (each_steps f i l) = (Ok bs, td') → a ∈ l →
  ∃ j td1 b td2, brun td1 (f j a) = (Ok b, td2) ∧ btrace td1 (f j a) ⊆ btrace td (each_steps f i l).
Proof.
  revert td i bs td'. induction l as [|a' l IH]; intros td i bs td' Hr Ha; [by apply elem_of_nil in Ha|].
  simpl in *. rewrite brun_bind in Hr. rewrite btrace_bind.
  destruct (brun td (f i a')) as [[b|e|e] td1] eqn:Hf; simpl in *; [|done..].
  rewrite brun_bind in Hr. rewrite btrace_bind.
  destruct (brun td1 (each_steps f (S i) l)) as [[bs'|e|e] td2] eqn:Hl; simpl in Hr; [|done..].
  apply elem_of_cons in Ha as [->|Ha].
  - exists i, td, b, td1. split; [done|]. set_solver.
  - destruct (IH _ _ _ _ Hl Ha) as (j & td3 & b' & td4 & Hb & Hs). exists j, td3, b', td4. split; [done|]. set_solver.
Qed.

Lemma pred_writes E ft x q p p' td : has_literal p → compile_predicate E ft p = Ok p' →
  ∃ y, (y, true) ∈ btrace td (pred_steps E ft x q p).
Proof.
  intros Hl. revert q td p'. induction Hl as [f op v raw|b ps p Hp Hl IH]; intros q td p'; simpl.
  - destruct (ft !! f) as [dt|]; [|done]. destruct (get_raw_value E dt v); simpl; [|done..]. eexists. by left.
  - destruct (rmap _ ps) as [ps'| |] eqn:Hr; [|done..]. intros _. rewrite btrace_bind.
    assert (brun td (each_steps (λ i, pred_steps E ft x (q ++ [i])) 0 ps) = (Ok ps', td)) as Hb.
    { rewrite (brun_each _ (compile_predicate E ft)); [by rewrite Hr|]. intros. apply pred_alone. }
    destruct (each_trace _ _ _ _ _ _ _ Hb Hp) as (j & td1 & b' & td2 & Hj & Hs).
    rewrite pred_alone in Hj. injection Hj as Hj _. destruct (IH (q ++ [j]) td1 b' Hj) as [y Hy].
    exists y. set_solver.
Qed.
Lemma node_writes E ft x n m m0 n' td : m0 ∈ doc_nodes m → has_literal (m_pred m0) → new_node E ft m = Ok n' →
  ∃ y, (y, true) ∈ btrace td (node_steps E ft x n m).
Proof.
  intros Hm Hl. revert n td n' Hm. induction m as [id dc sc c ds ns p IH] using mnode_rect'; intros n td n' Hm. simpl in *.
  destruct (rmap (new_node E ft) ns) as [cs| |] eqn:Hr; simpl; [|done..].
  destruct (compile_predicate E ft p) as [p'| |] eqn:Hp; simpl; [|done..]. intros _. rewrite btrace_bind.
  assert (brun td (each_steps (λ i, node_steps E ft x (n ++ [i])) 0 ns) = (Ok cs, td)) as Hb.
  { rewrite (brun_each _ (new_node E ft)); [by rewrite Hr|]. intros. apply node_alone. }
  apply elem_of_cons in Hm as [->|(c0 & Hc & Hm)%elem_of_concat_map].
  - rewrite Hb. simpl. rewrite btrace_bind. simpl in Hl. destruct (pred_writes E ft (x n) [] p p' td Hl Hp) as [y Hy].
    exists y. set_solver.
  - destruct (each_trace _ _ _ _ _ _ _ Hb Hc) as (j & td1 & b' & td2 & Hj & Hs).
    rewrite node_alone in Hj. injection Hj as Hj _. rewrite Forall_forall in IH.
    destruct (IH c0 Hc (n ++ [j]) td1 b' Hm Hj) as [y Hy]. exists y. set_solver.
Qed.

Lemma schema_trace {A} d p i l (k : bprog A) td y :
  y ∈ btrace td k → y ∈ btrace td (schema_steps d p i l k).
Proof. revert i. induction l as [|f l IH]; intros i H; simpl; [done|]. right. right. by apply IH. Qed.
Lemma target_trace {A} d p i l (k : bprog A) td y :
  y ∈ btrace td k → y ∈ btrace td (target_steps d p i l k).
Proof. revert i. induction l as [|f l IH]; intros i H; simpl; [done|]. right. by apply IH. Qed.
Lemma append_trace {A} lt (k : bprog A) td y :
  y ∈ btrace (td ++ lt) k → y ∈ btrace td (append_steps lt k).
Proof.
  revert td. induction lt as [|f lt IH]; intros td; simpl; [by rewrite app_nil_r|]. intros H. right. right. apply IH.
  by rewrite <- app_assoc.
Qed.

Lemma tree_writes E dd n p t td e td' : new_tree_model E dd td t = (Ok e, td') → tree_written t →
  ∃ y, (y, true) ∈ btrace td (tree_steps E dd n p t).
Proof.
  unfold new_tree_model, tree_steps, tree_validate. cbn [et_model]. destruct (_ && _); [done|].
  unfold tree_compile. cbn [et_model tm_lt et_dd tm_node tm_schema et_validated et_outkeys et_target].
  destruct (new_node E _ (tm_node t)) as [root| |] eqn:Hn; [|done..]. intros _ [Hs|(m & Hm & Hl)].
  - destruct (tm_schema t) as [|f l]; [done|]. simpl. exists (AtField n p 0). right. by left.
  - destruct (node_writes E _ (AtLiteral n p) [] _ m root (td ++ tm_lt t) Hm Hl Hn) as [y Hy]. exists y.
    apply schema_trace, target_trace, append_trace. simpl. right. rewrite btrace_bind. set_solver.
Qed.

Lemma segment_ran E dd n p segs td sm td' s d : brun td (segment_steps (λ i d, build_steps E dd n (p ++ [i]) d) 0 segs) = (Ok sm, td') →
  s ∈ segs → d ∈ sg_models s →
  ∃ j td1 e td2, new_model E dd td1 d = (Ok e, td2) ∧
    btrace td1 (build_steps E dd n (p ++ [j]) d) ⊆ btrace td (segment_steps (λ i d, build_steps E dd n (p ++ [i]) d) 0 segs).
Proof.
  intros Hr Hs Hd. destruct (each_trace _ _ _ _ _ _ _ Hr Hs) as (j & td1 & e & td2 & He & Hsub). simpl in *.
  destruct (sg_models s) as [|d1 [|d2 ms]]; [done| |done]. apply elem_of_list_singleton in Hd as ->.
  exists j, td1, e, td2. rewrite build_alone in He. done.
Qed.

Lemma build_writes_in E dd n d : ∀ p td e td', new_model E dd td d = (Ok e, td') →
  ((∃ t, t ∈ doc_trees d ∧ tree_written t) ∨ (∃ h, h ∈ doc_headers d ∧ mm_method h = "")) →
  ∃ y, (y, true) ∈ btrace td (build_steps E dd n p d).
Proof.
  induction d as [t|r|k|h segs IH] using doc_rect'; intros p td e td' Hn Hw.
  - simpl in *. destruct (new_tree_model E dd td t) as [[te| |] td1] eqn:Ht; [|done..].
    destruct Hw as [(t' & ->%elem_of_list_singleton & Hw)|(h & []%elem_of_nil & _)].
    destruct (tree_writes E dd n p t td te td1 Ht Hw) as [y Hy]. exists y. rewrite btrace_bind. set_solver.
  - destruct Hw as [(t' & []%elem_of_nil & _)|(h & []%elem_of_nil & _)].
  - done.
  - rewrite <- (build_alone E dd n p) in Hn. simpl in *. destruct (mm_method h =s "") eqn:Hm.
    { exists (AtMethod n p). simpl. right. by left. }
    cbn [id] in *. destruct (mining_validate _) as [[[]| |] m1]; cbn [brun] in Hn; [|done..].
    rewrite brun_append in Hn. cbn [brun] in Hn. rewrite brun_bind in Hn.
    destruct (brun (td ++ mm_lt h) (segment_steps _ 0 segs)) as [[sm|e'|e'] td2] eqn:Hs; cbn [fst snd brun] in Hn; [|done..].
    assert (∃ y td0 , (y, true) ∈ btrace (td ++ mm_lt h) (segment_steps (λ i d, build_steps E dd n (p ++ [i]) d) 0 segs) ∧ td0 = td) as (y & _ & Hy & _).
    2:{ exists y. right. apply append_trace. simpl. right. rewrite btrace_bind. set_solver. }
    assert (∀ s d, s ∈ segs → d ∈ sg_models s →
      ((∃ t, t ∈ doc_trees d ∧ tree_written t) ∨ (∃ h, h ∈ doc_headers d ∧ mm_method h = "")) →
      ∃ y td0 , (y, true) ∈ btrace (td ++ mm_lt h) (segment_steps (λ i d, build_steps E dd n (p ++ [i]) d) 0 segs) ∧ td0 = td) as Hin.
    { intros s d Hsin Hd Hwd. destruct (segment_ran _ _ _ _ _ _ _ _ s d Hs Hsin Hd) as (j & td1 & e1 & td3 & Hn1 & Hsub).
      rewrite Forall_forall in IH. specialize (IH s Hsin). rewrite Forall_forall in IH.
      destruct (IH d Hd (p ++ [j]) td1 e1 td3 Hn1 Hwd) as [y Hy]. exists y, td. split; [|done]. set_solver. }
    destruct Hw as [(t & (s & Hsin & (d & Hd & Ht)%elem_of_concat_map)%elem_of_concat_map & Hw)|(h' & Hh & Hw)].
    + apply (Hin s d Hsin Hd). left. eauto.
    + apply elem_of_cons in Hh as [->|(s & Hsin & (d & Hd & Ht)%elem_of_concat_map)%elem_of_concat_map].
      * rewrite Hw in Hm. done.
      * apply (Hin s d Hsin Hd). right. eauto.
Qed.
Lemma build_writes E dd n d p td e td' : new_model E dd td d = (Ok e, td') → written_document d →
  ∃ y, (y, true) ∈ btrace td (build_steps E dd n p d).
Proof.
  intros Hn [Hl|Hw]; [|by eapply build_writes_in]. exists AtDerived. apply changed_writes. rewrite build_alone, Hn. simpl.
  apply new_model_accepted, accepted_td in Hn as ->. intros Heq. apply Hl.
  apply (app_inv_head td). by rewrite app_nil_r.
Qed.

(** a tree or a mining model reads the dictionary, whatever is in it *)
Lemma build_reads E dd n d p td td0 e td' : new_model E dd td d = (Ok e, td') → (∀ r, d ≠ DRegr r) →
  ∃ w, (AtDerived, w) ∈ btrace td0 (build_steps E dd n p d).
Proof.
  assert (∀ A lt (k : list derived_field → bprog A) td, (AtDerived, false) ∈ btrace td (append_steps lt (BRead k))) as Ha
    by (intros A [|f lt] k td1; simpl; by left).
  intros Hn Hr. destruct d as [t|h segs|r|k]; [..|by destruct (Hr r)|done]; exists false.
  - simpl in *. rewrite btrace_bind. apply elem_of_app. left. unfold tree_steps.
    destruct (new_tree_model E dd td t) as [[te| |] td1] eqn:Ht; [|done..]. unfold new_tree_model in Ht.
    destruct (tree_validate _) as [[[]| |] t1]; [|done..]. apply schema_trace, target_trace, Ha.
  - rewrite <- (build_alone E dd n p) in Hn. simpl in *. right.
    destruct (mining_validate _) as [[[]| |] m1].
    2,3: exfalso; destruct (mm_method h =s ""); simpl in Hn; done.
    destruct (mm_method h =s ""); simpl; [right|]; apply Ha.
Qed.

(** ** Interleavings *)

Lemma bexec_app {A} td (ths : list (bprog A)) tr td1 ths1 tr2 td2 ths2 :
  bexec td ths tr td1 ths1 → bexec td1 ths1 tr2 td2 ths2 → bexec td ths (tr ++ tr2) td2 ths2.
Proof. induction 1; simpl; [done|]. intros. econstructor; eauto. Qed.

Lemma bexec_alone {A} i (m : bprog A) td ths : ths !! i = Some m →
  bexec td ths ((λ y, BAccess i y.1 y.2) <$> btrace td m) (brun td m).2 (<[i := BRet (brun td m).1]> ths).
Proof.
  revert td ths. induction m as [a|k IH|td' k IH|w x k IH]; intros td ths Hi; simpl.
  - rewrite list_insert_id by done. constructor.
  - econstructor; [by apply bstep_read|]. specialize (IH td td (<[i := k td]> ths)).
    rewrite list_insert_insert in IH. apply IH. apply list_lookup_insert. by eapply lookup_lt_Some.
  - econstructor; [by apply bstep_write|]. specialize (IH td' (<[i := k]> ths)).
    rewrite list_insert_insert in IH. apply IH. apply list_lookup_insert. by eapply lookup_lt_Some.
  - econstructor; [by apply bstep_touch|]. specialize (IH td (<[i := k]> ths)).
    rewrite list_insert_insert in IH. apply IH. apply list_lookup_insert. by eapply lookup_lt_Some.
Qed.

Lemma bexec_within {A} (P : nat → place → bool → Prop) td (ths : list (bprog A)) tr td' ths' :
  bexec td ths tr td' ths' → (∀ i m, ths !! i = Some m → within (P i) m) →
  Forall (λ a, P (b_by a) (b_place a) (b_write a)) tr.
Proof.
  induction 1 as [|td ths a td1 ths1 tr td2 ths2 Hs _ IH]; [constructor|]. intros Hp.
  destruct Hs as [td ths i k Hi|td ths i td' k Hi|td ths i w x k Hi]; destruct (Hp i _ Hi) as [H1 H2];
    (constructor; [exact H1|]; apply IH; intros i' m' Hi';
     destruct (decide (i = i')) as [<-|Hne];
     [rewrite list_lookup_insert in Hi' by (by eapply lookup_lt_Some); injection Hi' as <-
     |rewrite list_lookup_insert_ne in Hi' by done; by apply Hp]).
  - apply H2.
  - apply H2.
  - apply H2.
Qed.

Lemma bracy_app tr1 tr2 : bracy tr2 → bracy (tr1 ++ tr2).
Proof. intros (a & b & Ha & Hb & H). exists a, b. set_solver. Qed.

(** two goroutines doing the same reach the first write together *)
Lemma lockstep {A} i j (m : bprog A) td ths y : i ≠ j → ths !! i = Some m → ths !! j = Some m →
  (y, true) ∈ btrace td m → ∃ tr td' ths', bexec td ths tr td' ths' ∧ bracy tr.
Proof.
  intros Hne. revert td ths. induction m as [a|k IH|td1 k IH|w x k IH]; intros td ths Hi Hj Hy; simpl in Hy.
  - by apply elem_of_nil in Hy.
  - apply elem_of_cons in Hy as [?|Hy]; [done|].
    destruct (IH td td (<[j := k td]> (<[i := k td]> ths))) as (tr & td' & ths' & He & Hr); [..|done|].
    + rewrite list_lookup_insert_ne by done. apply list_lookup_insert. by eapply lookup_lt_Some.
    + apply list_lookup_insert. rewrite insert_length. by eapply lookup_lt_Some.
    + eexists (_ :: _ :: tr), td', ths'. split; [|by apply (bracy_app [_; _])].
      econstructor; [by apply (bstep_read _ _ i)|].
      econstructor; [apply (bstep_read _ _ j); rewrite list_lookup_insert_ne by done; exact Hj|exact He].
  - eexists [_; _], _, _. split.
    + econstructor; [by apply (bstep_write _ _ i)|].
      econstructor; [apply (bstep_write _ _ j); rewrite list_lookup_insert_ne by done; exact Hj|constructor].
    + eexists _, _. split; [left|]. split; [right; left|]. done.
  - destruct w.
    + eexists [_; _], _, _. split.
      * econstructor; [by apply (bstep_touch _ _ i)|].
        econstructor; [apply (bstep_touch _ _ j); rewrite list_lookup_insert_ne by done; exact Hj|constructor].
      * eexists _, _. split; [left|]. split; [right; left|]. done.
    + apply elem_of_cons in Hy as [?|Hy]; [done|].
      destruct (IH td (<[j := k]> (<[i := k]> ths))) as (tr & td' & ths' & He & Hr); [..|done|].
      * rewrite list_lookup_insert_ne by done. apply list_lookup_insert. by eapply lookup_lt_Some.
      * apply list_lookup_insert. rewrite insert_length. by eapply lookup_lt_Some.
      * eexists (_ :: _ :: tr), td', ths'. split; [|by apply (bracy_app [_; _])].
        econstructor; [by apply (bstep_touch _ _ i)|].
        econstructor; [apply (bstep_touch _ _ j); rewrite list_lookup_insert_ne by done; exact Hj|exact He].
Qed.

(** goroutines that leave the dictionary alone compute what they would alone *)
Definition no_append {A} : bprog A → Prop := within (λ x w, x = AtDerived → w = false).
Lemma bexec_steady {A} td (ths : list (bprog A)) tr td' ths' :
  bexec td ths tr td' ths' → (∀ i m, ths !! i = Some m → no_append m) →
  td' = td ∧ Forall2 (λ m m', (brun td m).1 = (brun td m').1) ths ths'.
Proof.
  induction 1 as [|td ths a td1 ths1 tr td2 ths2 Hs _ IH]; intros Hp.
  - split; [done|]. by apply Forall2_same_length_lookup; split; [|intros; simplify_eq].
  - assert (td1 = td ∧ (∀ i m, ths1 !! i = Some m → no_append m) ∧
      Forall2 (λ m m', (brun td m).1 = (brun td m').1) ths ths1) as (-> & Hp1 & Hf).
    { assert (∀ i m m', ths !! i = Some m → no_append m' → (brun td m).1 = (brun td m').1 →
        (∀ j m0, <[i := m']> ths !! j = Some m0 → no_append m0) ∧
        Forall2 (λ m m', (brun td m).1 = (brun td m').1) ths (<[i := m']> ths)) as Hi.
      { intros i m m' Hi Hm' Heq. split.
        - intros j m0. destruct (decide (i = j)) as [<-|Hne].
          + rewrite list_lookup_insert by (by eapply lookup_lt_Some). by intros [= <-].
          + rewrite list_lookup_insert_ne by done. apply Hp.
        - rewrite <- (list_insert_id ths i m Hi) at 1. apply Forall2_insert; [|done].
          apply Forall2_same_length_lookup. split; [done|]. intros. by simplify_eq. }
      destruct Hs as [td ths i k H|td ths i td' k H|td ths i w x k H]; pose proof (Hp i _ H) as [H1 H2].
      - split; [done|]. apply (Hi i _ _ H); [apply H2|done].
      - exfalso. by specialize (H1 eq_refl).
      - split; [done|]. apply (Hi i _ _ H); [apply H2|done]. }
    destruct (IH Hp1) as [-> Hf2]. split; [done|].
    eapply Forall2_transitive; [|exact Hf|exact Hf2]. intros ? ? ? H1 H2. by rewrite H1.
Qed.
