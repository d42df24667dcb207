(** Documents that are written differently and evaluate alike. *)
From Verif Require Import Base Strconv Value Doc Expr Pred Tree Regression Model Lib
  SpecPred ProofsPred SpecExpr ProofsExpr SpecConstruct ProofsConstruct ProofsRange
  SpecTree ProofsTree ProofsOutput ProofsEval ProofsDoc ProofsSafe ProofsWhole ProofsSim
  SpecEssence ProofsEssence SpecEquiv.

(** ** From trees to documents *)

(** [d2] is accepted with [dd2] whenever [d1] is with [dd1], and then they answer alike. *)
Definition stands_in (E : Ext) (dd1 dd2 : list data_field) (d1 d2 : doc_model) : Prop :=
  ∀ td e1 td', new_model E dd1 td d1 = (Ok e1, td') →
  ∃ e2, new_model E dd2 td d2 = (Ok e2, td') ∧
        ∀ tk r, (evaluate E tk e1 r).1 = (evaluate E tk e2 r).1.


Lemma segments_stand_in E dd1 dd2 segs1 segs2 :
  Forall2 (λ s1 s2, Forall2 (stands_in E dd1 dd2) (sg_models s1) (sg_models s2)) segs1 segs2 →
  ∀ td a1 a2 s1 td',
  Forall2 (λ e1 e2, ∀ tk r, (evaluate E tk e1 r).1 = (evaluate E tk e2 r).1) a1 a2 →
  compile_segments (new_model E dd1) td a1 segs1 = (Ok tt, s1, td') →
  ∃ s2, compile_segments (new_model E dd2) td a2 segs2 = (Ok tt, s2, td') ∧
        Forall2 (λ e1 e2, ∀ tk r, (evaluate E tk e1 r).1 = (evaluate E tk e2 r).1) s1 s2.
Proof.
  induction 1 as [|[i1 ps1 ms1] [i2 ps2 ms2] segs1 segs2 Hs _ IH]; intros td a1 a2 s1 td' Ha Hc.
  { simpl in Hc. injection Hc as <- <-. simpl. eauto. }
  simpl in Hs. cbn [compile_segments] in Hc |- *.
  destruct Hs as [|d1 d2 ms1 ms2 Hd Hs]; [done|]. destruct Hs; [|done].
  destruct (new_model E dd1 td d1) as [[e1|x|p] td1] eqn:H1; try done.
  destruct (Hd _ _ _ H1) as (e2 & -> & He). eapply IH; [|exact Hc].
  apply Forall2_app; [done|]. by constructor.
Qed.

Lemma rewritten_stands_in E dd1 dd2 (T : tree_model → tree_model → Prop) :
  (∀ t1 t2, T t1 t2 → stands_in E dd1 dd2 (DTree t1) (DTree t2)) →
  ∀ d1 d2, rewritten T d1 d2 → stands_in E dd1 dd2 d1 d2.
Proof.
  intros HT d1. induction d1 as [t|m|k|h segs IH] using doc_rect'; intros d2 Hr; inversion Hr as [t1 t2 Ht| | |h' sg1 segs2 Hsegs]; subst.
  - by apply HT.
  - intros td e1 td'. simpl. intros [= <- <-]. eauto.
  - intros td e1 td'. done.
  - assert (Forall2 (λ s1 s2, Forall2 (stands_in E dd1 dd2) (sg_models s1) (sg_models s2)) segs segs2) as Hs.
    { clear -IH Hsegs. induction Hsegs as [|s1 s2 l1 l2 Hs _ IHl]; [constructor|].
      apply Forall_cons in IH as [IH1 IH]. constructor; [|by apply IHl].
      clear -IH1 Hs. induction Hs as [|a b la lb Hab _ IHa]; [constructor|].
      apply Forall_cons in IH1 as [H1 IH1]. constructor; [by apply H1|by apply IHa]. }
    intros td e1 td'. rewrite !new_model_mining. destruct (negb _); [done|].
    destruct (List.find _ _); [done|].
    destruct (compile_segments (new_model E dd1) _ _ _) as [[[[]|x|p] s1] t1] eqn:Hc; try done.
    intros [= <- <-].
    destruct (segments_stand_in E dd1 dd2 segs segs2 Hs _ [] [] _ _ ltac:(constructor) Hc) as (s2 & -> & He).
    eexists. split; [done|]. intros tk r. rewrite !mining_evaluate_run by done.
    cbn [built_mining em_defaults em_hdr]. destruct (impute _ _ _ _) as [r1|x|p]; [|done..].
    destruct (handle_input _ _ _) as [[u'|x|p] r2]; [|done..].
    rewrite (run_method_header E tk _ (built_mining dd2 td h segs2));
      [|done|cbn; by eapply Forall2_length|done..].
    pose proof (run_method_sim E E (same_world_refl E)
        (λ e1 e2, ∀ tk r, (evaluate E tk e1 r).1 = (evaluate E tk e2 r).1) (λ _ _, True) (λ _ _ _, I)
        (λ i s r, evaluate E (5 :: i :: tk) s r) (λ i s r, evaluate E (5 :: i :: tk) s r)) as Hr'.
    feed specialize Hr'. { intros i e1 e2 r' He'. split; [apply He'|done]. }
    specialize (Hr' tk tk (built_mining dd2 td h segs2) s1 s2 r2 He) as [Hr' _].
    destruct (run_method _ _ _ _ s1 _) as [[? ?] ?], (run_method _ _ _ _ s2 _) as [[? ?] ?]. exact Hr'.
Qed.

Lemma rewritten_refl (T : tree_model → tree_model → Prop) d : (∀ t, T t t) → rewritten T d d.
Proof.
  intros HT. induction d as [t|m|k|h segs IH] using doc_rect'; constructor; [done|].
  induction IH as [|s l Hs _ IHl]; constructor; [|done].
  induction Hs; by constructor.
Qed.

Lemma rewritten_sym (T T' : tree_model → tree_model → Prop) :
  (∀ t1 t2, T t1 t2 → T' t2 t1) → ∀ d1 d2, rewritten T d1 d2 → rewritten T' d2 d1.
Proof.
  intros HT d1. induction d1 as [t|m|k|h segs IH] using doc_rect'; intros d2 Hr; inversion Hr as [t1 t2 Ht| | |h' sg1 segs2 Hsegs]; subst.
  - constructor. by apply HT.
  - constructor.
  - constructor.
  - constructor. clear Hr. induction Hsegs as [|s1 s2 l1 l2 Hs _ IHl]; constructor.
    + apply Forall_cons in IH as [IH _]. induction Hs as [|a b la lb Hab _ IHa]; constructor.
      * apply Forall_cons in IH as [IH _]. by apply IH.
      * apply Forall_cons in IH as [_ IH]. by apply IHa.
    + apply Forall_cons in IH as [_ IH]. by apply IHl.
Qed.

(** ** Trees whose nodes have tests that agree *)
Inductive tests_agree (E : Ext) (f1 f2 : gmap string string) : node → node → Prop :=
| ta_node id dc cs1 cs2 ds t1 t2 sc :
    Forall2 (tests_agree E f1 f2) cs1 cs2 → (∀ r, run_test E f1 t1 r = run_test E f2 t2 r) →
    tests_agree E f1 f2 (Node id dc cs1 ds t1 sc) (Node id dc cs2 ds t2 sc).

Lemma rmap_Forall2 {A B C} (f : A → res C) (g : B → res C) l1 l2 :
  Forall2 (λ a b, f a = g b) l1 l2 → rmap f l1 = rmap g l2.
Proof. induction 1 as [|a b l1 l2 H _ IH]; simpl; [done|]. by rewrite H, IH. Qed.
Lemma rmapi_Forall2 {A B C} (f : nat → A → res C) (g : nat → B → res C) l1 l2 i :
  Forall2 (λ a b, ∀ i, f i a = g i b) l1 l2 → rmapi f i l1 = rmapi g i l2.
Proof. intros H. revert i. induction H as [|a b l1 l2 H _ IH]; intros i; simpl; [done|]. by rewrite H, IH. Qed.
Lemma first_true_Forall2 {A B} (f : A → res _) (g : B → res _) d l1 l2 :
  Forall2 (λ a b, f a = g b) l1 l2 → first_true f d l1 = first_true g d l2.
Proof.
  induction 1 as [|a b l1 l2 H _ IH]; simpl; [done|]. rewrite H. destruct (g b) as [[s [| |]]| |]; simpl; try done.
Qed.
Lemma first_known_Forall2 {A B} (f : A → res _) (g : B → res _) d l1 l2 :
  Forall2 (λ a b, f a = g b) l1 l2 → first_known f d l1 = first_known g d l2.
Proof.
  induction 1 as [|a b l1 l2 H _ IH]; simpl; [done|]. rewrite H. destruct (g b) as [[s [| |]]| |]; simpl; try done.
Qed.

Section agree.
  Context (E : Ext) (c1 c2 : tctx).
  Context (Hpen : cx_penalty c1 = cx_penalty c2).
  Context (Hout : ∀ id dc cs1 cs2 ds t1 t2 sc, length cs1 = length cs2 →
             output_dist c1 (Node id dc cs1 ds t1 sc) = output_dist c2 (Node id dc cs2 ds t2 sc)).

  Notation agree := (tests_agree E (cx_ft c1) (cx_ft c2)).

  Lemma agree_ids (cs1 cs2 : list node) (rs : list (list score * presult)) (m : gmap string (list score)) :
    Forall2 agree cs1 cs2 →
    foldl (λ m '(c, x), <[n_id c := x.1]> m) m (zip cs1 rs) =
    foldl (λ m '(c, x), <[n_id c := x.1]> m) m (zip cs2 rs).
  Proof.
    intros H. revert rs m. induction H as [|a b l1 l2 Hab _ IH]; intros [|x rs] m; simpl; try done.
    destruct Hab. apply IH.
  Qed.
  Lemma agree_collect (cs1 cs2 : list node) (rs : list (list score * presult)) acc :
    Forall2 agree cs1 cs2 → foldl wc_collect acc (zip cs1 rs) = foldl wc_collect acc (zip cs2 rs).
  Proof.
    intros H. revert rs acc. induction H as [|a b l1 l2 Hab _ IH]; intros [|x rs] acc; simpl; try done.
    destruct Hab. apply IH.
  Qed.

  Ltac start n1 n2 :=
    let id := fresh "id" in let IH := fresh "IH" in
    induction n1 as [id dc cs1 ds t1 sc IH] using node_rect'; intros n2 Hn;
    inversion Hn as [? ? ? cs2 ? ? t2 ? Hcs Ht]; subst; clear Hn.

  Lemma agree_with {A} (f g : node → A) (cs1 cs2 : list node) :
    Forall (λ c1, ∀ c2, agree c1 c2 → f c1 = g c2) cs1 → Forall2 agree cs1 cs2 →
    Forall2 (λ a b, f a = g b) cs1 cs2.
  Proof.
    intros H1 H2. induction H2 as [|a b l1 l2 Hab _ IH]; [constructor|].
    apply Forall_cons in H1 as [Ha H1]. constructor; auto.
  Qed.
  Lemma agree_with_i {A} (f g : nat → node → A) (cs1 cs2 : list node) :
    Forall (λ c1, ∀ c2, agree c1 c2 → ∀ i, f i c1 = g i c2) cs1 → Forall2 agree cs1 cs2 →
    Forall2 (λ a b, ∀ i, f i a = g i b) cs1 cs2.
  Proof.
    intros H1 H2. induction H2 as [|a b l1 l2 Hab _ IH]; [constructor|].
    apply Forall_cons in H1 as [Ha H1]. constructor; auto.
  Qed.

  Lemma eval_none_agree r n1 : ∀ n2, agree n1 n2 → eval_none E c1 r n1 = eval_none E c2 r n2.
  Proof.
    start n1 n2. cbn [eval_none]. rewrite Ht. destruct (run_test _ _ _ _) as [v| |]; simpl; try done.
    destruct v; try done. rewrite (Hout id dc cs1 cs2 ds t1 t2 sc) by by eapply Forall2_length.
    by apply first_true_Forall2, agree_with.
  Qed.
  Lemma eval_null_agree r n1 : ∀ n2, agree n1 n2 → eval_null E c1 r n1 = eval_null E c2 r n2.
  Proof.
    start n1 n2. cbn [eval_null]. rewrite Ht. destruct (run_test _ _ _ _) as [v| |]; simpl; try done.
    destruct v; try done. rewrite (Hout id dc cs1 cs2 ds t1 t2 sc) by by eapply Forall2_length.
    by apply first_known_Forall2, agree_with.
  Qed.
  Lemma eval_last_agree r n1 : ∀ n2, agree n1 n2 → eval_last E c1 r n1 = eval_last E c2 r n2.
  Proof.
    start n1 n2. cbn [eval_last]. rewrite Ht, (Hout id dc cs1 cs2 ds t1 t2 sc) by by eapply Forall2_length.
    by rewrite (rmap_Forall2 _ (eval_last E c2 r) cs1 cs2) by by apply agree_with.
  Qed.
  Lemma eval_default_agree r n1 : ∀ n2, agree n1 n2 → eval_default E c1 r n1 = eval_default E c2 r n2.
  Proof.
    start n1 n2. cbn [eval_default]. rewrite Ht, (Hout id dc cs1 cs2 ds t1 t2 sc) by by eapply Forall2_length.
    rewrite (rmap_Forall2 _ (eval_default E c2 r) cs1 cs2) by by apply agree_with.
    rewrite Hpen. destruct (run_test _ _ _ _) as [[| |]| |]; simpl; try done.
    all: destruct (rmap _ _) as [rs| |]; simpl; try done; by rewrite (agree_ids cs1 cs2).
  Qed.
  Lemma eval_weighted_agree r n1 : ∀ n2, agree n1 n2 → ∀ t, eval_weighted E c1 r t n1 = eval_weighted E c2 r t n2.
  Proof.
    start n1 n2. intros t. cbn [eval_weighted]. rewrite Ht, (Hout id dc cs1 cs2 ds t1 t2 sc) by by eapply Forall2_length.
    rewrite (rmapi_Forall2 _ (λ i c, eval_weighted E c2 r (i :: t) c) cs1 cs2).
    2:{ apply (agree_with_i (λ i c, eval_weighted E c1 r (i :: t) c)); [|done].
        eapply Forall_impl; [exact IH|]. simpl. auto. }
    destruct (run_test _ _ _ _) as [[| |]| |]; simpl; try done.
    all: destruct (rmapi _ _ _) as [rs| |]; simpl; try done; by rewrite (agree_collect cs1 cs2).
  Qed.
  Lemma eval_aggregate_agree r n1 : ∀ n2, agree n1 n2 → ∀ t, eval_aggregate E c1 r t n1 = eval_aggregate E c2 r t n2.
  Proof.
    start n1 n2. intros t. cbn [eval_aggregate]. rewrite Ht, (Hout id dc cs1 cs2 ds t1 t2 sc) by by eapply Forall2_length.
    rewrite (rmapi_Forall2 _ (λ i c, eval_aggregate E c2 r (i :: t) c) cs1 cs2); [done|].
    apply (agree_with_i (λ i c, eval_aggregate E c1 r (i :: t) c)); [|done].
    eapply Forall_impl; [exact IH|]. simpl. auto.
  Qed.
  Lemma node_evaluate_agree st r tk n1 n2 :
    agree n1 n2 → node_evaluate E c1 st r tk n1 = node_evaluate E c2 st r tk n2.
  Proof.
    intros H. unfold node_evaluate. repeat case_str;
      auto using eval_null_agree, eval_aggregate_agree, eval_weighted_agree, eval_default_agree, eval_last_agree, eval_none_agree.
  Qed.
End agree.

Lemma new_node_agree E f1 f2 (P : predicate → predicate → Prop) :
  (∀ p1 p2 q1, P p1 p2 → compile_predicate E f1 p1 = Ok q1 →
     ∃ q2, compile_predicate E f2 p2 = Ok q2 ∧ ∀ r, run_test E f1 q1 r = run_test E f2 q2 r) →
  ∀ m1 m2 n1, same_nodes P m1 m2 → new_node E f1 m1 = Ok n1 →
  ∃ n2, new_node E f2 m2 = Ok n2 ∧ tests_agree E f1 f2 n1 n2.
Proof.
  intros HP m1. induction m1 as [id dc sc c ds ns1 p1 IH] using mnode_rect'. intros m2 n1 Hm.
  inversion Hm as [? ? ? ? ? ? ns2 ? p2 Hns Hp]; subst; clear Hm. cbn [new_node].
  intros (cs1 & Hcs1 & (q1 & Hq1 & [= <-])%rbind_ok)%rbind_ok.
  destruct (HP _ _ _ Hp Hq1) as (q2 & -> & Hq).
  assert (∃ cs2, rmap (new_node E f2) ns2 = Ok cs2 ∧ Forall2 (tests_agree E f1 f2) cs1 cs2) as (cs2 & -> & Hcs2).
  { clear -IH Hns Hcs1. revert cs1 Hcs1. induction Hns as [|a b l1 l2 Hab _ IHl]; intros cs1 Hcs1.
    { simpl in Hcs1. injection Hcs1 as <-. eauto. }
    apply Forall_cons in IH as [Ha IH]. cbn [rmap] in Hcs1 |- *.
    apply rbind_ok in Hcs1 as (x & Hx & (xs & Hxs & [= <-])%rbind_ok).
    destruct (Ha _ _ Hab Hx) as (y & -> & Hy). destruct (IHl IH _ Hxs) as (ys & -> & Hys). simpl. eauto. }
  eexists. split; [done|]. by constructor.
Qed.

Lemma output_dist_values cx n :
  output_dist cx n =
  match n with
  | Node _ _ children dists _ sc =>
      if negb (Nat.eqb (length children) 0) && (cx_notrue cx =s "returnNullPrediction") then []
      else if Nat.ltb 0 (length dists) then dists
      else if negb (cx_target cx =s "") then
        (λ v, if v =s sc_value sc then Score v fone fone (sc_count sc) else Score v fzero fzero fzero)
          <$> target_values (cx_dd cx) (cx_target cx)
      else [sc]
  end.
Proof.
  destruct n as [id dc cs ds t sc]. unfold output_dist. destruct (_ && _); [done|]. destruct (Nat.ltb _ _); [done|].
  destruct (negb _); [|done].
  assert (∀ l acc, foldl (λ acc v, acc ++ [if v =s sc_value sc then Score v fone fone (sc_count sc)
      else Score v fzero fzero fzero]) acc l = acc ++ ((λ v, if v =s sc_value sc then Score v fone fone (sc_count sc)
      else Score v fzero fzero fzero) <$> l)) as Hl.
  { induction l as [|v l IH]; intros acc; simpl; [by rewrite app_nil_r|]. rewrite IH, <- app_assoc. done. }
  match goal with |- foldl ?G [] _ = _ =>
    assert (∀ l acc, foldl G acc l = acc ++ ((λ v, if v =s sc_value sc then Score v fone fone (sc_count sc)
      else Score v fzero fzero fzero) <$> target_values l (cx_target cx))) as H; [|apply (H (cx_dd cx) [])] end.
  unfold target_values.
  induction l as [|f l IH]; intros acc; simpl; [by rewrite app_nil_r|]. rewrite IH, filter_cons.
  destruct (decide (dd_name f = cx_target cx)) as [H|H].
  - rewrite H, String.eqb_refl, Hl. rewrite fmap_cons. cbn [concat]. rewrite fmap_app, app_assoc. done.
  - by apply String.eqb_neq in H as ->.
Qed.

Lemma tree_agree E dd1 dd2 td1 td2 t n (P : predicate → predicate → Prop) :
  (∀ p1 p2 q1, P p1 p2 → compile_predicate E (field_types dd1 (td1 ++ tm_lt t)) p1 = Ok q1 →
     ∃ q2, compile_predicate E (field_types dd2 (td2 ++ tm_lt t)) p2 = Ok q2 ∧
       ∀ r, run_test E (field_types dd1 (td1 ++ tm_lt t)) q1 r = run_test E (field_types dd2 (td2 ++ tm_lt t)) q2 r) →
  (target_field (tm_schema t) ≠ "" →
   target_values dd1 (target_field (tm_schema t)) = target_values dd2 (target_field (tm_schema t))) →
  same_nodes P (tm_node t) n →
  ∀ e1 td', new_model E dd1 td1 (DTree t) = (Ok e1, td') →
  td' = td1 ++ tm_lt t ∧
  ∃ e2, new_model E dd2 td2 (DTree (with_node t n)) = (Ok e2, td2 ++ tm_lt t) ∧
        ∀ tk r, (evaluate E tk e1 r).1 = (evaluate E tk e2 r).1.
Proof.
  intros HP Hv Hn e1 td'. cbn [new_model]. unfold new_tree_model, tree_validate, with_node.
  cbn [et_model tm_function et_dd et_ft et_root et_outkeys et_target et_compiled].
  destruct (_ && _); [done|].
  unfold tree_compile. cbn [et_model tm_lt tm_schema tm_node et_dd et_target et_validated et_compiled et_outkeys et_root
    tm_function tm_strategy tm_penalty tm_notrue tm_verification].
  rewrite mf_defaults_target.
  destruct (new_node E _ (tm_node t)) as [n1|x|p] eqn:H1; [|done..]. intros [= <- <-].
  destruct (new_node_agree E _ _ P HP _ _ _ Hn H1) as (n2 & -> & Ha).
  split; [done|]. eexists. split; [done|]. intros tk r. cbn [evaluate]. unfold tree_evaluate.
  cbn [et_validated et_compiled negb et_model tm_lt tm_strategy tm_schema et_root].
  destruct (handle_input E (tm_lt t) r) as [[u|x|p] r']; [|done..].
  unfold tree_ctx. cbn [et_ft et_dd et_target et_model tm_penalty tm_notrue].
  pose proof (node_evaluate_agree E
    (Tctx (field_types dd1 (td1 ++ tm_lt t)) dd1 (target_field (tm_schema t)) (tm_penalty t) (tm_notrue t))
    (Tctx (field_types dd2 (td2 ++ tm_lt t)) dd2 (target_field (tm_schema t)) (tm_penalty t) (tm_notrue t))
    eq_refl) as Hev.
  feed specialize Hev.
  { intros. rewrite !output_dist_values. cbn [cx_notrue cx_target cx_dd]. rewrite H.
    destruct (String.eqb_spec (target_field (tm_schema t)) "") as [|Hne]; [done|]. by rewrite Hv. }
  rewrite (Hev _ r' tk n1 n2 Ha). clear Hev.
  destruct (node_evaluate _ _ _ _ _ _) as [[s v]| |]; try done. destruct v; try done.
  unfold tree_output. cbn [et_model tm_function et_target et_outkeys].
  destruct (_ =s "classification"); [by destruct (foldl _ _ _)|].
  destruct (_ =s "regression"); [|done]. done.
Qed.

Lemma tree_stands_in E dd1 dd2 t n (P : predicate → predicate → Prop) :
  (∀ td p1 p2 q1, P p1 p2 → compile_predicate E (field_types dd1 (td ++ tm_lt t)) p1 = Ok q1 →
     ∃ q2, compile_predicate E (field_types dd2 (td ++ tm_lt t)) p2 = Ok q2 ∧
       ∀ r, run_test E (field_types dd1 (td ++ tm_lt t)) q1 r = run_test E (field_types dd2 (td ++ tm_lt t)) q2 r) →
  (target_field (tm_schema t) ≠ "" →
   target_values dd1 (target_field (tm_schema t)) = target_values dd2 (target_field (tm_schema t))) →
  same_nodes P (tm_node t) n →
  stands_in E dd1 dd2 (DTree t) (DTree (with_node t n)).
Proof.
  intros HP Hv Hn td e1 td' Hm. by destruct (tree_agree E dd1 dd2 td td t n P (HP td) Hv Hn e1 td' Hm) as [-> H].
Qed.

(** ** Rearranged compound predicates *)

(** the value of a predicate as an operand, if it compiles *)
Definition opval (E : Ext) (ft : gmap string string) (r : datarow) (p : predicate) : option presult :=
  match compile_predicate E ft p with
  | Ok q => match eval_operand E ft r q with Ok v => Some v | _ => None end
  | _ => None
  end.

Lemma opval_some E ft r p q : compile_predicate E ft p = Ok q →
  ∃ v, opval E ft r p = Some v ∧ eval_operand E ft r q = Ok v.
Proof.
  intros H. unfold opval. rewrite H. destruct (eval_operand_total E ft r _ _ H) as [v Hv]. rewrite Hv. eauto.
Qed.
Lemma opval_compiles E ft r p v : opval E ft r p = Some v → ∃ q, compile_predicate E ft p = Ok q.
Proof. unfold opval. destruct (compile_predicate E ft p); [eauto|done..]. Qed.

Lemma opval_compound E ft r b ps :
  opval E ft r (PCompound b ps) = tv_compound b <$> mapM (opval E ft r) ps.
Proof.
  destruct (mapM (opval E ft r) ps) as [vs|] eqn:Hm; simpl.
  - apply mapM_Some in Hm.
    assert (∃ qs, Forall2 (λ p q, compile_predicate E ft p = Ok q) ps qs ∧
                  Forall2 (λ q v, eval_operand E ft r q = Ok v) qs vs) as (qs & Hc & Hv).
    { induction Hm as [|p v ps vs Hp _ (qs & IH1 & IH2)]; [exists []; split; constructor|].
      destruct (opval_compiles _ _ _ _ _ Hp) as [q Hq]. destruct (opval_some E ft r _ _ Hq) as (v' & Hv' & Ho).
      rewrite Hp in Hv'. injection Hv' as <-. exists (q :: qs). split; by constructor. }
    unfold opval. cbn [compile_predicate]. apply rmap_ok in Hc. rewrite Hc. cbn [rbind eval_operand].
    by rewrite (compound_loop_spec _ _ _ _ Hv).
  - unfold opval. cbn [compile_predicate]. destruct (rmap _ ps) as [qs| |] eqn:Hc; simpl; try done.
    apply rmap_ok in Hc. exfalso.
    assert (∃ vs, mapM (opval E ft r) ps = Some vs) as [vs Hvs]; [|by rewrite Hvs in Hm].
    clear Hm. induction Hc as [|p q ps qs Hq _ [vs IH]]; [by eexists|].
    destruct (opval_some E ft r _ _ Hq) as (v & Hv & _). exists (v :: vs). simpl. by rewrite Hv, IH.
Qed.

Lemma mapM_app {A B} (f : A → option B) l1 l2 :
  mapM f (l1 ++ l2) = (v1 ← mapM f l1; v2 ← mapM f l2; Some (v1 ++ v2)).
Proof.
  induction l1 as [|a l1 IH]; simpl; [by destruct (mapM f l2)|].
  destruct (f a); simpl; [|done]. rewrite IH. destruct (mapM f l1); simpl; [|done]. by destruct (mapM f l2).
Qed.

Lemma mapM_perm {A B} (f : A → option B) l1 l2 vs :
  Permutation l1 l2 → mapM f l1 = Some vs → ∃ vs', mapM f l2 = Some vs' ∧ Permutation vs vs'.
Proof.
  intros H. revert vs. induction H as [|a l1 l2 _ IH|a b l|l1 l2 l3 _ IH1 _ IH2]; intros vs Hm.
  - simpl in *. naive_solver.
  - simpl in *. destruct (f a) as [v|]; simpl in *; [|done].
    destruct (mapM f l1) as [ws|]; simpl in *; [|done]. injection Hm as <-.
    destruct (IH _ eq_refl) as (vs' & -> & Hp). simpl. eexists. split; [done|]. by constructor.
  - simpl in *. destruct (f a) as [v|]; simpl in *; [|by destruct (f b)].
    destruct (f b) as [w|]; simpl in *; [|done]. destruct (mapM f l); simpl in *; [|done].
    injection Hm as <-. eexists. split; [done|]. constructor.
  - destruct (IH1 _ Hm) as (vs' & Hm' & Hp). destruct (IH2 _ Hm') as (vs'' & Hm'' & Hp').
    exists vs''. split; [done|]. by trans vs'.
Qed.

Lemma tv_order b vs vs' : b ∈ ["and"; "or"; "xor"] → Permutation vs vs' → tv_compound b vs = tv_compound b vs'.
Proof.
  intros Hb Hp. assert (∀ x : presult, x ∈ vs ↔ x ∈ vs') as Hin by (intros x; by rewrite Hp).
  assert (Permutation (filter (λ v, v = RT) vs) (filter (λ v, v = RT) vs')) as Hf by by rewrite Hp.
  apply Permutation_length in Hf.
  rewrite !elem_of_cons in Hb. destruct Hb as [->|[->|[->|Hb]]]; [..|by apply elem_of_nil in Hb].
  all: unfold tv_compound; simpl; unfold tv_and, tv_or, tv_xor; rewrite ?Hf.
  all: rewrite (decide_ext _ _ _ _ (Hin RU)).
  - by rewrite (decide_ext _ _ _ _ (Hin RF)).
  - by rewrite (decide_ext _ _ _ _ (Hin RT)).
  - done.
Qed.

Lemma tv_nest b v1 v2 v3 : b ∈ ["and"; "or"; "xor"; "surrogate"] →
  tv_compound b (v1 ++ tv_compound b v2 :: v3) = tv_compound b (v1 ++ v2 ++ v3).
Proof.
  intros Hb. rewrite !elem_of_cons in Hb. destruct Hb as [->|[->|[->|[->|Hb]]]]; [..|by apply elem_of_nil in Hb].
  all: unfold tv_compound; simpl.
  - unfold tv_and. repeat case_decide; try done; exfalso; set_solver.
  - unfold tv_or. repeat case_decide; try done; exfalso; set_solver.
  - unfold tv_xor. rewrite !filter_app, !app_length.
    destruct (decide (RU ∈ v2)) as [H2|H2].
    { rewrite !decide_True; [done|..]; set_solver. }
    rewrite (decide_ext (RU ∈ v1 ++ (if Nat.odd (length (filter (λ v, v = RT) v2)) then RT else RF) :: v3)
               (RU ∈ v1 ++ v2 ++ v3)).
    2:{ rewrite !elem_of_app, elem_of_cons. destruct (Nat.odd _); naive_solver. }
    case_decide; [done|]. rewrite filter_cons, !Nat.odd_add.
    destruct (Nat.odd (length (filter _ v2))) eqn:Ho; simpl.
    + rewrite Nat.odd_succ, <- Nat.negb_odd. by destruct (Nat.odd (length (filter _ v1))), (Nat.odd (length (filter _ v3))).
    + by destruct (Nat.odd (length (filter _ v1))), (Nat.odd (length (filter _ v3))).
  - unfold tv_surrogate. rewrite !filter_app. destruct (filter _ v1) as [|x l]; simpl; [|done].
    rewrite filter_cons. destruct (filter (λ v, v ≠ RU) v2) as [|x l] eqn:H2; simpl.
    + done.
    + assert (x ≠ RU). { eapply (elem_of_list_filter (λ v, v ≠ RU)). rewrite H2. by left. }
      by rewrite decide_True.
Qed.

Lemma tv_single b v : b ∈ ["and"; "or"; "xor"; "surrogate"] → tv_compound b [v] = v.
Proof.
  intros Hb. rewrite !elem_of_cons in Hb. destruct Hb as [->|[->|[->|[->|Hb]]]]; [..|by apply elem_of_nil in Hb].
  all: by destruct v.
Qed.

Lemma tv_twice b v vs : b ∈ ["and"; "or"] → tv_compound b (v :: v :: vs) = tv_compound b (v :: vs).
Proof.
  intros Hb. rewrite !elem_of_cons in Hb. destruct Hb as [->|[->|Hb]]; [..|by apply elem_of_nil in Hb].
  all: unfold tv_compound; simpl; unfold tv_and, tv_or; repeat case_decide; try done; exfalso; set_solver.
Qed.

Lemma run_test_operand E ft p r : ¬ const_pred p → run_test E ft p r = eval_operand E ft r p.
Proof. by destruct p. Qed.
Lemma compile_const E ft p q : compile_predicate E ft p = Ok q → const_pred q ↔ const_pred p.
Proof.
  destruct p; simpl; try (by intros [= <-]).
  - destruct (ft !! field); [|done]. by intros (? & _ & [= <-])%rbind_ok.
  - by intros (? & _ & [= <-])%rbind_ok.
Qed.

Lemma same_pred_opval E ft p q : same_pred p q →
  p = q ∨ (¬ const_pred p ∧ ¬ const_pred q ∧ ∀ r, opval E ft r p = opval E ft r q).
Proof.
  induction 1 as [p|p q _ IH|p q s _ IH1 _ IH2|b l1 l2 p q _ IH|b l1 l2 Hb Hp|b l1 l2 l3 Hb|b p Hb Hc|b p l Hb].
  - by left.
  - destruct IH as [->|(H1 & H2 & H)]; [by left|]. right. naive_solver.
  - destruct IH1 as [->|(H1 & H2 & H)]; [done|]. destruct IH2 as [->|(H1' & H2' & H')]; [by right|].
    right. split; [done|]. split; [done|]. intros r. by rewrite H.
  - destruct IH as [->|(H1 & H2 & H)]; [by left|]. right. split; [by intros ?|]. split; [by intros ?|].
    intros r. rewrite !opval_compound, !mapM_app. simpl. by rewrite H.
  - right. split; [by intros ?|]. split; [by intros ?|]. intros r. rewrite !opval_compound.
    destruct (mapM _ l1) as [v1|] eqn:H1.
    + destruct (mapM_perm _ _ _ _ Hp H1) as (v2 & -> & Hv). simpl. f_equal. by apply tv_order.
    + destruct (mapM _ l2) as [v2|] eqn:H2; [|done].
      destruct (mapM_perm _ _ _ _ (Permutation_sym Hp) H2) as (v1 & H1' & _). congruence.
  - right. split; [by intros ?|]. split; [by intros ?|]. intros r. rewrite !opval_compound, !mapM_app.
    destruct (mapM _ l1) as [v1|]; simpl; [|done]. rewrite opval_compound.
    destruct (mapM _ l2) as [v2|]; simpl; [|done]. destruct (mapM _ l3) as [v3|]; simpl; [|done].
    f_equal. by apply tv_nest.
  - right. split; [by intros ?|]. split; [done|]. intros r. rewrite opval_compound. simpl.
    destruct (opval E ft r p); simpl; [|done]. f_equal. by apply tv_single.
  - right. split; [by intros ?|]. split; [by intros ?|]. intros r. rewrite !opval_compound. simpl.
    destruct (opval E ft r p); simpl; [|done]. destruct (mapM _ l); simpl; [|done]. f_equal. by apply tv_twice.
Qed.

Lemma same_pred_compiles E ft p q p' : same_pred p q → compile_predicate E ft p = Ok p' →
  ∃ q', compile_predicate E ft q = Ok q' ∧ ∀ r, run_test E ft p' r = run_test E ft q' r.
Proof.
  intros [->|(H1 & H2 & H)]%(same_pred_opval E ft) Hp; [eauto|].
  destruct (opval_some E ft None _ _ Hp) as (v & Hv & _). rewrite H in Hv.
  apply opval_compiles in Hv as [q' Hq]. exists q'. split; [done|]. intros r.
  rewrite (run_test_operand _ _ p') by (intros Hk; by apply H1, (compile_const _ _ _ _ Hp)).
  rewrite (run_test_operand _ _ q') by (intros Hk; by apply H2, (compile_const _ _ _ _ Hq)).
  destruct (opval_some E ft r _ _ Hp) as (w & Hw & ->). destruct (opval_some E ft r _ _ Hq) as (w' & Hw' & ->).
  rewrite H in Hw. congruence.
Qed.

Lemma same_nodes_sym (P P' : predicate → predicate → Prop) :
  (∀ p q, P p q → P' q p) → ∀ m1 m2, same_nodes P m1 m2 → same_nodes P' m2 m1.
Proof.
  intros HP m1. induction m1 as [id dc sc c ds ns1 p1 IH] using mnode_rect'. intros m2 Hm.
  inversion Hm as [? ? ? ? ? ? ns2 ? p2 Hns Hp]; subst; clear Hm. constructor; [|by apply HP].
  induction Hns as [|a b l1 l2 Hab _ IHl]; constructor.
  - apply Forall_cons in IH as [IH _]. by apply IH.
  - apply Forall_cons in IH as [_ IH]. by apply IHl.
Qed.

Lemma rearranged_sym d1 d2 : rearranged d1 d2 → rearranged d2 d1.
Proof.
  apply rewritten_sym. intros t1 t2 [t n Hn]. destruct t as [f s p nt lt sch v root]. unfold with_node. simpl in *.
  apply (stb _ (TreeModel f s p nt lt sch v n) root). simpl. by eapply same_nodes_sym; [|exact Hn]; apply sp_sym.
Qed.

Lemma rearranged_stands_in E dd d1 d2 : rearranged d1 d2 → stands_in E dd dd d1 d2.
Proof.
  apply rewritten_stands_in. intros t1 t2 [t n Hn]. eapply tree_stands_in; [|done|exact Hn].
  intros td p1 p2 q1 Hp Hq. by eapply same_pred_compiles.
Qed.

(** ** Data dictionaries *)
Lemma dictionary_type (dd : list data_field) (m : gmap string string) f :
  foldl (λ ft df, <[dd_name df := dd_datatype df]> ft) m dd !! f =
  match last (entries f dd) with Some x => Some (dd_datatype x) | None => m !! f end.
Proof.
  revert m. induction dd as [|x dd IH]; intros m; [done|]. simpl. rewrite IH. unfold entries. rewrite filter_cons.
  destruct (decide (dd_name x = f)) as [<-|Hne].
  - rewrite last_cons. destruct (last _); [done|]. by rewrite lookup_insert.
  - destruct (last _); [done|]. by rewrite lookup_insert_ne.
Qed.

Lemma field_types_entries dd1 dd2 td f : entries f dd1 = entries f dd2 →
  field_types dd1 td !! f = field_types dd2 td !! f.
Proof.
  intros H. unfold field_types.
  assert ((foldl (λ ft df, <[dd_name df := dd_datatype df]> ft) ∅ dd1 : gmap string string) !! f =
          (foldl (λ ft df, <[dd_name df := dd_datatype df]> ft) ∅ dd2 : gmap string string) !! f) as Hm.
  { by rewrite !dictionary_type, H. }
  revert Hm. generalize (foldl (λ ft df, <[dd_name df := dd_datatype df]> ft) ∅ dd1 : gmap string string).
  generalize (foldl (λ ft df, <[dd_name df := dd_datatype df]> ft) ∅ dd2 : gmap string string).
  induction td as [|x td IH]; intros m2 m1 Hm; [done|]. simpl. apply IH.
  destruct (decide (df_name x = f)) as [->|Hne]; [by rewrite !lookup_insert|by rewrite !lookup_insert_ne].
Qed.

Lemma compile_local E f1 f2 p : (∀ f, f ∈ pred_fields p → f1 !! f = f2 !! f) →
  compile_predicate E f1 p = compile_predicate E f2 p.
Proof.
  induction p as [| |f op v raw|b ps IH|b f a|] using predicate_rect'; intros Hf; simpl; try done.
  - rewrite (Hf f) by (simpl; set_solver). done.
  - assert (rmap (compile_predicate E f1) ps = rmap (compile_predicate E f2) ps) as ->; [|done].
    apply rmap_ext. rewrite Forall_forall in IH |- *. intros q Hq. apply IH; [done|]. intros f Hfq. apply Hf.
    simpl. apply elem_of_list_In, in_concat. exists (pred_fields q).
    split; [apply in_map; by apply elem_of_list_In|by apply elem_of_list_In].
Qed.

Lemma eval_operand_local E f1 f2 r p : (∀ f, f ∈ pred_fields p → f1 !! f = f2 !! f) →
  eval_operand E f1 r p = eval_operand E f2 r p.
Proof.
  induction p as [| |f op v raw|b ps IH|b f a|] using predicate_rect'; intros Hf; simpl; try done.
  - unfold eval_simple. by rewrite (Hf f) by (simpl; set_solver).
  - assert (Forall (λ q, eval_operand E f1 r q = eval_operand E f2 r q) ps) as Hps.
    { rewrite Forall_forall in IH |- *. intros q Hq. apply IH; [done|]. intros f Hfq. apply Hf.
      simpl. apply elem_of_list_In, in_concat. exists (pred_fields q).
      split; [apply in_map; by apply elem_of_list_In|by apply elem_of_list_In]. }
    clear IH Hf. generalize (length ps) as n. intros n.
    enough (∀ tc uc, compound_loop (eval_operand E f1 r) b n ps tc uc =
                     compound_loop (eval_operand E f2 r) b n ps tc uc) as H by apply H.
    induction Hps as [|q l Hq _ IHl]; intros tc uc; simpl; [done|].
    rewrite Hq. destruct (eval_operand E f2 r q) as [w| |]; simpl; try done. destruct (_ && _); [done|].
    destruct w; apply IHl.
Qed.

Lemma run_test_local E f1 f2 r p : (∀ f, f ∈ pred_fields p → f1 !! f = f2 !! f) →
  run_test E f1 p r = run_test E f2 p r.
Proof.
  intros Hf. destruct p as [| |f op v raw|b ps|b f a|]; try done.
  - by apply (eval_operand_local E f1 f2 r (PSimple f op v raw)).
  - by apply (eval_operand_local E f1 f2 r (PCompound b ps)).
Qed.

Lemma compile_keeps_fields E ft p q : compile_predicate E ft p = Ok q → pred_fields q = pred_fields p.
Proof.
  revert q. induction p as [| |f op v raw|b ps IH|b f a|] using predicate_rect'; intros q Hc; simpl in Hc; try (by simplify_eq).
  - destruct (ft !! f); [|done]. by apply rbind_ok in Hc as (? & _ & [= <-]).
  - apply rbind_ok in Hc as (ps' & Hps & [= <-]). apply rmap_ok in Hps. simpl. f_equal.
    induction Hps as [|x y l1 l2 Hx _ IHl]; [done|]. apply Forall_cons in IH as [IH1 IH]. simpl. f_equal; auto.
Qed.

Lemma same_nodes_refl (P : predicate → predicate → Prop) (F : string → Prop) m :
  (∀ p, (∀ f, f ∈ pred_fields p → F f) → P p p) → (∀ f, f ∈ node_fields m → F f) → same_nodes P m m.
Proof.
  intros HP. induction m as [id dc sc c ds ns p IH] using mnode_rect'. intros Hm. cbn [node_fields] in Hm. constructor.
  - assert (∀ f, f ∈ concat (map node_fields ns) → F f) as Hns by set_solver. clear Hm.
    induction IH as [|m ns Hm _ IHl]; constructor; simpl in Hns; [apply Hm|apply IHl]; set_solver.
  - apply HP. set_solver.
Qed.

Lemma target_listed (l : list mining_field) : target_field l ≠ "" →
  target_field l ∈ mf_name <$> filter (λ f, mf_usage f = "target") l.
Proof.
  unfold target_field. destruct (last (filter _ l)) as [f|] eqn:H; [|done]. intros _. simpl.
  apply elem_of_list_fmap. exists f. split; [done|]. rewrite last_Some in H. destruct H as [l' ->]. set_solver.
Qed.

Lemma dictionary_stands_in E dd1 dd2 d :
  (∀ f, f ∈ looked_up d → entries f dd1 = entries f dd2) → stands_in E dd1 dd2 d d.
Proof.
  intros Hf. set (F f := entries f dd1 = entries f dd2).
  apply (rewritten_stands_in E dd1 dd2 (λ t1 t2, t1 = t2 ∧ ∀ f, f ∈ looked_up (DTree t1) → F f)).
  - intros t ? [<- Ht]. replace (DTree t) with (DTree (with_node t (tm_node t))) at 2 by by destruct t.
    eapply (tree_stands_in _ _ _ _ _ (λ p q, p = q ∧ ∀ f, f ∈ pred_fields p → F f)).
    + intros td p ? q [<- Hp] Hc. assert (∀ f, f ∈ pred_fields p →
        field_types dd1 (td ++ tm_lt t) !! f = field_types dd2 (td ++ tm_lt t) !! f) as Hft.
      { intros f Hfp. by apply field_types_entries, Hp. }
      exists q. split; [by rewrite <- (compile_local E _ _ p Hft)|]. intros r. apply run_test_local.
      intros f. rewrite (compile_keeps_fields _ _ _ _ Hc). apply Hft.
    + intros Hne. unfold target_values. unfold F, entries in Ht. rewrite Ht; [done|]. cbn [looked_up].
      apply elem_of_app. right. by apply target_listed.
    + apply (same_nodes_refl _ F); [done|]. intros f Hn. apply Ht. cbn [looked_up]. set_solver.
  - change (∀ f, f ∈ looked_up d → F f) in Hf. clearbody F. revert Hf.
    induction d as [t|m|k|h segs IH] using doc_rect'; intros Hf; constructor; [done|].
    cbn [looked_up] in Hf. induction IH as [|[i ps ms] l Hs _ IHl]; constructor; cbn [map concat] in Hf.
    + assert (∀ f, f ∈ concat (map looked_up ms) → F f) as Hms by set_solver. simpl in Hs |- *. clear -Hs Hms.
      induction Hs as [|d ms Hd _ IHm]; constructor; simpl in Hms; [apply Hd|apply IHm]; set_solver.
    + apply IHl. set_solver.
Qed.

Lemma entries_perm dd1 dd2 f : NoDup (dd_name <$> dd1) → Permutation dd1 dd2 → entries f dd1 = entries f dd2.
Proof.
  intros Hn Hp. assert (Permutation (entries f dd1) (entries f dd2)) as H by (unfold entries; by rewrite Hp).
  assert (length (entries f dd1) ≤ 1) as Hl.
  { clear -Hn. induction dd1 as [|x l IH]; [simpl; lia|]. rewrite fmap_cons in Hn. apply NoDup_cons in Hn as [Hx Hn].
    unfold entries in *. rewrite filter_cons. case_decide as He; [|by apply IH]. simpl.
    assert (filter (λ y, dd_name y = f) l = []) as ->; [|simpl; lia].
    apply elem_of_nil_inv. intros y [Hy Hin]%elem_of_list_filter. apply Hx, elem_of_list_fmap. exists y. by subst. }
  destruct (entries f dd1) as [|x [|]]; simpl in Hl; [|..|lia].
  - by apply Permutation_nil in H.
  - by apply Permutation_length_1_inv in H.
Qed.
