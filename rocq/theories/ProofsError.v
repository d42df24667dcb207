(** Which errors there are. *)
From Verif Require Import Base Strconv Value Doc Expr Pred Tree Regression Model Lib
  SpecPred ProofsPred SpecExpr ProofsExpr SpecConstruct ProofsConstruct ProofsRange
  SpecTree ProofsTree ProofsOutput ProofsEval ProofsDoc ProofsSafe ProofsWhole ProofsClass SpecModel ProofsFrame SpecError.

(** the row has every field of [m] *)
Definition above (m : row) (r : datarow) : Prop :=
  ∃ m', r = Some m' ∧ ∀ k, is_Some (m !! k) → is_Some (m' !! k).

Lemma above_refl m : above m (Some m).
Proof. by exists m. Qed.
Lemma above_frame K m r r' : above m r → frame K r r' → above m r'.
Proof.
  intros (m1 & -> & H) (H1 & _ & H3). destruct r' as [m2|]; [|by destruct H1 as [H1 _]; specialize (H1 eq_refl)].
  exists m2. split; [done|]. intros k Hk. by apply H3, H.
Qed.
Lemma above_absent m r k : above m r → dr_get r k = None → m !! k = None.
Proof.
  intros (m1 & -> & H). simpl. intros Hk. destruct (m !! k) eqn:Hm; [|done].
  destruct (H k) as [v Hv]; [by rewrite Hm|]. by rewrite Hk in Hv.
Qed.

Lemma map_columns_get pairs r c f v :
  (f, c) ∈ pairs → dr_get r f = Some v → is_Some (map_columns pairs r !! c).
Proof.
  unfold map_columns. generalize (∅ : row). intros cols0 Hin Hf.
  assert (∀ l (cols : row), is_Some (cols !! c) → is_Some (foldl (λ cols '(fld, col),
           match dr_get r fld with Some v => <[col := v]> cols | None => cols end) cols l !! c)) as Hk.
  { intros l. induction l as [|[f' c'] l IH]; intros cols' Hc; [done|]. simpl. apply IH.
    destruct (dr_get r f'); [|done]. rewrite lookup_insert_is_Some. destruct (decide (c' = c)); auto. }
  revert cols0. induction pairs as [|[f' c'] l IH]; intros cols; simpl; [by apply elem_of_nil in Hin|].
  apply elem_of_cons in Hin as [[= <- <-]|Hin]; [|by apply IH].
  apply Hk. rewrite Hf, lookup_insert. eauto.
Qed.

Lemma map_tables_get E tables cols c :
  is_Some (cols !! c) → is_Some (foldl (λ cols tbl, foldl (map_table_step E) cols tbl) cols tables !! c).
Proof.
  revert cols. induction tables as [|tb tables IH]; intros cols Hc; [done|]. simpl. apply IH. clear IH.
  revert cols Hc. induction tb as [|rw tb IH]; intros cols Hc; [done|]. simpl. apply IH.
  unfold map_table_step. destruct (_ =s _); [|done]. rewrite lookup_insert_is_Some.
  destruct (decide ("data:output" = c)); auto.
Qed.

Lemma handle_expr_fault E e m r x : above m r → handle_expr E e r = Err x → expr_fault E m e x.
Proof.
  intros Hr. revert x. induction e as [f mm|dt v|fn d mm args IH|pairs tables d dt oc mm|k] using expr_rect'; intros x.
  - done.
  - simpl. unfold handle_constant. case_str.
    + destruct (ext_parse_float E v) eqn:Hv; [done|]. intros [= <-]. by constructor.
    + intros [= <-]. by constructor.
  - assert (Hsub : ∀ a, a ∈ args → handle_expr E a r = Err x → expr_fault E m (XApply fn d mm args) x).
    { intros a Ha Hx. rewrite Forall_forall in IH. eapply argument; [exact Ha|]. by apply IH. }
    destruct (decide (fn = "sum")) as [->|Hsum].
    { rewrite handle_sum. revert Hsub. clear IH. generalize fzero.
      generalize (expr_fault E m (XApply "sum" d mm args) x). intros Q.
      induction args as [|a args IHa]; intros s Hsub; simpl; [done|].
      intros [H|(v & Hv & H)]%rbind_err; [apply (Hsub a); [left|done]|].
      apply (IHa (fadd s (val_float64 E v))); [|done]. intros b Hb. apply Hsub. by right. }
    destruct (arith_meaning fn) as [op|] eqn:Har.
    { rewrite (handle_arith _ _ _ _ _ _ _ Har).
      assert (fn ∈ ["+"; "-"; "*"; "/"]) as Hfn.
      { unfold arith_meaning in Har. repeat case_str_in Har; set_solver. }
      assert (length args ≠ 2 → Err (EArity fn (length args)) = @Err value x → expr_fault E m (XApply fn d mm args) x) as Hn.
      { intros Hl [= <-]. apply (argument_count _ _ _ 2); [|done]. set_solver. }
      destruct args as [|a [|b [|c args]]]; try (by apply Hn).
      intros [H|(v & Hv & H)]%rbind_err; [apply (Hsub a); [set_solver|done]|].
      apply rbind_err in H as [H|(w & Hw & H)]; [apply (Hsub b); [set_solver|done]|done]. }
    simpl. apply String.eqb_neq in Hsum as Hs2. rewrite Hs2.
    assert (is_arith fn = false) as ->.
    { unfold arith_meaning in Har. unfold is_arith.
      repeat case_str_in Har; repeat case_str; done. }
    assert (∀ n, (fn, n) ∈ [("+", 2); ("-", 2); ("*", 2); ("/", 2); ("isMissing", 1); ("isNotMissing", 1); ("if", 3)] →
      length args ≠ n → Err (EArity fn (length args)) = @Err value x → expr_fault E m (XApply fn d mm args) x) as Hn.
    { intros n Hin Hl [= <-]. by apply (argument_count _ _ _ n). }
    case_str; [|case_str; [|case_str]].
    + destruct args as [|a [|b args]]; try (apply (Hn 1); [set_solver|done]).
      intros [H|(v & Hv & H)]%rbind_err; [apply (Hsub a); [set_solver|done]|done].
    + destruct args as [|a [|b args]]; try (apply (Hn 1); [set_solver|done]).
      intros [H|(v & Hv & H)]%rbind_err; [apply (Hsub a); [set_solver|done]|done].
    + destruct args as [|c [|a [|b [|? args]]]]; try (apply (Hn 3); [set_solver|done]).
      intros [H|(v & Hv & H)]%rbind_err; [apply (Hsub c); [set_solver|done]|].
      destruct (val_bool v); [apply (Hsub a)|apply (Hsub b)]; set_solver.
    + intros [= <-]. constructor. unfold arith_meaning in Har. repeat case_str_in Har; set_solver.
  - simpl. unfold handle_map_values. set (cols := foldl _ _ _).
    destruct (cols !! "data:output"); [done|]. destruct d as [d|]; [by apply map_default|].
    destruct (cols !! "data:input") eqn:Hc; [done|]. intros [= <-]. constructor.
    intros f Hf. apply (above_absent _ _ _ Hr). destruct (dr_get r f) as [v|] eqn:Hv; [|done].
    destruct (map_tables_get E tables _ _ (map_columns_get _ _ _ _ _ Hf Hv)) as [w Hw].
    unfold cols in Hc. by rewrite Hc in Hw.
  - simpl. intros [= <-]. constructor.
Qed.

Lemma handle_input_fault E lt m r x r' :
  above m r → handle_input E lt r = (Err x, r') → ∃ f, f ∈ lt ∧ expr_fault E m (df_expr f) x.
Proof.
  revert r. induction lt as [|df lt IH]; intros r Hr; simpl; [done|].
  destruct (handle_expr E (df_expr df) r) as [v|y|p] eqn:Hv; [| |done].
  - destruct Hr as (m1 & -> & Hm). simpl. intros H. edestruct IH as (f & Hf & Hx); [|exact H|].
    + eexists. split; [done|]. intros k Hk. rewrite lookup_insert_is_Some.
      destruct (decide (df_name df = k)); auto.
    + exists f. split; [by right|done].
  - intros [= <- <-]. exists df. split; [left|]. by eapply handle_expr_fault.
Qed.

Lemma linear_form_fault E y ps m r x :
  above m r → linear_form E y ps r = Err x → ∃ p, p ∈ ps ∧ m !! np_name p = None ∧ x = EMissingTerm (np_name p).
Proof.
  intros Hr. revert y. induction ps as [|p ps IH]; intros y; simpl; [done|].
  destruct (dr_get r (np_name p)) eqn:Hp.
  - intros (q & Hq & H)%IH. exists q. split; [by right|done].
  - intros [= <-]. exists p. split; [left|]. split; [by eapply above_absent|done].
Qed.

Lemma normalize_fault E meth t x :
  normalize E meth t = Err x → meth ∉ ["softmax"; "logit"; "exp"; "cloglog"; "cauchit"] ∧ x = ENormalization meth.
Proof. unfold normalize. repeat case_str; try done. intros [= <-]. split; [set_solver|done]. Qed.

Lemma binary_form_fault E meth y ps m r x :
  above m r → binary_form E meth y ps r = Err x →
  (∃ p, p ∈ ps ∧ m !! np_name p = None ∧ x = EMissingTerm (np_name p)) ∨
  (meth ∉ ["softmax"; "logit"; "exp"; "cloglog"; "cauchit"] ∧ x = ENormalization meth).
Proof.
  intros Hr. revert y. induction ps as [|p ps IH]; intros y; simpl; [done|].
  destruct (dr_get r (np_name p)) eqn:Hp.
  - intros [Hx%normalize_fault|(z & Hz & [(q & Hq & H)|H]%IH)]%rbind_err; [by right| |by right].
    left. exists q. split; [by right|done].
  - intros [= <-]. left. exists p. split; [left|]. split; [by eapply above_absent|done].
Qed.

Lemma multi_out_fault E meth ys out l x :
  multi_out E meth ys out l = Err x → meth ∉ ["softmax"; "simplemax"] ∧ x = ENormalization meth.
Proof.
  revert out. induction l as [|[t y] l IH]; intros out; simpl; [done|].
  repeat case_str; try apply IH. intros [= <-]. split; [set_solver|done].
Qed.

Lemma regr_evaluate_fault E m g r x : above m r → regr_evaluate E g r = Err x → regr_fault m g x.
Proof.
  intros Hr. unfold regr_evaluate. case_str; [|case_str; simpl].
  - unfold eval_regression. destruct (rm_tables g) as [|t [|t2 ts]] eqn:Ht.
    1,3: intros [= <-]; pose proof (regr_tables m g) as Hx; rewrite Ht in Hx; by apply Hx.
    destruct (rm_output g) as [|o [|o2 os]] eqn:Ho.
    1,3: intros [= <-]; pose proof (regr_outputs m g) as Hx; rewrite Ho in Hx; by apply Hx.
    intros [(p & Hp & Hm & ->)%(linear_form_fault _ _ _ m)|(y & Hy & H)]%rbind_err; [|done|].
    + apply (regr_missing _ _ t); [rewrite Ht; left|done|done].
    + apply rbind_err in H as [[Hn ->]%normalize_fault|(z & Hz & H)]; [|done]. by apply regr_normalization; auto.
  - destruct (Nat.eqb_spec (length (rm_output g)) 2) as [Hl|Hl].
    + unfold eval_binary. intros Hx.
      assert (∀ ts f out, (∀ t, t ∈ ts → t ∈ rm_tables g) → binary_tables E g r f out ts = Err x → regr_fault m g x) as H;
        [|by eapply H].
      clear Hx. intros ts. induction ts as [|t ts IH]; intros f out Hts; simpl; [done|].
      intros [H|(z & Hz & H)]%rbind_err; [|eapply IH; [|exact H]; intros; apply Hts; by right].
      destruct (0 <? length (rt_predictors t)); [|done].
      apply (binary_form_fault _ _ _ _ m) in H as [(p & Hp & Hm & ->)|[Hn ->]]; [|by apply regr_normalization; auto|done].
      apply (regr_missing _ _ t); [apply Hts; left|done|done].
    + unfold eval_multiclass. intros [H|(ys & Hys & H)]%rbind_err.
      * apply rmap_err in H as (t & Ht & (p & Hp & Hm & ->)%(linear_form_fault _ _ _ m)); [|done].
        by apply (regr_missing _ _ t).
      * apply multi_out_fault in H as [Hn ->]. by apply regr_multiclass.
  - intros [= <-]. apply regr_function. set_solver.
Qed.

Lemma tree_of_fault E dd td t te tk m r x r' e' :
  tree_of E dd td t te → above m r → tree_evaluate E tk te r = (Err x, r', e') → fault E dd m (DTree t) x.
Proof.
  intros Ht Hr H.
  destruct (handle_input E (tm_lt t) r) as [[[]|y|q] r1] eqn:Hi.
  - pose proof (tree_of_run _ _ _ _ _ tk _ _ Ht Hi) as Hrun. rewrite H in Hrun. simpl in Hrun.
    destruct (node_evaluate _ _ _ _ _ _) as [[s v]|y|q] eqn:Hs; [|by apply node_evaluate_no_err in Hs|done].
    destruct v; try done. injection Hrun as Hrep _. unfold report in Hrep. case_decide; [done|].
    destruct s as [|s0 ss]; [done|]. destruct (ext_parse_float _ _) eqn:Hp; [done|]. injection Hrep as ->.
    apply tree_score; [|..|done].
    + destruct Ht as (_ & _ & _ & _ & _ & _ & _ & _ & Hf). by destruct Hf.
    + apply (node_evaluate_class _ _ _ _ _ _ _ _ _ (doc_class_list _ _ _ _ _ Ht)) in Hs as [_ Hs].
      apply Hs. simpl. left.
  - destruct Ht as (Hv & Hc & _ & _ & _ & _ & Hlt & _). rewrite tree_evaluate_run in H by done.
    rewrite Hlt, Hi in H. injection H as -> _ _.
    destruct (handle_input_fault _ _ _ _ _ _ Hr Hi) as (f & Hf & Hx). by eapply tree_input.
  - destruct Ht as (Hv & Hc & _ & _ & _ & _ & Hlt & _). rewrite tree_evaluate_run in H by done.
    by rewrite Hlt, Hi in H.
Qed.

Lemma tree_of_above E dd td t te tk m r o r' e' :
  tree_of E dd td t te → above m r → tree_evaluate E tk te r = (o, r', e') → above m r'.
Proof.
  intros (Hv & Hc & _ & _ & _ & _ & Hlt & _) Hr H. rewrite tree_evaluate_run in H by done.
  destruct (handle_input _ _ _) as [o1 r1] eqn:Hi.
  pose proof (above_frame _ _ _ _ Hr (frame_handle_input _ _ _ _ _ Hi)) as Hr1.
  repeat case_match; by simplify_eq.
Qed.

(** the errors of a combination: those of the members asked *)
Lemma run_method_fault {M} E tk h (ev : nat → M → datarow → outcome M) (RI : datarow → Prop) (QF QE : err → Prop) sm r o r' sm' :
  mm_method (em_hdr h) ∈ ["average"; "sum"; "modelChain"; "selectFirst"] →
  (∀ r1 tk1 out, RI r1 → ∃ r2, copy_into E tk1 out r1 = Ok r2 ∧ RI r2) →
  (∀ s, head sm = Some s → ∀ i r o r' s', RI r → ev i s r = (o, r', s') → RI r' ∧ good (λ _, True) QF (λ _, True) o) →
  (∀ s, s ∈ tail sm → ∀ i r o r' s', RI r → ev i s r = (o, r', s') →
     RI r' ∧ good (λ _, True) (if mm_method (em_hdr h) =s "selectFirst" then λ _, True else QE) (λ _, True) o) →
  RI r → run_method E tk h ev sm r = (o, r', sm') →
  RI r' ∧ good (λ _, True)
    (λ x, QF x ∨ (mm_method (em_hdr h) ≠ "selectFirst" ∧ QE x) ∨ (mm_method (em_hdr h) = "selectFirst" ∧ sm = [] ∧ x = ENoSegments))
    (λ _, True) o.
Proof.
  intros Hm Hcopy Hfirst Hrest Hr.
  destruct (decide (mm_method (em_hdr h) = "selectFirst")) as [Hsel|Hsel].
  - unfold run_method. rewrite Hsel. simpl. destruct sm as [|s sm]; simpl.
    + intros [= <- <- <-]. split; [done|]. simpl. auto.
    + destruct (ev 0 s r) as [[o1 r1] s1] eqn:H1. intros [= <- <- <-].
      destruct (Hfirst s eq_refl _ _ _ _ _ Hr H1) as [? Ho]. split; [done|]. destruct o1; simpl in *; auto.
  - apply String.eqb_neq in Hsel as Hs2. rewrite Hs2 in Hrest.
    set (Q := λ x, QF x ∨ QE x).
    assert (Hev : ∀ i s r o r' s', s ∈ sm → RI r → ev i s r = (o, r', s') → True ∧ RI r' ∧ good (λ _, True) Q (λ _, True) o).
    { intros i s r1 o1 r1' s1 Hs Hr1 He. split; [done|]. destruct sm as [|s0 sm0]; [by apply elem_of_nil in Hs|].
      apply elem_of_cons in Hs as [->|Hs].
      - destruct (Hfirst s0 eq_refl _ _ _ _ _ Hr1 He) as [? Ho]. split; [done|]. destruct o1; simpl in *; unfold Q; auto.
      - destruct (Hrest s Hs _ _ _ _ _ Hr1 He) as [? Ho]. split; [done|]. destruct o1; simpl in *; unfold Q; auto. }
    assert (Hin : Forall (λ s, s ∈ sm) sm) by by apply Forall_forall.
    assert (Hsum : ∀ o r' sm', sum_models E tk h ev sm r = (o, r', sm') →
      RI r' ∧ match o with Ok _ => True | Err e => Q e | Panic p => True end).
    { intros o0 r0 sm0. unfold sum_models.
      destruct (sum_segments _ _ _ _ _ _ _ _) as [[o1 r1] sm1] eqn:Hs.
      destruct (sum_segments_rule E ev (λ s, s ∈ sm) (λ _, True) (λ _ _, I) RI (λ _, True) Q (λ _, True) Hev
        _ _ _ _ _ _ _ _ _ Hin Hr Hs) as (_ & ? & ?).
      by destruct o1; intros [= <- <- <-]. }
    intros H. cut (RI r' ∧ good (λ _, True) Q (λ _, True) o).
    { intros [? Ho]. split; [done|]. destruct o; simpl in *; try done. destruct Ho; auto. }
    unfold run_method in H. case_str_in H.
    { unfold average_models in H. destruct (sum_models E tk h ev sm r) as [[o2 r2] sm2].
      destruct (Hsum _ _ _ eq_refl) as [H1 H2]. destruct o2; simpl in H; by simplify_eq. }
    case_str_in H.
    { destruct (sum_models E tk h ev sm r) as [[o2 r2] sm2].
      destruct (Hsum _ _ _ eq_refl) as [H1 H2]. destruct o2; simpl in H; by simplify_eq. }
    case_str_in H.
    { apply (chain_rule E ev (λ s, s ∈ sm) (λ _, True) (λ _ _, I) RI (λ _, True) Q (λ _, True) Hev) in H as (_ & ? & ?); try done.
      intros tk1 out r1 _ Hr1. by destruct (Hcopy r1 tk1 out Hr1) as (r2 & -> & ?). }
    exfalso. set_solver.
Qed.

Lemma evaluate_fault E dd m td d e td' tk r o r' e' :
  new_model E dd td d = (Ok e, td') → above m r → evaluate E tk e r = (o, r', e') →
  above m r' ∧ good (λ _, True) (fault E dd m d) (λ _, True) o.
Proof.
  revert td e td' tk r o r' e'. induction d as [t|g|k|h segs IH] using doc_rect'; intros td e td' tk r o r' e'.
  - intros (te & -> & Ht)%new_model_tree_of Hr. simpl.
    destruct (tree_evaluate E tk te r) as [[o1 r1] t1] eqn:He. intros [= <- <- <-].
    split; [by eapply tree_of_above|]. destruct o1; try done. by eapply tree_of_fault.
  - simpl. intros [= <- <-] Hr. simpl. intros [= <- <- <-]. split; [done|].
    destruct (regr_evaluate E g r) eqn:He; try done. simpl. constructor. by eapply regr_evaluate_fault.
  - done.
  - intros (sm & -> & Hs & Hok)%new_model_mining_inv Hr. rewrite mining_evaluate_run by done.
    cbn [built_mining em_defaults em_hdr].
    destruct (impute E (4 :: tk) _ r) as [r1|y|p] eqn:Himp.
    2,3: destruct Hr as (m1 & -> & Hm); by rewrite impute_some in Himp.
    pose proof (above_frame _ _ _ _ Hr (frame_impute _ _ _ _ _ Himp)) as Hr1.
    rewrite header_of_lt. destruct (handle_input E (mm_lt h) r1) as [o2 r2] eqn:Hi.
    pose proof (above_frame _ _ _ _ Hr1 (frame_handle_input _ _ _ _ _ Hi)) as Hr2.
    destruct o2 as [[]|y|p].
    2:{ intros [= <- <- <-]. split; [done|].
        destruct (handle_input_fault _ _ _ _ _ _ Hr1 Hi) as (f & Hf & Hx). by eapply ensemble_input. }
    2:{ intros [= <- <- <-]. done. }
    destruct (run_method _ _ _ _ _ _) as [[o3 r3] sm'] eqn:H3. intros [= <- <- <-].
    assert (Hmm : mm_method (em_hdr (built_mining dd td h segs)) = "selectFirst" ↔ mm_method h = "selectFirst").
    { simpl. unfold header_of. case_str; [|done]. split; [done|]. intros H; by rewrite H in *. }
    assert (Hev : ∀ i e, sm !! i = Some e → ∃ s d, segs !! i = Some s ∧ sg_models s = [d] ∧
      ∀ tk r o r' e', above m r → evaluate E tk e r = (o, r', e') → above m r' ∧ good (λ _, True) (fault E dd m d) (λ _, True) o).
    { clear -Hs IH. revert IH. induction Hs as [|td0 s0 segs d e0 es td1 td2 Hd He Hs IHs]; intros IH i e; [done|].
      apply Forall_cons in IH as [IH0 IH]. rewrite Hd in IH0. apply Forall_cons in IH0 as [IH0 _].
      destruct i as [|i]; simpl; [|by apply IHs].
      intros [= <-]. exists s0, d. split; [done|]. split; [done|]. intros. by eapply IH0. }
    eapply (run_method_fault E tk _ _ (above m)
      (λ x, ∃ s segs' d, segs = s :: segs' ∧ sg_models s = [d] ∧ fault E dd m d x)
      (λ x, ∃ s0 segs' s d, segs = s0 :: segs' ∧ s ∈ segs' ∧ sg_models s = [d] ∧ fault E dd m d x)) in H3 as [Hr3 Ho]; [..|done].
    + split; [done|]. destruct o3 as [out|x|p]; try done. simpl in Ho.
      destruct Ho as [(s & segs' & d & -> & Hd & Hx)|[(Hne & s0 & segs' & s & d & -> & Hin & Hd & Hx)|(Hm & -> & ->)]].
      * by eapply first_member.
      * eapply later_member; [|done..]. by rewrite Hmm in Hne.
      * inversion Hs; subst. apply ensemble_empty. by apply Hmm.
    + destruct Hok as [Hok _]. simpl. unfold header_of. case_str; simpl; set_solver.
    + intros r4 tk1 out Hr4. destruct Hr4 as (m4 & -> & Hm4). rewrite copy_into_some. eexists. split; [done|].
      eexists. split; [done|]. intros k Hk. rewrite lookup_union. apply Hm4 in Hk as [v ->].
      destruct (_ !! k); simpl; eauto.
    + intros e Hsm. destruct sm as [|e0 sm]; [done|]. injection Hsm as ->.
      destruct (Hev 0 e eq_refl) as (s & d & Hsg & Hd & H). intros i r4 o4 r4' s4 Hr4 He4.
      destruct (H _ _ _ _ _ Hr4 He4) as [? Ho]. split; [done|]. destruct o4; try done. simpl in *.
      destruct segs as [|s1 segs]; [done|]. injection Hsg as ->. eauto 10.
    + intros e Hsm. destruct sm as [|e0 sm]; [by apply elem_of_nil in Hsm|]. simpl in Hsm.
      apply elem_of_list_lookup in Hsm as [j Hj].
      destruct (Hev (S j) e Hj) as (s & d & Hsg & Hd & H). intros i r4 o4 r4' s4 Hr4 He4.
      destruct (H _ _ _ _ _ Hr4 He4) as [? Ho]. split; [done|]. destruct o4; try done. simpl in Ho |- *.
      destruct (_ =s _); [done|].
      destruct segs as [|s1 segs]; [done|]. simpl in Hsg. apply elem_of_list_lookup_2 in Hsg. eauto 10.
Qed.
