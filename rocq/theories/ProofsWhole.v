(** Whole-model results: lifecycle errors, panics, the frame of the row. *)
From Verif Require Import Base Strconv Value Doc Expr Pred Tree Regression Model Lib
  SpecPred ProofsPred SpecExpr ProofsExpr SpecConstruct ProofsConstruct ProofsRange
  SpecTree ProofsTree ProofsOutput ProofsEval ProofsDoc ProofsSafe.

(** ** Node evaluation never returns an error *)

Lemma first_true_err {A} (f : A → res (list score * presult)) d l e :
  first_true f d l = Err e → ∃ a, a ∈ l ∧ f a = Err e.
Proof.
  induction l as [|a l IH]; simpl; [done|].
  intros [H|([s v] & Hv & H)]%rbind_err; [set_solver|].
  destruct v; try done; destruct (IH H) as (b & ? & ?); exists b; set_solver.
Qed.

Lemma first_known_err {A} (f : A → res (list score * presult)) d l e :
  first_known f d l = Err e → ∃ a, a ∈ l ∧ f a = Err e.
Proof.
  induction l as [|a l IH]; simpl; [done|].
  intros [H|([s v] & Hv & H)]%rbind_err; [set_solver|].
  destruct v; try done; destruct (IH H) as (b & ? & ?); exists b; set_solver.
Qed.

Section no_err.
  Context (E : Ext) (cx : tctx) (r : datarow).

  Lemma eval_none_no_err n e : eval_none E cx r n ≠ Err e.
  Proof.
    revert e. induction n as [id dc cs ds t sc IH] using node_rect'. intros e. simpl.
    intros [H|(v & Hv & H)]%rbind_err; [by apply run_test_no_err in H|].
    destruct v; try done. apply first_true_err in H as (c & Hc & H).
    rewrite Forall_forall in IH. by eapply IH.
  Qed.

  Lemma eval_null_no_err n e : eval_null E cx r n ≠ Err e.
  Proof.
    revert e. induction n as [id dc cs ds t sc IH] using node_rect'. intros e. simpl.
    intros [H|(v & Hv & H)]%rbind_err; [by apply run_test_no_err in H|].
    destruct v; try done. apply first_known_err in H as (c & Hc & H).
    rewrite Forall_forall in IH. by eapply IH.
  Qed.

  Lemma eval_last_no_err n e : eval_last E cx r n ≠ Err e.
  Proof.
    revert e. induction n as [id dc cs ds t sc IH] using node_rect'. intros e. simpl.
    intros [H|(v & Hv & H)]%rbind_err; [by apply run_test_no_err in H|].
    rewrite Forall_forall in IH.
    destruct v; try done;
      (apply rbind_err in H as [H|(rs & Hrs & H)];
       [apply rmap_err in H as (c & Hc & H); by eapply IH|repeat case_match; done]).
  Qed.

  Lemma eval_default_no_err n e : eval_default E cx r n ≠ Err e.
  Proof.
    revert e. induction n as [id dc cs ds t sc IH] using node_rect'. intros e. simpl.
    intros [H|(v & Hv & H)]%rbind_err; [by apply run_test_no_err in H|].
    rewrite Forall_forall in IH.
    destruct v; try done;
      (apply rbind_err in H as [H|(rs & Hrs & H)];
       [apply rmap_err in H as (c & Hc & H); by eapply IH|repeat case_match; done]).
  Qed.

  Lemma eval_weighted_no_err tk n e : eval_weighted E cx r tk n ≠ Err e.
  Proof.
    revert tk e. induction n as [id dc cs ds t sc IH] using node_rect'. intros tk e. simpl.
    intros [H|(v & Hv & H)]%rbind_err; [by apply run_test_no_err in H|].
    rewrite Forall_forall in IH.
    destruct v; try done;
      (apply rbind_err in H as [H|(rs & Hrs & H)];
       [apply rmapi_err in H as (j & c & Hc & H); by eapply IH|repeat case_match; done]).
  Qed.

  Lemma eval_aggregate_no_err tk n e : eval_aggregate E cx r tk n ≠ Err e.
  Proof.
    revert tk e. induction n as [id dc cs ds t sc IH] using node_rect'. intros tk e. simpl.
    intros [H|(v & Hv & H)]%rbind_err; [by apply run_test_no_err in H|].
    rewrite Forall_forall in IH.
    destruct v; try done;
      (apply rbind_err in H as [H|(rs & Hrs & H)];
       [apply rmapi_err in H as (j & c & Hc & H); by eapply IH|repeat case_match; done]).
  Qed.

  Lemma node_evaluate_no_err st tk n e : node_evaluate E cx st r tk n ≠ Err e.
  Proof.
    unfold node_evaluate. repeat case_match;
      auto using eval_none_no_err, eval_null_no_err, eval_last_no_err, eval_default_no_err,
        eval_weighted_no_err, eval_aggregate_no_err.
  Qed.
End no_err.

(** ** Errors of the other parts *)

Lemma get_raw_value_err E dt s e : get_raw_value E dt s = Err e → ¬ lifecycle_error e.
Proof. unfold get_raw_value. intros H [-> | ->]; repeat case_match; done. Qed.

Lemma handle_expr_err E e r x : handle_expr E e r = Err x → ¬ lifecycle_error x.
Proof.
  revert x. induction e as [f m|dt v|fn d m args IH|a b c d e f|k] using expr_rect'; intros x.
  - done.
  - simpl. unfold handle_constant. intros H [-> | ->]; repeat case_match; done.
  - destruct (decide (fn = "sum")) as [->|Hsum].
    { rewrite handle_sum. generalize fzero. induction IH as [|a args Ha _ IHa]; intros s; simpl; [done|].
      intros [H|(v & Hv & H)]%rbind_err; [by apply Ha in H|by apply IHa in H]. }
    destruct (arith_meaning fn) as [op|] eqn:Har.
    { rewrite (handle_arith _ _ _ _ _ _ _ Har).
      destruct args as [|a [|b [|c args]]]; try (intros [= <-] [? | ?]; done).
      apply Forall_cons in IH as [Ha IH]. apply Forall_cons in IH as [Hb _].
      intros [H|(v & Hv & H)]%rbind_err; [by apply Ha in H|].
      apply rbind_err in H as [H|(w & Hw & H)]; [by apply Hb in H|done]. }
    simpl. apply String.eqb_neq in Hsum as ->.
    assert (is_arith fn = false) as ->.
    { unfold arith_meaning in Har. unfold is_arith. 
      repeat case_str_in Har; repeat case_str; done. }
    repeat case_str; try (intros [= <-] [? | ?]; done).
    + destruct args as [|a [|b args]]; try (intros [= <-] [? | ?]; done).
      apply Forall_cons in IH as [Ha _].
      intros [H|(v & Hv & H)]%rbind_err; [by apply Ha in H|done].
    + destruct args as [|a [|b args]]; try (intros [= <-] [? | ?]; done).
      apply Forall_cons in IH as [Ha _].
      intros [H|(v & Hv & H)]%rbind_err; [by apply Ha in H|done].
    + destruct args as [|c [|a [|b [|? args]]]]; try (intros [= <-] [? | ?]; done).
      apply Forall_cons in IH as [Hc IH]. apply Forall_cons in IH as [Ha IH].
      apply Forall_cons in IH as [Hb _].
      intros [H|(v & Hv & H)]%rbind_err; [by apply Hc in H|].
      destruct (val_bool v); [by apply Ha in H|by apply Hb in H].
  - simpl. unfold handle_map_values. repeat case_match; try done.
    + apply get_raw_value_err.
    + intros [= <-] [?|?]; done.
  - simpl. intros [= <-] [?|?]; done.
Qed.

Lemma handle_input_err E lt r x r' :
  handle_input E lt r = (Err x, r') → ¬ lifecycle_error x.
Proof.
  revert r. induction lt as [|df lt IH]; intros r; simpl; [done|].
  destruct (handle_expr E (df_expr df) r) as [v|y|p] eqn:Hv; [| |done].
  - destruct (dr_set r _ _) as [r1|y|p] eqn:Hs; [apply IH| |done].
    unfold dr_set in Hs. by destruct r.
  - intros [= <- <-]. by eapply handle_expr_err.
Qed.

Lemma linear_form_err E y ps r x :
  linear_form E y ps r = Err x → ∃ n, x = EMissingTerm n.
Proof.
  revert y. induction ps as [|p ps IH]; intros y; simpl; [done|]. case_match; [apply IH|naive_solver].
Qed.

Lemma normalize_err E m t x : normalize E m t = Err x → x = ENormalization m.
Proof. unfold normalize. repeat case_match; naive_solver. Qed.

Lemma binary_form_err E m y ps r x :
  binary_form E m y ps r = Err x → (∃ n, x = EMissingTerm n) ∨ x = ENormalization m.
Proof.
  revert y. induction ps as [|p ps IH]; intros y; simpl; [done|]. case_match; [|naive_solver].
  intros [Hx%normalize_err|(z & Hz & Hx)]%rbind_err; [by right|by eapply IH].
Qed.

Lemma binary_tables_err E m r f out ts x :
  binary_tables E m r f out ts = Err x → ¬ lifecycle_error x.
Proof.
  revert f out. induction ts as [|t ts IH]; intros f out; simpl; [done|].
  intros [H|(z & Hz & H)]%rbind_err; [|by eapply IH].
  case_match; [|done]. apply binary_form_err in H as [[n ->]| ->]; intros [?|?]; done.
Qed.

Lemma multi_out_err E m ys out l x : multi_out E m ys out l = Err x → x = ENormalization m.
Proof.
  revert out. induction l as [|[t y] l IH]; intros out; simpl; [done|].
  repeat case_match; [apply IH..|naive_solver].
Qed.

Lemma regr_evaluate_err E m r x : regr_evaluate E m r = Err x → ¬ lifecycle_error x.
Proof.
  unfold regr_evaluate. destruct (rm_function m =s "regression"); [|destruct (rm_function m =s "classification")].
  - unfold eval_regression. destruct (rm_tables m) as [|t [|? ?]]; try (intros [= <-] [?|?]; done).
    destruct (rm_output m) as [|o [|? ?]]; try (intros [= <-] [?|?]; done).
    intros [[n ->]%linear_form_err|(y & Hy & H)]%rbind_err; [intros [?|?]; done|].
    apply rbind_err in H as [->%normalize_err|(z & Hz & H)]; [intros [?|?]; done|done].
  - simpl. destruct (Nat.eqb _ _); [apply binary_tables_err|].
    unfold eval_multiclass. intros [H|(ys & Hys & H)]%rbind_err.
    + apply rmap_err in H as (t & Ht & [n ->]%linear_form_err). intros [?|?]; done.
    + apply multi_out_err in H as ->. intros [?|?]; done.
  - simpl. intros [= <-] [?|?]; done.
Qed.

Lemma regr_evaluate_no_panic E m r p : regr_evaluate E m r ≠ Panic p.
Proof.
  assert (Hl : ∀ y ps p, linear_form E y ps r ≠ Panic p).
  { intros y ps. revert y. induction ps as [|q ps IH]; intros y p'; simpl; [done|]. case_match; done. }
  assert (Hn : ∀ m t p, normalize E m t ≠ Panic p).
  { intros m' t p'. unfold normalize. repeat case_match; done. }
  assert (Hb : ∀ m y ps p, binary_form E m y ps r ≠ Panic p).
  { intros m' y ps. revert y. induction ps as [|q ps IH]; intros y p'; simpl; [done|].
    case_match; [|done]. intros [Hx|(z & Hz & Hx)]%rbind_panic; [by apply Hn in Hx|by apply IH in Hx]. }
  unfold regr_evaluate. destruct (_ =s _); [|destruct (_ && _); [|destruct (_ =s _)]].
  - unfold eval_regression. repeat case_match; try done.
    intros [Hx|(y & Hy & Hx)]%rbind_panic; [by apply Hl in Hx|].
    apply rbind_panic in Hx as [Hx|(z & Hz & Hx)]; [by apply Hn in Hx|done].
  - unfold eval_binary. generalize fone, (∅ : row).
    induction (rm_tables m) as [|t ts IH]; intros f out; simpl; [done|].
    intros [Hx|(z & Hz & Hx)]%rbind_panic; [|by eapply IH].
    case_match; [by apply Hb in Hx|done].
  - unfold eval_multiclass. intros [Hx|(ys & Hys & Hx)]%rbind_panic.
    + apply rmap_panic in Hx as (t & Ht & Hx). by apply Hl in Hx.
    + revert Hx. generalize (∅ : row).
      generalize (zip ((λ t, default "" (out_fields (rm_output m) !! rt_category t)) <$> rm_tables m) ys).
      intros l. induction l as [|[t y] l IH]; intros out; simpl; [done|].
      repeat case_match; try done; apply IH.
  - done.
Qed.

Lemma report_err E fn tg scores x : report E fn tg scores = Err x → ¬ lifecycle_error x.
Proof. unfold report. repeat case_match; try done. intros [= <-] [?|?]; done. Qed.

(** ** What the evaluators of a document come from *)

Fixpoint doc_trees (d : doc_model) : list tree_model :=
  match d with
  | DTree t => [t]
  | DMining _ segs => concat (map (λ s, concat (map doc_trees (sg_models s))) segs)
  | _ => []
  end.

Fixpoint doc_headers (d : doc_model) : list mining_header :=
  match d with
  | DMining h segs => h :: concat (map (λ s, concat (map doc_headers (sg_models s))) segs)
  | _ => []
  end.

Fixpoint doc_regrs (d : doc_model) : list regr_model :=
  match d with
  | DRegr r => [r]
  | DMining _ segs => concat (map (λ s, concat (map doc_regrs (sg_models s))) segs)
  | _ => []
  end.

(** a mining evaluator built from header [h] *)
Definition mining_of (dd : list data_field) (h : mining_header) (m : emining) : Prop :=
  ∃ td segs, m = built_mining dd td h segs.

Lemma all_model_impl (PT PT' : etree → Prop) (PM PM' : emining → Prop) (PR PR' : eregr → Prop) e :
  (∀ t, PT t → PT' t) → (∀ h, PM h → PM' h) → (∀ x, PR x → PR' x) →
  all_model PT PM PR e → all_model PT' PM' PR' e.
Proof.
  intros H1 H2 H3. induction e as [t|x|h sm IH] using emodel_rect'; [apply H1|apply H3|].
  rewrite !all_model_mining. intros [Hh Hsm]. split; [auto|].
  rewrite Forall_forall in *. auto.
Qed.

Lemma new_model_all E dd td d e td' :
  new_model E dd td d = (Ok e, td') →
  all_model (λ te, ∃ td t, t ∈ doc_trees d ∧ tree_of E dd td t te)
            (λ m, ∃ h, h ∈ doc_headers d ∧ mining_of dd h m)
            (λ x, er_model x ∈ doc_regrs d) e.
Proof.
  revert td e td'. induction d as [t|r|k|h segs IH] using doc_rect'; intros td e td'.
  - intros (te & -> & H)%new_model_tree_of. simpl. exists td, t. split; [set_solver|done].
  - simpl. intros [= <- <-]. simpl. set_solver.
  - done.
  - intros (sm & -> & Hs & _)%new_model_mining_inv. rewrite all_model_mining. split.
    + exists h. split; [simpl; set_solver|]. by exists td, segs.
    + revert Hs. generalize (td ++ mm_lt h). intros td1 Hs.
      assert (Hg : ∀ segs0, (∀ s, s ∈ segs0 → s ∈ segs) →
        ∀ td1 sm, built_segments E dd td1 segs0 sm td' →
        Forall (all_model (λ te, ∃ td t, t ∈ doc_trees (DMining h segs) ∧ tree_of E dd td t te)
            (λ m, ∃ h', h' ∈ doc_headers (DMining h segs) ∧ mining_of dd h' m)
            (λ x, er_model x ∈ doc_regrs (DMining h segs))) sm); [|by eapply (Hg segs)].
      clear Hs td1 sm. intros segs0 Hsub td1 sm Hs.
      induction Hs as [|td1 s segs' d e es td2 td3 Hd He Hs IHs]; [constructor|].
      constructor; [|apply IHs; intros; apply Hsub; by right].
      assert (s ∈ segs) as Hin by (apply Hsub; by left).
      rewrite Forall_forall in IH. specialize (IH s Hin). rewrite Hd in IH.
      apply Forall_cons in IH as [IH _]. apply IH in He. eapply all_model_impl; [..|exact He].
      * intros te (td4 & t & Ht & Hte). exists td4, t. split; [|done]. simpl.
        apply elem_of_concat_map. exists s. split; [done|]. rewrite Hd. simpl. by rewrite app_nil_r.
      * intros m (h' & Hh & Hm). exists h'. split; [|done]. simpl. right.
        apply elem_of_concat_map. exists s. split; [done|]. rewrite Hd. simpl. by rewrite app_nil_r.
      * intros x Hx. simpl. apply elem_of_concat_map. exists s. split; [done|]. rewrite Hd. simpl. by rewrite app_nil_r.
Qed.

(** ** Lifecycle errors *)

(** the evaluator after a sequence of Evaluate calls *)
Definition after (E : Ext) (calls : list (ticket * datarow)) (e : emodel) : emodel :=
  foldl (λ e c, (evaluate E c.1 e c.2).2) e calls.

Definition ready (E : Ext) : emodel → Prop :=
  all_model (λ te, ∃ dd td t, tree_of E dd td t te)
            (λ h, em_validated h = true ∧ em_compiled h = true) (λ _, True).

Lemma new_model_ready E dd td d e td' : new_model E dd td d = (Ok e, td') → ready E e.
Proof.
  intros H%new_model_all. eapply all_model_impl; [..|exact H]; [naive_solver| |done].
  by intros h (hd & _ & td1 & segs & ->).
Qed.

Lemma tree_err E tk te r x r' e' :
  tree_evaluate E tk te r = (Err x, r', e') → et_validated te = true → et_compiled te = true →
  ¬ lifecycle_error x.
Proof.
  intros H Hv Hc. rewrite tree_evaluate_run in H by done.
  destruct (handle_input _ _ _) as [[u|y|p] r1] eqn:Hi; simplify_eq; [|by eapply handle_input_err].
  destruct (node_evaluate _ _ _ _ _ _) as [[scores v]|y|p] eqn:Hn; [|by apply node_evaluate_no_err in Hn|done].
  destruct v; simplify_eq. unfold tree_output in H.
  destruct (_ =s "classification"); [by destruct (foldl _ _ _)|].
  destruct (_ =s "regression"); [|done].
  destruct scores as [|s ?]; [done|]. destruct (ext_parse_float _ _); [done|].
  simplify_eq. intros [?|?]; done.
Qed.

Lemma ready_evaluate E tk e r o r' e' :
  ready E e → evaluate E tk e r = (o, r', e') →
  ready E e' ∧ ∀ x, o = Err x → ¬ lifecycle_error x.
Proof.
  intros He H.
  assert (ready E e' ∧ True ∧ good (λ _, True) (λ x, ¬ lifecycle_error x) (λ _, True) o) as (? & _ & Ho).
  { eapply (evaluate_rule E _ _ _ (λ _, True)); [..|exact He|done|exact H].
    - clear. intros tk t r o r' t' (dd & td & d & Ht) _ H. split; [|split; [done|]].
      + exists dd, td, d. by eapply tree_of_stable.
      + destruct o; simpl; try done. destruct Ht as (? & ? & _). by eapply tree_err.
    - intros x r0 _ _. destruct (regr_evaluate _ _ _) eqn:Hr; simpl; try done.
      by eapply regr_evaluate_err.
    - done.
    - intros tk0 h r0 _ _. destruct r0 as [m|].
      + by rewrite impute_some.
      + rewrite impute_none. by destruct (decide _).
    - intros h r0 o0 r0' _ _ Hi. split; [done|]. destruct o0; try done. by eapply handle_input_err.
    - intros h _ _ tk0 out r0 _ _. destruct r0 as [m|].
      + by rewrite copy_into_some.
      + rewrite copy_into_none. by destruct (decide _).
    - intros [?|?]; done.
    - intros s [?|?]; done.
    - done.
    - done. }
  split; [done|]. by intros x ->.
Qed.

Lemma ready_after E calls e : ready E e → ready E (after E calls e).
Proof.
  revert e. induction calls as [|[tk r] calls IH]; intros e He; [done|]. simpl. apply IH.
  destruct (evaluate E tk e r) as [[o r'] e'] eqn:H. by eapply ready_evaluate.
Qed.

Lemma no_lifecycle_error E dd td d e td' calls tk r x r' e' :
  new_model E dd td d = (Ok e, td') →
  evaluate E tk (after E calls e) r = (Err x, r', e') → ¬ lifecycle_error x.
Proof.
  intros Hn H. eapply ready_evaluate in H as [_ H]; [by eapply H|].
  by eapply ready_after, new_model_ready.
Qed.

Lemma zero_tree E tk te r :
  et_validated te = false → evaluate E tk (ETree te) r = (Err ENotValidated, r, ETree te).
Proof. intros H. simpl. unfold tree_evaluate. by rewrite H. Qed.

Lemma zero_mining E tk h sm r :
  em_validated h = false → evaluate E tk (EMining h sm) r = (Err ENotValidated, r, EMining h sm).
Proof. intros H. simpl. by rewrite H. Qed.

(** ** Panics *)

(** Trees that cannot panic: every node has a predicate, and a regression tree
    has a score to report at every node and does not use default children. *)
Definition steady_tree (dd : list data_field) (t : tree_model) : Prop :=
  everywhere_doc has_pred (tm_node t) ∧
  (tm_function t = "regression" →
     tm_strategy t ≠ "defaultChild" ∧
     everywhere_doc (λ m, doc_dist dd (target_field (tm_schema t)) (tm_notrue t) m ≠ []) (tm_node t)).

Lemma tree_of_no_panic E dd td t te tk m p r' e' :
  tree_of E dd td t te → steady_tree dd t →
  tree_evaluate E tk te (Some m) ≠ (Panic p, r', e').
Proof.
  intros Ht [Hp Hr] H.
  destruct (handle_input E (tm_lt t) (Some m)) as [[[]|x|q] r1] eqn:Hi.
  2:{ destruct Ht as (Hv & Hc & _ & _ & _ & _ & Hlt & _). rewrite tree_evaluate_run in H by done.
      by rewrite Hlt, Hi in H. }
  2:{ by apply handle_input_no_panic in Hi. }
  pose proof (tree_of_run _ _ _ _ _ tk _ _ Ht Hi) as Hrun. rewrite H in Hrun. simpl in Hrun.
  pose proof (doc_verdicts E dd td t te Ht r1 Hp) as Hv.
  destruct (node_evaluate_total E (doc_ctx dd td t) (tm_strategy t) r1 tk (et_root te) Hv)
    as [[s v] Hs]. rewrite Hs in Hrun. destruct v; try done.
  injection Hrun as Hrep _. unfold report in Hrep. case_decide; [done|].
  destruct s as [|s0 ss]; [|by destruct (ext_parse_float _ _)].
  pose proof Ht as (_ & _ & _ & _ & _ & _ & _ & Hn & Hf).
  destruct Hr as [Hst Hd]; [by destruct Hf|].
  eapply node_evaluate_filled in Hs; [done|done|].
  eapply (transport_everywhere m_nodes n_children (compiled_to E _)); [..|exact Hd|exact Hn].
  - intros a b. apply compiled_kids.
  - intros a b Hab Ha. by rewrite (doc_dist_of E dd td t _ _ Hab).
Qed.

Definition steady (E : Ext) (dd : list data_field) (ts : list tree_model) : emodel → Prop :=
  all_model (λ te, ∃ td t, t ∈ ts ∧ tree_of E dd td t te)
            (λ h, em_validated h = true ∧ em_compiled h = true) (λ _, True).

Lemma new_model_steady E dd td d e td' :
  new_model E dd td d = (Ok e, td') → steady E dd (doc_trees d) e.
Proof.
  intros H%new_model_all. eapply all_model_impl; [..|exact H]; [naive_solver| |done].
  by intros h (hd & _ & td1 & segs & ->).
Qed.

Lemma steady_evaluate E dd ts tk e m o r' e' :
  Forall (steady_tree dd) ts → steady E dd ts e → evaluate E tk e (Some m) = (o, r', e') →
  steady E dd ts e' ∧ (∃ m', r' = Some m') ∧ ∀ p, o ≠ Panic p.
Proof.
  intros Hts He H.
  assert (steady E dd ts e' ∧ (∃ m', r' = Some m') ∧
          good (λ _, True) (λ x, True) (λ _, False) o) as (? & ? & Ho).
  { eapply (evaluate_rule E _ _ _ (λ r, ∃ m, r = Some m)); [..|exact He|by eauto|exact H].
    - clear - Hts. intros tk t r o r' t' (td & d & Hd & Ht) [m ->] H. split; [|split].
      + exists td, d. split; [done|]. by eapply tree_of_stable.
      + destruct Ht as (Hv & Hc & _). rewrite tree_evaluate_run in H by done.
        destruct (handle_input _ _ _) as [o1 r1] eqn:Hi.
        destruct (handle_input_ok_some _ _ _ _ _ Hi) as [m1 ->].
        repeat case_match; simplify_eq; eauto.
      + destruct o; simpl; try done. rewrite Forall_forall in Hts.
        by eapply tree_of_no_panic in H; [|done|apply Hts].
    - intros x r0 _ _. destruct (regr_evaluate _ _ _) eqn:Hr; simpl; try done.
      by eapply regr_evaluate_no_panic.
    - done.
    - intros tk0 h r0 _ [m0 ->]. rewrite impute_some. eauto.
    - intros h r0 o0 r0' _ [m0 ->] Hi. split; [by eapply handle_input_ok_some|].
      destruct o0; try done. by eapply handle_input_no_panic.
    - intros h _ _ tk0 out r0 _ [m0 ->]. rewrite copy_into_some. eauto.
    - done.
    - done.
    - done.
    - done. }
  split; [done|]. split; [done|]. by intros p ->.
Qed.

Lemma steady_after E dd ts calls e :
  Forall (steady_tree dd) ts → Forall (λ c : ticket * datarow, is_Some c.2) calls →
  steady E dd ts e → steady E dd ts (after E calls e).
Proof.
  intros Hts. revert e. induction calls as [|[tk r] calls IH]; intros e Hc He; [done|]. simpl.
  apply Forall_cons in Hc as [[m Hm] Hc]. simpl in Hm. subst. apply IH; [done|].
  destruct (evaluate E tk e (Some m)) as [[o r'] e'] eqn:H. by eapply steady_evaluate.
Qed.

Lemma whole_no_panic E dd td d e td' calls tk m p r' e' :
  new_model E dd td d = (Ok e, td') →
  Forall (steady_tree dd) (doc_trees d) →
  Forall (λ c : ticket * datarow, is_Some c.2) calls →
  evaluate E tk (after E calls e) (Some m) ≠ (Panic p, r', e').
Proof.
  intros Hn Hts Hc H. eapply steady_evaluate in H as (_ & _ & H); [by eapply H|done|].
  apply steady_after; [done|done|]. by eapply new_model_steady.
Qed.
