(** Proofs about other names for classes. *)
From Verif Require Import Base Strconv Value Doc Expr Pred Tree Regression Model Lib
  SpecPred ProofsPred SpecExpr ProofsExpr SpecConstruct ProofsConstruct ProofsRange
  SpecTree ProofsTree ProofsOutput ProofsEval ProofsDoc ProofsSafe ProofsWhole ProofsSim
  SpecEssence ProofsEssence SpecEquiv ProofsEquiv ProofsPrune SpecLabels.

Definition lab (σ : string → string) (s : score) : score := Score (σ (sc_value s)) (sc_conf s) (sc_prob s) (sc_count s).
Definition lab_answer (σ : string → string) (o : res (list score * presult)) : res (list score * presult) :=
  match o with Ok (s, v) => Ok (lab σ <$> s, v) | Err e => Err e | Panic p => Panic p end.
Fixpoint lab_node (σ : string → string) (n : node) : node :=
  match n with Node id dc cs ds t sc => Node id dc (lab_node σ <$> cs) (lab σ <$> ds) t (lab σ sc) end.

Section labels.
  Context (σ : string → string) (Hinj : ∀ a b, σ a = σ b → a = b) (Hempty : σ "" = "").

  Lemma total_relabel l : ∀ a, foldl (λ acc sc, fadd acc (sd_count sc)) a (relabel_dist σ <$> l) = foldl (λ acc sc, fadd acc (sd_count sc)) a l.
  Proof. induction l as [|d l IH]; intros a; [done|]. cbn. apply IH. Qed.
  Lemma convert_relabel l : convert_dists (relabel_dist σ <$> l) = lab σ <$> convert_dists l.
  Proof.
    unfold convert_dists, total_records. rewrite total_relabel. rewrite <- !list_fmap_compose. by apply list_fmap_ext.
  Qed.

  Lemma new_node_relabel E ft m : ∀ n, new_node E ft m = Ok n → new_node E ft (relabel_node σ m) = Ok (lab_node σ n).
  Proof.
    induction m as [id dc sc c ds ns p IH] using mnode_rect'. intros n. cbn [new_node relabel_node].
    intros (cs & Hcs & (q & -> & [= <-])%rbind_ok)%rbind_ok.
    assert (rmap (new_node E ft) (relabel_node σ <$> ns) = Ok (lab_node σ <$> cs)) as ->.
    { clear -IH Hcs. revert cs Hcs. induction ns as [|m ns IHns]; intros cs Hcs.
      { simpl in Hcs. by injection Hcs as <-. }
      apply Forall_cons in IH as [Hm IH]. cbn [rmap] in Hcs. apply rbind_ok in Hcs as (x & Hx & (xs & Hxs & [= <-])%rbind_ok).
      rewrite !fmap_cons. cbn [rmap]. by rewrite (Hm _ Hx), (IHns IH _ Hxs). }
    cbn [rbind lab_node]. by rewrite convert_relabel.
  Qed.

  Context (E : Ext) (cx1 cx2 : tctx) (r : datarow).
  Context (Hft : cx_ft cx2 = cx_ft cx1) (Htg : cx_target cx2 = cx_target cx1) (Hpen : cx_penalty cx2 = cx_penalty cx1)
    (Hnt : cx_notrue cx2 = cx_notrue cx1)
    (Hval : target_values (cx_dd cx2) (cx_target cx1) = σ <$> target_values (cx_dd cx1) (cx_target cx1)).

  Lemma output_dist_lab n : output_dist cx2 (lab_node σ n) = lab σ <$> output_dist cx1 n.
  Proof.
    rewrite !output_dist_values. destruct n as [id dc cs ds t sc]. cbn [lab_node]. rewrite !fmap_length, Hnt, Htg.
    destruct (_ && _); [done|]. destruct (Nat.ltb _ _); [done|]. destruct (negb _); [|done].
    rewrite Hval, <- !list_fmap_compose. apply list_fmap_ext. intros i v. simpl.
    destruct (String.eqb_spec v (sc_value sc)) as [->|Hv]; [by rewrite String.eqb_refl|].
    destruct (String.eqb_spec (σ v) (σ (sc_value sc))) as [Hv'|_]; [by apply Hinj in Hv'|done].
  Qed.

  Lemma first_true_lab (f g : node → res (list score * presult)) d v cs :
    Forall (λ c, g (lab_node σ c) = lab_answer σ (f c)) cs →
    first_true g (lab σ <$> d, v) (lab_node σ <$> cs) = lab_answer σ (first_true f (d, v) cs).
  Proof.
    induction 1 as [|c cs Hc _ IH]; [done|]. rewrite fmap_cons. cbn [first_true]. rewrite Hc.
    destruct (f c) as [[s w]| |]; cbn [lab_answer rbind]; try done. destruct w; try done; exact IH.
  Qed.
  Lemma first_known_lab (f g : node → res (list score * presult)) d v cs :
    Forall (λ c, g (lab_node σ c) = lab_answer σ (f c)) cs →
    first_known g (lab σ <$> d, v) (lab_node σ <$> cs) = lab_answer σ (first_known f (d, v) cs).
  Proof.
    induction 1 as [|c cs Hc _ IH]; [done|]. rewrite fmap_cons. cbn [first_known]. rewrite Hc.
    destruct (f c) as [[s w]| |]; cbn [lab_answer rbind]; try done. destruct w; try done; exact IH.
  Qed.
  Notation lab_pair := (λ x : list score * presult, (lab σ <$> x.1, x.2)).
  Lemma rmap_lab (f g : node → res (list score * presult)) cs :
    Forall (λ c, g (lab_node σ c) = lab_answer σ (f c)) cs →
    rmap g (lab_node σ <$> cs) = match rmap f cs with Ok rs => Ok (lab_pair <$> rs) | Err e => Err e | Panic p => Panic p end.
  Proof.
    induction 1 as [|c cs Hc _ IH]; [done|]. rewrite fmap_cons. cbn [rmap]. rewrite Hc, IH.
    destruct (f c) as [[s w]| |]; cbn [lab_answer rbind]; try done. by destruct (rmap f cs).
  Qed.
  Lemma scan_lab rs : ∀ u d, foldl scan_step (u, lab σ <$> d) (lab_pair <$> rs) =
    let '(u', d') := foldl scan_step (u, d) rs in (u', lab σ <$> d').
  Proof. induction rs as [|[s v] rs IH]; intros u d; [done|]. rewrite fmap_cons. cbn [foldl scan_step fst snd]. destruct v; apply IH. Qed.
  Lemma scores_lab (cs : list node) : ∀ (rs : list (list score * presult)) (m : gmap string (list score)),
    foldl (λ (m : gmap string (list score)) '(c, x), <[n_id c := x.1]> m)
      ((λ d : list score, lab σ <$> d) <$> m) (zip (lab_node σ <$> cs) (lab_pair <$> rs)) =
    (λ d : list score, lab σ <$> d) <$> foldl (λ (m : gmap string (list score)) '(c, x), <[n_id c := x.1]> m) m (zip cs rs).
  Proof.
    induction cs as [|c cs IH]; intros [|x rs] m; try done. rewrite !fmap_cons. cbn [zip zip_with foldl fst].
    rewrite <- IH. f_equal. rewrite fmap_insert. by destruct c.
  Qed.

  Lemma eval_none_lab n : eval_none E cx2 r (lab_node σ n) = lab_answer σ (eval_none E cx1 r n).
  Proof.
    induction n as [id dc cs ds t sc IH] using node_rect'. pose proof (output_dist_lab (Node id dc cs ds t sc)) as Hd.
    cbn [lab_node] in Hd |- *. cbn [eval_none]. rewrite Hft, Hd.
    destruct (run_test _ _ _ _) as [[| |]| |]; cbn [rbind lab_answer]; try done. by apply first_true_lab.
  Qed.
  Lemma eval_null_lab n : eval_null E cx2 r (lab_node σ n) = lab_answer σ (eval_null E cx1 r n).
  Proof.
    induction n as [id dc cs ds t sc IH] using node_rect'. pose proof (output_dist_lab (Node id dc cs ds t sc)) as Hd.
    cbn [lab_node] in Hd |- *. cbn [eval_null]. rewrite Hft, Hd.
    destruct (run_test _ _ _ _) as [[| |]| |]; cbn [rbind lab_answer]; try done. by apply first_known_lab.
  Qed.
  Lemma eval_last_lab n : eval_last E cx2 r (lab_node σ n) = lab_answer σ (eval_last E cx1 r n).
  Proof.
    induction n as [id dc cs ds t sc IH] using node_rect'. pose proof (output_dist_lab (Node id dc cs ds t sc)) as Hd.
    cbn [lab_node] in Hd |- *. cbn [eval_last]. rewrite Hft, Hd, (rmap_lab _ _ _ IH).
    destruct (run_test _ _ _ _) as [[| |]| |]; cbn [rbind lab_answer]; try done.
    all: destruct (rmap _ cs) as [rs| |]; cbn [rbind]; try done.
    all: pose proof (scan_lab rs false []) as Hs; cbn [fmap list_fmap] in Hs; rewrite Hs; clear Hs.
    all: destruct (foldl scan_step (false, []) rs) as [u d]; rewrite fmap_length; by destruct (_ && _).
  Qed.
  Lemma adjust_lab p (ds : list score) : adjust p <$> (lab σ <$> ds) = lab σ <$> (adjust p <$> ds).
  Proof. rewrite <- !list_fmap_compose. by apply list_fmap_ext. Qed.
  Lemma eval_default_lab n : eval_default E cx2 r (lab_node σ n) = lab_answer σ (eval_default E cx1 r n).
  Proof.
    induction n as [id dc cs ds t sc IH] using node_rect'. pose proof (output_dist_lab (Node id dc cs ds t sc)) as Hd.
    cbn [lab_node] in Hd |- *. cbn [eval_default]. rewrite Hft, Hd, Hpen, (rmap_lab _ _ _ IH).
    destruct (run_test _ _ _ _) as [[| |]| |]; cbn [rbind lab_answer]; try done.
    all: destruct (rmap _ cs) as [rs| |]; cbn [rbind]; try done.
    all: pose proof (scan_lab rs false []) as Hs; cbn [fmap list_fmap] in Hs; rewrite Hs; clear Hs.
    all: pose proof (scores_lab cs rs ∅) as Hs; rewrite fmap_empty in Hs; rewrite Hs; clear Hs.
    all: destruct (foldl scan_step (false, []) rs) as [u d]; rewrite fmap_length, lookup_fmap; destruct (_ && _); [done|].
    all: destruct u; [|done]. all: destruct (_ !! dc); cbn; [by rewrite adjust_lab|done].
  Qed.
  Lemma node_evaluate_lab st tk n : st ∉ ["aggregateNodes"; "weightedConfidence"] →
    node_evaluate E cx2 st r tk (lab_node σ n) = lab_answer σ (node_evaluate E cx1 st r tk n).
  Proof.
    intros [H1 [H2 _]%not_elem_of_cons]%not_elem_of_cons. unfold node_evaluate. repeat case_str; try done;
      auto using eval_null_lab, eval_default_lab, eval_last_lab, eval_none_lab.
  Qed.

  (** ** the answer *)
  Lemma pick_best_lab l : pick_best (lab σ <$> l) = lab σ (pick_best l).
  Proof.
    unfold pick_best. assert (Score "" fzero fzero fzero = lab σ (Score "" fzero fzero fzero)) as Hn by (unfold lab; simpl; by rewrite Hempty).
    rewrite Hn at 1. generalize (Score "" fzero fzero fzero) as b. induction l as [|s l IH]; intros b; [done|].
    rewrite fmap_cons. cbn [foldl lab sc_prob]. change (sc_prob (lab σ b)) with (sc_prob b). rewrite <- IH. by destruct (fltb _ _).
  Qed.

  Lemma rows_lab tg (l : list score) : (∀ c, tg ≠ prob_key c) → ∀ o1 o2 : row,
    relabelled σ tg o1 o2 →
    relabelled σ tg (foldl (λ o s, <[prob_key (sc_value s) := GF64 (sc_prob s)]> o) o1 l)
      (foldl (λ o s, <[prob_key (sc_value s) := GF64 (sc_prob s)]> o) o2 (lab σ <$> l)).
  Proof.
    intros Htk. induction l as [|s l IH]; intros o1 o2 H; [done|]. rewrite fmap_cons. cbn [foldl lab sc_value sc_prob].
    apply IH. destruct H as [(v & H1 & H2) H]. split.
    - exists v. by rewrite !lookup_insert_ne by done.
    - intros k x Hk. change probability_of with prob_key in *. destruct (decide (k = prob_key (σ (sc_value s)))) as [->|Hne].
      + rewrite lookup_insert. split.
        * intros [= <-]. exists (sc_value s). by rewrite lookup_insert.
        * intros (c & Hc%prob_key_inj%Hinj & Hx). rewrite <- Hc, lookup_insert in Hx. by injection Hx as <-.
      + rewrite lookup_insert_ne by done. rewrite H by done. split; intros (c & -> & Hx); exists c; (split; [done|]).
        * rewrite lookup_insert_ne; [done|]. intros Hc%prob_key_inj; by subst c.
        * rewrite lookup_insert_ne in Hx; [done|]. intros Hc%prob_key_inj; by subst c.
  Qed.
  Lemma class_row_lab tg l : (∀ c, tg ≠ prob_key c) → relabelled σ tg (class_row tg l) (class_row tg (lab σ <$> l)).
  Proof.
    intros Htk. unfold class_row. apply rows_lab; [done|]. rewrite pick_best_lab. split.
    - exists (sc_value (pick_best l)). by rewrite !lookup_singleton.
    - intros k x Hk. rewrite lookup_singleton_ne by done. split; [done|]. intros (c & _ & Hx).
      rewrite lookup_singleton_ne in Hx; [done|]. apply Htk.
  Qed.
End labels.

Lemma field_types_relabel σ tg dd td : field_types (relabel_dictionary σ tg dd) td = field_types dd td.
Proof.
  unfold field_types, relabel_dictionary. f_equal. generalize (∅ : fieldtypes) as ft.
  induction dd as [|f dd IH]; intros ft; [done|]. rewrite fmap_cons. cbn [foldl]. rewrite IH. by destruct (decide _).
Qed.
Lemma target_values_relabel σ tg dd : target_values (relabel_dictionary σ tg dd) tg = σ <$> target_values dd tg.
Proof.
  unfold target_values, relabel_dictionary. induction dd as [|f dd IH]; [done|]. rewrite fmap_cons, !filter_cons.
  destruct (decide (dd_name f = tg)) as [H|H].
  - rewrite decide_True by done. rewrite !fmap_cons. cbn [concat dd_values]. by rewrite fmap_app, IH.
  - by rewrite decide_False by done.
Qed.

Lemma relabel_answers σ E dd td t e td' :
  (∀ a b, σ a = σ b → a = b) → σ "" = "" → tm_function t = "classification" →
  tm_strategy t ∉ ["aggregateNodes"; "weightedConfidence"] → (∀ c, target_field (tm_schema t) ≠ probability_of c) →
  new_model E dd td (DTree t) = (Ok e, td') →
  ∃ e2, new_model E (relabel_dictionary σ (target_field (tm_schema t)) dd) td (DTree (relabel_tree σ t)) = (Ok e2, td') ∧
    ∀ tk r, (evaluate E tk e r).1.2 = (evaluate E tk e2 r).1.2 ∧
      answers_relabelled σ (target_field (tm_schema t)) (evaluate E tk e r).1.1 (evaluate E tk e2 r).1.1.
Proof.
  intros Hinj Hem Hfn Hst Htg. cbn [new_model]. unfold new_tree_model, tree_validate, relabel_tree, with_node.
  cbn [et_model tm_function et_dd et_ft et_root et_outkeys et_target et_compiled].
  destruct (_ && _); [done|].
  unfold tree_compile. cbn [et_model tm_lt tm_schema tm_node et_dd et_target et_validated et_compiled et_outkeys et_root
    tm_function tm_strategy tm_penalty tm_notrue tm_verification].
  rewrite mf_defaults_target, field_types_relabel.
  destruct (new_node E _ (tm_node t)) as [n1|x|p] eqn:H1; [|done..]. intros [= <- <-].
  rewrite (new_node_relabel σ _ _ _ _ H1). eexists. split; [done|]. intros tk r. cbn [evaluate]. unfold tree_evaluate.
  cbn [et_validated et_compiled negb et_model tm_lt tm_strategy tm_schema et_root].
  destruct (handle_input E (tm_lt t) r) as [[u|x|p] r']; [|by repeat split..].
  unfold tree_ctx. cbn [et_ft et_dd et_target et_model tm_penalty tm_notrue].
  match goal with |- context [node_evaluate E ?c2 (tm_strategy t) r' tk (lab_node σ n1)] =>
    match goal with |- context [node_evaluate E ?c1 (tm_strategy t) r' tk n1] =>
      rewrite (node_evaluate_lab σ Hinj E c1 c2 r' eq_refl eq_refl eq_refl eq_refl (target_values_relabel _ _ _) _ tk n1 Hst) end end.
  destruct (node_evaluate _ _ _ _ _ _) as [[s v]| |]; cbn [lab_answer]; [|by repeat split..].
  destruct v; [by repeat split| |by repeat split].
  match goal with |- context [tree_output E ?t1 s] => match goal with |- context [tree_output E ?t2 (lab σ <$> s)] =>
    pose proof (proj1 (tree_output_class E t1 s keys_ok_empty Hfn)) as O1;
    pose proof (proj1 (tree_output_class E t2 (lab σ <$> s) keys_ok_empty Hfn)) as O2;
    destruct (tree_output E t1 s) as [o1 k1], (tree_output E t2 (lab σ <$> s)) as [o2 k2] end end.
  cbn [fst snd] in *. subst o1 o2. split; [done|]. cbn [et_target answers_relabelled]. by apply class_row_lab.
Qed.

(** ** Regression models *)
Section regr_labels.
  Context (σ : string → string) (Hinj : ∀ a b, σ a = σ b → a = b).
  Notation lab_out := (λ o, OutputField (of_name o) (of_feature o) (σ (of_value o))).
  Notation lab_tbl := (λ t, RegrTable (rt_intercept t) (σ (rt_category t)) (rt_predictors t)).

  Lemma eqb_lab a b : (σ a =s σ b) = (a =s b).
  Proof.
    destruct (String.eqb_spec a b) as [->|Hn]; [apply String.eqb_refl|].
    destruct (String.eqb_spec (σ a) (σ b)) as [H|_]; [by apply Hinj in H|done].
  Qed.
  Lemma outputs_lab c (p : f64) os : ∀ out : row,
    foldl (λ out o, if σ c =s of_value o then <[of_name o := GF64 p]> out else out) out (lab_out <$> os) =
    foldl (λ out o, if c =s of_value o then <[of_name o := GF64 p]> out else out) out os.
  Proof.
    induction os as [|o os IH]; intros out; [done|]. rewrite fmap_cons. cbn [foldl of_value of_name]. rewrite eqb_lab. apply IH.
  Qed.
  Lemma binary_lab E m r ts : ∀ final out,
    binary_tables E (relabel_regr σ m) r final out (lab_tbl <$> ts) = binary_tables E m r final out ts.
  Proof.
    induction ts as [|t ts IH]; intros final out; [done|]. rewrite fmap_cons.
    cbn [binary_tables rt_predictors rt_intercept rt_category relabel_regr rm_norm rm_output].
    destruct (if Nat.ltb _ _ then _ else _) as [p| |]; cbn [rbind]; [|done..]. rewrite outputs_lab. apply IH.
  Qed.
  Lemma out_fields_lab os : ∀ (m1 m2 : gmap string string), (∀ c, m2 !! σ c = m1 !! c) →
    ∀ c, foldl (λ m o, <[of_value o := of_name o]> m) m2 (lab_out <$> os) !! σ c =
         foldl (λ m o, <[of_value o := of_name o]> m) m1 os !! c.
  Proof.
    induction os as [|o os IH]; intros m1 m2 Hm c; [apply Hm|]. rewrite fmap_cons. cbn [foldl of_value of_name].
    apply IH. intros x. destruct (decide (of_value o = x)) as [<-|Hn]; [by rewrite !lookup_insert|].
    rewrite !lookup_insert_ne by (try done; by intros ?%Hinj). apply Hm.
  Qed.
  Lemma relabel_regr_evaluate E m r : regr_evaluate E (relabel_regr σ m) r = regr_evaluate E m r.
  Proof.
    unfold regr_evaluate. change (rm_function (relabel_regr σ m)) with (rm_function m).
    assert (length (rm_output (relabel_regr σ m)) = length (rm_output m)) as -> by apply fmap_length.
    destruct (rm_function m =s "regression").
    { unfold eval_regression. cbn [relabel_regr rm_tables rm_output rm_norm].
      destruct (rm_tables m) as [|t [|t' ts]]; cbn; try done; [|by rewrite fmap_length].
      destruct (rm_output m) as [|o [|o' os]]; cbn; try done. by rewrite fmap_length. }
    destruct (_ && _); [apply binary_lab|]. destruct (_ =s "classification"); [|done].
    unfold eval_multiclass. cbn [relabel_regr rm_tables rm_output rm_norm].
    assert (rmap (λ t, linear_form E (rt_intercept t) (rt_predictors t) r) (lab_tbl <$> rm_tables m) =
            rmap (λ t, linear_form E (rt_intercept t) (rt_predictors t) r) (rm_tables m)) as ->.
    { induction (rm_tables m) as [|t ts IH]; [done|]. rewrite fmap_cons. cbn [rmap rt_intercept rt_predictors]. by rewrite IH. }
    rewrite <- list_fmap_compose. destruct (rmap _ _) as [ys| |]; cbn [rbind]; [|done..]. do 2 f_equal.
    apply list_fmap_ext. intros i t. cbn. unfold out_fields. by rewrite (out_fields_lab _ ∅ ∅).
  Qed.
End regr_labels.

Lemma mining_stands_in E dd1 dd2 h segs1 segs2 :
  Forall2 (λ s1 s2, Forall2 (stands_in E dd1 dd2) (sg_models s1) (sg_models s2)) segs1 segs2 →
  stands_in E dd1 dd2 (DMining h segs1) (DMining h segs2).
Proof.
  intros Hs td e1 td'. rewrite !new_model_mining. destruct (negb _); [done|].
  destruct (List.find _ _); [done|].
  destruct (compile_segments (new_model E dd1) _ _ _) as [[[[]|x|p] s1] t1] eqn:Hc; try done.
  intros [= <- <-].
  destruct (segments_stand_in E dd1 dd2 segs1 segs2 Hs _ [] [] _ _ ltac:(constructor) Hc) as (s2 & -> & He).
  eexists. split; [done|]. intros tk r. rewrite !mining_evaluate_run by done.
  cbn [built_mining em_defaults em_hdr]. destruct (impute _ _ _ _) as [r1|x|p]; [|done..].
  destruct (handle_input _ _ _) as [[u'|x|p] r2]; [|done..].
  rewrite (run_method_header E tk _ (built_mining dd2 td h segs2));
    [|done|cbn; by eapply Forall2_length|done..].
  pose proof (run_method_sim E E (same_world_refl E)
      (λ e1 e2, ∀ tk r, (evaluate E tk e1 r).1 = (evaluate E tk e2 r).1) (λ _ _, True) (λ _ _ _, I)
      (λ i s r, evaluate E (5 :: i :: tk) s r) (λ i s r, evaluate E (5 :: i :: tk) s r)) as Hr'.
  feed specialize Hr'. { intros i e1 e2 r' He'. split; [apply He'|done]. }
  specialize (Hr' tk tk (built_mining dd2 td h segs2) s1 s2 r2 He) as [Hr' _].
  destruct (run_method _ _ _ _ s1 _) as [[? ?] ?], (run_method _ _ _ _ s2 _) as [[? ?] ?]. exact Hr'.
Qed.

Lemma regressions_stand_in E dd d1 d2 : regressions_relabelled d1 d2 → stands_in E dd dd d1 d2.
Proof.
  revert d2. induction d1 as [t|m|k|h segs IH] using doc_rect'; intros d2 Hr; inversion Hr as [m' σ Hi| | |h' sg1 segs2 Hsegs]; subst.
  - intros td e1 td' H. eauto.
  - intros td e1 td'. simpl. intros [= <- <-]. eexists. split; [done|]. intros tk r. simpl. by rewrite relabel_regr_evaluate.
  - intros td e1 td'. done.
  - apply mining_stands_in. clear -IH Hsegs. induction Hsegs as [|s1 s2 l1 l2 Hs _ IHl]; [constructor|].
    apply Forall_cons in IH as [IH1 IH]. constructor; [|by apply IHl].
    clear -IH1 Hs. induction Hs as [|a b la lb Hab _ IHa]; [constructor|].
    apply Forall_cons in IH1 as [H1 IH1]. constructor; [by apply H1|by apply IHa].
Qed.
