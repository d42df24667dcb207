(** Folding constant members of a sum into rescaleConstants (C152). *)
From Verif Require Import Base Strconv Value Doc Expr Pred Tree Regression Model Lib
  SpecPred ProofsPred SpecExpr ProofsExpr SpecConstruct ProofsConstruct ProofsRange
  SpecTree ProofsTree ProofsOutput ProofsEval ProofsDoc ProofsSafe ProofsWhole ProofsSim
  SpecEssence ProofsEssence SpecEquiv ProofsEquiv SpecModel SpecLabels ProofsLabels ProofsNest ProofsListed SpecConstant.

Lemma target_of_none l : (∀ f, f ∈ l → mf_usage f ≠ "target") → target_of "" l = "".
Proof.
  unfold target_of. induction l as [|f l IH]; intros H; [done|]. cbn [foldl].
  destruct (String.eqb_spec (mf_usage f) "target") as [Hf|_]; [by destruct (H f); [left|]|].
  apply IH. intros g Hg. apply H. by right.
Qed.

Lemma lone_root E cx st r tk id dc ds sc :
  node_evaluate E cx st r tk (Node id dc [] ds PTrue sc) = Ok (output_dist cx (Node id dc [] ds PTrue sc), RT).
Proof.
  unfold node_evaluate. repeat (match goal with |- context [?a =s ?b] => destruct (a =s b) end); done.
Qed.

Lemma target_of_defaults l : ∀ a, target_of a (mf_defaults <$> l) = target_of a l.
Proof.
  unfold target_of. induction l as [|f l IH]; intros a; [done|]. rewrite fmap_cons. cbn [foldl].
  rewrite IH. f_equal. unfold mf_defaults. cbn [mf_usage mf_name].
  by destruct (String.eqb_spec (mf_usage f) "") as [->|_].
Qed.

Lemma constant_built E dd td t c : constant_tree E c t →
  ∃ e, new_model E dd td (DTree t) = (Ok e, td) ∧
    ∀ tk r, (evaluate E tk e r).1 = (Ok (Some {["score" := GF64 c]}), r).
Proof.
  intros Ht. assert (∃ id dc sc cnt ds, tm_function t = "regression" ∧ tm_lt t = [] ∧ tm_node t = MNode id dc sc cnt ds [] PTrue ∧
    ∀ cx, cx_target cx = target_of "" (tm_schema t) →
      ∃ s l, output_dist cx (Node id dc [] (convert_dists ds) PTrue (Score sc fzero fzero cnt)) = s :: l ∧
        ext_parse_float E (sc_value s) = Some c) as (id & dc & sc & cnt & ds & Hfn & Hlt & Hn & Ho).
  { destruct Ht as [t id dc sc cnt d ds Hfn Hlt Hn Hc|t id dc sc cnt Hfn Hlt Hn Hs Hc].
    - exists id, dc, sc, cnt, (d :: ds). split_and!; [done..|]. intros cx _. cbn. eauto.
    - exists id, dc, sc, cnt, []. split_and!; [done..|]. intros cx Hcx. rewrite target_of_none in Hcx by done.
      unfold output_dist. rewrite Hcx. cbn. eauto. }
  cbn [new_model]. unfold new_tree_model, tree_validate. cbn [et_model]. rewrite Hfn. cbn [String.eqb Ascii.eqb Bool.eqb andb negb].
  unfold tree_compile. cbn [et_model et_dd et_target tm_lt tm_node tm_schema]. rewrite Hlt, Hn, app_nil_r.
  cbn [new_node rmap rbind compile_predicate]. eexists. split; [reflexivity|]. intros tk r.
  cbn [evaluate]. unfold tree_evaluate. cbn [et_validated et_compiled negb et_model tm_lt handle_input et_root].
  rewrite lone_root. destruct (Ho (tree_ctx (ETree_ true true dd (TreeModel "regression" (tm_strategy t) (tm_penalty t) (tm_notrue t) []
      (mf_defaults <$> tm_schema t) (tm_verification t) (MNode id dc sc cnt ds [] PTrue)) (field_types dd td)
      (Node id dc [] (convert_dists ds) PTrue (Score sc fzero fzero cnt)) ∅ (target_of "" (mf_defaults <$> tm_schema t)))))
    as (s & l & Hs & Hc).
  { cbn [tree_ctx cx_target et_target]. apply target_of_defaults. }
  unfold tree_ctx in Hs |- *. cbn in Hs |- *. rewrite Hs. unfold tree_output. cbn. by rewrite Hc.
Qed.

(** ** Sums *)

Lemma sum_last {M} E tk (ev : nat → M → datarow → outcome M) e c sm :
  (∀ i r, (ev i e r).1 = (Ok (Some {["score" := GF64 c]}), r)) → ∀ i sc r,
  (sum_segments E tk false ev i sc (sm ++ [e]) r).1 =
  match (sum_segments E tk false ev i sc sm r).1 with
  | (Ok m, r') => (Ok ((λ v, fadd v c) <$> m), r')
  | x => x
  end.
Proof.
  intros He. induction sm as [|s sm IH]; intros i sc r; cbn [sum_segments app].
  - specialize (He i r). destruct (ev i e r) as [[o r1] e']. simpl in He. injection He as -> ->. cbn [fst]. do 2 f_equal.
    rewrite score_add_eq. apply map_eq. intros k. rewrite map_lookup_imap, lookup_fmap. by destruct (sc !! k).
  - destruct (ev i s r) as [[[out|x|p] r1] s']; [|done..].
    specialize (IH (S i) (score_add E (1 :: i :: tk) false out sc) r1).
    destruct (sum_segments _ _ _ _ (S i) _ (sm ++ [e]) _) as [[? ?] ?], (sum_segments _ _ _ _ (S i) _ sm _) as [[? ?] ?].
    exact IH.
Qed.

Lemma init_outputs outs c : score_init outs ((λ o, Target (of_name o) None (Some c)) <$> outs) = score_init outs [].
Proof.
  apply map_eq. intros k. destruct (score_init outs ((λ o, Target (of_name o) None (Some c)) <$> outs) !! k) as [v|] eqn:H1,
    (score_init outs [] !! k) as [w|] eqn:H2; [|exfalso|exfalso|done].
  - apply score_init_zero in H1 as ->. by apply score_init_zero in H2 as ->.
  - assert (is_Some (score_init outs [] !! k)) as [? H]; [|by rewrite H2 in H].
    apply score_init_keys. assert (is_Some (score_init outs ((λ o, Target (of_name o) None (Some c)) <$> outs) !! k)) as H%score_init_keys by eauto.
    rewrite app_nil_r. apply elem_of_app in H as [H|H]; [done|].
    apply elem_of_list_fmap in H as (t & -> & Ht). apply elem_of_list_fmap in Ht as (o & -> & Ht). cbn. by apply elem_of_list_fmap_1.
  - assert (is_Some (score_init outs ((λ o, Target (of_name o) None (Some c)) <$> outs) !! k)) as [? H]; [|by rewrite H1 in H].
    apply score_init_keys. assert (is_Some (score_init outs [] !! k)) as H%score_init_keys by eauto.
    rewrite app_nil_r in H. apply elem_of_app. by left.
Qed.

Lemma rescale_outputs c outs : NoDup (map of_name outs) → ∀ m : gmap string f64, (∀ k, k ∈ map of_name outs → is_Some (m !! k)) →
  ∀ k, foldl rescale_step m ((λ o, Target (of_name o) None (Some c)) <$> outs) !! k =
    if decide (k ∈ map of_name outs) then (λ v, fadd v c) <$> m !! k else m !! k.
Proof.
  induction outs as [|o outs IH]; intros Hnd m Hm k; [done|]. rewrite fmap_cons. cbn [foldl].
  cbn [map] in Hnd, Hm. apply NoDup_cons in Hnd as [Ho Hnd]. rewrite IH; [|done|].
  - rewrite rescale_lookup. cbn [tg_field tg_factor tg_constant].
    destruct (decide (k = of_name o)) as [->|Hne].
    + rewrite decide_False by done. rewrite decide_True by (cbn; left). destruct (Hm (of_name o) ltac:(left)) as [v ->]. done.
    + destruct (decide (k ∈ map of_name outs)) as [Hi|Hi].
      * rewrite decide_True; [done|]. by right.
      * rewrite decide_False; [done|]. cbn. intros [|]%elem_of_cons; done.
  - intros k' Hk. rewrite rescale_lookup. cbn [tg_field tg_factor tg_constant]. case_decide; [done|]. apply Hm. by right.
Qed.

Lemma folded_sum {M} E tk h1 h2 (ev : nat → M → datarow → outcome M) e c sm r :
  (∀ i r, (ev i e r).1 = (Ok (Some {["score" := GF64 c]}), r)) →
  mm_function (em_hdr h1) ≠ "classification" → mm_function (em_hdr h2) = mm_function (em_hdr h1) →
  em_outputs h2 = em_outputs h1 → em_targets h1 = [] →
  em_targets h2 = (λ o, Target (of_name o) None (Some c)) <$> em_outputs h1 → NoDup (map of_name (em_outputs h1)) →
  (sum_models E tk h1 ev (sm ++ [e]) r).1 = (sum_models E tk h2 ev sm r).1.
Proof.
  intros He Hf Hf2 Ho Ht1 Ht2 Hnd. unfold sum_models. rewrite Hf2, Ho, Ht1, Ht2, init_outputs.
  destruct (String.eqb_spec (mm_function (em_hdr h1)) "classification") as [|_]; [done|].
  pose proof (sum_last E tk ev e c sm He 0 (score_init (em_outputs h1) []) r) as Hl.
  destruct (sum_segments _ _ _ _ _ _ (sm ++ [e]) _) as [[o1 r1] s1],
    (sum_segments _ _ _ _ _ _ sm _) as [[o2 r2] s2] eqn:H2. simpl in Hl.
  destruct o2 as [m|x|p]; injection Hl as -> ->; [|done..]. cbn [fst]. do 2 f_equal. cbn [foldl]. rewrite !score_out_eq. f_equal.
  apply map_eq. intros k. rewrite lookup_fmap.
  assert (∀ k, is_Some (m !! k) ↔ k ∈ map of_name (em_outputs h1)) as Hk.
  { intros k'. rewrite (sum_segments_keys _ _ _ _ _ _ _ _ _ _ _ H2), score_init_keys. by rewrite app_nil_r. }
  rewrite rescale_outputs; [|done|intros; by apply Hk]. case_decide as Hd; [done|].
  destruct (m !! k) eqn:Hm; [|done]. destruct Hd. apply Hk. by rewrite Hm.
Qed.

(** ** Documents *)

Lemma folded_pair E dd td h segs s t c :
  mm_method h = "sum" ∨ mm_method h = "" → mm_function h ≠ "classification" → mm_targets h = [] →
  NoDup (map of_name (mm_output h)) → sg_models s = [DTree t] → constant_tree E c t →
  match new_model E dd td (DMining h (segs ++ [s])), new_model E dd td (DMining (with_constant c h) segs) with
  | (Ok e1, td1), (Ok e2, td2) => td1 = td2 ∧ ∀ tk r, (evaluate E tk e1 r).1 = (evaluate E tk e2 r).1
  | (Err x, td1), (Err y, td2) => x = y ∧ td1 = td2
  | (Panic x, td1), (Panic y, td2) => x = y ∧ td1 = td2
  | _, _ => False
  end.
Proof.
  intros Hm Hf Ht Hnd Hs Hc. rewrite !new_model_mining.
  assert (mm_method (header_of h) = "sum" ∧ mm_method (header_of (with_constant c h)) = "sum") as [Hm1 Hm2].
  { unfold header_of, with_constant. cbn [mm_method]. destruct Hm as [Hm|Hm]; rewrite Hm; by cbn. }
  assert (mm_function (header_of h) = mm_function h ∧ mm_function (header_of (with_constant c h)) = mm_function h) as [Hf1 Hf2].
  { unfold header_of, with_constant. cbn [mm_method]. destruct Hm as [Hm|Hm]; rewrite Hm; by cbn. }
  rewrite Hm1, Hm2. cbn [method_ok String.eqb Ascii.eqb Bool.eqb orb negb].
  change (mm_output (with_constant c h)) with (mm_output h). change (mm_lt (with_constant c h)) with (mm_lt h).
  destruct (List.find _ _) as [o|]; [done|]. rewrite compile_app.
  destruct (compile_segments (new_model E dd) (td ++ mm_lt h) [] segs) as [[[[]|x|p] sm] td1]; [|done..].
  destruct s as [i ps ms]. cbn [sg_models] in Hs. subst ms. cbn [compile_segments].
  destruct (constant_built E dd td1 t c Hc) as (e & -> & He). split; [done|]. intros tk r.
  rewrite !mining_evaluate_run by done. cbn [built_mining em_defaults em_hdr].
  change (mm_schema (with_constant c h)) with (mm_schema h). rewrite !header_of_lt. change (mm_lt (with_constant c h)) with (mm_lt h).
  destruct (impute _ _ _ _) as [r1|x|p]; [|done..]. destruct (handle_input _ _ _) as [[u'|x|p] r2]; [|done..].
  unfold run_method. cbn [built_mining em_hdr]. rewrite Hm1, Hm2. cbn [String.eqb Ascii.eqb Bool.eqb].
  pose proof (folded_sum E tk (built_mining dd td h (segs ++ [Segment i ps [DTree t]])) (built_mining dd td (with_constant c h) segs)
    (λ i s r, evaluate E (5 :: i :: tk) s r) e c sm r2) as Hsum. feed specialize Hsum.
  { intros j r'. apply He. } { cbn. by rewrite Hf1. } { cbn. by rewrite Hf1, Hf2. } { done. } { done. } { done. } { done. }
  unfold wrap_row. destruct (sum_models _ _ _ _ (sm ++ [e]) _) as [[o1 q1] s1], (sum_models _ _ _ _ sm _) as [[o2 q2] s2].
  simpl in Hsum. injection Hsum as -> ->. by destruct o2.
Qed.

Lemma folded_stands_in E dd d1 d2 : constants_folded E d1 d2 → stands_in E dd dd d1 d2 ∧ stands_in E dd dd d2 d1.
Proof.
  revert d2. induction d1 as [t0|m0|k0|h segs IH] using doc_rect'; intros d2 H; inversion H as [|? ? segs2 Hs|? segs0 s t c Hm Hf Ht Hnd Hsg Hc]; subst;
    try (by split; intros td e td' Hn; eauto).
  - split; apply mining_stands_in.
    + clear H. induction Hs as [|s1 s2 l1 l2 Hs _ IHl]; [constructor|]. apply Forall_cons in IH as [IHs IH].
      apply Forall2_cons. split; [|by apply IHl]. induction Hs as [|a b la lb Hab _ IHab]; [constructor|].
      apply Forall_cons in IHs as [IHa IHs]. apply Forall2_cons. split; [by apply IHa|by apply IHab].
    + clear H. induction Hs as [|s1 s2 l1 l2 Hs _ IHl]; [constructor|]. apply Forall_cons in IH as [IHs IH].
      apply Forall2_cons. split; [|by apply IHl]. induction Hs as [|a b la lb Hab _ IHab]; [constructor|].
      apply Forall_cons in IHs as [IHa IHs]. apply Forall2_cons. split; [by apply IHa|by apply IHab].
  - clear IH H. split; intros td e td' Hn;
      pose proof (folded_pair E dd td h segs0 s t c Hm Hf Ht Hnd Hsg Hc) as Hp; rewrite Hn in Hp.
    + destruct (new_model E dd td (DMining (with_constant c h) segs0)) as [[e2| |] td2]; try done.
      destruct Hp as [-> Hp]. eauto.
    + destruct (new_model E dd td (DMining h (segs0 ++ [s]))) as [[e2| |] td2]; try done.
      destruct Hp as [-> Hp]. exists e2. split; [done|]. intros tk r. symmetry. apply Hp.
Qed.

Lemma folds_stand_in E dd d1 d2 : rtsc (constants_folded E) d1 d2 → stands_in E dd dd d1 d2.
Proof.
  induction 1 as [d|d1 d2 d3 H _ IH]; [intros td e td' Hn; eauto|]. intros td e1 td' H1.
  assert (stands_in E dd dd d1 d2) as H12 by (destruct H as [H|H]; by destruct (folded_stands_in E dd _ _ H)).
  destruct (H12 td e1 td' H1) as (e2 & H2 & He2). destruct (IH td e2 td' H2) as (e3 & H3 & He3).
  exists e3. split; [done|]. intros tk r. by rewrite He2.
Qed.
