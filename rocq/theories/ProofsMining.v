(** Mining models: imputation, the four methods, failing segments. *)
From Verif Require Import Base Strconv Value Doc Expr Pred Tree Regression Model Lib
  SpecPred ProofsPred SpecExpr ProofsExpr SpecConstruct ProofsConstruct ProofsRange
  SpecTree ProofsTree ProofsOutput ProofsEval ProofsDoc ProofsSafe ProofsWhole SpecModel ProofsFrame ProofsSim.

(** ** Imputation *)

Lemma default_values_from l (m : row) k :
  foldl (λ m f, match mf_replacement f with Some s => <[mf_name f := GStr s]> m | None => m end) m l !! k
  = match default_values l !! k with Some v => Some v | None => m !! k end.
Proof.
  unfold default_values. revert m. induction l as [|f l IH]; intros m; simpl; [by rewrite lookup_empty|].
  rewrite IH. rewrite (IH (match mf_replacement f with Some s => _ | None => _ end)).
  destruct (foldl _ ∅ l !! k); [done|]. destruct (mf_replacement f) as [s|]; [|by rewrite lookup_empty].
  destruct (decide (k = mf_name f)) as [->|]; [by rewrite !lookup_insert|].
  by rewrite !lookup_insert_ne, lookup_empty by done.
Qed.

Lemma default_values_cons f l k :
  default_values (f :: l) !! k =
  match default_values l !! k with
  | Some v => Some v
  | None => if decide (mf_name f = k) then GStr <$> mf_replacement f else None
  end.
Proof.
  unfold default_values at 1. cbn [foldl]. rewrite default_values_from.
  destruct (default_values l !! k); [done|]. case_decide as Hk.
  - subst. destruct (mf_replacement f); [by rewrite lookup_insert|by rewrite lookup_empty].
  - destruct (mf_replacement f); [by rewrite lookup_insert_ne, lookup_empty|by rewrite lookup_empty].
Qed.

Lemma default_values_none l k :
  default_values l !! k = None ↔ ∀ f, f ∈ l → mf_name f = k → mf_replacement f = None.
Proof.
  induction l as [|f l IH].
  - unfold default_values. simpl. rewrite lookup_empty. split; [|done]. intros _ f Hf. by apply elem_of_nil in Hf.
  - rewrite default_values_cons. setoid_rewrite elem_of_cons. destruct (default_values l !! k) eqn:Hd.
    + split; [done|]. intros H. apply IH. naive_solver.
    + destruct IH as [IH _]. specialize (IH eq_refl). case_decide as Hk.
      * split; [|intros H; rewrite (H f); naive_solver].
        intros Hr g [->|Hg] Hn; [by destruct (mf_replacement f)|by apply IH].
      * split; [|done]. intros _ g [->|Hg] Hn; [done|by apply IH].
Qed.

Lemma default_values_some l k s :
  default_values l !! k = Some (GStr s) ↔ replacement_of l k s.
Proof.
  induction l as [|f l IH].
  - unfold default_values. simpl. rewrite lookup_empty. split; [done|]. intros (l1 & f & l2 & H & _). by destruct l1.
  - rewrite default_values_cons. destruct (default_values l !! k) as [v|] eqn:Hd.
    + split.
      * intros [= ->]. destruct (proj1 IH eq_refl) as (l1 & g & l2 & -> & H). by exists (f :: l1), g, l2.
      * intros (l1 & g & l2 & Hl & Hk & Hs & Hn). destruct l1 as [|f' l1]; simplify_list_eq.
        -- rewrite (proj2 (default_values_none _ _)) in Hd; [done|]. done.
        -- apply IH. by exists l1, g, l2.
    + case_decide as Hk.
      * split.
        -- intros Hr. exists [], f, l. repeat split; [done|by destruct (mf_replacement f); simplify_eq/=|].
           by apply default_values_none.
        -- intros (l1 & g & l2 & Hl & Hk' & Hs & Hn). destruct l1 as [|f' l1]; simplify_list_eq; [by rewrite Hs|].
           rewrite default_values_none in Hd. rewrite (Hd g) in Hs; [done| |done]. set_solver.
      * split; [done|]. intros (l1 & g & l2 & Hl & Hk' & Hs & Hn).
        destruct l1 as [|f' l1]; simplify_list_eq.
        rewrite default_values_none in Hd. rewrite (Hd g) in Hs; [done| |done]. set_solver.
Qed.

Lemma default_values_str l k v : default_values l !! k = Some v → ∃ s, v = GStr s.
Proof.
  induction l as [|f l IH]; [unfold default_values; simpl; by rewrite lookup_empty|].
  rewrite default_values_cons. destruct (default_values l !! k); [naive_solver|].
  case_decide; [|done]. destruct (mf_replacement f); naive_solver.
Qed.

Lemma missing_dec (m : row) k : {missing m k} + {¬ missing m k}.
Proof. unfold missing. destruct (m !! k) as [[]|]; (by left; eauto) || (right; naive_solver). Qed.

Lemma imputed_iff l m m' : imputed l m m' ↔ m' = fill (default_values l) m.
Proof.
  split.
  - intros H. apply map_eq. intros k. destruct (H k) as (H1 & H2 & H3). rewrite fill_lookup.
    destruct (default_values l !! k) as [v|] eqn:Hd.
    + destruct (default_values_str _ _ _ Hd) as [s ->]. apply default_values_some in Hd.
      destruct (missing_dec m k) as [Hm|Hm].
      * rewrite (H1 s Hd Hm). by destruct Hm as [-> | ->].
      * rewrite H2 by done. unfold missing in Hm. destruct (m !! k) as [[]|]; naive_solver.
    + rewrite H3 by (by apply default_values_none). by destruct (m !! k) as [[]|].
  - intros -> k. rewrite fill_lookup. repeat split.
    + intros s Hs%default_values_some Hm. rewrite Hs. by destruct Hm as [-> | ->].
    + intros Hm. unfold missing in Hm. destruct (m !! k) as [[]|]; naive_solver.
    + intros ->%default_values_none. by destruct (m !! k) as [[]|].
Qed.

(** ** The evaluators of the segments *)

Lemma built_segment_models E dd td segs es td' :
  built_segments E dd td segs es td' → segment_models E dd td segs es.
Proof. induction 1; by econstructor. Qed.

Lemma segment_models_fun E dd td segs es es' :
  segment_models E dd td segs es → segment_models E dd td segs es' → es = es'.
Proof.
  intros H. revert es'. induction H as [td|td s segs d e es td1 Hd Hn H IH]; intros es' H';
    inversion H' as [|? ? ? d' e' es2 td2 Hd' Hn' H2]; subst; [done|].
  rewrite Hd in Hd'. injection Hd' as <-. rewrite Hn in Hn'. injection Hn' as <- <-. f_equal. by apply IH.
Qed.

(** Evaluate on a non-nil row leaves a non-nil row *)
Lemma evaluate_some E dd td d e td' tk m :
  new_model E dd td d = (Ok e, td') → ∃ m', (evaluate E tk e (Some m)).1.2 = Some m'.
Proof.
  intros Hn%new_model_all. destruct (evaluate E tk e (Some m)) as [[o r'] e'] eqn:He.
  destruct (frame_evaluate E dd d tk e (Some m) o r' e' Hn He) as (_ & (Hf & _) & _). simpl.
  destruct r' as [m'|]; [eauto|]. pose proof (proj1 Hf eq_refl) as Hx. discriminate Hx.
Qed.

Lemma segment_models_in E dd td segs es e :
  segment_models E dd td segs es → e ∈ es → ∃ td1 d td2, new_model E dd td1 d = (Ok e, td2).
Proof.
  induction 1 as [td|td s segs d e' es td1 Hd Hn H IH]; intros He; [by apply elem_of_nil in He|].
  apply elem_of_cons in He as [->|He]; eauto.
Qed.

(** ** One mining model *)

Section mining.
  Context (E : Ext) (dd : list data_field) (td : list derived_field) (h : mining_header)
    (segs : list (segment doc_model)) (e : emodel) (td' : list derived_field)
    (Hn : new_model E dd td (DMining h segs) = (Ok e, td')).

  Lemma mining_parts : ∃ es, e = EMining (built_mining dd td h segs) es ∧
    segment_models E dd (td ++ mm_lt h) segs es ∧ length es = length segs.
  Proof using Hn.
    pose proof Hn as (es & -> & Hb & _)%new_model_mining_inv. exists es. split; [done|].
    split; [by eapply built_segment_models|by eapply built_segments_length].
  Qed.

  Lemma mining_run es tk m m2 :
    prepared E h m m2 → e = EMining (built_mining dd td h segs) es →
    (evaluate E tk e (Some m)).1 =
    (run_method E tk (built_mining dd td h segs) (λ i s r, evaluate E (5 :: i :: tk) s r) es (Some m2)).1.
  Proof using Hn.
    intros (m1 & Hi%imputed_iff & Hl) ->. rewrite mining_evaluate_run by done. simpl em_defaults.
    rewrite impute_some, <-Hi. simpl em_hdr. rewrite header_of_lt, Hl.
    by destruct (run_method _ _ _ _ _ _) as [[? ?] ?].
  Qed.

  Lemma mining_nil tk :
    (∃ f, f ∈ mm_schema h ∧ mf_replacement f ≠ None) →
    (evaluate E tk e None).1 = (Panic PNilMapWrite, None).
  Proof using Hn.
    intros (f & Hf & Hr). destruct mining_parts as (es & -> & _). rewrite mining_evaluate_run by done.
    simpl em_defaults. rewrite impute_none, decide_False; [done|]. intros He.
    apply Hr. apply (proj1 (default_values_none (mm_schema h) (mf_name f))); [|done..].
    by rewrite He, lookup_empty.
  Qed.
End mining.

Definition seg_tickets (tk : ticket) (i n : nat) : list ticket := map (λ i, 5 :: i :: tk) (seq i n).

Definition seg_eval (E : Ext) (tk : ticket) (i : nat) (s : emodel) (r : datarow) := evaluate E (5 :: i :: tk) s r.

(** sum and average *)
Lemma sum_segments_ok E tk cl i scores es m outs m2 :
  seg_outputs E (seg_tickets tk i (length es)) es m outs m2 →
  ∃ sc es', sum_segments E tk cl (seg_eval E tk) i scores es (Some m) = (Ok sc, Some m2, es') ∧
    ∀ k, sc !! k = (λ v, foldl (λ v out, contribution E cl out k v) v outs) <$> scores !! k.
Proof.
  revert i scores m outs. induction es as [|e es IH]; intros i scores m outs H; simpl in H |- *.
  - inversion H; subst. exists scores, []. split; [done|]. intros k. by destruct (scores !! k).
  - inversion H as [|? ? ? ? ? out m1 outs' ? He Ho]; subst. unfold seg_eval at 1.
    destruct (evaluate E (5 :: i :: tk) e (Some m)) as [[o r1] e']. simpl in He. simplify_eq.
    destruct (IH (S i) (score_add E (1 :: i :: tk) cl out scores) m1 outs' Ho) as (sc & es' & -> & Hk).
    exists sc, (e' :: es'). split; [done|]. intros k. rewrite Hk, score_add_lookup. by destruct (scores !! k).
Qed.

Lemma sum_segments_fail E tk cl i scores l1 e l2 m outs m2 o r3 :
  seg_outputs E (seg_tickets tk i (length l1)) l1 m outs m2 →
  (evaluate E (5 :: (i + length l1) :: tk) e (Some m2)).1 = (o, r3) → (∀ out, o ≠ Ok out) →
  (sum_segments E tk cl (seg_eval E tk) i scores (l1 ++ e :: l2) (Some m)).1 =
    (match o with Ok _ => Err ENoSegments | Err x => Err x | Panic p => Panic p end, r3).
Proof.
  revert i scores m outs. induction l1 as [|a l1 IH]; intros i scores m outs H He Ho; simpl in H |- *.
  - inversion H; subst. rewrite Nat.add_0_r in He. unfold seg_eval at 1.
    destruct (evaluate E _ _ _) as [[o' r1] e']. simpl in He. simplify_eq.
    destruct o as [out|x|p]; [by destruct (Ho out)|done..].
  - inversion H as [|? ? ? ? ? out m1 outs' ? Ha Hl]; subst. unfold seg_eval at 1.
    destruct (evaluate E (5 :: i :: tk) a (Some m)) as [[o' r1] e']. simpl in Ha. simplify_eq.
    specialize (IH (S i) (score_add E (1 :: i :: tk) cl out scores) m1 outs' Hl).
    replace (i + length (a :: l1)) with (S i + length l1) in He by (simpl; lia). specialize (IH He Ho).
    destruct (sum_segments _ _ _ _ _ _ _ _) as [[? ?] ?]. simpl in *. by simplify_eq.
Qed.

Lemma foldl_contribution E (h : mining_header) k v outs :
  foldl (λ v out, contribution E (mm_function h =s "classification") out k v) v outs
  = foldl fadd v (contributions E h k outs).
Proof.
  unfold contributions. revert v. induction outs as [|out outs IH]; intros v; [done|]. simpl.
  rewrite IH. unfold contribution.
  destruct (String.eqb_spec (mm_function h) "classification") as [Hf|Hf];
    destruct (decide (mm_function h = "classification")); try done;
    by destruct (dr_get out _).
Qed.

Lemma rescale_lookup tgs (sc : gmap string f64) k :
  (∀ t, t ∈ tgs → is_Some (sc !! tg_field t)) →
  foldl rescale_step sc tgs !! k =
  (λ v, foldl (λ x t, rescale t x) v (filter (λ t, tg_field t = k) tgs)) <$> sc !! k.
Proof.
  revert sc. induction tgs as [|t tgs IH]; intros sc Hk; [cbn [foldl]; rewrite filter_nil; by destruct (sc !! k)|]. cbn [foldl].
  destruct (Hk t ltac:(left)) as [v Hv].
  assert (∀ k', rescale_step sc t !! k' = if decide (tg_field t = k') then rescale t <$> sc !! k' else sc !! k') as Hs.
  { intros k'. unfold rescale_step, rescale. case_decide as Hd.
    - subst k'. rewrite Hv. cbn. destruct (tg_factor t), (tg_constant t); rewrite ?lookup_insert; cbn; rewrite ?lookup_insert, ?Hv; done.
    - destruct (tg_factor t), (tg_constant t); by rewrite ?lookup_insert_ne by done. }
  rewrite IH.
  - rewrite Hs, filter_cons. case_decide; simpl; [|done]. by destruct (sc !! k).
  - intros t' Ht'. rewrite Hs. case_decide; [|by apply Hk; right]. rewrite fmap_is_Some. apply Hk. by right.
Qed.

Lemma sum_models_ok E tk dd td h segs es m outs m2 :
  seg_outputs E (seg_tickets tk 0 (length es)) es m outs m2 →
  ∃ out es', sum_models E tk (built_mining dd td h segs) (seg_eval E tk) es (Some m) = (Ok out, Some m2, es') ∧
    ∀ k, out !! k = if decide (k ∈ header_output_names h) then Some (GF64 (sum_total E h k outs)) else None.
Proof.
  intros H. unfold sum_models. simpl em_hdr. simpl em_outputs. simpl em_targets.
  destruct (sum_segments_ok E tk (mm_function (header_of h) =s "classification") 0
    (score_init (mm_output h) (mm_targets h)) es m outs m2 H) as (sc & es' & -> & Hsc).
  do 2 eexists. split; [done|]. intros k. rewrite score_out_eq, lookup_fmap, rescale_lookup.
  2:{ intros t Ht. rewrite Hsc, fmap_is_Some, score_init_keys, elem_of_app. right.
      apply elem_of_list_fmap. eauto. }
  rewrite Hsc, header_of_function. unfold sum_total, header_output_names.
  pose proof (score_init_keys (mm_output h) (mm_targets h) k) as Hk.
  destruct (score_init (mm_output h) (mm_targets h) !! k) as [v|] eqn:Hv; simpl.
  - rewrite decide_True by (by apply Hk). apply score_init_zero in Hv as ->. by rewrite foldl_contribution.
  - rewrite decide_False; [done|]. rewrite <- Hk. intros [? ?]. done.
Qed.

Lemma sum_models_fail E tk dd td h segs l1 e l2 m outs m2 o r3 :
  seg_outputs E (seg_tickets tk 0 (length l1)) l1 m outs m2 →
  (evaluate E (5 :: length l1 :: tk) e (Some m2)).1 = (o, r3) → (∀ out, o ≠ Ok out) →
  (sum_models E tk (built_mining dd td h segs) (seg_eval E tk) (l1 ++ e :: l2) (Some m)).1 =
    (match o with Ok _ => Err ENoSegments | Err x => Err x | Panic p => Panic p end, r3).
Proof.
  intros H He Ho. unfold sum_models.
  pose proof (sum_segments_fail E tk (mm_function (em_hdr (built_mining dd td h segs)) =s "classification") 0
    (score_init (em_outputs (built_mining dd td h segs)) (em_targets (built_mining dd td h segs)))
    l1 e l2 m outs m2 o r3 H He Ho) as Hs.
  destruct (sum_segments _ _ _ _ _ _ _ _) as [[o1 r1] es1]. simpl in Hs. simplify_eq.
  destruct o as [out|x|p]; [by destruct (Ho out)|done..].
Qed.

(** modelChain *)
Lemma chain_ok E tk i es lst m final m2 :
  chain_outputs E (seg_tickets tk i (length es)) es lst m final m2 →
  (chain E tk (seg_eval E tk) i lst es (Some m)).1 = (Ok final, Some m2).
Proof.
  revert i lst m. induction es as [|e es IH]; intros i lst m H; simpl in H |- *.
  - by inversion H; subst.
  - inversion H as [|? ? ? ? ? ? m1 out m2' ? ? Hm1 He Ho]; subst. rewrite copy_into_some.
    assert (default ∅ lst ∪ m = m1) as ->.
    { apply map_eq. intros k. rewrite Hm1, lookup_union. destruct lst as [l|]; simpl.
      - destruct (l !! k); simpl; [by destruct (m !! k)|by destruct (m !! k)].
      - rewrite lookup_empty. by destruct (m !! k). }
    unfold seg_eval at 1. destruct (evaluate E (5 :: i :: tk) e (Some m1)) as [[o r1] e']. simpl in He. simplify_eq.
    specialize (IH (S i) out m2' Ho). by destruct (chain _ _ _ _ _ _ _) as [[? ?] ?].
Qed.

Lemma chain_fail E tk i l1 e l2 lst m out m2 m3 o r4 :
  chain_outputs E (seg_tickets tk i (length l1)) l1 lst m out m2 →
  (∀ k, m3 !! k = match dr_get out k with Some v => Some v | None => m2 !! k end) →
  (evaluate E (5 :: (i + length l1) :: tk) e (Some m3)).1 = (o, r4) → (∀ out, o ≠ Ok out) →
  (chain E tk (seg_eval E tk) i lst (l1 ++ e :: l2) (Some m)).1 = (o, r4).
Proof.
  assert (∀ (l : datarow) (a b : row),
    (∀ k, b !! k = match dr_get l k with Some v => Some v | None => a !! k end) → default ∅ l ∪ a = b) as Hu.
  { intros l a b Hb. apply map_eq. intros k. rewrite Hb, lookup_union. destruct l as [l|]; simpl.
    - destruct (l !! k); simpl; [by destruct (a !! k)|by destruct (a !! k)].
    - rewrite lookup_empty. by destruct (a !! k). }
  revert i lst m. induction l1 as [|a l1 IH]; intros i lst m H Hm3 He Ho; simpl in H |- *.
  - inversion H; subst. rewrite copy_into_some, (Hu _ _ _ Hm3). rewrite Nat.add_0_r in He. unfold seg_eval at 1.
    destruct (evaluate E _ _ _) as [[o' r1] e']. simpl in He. simplify_eq.
    destruct o as [x|x|p]; [by destruct (Ho x)|done..].
  - inversion H as [|? ? ? ? ? ? m1 out1 m2' ? ? Hm1 Ha Hl]; subst. rewrite copy_into_some, (Hu _ _ _ Hm1).
    unfold seg_eval at 1.
    destruct (evaluate E (5 :: i :: tk) a (Some m1)) as [[o' r1] e']. simpl in Ha. simplify_eq.
    replace (i + length (a :: l1)) with (S i + length l1) in He by (simpl; lia).
    specialize (IH (S i) out1 m2' Hl Hm3 He Ho). by destruct (chain _ _ _ _ _ _ _) as [[? ?] ?].
Qed.

(** ** Segment predicates are never read *)

Definition same_segment_models (a b : segment doc_model) : Prop := sg_models a = sg_models b.

Lemma segment_models_same E dd td s1 s2 es :
  Forall2 same_segment_models s1 s2 → segment_models E dd td s1 es → segment_models E dd td s2 es.
Proof.
  intros H He. revert s2 H. induction He as [td|td s segs d e es td1 Hd Hn He IH]; intros s2 H; inversion H; subst.
  - constructor.
  - econstructor; [|exact Hn|by apply IH]. unfold same_segment_models in *. congruence.
Qed.

Lemma built_segments_same E dd td s1 s2 es td' :
  Forall2 same_segment_models s1 s2 → built_segments E dd td s1 es td' → built_segments E dd td s2 es td'.
Proof.
  intros H He. revert s2 H. induction He as [td|td s segs d e es td1 td2 Hd Hn He IH]; intros s2 H; inversion H; subst.
  - constructor.
  - econstructor; [|exact Hn|by apply IH]. unfold same_segment_models in *. congruence.
Qed.

Lemma run_method_segs E tk dd td h s1 s2 ev (es : list emodel) r :
  length s1 = length s2 →
  run_method E tk (built_mining dd td h s1) ev es r = run_method E tk (built_mining dd td h s2) ev es r.
Proof.
  intros Hl. unfold run_method, average_models, sum_models. simpl. by rewrite Hl.
Qed.

Lemma predicates_ignored E dd td h s1 s2 e1 td' calls1 calls2 tk r :
  Forall2 same_segment_models s1 s2 →
  new_model E dd td (DMining h s1) = (Ok e1, td') →
  ∃ e2, new_model E dd td (DMining h s2) = (Ok e2, td') ∧
    (evaluate E tk (after E calls1 e1) r).1 = (evaluate E tk (after E calls2 e2) r).1.
Proof.
  intros Hs H1. pose proof H1 as (es & -> & Hb & Hok)%new_model_mining_inv.
  pose proof (new_model_mining_of E dd td h s2 es td' Hok (built_segments_same _ _ _ _ _ _ _ Hs Hb)) as H2.
  eexists. split; [exact H2|].
  rewrite (history_independent E _ _ _ _ _ calls1 tk r H1), (history_independent E _ _ _ _ _ calls2 tk r H2).
  rewrite !mining_evaluate_run by done. simpl em_defaults. simpl em_hdr.
  destruct (impute _ _ _ _) as [r1|x|p]; [|done..].
  destruct (handle_input _ _ _) as [[u|x|p] r2]; [|done..].
  rewrite (run_method_segs E tk dd td h s1 s2) by (by eapply Forall2_length).
  by destruct (run_method _ _ _ _ _ _) as [[? ?] ?].
Qed.

(** ** Imputation as a rewriting of the row *)

Lemma default_values_no l : default_values (map no_replacement l) = ∅.
Proof.
  apply map_empty. intros k. apply default_values_none. intros f Hf _.
  apply elem_of_list_fmap in Hf as (g & -> & _). done.
Qed.

Lemma built_segments_no E dd td h segs es td' :
  built_segments E dd (td ++ mm_lt h) segs es td' →
  built_segments E dd (td ++ mm_lt (no_replacements h)) segs es td'.
Proof. done. Qed.

Lemma imputation_rewrites E dd td h segs e td' m m' tk calls :
  new_model E dd td (DMining h segs) = (Ok e, td') → imputed (mm_schema h) m m' →
  ∃ e0, new_model E dd td (DMining (no_replacements h) segs) = (Ok e0, td') ∧
    (evaluate E tk (after E calls e) (Some m)).1 = (evaluate E tk e0 (Some m')).1.
Proof.
  intros Hn Hi%imputed_iff. rewrite (history_independent E _ _ _ _ _ calls tk _ Hn).
  apply new_model_mining_inv in Hn as (es & -> & Hb & Hok).
  assert (mining_ok (no_replacements h)) as Hok' by done.
  eexists. split; [by apply new_model_mining_of|].
  rewrite !mining_evaluate_run by done. simpl em_defaults.
  rewrite default_values_no, !impute_some.
  assert (fill ∅ m' = m') as ->.
  { apply map_eq. intros k. rewrite fill_lookup, lookup_empty. by destruct (m' !! k) as [[]|]. }
  rewrite <- Hi. simpl em_hdr. rewrite !header_of_lt. simpl mm_lt.
  destruct (handle_input _ _ _) as [[u|x|p] r2]; [|done..].
  assert (run_method E tk (built_mining dd td h segs) (λ i s r, evaluate E (5 :: i :: tk) s r) es r2 =
    run_method E tk (built_mining dd td (no_replacements h) segs) (λ i s r, evaluate E (5 :: i :: tk) s r) es r2) as ->.
  { unfold run_method, average_models, sum_models. simpl. unfold header_of. simpl.
    destruct (mm_method h =s ""); done. }
  by destruct (run_method _ _ _ _ _ _) as [[? ?] ?].
Qed.

(** ** Evaluating the same row again *)

Lemma well_ordered_app l1 l2 : well_ordered (l1 ++ l2) → well_ordered l1.
Proof.
  induction l1 as [|df l1 IH]; simpl; [done|]. rewrite !map_app. setoid_rewrite elem_of_app. naive_solver.
Qed.

Lemma handle_input_again E lt r o r' :
  well_ordered lt → handle_input E lt r = (o, r') → handle_input E lt r' = (o, r').
Proof.
  intros Hw H. destruct r as [m|].
  - destruct o as [[]|x|p].
    + by eapply handle_input_idempotent.
    + pose proof H as (l1 & df & l2 & -> & H1 & H2)%handle_input_err_inv.
      apply handle_input_fails; [|done]. eapply handle_input_idempotent; [|done]. by eapply well_ordered_app.
    + by apply handle_input_no_panic in H.
  - assert (r' = None) as -> by (destruct lt as [|df lt]; simpl in H; [by simplify_eq|];
      by destruct (handle_expr _ _ _); simplify_eq/=). done.
Qed.

Lemma order_or_ticket E st cx r tk1 tk2 n :
  tk1 = tk2 ∨ order_free st → node_evaluate E cx st r tk1 n = node_evaluate E cx st r tk2 n.
Proof. intros [-> |H]; [done|]. apply node_evaluate_order_free; [apply same_world_refl|done]. Qed.

Lemma tree_again E dd td t te tk1 tk2 r o r1 te1 :
  tree_of E dd td t te → well_ordered (tm_lt t) → tk1 = tk2 ∨ order_free (tm_strategy t) →
  tree_evaluate E tk1 te r = (o, r1, te1) →
  (tree_evaluate E tk2 te1 r1).1 = (o, r1).
Proof.
  intros Ht Hw Hs He.
  pose proof (tree_evaluate_step E tk1 te r (proj1 (proj2 (proj2 Ht)))) as Hst. rewrite He in Hst. simpl in Hst.
  pose proof Ht as (Hv & Hc & Hk & _ & _ & Hstr & Hlt & _).
  assert (∀ r', node_evaluate E (tree_ctx te) (tm_strategy (et_model te)) r' tk1 (et_root te) =
         node_evaluate E (tree_ctx te) (tm_strategy (et_model te)) r' tk2 (et_root te)) as Hne.
  { intros r'. apply order_or_ticket. by rewrite Hstr. }
  destruct (tree_evaluate_same E E tk1 tk2 te te1 r1 (same_world_refl E) Hst Hne) as [Hsame _].
  rewrite <- Hsame. clear Hsame Hst Hne.
  rewrite tree_evaluate_run in He |- * by done. rewrite Hlt in *.
  destruct (handle_input E (tm_lt t) r) as [oi ri] eqn:Hi.
  pose proof (handle_input_again _ _ _ _ _ Hw Hi) as Hi2.
  assert (r1 = ri) as -> by (repeat case_match; simplify_eq; done).
  rewrite Hi2. destruct oi as [u|x|p]; simplify_eq/=; [|done..].
  destruct (node_evaluate _ _ _ _ _ _) as [[s []]|x|p]; simplify_eq/=; try done.
  destruct (tree_output E te s) as [o2 k2]. by simplify_eq/=.
Qed.
