(** Leaving out derived fields that nothing reads (C143). *)
From Verif Require Import Base Strconv Value Doc Expr Pred Tree Regression Model Lib
  SpecPred ProofsPred SpecExpr ProofsExpr SpecConstruct ProofsConstruct ProofsRange
  SpecTree ProofsTree ProofsOutput ProofsEval ProofsDoc ProofsSafe ProofsWhole ProofsSim
  SpecEssence ProofsEssence SpecEquiv ProofsEquiv SpecDerive ProofsDerive SpecRecode ProofsRecode PropertiesRegr SpecEarlier ProofsEarlier
  SpecUnread.

Section unread.
  (** [S] is true if nothing that is left out can fail and the row is not nil *)
  Context (E : Ext) (dd : list data_field) (G : list string) (P : expr → Prop) (S : bool).
  Context (HP : ∀ e r, P e → S = true → ∃ v, handle_expr E e r = Ok v).

  Definition off (r1 r2 : datarow) : Prop :=
    match r1, r2 with
    | Some m1, Some m2 => ∀ k, k ∉ G → m1 !! k = m2 !! k
    | None, None => S = false
    | _, _ => False
    end.
  Definition sim {A} (a b : res A * datarow) : Prop :=
    (a.1 = b.1 ∧ off a.2 b.2) ∨ (S = false ∧ ∀ x, a.1 ≠ Ok x).

  Lemma off_get r1 r2 k : off r1 r2 → k ∉ G → dr_get r1 k = dr_get r2 k.
  Proof. destruct r1, r2; simpl; try done. auto. Qed.

  Lemma off_input l1 l2 : dropped G P l1 l2 → ∀ r1 r2, off r1 r2 → sim (handle_input E l1 r1) (handle_input E l2 r2).
  Proof.
    induction 1 as [|x l1 l2 Hx _ IH|x l1 l2 Hn Hx _ IH]; intros r1 r2 Hr.
    - by left.
    - cbn [handle_input]. rewrite (handle_expr_local E (df_expr x) r1 r2).
      2:{ intros f Hf. apply off_get; auto. }
      destruct (handle_expr E (df_expr x) r2) as [v| |]; [|by left..].
      destruct r1 as [m1|], r2 as [m2|]; try done; [|by left]. cbn [dr_set]. apply IH. intros k Hk. 
      destruct (decide (df_name x = k)) as [->|Hne]; [by rewrite !lookup_insert|]. rewrite !lookup_insert_ne by done. by apply Hr.
    - cbn [handle_input]. destruct (handle_expr E (df_expr x) r1) as [v|e|p] eqn:He.
      + destruct r1 as [m1|], r2 as [m2|]; try done; [|by right]. cbn [dr_set]. apply IH. intros k Hk.
        rewrite lookup_insert_ne by (intros <-; done). by apply Hr.
      + right. split; [|done]. destruct S eqn:HS; [|done]. destruct (HP _ r1 Hx eq_refl) as [v Hv]. by rewrite He in Hv.
      + right. split; [|done]. destruct S eqn:HS; [|done]. destruct (HP _ r1 Hx eq_refl) as [v Hv]. by rewrite He in Hv.
  Qed.

  Lemma off_impute tk d r1 r2 : off r1 r2 →
    (∃ a b, impute E tk d r1 = Ok a ∧ impute E tk d r2 = Ok b ∧ off a b) ∨
    (∃ p, impute E tk d r1 = Panic p ∧ impute E tk d r2 = Panic p).
  Proof.
    destruct r1 as [m1|], r2 as [m2|]; simpl; try done; intros H.
    - left. rewrite !impute_some. do 2 eexists. split; [done|]. split; [done|]. intros k Hk. rewrite !fill_lookup. by rewrite H.
    - rewrite impute_none. case_decide; [left|right]; eauto.
  Qed.
  Lemma off_copy tk lst r1 r2 : off r1 r2 →
    (∃ a b, copy_into E tk lst r1 = Ok a ∧ copy_into E tk lst r2 = Ok b ∧ off a b) ∨
    (∃ p, copy_into E tk lst r1 = Panic p ∧ copy_into E tk lst r2 = Panic p).
  Proof.
    destruct r1 as [m1|], r2 as [m2|]; simpl; try done; intros H.
    - left. rewrite !copy_into_some. do 2 eexists. split; [done|]. split; [done|]. intros k Hk. rewrite !lookup_union. by rewrite H.
    - rewrite copy_into_none. case_decide; [left|right]; eauto.
  Qed.

  Section segments.
    Context (tk : ticket) (ev1 ev2 : nat → emodel → datarow → outcome emodel).
    Notation ok := (Forall2 (λ s1 s2, ∀ i r1 r2, off r1 r2 → sim (ev1 i s1 r1).1 (ev2 i s2 r2).1)).

    Lemma off_chain sm1 sm2 : ok sm1 sm2 → ∀ i lst r1 r2, off r1 r2 →
      sim (chain E tk ev1 i lst sm1 r1).1 (chain E tk ev2 i lst sm2 r2).1.
    Proof.
      induction 1 as [|s1 s2 sm1 sm2 Hs _ IH]; intros i lst r1 r2 Hr; [by left|]. cbn [chain].
      destruct (off_copy (0 :: i :: tk) lst r1 r2 Hr) as [(a & b & -> & -> & Hab)|(p & -> & ->)]; [|by left].
      specialize (Hs i _ _ Hab).
      destruct (ev1 i s1 a) as [[o1 r1'] s1'], (ev2 i s2 b) as [[o2 r2'] s2']. unfold sim in Hs. cbn [fst snd] in Hs.
      destruct Hs as [[<- H2]|[HS Ho]].
      2:{ right. split; [done|]. destruct o1 as [out|x|p]; [by destruct (Ho out)|done..]. }
      destruct o1 as [out| |]; [|by left..]. specialize (IH (Datatypes.S i) out r1' r2' H2).
      fold (chain E tk ev1). fold (chain E tk ev2).
      destruct (chain E tk ev1 _ _ _ r1') as [[? ?] ?], (chain E tk ev2 _ _ _ r2') as [[? ?] ?]. exact IH.
    Qed.
    Lemma off_sum cl sm1 sm2 : ok sm1 sm2 → ∀ i sc r1 r2, off r1 r2 →
      sim (sum_segments E tk cl ev1 i sc sm1 r1).1 (sum_segments E tk cl ev2 i sc sm2 r2).1.
    Proof.
      induction 1 as [|s1 s2 sm1 sm2 Hs _ IH]; intros i sc r1 r2 Hr; [by left|]. cbn [sum_segments].
      specialize (Hs i _ _ Hr).
      destruct (ev1 i s1 r1) as [[o1 r1'] s1'], (ev2 i s2 r2) as [[o2 r2'] s2']. unfold sim in Hs. cbn [fst snd] in Hs.
      destruct Hs as [[<- H2]|[HS Ho]].
      2:{ right. split; [done|]. destruct o1 as [out|x|p]; [by destruct (Ho out)|done..]. }
      destruct o1 as [out| |]; [|by left..].
      specialize (IH (Datatypes.S i) (score_add E (1 :: i :: tk) cl out sc) r1' r2' H2).
      fold (sum_segments E tk cl ev1). fold (sum_segments E tk cl ev2).
      destruct (sum_segments E tk cl ev1 _ _ _ r1') as [[? ?] ?], (sum_segments E tk cl ev2 _ _ _ r2') as [[? ?] ?]. exact IH.
    Qed.
    Lemma off_run h sm1 sm2 r1 r2 : ok sm1 sm2 → off r1 r2 →
      sim (run_method E tk h ev1 sm1 r1).1 (run_method E tk h ev2 sm2 r2).1.
    Proof.
      intros Hs Hr. unfold run_method, average_models, sum_models.
      pose proof (off_sum (mm_function (em_hdr h) =s "classification") sm1 sm2 Hs 0 (score_init (em_outputs h) (em_targets h)) r1 r2 Hr) as H1.
      destruct (sum_segments E tk _ ev1 _ _ sm1 r1) as [[o1 r1'] s1], (sum_segments E tk _ ev2 _ _ sm2 r2) as [[o2 r2'] s2].
      unfold sim in H1. cbn [fst snd] in H1.
      destruct (_ =s "average").
      { destruct H1 as [[<- H2]|[HS Ho]]; [left; by destruct o1|right; split; [done|]; by destruct o1 as [out|x|p]; [destruct (Ho out)|..]]. }
      destruct (_ =s "sum").
      { destruct H1 as [[<- H2]|[HS Ho]]; [left; by destruct o1|right; split; [done|]; by destruct o1 as [out|x|p]; [destruct (Ho out)|..]]. }
      destruct (_ =s "modelChain"); [by apply off_chain|].
      destruct (_ =s "selectFirst"); [|by left].
      destruct Hs as [|s1' s2' sm1 sm2 Hs _]; [by left|]. cbn [select_first]. specialize (Hs 0 r1 r2 Hr).
      destruct (ev1 0 s1' r1) as [[? ?] ?], (ev2 0 s2' r2) as [[? ?] ?]. exact Hs.
    Qed.
  End segments.

  (** ** Types *)
  Definition types_off (td1 td2 : list derived_field) : Prop :=
    ∀ m1 m2 : gmap string string, (∀ f, f ∉ G → m1 !! f = m2 !! f) →
    ∀ f, f ∉ G → foldl type_step m1 td1 !! f = foldl type_step m2 td2 !! f.
  Lemma types_off_refl td : types_off td td.
  Proof.
    induction td as [|x td IH]; intros m1 m2 Hm f Hf; [by apply Hm|]. cbn [foldl]. apply IH; [|done].
    intros g Hg. destruct (decide (df_name x = g)) as [->|Hne]; [by rewrite !lookup_insert|].
    rewrite !lookup_insert_ne by done. by apply Hm.
  Qed.
  Lemma types_off_app a1 a2 b1 b2 : types_off a1 a2 → types_off b1 b2 → types_off (a1 ++ b1) (a2 ++ b2).
  Proof. intros H1 H2 m1 m2 Hm. rewrite !foldl_app. by apply H2, H1. Qed.
  Lemma types_off_dropped l1 l2 : dropped G P l1 l2 → types_off l1 l2.
  Proof.
    induction 1 as [|x l1 l2 Hx _ IH|x l1 l2 Hn Hx _ IH]; intros m1 m2 Hm f Hf; [by apply Hm|..]; cbn [foldl]; apply IH; try done; intros g Hg.
    - destruct (decide (df_name x = g)) as [->|Hne]; [by rewrite !lookup_insert|].
      rewrite !lookup_insert_ne by done. by apply Hm.
    - rewrite lookup_insert_ne by (intros <-; done). by apply Hm.
  Qed.
  Lemma types_off_types td1 td2 f : types_off td1 td2 → f ∉ G → field_types dd td1 !! f = field_types dd td2 !! f.
  Proof. intros H Hf. unfold field_types. by apply H. Qed.

  (** ** Trees *)
  Definition dropped_alike (x y : res emodel * list derived_field) : Prop :=
    types_off x.2 y.2 ∧
    match x.1, y.1 with
    | Ok e1, Ok e2 => ∀ tk r1 r2, off r1 r2 → sim (evaluate E tk e1 r1).1 (evaluate E tk e2 r2).1
    | Err a, Err b => a = b
    | Panic a, Panic b => a = b
    | _, _ => False
    end.

  Lemma node_tests_off ft f2 m n r1 r2 : (∀ f, f ∈ node_fields m → f ∉ G) → (∀ f, f ∉ G → ft !! f = f2 !! f) → off r1 r2 →
    new_node E ft m = Ok n → tests_at E ft r1 r2 n n ∧ tests_agree E ft f2 n n.
  Proof.
    intros Hm Hft Hr. revert n Hm. induction m as [id dc sc c ds ns p IH] using mnode_rect'. intros n Hf. cbn [node_fields] in Hf.
    cbn [new_node]. intros (cs & Hcs & (q & Hq & [= <-])%rbind_ok)%rbind_ok.
    assert (Forall2 (tests_at E ft r1 r2) cs cs ∧ Forall2 (tests_agree E ft f2) cs cs) as [H1 H2].
    { assert (Hns : ∀ f, f ∈ concat (map node_fields ns) → f ∉ G) by (intros; apply Hf; set_solver).
      clear Hf Hq. revert cs Hcs. induction IH as [|m ns Hm _ IHn]; intros cs; simpl.
      { intros [= <-]. by split. }
      intros (x & Hx & (xs & Hxs & [= <-])%rbind_ok)%rbind_ok.
      destruct (Hm x) as [Ha Hb]; [intros f Hfx; apply Hns; simpl; set_solver|done|].
      destruct (IHn (λ f Hfx, Hns f ltac:(simpl; set_solver)) xs Hxs) as [Hc Hd].
      split; by constructor. }
    pose proof (compile_keeps_fields _ _ _ _ Hq) as Hk.
    split; constructor; try done.
    - apply ProofsPred.run_test_local. intros f. rewrite Hk. intros Hfp. apply off_get; [done|]. apply Hf. set_solver.
    - intros r. apply ProofsEquiv.run_test_local. intros f. rewrite Hk. intros Hfp. apply Hft, Hf. set_solver.
  Qed.

  Lemma tree_dropped td1 td2 t lt : types_off td1 td2 → dropped G P (tm_lt t) lt →
    (∀ f, f ∈ node_fields (tm_node t) → f ∉ G) →
    dropped_alike (new_model E dd td1 (DTree t)) (new_model E dd td2 (DTree (tree_with_lt t lt))).
  Proof.
    intros Htd Hd Hf. unfold dropped_alike. cbn [new_model]. unfold new_tree_model, tree_validate, tree_with_lt.
    cbn [et_model tm_function et_dd et_ft et_root et_outkeys et_target et_compiled].
    destruct (_ && _); [done|].
    unfold tree_compile. cbn [et_model tm_lt tm_schema tm_node et_dd et_target et_validated et_compiled et_outkeys et_root
      tm_function tm_strategy tm_penalty tm_notrue tm_verification].
    rewrite !mf_defaults_target.
    pose proof (types_off_app _ _ _ _ Htd (types_off_dropped _ _ Hd)) as Hty.
    pose proof (λ f, types_off_types _ _ f Hty) as Hft.
    rewrite (new_node_local E (field_types dd (td2 ++ lt)) (field_types dd (td1 ++ tm_lt t))).
    2:{ intros f Hm. symmetry. by apply Hft, Hf. }
    destruct (new_node E _ (tm_node t)) as [n| |] eqn:Hn; [|done..]. split; [done|].
    cbn [fst]. intros tk r1 r2 Hr. cbn [evaluate]. unfold tree_evaluate.
    cbn [et_validated et_compiled negb et_model tm_lt tm_strategy tm_schema et_root].
    pose proof (off_input _ _ Hd _ _ Hr) as Hi.
    destruct (handle_input E (tm_lt t) r1) as [o1 r1'], (handle_input E lt r2) as [o2 r2'].
    unfold sim in Hi. cbn [fst snd] in Hi. destruct Hi as [[<- Hi]|[HS Ho]].
    2:{ right. split; [done|]. by destruct o1 as [out|x|p]; [destruct (Ho out)|..]. }
    destruct o1 as [u|x|p]; [|by left..].
    unfold tree_ctx. cbn [et_ft et_dd et_target et_model tm_penalty tm_notrue].
    destruct (node_tests_off _ _ _ _ r1' r2' Hf Hft Hi Hn) as [H1 H2].
    rewrite (node_evaluate_at E (Tctx (field_types dd (td1 ++ tm_lt t)) dd _ _ _) r1' r2' _ tk n n H1).
    pose proof (node_evaluate_agree E
      (Tctx (field_types dd (td1 ++ tm_lt t)) dd (target_field (tm_schema t)) (tm_penalty t) (tm_notrue t))
      (Tctx (field_types dd (td2 ++ lt)) dd (target_field (tm_schema t)) (tm_penalty t) (tm_notrue t)) eq_refl) as Hev.
    feed specialize Hev.
    { intros. rewrite !output_dist_values. cbn [cx_notrue cx_target cx_dd]. by rewrite H. }
    rewrite (Hev _ r2' tk n n H2). clear Hev.
    destruct (node_evaluate _ _ _ _ _ _) as [[s v]| |]; [|by left..]. destruct v; try by left.
    unfold tree_output. cbn [et_model et_target et_outkeys tm_function].
    repeat (destruct (_ =s _); [|]); try by left.
    all: try by destruct (foldl _ _ _); left.
  Qed.

  (** ** Documents *)
  Notation both := (λ e1 e2, ∀ tk r1 r2, off r1 r2 → sim (evaluate E tk e1 r1).1 (evaluate E tk e2 r2).1).

  Lemma segments_dropped segs1 segs2 :
    Forall2 (λ s1 s2, Forall2 (λ d1 d2, ∀ td1 td2, types_off td1 td2 →
        dropped_alike (new_model E dd td1 d1) (new_model E dd td2 d2)) (sg_models s1) (sg_models s2)) segs1 segs2 →
    ∀ td1 td2 a1 a2, types_off td1 td2 → Forall2 both a1 a2 →
    match compile_segments (new_model E dd) td1 a1 segs1, compile_segments (new_model E dd) td2 a2 segs2 with
    | (o1, s1, t1), (o2, s2, t2) => o1 = o2 ∧ types_off t1 t2 ∧ Forall2 both s1 s2
    end.
  Proof.
    induction 1 as [|[i1 ps1 ms1] [i2 ps2 ms2] segs1 segs2 Hs _ IH]; intros td1 td2 a1 a2 Htd Ha; [by simpl|].
    cbn [compile_segments]. simpl in Hs.
    destruct Hs as [|d1 d2 ms1 ms2 Hd Hs]; [done|]. destruct Hs as [|d3 d4 ms1 ms2 Hd' Hs].
    - specialize (Hd td1 td2 Htd). unfold dropped_alike in Hd.
      destruct (new_model E dd td1 d1) as [[e1|x|p] t1], (new_model E dd td2 d2) as [[e2|x'|p'] t2];
        simpl in Hd; destruct Hd as [Hn Hd]; try done; try (split; [congruence|done]).
      apply IH; [done|]. apply Forall2_app; [done|]. by constructor.
    - split; [|done]. cbn [length]. by rewrite (Forall2_length _ _ _ Hs).
  Qed.

  Lemma redefined_dropped d1 d2 : redefined (dropped G P) d1 d2 → (∀ f, f ∈ consulted d1 → f ∉ G) →
    ∀ td1 td2, types_off td1 td2 → dropped_alike (new_model E dd td1 d1) (new_model E dd td2 d2).
  Proof.
    revert d2. induction d1 as [t|m|k|h segs IH] using doc_rect'; intros d2 Hr Hf td1 td2 Htd;
      inversion Hr as [t1 lt Ht| | |h' lt sg1 segs2 Hlt Hsegs]; subst.
    - by apply tree_dropped.
    - split; [done|]. simpl. intros tk r1 r2 Hrow. left. split; [|done]. cbn [fst].
      destruct (C58_locality E dd td1 m _ _ [] [] [] [] r1 r2 eq_refl) as [H _]; [|exact H].
      intros t p Ht Hp. apply off_get; [done|]. apply Hf. cbn [consulted].
      apply elem_of_list_In, in_concat. exists (map np_name (rt_predictors t)). split.
      + apply in_map_iff. exists t. split; [done|]. by apply elem_of_list_In.
      + apply in_map. by apply elem_of_list_In.
    - by split.
    - assert (Forall2 (λ s1 s2, Forall2 (λ d1 d2, ∀ td1 td2, types_off td1 td2 →
        dropped_alike (new_model E dd td1 d1) (new_model E dd td2 d2)) (sg_models s1) (sg_models s2)) segs segs2) as Hs.
      { cbn [consulted] in Hf. clear -IH Hsegs Hf. induction Hsegs as [|s1 s2 l1 l2 Hs _ IHl]; [constructor|].
        apply Forall_cons in IH as [IH1 IH]. constructor.
        2:{ apply IHl; [done|]. intros f Hin. apply Hf. simpl. set_solver. }
        assert (∀ f, f ∈ concat (map consulted (sg_models s1)) → f ∉ G) as Hf1.
        { intros f Hin. apply Hf. destruct s1. simpl in *. set_solver. }
        clear -IH1 Hs Hf1. induction Hs as [|a b la lb Hab _ IHa]; [constructor|].
        apply Forall_cons in IH1 as [H1 IH1]. constructor.
        - apply H1; [done|]. intros f Hin. apply Hf1. simpl. set_solver.
        - apply IHa; [done|]. intros f Hin. apply Hf1. simpl. set_solver. }
      rewrite !new_model_mining.
      assert (mm_method (header_of (header_with_lt h lt)) = mm_method (header_of h)) as Hm by (unfold header_of, header_with_lt; simpl; by destruct (_ =s _)). rewrite Hm.
      cbn [header_with_lt mm_output]. fold (header_with_lt h lt).
      pose proof (types_off_app _ _ _ _ Htd (types_off_dropped _ _ Hlt)) as Hty.
      destruct (negb _); [by split|]. destruct (List.find _ _); [by split|].
      pose proof (segments_dropped segs segs2 Hs (td1 ++ mm_lt h) (td2 ++ mm_lt (header_with_lt h lt)) [] []) as Hc.
      feed specialize Hc. { done. } { constructor. }
      destruct (compile_segments _ _ _ segs) as [[o1 s1] t1], (compile_segments _ _ _ segs2) as [[o2 s2] t2].
      destruct Hc as (-> & Hn & Hc). destruct o2 as [u|x|p]; [|by split..].
      split; [done|]. intros tk r1 r2 Hrow. cbn [fst]. rewrite !mining_evaluate_run by done.
      cbn [built_mining em_defaults em_hdr header_with_lt mm_schema].
      destruct (off_impute (4 :: tk) (default_values (mm_schema h)) r1 r2 Hrow) as [(a & b & -> & -> & Hab)|(p & -> & ->)]; [|by left].
      rewrite !header_of_lt. change (mm_lt (header_with_lt h lt)) with lt.
      pose proof (off_input _ _ Hlt _ _ Hab) as Hi.
      destruct (handle_input E (mm_lt h) a) as [o1 r1'], (handle_input E lt b) as [o2 r2'].
      unfold sim in Hi. cbn [fst snd] in Hi. destruct Hi as [[<- Hi]|[HS Ho]].
      2:{ right. split; [done|]. by destruct o1 as [out|x|p]; [destruct (Ho out)|..]. }
      destruct o1 as [u'|x|p]; [|by left..].
      match goal with |- context [run_method E tk ?x _ s2 _] =>
        assert (∀ ev : nat → emodel → datarow → outcome emodel, run_method E tk x ev s2 r2' = run_method E tk (built_mining dd td1 h segs) ev s2 r2') as -> end.
      { intros ev. apply run_method_header.
        - apply Hm.
        - cbn [built_mining em_segs]. symmetry. by eapply Forall2_length.
        - cbn [built_mining em_hdr]. by rewrite !header_of_function.
        - done.
        - done. }
      pose proof (off_run tk (λ i s r, evaluate E (5 :: i :: tk) s r) (λ i s r, evaluate E (5 :: i :: tk) s r)
        (built_mining dd td1 h segs) s1 s2 r1' r2') as Hrun.
      feed specialize Hrun. { eapply Forall2_impl; [exact Hc|]. intros x y Hxy i q1 q2 Hq. by apply Hxy. } { done. }
      destruct (run_method _ _ _ _ s1 _) as [[? ?] ?], (run_method _ _ _ _ s2 _) as [[? ?] ?]. exact Hrun.
  Qed.
End unread.
