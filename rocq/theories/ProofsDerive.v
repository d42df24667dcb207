(** Derived fields written differently. *)
From Verif Require Import Base Strconv Value Doc Expr Pred Tree Regression Model Lib
  SpecPred ProofsPred SpecExpr ProofsExpr SpecConstruct ProofsConstruct ProofsRange
  SpecTree ProofsTree ProofsOutput ProofsEval ProofsDoc ProofsSafe ProofsWhole ProofsSim
  SpecEssence ProofsEssence SpecEquiv ProofsEquiv SpecDerive.

Lemma fadd_comm x y : fadd x y = fadd y x.
Proof.
  destruct x as [[]|[]| |[] mx ex], y as [[]|[]| |[] my ey]; try done; unfold fadd, SFadd;
    rewrite (Z.min_comm ex ey); f_equal; apply Z.add_comm.
Qed.
Lemma fmul_comm x y : fmul x y = fmul y x.
Proof.
  destruct x as [[]|[]| |[] mx ex], y as [[]|[]| |[] my ey]; try done; unfold fmul, SFmul;
    by rewrite (Pos.mul_comm mx my), (Z.add_comm ex ey).
Qed.

(** ** Expressions *)
Lemma sum_args E r d m args1 args2 : Forall2 (λ a b, handle_expr E a r = handle_expr E b r) args1 args2 →
  handle_expr E (XApply "sum" d m args1) r = handle_expr E (XApply "sum" d m args2) r.
Proof.
  intros H. rewrite !handle_sum. generalize fzero.
  induction H as [|a b l1 l2 Hab _ IH]; intros z; simpl; [done|]. rewrite Hab. destruct (handle_expr E b r); simpl; [apply IH|done..].
Qed.
Lemma handle_args E r fn d m args1 args2 : Forall2 (λ a b, handle_expr E a r = handle_expr E b r) args1 args2 →
  handle_expr E (XApply fn d m args1) r = handle_expr E (XApply fn d m args2) r.
Proof.
  intros H. destruct (decide (fn = "sum")) as [->|Hsum]; [by apply sum_args|].
  cbn [handle_expr]. apply String.eqb_neq in Hsum as ->.
  destruct H as [|a1 b1 l1 l2 H1 H]; [done|]. rewrite H1.
  destruct H as [|a2 b2 l1 l2 H2 H]; [done|]. rewrite H2.
  destruct H as [|a3 b3 l1 l2 H3 H]; [done|]. rewrite H3.
  destruct H as [|a4 b4 l1 l2 H4 H]; [done|]. apply Forall2_length in H. simpl. by rewrite H.
Qed.
Lemma settled_ok E r e : settled e = true → ∃ v, handle_expr E e r = Ok v.
Proof.
  induction e as [f m|dt v|fn d m args IH|a b c d e f|k] using expr_rect'; intros Hs; simpl in Hs; try done; [by eexists|].
  apply andb_true_iff in Hs as [Ha Hf]. apply bool_decide_eq_true in Hf.
  assert (Forall (λ e, ∃ v, handle_expr E e r = Ok v) args) as Hargs.
  { clear Hf. induction IH as [|a args H _ IHl]; [constructor|]. simpl in Ha. apply andb_true_iff in Ha as [Ha Hl].
    constructor; [by apply H|by apply IHl]. }
  destruct Hf as [->|[[Hf Hl]|[[Hf Hl]|[-> Hl]]]].
  - rewrite handle_sum. generalize fzero. induction Hargs as [|a args [v Hv] _ IHa]; intros s; simpl; [by eexists|].
    rewrite Hv. simpl. apply IHa. { by apply Forall_cons in IH as [_ ?]. } { simpl in Ha. by apply andb_true_iff in Ha as [_ ?]. }
  - destruct args as [|a [|b [|? ?]]]; try done. apply Forall_cons in Hargs as [[va Hva] Hargs]. apply Forall_cons in Hargs as [[vb Hvb] _].
    repeat (apply elem_of_cons in Hf as [->|Hf]); [..|by apply elem_of_nil in Hf]; simpl; rewrite Hva, Hvb; by eexists.
  - destruct args as [|a [|? ?]]; try done. apply Forall_cons in Hargs as [[va Hva] _].
    repeat (apply elem_of_cons in Hf as [->|Hf]); [..|by apply elem_of_nil in Hf]; simpl; rewrite Hva; by eexists.
  - destruct args as [|c [|a [|b [|? ?]]]]; try done. apply Forall_cons in Hargs as [[vc Hvc] Hargs].
    apply Forall_cons in Hargs as [[va Hva] Hargs]. apply Forall_cons in Hargs as [[vb Hvb] _].
    simpl. rewrite Hvc, Hva, Hvb. simpl. destruct (val_bool vc); by eexists.
Qed.
Lemma short_perm {A} (l1 l2 : list A) : Permutation l1 l2 → length l1 ≤ 1 → l1 = l2.
Proof.
  intros Hp Hl. destruct l1 as [|a [|b l1]]; simpl in Hl; [by apply Permutation_nil in Hp|by apply Permutation_length_1_inv in Hp|lia].
Qed.
Lemma filter_unique {A} (f : A → string) s (l : list A) : NoDup (f <$> l) → length (filter (λ x, f x = s) l) ≤ 1.
Proof.
  induction l as [|a l IH]; intros Hn; [simpl; lia|]. rewrite fmap_cons in Hn. apply NoDup_cons in Hn as [Ha Hn].
  rewrite filter_cons. case_decide as Hs; [|by apply IH]. simpl. assert (filter (λ x, f x = s) l = []) as ->; [|simpl; lia].
  clear IH Hn. induction l as [|b l IH]; [done|]. rewrite filter_cons. rewrite fmap_cons, not_elem_of_cons in Ha. destruct Ha as [Hne Ha].
  rewrite decide_False by congruence. by apply IH.
Qed.
Lemma same_expr_value E a b : same_expr a b → ∀ r, handle_expr E a r = handle_expr E b r.
Proof.
  induction 1 as [a|a b _ IH|a b c _ IH1 _ IH2|fn d m l1 l2 a b _ IH|fn d m a b Hfn Ha|d m d1 m1 d2 m2 c a b|d m c a Hc|
    pairs t1 t2 dflt dt oc mmt Hn Hp]; intros r.
  - done.
  - by rewrite IH.
  - by rewrite IH1, IH2.
  - apply handle_args. apply Forall2_app; [by apply Forall_Forall2_diag, Forall_forall|]. constructor; [done|].
    by apply Forall_Forall2_diag, Forall_forall.
  - destruct (settled_ok E r a Ha) as [va Hva].
    repeat (apply elem_of_cons in Hfn as [->|Hfn]); [..|by apply elem_of_nil in Hfn]; cbn [handle_expr]; simpl;
      rewrite Hva; simpl; destruct (handle_expr E b r); simpl; try done; unfold arith; simpl; do 2 f_equal; [apply fadd_comm|apply fmul_comm].
  - rewrite !handle_if, handle_isMissing, handle_isNotMissing. destruct (handle_expr E c r) as [v| |]; simpl; try done.
    by case_bool_decide.
  - rewrite handle_if. destruct (settled_ok E r c Hc) as [vc ->]. by destruct vc as [|[]|?|?|?|? ?|? ?].
  - cbn [handle_expr]. unfold handle_map_values. rewrite !foldl_concat.
    destruct (map_table_steps E (concat t1) (map_columns pairs r)) as [H1 H2].
    destruct (map_table_steps E (concat t2) (map_columns pairs r)) as [H3 H4].
    rewrite H1, H2, H3, H4. erewrite (short_perm (filter _ (concat t1))); [done| |].
    + by apply filter_Permutation.
    + by apply filter_unique.
Qed.

Lemma inline_value E f x v r e : handle_expr E x r = Ok v → default GNil (dr_get r f) = v → f ∉ table_fields e →
  handle_expr E (inline f x e) r = handle_expr E e r.
Proof.
  intros Hx Hv. induction e as [g m|dt w|fn d m args IH|a b c d e g|k] using expr_rect'; intros Hf; try done.
  - cbn [inline]. case_decide as Hg; [|done]. subst g. by rewrite Hx, <- Hv.
  - cbn [inline]. apply handle_args. simpl in Hf. induction IH as [|a args Ha _ IHa]; [constructor|]. simpl in Hf.
    apply not_elem_of_app in Hf as [Hf1 Hf2]. simpl. constructor; [by apply Ha|by apply IHa].
Qed.
Lemma numeric_value E e r v : numeric e → handle_expr E e r = Ok v → ∃ f, v = GF64 f.
Proof.
  destruct e as [f m|dt w|fn d m args|a b c d e g|k]; try done; intros Hn.
  - simpl. unfold handle_constant. case_str; [|done]. destruct (ext_parse_float E w); [|done]. intros [= <-]. by eexists.
  - simpl in Hn. destruct (decide (fn = "sum")) as [->|Hs].
    { rewrite handle_sum. generalize fzero. induction args as [|a args IH]; intros s; simpl; [intros [= <-]; by eexists|].
      destruct (handle_expr E a r); simpl; try done. apply IH. }
    apply elem_of_cons in Hn as [|Hn]; [done|].
    assert (is_arith fn = true) as Ha.
    { repeat (apply elem_of_cons in Hn as [->|Hn]); [..|by apply elem_of_nil in Hn]; done. }
    cbn [handle_expr]. apply String.eqb_neq in Hs as ->. rewrite Ha. destruct args as [|a [|b [|? ?]]]; try done.
    destruct (handle_expr E a r); simpl; try done. destruct (handle_expr E b r); simpl; try done. intros [= <-]. by eexists.
Qed.

(** ** Lists of derived fields *)
Notation type_step := (λ (ft : fieldtypes) (df : derived_field), <[df_name df := df_datatype df]> ft).
Definition interchangeable (l1 l2 : list derived_field) : Prop :=
  (∀ E r, handle_input E l1 r = handle_input E l2 r) ∧ (∀ m, foldl type_step m l1 = foldl type_step m l2).

Lemma interchangeable_in l1 a b l2 : interchangeable a b → interchangeable (l1 ++ a ++ l2) (l1 ++ b ++ l2).
Proof.
  intros [H1 H2]. split.
  - intros E r. rewrite !(handle_input_app E l1). destruct (handle_input E l1 r) as [[]?]; try done.
    rewrite !handle_input_app. by rewrite H1.
  - intros m. rewrite !foldl_app. by rewrite H2.
Qed.
Lemma same_derivation_sound l1 l2 : same_derivation l1 l2 → interchangeable l1 l2.
Proof.
  induction 1 as [l|l1 l2 _ [H1 H2]|l1 l2 l3 _ [H1 H2] _ [H3 H4]|l1 df e l2 He|l1 a b l2 Ha Hb Hne Hab Hba|
    l1 a l2 b l3 Ho Ha Hn Hr Ht|l1 a b l2 Ha Hb Hn Hab].
  - done.
  - split; intros; symmetry; auto.
  - split; intros; etrans; eauto.
  - apply (interchangeable_in l1 [df] [with_expr df e] l2). split; [|done]. intros E r. simpl. by rewrite (same_expr_value E _ _ He).
  - apply (interchangeable_in l1 [a; b] [b; a] l2). split.
    + intros E r. simpl. destruct (settled_ok E r _ Ha) as [va Hva]. destruct (settled_ok E r _ Hb) as [vb Hvb]. rewrite Hva, Hvb.
      destruct r as [m|]; [|done]. simpl.
      rewrite (handle_expr_local E (df_expr b) _ (Some m)), (handle_expr_local E (df_expr a) _ (Some m)), Hva, Hvb.
      * by rewrite insert_commute.
      * intros f Hf. simpl. apply lookup_insert_ne. intros Heq. by rewrite <- Heq in Hf.
      * intros f Hf. simpl. apply lookup_insert_ne. intros Heq. by rewrite <- Heq in Hf.
    + intros m. simpl. by rewrite insert_commute.
  - set (b' := with_expr b _).
    assert (interchangeable (a :: l2 ++ [b]) (a :: l2 ++ [b'])) as H.
    { split; [|intros m; simpl; by rewrite !foldl_app].
      intros E r. simpl. destruct (handle_expr E (df_expr a) r) as [v| |] eqn:Hv; try done.
      destruct r as [m|]; [|done]. simpl.
      assert ((if df_optype a =s "continuous" then GF64 (val_float64 E v) else v) = v) as ->.
      { destruct Ho as [Ho|Ho]; [by apply String.eqb_neq in Ho as ->|].
        destruct (numeric_value _ _ _ _ Ho Hv) as [f ->]. by case_str. }
      rewrite !handle_input_app. destruct (handle_input E l2 _) as [[[]| |] r'] eqn:H2; try done.
      destruct (handle_input_ok_some _ _ _ _ _ H2) as [m' ->]. simpl.
      rewrite (inline_value E _ _ v); [done| | |done].
      - rewrite <- Hv. apply handle_expr_local. intros f Hf. simpl.
        destruct (handle_input_frame _ _ _ _ _ f H2) as (m'' & [= <-] & ->); [by apply Hr|].
        apply lookup_insert_ne. intros Heq. by rewrite <- Heq in Hf.
      - simpl. destruct (handle_input_frame _ _ _ _ _ (df_name a) H2) as (m'' & [= <-] & ->); [done|].
        by rewrite lookup_insert. }
    apply (interchangeable_in l1 _ _ l3) in H. by rewrite <- !app_comm_cons, <- !app_assoc in H.
  - apply (interchangeable_in l1 [a; b] [b] l2). split.
    + intros E r. simpl. destruct (settled_ok E r _ Ha) as [va Hva]. destruct (settled_ok E r _ Hb) as [vb Hvb]. rewrite Hva, Hvb.
      destruct r as [m|]; [|done]. simpl.
      rewrite (handle_expr_local E (df_expr b) _ (Some m)), Hvb.
      * by rewrite Hn, insert_insert.
      * intros f Hf. simpl. apply lookup_insert_ne. intros Heq. by rewrite <- Heq in Hf.
    + intros m. simpl. by rewrite Hn, insert_insert.
Qed.

(** ** Documents *)

(** The same types from two lists of derived fields. *)
Definition same_types (l1 l2 : list derived_field) : Prop := ∀ m, foldl type_step m l1 = foldl type_step m l2.
Lemma same_types_app a1 a2 b1 b2 : same_types a1 a2 → same_types b1 b2 → same_types (a1 ++ b1) (a2 ++ b2).
Proof. intros H1 H2 m. rewrite !foldl_app, H1. apply H2. Qed.

Definition no_different (E : Ext) (x y : res emodel * list derived_field) : Prop :=
  same_types x.2 y.2 ∧
  match x.1, y.1 with
  | Ok e1, Ok e2 => ∀ tk r, (evaluate E tk e1 r).1 = (evaluate E tk e2 r).1
  | Err a, Err b => a = b
  | Panic a, Panic b => a = b
  | _, _ => False
  end.

Lemma tree_redefined E dd td1 td2 t lt : same_types td1 td2 → interchangeable (tm_lt t) lt →
  no_different E (new_model E dd td1 (DTree t)) (new_model E dd td2 (DTree (tree_with_lt t lt))).
Proof.
  intros Htd [Hi Ht]. unfold no_different. cbn [new_model]. unfold new_tree_model, tree_validate, tree_with_lt.
  cbn [et_model tm_function et_dd et_ft et_root et_outkeys et_target et_compiled].
  destruct (_ && _); [done|].
  unfold tree_compile. cbn [et_model tm_lt tm_schema tm_node et_dd et_target et_validated et_compiled et_outkeys et_root
    tm_function tm_strategy tm_penalty tm_notrue tm_verification].
  pose proof (same_types_app _ _ _ _ Htd Ht) as Hn.
  assert (field_types dd (td1 ++ tm_lt t) = field_types dd (td2 ++ lt)) as -> by apply Hn.
  destruct (new_node E _ (tm_node t)) as [n| |]; [|done..]. split; [done|].
  cbn [fst]. intros tk r. cbn [evaluate]. unfold tree_evaluate.
  cbn [et_validated et_compiled negb et_model tm_lt tm_strategy tm_schema et_root].
  rewrite Hi. destruct (handle_input E lt r) as [[u|x|p] r']; [|done..].
  unfold tree_ctx. cbn [et_ft et_dd et_target et_model tm_penalty tm_notrue].
  destruct (node_evaluate _ _ _ _ _ _) as [[s v]| |]; [|done..]. destruct v; try done.
  unfold tree_output. cbn [et_model et_target et_outkeys tm_function].
  repeat (destruct (_ =s _); [|]); try done.
  all: try by destruct (foldl _ _ _).
Qed.

Lemma segments_redefined E dd segs1 segs2 :
  Forall2 (λ s1 s2, Forall2 (λ d1 d2, ∀ td1 td2, same_types td1 td2 →
      no_different E (new_model E dd td1 d1) (new_model E dd td2 d2)) (sg_models s1) (sg_models s2)) segs1 segs2 →
  ∀ td1 td2 a1 a2, same_types td1 td2 →
  Forall2 (λ e1 e2, ∀ tk r, (evaluate E tk e1 r).1 = (evaluate E tk e2 r).1) a1 a2 →
  match compile_segments (new_model E dd) td1 a1 segs1, compile_segments (new_model E dd) td2 a2 segs2 with
  | (o1, s1, t1), (o2, s2, t2) =>
      o1 = o2 ∧ same_types t1 t2 ∧
      Forall2 (λ e1 e2, ∀ tk r, (evaluate E tk e1 r).1 = (evaluate E tk e2 r).1) s1 s2
  end.
Proof.
  induction 1 as [|[i1 ps1 ms1] [i2 ps2 ms2] segs1 segs2 Hs _ IH]; intros td1 td2 a1 a2 Htd Ha; [by simpl|].
  cbn [compile_segments]. simpl in Hs.
  destruct Hs as [|d1 d2 ms1 ms2 Hd Hs]; [done|]. destruct Hs as [|d3 d4 ms1 ms2 Hd' Hs].
  - specialize (Hd td1 td2 Htd). unfold no_different in Hd.
    destruct (new_model E dd td1 d1) as [[e1|x|p] t1], (new_model E dd td2 d2) as [[e2|x'|p'] t2];
      simpl in Hd; destruct Hd as [Hn Hd]; try done; try (split; [congruence|done]).
    apply IH; [done|]. apply Forall2_app; [done|]. by constructor.
  - split; [|done]. cbn [length]. by rewrite (Forall2_length _ _ _ Hs).
Qed.

Lemma redefined_no_different E dd (L : list derived_field → list derived_field → Prop) :
  (∀ l1 l2, L l1 l2 → interchangeable l1 l2) →
  ∀ d1 d2, redefined L d1 d2 → ∀ td1 td2, same_types td1 td2 →
  no_different E (new_model E dd td1 d1) (new_model E dd td2 d2).
Proof.
  intros HL d1. induction d1 as [t|m|k|h segs IH] using doc_rect'; intros d2 Hr td1 td2 Htd;
    inversion Hr as [t1 lt Ht| | |h' lt sg1 segs2 Hlt Hsegs]; subst.
  - apply tree_redefined; auto.
  - by split.
  - by split.
  - destruct (HL _ _ Hlt) as [Hi Ht].
    assert (Forall2 (λ s1 s2, Forall2 (λ d1 d2, ∀ td1 td2, same_types td1 td2 →
      no_different E (new_model E dd td1 d1) (new_model E dd td2 d2)) (sg_models s1) (sg_models s2)) segs segs2) as Hs.
    { clear -IH Hsegs. induction Hsegs as [|s1 s2 l1 l2 Hs _ IHl]; [constructor|].
      apply Forall_cons in IH as [IH1 IH]. constructor; [|by apply IHl].
      clear -IH1 Hs. induction Hs as [|a b la lb Hab _ IHa]; [constructor|].
      apply Forall_cons in IH1 as [H1 IH1]. constructor; [by apply H1|by apply IHa]. }
    rewrite !new_model_mining.
    assert (mm_method (header_of (header_with_lt h lt)) = mm_method (header_of h)) as Hm by (unfold header_of, header_with_lt; simpl; by destruct (_ =s _)). rewrite Hm.
    cbn [header_with_lt mm_output]. fold (header_with_lt h lt).
    destruct (negb _); [by split|]. destruct (List.find _ _); [by split|].
    pose proof (segments_redefined E dd segs segs2 Hs (td1 ++ mm_lt h) (td2 ++ mm_lt (header_with_lt h lt)) [] []) as Hc.
    feed specialize Hc. { by apply same_types_app. } { constructor. }
    destruct (compile_segments _ _ _ segs) as [[o1 s1] t1], (compile_segments _ _ _ segs2) as [[o2 s2] t2].
    destruct Hc as (-> & Hn & Hc). destruct o2 as [u|x|p]; [|by split..].
    split; [done|]. intros tk r. cbn [fst]. rewrite !mining_evaluate_run by done.
    cbn [built_mining em_defaults em_hdr header_with_lt mm_schema].
    destruct (impute _ _ _ _) as [r1|x|p]; [|done..].
    rewrite !header_of_lt. cbn [mm_lt]. rewrite Hi.
    destruct (handle_input _ _ _) as [[u'|x|p] r2]; [|done..].
    match goal with |- context [run_method E tk ?x _ s2 _] =>
      assert (∀ ev : nat → emodel → datarow → outcome emodel, run_method E tk x ev s2 r2 = run_method E tk (built_mining dd td1 h segs) ev s2 r2) as -> end.
    { intros ev. apply run_method_header.
      - apply Hm.
      - cbn [built_mining em_segs]. symmetry. by eapply Forall2_length.
      - cbn [built_mining em_hdr]. by rewrite !header_of_function.
      - done.
      - done. }
    pose proof (run_method_sim E E (same_world_refl E)
        (λ e1 e2, ∀ tk r, (evaluate E tk e1 r).1 = (evaluate E tk e2 r).1) (λ _ _, True) (λ _ _ _, I)
        (λ i s r, evaluate E (5 :: i :: tk) s r) (λ i s r, evaluate E (5 :: i :: tk) s r)) as Hr'.
    feed specialize Hr'. { intros i e1 e2 r' He. split; [apply He|done]. }
    specialize (Hr' tk tk (built_mining dd td1 h segs) s1 s2 r2 Hc) as [Hr' _].
    destruct (run_method _ _ _ _ s1 _) as [[? ?] ?], (run_method _ _ _ _ s2 _) as [[? ?] ?]. exact Hr'.
Qed.

Lemma redefined_same E dd (L : list derived_field → list derived_field → Prop) td d1 d2 e1 td' calls1 calls2 :
  (∀ l1 l2, L l1 l2 → interchangeable l1 l2) → redefined L d1 d2 →
  new_model E dd td d1 = (Ok e1, td') →
  ∃ e2 td2', new_model E dd td d2 = (Ok e2, td2') ∧
    ∀ tk r, (evaluate E tk (after E calls1 e1) r).1 = (evaluate E tk (after E calls2 e2) r).1.
Proof.
  intros HL Hd H1. destruct (redefined_no_different E dd L HL d1 d2 Hd td td (λ _, eq_refl)) as [_ H].
  rewrite H1 in H. destruct (new_model E dd td d2) as [[e2|x|p] td2'] eqn:H2; simpl in H; try done.
  exists e2, td2'. split; [done|]. intros tk r.
  by rewrite (history_independent _ _ _ _ _ _ _ _ _ H1), (history_independent _ _ _ _ _ _ _ _ _ H2).
Qed.
