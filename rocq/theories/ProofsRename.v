(** A renamed document computes the renamed result. *)
From Verif Require Import Base Strconv Value Doc Expr Pred Tree Regression Model Lib
  SpecPred ProofsPred SpecExpr ProofsExpr SpecConstruct ProofsConstruct ProofsRange
  SpecTree ProofsTree ProofsOutput ProofsEval ProofsWhole SpecRename.

Section rename.
  Context (ρ : string → string) (Hinj : Inj (=) (=) ρ) (Hres : keeps_reserved ρ).
  Local Existing Instance Hinj.
  Notation ren := (ren_row ρ).

  Lemma ρ_eqb a b : (ρ a =s ρ b) = (a =s b).
  Proof.
    destruct (String.eqb_spec a b) as [->|H]; [apply String.eqb_refl|].
    apply String.eqb_neq. intros Hr. by apply Hinj in Hr.
  Qed.

  Lemma ren_lookup {A} (m : gmap string A) k : ren m !! ρ k = m !! k.
  Proof. unfold ren_row. by rewrite lookup_kmap. Qed.

  Lemma ren_insert {A} (m : gmap string A) k v : ren (<[k := v]> m) = <[ρ k := v]> (ren m).
  Proof. unfold ren_row. by rewrite kmap_insert. Qed.

  Lemma ren_empty {A} : ren (∅ : gmap string A) = ∅.
  Proof. unfold ren_row. apply kmap_empty. Qed.

  Lemma eq_ren {A} (a b : gmap string A) :
    (∀ k, a !! ρ k = b !! k) → (∀ k, is_Some (a !! k) → ∃ j, k = ρ j) → a = ren b.
  Proof.
    intros H1 H2. apply map_eq. intros k. unfold ren_row.
    destruct (a !! k) as [v|] eqn:Hk.
    - destruct (H2 k ltac:(eauto)) as [j ->]. rewrite lookup_kmap by done. by rewrite <- H1, Hk.
    - symmetry. apply eq_None_not_Some. intros [v Hv]. apply lookup_kmap_Some in Hv as (j & -> & Hj); [|done].
      rewrite <- H1, Hk in Hj. done.
  Qed.

  (** rows that agree, through the renaming, on [S] *)
  Definition row_rel (S : string → Prop) (r1 r2 : datarow) : Prop :=
    (r1 = None ↔ r2 = None) ∧ ∀ k, S k → dr_get r2 (ρ k) = dr_get r1 k.

  Lemma row_rel_set S r1 r2 k v :
    row_rel S r1 r2 →
    match dr_set r1 k v, dr_set r2 (ρ k) v with
    | Ok a, Ok b => row_rel S a b
    | Panic p, Panic q => p = q
    | _, _ => False
    end.
  Proof.
    intros [Hn Hr]. destruct r1 as [m1|], r2 as [m2|]; simpl; try done; [|naive_solver..].
    split; [done|]. intros j Hj. simpl. specialize (Hr j Hj). simpl in Hr.
    destruct (decide (k = j)) as [->|Hkj]; [by rewrite !lookup_insert|].
    rewrite !lookup_insert_ne; [done|done|]. by intros ?%Hinj.
  Qed.

  (** ** Expressions and derived fields *)
  Section expr.
    Context (E : Ext) (S : string → Prop) (r1 r2 : datarow) (Hrow : row_rel S r1 r2).

    Lemma map_columns_ren pairs :
      (∀ f, f ∈ pairs.*1 → S f) →
      map_columns ((λ p, (ρ p.1, p.2)) <$> pairs) r2 = map_columns pairs r1.
    Proof.
      unfold map_columns. generalize (∅ : row). induction pairs as [|[f c] l IH]; intros cols Hs; [done|].
      rewrite fmap_cons. cbn [foldl fst snd]. rewrite (proj2 Hrow f) by (apply Hs; left). apply IH. intros g Hg. apply Hs. by right.
    Qed.

    Lemma handle_expr_ren e :
      (∀ f, f ∈ expr_fields e → S f) → handle_expr E (ren_expr ρ e) r2 = handle_expr E e r1.
    Proof.
      induction e as [f m|dt v|fn d m args IH|a b c d e f|k] using expr_rect'; intros Hs.
      - simpl. rewrite (proj2 Hrow f) by (apply Hs; left). done.
      - done.
      - assert (Forall (λ a, handle_expr E (ren_expr ρ a) r2 = handle_expr E a r1) args) as Ha.
        { rewrite Forall_forall in IH |- *. intros a Ha. apply IH; [done|]. intros f Hf. apply Hs. simpl.
          apply elem_of_list_In, in_concat. exists (expr_fields a).
          split; [by apply in_map, elem_of_list_In|by apply elem_of_list_In]. }
        clear IH Hs. cbn [ren_expr].
        destruct (decide (fn = "sum")) as [->|Hsum].
        { rewrite !handle_sum. generalize fzero.
          induction Ha as [|a args Ha _ IHa]; intros s; [done|]. rewrite fmap_cons. cbn [sum_loop].
          simpl. rewrite Ha. destruct (handle_expr E a r1); simpl; try done. }
        destruct (arith_meaning fn) as [op|] eqn:Har.
        { rewrite !(handle_arith _ _ _ _ _ _ _ Har).
          destruct Ha as [|a args Ha [|b args' Hb [|c args'' Hc H]]]; try done; cbn [fmap list_fmap].
          - by rewrite Ha, Hb.
          - simpl. by rewrite fmap_length. }
        simpl. apply String.eqb_neq in Hsum as ->.
        assert (is_arith fn = false) as ->.
        { unfold arith_meaning in Har. unfold is_arith.
          repeat case_str_in Har; repeat case_str; done. }
        assert (length (ren_expr ρ <$> args) = length args) as Hl by apply fmap_length.
        repeat case_str; try done.
        + destruct Ha as [|a args Ha [|b args' Hb H]]; simpl in *; try done; [by rewrite Ha|by rewrite fmap_length].
        + destruct Ha as [|a args Ha [|b args' Hb H]]; simpl in *; try done; [by rewrite Ha|by rewrite fmap_length].
        + destruct Ha as [|a args Ha [|b args' Hb [|c args'' Hc [|? ? ? ?]]]]; simpl in *; try done;
            [|by rewrite fmap_length]. by rewrite Ha, Hb, Hc.
      - simpl. unfold handle_map_values. by rewrite map_columns_ren.
      - done.
    Qed.
  End expr.

  Lemma row_rel_mono (S S' : string → Prop) r1 r2 : (∀ f, S' f → S f) → row_rel S r1 r2 → row_rel S' r1 r2.
  Proof. intros H [Hn Hr]. split; auto. Qed.

  Lemma row_rel_add (S : string → Prop) r1 r2 k v :
    row_rel S r1 r2 →
    match dr_set r1 k v, dr_set r2 (ρ k) v with
    | Ok a, Ok b => row_rel (λ f, S f ∨ f = k) a b
    | Panic p, Panic q => p = q
    | _, _ => False
    end.
  Proof.
    intros [Hn Hr]. destruct r1 as [m1|], r2 as [m2|]; simpl; try done; [|naive_solver..].
    split; [done|]. intros j Hj. simpl. destruct (decide (k = j)) as [->|Hkj]; [by rewrite !lookup_insert|].
    rewrite !lookup_insert_ne; [|done|by intros ?%Hinj]. destruct Hj as [Hj|Hj]; [by apply (Hr j)|congruence].
  Qed.

  Lemma handle_input_ren E (S : string → Prop) lt r1 r2 :
    row_rel S r1 r2 → (∀ f, f ∈ inputs_of lt → S f) →
    (handle_input E (ren_derived ρ <$> lt) r2).1 = (handle_input E lt r1).1 ∧
    row_rel S (handle_input E lt r1).2 (handle_input E (ren_derived ρ <$> lt) r2).2 ∧
    ∀ u, (handle_input E lt r1).1 = Ok u →
      row_rel (λ f, S f ∨ f ∈ map df_name lt) (handle_input E lt r1).2 (handle_input E (ren_derived ρ <$> lt) r2).2.
  Proof.
    revert S r1 r2. induction lt as [|df lt IH]; intros S r1 r2 Hrow Hs.
    { split; [done|]. split; [done|]. intros _ _. eapply row_rel_mono; [|exact Hrow]. set_solver. }
    rewrite fmap_cons. cbn [handle_input ren_derived df_expr df_optype df_name].
    rewrite (handle_expr_ren E S r1 r2 Hrow) by (intros f Hf; apply Hs; simpl; set_solver).
    destruct (handle_expr E (df_expr df) r1) as [v|x|p]; [|done..].
    pose proof (row_rel_add S r1 r2 (df_name df) (if df_optype df =s "continuous" then GF64 (val_float64 E v) else v) Hrow) as Hset.
    destruct (dr_set r1 _ _) as [a|x|p], (dr_set r2 _ _) as [b|y|q]; try done.
    - destruct (IH (λ f, S f ∨ f = df_name df) a b Hset) as (H1 & H2 & H3).
      { intros f Hf. destruct (decide (f = df_name df)) as [->|Hne]; [by right|]. left. apply Hs. simpl.
        apply elem_of_app. right. by apply elem_of_list_filter. }
      split; [done|]. split; [exact (row_rel_mono _ S _ _ (λ f Hf, or_introl Hf) H2)|].
      intros u Hu. eapply row_rel_mono; [|exact (H3 u Hu)]. simpl. intros f Hf.
      destruct Hf as [Hf|Hf]; [by left; left|]. apply elem_of_cons in Hf as [->|Hf]; [by left; right|by right].
    - by subst.
  Qed.

  (** ** Predicates *)
  Lemma eval_simple_ren E S ft f op raw r1 r2 :
    row_rel S r1 r2 → S f →
    eval_simple E (ren ft) (ρ f) op raw r2 = eval_simple E ft f op raw r1.
  Proof. intros Hrow Hf. unfold eval_simple. by rewrite ren_lookup, (proj2 Hrow f Hf). Qed.

  Lemma compound_loop_map (ev1 ev2 : predicate → res presult) (g : predicate → predicate) b n l tc uc :
    Forall (λ p, ev2 (g p) = ev1 p) l →
    compound_loop ev2 b n (g <$> l) tc uc = compound_loop ev1 b n l tc uc.
  Proof.
    intros H. revert tc uc. induction H as [|p l Hp _ IH]; intros tc uc; [done|].
    rewrite fmap_cons. cbn [compound_loop]. rewrite Hp.
    destruct (ev1 p) as [v| |]; simpl; try done. destruct (_ && _); [done|]. destruct v; apply IH.
  Qed.

  Lemma eval_operand_ren E S ft r1 r2 p :
    row_rel S r1 r2 → (∀ f, f ∈ pred_fields p → S f) →
    eval_operand E (ren ft) r2 (ren_pred ρ p) = eval_operand E ft r1 p.
  Proof.
    intros Hrow. induction p as [| |f op v raw|b ps IH|b f arr|] using predicate_rect'; intros Hs; try done.
    - simpl. apply (eval_simple_ren E S); [done|]. apply Hs. left.
    - cbn [ren_pred eval_operand]. rewrite fmap_length. apply compound_loop_map.
      rewrite Forall_forall in IH |- *. intros q Hq. apply IH; [done|]. intros f Hf. apply Hs. simpl.
      apply elem_of_list_In, in_concat. exists (pred_fields q).
      split; [by apply in_map, elem_of_list_In|by apply elem_of_list_In].
  Qed.

  Lemma run_test_ren E S ft r1 r2 p :
    row_rel S r1 r2 → (∀ f, f ∈ pred_fields p → S f) →
    run_test E (ren ft) (ren_pred ρ p) r2 = run_test E ft p r1.
  Proof.
    intros Hrow Hs. pose proof (eval_operand_ren E S ft r1 r2 p Hrow Hs) as H. by destruct p.
  Qed.

  Definition ren_res {A B} (g : A → B) (o : res A) : res B :=
    match o with Ok a => Ok (g a) | Err e => Err (ren_err ρ e) | Panic p => Panic p end.

  Lemma rmap_ren {A B} (f1 : A → res B) (f2 : A → res B) (h : A → A) (g : B → B) l :
    Forall (λ a, f2 (h a) = ren_res g (f1 a)) l →
    rmap f2 (h <$> l) = ren_res (fmap g) (rmap f1 l).
  Proof.
    induction 1 as [|a l Ha _ IH]; [done|]. rewrite fmap_cons. cbn [rmap]. rewrite Ha.
    destruct (f1 a); cbn [ren_res rbind]; try done. fold (rmap f2) (rmap f1). rewrite IH. by destruct (rmap f1 l).
  Qed.

  Lemma get_raw_err E dt s x : get_raw_value E dt s = Err x → ren_err ρ x = x.
  Proof. unfold get_raw_value. repeat case_str; repeat case_match; intros [= <-]; done. Qed.

  Lemma compile_predicate_ren E ft p :
    compile_predicate E (ren ft) (ren_pred ρ p) = ren_res (ren_pred ρ) (compile_predicate E ft p).
  Proof.
    induction p as [| |f op v raw|b ps IH|b f arr|] using predicate_rect'; try done.
    - simpl. rewrite ren_lookup. destruct (ft !! f) as [dt|]; [|done].
      destruct (get_raw_value E dt v) as [x|x|p] eqn:Hg; simpl; try done.
      by rewrite (get_raw_err _ _ _ _ Hg).
    - cbn [ren_pred compile_predicate]. rewrite (rmap_ren _ _ _ _ _ IH).
      destruct (rmap _ ps); simpl; done.
  Qed.

  Fixpoint ren_node (n : node) : node :=
    match n with
    | Node id dc cs ds t sc => Node id dc (ren_node <$> cs) ds (ren_pred ρ t) sc
    end.

  Lemma new_node_ren E ft m :
    new_node E (ren ft) (ren_mnode ρ m) = ren_res ren_node (new_node E ft m).
  Proof.
    induction m as [id dc sc c ds ns pr IH] using mnode_rect'. cbn [ren_mnode new_node].
    rewrite (rmap_ren _ _ _ _ _ IH). destruct (rmap _ ns); simpl; try done.
    rewrite compile_predicate_ren. by destruct (compile_predicate E ft pr).
  Qed.

  Lemma field_types_ren dd td :
    field_types (ren_data ρ <$> dd) (ren_derived ρ <$> td) = ren (field_types dd td).
  Proof.
    unfold field_types.
    assert (∀ m : gmap string string, foldl (λ ft df, <[dd_name df := dd_datatype df]> ft) (ren m) (ren_data ρ <$> dd)
      = ren (foldl (λ ft df, <[dd_name df := dd_datatype df]> ft) m dd)) as H1.
    { induction dd as [|a l IH]; intros m; [done|]. rewrite fmap_cons. cbn [foldl]. rewrite <- IH, ren_insert. done. }
    assert (∀ m : gmap string string, foldl (λ ft df, <[df_name df := df_datatype df]> ft) (ren m) (ren_derived ρ <$> td)
      = ren (foldl (λ ft df, <[df_name df := df_datatype df]> ft) m td)) as H2.
    { induction td as [|a l IH]; intros m; [done|]. rewrite fmap_cons. cbn [foldl]. rewrite <- IH, ren_insert. done. }
    rewrite <- H2, <- H1, ren_empty. done.
  Qed.

  Lemma target_of_ren old l :
    target_of (ρ old) (ren_mining_field ρ <$> l) = ρ (target_of old l).
  Proof.
    unfold target_of. revert old. induction l as [|f l IH]; intros old; [done|].
    rewrite fmap_cons. cbn [foldl]. rewrite <- IH. simpl. by destruct (mf_usage f =s "target").
  Qed.

  (** ** Evaluating nodes *)
  Definition ren_ctx (cx : tctx) : tctx :=
    Tctx (ren (cx_ft cx)) (ren_data ρ <$> cx_dd cx) (ρ (cx_target cx)) (cx_penalty cx) (cx_notrue cx).

  Lemma output_dist_ren cx n : output_dist (ren_ctx cx) (ren_node n) = output_dist cx n.
  Proof.
    destruct n as [id dc cs ds t sc]. cbn [ren_node]. unfold output_dist. cbn [ren_ctx cx_notrue cx_target cx_dd].
    rewrite fmap_length. destruct (_ && _); [done|]. destruct (Nat.ltb _ _); [done|].
    assert ((ρ (cx_target cx) =s "") = (cx_target cx =s "")) as ->.
    { rewrite <- (proj1 Hres) at 1. apply ρ_eqb. }
    destruct (cx_target cx =s ""); [done|]. cbn [negb].
    match goal with |- foldl ?f [] _ = _ => set (F := f) end.
    match goal with |- _ = foldl ?f [] _ => set (G := f) end.
    assert (∀ l acc, foldl F acc (ren_data ρ <$> l) = foldl G acc l) as H; [|apply H].
    intros l. induction l as [|d l IH]; intros acc; [done|].
    rewrite fmap_cons. cbn [foldl]. rewrite IH. f_equal. unfold F, G. cbn [ren_data dd_name dd_values]. by rewrite ρ_eqb.
  Qed.

  Fixpoint node_within (S : string → Prop) (n : node) : Prop :=
    match n with
    | Node _ _ cs _ t _ =>
        (∀ f, f ∈ pred_fields t → S f) ∧
        (fix go l := match l with [] => True | c :: l' => node_within S c ∧ go l' end) cs
    end.
  Lemma node_within_children S id dc cs ds t sc :
    node_within S (Node id dc cs ds t sc) ↔ (∀ f, f ∈ pred_fields t → S f) ∧ Forall (node_within S) cs.
  Proof.
    simpl. assert ((fix go l := match l with [] => True | c :: l' => node_within S c ∧ go l' end) cs ↔ Forall (node_within S) cs) as ->; [|done].
    induction cs as [|c cs IH]; [split; constructor|]. rewrite Forall_cons, IH. done.
  Qed.

  Lemma rmap_same {A B} (f1 f2 : A → res B) (h : A → A) l :
    Forall (λ a, f2 (h a) = f1 a) l → rmap f2 (h <$> l) = rmap f1 l.
  Proof.
    induction 1 as [|a l Ha _ IH]; [done|]. rewrite fmap_cons. cbn [rmap]. rewrite Ha. fold (rmap f2) (rmap f1). by rewrite IH.
  Qed.
  Lemma rmapi_same {A B} (f1 f2 : nat → A → res B) (h : A → A) i l :
    Forall (λ a, ∀ i, f2 i (h a) = f1 i a) l → rmapi f2 i (h <$> l) = rmapi f1 i l.
  Proof.
    intros H. revert i. induction H as [|a l Ha _ IH]; intros i; [done|].
    rewrite fmap_cons. cbn [rmapi]. rewrite Ha. fold (rmapi f2) (rmapi f1). by rewrite IH.
  Qed.
  Lemma first_true_same {A} (f1 f2 : A → res (list score * presult)) (h : A → A) d l :
    Forall (λ a, f2 (h a) = f1 a) l → first_true f2 d (h <$> l) = first_true f1 d l.
  Proof.
    induction 1 as [|a l Ha _ IH]; [done|]. rewrite fmap_cons. cbn [first_true]. rewrite Ha.
    destruct (f1 a) as [[s v]| |]; simpl; try done. by destruct v.
  Qed.
  Lemma first_known_same {A} (f1 f2 : A → res (list score * presult)) (h : A → A) d l :
    Forall (λ a, f2 (h a) = f1 a) l → first_known f2 d (h <$> l) = first_known f1 d l.
  Proof.
    induction 1 as [|a l Ha _ IH]; [done|]. rewrite fmap_cons. cbn [first_known]. rewrite Ha.
    destruct (f1 a) as [[s v]| |]; simpl; try done. by destruct v.
  Qed.

  Lemma n_id_ren n : n_id (ren_node n) = n_id n.
  Proof. by destruct n. Qed.
  Lemma n_score_ren n : n_score (ren_node n) = n_score n.
  Proof. by destruct n. Qed.

  Lemma zip_ren_ids {B} (m : gmap string (list score)) cs (rs : list (list score * B)) :
    foldl (λ m '(c, x), <[n_id c := x.1]> m) m (zip (ren_node <$> cs) rs) =
    foldl (λ m '(c, x), <[n_id c := x.1]> m) m (zip cs rs).
  Proof.
    revert m rs. induction cs as [|c cs IH]; intros m [|x rs]; try done.
    rewrite fmap_cons. cbn [zip zip_with foldl]. rewrite n_id_ren. apply IH.
  Qed.
  Lemma zip_ren_collect acc cs rs :
    foldl wc_collect acc (zip (ren_node <$> cs) rs) = foldl wc_collect acc (zip cs rs).
  Proof.
    revert acc rs. induction cs as [|c cs IH]; intros acc [|[s v] rs]; try done.
    rewrite fmap_cons. cbn [zip zip_with foldl].
    replace (wc_collect acc (ren_node c, (s, v))) with (wc_collect acc (c, (s, v))); [apply IH|].
    unfold wc_collect. destruct acc as [[a b] t]. by rewrite n_id_ren, n_score_ren.
  Qed.

  Section nodes.
    Context (E : Ext) (S : string → Prop) (cx : tctx) (r1 r2 : datarow) (Hrow : row_rel S r1 r2).

    Ltac start :=
      match goal with |- ∀ n, _ => idtac | _ => idtac end;
      let id := fresh "id" in
      match goal with n : node |- _ => induction n as [id dc cs ds t sc IH] using node_rect' end.

    Lemma eval_none_ren n : node_within S n →
      eval_none E (ren_ctx cx) r2 (ren_node n) = eval_none E cx r1 n.
    Proof.
      induction n as [id dc cs ds t sc IH] using node_rect'. intros [Ht Hc]%node_within_children.
      pose proof (output_dist_ren cx (Node id dc cs ds t sc)) as Ho.
      cbn [ren_node eval_none] in *. rewrite Ho. cbn [ren_ctx cx_ft].
      rewrite (run_test_ren E S _ r1 r2 t Hrow Ht).
      destruct (run_test E _ t r1) as [v| |]; simpl; try done. destruct v; try done.
      apply first_true_same. rewrite Forall_forall in IH, Hc |- *. auto.
    Qed.

    Lemma eval_null_ren n : node_within S n →
      eval_null E (ren_ctx cx) r2 (ren_node n) = eval_null E cx r1 n.
    Proof.
      induction n as [id dc cs ds t sc IH] using node_rect'. intros [Ht Hc]%node_within_children.
      pose proof (output_dist_ren cx (Node id dc cs ds t sc)) as Ho.
      cbn [ren_node eval_null] in *. rewrite Ho. cbn [ren_ctx cx_ft].
      rewrite (run_test_ren E S _ r1 r2 t Hrow Ht).
      destruct (run_test E _ t r1) as [v| |]; simpl; try done. destruct v; try done.
      apply first_known_same. rewrite Forall_forall in IH, Hc |- *. auto.
    Qed.

    Lemma eval_last_ren n : node_within S n →
      eval_last E (ren_ctx cx) r2 (ren_node n) = eval_last E cx r1 n.
    Proof.
      induction n as [id dc cs ds t sc IH] using node_rect'. intros [Ht Hc]%node_within_children.
      pose proof (output_dist_ren cx (Node id dc cs ds t sc)) as Ho.
      cbn [ren_node eval_last] in *. rewrite Ho.
      rewrite (rmap_same (eval_last E cx r1)) by (rewrite Forall_forall in IH, Hc |- *; auto).
      cbn [ren_ctx cx_ft]. by rewrite (run_test_ren E S _ r1 r2 t Hrow Ht).
    Qed.

    Lemma eval_default_ren n : node_within S n →
      eval_default E (ren_ctx cx) r2 (ren_node n) = eval_default E cx r1 n.
    Proof.
      induction n as [id dc cs ds t sc IH] using node_rect'. intros [Ht Hc]%node_within_children.
      pose proof (output_dist_ren cx (Node id dc cs ds t sc)) as Ho.
      cbn [ren_node eval_default] in *. rewrite Ho.
      rewrite (rmap_same (eval_default E cx r1)) by (rewrite Forall_forall in IH, Hc |- *; auto).
      cbn [ren_ctx cx_ft cx_penalty]. rewrite (run_test_ren E S _ r1 r2 t Hrow Ht).
      destruct (run_test E _ t r1) as [v| |]; simpl; try done. destruct v; try done.
      all: destruct (rmap _ _) as [rs| |]; simpl; try done; by rewrite zip_ren_ids.
    Qed.

    Lemma eval_weighted_ren n : node_within S n → ∀ t,
      eval_weighted E (ren_ctx cx) r2 t (ren_node n) = eval_weighted E cx r1 t n.
    Proof.
      induction n as [id dc cs ds t sc IH] using node_rect'. intros [Ht Hc]%node_within_children tk.
      pose proof (output_dist_ren cx (Node id dc cs ds t sc)) as Ho.
      cbn [ren_node eval_weighted] in *. rewrite Ho.
      rewrite (rmapi_same (λ i c, eval_weighted E cx r1 (i :: tk) c)) by (rewrite Forall_forall in IH, Hc |- *; auto).
      cbn [ren_ctx cx_ft]. rewrite (run_test_ren E S _ r1 r2 t Hrow Ht).
      destruct (run_test E _ t r1) as [v| |]; simpl; try done. destruct v; try done.
      all: destruct (rmapi _ _ _) as [rs| |]; simpl; try done; by rewrite zip_ren_collect.
    Qed.

    Lemma eval_aggregate_ren n : node_within S n → ∀ t,
      eval_aggregate E (ren_ctx cx) r2 t (ren_node n) = eval_aggregate E cx r1 t n.
    Proof.
      induction n as [id dc cs ds t sc IH] using node_rect'. intros [Ht Hc]%node_within_children tk.
      pose proof (output_dist_ren cx (Node id dc cs ds t sc)) as Ho.
      cbn [ren_node eval_aggregate] in *. rewrite Ho.
      rewrite (rmapi_same (λ i c, eval_aggregate E cx r1 (i :: tk) c)) by (rewrite Forall_forall in IH, Hc |- *; auto).
      cbn [ren_ctx cx_ft]. by rewrite (run_test_ren E S _ r1 r2 t Hrow Ht).
    Qed.

    Lemma node_evaluate_ren n st tk : node_within S n →
      node_evaluate E (ren_ctx cx) st r2 tk (ren_node n) = node_evaluate E cx st r1 tk n.
    Proof.
      intros H. unfold node_evaluate. repeat (destruct (_ =s _); [auto using eval_null_ren, eval_aggregate_ren,
        eval_weighted_ren, eval_default_ren, eval_last_ren|]). by apply eval_none_ren.
    Qed.
  End nodes.

  (** ** Errors of expressions name no field *)
  Lemma handle_map_err E a b c d r x : handle_map_values E a b c d r = Err x → ren_err ρ x = x.
  Proof.
    unfold handle_map_values. intros H. repeat case_match; simplify_eq; try done. by eapply get_raw_err.
  Qed.

  Lemma handle_expr_err' E e r x : handle_expr E e r = Err x → ren_err ρ x = x.
  Proof.
    revert x. induction e as [f m|dt v|fn d m args IH|a b c d e f|k] using expr_rect'; intros x.
    - done.
    - simpl. unfold handle_constant. intros H; repeat case_match; naive_solver.
    - destruct (decide (fn = "sum")) as [->|Hsum].
      { rewrite handle_sum. generalize fzero. induction IH as [|a args Ha _ IHa]; intros s; simpl; [done|].
        intros [H|(v & Hv & H)]%rbind_err; [by apply Ha in H|by apply IHa in H]. }
      destruct (arith_meaning fn) as [op|] eqn:Har.
      { rewrite (handle_arith _ _ _ _ _ _ _ Har).
        destruct args as [|a [|b [|c args]]]; try (intros [= <-]; done).
        apply Forall_cons in IH as [Ha IH]. apply Forall_cons in IH as [Hb _].
        intros [H|(v & Hv & H)]%rbind_err; [by apply Ha in H|].
        apply rbind_err in H as [H|(w & Hw & H)]; [by apply Hb in H|done]. }
      simpl. apply String.eqb_neq in Hsum as ->.
      assert (is_arith fn = false) as ->.
      { unfold arith_meaning in Har. unfold is_arith.
        repeat case_str_in Har; repeat case_str; done. }
      repeat case_str; try (intros [= <-]; done).
      + destruct args as [|a [|b args]]; try (intros [= <-]; done).
        apply Forall_cons in IH as [Ha _].
        intros [H|(v & Hv & H)]%rbind_err; [by apply Ha in H|done].
      + destruct args as [|a [|b args]]; try (intros [= <-]; done).
        apply Forall_cons in IH as [Ha _].
        intros [H|(v & Hv & H)]%rbind_err; [by apply Ha in H|done].
      + destruct args as [|c [|a [|b [|? args]]]]; try (intros [= <-]; done).
        apply Forall_cons in IH as [Hc IH]. apply Forall_cons in IH as [Ha IH].
        apply Forall_cons in IH as [Hb _].
        intros [H|(v & Hv & H)]%rbind_err; [by apply Hc in H|].
        destruct (val_bool v); auto.
    - by apply handle_map_err.
    - simpl. by intros [= <-].
  Qed.

  Lemma handle_input_err' E lt r x r' : handle_input E lt r = (Err x, r') → ren_err ρ x = x.
  Proof.
    revert r. induction lt as [|df lt IH]; intros r H; simpl in H; [done|].
    destruct (handle_expr E (df_expr df) r) as [v|y|p] eqn:He; [| |done].
    - destruct r as [m|]; simpl in H; [|done]. by eapply IH.
    - injection H as -> ->. by eapply handle_expr_err'.
  Qed.

  (** ** Trees *)
  Definition ren_etree (t : etree) : etree :=
    ETree_ (et_validated t) (et_compiled t) (ren_data ρ <$> et_dd t) (ren_tree ρ (et_model t))
      (ren (et_ft t)) (ren_node (et_root t)) (et_outkeys t) (ρ (et_target t)).

  Lemma schema_ren (l : list mining_field) : mf_defaults <$> (ren_mining_field ρ <$> l) = ren_mining_field ρ <$> (mf_defaults <$> l).
  Proof. rewrite <- !list_fmap_compose. done. Qed.

  Lemma new_tree_model_ren E dd td t :
    new_tree_model E (ren_data ρ <$> dd) (ren_derived ρ <$> td) (ren_tree ρ t) =
    (ren_res ren_etree (new_tree_model E dd td t).1, ren_derived ρ <$> (new_tree_model E dd td t).2).
  Proof.
    unfold new_tree_model, tree_validate.
    change (tm_function (et_model (ETree_ false false (ren_data ρ <$> dd) (ren_tree ρ t) ∅ zero_node ∅ "")))
      with (tm_function t).
    change (tm_function (et_model (ETree_ false false dd t ∅ zero_node ∅ ""))) with (tm_function t).
    destruct (negb _ && negb _); [done|]. unfold tree_compile.
    cbv beta iota zeta delta [et_model et_dd et_target tm_lt tm_node tm_schema et_validated et_outkeys].
    destruct t as [fn st pen nt lt sch ver nd]. cbn [ren_tree tm_lt tm_node tm_schema].
    setoid_rewrite <- (fmap_app (ren_derived ρ) td lt). rewrite field_types_ren, new_node_ren.
    pose proof (schema_ren sch) as Hs. pose proof (target_of_ren "" (mf_defaults <$> sch)) as Ht.
    rewrite (proj1 Hres), <- Hs in Ht.
    destruct (new_node E _ nd) as [n|x|p]; cbn [ren_res fst snd]; rewrite fmap_app; [|reflexivity..].
    unfold ren_etree, ren_tree.
    cbn [et_validated et_compiled et_dd et_model et_ft et_root et_outkeys et_target
         tm_function tm_strategy tm_penalty tm_notrue tm_lt tm_schema tm_verification tm_node].
    rewrite <- Hs, <- Ht. by rewrite <- field_types_ren, fmap_app.
  Qed.

  Lemma class_row_ren target scores : class_row (ρ target) scores = ren (class_row target scores).
  Proof.
    unfold class_row.
    assert (∀ l m, foldl (λ o s, <[prob_key (sc_value s) := GF64 (sc_prob s)]> o) (ren m) l =
      ren (foldl (λ o s, <[prob_key (sc_value s) := GF64 (sc_prob s)]> o) m l)) as H.
    { intros l. induction l as [|s l IH]; intros m; [done|]. cbn [foldl]. rewrite <- IH. f_equal.
      rewrite ren_insert. unfold prob_key at 2. by rewrite (proj2 (proj2 Hres)). }
    rewrite <- H. f_equal. unfold ren_row. by rewrite kmap_singleton.
  Qed.

  Lemma tree_output_ren E t scores :
    keys_ok (et_outkeys t) →
    (tree_output E (ren_etree t) scores).1 = ren_result ρ (tree_output E t scores).1.
  Proof.
    intros Hk. destruct (decide (tm_function (et_model t) = "classification")) as [Hf|Hf].
    - destruct (tree_output_class E t scores Hk Hf) as [-> _].
      destruct (tree_output_class E (ren_etree t) scores Hk Hf) as [-> _].
      cbn [ren_etree et_target ren_result fmap option_fmap option_map]. by rewrite class_row_ren.
    - unfold tree_output. cbn [ren_etree et_model ren_tree tm_function]. apply String.eqb_neq in Hf as ->.
      destruct (_ =s "regression").
      + cbn [fst]. destruct scores as [|s l]; [done|]. destruct (ext_parse_float E _); [|done].
        cbn [ren_result fmap option_fmap option_map]. unfold ren_row. rewrite kmap_singleton.
        by rewrite (proj1 (proj2 Hres)).
      + simpl. by rewrite ren_empty.
  Qed.

  Definition out_rel {X Y} (S : string → Prop) (a : res datarow * datarow * X) (b : res datarow * datarow * Y) : Prop :=
    b.1.1 = ren_result ρ a.1.1 ∧ row_rel S a.1.2 b.1.2.

  Lemma tree_evaluate_ren E S tk t r1 r2 :
    row_rel S r1 r2 → node_within (λ f, S f ∨ f ∈ map df_name (tm_lt (et_model t))) (et_root t) →
    (∀ f, f ∈ inputs_of (tm_lt (et_model t)) → S f) →
    keys_ok (et_outkeys t) →
    out_rel S (tree_evaluate E tk t r1) (tree_evaluate E tk (ren_etree t) r2).
  Proof.
    intros Hrow Hn Hlt Hk. unfold tree_evaluate.
    change (et_validated (ren_etree t)) with (et_validated t). change (et_compiled (ren_etree t)) with (et_compiled t).
    destruct (negb _); [by split|]. destruct (negb _); [by split|].
    change (tm_lt (et_model (ren_etree t))) with (ren_derived ρ <$> tm_lt (et_model t)).
    destruct (handle_input_ren E S (tm_lt (et_model t)) r1 r2 Hrow Hlt) as (H1 & H2 & H3).
    destruct (handle_input E (tm_lt (et_model t)) r1) as [o1 r1'] eqn:He, (handle_input E (_ <$> _) r2) as [o2 r2'].
    cbn [fst snd] in H1, H2, H3. subst o2. destruct o1 as [u|x|p].
    2:{ split; [|done]. simpl. by rewrite (handle_input_err' _ _ _ _ _ He). }
    2:{ by split. }
    change (tree_ctx (ren_etree t)) with (ren_ctx (tree_ctx t)).
    change (tm_strategy (et_model (ren_etree t))) with (tm_strategy (et_model t)).
    change (et_root (ren_etree t)) with (ren_node (et_root t)).
    rewrite (node_evaluate_ren E _ (tree_ctx t) r1' r2' (H3 u eq_refl)) by done.
    destruct (node_evaluate E _ _ _ _ _) as [[s [| |]]|x|p] eqn:Hne; try by split.
    - pose proof (tree_output_ren E t s Hk) as Ho.
      destruct (tree_output E t s) as [o k], (tree_output E (ren_etree t) s) as [o' k']. simpl in Ho. subst. by split.
    - exfalso. clear -Hne. revert Hne. apply node_evaluate_no_err.
  Qed.

  (** ** Regression models *)
  Lemma linear_form_ren E S y ps r1 r2 :
    row_rel S r1 r2 → (∀ f, f ∈ map np_name ps → S f) →
    linear_form E y ((λ p, Predictor (ρ (np_name p)) (np_coeff p) (np_exponent p)) <$> ps) r2 =
    ren_res id (linear_form E y ps r1).
  Proof.
    intros Hrow. revert y. induction ps as [|p ps IH]; intros y Hs; [done|].
    rewrite fmap_cons. cbn [linear_form np_name np_coeff].
    rewrite (proj2 Hrow (np_name p)) by (apply Hs; left).
    destruct (dr_get r1 (np_name p)); [|done]. apply IH. intros f Hf. apply Hs. by right.
  Qed.

  Lemma normalize_err' E m x e : normalize E m x = Err e → ren_err ρ e = e.
  Proof. unfold normalize. repeat case_str; intros [= <-]; done. Qed.

  Lemma binary_form_ren E S m y ps r1 r2 :
    row_rel S r1 r2 → (∀ f, f ∈ map np_name ps → S f) →
    binary_form E m y ((λ p, Predictor (ρ (np_name p)) (np_coeff p) (np_exponent p)) <$> ps) r2 =
    ren_res id (binary_form E m y ps r1).
  Proof.
    intros Hrow. revert y. induction ps as [|p ps IH]; intros y Hs; [done|].
    rewrite fmap_cons. cbn [binary_form np_name np_coeff].
    rewrite (proj2 Hrow (np_name p)) by (apply Hs; left).
    destruct (dr_get r1 (np_name p)); [|done].
    destruct (normalize E m _) as [x|x|q] eqn:Hn; cbn [rbind ren_res].
    - apply IH. intros f Hf. apply Hs. by right.
    - by rewrite (normalize_err' _ _ _ _ Hn).
    - done.
  Qed.

  Lemma multi_out_ren E meth ys o l :
    multi_out E meth ys (ren o) ((λ p : string * f64, (ρ p.1, p.2)) <$> l) = ren_result ρ (multi_out E meth ys o l).
  Proof.
    revert o. induction l as [|[t y] l IH]; intros o; [done|]. rewrite fmap_cons. cbn [multi_out fst snd].
    destruct (meth =s "softmax"); [by rewrite <- ren_insert, IH|].
    destruct (meth =s "simplemax"); [by rewrite <- ren_insert, IH|done].
  Qed.

  Lemma out_fields_ren os v :
    out_fields (ren_output ρ <$> os) !! v = ρ <$> (out_fields os !! v).
  Proof.
    unfold out_fields.
    assert (∀ m1 m2 : gmap string string, (∀ v, m2 !! v = ρ <$> (m1 !! v)) →
      foldl (λ m o, <[of_value o := of_name o]> m) m2 (ren_output ρ <$> os) !! v =
      ρ <$> (foldl (λ m o, <[of_value o := of_name o]> m) m1 os !! v)) as H.
    { induction os as [|o os IH]; intros m1 m2 Hm; [done|]. rewrite fmap_cons. cbn [foldl]. apply IH.
      intros w. cbn [ren_output of_value of_name]. destruct (decide (of_value o = w)) as [->|Hne];
        [by rewrite !lookup_insert|by rewrite !lookup_insert_ne]. }
    apply H. done.
  Qed.

  Lemma regr_evaluate_ren E S m r1 r2 :
    row_rel S r1 r2 →
    (∀ f, f ∈ concat (map (λ t, map np_name (rt_predictors t)) (rm_tables m)) → S f) →
    regr_evaluate E (ren_regr ρ m) r2 = ren_result ρ (regr_evaluate E m r1).
  Proof.
    intros Hrow Hs. unfold regr_evaluate. cbn [ren_regr rm_function rm_output]. rewrite fmap_length.
    assert (∀ t, t ∈ rm_tables m → ∀ f, f ∈ map np_name (rt_predictors t) → S f) as Ht.
    { intros t Ht f Hf. apply Hs. apply elem_of_list_In, in_concat. exists (map np_name (rt_predictors t)).
      split; [apply (in_map (λ t, map np_name (rt_predictors t)))|]; by apply elem_of_list_In. }
    destruct (rm_function m =s "regression").
    { unfold eval_regression. cbn [ren_regr rm_tables rm_output rm_norm].
      destruct (rm_tables m) as [|t [|? ?]] eqn:Htab; [done| |simpl; by rewrite fmap_length].
      destruct (rm_output m) as [|o [|? ?]]; [done| |simpl; by rewrite fmap_length].
      cbn [fmap list_fmap ren_table rt_intercept rt_predictors].
      setoid_rewrite (linear_form_ren E S _ _ r1 r2 Hrow (Ht t ltac:(left))).
      destruct (linear_form E _ _ _) as [y|x|p]; cbn [ren_res rbind id]; try done.
      destruct (normalize E _ y) as [z|x|p] eqn:Hn; cbn [rbind ren_result]; try done.
      - simpl. unfold ren_row. by rewrite kmap_singleton.
      - by rewrite (normalize_err' _ _ _ _ Hn). }
    destruct (_ && _).
    { unfold eval_binary. change (rm_tables (ren_regr ρ m)) with (ren_table ρ <$> rm_tables m).
      assert (∀ ts, (∀ t, t ∈ ts → ∀ f, f ∈ map np_name (rt_predictors t) → S f) → ∀ f out,
        binary_tables E (ren_regr ρ m) r2 f (ren out) (ren_table ρ <$> ts) =
        ren_result ρ (binary_tables E m r1 f out ts)) as H;
        [|specialize (H (rm_tables m) Ht fone ∅); by rewrite ren_empty in H].
      clear Ht. intros ts Ht. induction ts as [|t ts IH]; intros f out; [done|].
      rewrite fmap_cons. cbn [binary_tables ren_table rt_intercept rt_predictors rt_category]. rewrite fmap_length.
      cbn [ren_regr rm_norm rm_output].
      assert ((if Nat.ltb 0 (length (rt_predictors t))
        then binary_form E (rm_norm m) (rt_intercept t) ((λ p, Predictor (ρ (np_name p)) (np_coeff p) (np_exponent p)) <$> rt_predictors t) r2
        else Ok f) = ren_res id (if Nat.ltb 0 (length (rt_predictors t))
        then binary_form E (rm_norm m) (rt_intercept t) (rt_predictors t) r1 else Ok f)) as ->.
      { destruct (Nat.ltb _ _); [|done]. apply (binary_form_ren E S); [done|]. apply Ht. left. }
      destruct (if Nat.ltb _ _ then _ else _) as [x|x|p]; cbn [ren_res rbind id]; try done.
      rewrite <- IH; [f_equal|intros t' Ht'; apply Ht; by right].
      generalize out. induction (rm_output m) as [|o os IHo]; intros out'; [done|].
      rewrite fmap_cons. cbn [foldl ren_output of_value of_name]. rewrite <- IHo. f_equal.
      destruct (_ =s _); [by rewrite ren_insert|done]. }
    destruct (_ =s "classification"); [|done].
    unfold eval_multiclass. cbn [ren_regr rm_tables rm_output rm_norm].
    assert (rmap (λ t, linear_form E (rt_intercept t) (rt_predictors t) r2) (ren_table ρ <$> rm_tables m) =
      ren_res id (rmap (λ t, linear_form E (rt_intercept t) (rt_predictors t) r1) (rm_tables m))) as ->.
    { revert Ht. generalize (rm_tables m). intros ts Ht. induction ts as [|t ts IH]; [done|].
      rewrite fmap_cons. cbn [rmap ren_table rt_intercept rt_predictors].
      rewrite (linear_form_ren E S _ _ r1 r2 Hrow (Ht t ltac:(left))).
      destruct (linear_form E _ _ _) as [y|x|p]; cbn [ren_res rbind id]; try done.
      fold (rmap (λ t, linear_form E (rt_intercept t) (rt_predictors t) r2)) (rmap (λ t, linear_form E (rt_intercept t) (rt_predictors t) r1)).
      rewrite IH; [by destruct (rmap _ ts)|intros t' Ht'; apply Ht; by right]. }
    destruct (rmap _ _) as [ys|x|p]; cbn [ren_res rbind id]; try done.
    rewrite <- multi_out_ren, ren_empty. f_equal.
    clear Hs Ht. generalize ys. induction (rm_tables m) as [|t ts IH]; intros [|y l]; try done.
    rewrite !fmap_cons. cbn [zip zip_with ren_table rt_category]. rewrite fmap_cons. cbn [fst snd]. f_equal.
    - rewrite out_fields_ren. destruct (out_fields _ !! _); simpl; [done|]. by rewrite (proj1 Hres).
    - apply IH.
  Qed.

  (** ** Maps *)
  Lemma ren_lookup_some {A} (m : gmap string A) k v :
    ren m !! k = Some v ↔ ∃ j, k = ρ j ∧ m !! j = Some v.
  Proof. unfold ren_row. by rewrite (lookup_kmap_Some ρ). Qed.

  Lemma ren_map_eq {A} (m : gmap string A) (m' : gmap string A) :
    (∀ j, m' !! ρ j = m !! j) → (∀ k v, m' !! k = Some v → ∃ j, k = ρ j) → m' = ren m.
  Proof.
    intros H1 H2. apply map_eq. intros k. apply option_eq. intros v. rewrite ren_lookup_some. split.
    - intros Hk. destruct (H2 _ _ Hk) as [j ->]. exists j. split; [done|]. by rewrite <- H1.
    - intros (j & -> & Hj). by rewrite H1.
  Qed.

  Lemma imap_ren {A B} (f1 f2 : string → A → option B) (m : gmap string A) :
    (∀ k v, f2 (ρ k) v = f1 k v) → map_imap f2 (ren m) = ren (map_imap f1 m).
  Proof.
    intros Hf. apply ren_map_eq.
    - intros j. rewrite !map_lookup_imap, ren_lookup. destruct (m !! j); [apply Hf|done].
    - intros k v. rewrite map_lookup_imap. destruct (ren m !! k) as [w|] eqn:Hk; [|done].
      apply ren_lookup_some in Hk as (j & -> & _). eauto.
  Qed.

  Lemma dr_get_ren r k : dr_get (ren <$> r) (ρ k) = dr_get r k.
  Proof. destruct r as [m|]; [apply ren_lookup|done]. Qed.

  (** ** Mining models *)
  Definition ren_segment (s : segment doc_model) : segment doc_model :=
    match s with Segment i ps ms => Segment i (ren_pred ρ <$> ps) (ren_doc ρ <$> ms) end.

  Definition ren_emining (h : emining) : emining :=
    EMining_ (em_validated h) (em_compiled h) (ren_data ρ <$> em_dd h) (ren_header ρ (em_hdr h))
      (ren_segment <$> em_segs h) (ren (em_defaults h)) (ren (em_ft h)) (ρ (em_target h))
      (ren_output ρ <$> em_outputs h) (ren_target ρ <$> em_targets h) (em_rounds h).

  Fixpoint ren_emodel (e : emodel) : emodel :=
    match e with
    | ETree t => ETree (ren_etree t)
    | EMining h sm => EMining (ren_emining h) (ren_emodel <$> sm)
    | ERegr x => ERegr (ERegr_ (ren_regr ρ (er_model x)))
    end.

  Lemma header_of_ren h : header_of (ren_header ρ h) = ren_header ρ (header_of h).
  Proof. unfold header_of. cbn [ren_header mm_method]. by destruct (_ =s ""). Qed.

  Lemma default_values_ren l : default_values (ren_mining_field ρ <$> l) = ren (default_values l).
  Proof.
    unfold default_values.
    assert (∀ m, foldl (λ m f, match mf_replacement f with Some s => <[mf_name f := GStr s]> m | None => m end)
      (ren m) (ren_mining_field ρ <$> l) =
      ren (foldl (λ m f, match mf_replacement f with Some s => <[mf_name f := GStr s]> m | None => m end) m l)) as H;
      [|specialize (H ∅); by rewrite ren_empty in H].
    induction l as [|f l IH]; intros m; [done|]. rewrite fmap_cons. cbn [foldl ren_mining_field mf_replacement mf_name].
    rewrite <- IH. f_equal. destruct (mf_replacement f); [by rewrite ren_insert|done].
  Qed.

  Lemma built_mining_ren dd td h segs :
    built_mining (ren_data ρ <$> dd) (ren_derived ρ <$> td) (ren_header ρ h) (ren_segment <$> segs) =
    ren_emining (built_mining dd td h segs).
  Proof.
    unfold built_mining, ren_emining.
    cbn [em_validated em_compiled em_dd em_hdr em_segs em_defaults em_ft em_target em_outputs em_targets em_rounds].
    rewrite header_of_ren, fmap_length. cbn [ren_header mm_schema mm_lt mm_output mm_targets].
    rewrite default_values_ren, <- fmap_app, field_types_ren, <- target_of_ren, (proj1 Hres). done.
  Qed.

  Lemma bad_feature_ren l :
    of_feature <$> List.find bad_feature (ren_output ρ <$> l) = of_feature <$> List.find bad_feature l.
  Proof.
    induction l as [|o l IH]; [done|]. rewrite fmap_cons. cbn [List.find].
    change (bad_feature (ren_output ρ o)) with (bad_feature o). by destruct (bad_feature o).
  Qed.

  Lemma compile_segments_ren E dd segs :
    Forall (λ s, Forall (λ d, ∀ td, new_model E (ren_data ρ <$> dd) (ren_derived ρ <$> td) (ren_doc ρ d) =
      (ren_res ren_emodel (new_model E dd td d).1, ren_derived ρ <$> (new_model E dd td d).2)) (sg_models s)) segs →
    ∀ td acc,
      compile_segments (new_model E (ren_data ρ <$> dd)) (ren_derived ρ <$> td) (ren_emodel <$> acc) (ren_segment <$> segs) =
      (ren_res id (compile_segments (new_model E dd) td acc segs).1.1,
       ren_emodel <$> (compile_segments (new_model E dd) td acc segs).1.2,
       ren_derived ρ <$> (compile_segments (new_model E dd) td acc segs).2).
  Proof.
    induction 1 as [|[i ps ms] segs Hs _ IH]; intros td acc; [done|].
    rewrite fmap_cons. cbn [ren_segment compile_segments].
    destruct ms as [|d [|d' ms]]; [done| |].
    - cbn [sg_models] in Hs. inversion Hs as [|? ? Hd _]; subst. clear Hs. change (ren_doc ρ <$> [d]) with [ren_doc ρ d].
      cbv beta iota. rewrite (Hd td).
      destruct (new_model E dd td d) as [[e|x|q] td']; cbn [ren_res fst snd]; [|done..].
      fold (compile_segments (new_model E dd)) (compile_segments (new_model E (ren_data ρ <$> dd))).
      rewrite <- IH. by rewrite fmap_app.
    - rewrite !fmap_cons. cbn [fst snd ren_res ren_err]. cbn [length]. by rewrite fmap_length.
  Qed.

  Lemma new_model_ren E dd d td :
    new_model E (ren_data ρ <$> dd) (ren_derived ρ <$> td) (ren_doc ρ d) =
    (ren_res ren_emodel (new_model E dd td d).1, ren_derived ρ <$> (new_model E dd td d).2).
  Proof.
    revert td. induction d as [t|r|k|h segs IH] using doc_rect'; intros td.
    - cbn [ren_doc new_model]. rewrite new_tree_model_ren.
      by destruct (new_tree_model E dd td t) as [[e|x|q] td'].
    - done.
    - done.
    - change (ren_doc ρ (DMining h segs)) with (DMining (ren_header ρ h) (ren_segment <$> segs)).
      rewrite !new_model_mining, header_of_ren, built_mining_ren. cbn [ren_header mm_method mm_output mm_lt].
      destruct (negb _); [done|].
      pose proof (bad_feature_ren (mm_output h)) as Hb.
      destruct (List.find bad_feature (ren_output ρ <$> mm_output h)) as [o1|],
        (List.find bad_feature (mm_output h)) as [o2|]; try done.
      { injection Hb as Hb. by rewrite Hb. }
      rewrite <- fmap_app. setoid_rewrite (compile_segments_ren E dd segs IH (td ++ mm_lt h) []).
      by destruct (compile_segments _ _ _ _) as [[[u|x|q] sm] td2].
  Qed.

  Inductive model_within (S : string → Prop) : emodel → Prop :=
  | within_tree t :
      node_within (λ f, S f ∨ f ∈ map df_name (tm_lt (et_model t))) (et_root t) →
      (∀ f, f ∈ inputs_of (tm_lt (et_model t)) → S f) → keys_ok (et_outkeys t) → model_within S (ETree t)
  | within_regr x :
      (∀ f, f ∈ concat (map (λ t, map np_name (rt_predictors t)) (rm_tables (er_model x))) → S f) →
      model_within S (ERegr x)
  | within_mining h sm :
      (∀ f, f ∈ inputs_of (mm_lt (em_hdr h)) → S f) →
      Forall (model_within (λ f, S f ∨ f ∈ map df_name (mm_lt (em_hdr h)))) sm →
      model_within S (EMining h sm).

  (** *** Rows while segments run *)
  Lemma impute_ren E S tk tk' d r1 r2 :
    row_rel S r1 r2 →
    match impute E tk d r1, impute E tk' (ren d) r2 with
    | Ok r1', Ok r2' => row_rel S r1' r2'
    | Err e, Err e' => e' = ren_err ρ e
    | Panic p, Panic p' => p' = p
    | _, _ => False
    end.
  Proof.
    intros [Hn Hg]. destruct r1 as [m1|], r2 as [m2|].
    - rewrite !impute_some. split; [done|]. intros k Hk. cbn [dr_get]. rewrite !fill_lookup, ren_lookup.
      specialize (Hg k Hk). cbn [dr_get] in Hg. by rewrite Hg.
    - by destruct Hn as [_ Hn]; specialize (Hn eq_refl).
    - by destruct Hn as [Hn _]; specialize (Hn eq_refl).
    - rewrite !impute_none. unfold ren_row. destruct (decide (d = ∅)) as [->|Hd].
      + rewrite kmap_empty. by rewrite decide_True.
      + rewrite decide_False; [done|]. by rewrite kmap_empty_iff.
  Qed.

  Lemma copy_into_ren E S tk tk' last r1 r2 :
    row_rel S r1 r2 →
    match copy_into E tk last r1, copy_into E tk' (ren <$> last) r2 with
    | Ok r1', Ok r2' => row_rel S r1' r2'
    | Err e, Err e' => e' = ren_err ρ e
    | Panic p, Panic p' => p' = p
    | _, _ => False
    end.
  Proof.
    intros [Hn Hg].
    assert (default ∅ (ren <$> last) = ren (default ∅ last)) as Hl by (destruct last; [done|symmetry; apply ren_empty]).
    destruct r1 as [m1|], r2 as [m2|].
    - rewrite !copy_into_some, Hl. split; [done|]. intros k Hk. cbn [dr_get]. rewrite !lookup_union, ren_lookup.
      specialize (Hg k Hk). cbn [dr_get] in Hg. by rewrite Hg.
    - by destruct Hn as [_ Hn]; specialize (Hn eq_refl).
    - by destruct Hn as [Hn _]; specialize (Hn eq_refl).
    - rewrite !copy_into_none, Hl. unfold ren_row. destruct (decide (default ∅ last = ∅)) as [->|Hd].
      + rewrite kmap_empty. by rewrite decide_True.
      + rewrite decide_False; [done|]. by rewrite kmap_empty_iff.
  Qed.

  Section segments.
    Context (E : Ext) (S : string → Prop) (tk : ticket).
    Context (ev1 ev2 : nat → emodel → datarow → outcome emodel).

    Definition segs_ok (sm : list emodel) : Prop :=
      Forall (λ s, ∀ i r1 r2, row_rel S r1 r2 → out_rel S (ev1 i s r1) (ev2 i (ren_emodel s) r2)) sm.

    Lemma chain_ren sm : segs_ok sm → ∀ i last r1 r2, row_rel S r1 r2 →
      out_rel S (chain E tk ev1 i last sm r1) (chain E tk ev2 i (ren <$> last) (ren_emodel <$> sm) r2).
    Proof.
      induction 1 as [|s sm Hs _ IH]; intros i last r1 r2 Hrow; [done|].
      rewrite fmap_cons. cbn [chain].
      pose proof (copy_into_ren E S (0 :: i :: tk) (0 :: i :: tk) last r1 r2 Hrow) as Hc.
      destruct (copy_into E _ last r1) as [r1'|x|q], (copy_into E _ (ren <$> last) r2) as [r2'|x'|q']; try done.
      2:{ subst. by split. }
      2:{ subst. by split. }
      destruct (Hs i _ _ Hc) as [H1 H2].
      destruct (ev1 i s r1') as [[o1 r1''] s1], (ev2 i (ren_emodel s) r2') as [[o2 r2''] s2].
      cbn [fst snd] in H1, H2. subst o2. destruct o1 as [out|x|q]; cbn [ren_result]; [|by split..].
      specialize (IH (1 + i) out r1'' r2'' H2). fold (chain E tk ev1) (chain E tk ev2).
      destruct (chain E tk ev1 _ _ _ _) as [[? ?] ?], (chain E tk ev2 _ _ _ _) as [[? ?] ?]. exact IH.
    Qed.

    Lemma score_add_ren i cl out scores :
      score_add E i cl (ren <$> out) (ren scores) = ren (score_add E i cl out scores).
    Proof.
      rewrite !score_add_eq. apply imap_ren. intros k v. unfold contribution.
      destruct cl; [by rewrite dr_get_ren|].
      rewrite <- (proj1 (proj2 Hres)) at 1. by rewrite dr_get_ren.
    Qed.

    Lemma sum_segments_ren cl sm : segs_ok sm → ∀ i scores r1 r2, row_rel S r1 r2 →
      (sum_segments E tk cl ev2 i (ren scores) (ren_emodel <$> sm) r2).1.1 =
        ren_res ren (sum_segments E tk cl ev1 i scores sm r1).1.1 ∧
      row_rel S (sum_segments E tk cl ev1 i scores sm r1).1.2
        (sum_segments E tk cl ev2 i (ren scores) (ren_emodel <$> sm) r2).1.2.
    Proof.
      induction 1 as [|s sm Hs _ IH]; intros i scores r1 r2 Hrow; [done|].
      rewrite fmap_cons. cbn [sum_segments].
      destruct (Hs i _ _ Hrow) as [H1 H2].
      destruct (ev1 i s r1) as [[o1 r1''] s1], (ev2 i (ren_emodel s) r2) as [[o2 r2''] s2].
      cbn [fst snd] in H1, H2. subst o2. destruct o1 as [out|x|q]; cbn [ren_result]; [|by split..].
      specialize (IH (1 + i) (score_add E (1 :: i :: tk) cl out scores) r1'' r2'' H2).
      fold (sum_segments E tk cl ev1) (sum_segments E tk cl ev2). rewrite score_add_ren.
      destruct (sum_segments E tk cl ev1 _ _ _ _) as [[? ?] ?], (sum_segments E tk cl ev2 _ _ _ _) as [[? ?] ?].
      exact IH.
    Qed.

    Lemma score_init_ren outs tgs :
      score_init (ren_output ρ <$> outs) (ren_target ρ <$> tgs) = ren (score_init outs tgs).
    Proof.
      unfold score_init.
      assert (∀ m : gmap string f64, foldl (λ m o, <[of_name o := fzero]> m) (ren m) (ren_output ρ <$> outs) =
        ren (foldl (λ m o, <[of_name o := fzero]> m) m outs)) as H1.
      { induction outs as [|o outs IH]; intros m; [done|]. rewrite fmap_cons. cbn [foldl ren_output of_name].
        by rewrite <- IH, ren_insert. }
      assert (∀ m : gmap string f64, foldl (λ m t, <[tg_field t := fzero]> m) (ren m) (ren_target ρ <$> tgs) =
        ren (foldl (λ m t, <[tg_field t := fzero]> m) m tgs)) as H2.
      { induction tgs as [|o tgs IH]; intros m; [done|]. rewrite fmap_cons. cbn [foldl ren_target tg_field].
        by rewrite <- IH, ren_insert. }
      rewrite <- H2, <- H1. by rewrite ren_empty.
    Qed.

    Lemma rescale_ren tgs m :
      foldl rescale_step (ren m) (ren_target ρ <$> tgs) = ren (foldl rescale_step m tgs).
    Proof.
      revert m. induction tgs as [|t tgs IH]; intros m; [done|]. rewrite fmap_cons. cbn [foldl].
      rewrite <- IH. f_equal. unfold rescale_step. cbn [ren_target tg_field tg_factor tg_constant].
      destruct (tg_factor t) as [f|], (tg_constant t) as [c|]; rewrite ?ren_lookup, <- ?ren_insert, ?ren_lookup; done.
    Qed.

    Lemma sum_models_ren h sm r1 r2 : segs_ok sm → row_rel S r1 r2 →
      (sum_models E tk (ren_emining h) ev2 (ren_emodel <$> sm) r2).1.1 =
        ren_res ren (sum_models E tk h ev1 sm r1).1.1 ∧
      row_rel S (sum_models E tk h ev1 sm r1).1.2
        (sum_models E tk (ren_emining h) ev2 (ren_emodel <$> sm) r2).1.2.
    Proof.
      intros Hsm Hrow. unfold sum_models. cbn [ren_emining em_hdr ren_header mm_function em_outputs em_targets].
      rewrite score_init_ren.
      destruct (sum_segments_ren (mm_function (em_hdr h) =s "classification") sm Hsm 0
        (score_init (em_outputs h) (em_targets h)) r1 r2 Hrow) as [H1 H2].
      destruct (sum_segments E tk _ ev1 _ _ _ _) as [[o1 ?] ?], (sum_segments E tk _ ev2 _ _ _ _) as [[o2 ?] ?].
      cbn [fst snd] in H1, H2. subst o2. destruct o1 as [sc|x|q]; cbn [ren_res fst snd]; [|by split..].
      split; [|done]. rewrite rescale_ren, !score_out_eq. unfold ren_row. by rewrite kmap_fmap.
    Qed.

    Lemma run_method_ren h sm r1 r2 : segs_ok sm → row_rel S r1 r2 →
      out_rel S (run_method E tk h ev1 sm r1) (run_method E tk (ren_emining h) ev2 (ren_emodel <$> sm) r2).
    Proof.
      intros Hsm Hrow. unfold run_method. cbn [ren_emining em_hdr ren_header mm_method].
      destruct (_ =s "average").
      { unfold average_models. cbn [ren_emining em_segs]. rewrite fmap_length.
        destruct (sum_models_ren h sm r1 r2 Hsm Hrow) as [H1 H2].
        destruct (sum_models E tk h ev1 _ _) as [[o1 ?] ?], (sum_models E tk (ren_emining h) ev2 _ _) as [[o2 ?] ?].
        cbn [fst snd] in H1, H2. subst o2. destruct o1 as [sc|x|q]; cbn [ren_res]; [|by split..].
        split; [|done]. cbn [wrap_row fst ren_result]. rewrite !average_row_eq.
        unfold ren_row. cbn [fmap option_fmap option_map]. by rewrite <- kmap_fmap. }
      destruct (_ =s "sum").
      { destruct (sum_models_ren h sm r1 r2 Hsm Hrow) as [H1 H2].
        destruct (sum_models E tk h ev1 _ _) as [[o1 ?] ?], (sum_models E tk (ren_emining h) ev2 _ _) as [[o2 ?] ?].
        cbn [fst snd] in H1, H2. subst o2. by destruct o1. }
      destruct (_ =s "modelChain").
      { pose proof (chain_ren sm Hsm 0 (Some ∅) r1 r2 Hrow) as H.
        cbn [fmap option_fmap option_map] in H. by rewrite ren_empty in H. }
      destruct (_ =s "selectFirst"); [|by split].
      destruct Hsm as [|s sm Hs _]; [by split|]. rewrite fmap_cons. cbn [select_first].
      specialize (Hs 0 r1 r2 Hrow).
      destruct (ev1 0 s r1) as [[? ?] ?], (ev2 0 (ren_emodel s) r2) as [[? ?] ?]. exact Hs.
    Qed.
  End segments.

  Lemma evaluate_ren E e : ∀ S, model_within S e → ∀ tk r1 r2, row_rel S r1 r2 →
    out_rel S (evaluate E tk e r1) (evaluate E tk (ren_emodel e) r2).
  Proof.
    induction e as [t|x|h sm IH] using emodel_rect'; intros S Hw tk r1 r2 Hrow; inversion Hw as [? ? ? ?|? ?|? ? Hlt Hsm]; subst.
    - cbn [ren_emodel evaluate].
      pose proof (tree_evaluate_ren E S tk t r1 r2) as Ht.
      destruct (tree_evaluate E tk t r1) as [[? ?] ?], (tree_evaluate E tk (ren_etree t) r2) as [[? ?] ?].
      by apply Ht.
    - split; [|done]. cbn [ren_emodel evaluate fst er_model]. by apply (regr_evaluate_ren E S).
    - cbn [ren_emodel evaluate]. change (em_validated (ren_emining h)) with (em_validated h).
      change (em_compiled (ren_emining h)) with (em_compiled h).
      change (em_defaults (ren_emining h)) with (ren (em_defaults h)).
      change (mm_lt (em_hdr (ren_emining h))) with (ren_derived ρ <$> mm_lt (em_hdr h)).
      destruct (negb _); [by split|]. destruct (negb _); [by split|].
      pose proof (impute_ren E S (4 :: tk) (4 :: tk) (em_defaults h) r1 r2 Hrow) as Hi.
      destruct (impute E _ _ r1) as [r1'|y|q], (impute E _ (ren _) r2) as [r2'|y'|q']; try done.
      2:{ subst. by split. }
      2:{ subst. by split. }
      destruct (handle_input_ren E S (mm_lt (em_hdr h)) r1' r2' Hi Hlt) as (H1 & H2 & H3).
      destruct (handle_input E (mm_lt (em_hdr h)) r1') as [o1 r1''] eqn:He, (handle_input E (_ <$> _) r2') as [o2 r2''].
      cbn [fst snd] in H1, H2, H3. subst o2. destruct o1 as [u|y|q].
      2:{ split; [|done]. cbn [fst ren_result]. by rewrite (handle_input_err' _ _ _ _ _ He). }
      2:{ by split. }
      specialize (H3 u eq_refl).
      pose proof (run_method_ren E (λ f, S f ∨ f ∈ map df_name (mm_lt (em_hdr h))) tk
        (λ i s r, evaluate E (5 :: i :: tk) s r) (λ i s r, evaluate E (5 :: i :: tk) s r) h sm r1'' r2'') as Hrun.
      assert (∀ a b : outcome (list emodel), out_rel (λ f, S f ∨ f ∈ map df_name (mm_lt (em_hdr h))) a b → out_rel S a b) as Hm.
      { intros a b [? Hb]. split; [done|]. exact (row_rel_mono _ S _ _ (λ f Hf, or_introl Hf) Hb). }
      destruct (run_method E tk h _ sm r1'') as [[? ?] ?], (run_method E tk (ren_emining h) _ _ r2'') as [[? ?] ?].
      eapply (Hm (_, _, _) (_, _, _)), Hrun; [|done]. unfold segs_ok.
      rewrite Forall_forall in IH, Hsm |- *. intros s Hs i ra rb Hr. apply IH; auto.
  Qed.

  (** *** What NewModel builds reads only what the document reads *)
  Lemma compile_predicate_fields E ft p q : compile_predicate E ft p = Ok q → pred_fields q = pred_fields p.
  Proof.
    revert q. induction p as [| |f op v raw|b ps IH|b f arr|] using predicate_rect'; intros q; try by intros [= <-].
    - simpl. destruct (ft !! f); [|done]. destruct (get_raw_value E _ v); simpl; [|done..]. by intros [= <-].
    - cbn [compile_predicate]. intros (qs & Hqs & [= <-])%rbind_ok. apply rmap_ok in Hqs. simpl. f_equal.
      induction Hqs as [|p' q' ps qs Hq _ IHq]; [done|]. apply Forall_cons in IH as [Hp IH]. simpl.
      by rewrite (Hp _ Hq), IHq.
  Qed.

  Lemma new_node_within E (S : string → Prop) ft m n :
    new_node E ft m = Ok n → (∀ f, f ∈ node_reads m → S f) → node_within S n.
  Proof.
    revert n. induction m as [id dc sc c ds ns pr IH] using mnode_rect'. intros n. cbn [new_node node_reads].
    intros (cs & Hcs & (t & Ht & [= <-])%rbind_ok)%rbind_ok HS. apply node_within_children. split.
    - intros f Hf. apply HS, elem_of_app. left. by rewrite <- (compile_predicate_fields _ _ _ _ Ht).
    - apply rmap_ok in Hcs. apply Forall_forall. intros x Hx.
      apply elem_of_list_lookup in Hx as [i Hi]. destruct (Forall2_lookup_r _ _ _ _ _ Hcs Hi) as (a & Ha & Hn).
      rewrite Forall_forall in IH. apply (IH a); [by eapply elem_of_list_lookup_2|done|].
      intros f Hf. apply HS, elem_of_app. right. apply elem_of_list_In, in_concat. exists (node_reads a).
      split; [|by apply elem_of_list_In]. apply in_map, elem_of_list_In. by eapply elem_of_list_lookup_2.
  Qed.

  Lemma new_model_within E (S : string → Prop) dd td d e td' :
    new_model E dd td d = (Ok e, td') → (∀ f, f ∈ doc_inputs d → S f) → model_within S e.
  Proof.
    revert S td e td'. induction d as [t|r|k|h segs IH] using doc_rect'; intros S td e td' Hn HS.
    - apply new_model_tree_inv in Hn as (te & -> & _ & _ & _ & _ & Hk & Hm & _ & Hr & _).
      constructor.
      + rewrite Hm. cbn [tm_lt]. eapply new_node_within; [done|]. intros f Hf.
        destruct (decide (f ∈ map df_name (tm_lt t))) as [Hin|Hin]; [by right|]. left. apply HS. simpl.
        apply elem_of_app. right. by apply elem_of_list_filter.
      + rewrite Hm. intros f Hf. apply HS. simpl. apply elem_of_app. by left.
      + rewrite Hk. apply keys_ok_empty.
    - injection Hn as <- <-. by constructor.
    - done.
    - apply new_model_mining_inv in Hn as (sm & -> & Hs & _). constructor.
      + cbn [built_mining em_hdr]. rewrite header_of_lt. intros f Hf. apply HS. simpl. apply elem_of_app. by left.
      + cbn [built_mining em_hdr]. rewrite header_of_lt. set (S' := λ f, S f ∨ f ∈ map df_name (mm_lt h)).
        assert (∀ f, f ∈ concat (map (λ s, match s with Segment _ _ ms => concat (map doc_inputs ms) end) segs) → S' f) as HS'.
        { intros f Hf. unfold S'. destruct (decide (f ∈ map df_name (mm_lt h))) as [Hin|Hin]; [by right|]. left.
          apply HS. cbn [doc_inputs]. apply elem_of_app. right. by apply elem_of_list_filter. }
        clear HS. clearbody S'. induction Hs as [|td0 [i ps ms] segs d e es td1 td2 Hd Hn Hs IHs]; constructor.
        * apply Forall_cons in IH as [IH _]. cbn [sg_models] in *. subst ms. apply Forall_cons in IH as [IH _].
          eapply IH; [done|]. intros f Hf. apply HS'. cbn [map concat]. by rewrite app_nil_r, elem_of_app; left.
        * apply Forall_cons in IH as [_ IH]. apply IHs; [done|]. intros f Hf. apply HS'. cbn [map concat].
          rewrite elem_of_app. by right.
  Qed.
End rename.

Lemma renamed_outcome ρ E dd td d e td' :
  Inj (=) (=) ρ → keeps_reserved ρ → new_model E dd td d = (Ok e, td') →
  ∃ e', new_model E (ren_data ρ <$> dd) (ren_derived ρ <$> td) (ren_doc ρ d) = (Ok e', ren_derived ρ <$> td') ∧
    ∀ tk r1 r2, (r1 = None ↔ r2 = None) → (∀ k, k ∈ doc_inputs d → dr_get r2 (ρ k) = dr_get r1 k) →
      (evaluate E tk e' r2).1.1 = ren_result ρ (evaluate E tk e r1).1.1.
Proof.
  intros Hinj Hres Hn. exists (ren_emodel ρ e). split.
  - rewrite (new_model_ren ρ Hinj Hres), Hn. done.
  - intros tk r1 r2 H1 H2.
    refine (proj1 (evaluate_ren ρ Hinj Hres E e (λ k, k ∈ doc_inputs d) _ tk r1 r2 (conj H1 H2))).
    by eapply new_model_within.
Qed.

Lemma renamed_refused ρ E dd td d :
  Inj (=) (=) ρ → keeps_reserved ρ →
  ∀ x, (new_model E dd td d).1 = Err x →
  (new_model E (ren_data ρ <$> dd) (ren_derived ρ <$> td) (ren_doc ρ d)).1 = Err (ren_err ρ x).
Proof. intros Hinj Hres x Hx. rewrite (new_model_ren ρ Hinj Hres), Hx. done. Qed.

(** The identity renames nothing. *)
Lemma ren_result_id o : ren_result id o = o.
Proof.
  destruct o as [[m|]|x|p]; simpl; try done.
  - f_equal. f_equal. unfold ren_row. apply map_eq. intros k.
    change k with (id k) at 1. by rewrite (lookup_kmap id).
  - by destruct x.
Qed.
