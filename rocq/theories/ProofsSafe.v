(** No panics, no lifecycle errors: totality of tree evaluation, and the same for
    whole models. *)
From Verif Require Import Base Strconv Value Doc Expr Pred Tree Regression Model Lib
  SpecPred ProofsPred SpecExpr ProofsExpr SpecConstruct ProofsConstruct ProofsRange
  SpecTree ProofsTree ProofsOutput ProofsEval ProofsDoc.

Lemma rmap_total {A B} (f : A → res B) l :
  Forall (λ a, ∃ b, f a = Ok b) l → ∃ bs, rmap f l = Ok bs.
Proof.
  induction 1 as [|a l [b Hb] _ [bs IH]]; simpl; [eauto|]. rewrite Hb. simpl. rewrite IH. simpl. eauto.
Qed.

Lemma rmapi_total {A B} (f : nat → A → res B) i l :
  Forall (λ a, ∀ i, ∃ b, f i a = Ok b) l → ∃ bs, rmapi f i l = Ok bs.
Proof.
  intros H. revert i. induction H as [|a l H _ IH]; intros i; simpl; [eauto|].
  destruct (H i) as [b ->]. simpl. destruct (IH (S i)) as [bs ->]. simpl. eauto.
Qed.

(** ** Totality of the six strategies *)

Lemma eval_last_total E cx r n :
  everywhere (has_verdict E (cx_ft cx) r) n → ∃ x, eval_last E cx r n = Ok x.
Proof.
  induction n as [id dc cs ds t sc IH] using node_rect'.
  inversion 1 as [? [v Hp] Hf]; subst. unfold verdict in Hp. simpl in *. rewrite Hp. simpl.
  destruct v; try (by eauto);
    (destruct (rmap_total (eval_last E cx r) cs) as [rs Hrs];
     [apply Forall_forall; intros c Hc; rewrite Forall_forall in IH, Hf; auto|];
     rewrite Hrs; simpl; destruct (foldl _ _ _) as [u td]; destruct (negb u && _); eauto).
Qed.

Lemma eval_default_total E cx r n :
  everywhere (has_verdict E (cx_ft cx) r) n → ∃ x, eval_default E cx r n = Ok x.
Proof.
  induction n as [id dc cs ds t sc IH] using node_rect'.
  inversion 1 as [? [v Hp] Hf]; subst. unfold verdict in Hp. simpl in *. rewrite Hp. simpl.
  destruct v; try (by eauto);
    (destruct (rmap_total (eval_default E cx r) cs) as [rs Hrs];
     [apply Forall_forall; intros c Hc; rewrite Forall_forall in IH, Hf; auto|];
     rewrite Hrs; simpl; destruct (foldl scan_step _ _) as [u td]; destruct (negb u && _); [eauto|];
     destruct u; [destruct (_ !! _)|]; eauto).
Qed.

Lemma eval_weighted_total E cx r tk n :
  everywhere (has_verdict E (cx_ft cx) r) n → ∃ x, eval_weighted E cx r tk n = Ok x.
Proof.
  revert tk. induction n as [id dc cs ds t sc IH] using node_rect'. intros tk.
  inversion 1 as [? [v Hp] Hf]; subst. unfold verdict in Hp. simpl in *. rewrite Hp. simpl.
  destruct v; try (by eauto);
    (destruct (rmapi_total (λ i c, eval_weighted E cx r (i :: tk) c) 2 cs) as [rs Hrs];
     [apply Forall_forall; intros c Hc i; rewrite Forall_forall in IH, Hf; auto|];
     rewrite Hrs; simpl; destruct (foldl scan_step _ _) as [u td];
     destruct (foldl wc_collect _ _) as [[co ss] to]; destruct (negb u && _); [eauto|];
     destruct u; eauto).
Qed.

Lemma eval_aggregate_total E cx r tk n :
  everywhere (has_verdict E (cx_ft cx) r) n → ∃ x, eval_aggregate E cx r tk n = Ok x.
Proof.
  revert tk. induction n as [id dc cs ds t sc IH] using node_rect'. intros tk.
  inversion 1 as [? [v Hp] Hf]; subst. unfold verdict in Hp. simpl in *. rewrite Hp. simpl.
  destruct v; try (by eauto);
    (destruct (rmapi_total (λ i c, eval_aggregate E cx r (i :: tk) c) 1 cs) as [rs Hrs];
     [apply Forall_forall; intros c Hc i; rewrite Forall_forall in IH, Hf; auto|];
     rewrite Hrs; simpl; destruct (foldl scan_step _ _) as [u td];
     destruct (negb u && _); [eauto|];
     destruct u; [destruct (foldl an_add _ _)|]; eauto).
Qed.

Lemma node_evaluate_total E cx st r tk n :
  everywhere (has_verdict E (cx_ft cx) r) n → ∃ x, node_evaluate E cx st r tk n = Ok x.
Proof.
  intros H. unfold node_evaluate.
  destruct (_ =s _); [by apply eval_null_total|]. destruct (_ =s _); [by apply eval_aggregate_total|].
  destruct (_ =s _); [by apply eval_weighted_total|]. destruct (_ =s _); [by apply eval_default_total|].
  destruct (_ =s _); [by apply eval_last_total|]. by apply eval_none_total.
Qed.

(** ** Non-empty scores *)

Definition filled (x : list score * presult) : Prop := x.2 ≠ RF → x.1 ≠ [].

Lemma scan_true_inv rs :
  (foldl scan_step (false, []) rs).2 ≠ [] →
  ∃ s, (s, RT) ∈ rs ∧ (foldl scan_step (false, []) rs).2 = s.
Proof.
  rewrite scan_true. simpl. destruct (last _) as [[s v]|] eqn:Hl; simpl; [|done]. intros _.
  exists s. split; [|done]. apply last_filter_some in Hl as (l1 & l2 & -> & Hv & _). simpl in Hv.
  subst. set_solver.
Qed.

Lemma scan_keeps_filled rs : Forall filled rs →
  Nat.eqb (length (foldl scan_step (false, []) rs).2) 0 = false →
  (foldl scan_step (false, []) rs).2 ≠ [].
Proof. intros _. by destruct (foldl scan_step (false, []) rs).2. Qed.

Section filled.
  Context (E : Ext) (cx : tctx) (r : datarow).

  Lemma eval_none_filled n x :
    everywhere (λ n, output_dist cx n ≠ []) n → eval_none E cx r n = Ok x → filled x.
  Proof.
    revert x. induction n as [id dc cs ds t sc IH] using node_rect'. intros x Hd.
    inversion Hd as [? Hn Hc]; subst. simpl in Hc.
    change (eval_none E cx r (Node id dc cs ds t sc)) with
      (result <-! run_test E (cx_ft cx) t r;
       match result with
       | RF | RU => Ok ([], RF)
       | RT => first_true (eval_none E cx r) (output_dist cx (Node id dc cs ds t sc), result) cs
       end).
    intros (v & Hv & H)%rbind_ok. destruct v; try (by injection H as <-; intros []).
    apply first_true_spec in H as [[_ ->]|(l1 & a & l2 & s & -> & _ & Ha & ->)]; [by intros _|].
    rewrite Forall_forall in IH, Hc. assert (a ∈ l1 ++ a :: l2) as Hin by set_solver.
    intros _. by apply (IH a Hin _ (Hc a Hin) Ha).
  Qed.

  Lemma eval_null_filled n x :
    everywhere (λ n, output_dist cx n ≠ []) n → eval_null E cx r n = Ok x → x.2 = RT → x.1 ≠ [].
  Proof.
    revert x. induction n as [id dc cs ds t sc IH] using node_rect'. intros x Hd.
    inversion Hd as [? Hn Hc]; subst. simpl in Hc.
    change (eval_null E cx r (Node id dc cs ds t sc)) with
      (result <-! run_test E (cx_ft cx) t r;
       match result with
       | RF => Ok ([], RF)
       | RU => Ok ([], RU)
       | RT => first_known (eval_null E cx r) (output_dist cx (Node id dc cs ds t sc), result) cs
       end).
    intros (v & Hv & H)%rbind_ok. destruct v; try (by injection H as <-).
    apply first_known_spec in H as [[_ ->]|(l1 & a & l2 & s & -> & _ & [[Ha ->]|[Ha ->]])]; [done| |done].
    rewrite Forall_forall in IH, Hc. assert (a ∈ l1 ++ a :: l2) as Hin by set_solver.
    intros _. by apply (IH a Hin _ (Hc a Hin) Ha).
  Qed.

  Lemma eval_last_filled n x :
    everywhere (λ n, output_dist cx n ≠ []) n → eval_last E cx r n = Ok x → filled x.
  Proof.
    destruct n as [id dc cs ds t sc]. intros Hd. apply everywhere_here in Hd.
    change (eval_last E cx r (Node id dc cs ds t sc)) with
      (result <-! run_test E (cx_ft cx) t r;
       match result with
       | RF => Ok ([], RF)
       | _ =>
          rs <-! rmap (eval_last E cx r) cs;
          let '(unknown, true_dist) := foldl scan_step (false, []) rs in
          if negb unknown && negb (Nat.eqb (length true_dist) 0) then Ok (true_dist, RT)
          else Ok (output_dist cx (Node id dc cs ds t sc), result)
       end).
    intros (v & Hv & H)%rbind_ok.
    destruct v; try (by injection H as <-; intros []); apply rbind_ok in H as (rs & Hrs & H);
      destruct (foldl _ _ _) as [u td]; destruct (negb u && _) eqn:Hu; simplify_eq;
      intros _; simpl; try exact Hd; apply andb_true_iff in Hu as [_ Hu]; by destruct td.
  Qed.

  Lemma eval_aggregate_filled tk n x :
    everywhere (λ n, output_dist cx n ≠ []) n → eval_aggregate E cx r tk n = Ok x → x.1 ≠ [].
  Proof.
    revert tk x. induction n as [id dc cs ds t sc IH] using node_rect'. intros tk x Hd.
    inversion Hd as [? Hn Hc]; subst. simpl in Hc.
    change (eval_aggregate E cx r tk (Node id dc cs ds t sc)) with
      (result <-! run_test E (cx_ft cx) t r;
       match result with
       | RF => Ok (output_dist cx (Node id dc cs ds t sc), RF)
       | _ =>
          rs <-! rmapi (λ i c, eval_aggregate E cx r (i :: tk) c) 1 cs;
          let child_scores := concat rs.*1 in
          let '(unknown, true_dist) := foldl scan_step (false, []) rs in
          if negb unknown && negb (Nat.eqb (length true_dist) 0) then Ok (true_dist, result)
          else if unknown then
            let '(agg, total) := foldl an_add (∅, fzero) child_scores in
            Ok ((λ '(_, a), Score (sc_value a) (fdiv (sc_count a) total)
                                  (fdiv (sc_count a) total) (sc_count a))
                  <$> map_range E (0 :: tk) agg, RT)
          else Ok (output_dist cx (Node id dc cs ds t sc), result)
       end).
    intros (v & Hv & H)%rbind_ok.
    assert (Hgo : v = RF ∨
      ∃ rs, rmapi (λ i c, eval_aggregate E cx r (i :: tk) c) 1 cs = Ok rs ∧
        (let '(unknown, true_dist) := foldl scan_step (false, []) rs in
          if negb unknown && negb (Nat.eqb (length true_dist) 0) then Ok (true_dist, v)
          else if unknown then
            let '(agg, total) := foldl an_add (∅, fzero) (concat rs.*1) in
            Ok ((λ '(_, a), Score (sc_value a) (fdiv (sc_count a) total)
                                  (fdiv (sc_count a) total) (sc_count a))
                  <$> map_range E (0 :: tk) agg, RT)
          else Ok (output_dist cx (Node id dc cs ds t sc), v)) = Ok x).
    { destruct v; try (by left); right; apply rbind_ok in H as (rs & Hrs & H); eauto. }
    destruct Hgo as [->|(rs & Hrs & Hx)]; [by simplify_eq|]. clear H.
    destruct (foldl scan_step (false, []) rs) as [u td] eqn:Hs.
    destruct (negb u && _) eqn:Hu.
    { simplify_eq. simpl. apply andb_true_iff in Hu as [_ Hu]. by destruct td. }
    destruct u; [|by simplify_eq].
    destruct (foldl an_add (∅, fzero) (concat rs.*1)) as [agg total] eqn:Hagg.
    simplify_eq. simpl. pose proof (an_fold (concat rs.*1)) as Hf. rewrite Hagg in Hf.
    destruct Hf as [_ Hf].
    assert (∃ x, x ∈ rs ∧ x.2 = RU) as (y & Hy & Hyu).
    { apply scan_unknown_true. by rewrite Hs. }
    apply elem_of_list_lookup in Hy as [j Hj].
    apply rmapi_ok in Hrs as [Hlen Hrs].
    assert (is_Some (cs !! j)) as [c Hcj].
    { apply lookup_lt_is_Some. rewrite <-Hlen. apply lookup_lt_is_Some. eauto. }
    assert (y.1 ≠ []) as Hy1.
    { rewrite Forall_forall in IH, Hc. assert (c ∈ cs) as Hin by (by eapply elem_of_list_lookup_2).
      eapply (IH c Hin); [by apply Hc|]. by eapply (Hrs j). }
    destruct y.1 as [|s0 ss] eqn:Hy1'; [done|].
    assert (s0 ∈ concat rs.*1) as Hin.
    { apply elem_of_list_In, in_concat. exists y.1. split.
      - apply elem_of_list_In, elem_of_list_fmap. exists y. split; [done|].
        by eapply elem_of_list_lookup_2.
      - rewrite Hy1'. by left. }
    specialize (Hf (sc_value s0)). rewrite decide_True in Hf.
    2:{ apply elem_of_list_fmap. eauto. }
    intros Hnil. apply fmap_nil_inv in Hnil.
    apply (map_range_elem E (0 :: tk)) in Hf. rewrite Hnil in Hf. by apply elem_of_nil in Hf.
  Qed.

  Lemma wc_scores_nonempty l counts scores total :
    foldl wc_collect (∅, ∅, fzero) l = (counts, scores, total) →
    Forall (λ p, filled p.2) l →
    (∀ k ss, scores !! k = Some ss → ss ≠ []) ∧
    ((∃ p, p ∈ l ∧ p.2.2 ≠ RF) → ∃ k, is_Some (scores !! k)).
  Proof.
    revert counts scores total. induction l as [|p l IH] using rev_ind; intros counts scores total.
    - simpl. intros [= <- <- <-] _. split.
      + intros k ss H. by rewrite lookup_empty in H.
      + intros (p & Hp & _). by apply elem_of_nil in Hp.
    - rewrite foldl_snoc. destruct (foldl wc_collect _ l) as [[co ss] to] eqn:Hl.
      rewrite Forall_app, Forall_singleton. intros Hw [Hf Hp].
      destruct (IH _ _ _ eq_refl Hf) as [IH1 IH2]. destruct p as [c [s v]].
      simpl in Hw, Hp. unfold filled in Hp. simpl in Hp.
      assert (Hcase : v = RF ∧ scores = ss ∨ v ≠ RF ∧ scores = <[n_id c := s]> ss).
      { destruct v; simplify_eq; naive_solver. }
      destruct Hcase as [[-> ->]|[Hv ->]].
      + split; [done|]. intros (q & [Hq| ->%elem_of_list_singleton]%elem_of_app & Hq2); [eauto|done].
      + split.
        * intros k s'. destruct (decide (k = n_id c)) as [->|Hne].
          -- rewrite lookup_insert. intros [= <-]. auto.
          -- rewrite lookup_insert_ne by done. apply IH1.
        * intros _. exists (n_id c). by rewrite lookup_insert.
  Qed.

  Lemma eval_weighted_filled tk n x :
    everywhere (λ n, output_dist cx n ≠ []) n → eval_weighted E cx r tk n = Ok x → filled x.
  Proof.
    revert tk x. induction n as [id dc cs ds t sc IH] using node_rect'. intros tk x Hd.
    inversion Hd as [? Hn Hc]; subst. simpl in Hc.
    change (eval_weighted E cx r tk (Node id dc cs ds t sc)) with
      (result <-! run_test E (cx_ft cx) t r;
       match result with
       | RF => Ok (ds, RF)
       | _ =>
          rs <-! rmapi (λ i c, eval_weighted E cx r (i :: tk) c) 2 cs;
          let '(unknown, true_dist) := foldl scan_step (false, []) rs in
          let '(counts, scores, total) := foldl wc_collect (∅, ∅, fzero) (zip cs rs) in
          if negb unknown && Nat.ltb 0 (length true_dist) then Ok (true_dist, result)
          else if unknown then
            let agg : gmap string score :=
              foldl (λ agg '(nid, ss),
                       foldl (wc_add (fdiv (default fzero (counts !! nid)) total)) agg ss)
                    ∅ (map_range E (0 :: tk) scores) in
            Ok ((map_range E (1 :: tk) agg).*2, RT)
          else Ok (output_dist cx (Node id dc cs ds t sc), result)
       end).
    intros (v & Hv & H)%rbind_ok.
    assert (Hgo : v = RF ∧ x = (ds, RF) ∨
      ∃ rs, rmapi (λ i c, eval_weighted E cx r (i :: tk) c) 2 cs = Ok rs ∧
         (let '(unknown, true_dist) := foldl scan_step (false, []) rs in
          let '(counts, scores, total) := foldl wc_collect (∅, ∅, fzero) (zip cs rs) in
          if negb unknown && Nat.ltb 0 (length true_dist) then Ok (true_dist, v)
          else if unknown then
            let agg : gmap string score :=
              foldl (λ agg '(nid, ss),
                       foldl (wc_add (fdiv (default fzero (counts !! nid)) total)) agg ss)
                    ∅ (map_range E (0 :: tk) scores) in
            Ok ((map_range E (1 :: tk) agg).*2, RT)
          else Ok (output_dist cx (Node id dc cs ds t sc), v)) = Ok x).
    { destruct v; try (left; by simplify_eq); right; apply rbind_ok in H as (rs & Hrs & H); eauto. }
    destruct Hgo as [[-> ->]|(rs & Hrs & Hx)]; [by intros []|]. clear H.
    destruct (foldl scan_step (false, []) rs) as [u td] eqn:Hs.
    destruct (foldl wc_collect (∅, ∅, fzero) (zip cs rs)) as [[counts scores] total] eqn:Hw.
    destruct (negb u && _) eqn:Hu.
    { simplify_eq. intros _. simpl. apply andb_true_iff in Hu as [_ Hu]. by destruct td. }
    destruct u; [|by simplify_eq; intros _].
    simplify_eq. intros _. simpl.
    assert (∃ x, x ∈ rs ∧ x.2 = RU) as (y & Hy & Hyu).
    { apply scan_unknown_true. by rewrite Hs. }
    apply rmapi_ok in Hrs as [Hlen Hrs].
    assert (Forall (λ p : node * (list score * presult), filled p.2) (zip cs rs)) as Hfl.
    { apply Forall_lookup. intros j [c z] Hj. apply lookup_zip_with_Some in Hj as (c' & z' & [= -> ->] & Hcj & Hzj).
      simpl. rewrite Forall_forall in IH, Hc. assert (c' ∈ cs) as Hin by (by eapply elem_of_list_lookup_2).
      eapply (IH c' Hin); [by apply Hc|]. by eapply (Hrs j). }
    destruct (wc_scores_nonempty _ _ _ _ Hw Hfl) as [Hne Hex].
    destruct Hex as [k [ss Hk]].
    { apply elem_of_list_lookup in Hy as [j Hj].
      assert (is_Some (cs !! j)) as [c Hcj].
      { apply lookup_lt_is_Some. rewrite <-Hlen. apply lookup_lt_is_Some. eauto. }
      exists (c, y). split; [|simpl; by rewrite Hyu].
      apply elem_of_list_lookup. exists j. apply lookup_zip_with_Some. eauto. }
    assert (ss ≠ []) as Hss by (by eapply Hne).
    cbv zeta in Hx. injection Hx as <-. simpl.
    set (agg := foldl _ _ _).
    set (pairs := concat (map (λ x : string * list score,
                    map (λ s, (fdiv (default fzero (counts !! x.1)) total, s)) x.2)
                    (map_range E (0 :: tk) scores))).
    assert (Hagg : agg = foldl (λ agg p, wc_add p.1 agg p.2) ∅ pairs).
    { unfold agg, pairs.
      rewrite <-(wc_nested (λ x : string * list score, fdiv (default fzero (counts !! x.1)) total) snd).
      generalize (∅ : gmap string score).
      induction (map_range E (0 :: tk) scores) as [|[a b] l IHl]; intros m; simpl; [done|]. apply IHl. }
    destruct ss as [|s0 ss]; [done|].
    pose proof (wc_add_fold pairs (sc_value s0)) as Hl. cbv zeta in Hl.
    rewrite <-Hagg in Hl. rewrite decide_True in Hl.
    2:{ apply elem_of_list_fmap. exists (fdiv (default fzero (counts !! k)) total, s0). split; [done|].
        apply elem_of_list_In, in_concat. eexists. split.
        - apply elem_of_list_In, elem_of_list_fmap. exists (k, s0 :: ss).
          split; [reflexivity|by apply map_range_elem].
        - simpl. by left. }
    apply (map_range_elem E (1 :: tk)) in Hl. intros Hnil. apply fmap_nil_inv in Hnil.
    rewrite Hnil in Hl. by apply elem_of_nil in Hl.
  Qed.

  Lemma node_evaluate_filled st tk n s :
    st ≠ "defaultChild" →
    everywhere (λ n, output_dist cx n ≠ []) n →
    node_evaluate E cx st r tk n = Ok (s, RT) → s ≠ [].
  Proof.
    intros Hst Hd. unfold node_evaluate.
    destruct (_ =s _). { intros H. by apply (eval_null_filled n (s, RT)). }
    destruct (_ =s _). { intros H. by apply (eval_aggregate_filled tk n (s, RT)). }
    destruct (_ =s _). { intros H. by apply (eval_weighted_filled tk n (s, RT) Hd H). }
    destruct (String.eqb_spec st "defaultChild"); [done|].
    destruct (_ =s _). { intros H. by apply (eval_last_filled n (s, RT) Hd H). }
    intros H. by apply (eval_none_filled n (s, RT) Hd H).
  Qed.
End filled.
