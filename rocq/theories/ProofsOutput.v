(** Proofs about the scores a tree reports: the best class, the output keys,
    regression scores, and panics. *)
From Verif Require Import Base Strconv Value Doc Expr Pred Tree Regression Model Lib
  SpecPred ProofsPred SpecExpr ProofsExpr SpecConstruct ProofsConstruct SpecTree ProofsTree.

(** ** The order of floats *)

Lemma SFcompare_lt_trans a b c :
  SFcompare a b = Some Lt → SFcompare b c = Some Lt ∨ SFcompare b c = Some Eq →
  SFcompare a c = Some Lt.
Proof.
  destruct a as [[]|[]| |[] m1 e1], b as [[]|[]| |[] m2 e2], c as [[]|[]| |[] m3 e3];
    simpl; try naive_solver;
    destruct (Z.compare_spec e1 e2), (Z.compare_spec e2 e3), (Z.compare_spec e1 e3);
    change (Pos.compare_cont Eq) with Pos.compare;
    destruct (Pos.compare_spec m1 m2), (Pos.compare_spec m2 m3), (Pos.compare_spec m1 m3);
    simpl; try naive_solver; intros; exfalso; subst; lia.
Qed.

Lemma SFcompare_refl_not_lt a : SFcompare a a ≠ Some Lt.
Proof.
  destruct a as [[]|[]| |[] m e]; simpl; try done; rewrite Z.compare_refl;
    change (Pos.compare_cont Eq) with Pos.compare; rewrite Pos.compare_refl; done.
Qed.

Lemma fltb_lt a b : fltb a b = true ↔ SFcompare a b = Some Lt.
Proof. unfold fltb, SFltb. by destruct (SFcompare a b) as [[]|]. Qed.
Lemma fleb_le a b : fleb a b = true ↔ SFcompare a b = Some Lt ∨ SFcompare a b = Some Eq.
Proof. unfold fleb, SFleb. destruct (SFcompare a b) as [[]|]; naive_solver. Qed.

Lemma fltb_irrefl a : fltb a a = false.
Proof. apply not_true_is_false. rewrite fltb_lt. apply SFcompare_refl_not_lt. Qed.
Lemma fltb_trans a b c : fltb a b = true → fltb b c = true → fltb a c = true.
Proof. rewrite !fltb_lt. intros. eapply SFcompare_lt_trans; eauto. Qed.
Lemma fltb_fleb_trans a b c : fltb a b = true → fleb b c = true → fltb a c = true.
Proof. rewrite !fltb_lt, fleb_le. intros. eapply SFcompare_lt_trans; eauto. Qed.

(** ** pickBest *)

Definition no_score : score := Score "" fzero fzero fzero.

Lemma pick_best_snoc l s :
  pick_best (l ++ [s]) = if fltb (sc_prob (pick_best l)) (sc_prob s) then s else pick_best l.
Proof. unfold pick_best. by rewrite foldl_snoc. Qed.

Lemma pick_best_inv l :
  (∀ s, s ∈ l → fltb (sc_prob (pick_best l)) (sc_prob s) = false) ∧
  ((pick_best l = no_score ∧ ∀ s, s ∈ l → fltb fzero (sc_prob s) = false) ∨
   (fltb fzero (sc_prob (pick_best l)) = true ∧
    ∃ l1 l2, l = l1 ++ pick_best l :: l2 ∧
      ∀ s, s ∈ l1 → fleb (sc_prob (pick_best l)) (sc_prob s) = false)).
Proof.
  induction l as [|s l [IH1 IH2]] using rev_ind.
  { split; [intros s Hs; by apply elem_of_nil in Hs|]. left. split; [done|].
    intros s Hs; by apply elem_of_nil in Hs. }
  rewrite pick_best_snoc. destruct (fltb (sc_prob (pick_best l)) (sc_prob s)) eqn:Hlt.
  - split.
    + intros s' [Hs'|Hs'%elem_of_list_singleton]%elem_of_app.
      * apply not_true_is_false. intros Hx. specialize (IH1 s' Hs').
        by rewrite (fltb_trans _ _ _ Hlt Hx) in IH1.
      * subst. apply fltb_irrefl.
    + right. split.
      * destruct IH2 as [[Hb _]|[Hb _]]; [by rewrite Hb in Hlt|]. by eapply fltb_trans.
      * exists l, []. split; [done|]. intros s' Hs'. apply not_true_is_false. intros Hx.
        specialize (IH1 s' Hs'). by rewrite (fltb_fleb_trans _ _ _ Hlt Hx) in IH1.
  - split.
    + intros s' [Hs'|Hs'%elem_of_list_singleton]%elem_of_app; [by apply IH1|by subst].
    + destruct IH2 as [[Hb Hz]|(Hb & l1 & l2 & Hl & Hf)].
      * left. split; [done|]. intros s' [Hs'|Hs'%elem_of_list_singleton]%elem_of_app; [by apply Hz|].
        subst. by rewrite Hb in Hlt.
      * right. split; [done|]. exists l1, (l2 ++ [s]). split; [|done].
        rewrite Hl at 1. by rewrite <-app_assoc.
Qed.

Lemma pick_best_argmax l s :
  s ∈ l → fltb fzero (sc_prob s) = true → is_argmax (pick_best l) l.
Proof.
  intros Hs Hp. destruct (pick_best_inv l) as [H1 [[_ Hz]|(_ & l1 & l2 & Hl & Hf)]].
  - specialize (Hz s Hs). congruence.
  - exists l1, l2. done.
Qed.

Lemma pick_best_none l :
  (∀ s, s ∈ l → fltb fzero (sc_prob s) = false) → pick_best l = no_score.
Proof.
  intros H. destruct (pick_best_inv l) as [_ [[Hb _]|(Hb & l1 & l2 & Hl & _)]]; [done|].
  rewrite H in Hb; [done|]. rewrite Hl at 2. set_solver.
Qed.

(** ** The keys of a classification output *)

Lemma prob_key_inj a b : prob_key a = prob_key b → a = b.
Proof.
  unfold prob_key. intros H. simplify_eq/=.
  revert b H. induction a as [|c a IH]; intros [|c' b] H; simpl in *; simplify_eq; try done.
  - destruct b; simpl in *; simplify_eq.
  - destruct a; simpl in *; simplify_eq.
  - f_equal. by apply IH.
Qed.

(** a cache that only holds right entries *)
Definition keys_ok (keys : gmap string string) : Prop :=
  ∀ v k, keys !! v = Some k → k = prob_key v.

Lemma keys_ok_empty : keys_ok ∅.
Proof. intros v k H. by rewrite lookup_empty in H. Qed.

Lemma out_step_ok out keys s :
  keys_ok keys →
  (out_step (out, keys) s).1 = <[prob_key (sc_value s) := GF64 (sc_prob s)]> out ∧
  keys_ok (out_step (out, keys) s).2.
Proof.
  intros Hk. unfold out_step. destruct (keys !! sc_value s) as [k|] eqn:Hs.
  - apply Hk in Hs. subst. done.
  - simpl. split; [done|]. intros v k. destruct (decide (v = sc_value s)) as [->|Hne].
    + rewrite lookup_insert. by intros [= <-].
    + rewrite lookup_insert_ne by done. apply Hk.
Qed.

Lemma out_steps_ok out keys l :
  keys_ok keys →
  (foldl out_step (out, keys) l).1 =
    foldl (λ o s, <[prob_key (sc_value s) := GF64 (sc_prob s)]> o) out l ∧
  keys_ok (foldl out_step (out, keys) l).2.
Proof.
  revert out keys. induction l as [|s l IH]; intros out keys Hk; [done|].
  cbn [foldl]. destruct (out_step_ok out keys s Hk) as [H1 H2].
  destruct (out_step (out, keys) s) as [out' keys']. simpl in H1, H2. subst out'.
  by apply IH.
Qed.

Lemma class_row_lookup target scores k :
  class_row target scores !! k =
  match last (filter (λ p, p.1 = k) (map (λ s, (prob_key (sc_value s), GF64 (sc_prob s))) scores)) with
  | Some p => Some p.2
  | None => ({[target := GStr (sc_value (pick_best scores))]} : row) !! k
  end.
Proof.
  unfold class_row.
  apply (foldl_insert_last (λ s, (prob_key (sc_value s), GF64 (sc_prob s)))).
Qed.

Lemma class_row_keys target scores k :
  is_Some (class_row target scores !! k) ↔
  k = target ∨ ∃ s, s ∈ scores ∧ k = prob_key (sc_value s).
Proof.
  rewrite class_row_lookup. destruct (last _) as [p|] eqn:Hl.
  - split; [|eauto]. intros _. right. apply last_filter_some in Hl as (l1 & l2 & Hm & <- & _).
    assert (p ∈ map (λ s, (prob_key (sc_value s), GF64 (sc_prob s))) scores) as Hin
      by (rewrite Hm; set_solver).
    apply elem_of_list_In, in_map_iff in Hin as (s & <- & Hs). apply elem_of_list_In in Hs. eauto.
  - destruct (decide (k = target)) as [->|Hne].
    + rewrite lookup_singleton. split; eauto.
    + rewrite lookup_singleton_ne by done. split; [by intros [? ?]|].
      intros [?|(s & Hs & ->)]; [done|]. exfalso. apply last_None in Hl.
      assert ((prob_key (sc_value s), GF64 (sc_prob s)) ∈
        filter (λ p, p.1 = prob_key (sc_value s))
          (map (λ s, (prob_key (sc_value s), GF64 (sc_prob s))) scores)) as Hin.
      { apply elem_of_list_filter. split; [done|]. apply elem_of_list_In, in_map_iff.
        exists s. split; [done|]. by apply elem_of_list_In. }
      rewrite Hl in Hin. by apply elem_of_nil in Hin.
Qed.

(** the probability reported for a class: that of its last entry *)
Lemma class_row_prob target l1 s l2 :
  (∀ s', s' ∈ l2 → sc_value s' ≠ sc_value s) →
  class_row target (l1 ++ s :: l2) !! prob_key (sc_value s) = Some (GF64 (sc_prob s)).
Proof.
  intros Hl2. rewrite class_row_lookup.
  assert (last (filter (λ p, p.1 = prob_key (sc_value s))
    (map (λ s, (prob_key (sc_value s), GF64 (sc_prob s))) (l1 ++ s :: l2)))
    = Some (prob_key (sc_value s), GF64 (sc_prob s))) as ->; [|done].
  apply last_filter_some. rewrite map_app. simpl. eexists _, _. split; [done|]. split; [done|].
  apply Forall_forall. intros p Hp. apply elem_of_list_In, in_map_iff in Hp as (s' & <- & Hs').
  apply elem_of_list_In in Hs'. simpl. intros Heq%prob_key_inj. by apply (Hl2 s').
Qed.

Lemma class_row_target target scores :
  (∀ s, s ∈ scores → prob_key (sc_value s) ≠ target) →
  class_row target scores !! target = Some (GStr (sc_value (pick_best scores))).
Proof.
  intros H. rewrite class_row_lookup. destruct (last _) as [p|] eqn:Hl.
  - apply last_filter_some in Hl as (l1 & l2 & Hm & Hp & _).
    assert (p ∈ map (λ s, (prob_key (sc_value s), GF64 (sc_prob s))) scores) as Hin
      by (rewrite Hm; set_solver).
    apply elem_of_list_In, in_map_iff in Hin as (s & <- & Hs). apply elem_of_list_In in Hs.
    by destruct (H s Hs).
  - by rewrite lookup_singleton.
Qed.

(** the output of a tree given its scores *)
Lemma tree_output_class E t scores :
  keys_ok (et_outkeys t) → tm_function (et_model t) = "classification" →
  (tree_output E t scores).1 = Ok (Some (class_row (et_target t) scores)) ∧
  keys_ok (tree_output E t scores).2.
Proof.
  intros Hk Hf. unfold tree_output. rewrite Hf. simpl.
  destruct (out_steps_ok {[et_target t := GStr (sc_value (pick_best scores))]} (et_outkeys t) scores Hk)
    as [H1 H2].
  destruct (foldl out_step _ _) as [out keys]. simpl in *. subst. done.
Qed.

Lemma tree_output_regr E t scores :
  tm_function (et_model t) = "regression" →
  tree_output E t scores =
  (match scores with
   | [] => Panic PIndex
   | s :: _ => match ext_parse_float E (sc_value s) with
               | Some f => Ok (Some {["score" := GF64 f]})
               | None => Err (EParseFloat (sc_value s))
               end
   end, et_outkeys t).
Proof. intros Hf. unfold tree_output. by rewrite Hf. Qed.
