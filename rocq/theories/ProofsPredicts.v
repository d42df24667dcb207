(** C135: trees that predict for every row. *)
From Verif Require Import Base Strconv Value Doc Expr Pred Tree Lib SpecTree ProofsTree ProofsOutput ProofsDoc ProofsEval ProofsClass ProofsAnswer PropertiesFinal.

Lemma scan_seen rs : ∀ u d,
  ((foldl scan_step (u, d) rs).2 = d ∨ ∃ x, x ∈ rs ∧ x.2 = RT ∧ x.1 = (foldl scan_step (u, d) rs).2) ∧
  ((foldl scan_step (u, d) rs).1 = true → u = true ∨ ∃ x, x ∈ rs ∧ x.2 = RU).
Proof.
  induction rs as [|[s v] rs IH]; intros u d; [simpl; auto|]. cbn [foldl].
  destruct v; cbn [scan_step].
  - destruct (IH true d) as [H1 _]. split.
    + destruct H1 as [H1|(x & Hx & ? & ?)]; [by left|right; exists x; split; [by right|done]].
    + intros _. right. exists (s, RU). split; [by left|done].
  - destruct (IH u s) as [H1 H2]. split.
    + right. destruct H1 as [H1|(x & Hx & ? & ?)]; [exists (s, RT); split; [by left|done]|exists x; split; [by right|done]].
    + intros H. destruct (H2 H) as [?|(x & Hx & ?)]; [by left|right; exists x; split; [by right|done]].
  - destruct (IH u d) as [H1 H2]. split.
    + destruct H1 as [H1|(x & Hx & ? & ?)]; [by left|right; exists x; split; [by right|done]].
    + intros H. destruct (H2 H) as [?|(x & Hx & ?)]; [by left|right; exists x; split; [by right|done]].
Qed.

(** ** Some node answers *)
Lemma true_scores_in (rs : list answer_t) : true_scores rs ≠ [] → ∃ x, x ∈ rs ∧ x.2 = RT ∧ x.1 = true_scores rs.
Proof.
  unfold true_scores. destruct (last _) as [x|] eqn:Hx; [|done]. intros _. exists x.
  apply last_Some in Hx as [l Hl].
  assert (Hf : x ∈ filter (λ x : answer_t, x.2 = RT) rs) by (rewrite Hl; set_solver).
  apply elem_of_list_filter in Hf as [H1 H2]. done.
Qed.

Lemma child_of (m : mnode) (rs : list answer_t) y : length rs = length (m_nodes m) → y ∈ rs →
  ∃ i c, m_nodes m !! i = Some c ∧ rs !! i = Some y.
Proof.
  intros Hl [i Hi]%elem_of_list_lookup. destruct (lookup_lt_is_Some_2 (m_nodes m) i) as [c Hc].
  { rewrite <- Hl. by eapply lookup_lt_Some. }
  eauto.
Qed.

Lemma descend_none_below (truth : mnode → presult → Prop) n leaf :
  descend_none m_nodes truth n leaf → below m_nodes n leaf.
Proof.
  induction 1 as [n _|n l1 c l2 leaf Hk _ _ _ IH]; [constructor|].
  eapply below_kid; [|exact IH]. rewrite Hk. set_solver.
Qed.

Lemma last_answer_below truth dist m x : last_answer truth dist m x →
  x.2 ≠ RF → ∃ n, below m_nodes m n ∧ x.1 = dist n.
Proof.
  unfold last_answer.
  induction 1 as [m s Ht Hs|m w rs x Ht Hw Hl Hrs IH Hex ->|m w rs Ht Hw Hl Hrs IH Hno Hne|m w rs Ht Hw Hl Hrs IH Hno He];
    simpl; intros Hv; [done|..].
  1,3: exists m; split; [constructor|done].
  destruct (true_scores_in _ Hne) as (y & Hy & Hyt & Hys). destruct (child_of m rs y Hl Hy) as (i & c & Hc & Hi).
  destruct (IH i c y Hc Hi) as (n & Hb & Hn); [by rewrite Hyt|]. exists n. split; [|congruence].
  eapply below_kid; [|exact Hb]. by eapply elem_of_list_lookup_2.
Qed.

Lemma last_answer_true (truth : mnode → presult → Prop) dist m x :
  (∀ v w, truth m v → truth m w → v = w) → last_answer truth dist m x → truth m RT → x.2 = RT.
Proof. intros Hf Hx Hm. destruct Hx as [? s Ht|? w rs x Ht ? ? ? ? ->|? w rs Ht|? w rs Ht]; simpl; [by apply Hf|by apply Hf|done|by apply Hf]. Qed.

Lemma aggregate_answer_true (truth : mnode → presult → Prop) dist m x :
  (∀ v w, truth m v → truth m w → v = w) → aggregate_answer truth dist m x → truth m RT → x.2 = RT.
Proof.
  intros Hf Hx Hm. destruct Hx as [? s Ht|? w rs x Ht ? ? ? ? [_ ?]|? w rs Ht|? w rs Ht]; simpl; [by apply Hf|done|by apply Hf|by apply Hf].
Qed.

Lemma aggregate_answer_some truth dist m x : aggregate_answer truth dist m x →
  everywhere_doc (λ m, dist m ≠ []) m → x.1 ≠ [].
Proof.
  unfold aggregate_answer.
  induction 1 as [m s Ht ->|m w rs x Ht Hw Hl Hrs IH (y & Hy & Hyu) [[_ Hx] _]|m w rs Ht Hw Hl Hrs IH Hno Hne|m w rs Ht Hw Hl Hrs IH Hno He];
    intros Hd; inversion Hd as [? Hd1 Hd2]; subst; simpl; [done| |done|done].
  destruct (child_of m rs y Hl Hy) as (i & c & Hc & Hi).
  assert (Hne : y.1 ≠ []).
  { apply (IH i c y Hc Hi). rewrite Forall_lookup in Hd2. by eapply Hd2. }
  destruct (y.1) as [|s ss] eqn:Hys; [done|].
  intros Hnil. rewrite Hnil in Hx.
  assert (Hin : s ∈ concat rs.*1).
  { apply elem_of_list_In, in_concat. exists y.1. split; apply elem_of_list_In; [by apply elem_of_list_fmap_1|]. rewrite Hys. by left. }
  eapply (not_elem_of_nil (A := score)), Hx. exists (sc_value s). split; [by apply elem_of_list_fmap_1|]. reflexivity.
Qed.

(** ** weightedConfidence, also with node ids that are not unique *)
Section weighted.
  Context (E : Ext) (cx : tctx) (r : datarow).

  Lemma wc_collect_scores l : ∀ acc : gmap string f64 * gmap string (list score) * f64,
    (∀ k s, acc.1.2 !! k = Some s → s ≠ []) →
    (∀ p, p ∈ l → p.2.2 ≠ RF → p.2.1 ≠ []) →
    (∀ k s, (foldl wc_collect acc l).1.2 !! k = Some s → s ≠ []) ∧
    (∀ k, is_Some (acc.1.2 !! k) → is_Some ((foldl wc_collect acc l).1.2 !! k)) ∧
    (∀ p, p ∈ l → p.2.2 ≠ RF → is_Some ((foldl wc_collect acc l).1.2 !! n_id p.1)).
  Proof.
    induction l as [|[c [s v]] l IH]; intros [[counts scores] total] Ha Hl; simpl.
    { split; [done|]. split; [done|]. intros p ?%elem_of_nil. done. }
    set (acc' := match v with RF => _ | _ => _ end).
    destruct (IH acc') as (H1 & H2 & H3).
    - subst acc'. simpl in Ha. assert (Hs : v ≠ RF → s ≠ []) by (apply (Hl (c, (s, v))); by left).
      destruct v; simpl; [..|done]; intros k s' [[_ <-]|[_ ?]]%lookup_insert_Some; eauto; by apply Hs.
    - intros p Hp. apply Hl. by right.
    - split; [done|]. split.
      + intros k Hk. apply H2. subst acc'. simpl in Hk. destruct v; simpl; [..|done].
        all: destruct (decide (n_id c = k)) as [->|?]; [by rewrite lookup_insert|by rewrite lookup_insert_ne].
      + intros p [->|Hp]%elem_of_cons Hv; [|by apply H3]. simpl in Hv |- *. apply H2. subst acc'.
        destruct v; simpl; [..|done]; by rewrite lookup_insert.
  Qed.

  Lemma wc_add_keeps w ss : ∀ agg k, is_Some (agg !! k) → is_Some (foldl (wc_add w) agg ss !! k).
  Proof.
    induction ss as [|s ss IH]; intros agg k Hk; [done|]. simpl. apply IH. unfold wc_add.
    destruct (decide (sc_value s = k)) as [->|?]; [by rewrite lookup_insert|by rewrite lookup_insert_ne].
  Qed.

  Lemma wc_fold_some (counts : gmap string f64) total l : ∀ agg : gmap string score,
    ((∃ k, is_Some (agg !! k)) ∨ ∃ p : string * list score, p ∈ l ∧ p.2 ≠ []) →
    ∃ k, is_Some (foldl (λ agg '(nid, ss), foldl (wc_add (fdiv (default fzero (counts !! nid)) total)) agg ss) agg l !! k).
  Proof.
    induction l as [|[nid ss] l IH]; intros agg [H|(p & Hp & Hne)]; simpl; [done|by apply elem_of_nil in Hp|..].
    - apply IH. left. destruct H as [k Hk]. exists k. by apply wc_add_keeps.
    - apply elem_of_cons in Hp as [->|Hp]; [|apply IH; right; eauto].
      apply IH. left. simpl in Hne. destruct ss as [|s ss]; [done|]. exists (sc_value s). simpl. apply wc_add_keeps.
      unfold wc_add. by rewrite lookup_insert.
  Qed.

  Lemma weighted_some n : ∀ t, everywhere (λ n, has_verdict E (cx_ft cx) r n ∧ output_dist cx n ≠ []) n →
    ∃ s v, eval_weighted E cx r t n = Ok (s, v) ∧ (v ≠ RF → s ≠ []) ∧ (verdict E (cx_ft cx) r n RT → v = RT).
  Proof.
    induction n as [id dc cs ds te sc IH] using node_rect'. intros t Hev.
    inversion Hev as [? [[w Hw] Hd] Hk]; subst. simpl in Hk. unfold verdict in *. cbn [n_test] in *.
    cbn [eval_weighted]. rewrite Hw. cbn [rbind].
    assert (Hrs : ∀ j, ∃ rs, rmapi (λ i c, eval_weighted E cx r (i :: t) c) j cs = Ok rs ∧
      length rs = length cs ∧ ∀ x, x ∈ rs → x.2 ≠ RF → x.1 ≠ []).
    { clear Hev Hd Hw w. induction cs as [|c cs IHc]; intros j.
      - exists []. split; [done|]. split; [done|]. by intros x ?%elem_of_nil.
      - apply Forall_cons in IH as [IH1 IH2]. apply Forall_cons in Hk as [Hk1 Hk2].
        destruct (IHc IH2 Hk2 (S j)) as (rs & H1 & H2 & H3). destruct (IH1 (j :: t) Hk1) as (s & v & Hs & Hv & _).
        exists ((s, v) :: rs). cbn [rmapi]. rewrite Hs. cbn [rbind]. rewrite H1. split; [done|].
        split; [simpl; by rewrite H2|]. intros x [->|Hx]%elem_of_cons; [done|by apply H3]. }
    destruct (Hrs 2) as (rs & Hrs2 & Hlen & Hne). clear Hrs.
    destruct (decide (w = RF)) as [->|Hwf].
    { exists ds, RF. split; [done|]. split; [done|]. intros H. congruence. }
    replace (match w with RF => _ | _ => _ end) with
      (rs <-! rmapi (λ i c, eval_weighted E cx r (i :: t) c) 2 cs;
       let '(unknown, true_dist) := foldl scan_step (false, []) rs in
       let '(counts, scores, total) := foldl wc_collect (∅, ∅, fzero) (zip cs rs) in
       if negb unknown && Nat.ltb 0 (length true_dist) then Ok (true_dist, w)
       else if unknown then
         let agg : gmap string score :=
           foldl (λ agg '(nid, ss), foldl (wc_add (fdiv (default fzero (counts !! nid)) total)) agg ss)
                 ∅ (map_range E (0%nat :: t) scores) in
         Ok ((map_range E (1%nat :: t) agg).*2, RT)
       else Ok (output_dist cx (Node id dc cs ds te sc), w)) by (by destruct w).
    rewrite Hrs2. cbn [rbind].
    destruct (scan_seen rs false []) as [_ Hu].
    destruct (foldl scan_step (false, []) rs) as [unk td']. simpl in Hu.
    destruct (wc_collect_scores (zip cs rs) (∅, ∅, fzero)) as (H1 & _ & H3).
    { intros k s. simpl. by rewrite lookup_empty. }
    { intros [c x] Hp. apply elem_of_zip_r in Hp. by apply Hne. }
    destruct (foldl wc_collect (∅, ∅, fzero) (zip cs rs)) as [[counts scores] total]. simpl in H1, H3.
    destruct (negb unk && Nat.ltb 0 (length td')) eqn:Hb.
    { exists td', w. split; [done|]. split; [|intros H; congruence]. intros _ ->. by rewrite andb_false_r in Hb. }
    destruct unk.
    - eexists _, RT. split; [done|]. split; [|done]. intros _.
      destruct (Hu eq_refl) as [|(x & Hx & Hxu)]; [done|].
      apply elem_of_list_lookup in Hx as [i Hi].
      destruct (lookup_lt_is_Some_2 cs i) as [c Hc]; [rewrite <- Hlen; by eapply lookup_lt_Some|].
      destruct (H3 (c, x)) as [ss Hss].
      { apply elem_of_list_lookup. exists i. apply lookup_zip_with_Some. eauto. }
      { simpl. by rewrite Hxu. }
      simpl in Hss. pose proof (H1 _ _ Hss) as Hssne.
      edestruct (wc_fold_some counts total (map_range E (0%nat :: t) scores) ∅) as [k [a Ha]].
      { right. exists (n_id c, ss). split; [by apply map_range_elem|done]. }
      intros Hnil. apply fmap_nil_inv in Hnil.
      eapply (not_elem_of_nil (A := string * score) (k, a)). rewrite <- Hnil. by apply map_range_elem.
    - exists (output_dist cx (Node id dc cs ds te sc)), w. split; [done|]. split; [done|]. intros H; congruence.
  Qed.
End weighted.

(** ** What is picked *)
Lemma pick_positive l : Exists (λ s, fltb fzero (sc_prob s) = true) l → pick_best l ∈ l.
Proof.
  unfold pick_best. intros Hex.
  assert (Hin : ∀ l (b : score), foldl (λ best s, if fltb (sc_prob best) (sc_prob s) then s else best) b l ∈ b :: l).
  { clear. induction l as [|s l IH]; intros b; simpl; [by left|].
    destruct (fltb (sc_prob b) (sc_prob s)); [right; apply IH|].
    specialize (IH b). rewrite elem_of_cons in IH |- *. rewrite elem_of_cons. tauto. }
  induction l as [|s l IH]; [by inversion Hex|]. simpl.
  destruct (fltb fzero (sc_prob s)) eqn:Hs; [apply Hin|].
  right. apply IH. inversion Hex as [? ? H|]; subst; [congruence|done].
Qed.

Lemma class_row_target target l :
  (∀ s, s ∈ l → prob_key (sc_value s) ≠ target) →
  class_row target l !! target = Some (GStr (sc_value (pick_best l))).
Proof.
  unfold class_row. generalize (GStr (sc_value (pick_best l))) as v. intros v.
  assert (H : ∀ l (o : row), (∀ s, s ∈ l → prob_key (sc_value s) ≠ target) →
    foldl (λ o s, <[prob_key (sc_value s) := GF64 (sc_prob s)]> o) o l !! target = o !! target).
  { clear. induction l as [|s l IH]; intros o Hl; [done|]. simpl. rewrite IH; [|intros s' Hs'; apply Hl; by right].
    rewrite lookup_insert_ne; [done|]. apply Hl. by left. }
  intros Hl. rewrite H; [|done]. by rewrite lookup_singleton.
Qed.
