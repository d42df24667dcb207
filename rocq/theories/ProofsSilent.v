(** Leaving out members whose results nobody uses (C149). *)
From Verif Require Import Base Strconv Value Doc Expr Pred Tree Regression Model Lib
  SpecPred ProofsPred SpecExpr ProofsExpr SpecConstruct ProofsConstruct ProofsRange
  SpecTree ProofsTree ProofsOutput ProofsEval ProofsDoc ProofsSafe ProofsWhole ProofsSim ProofsFrame
  SpecModel ProofsMining ProofsEssence SpecDerive ProofsDerive SpecEarlier ProofsEarlier ProofsRace ProofsSegments SpecUnread ProofsUnread SpecSilent.

Section silent.
  Context (E : Ext) (dd : list data_field) (G : list string).
  Notation none := (λ _ : expr, False).
  Notation off := (off G true).

  Lemma dropped_self l : (∀ x f, x ∈ l → f ∈ expr_fields (df_expr x) → f ∉ G) → dropped G none l l.
  Proof.
    induction l as [|x l IH]; intros H; constructor.
    - intros f Hf. apply (H x f); [by left|done].
    - apply IH. intros y f Hy. apply H. by right.
  Qed.
  Lemma redefined_self d : (∀ x f, x ∈ doc_locals d → f ∈ expr_fields (df_expr x) → f ∉ G) → redefined (dropped G none) d d.
  Proof.
    induction d as [t|m|k|h segs IH] using doc_rect'; cbn [doc_locals]; intros H.
    - pose proof (rd_tree (dropped G none) t (tm_lt t) (dropped_self _ H)) as Hr. by destruct t.
    - constructor.
    - constructor.
    - assert (dropped G none (mm_lt h) (mm_lt h)) as Hl.
      { apply dropped_self. intros x f Hx. apply H. apply elem_of_app. by left. }
      assert (Forall2 (λ s1 s2, Forall2 (redefined (dropped G none)) (sg_models s1) (sg_models s2)) segs segs) as Hs.
      { assert (∀ x f, x ∈ concat (map (λ s, concat (map doc_locals (sg_models s))) segs) →
          f ∈ expr_fields (df_expr x) → f ∉ G) as H2 by (intros x f Hx; apply H, elem_of_app; by right).
        clear H Hl. induction IH as [|s segs Hs _ IHs]; [constructor|]. cbn [map concat] in H2. constructor.
        2:{ apply IHs. intros x f Hx. apply H2, elem_of_app. by right. }
        assert (∀ x f, x ∈ concat (map doc_locals (sg_models s)) → f ∈ expr_fields (df_expr x) → f ∉ G) as H3
          by (intros x f Hx; apply H2, elem_of_app; by left).
        clear H2 IHs. induction Hs as [|a l Ha _ IHl]; [constructor|]. cbn [map concat] in H3. constructor.
        - apply Ha. intros x f Hx. apply H3, elem_of_app. by left.
        - apply IHl. intros x f Hx. apply H3, elem_of_app. by right. }
      pose proof (rd_mining (dropped G none) h (mm_lt h) segs segs Hl Hs) as Hr. by destruct h.
  Qed.

  Definition both (e1 e2 : emodel) : Prop := ∀ tk1 tk2 r1 r2, off r1 r2 →
    (evaluate E tk1 e1 r1).1.1 = (evaluate E tk2 e2 r2).1.1 ∧ off (evaluate E tk1 e1 r1).1.2 (evaluate E tk2 e2 r2).1.2.

  Lemma member_both td1 td2 d e1 td1' : new_model E dd td1 d = (Ok e1, td1') → types_off G td1 td2 →
    (∀ f, f ∈ all_reads d → f ∉ G) → order_free_doc d →
    ∃ e2 td2', new_model E dd td2 d = (Ok e2, td2') ∧ both e1 e2 ∧ types_off G td1' td2'.
  Proof.
    intros H1 Htd Hf Ho. unfold all_reads in Hf.
    pose proof (redefined_dropped E dd G none true ltac:(done) d d) as Hr. feed specialize Hr.
    { apply redefined_self. intros x f Hx Hxf. apply Hf, elem_of_app. right. apply concat_map_in. by exists x. }
    { intros f Hin. apply Hf, elem_of_app. by left. }
    specialize (Hr td1 td2 Htd). destruct Hr as [Ht Hr]. rewrite H1 in Ht, Hr.
    destruct (new_model E dd td2 d) as [[e2|x|p] td2'] eqn:H2; simpl in Hr, Ht; try done.
    exists e2, td2'. split; [done|]. split; [|done]. intros tk1 tk2 r1 r2 Hrow.
    pose proof (ticket_free E dd td1 d e1 td1' [] tk1 tk2 r1 Ho H1) as Htk. simpl in Htk. rewrite Htk.
    destruct (Hr tk2 r1 r2 Hrow) as [H|[H _]]; [exact H|done].
  Qed.

  Lemma later_built td1 l es td1' : built_segments E dd td1 l es td1' → ∀ td2, types_off G td1 td2 →
    unread G l → ordered l →
    ∃ es2 td2', built_segments E dd td2 l es2 td2' ∧ Forall2 both es es2.
  Proof.
    induction 1 as [td|td s segs d e es t1 t2 Hd Hn _ IH]; intros td2 Htd Hu Ho.
    - exists [], td2. split; constructor.
    - destruct (member_both td td2 d e t1 Hn Htd) as (e2 & t2' & Hn2 & Hb & Ht).
      { intros f. apply (Hu s d f); [by left|rewrite Hd; by left]. }
      { apply Forall_forall. intros t Hin. apply (Ho s d t); [by left|rewrite Hd; by left|done]. }
      destruct (IH t2' Ht) as (es2 & t3 & Hes & Hf).
      { intros s' d' f Hs. apply Hu. by right. }
      { intros s' d' t Hs. apply Ho. by right. }
      exists (e2 :: es2), t3. split; [by econstructor|by constructor].
  Qed.

  Lemma types_off_more td l : (∀ x, x ∈ l → df_name x ∈ G) → types_off G (td ++ l) td.
  Proof.
    intros H m1 m2 Hm f Hf. rewrite foldl_app.
    assert (∀ a b : gmap string string, (∀ f, f ∉ G → a !! f = b !! f) → foldl type_step a l !! f = b !! f) as Hl.
    { revert H. induction l as [|x l IH]; intros H a b Hab; simpl; [by apply Hab|].
      apply IH; [intros y Hy; apply H; by right|]. intros g Hg.
      rewrite lookup_insert_ne; [by apply Hab|]. intros <-. apply Hg, H. by left. }
    etrans; [apply Hl|reflexivity]. intros g Hg. by apply (types_off_refl G td m1 m2).
  Qed.

  Lemma off_refl m : off (Some m) (Some m).
  Proof. done. Qed.
  Lemma off_trans r1 r2 r3 : off r1 r2 → off r2 r3 → off r1 r3.
  Proof. destruct r1, r2, r3; simpl; try done. intros H1 H2 k Hk. by rewrite H1, H2. Qed.

  (** ** The member that is left out *)
  Context (d : doc_model) (Hw : ∀ f, f ∈ written_names dd d → f ∈ G).
  Context (td0 td0' : list derived_field) (x : emodel) (Hx : new_model E dd td0 d = (Ok x, td0')).

  Lemma member_frame tk m : off (evaluate E tk x (Some m)).1.2 (Some m).
  Proof.
    pose proof Hx as Ha%new_model_all. destruct (evaluate E tk x (Some m)) as [[o r'] e'] eqn:He.
    destruct (frame_evaluate E dd d tk x (Some m) o r' e' Ha He) as (_ & (Hn & Hf & _) & _). simpl.
    destruct r' as [m'|]; [|by destruct Hn as [Hn _]; discriminate (Hn eq_refl)].
    intros k Hk. apply Hf. intros Hin. by apply Hk, Hw.
  Qed.
  Lemma member_names tk r out k : (evaluate E tk x r).1.1 = Ok out → is_Some (dr_get out k) → k ∈ output_names dd d.
  Proof.
    pose proof Hx as Ha%new_model_all. destruct (evaluate E tk x r) as [[o r'] e'] eqn:He. simpl. intros -> Hk.
    destruct (frame_evaluate E dd d tk x r (Ok out) r' e' Ha He) as (_ & _ & Ho).
    apply (Ho out eq_refl). by destruct out.
  Qed.

  Definition rel (a b : res datarow * datarow) : Prop := (a.1 = b.1 ∧ off a.2 b.2) ∨ own_failure E dd d a.1.

  Notation ev tk := (λ i s r, evaluate E (5 :: i :: tk) s r).

  Lemma chain_shift tk es es2 : Forall2 both es es2 → ∀ i j lst m1 m2, off (Some m1) (Some m2) →
    (chain E tk (ev tk) i lst es (Some m1)).1.1 = (chain E tk (ev tk) j lst es2 (Some m2)).1.1 ∧
    off (chain E tk (ev tk) i lst es (Some m1)).1.2 (chain E tk (ev tk) j lst es2 (Some m2)).1.2.
  Proof.
    induction 1 as [|e e2 es es2 He _ IH]; intros i j lst m1 m2 Hm; [done|]. cbn [chain]. rewrite !copy_into_some.
    destruct (He (5 :: i :: tk) (5 :: j :: tk) (Some (default ∅ lst ∪ m1)) (Some (default ∅ lst ∪ m2))) as [H1 H2].
    { intros k Hk. rewrite !lookup_union. by rewrite (Hm k Hk). }
    destruct (evaluate E (5 :: i :: tk) e _) as [[o1 r1] e1'], (evaluate E (5 :: j :: tk) e2 _) as [[o2 r2] e2'].
    simpl in H1, H2. subst o2. destruct o1 as [out| |]; [|done..].
    destruct r1 as [m1'|], r2 as [m2'|]; try done. specialize (IH (S i) (S j) out m1' m2' H2).
    by destruct (chain _ _ _ (S i) _ _ _) as [[? ?] ?], (chain _ _ _ (S j) _ _ _) as [[? ?] ?].
  Qed.

  Lemma chain_without tk es es2 : (∀ f, f ∈ output_names dd d → f ∈ G) → Forall2 both es es2 → es ≠ [] → ∀ i lst m,
    rel (chain E tk (ev tk) i lst (x :: es) (Some m)).1 (chain E tk (ev tk) i lst es2 (Some m)).1.
  Proof.
    intros Hout Hes Hne i lst m. destruct Hes as [|e e2 es es2 He Hes]; [done|].
    cbn [chain]. rewrite !copy_into_some. set (m1 := default ∅ lst ∪ m).
    pose proof (member_frame (5 :: i :: tk) m1) as Hfr. pose proof (member_names (5 :: i :: tk) (Some m1)) as Hnm.
    assert (∀ o, (evaluate E (5 :: i :: tk) x (Some m1)).1.1 = o → (∀ out, o ≠ Ok out) → own_failure E dd d o) as Hfail.
    { intros o Ho Hno. split; [done|]. by exists td0, x, td0', (5 :: i :: tk), m1. }
    destruct (evaluate E (5 :: i :: tk) x (Some m1)) as [[[out|y|p] r1] x'].
    2:{ right. apply Hfail; done. } 2:{ right. apply Hfail; done. }
    simpl in Hfr, Hnm. destruct r1 as [m2|]; [|done]. rewrite copy_into_some. set (m3 := default ∅ out ∪ m2).
    assert (off (Some m3) (Some m1)) as Hoff.
    { intros k Hk. unfold m3. rewrite lookup_union.
      destruct (default ∅ out !! k) as [v|] eqn:Hv.
      - destruct Hk. apply Hout, (Hnm out k eq_refl). destruct out; simpl in Hv |- *; [by rewrite Hv|by rewrite lookup_empty in Hv].
      - rewrite (left_id_L None (union_with _)). by apply Hfr. }
    destruct (He (5 :: S i :: tk) (5 :: i :: tk) _ _ Hoff) as [H1 H2].
    destruct (evaluate E (5 :: S i :: tk) e _) as [[o1 r1] e1'], (evaluate E (5 :: i :: tk) e2 _) as [[o2 r2] e2'].
    simpl in H1, H2. subst o2. destruct o1 as [out1| |]; [|by left..].
    destruct r1 as [n1|], r2 as [n2|]; try done.
    pose proof (chain_shift tk es es2 Hes (S (S i)) (S i) out1 n1 n2 H2) as Hc. left.
    by destruct (chain _ _ _ (S (S i)) _ _ _) as [[? ?] ?], (chain _ _ _ (S i) _ _ _) as [[? ?] ?].
  Qed.

  Lemma chain_prefix tk A B td l1 es1 td' : built_segments E dd td l1 es1 td' →
    (∀ i lst m, rel (chain E tk (ev tk) i lst A (Some m)).1 (chain E tk (ev tk) i lst B (Some m)).1) →
    ∀ i lst m, rel (chain E tk (ev tk) i lst (es1 ++ A) (Some m)).1 (chain E tk (ev tk) i lst (es1 ++ B) (Some m)).1.
  Proof.
    intros Hb HAB. induction Hb as [|td s segs dx e es t1 t2 Hd Hn _ IH]; intros i lst m; [apply HAB|].
    cbn [chain app]. rewrite copy_into_some. set (m1 := default ∅ lst ∪ m).
    destruct (evaluate_some E dd td dx e t1 (5 :: i :: tk) m1 Hn) as [m2 Hm2].
    destruct (evaluate E (5 :: i :: tk) e (Some m1)) as [[[out|y|p] r1] e']; simpl in Hm2; subst r1; try by left.
    specialize (IH (S i) out m2).
    by destruct (chain _ _ _ _ _ (es ++ A) _) as [[? ?] ?], (chain _ _ _ _ _ (es ++ B) _) as [[? ?] ?].
  Qed.

  (** ** Sums *)
  Definition silent (cl : bool) (N : list string) : Prop :=
    if cl then ∀ k, k ∈ N → k ∉ output_names dd d else "score" ∉ output_names dd d.
  Definition relS (a b : res (gmap string f64) * datarow) : Prop :=
    (a.1 = b.1 ∧ off a.2 b.2) ∨ (∃ o, own_failure E dd d o ∧ match a.1 with Ok _ => False | Err y => o = Err y | Panic p => o = Panic p end).

  Lemma sum_shift tk cl es es2 : Forall2 both es es2 → ∀ i j sc m1 m2, off (Some m1) (Some m2) →
    (sum_segments E tk cl (ev tk) i sc es (Some m1)).1.1 = (sum_segments E tk cl (ev tk) j sc es2 (Some m2)).1.1 ∧
    off (sum_segments E tk cl (ev tk) i sc es (Some m1)).1.2 (sum_segments E tk cl (ev tk) j sc es2 (Some m2)).1.2.
  Proof.
    induction 1 as [|e e2 es es2 He _ IH]; intros i j sc m1 m2 Hm; [done|]. cbn [sum_segments].
    destruct (He (5 :: i :: tk) (5 :: j :: tk) (Some m1) (Some m2) Hm) as [H1 H2].
    destruct (evaluate E (5 :: i :: tk) e _) as [[o1 r1] e1'], (evaluate E (5 :: j :: tk) e2 _) as [[o2 r2] e2'].
    simpl in H1, H2. subst o2. destruct o1 as [out| |]; [|done..].
    destruct r1 as [m1'|], r2 as [m2'|]; try done. rewrite !score_add_eq.
    specialize (IH (S i) (S j) (map_imap (λ k v, Some (contribution E cl out k v)) sc) m1' m2' H2).
    by destruct (sum_segments _ _ _ _ (S i) _ _ _) as [[? ?] ?], (sum_segments _ _ _ _ (S j) _ _ _) as [[? ?] ?].
  Qed.

  Lemma sum_without tk cl N es es2 : silent cl N → Forall2 both es es2 → ∀ i sc m, (∀ k, is_Some (sc !! k) → k ∈ N) →
    relS (sum_segments E tk cl (ev tk) i sc (x :: es) (Some m)).1 (sum_segments E tk cl (ev tk) i sc es2 (Some m)).1.
  Proof.
    intros Hsil Hes i sc m HN. cbn [sum_segments].
    pose proof (member_frame (5 :: i :: tk) m) as Hfr. pose proof (member_names (5 :: i :: tk) (Some m)) as Hnm.
    assert (∀ o, (evaluate E (5 :: i :: tk) x (Some m)).1.1 = o → (∀ out, o ≠ Ok out) → own_failure E dd d o) as Hfail.
    { intros o Ho Hno. split; [done|]. by exists td0, x, td0', (5 :: i :: tk), m. }
    destruct (evaluate E (5 :: i :: tk) x (Some m)) as [[[out|y|p] r1] x'].
    2:{ right. exists (Err y). split; [by apply Hfail|done]. } 2:{ right. exists (Panic p). split; [by apply Hfail|done]. }
    simpl in Hfr, Hnm. destruct r1 as [m2|]; [|done].
    assert (score_add E (1 :: i :: tk) cl out sc = sc) as ->.
    { rewrite score_add_eq. apply map_eq. intros k. rewrite map_lookup_imap.
      destruct (sc !! k) as [v|] eqn:Hv; [|done]. simpl. f_equal. unfold contribution.
      destruct (dr_get out (if cl then k else "score")) as [w|] eqn:Hw'; [|done]. exfalso.
      unfold silent in Hsil. destruct cl.
      - apply (Hsil k); [apply HN; by eexists|]. apply (Hnm out k eq_refl). by eexists.
      - apply Hsil, (Hnm out "score" eq_refl). by eexists. }
    pose proof (sum_shift tk cl es es2 Hes (S i) i sc m2 m Hfr) as Hc. left.
    by destruct (sum_segments _ _ _ _ (S i) _ _ _) as [[? ?] ?], (sum_segments _ _ _ _ i _ _ _) as [[? ?] ?].
  Qed.

  Lemma sum_prefix tk cl (N : list string) A B td l1 es1 td' : built_segments E dd td l1 es1 td' →
    (∀ i sc m, (∀ k, is_Some (sc !! k) → k ∈ N) → relS (sum_segments E tk cl (ev tk) i sc A (Some m)).1 (sum_segments E tk cl (ev tk) i sc B (Some m)).1) →
    ∀ i sc m, (∀ k, is_Some (sc !! k) → k ∈ N) →
      relS (sum_segments E tk cl (ev tk) i sc (es1 ++ A) (Some m)).1 (sum_segments E tk cl (ev tk) i sc (es1 ++ B) (Some m)).1.
  Proof.
    intros Hb HAB. induction Hb as [|td s segs dx e es t1 t2 Hd Hn _ IH]; intros i sc m HN; [by apply HAB|].
    cbn [sum_segments app].
    destruct (evaluate_some E dd td dx e t1 (5 :: i :: tk) m Hn) as [m2 Hm2].
    destruct (evaluate E (5 :: i :: tk) e (Some m)) as [[[out|y|p] r1] e']; simpl in Hm2; subst r1; try by left.
    specialize (IH (S i) (score_add E (1 :: i :: tk) cl out sc) m2).
    feed specialize IH.
    { intros k. rewrite score_add_eq, map_lookup_imap. intros [v Hv]. apply HN. by destruct (sc !! k). }
    by destruct (sum_segments _ _ _ _ _ _ (es ++ A) _) as [[? ?] ?], (sum_segments _ _ _ _ _ _ (es ++ B) _) as [[? ?] ?].
  Qed.
End silent.

Lemma built_split E dd td l1 s l2 es td' : built_segments E dd td (l1 ++ s :: l2) es td' →
  ∃ es1 x es2 d t1 t2, es = es1 ++ x :: es2 ∧ built_segments E dd td l1 es1 t1 ∧ sg_models s = [d] ∧
    new_model E dd t1 d = (Ok x, t2) ∧ built_segments E dd t2 l2 es2 td'.
Proof.
  revert td es. induction l1 as [|a l1 IH]; intros td es H; inversion H as [|? ? ? d e es' t1 t2 Hd Hn Hb]; subst.
  - exists [], e, es', d, td, t1. split; [done|]. split; [constructor|]. done.
  - destruct (IH t1 es' Hb) as (es1 & x & es2 & d' & u1 & u2 & -> & H1 & Hs & Hx & H2).
    exists (e :: es1), x, es2, d', u1, u2. split; [done|]. split; [by econstructor|]. done.
Qed.
Lemma built_join E dd td l1 l2 es1 es2 t1 td' : built_segments E dd td l1 es1 t1 → built_segments E dd t1 l2 es2 td' →
  built_segments E dd td (l1 ++ l2) (es1 ++ es2) td'.
Proof. intros H1 H2. induction H1; [done|]. simpl. econstructor; eauto. Qed.

Definition unheard (dd : list data_field) (G : list string) (h : mining_header) (l1 l2 : list (segment doc_model)) (d : doc_model) : Prop :=
  (mm_method h = "modelChain" ∧ l2 ≠ [] ∧ ∀ f, f ∈ output_names dd d → f ∈ G) ∨
  ((mm_method h = "sum" ∨ mm_method h = "") ∧ silent dd d (mm_function h =s "classification") (header_output_names h)) ∨
  (mm_method h = "selectFirst" ∧ l1 ≠ []).

Lemma left_out E dd G td h l1 s l2 d e1 td1 :
  new_model E dd td (DMining h (l1 ++ s :: l2)) = (Ok e1, td1) → sg_models s = [d] →
  (∀ f, f ∈ written_names dd d → f ∈ G) → unread G l2 → ordered l2 → unheard dd G h l1 l2 d →
  ∃ e2 td2, new_model E dd td (DMining h (l1 ++ l2)) = (Ok e2, td2) ∧
    ∀ tk m, rel E dd G d (evaluate E tk e1 (Some m)).1 (evaluate E tk e2 (Some m)).1.
Proof.
  intros H1 Hd Hw Hu Ho Hh. apply new_model_mining_inv in H1 as (sm & -> & Hb & Hok).
  apply built_split in Hb as (es1 & x & es2 & d' & t1 & t2 & -> & Hb1 & Hd' & Hx & Hb2).
  rewrite Hd in Hd'. injection Hd' as <-.
  assert (types_off G t2 t1) as Hty.
  { destruct (td_agree E dd d t1 t1 x t2 (λ _ _, eq_refl) Hx) as (-> & _). apply types_off_more. intros y Hy.
    apply Hw, locals_written. apply elem_of_list_fmap. by exists y. }
  destruct (later_built E dd G t2 l2 es2 td1 Hb2 t1 Hty Hu Ho) as (es3 & td2 & Hb3 & Hes).
  eexists _, td2. split; [apply new_model_mining_of; [done|]; by eapply built_join|]. intros tk m.
  rewrite !mining_evaluate_run by done. cbn [built_mining em_defaults em_hdr]. rewrite impute_some.
  match goal with |- context [handle_input E (mm_lt (header_of h)) (Some ?q)] => set (m1 := q) end.
  destruct (handle_input E (mm_lt (header_of h)) (Some m1)) as [o r2] eqn:Hi.
  assert (∃ m2, r2 = Some m2) as [m2 ->].
  { by apply handle_input_ok_some in Hi. }
  destruct o as [u|y|p]; [|by left..].
  assert (rel E dd G d
    (run_method E tk (built_mining dd td h (l1 ++ s :: l2)) (λ i s r, evaluate E (5 :: i :: tk) s r) (es1 ++ x :: es2) (Some m2)).1
    (run_method E tk (built_mining dd td h (l1 ++ l2)) (λ i s r, evaluate E (5 :: i :: tk) s r) (es1 ++ es3) (Some m2)).1) as Hrun.
  2:{ by destruct (run_method E tk _ _ (es1 ++ x :: es2) _) as [[? ?] ?], (run_method E tk _ _ (es1 ++ es3) _) as [[? ?] ?]. }
  unfold run_method, sum_models. cbn [built_mining em_hdr em_outputs em_targets]. rewrite header_of_function.
  destruct Hh as [(Hm & Hne & Hout)|[(Hm & Hsil)|(Hm & Hne)]].
  - assert (mm_method (header_of h) = "modelChain") as -> by (unfold header_of; by rewrite Hm). simpl.
    apply (chain_prefix E dd G d tk (x :: es2) es3 _ _ _ _ Hb1). intros i lst m'.
    apply (chain_without E dd G d Hw t1 t2 x Hx); [done|done|]. intros ->. by inversion Hes; subst; inversion Hb2; subst.
  - assert (mm_method (header_of h) = "sum") as -> by (unfold header_of; by destruct Hm as [Hm|Hm]; rewrite Hm). simpl.
    pose proof (sum_prefix E dd G d tk (mm_function h =s "classification") (header_output_names h) (x :: es2) es3 _ _ _ _ Hb1) as Hs.
    feed specialize Hs. { intros i sc m' HN. by apply (sum_without E dd G d Hw t1 t2 x Hx) with (header_output_names h). }
    specialize (Hs 0 (score_init (mm_output h) (mm_targets h)) m2). feed specialize Hs.
    { intros k. rewrite score_init_keys. unfold header_output_names. by rewrite elem_of_app. }
    destruct (sum_segments E tk _ _ 0 _ (es1 ++ x :: es2) _) as [[o1 r1] s1], (sum_segments E tk _ _ 0 _ (es1 ++ es3) _) as [[o2 r2] s2].
    unfold relS in Hs. cbn [fst snd] in Hs. destruct Hs as [[<- Hr]|(o & Hof & Ho1)].
    + left. by destruct o1.
    + right. destruct o1 as [|y|p]; [done|..]; simpl; by subst o.
  - assert (mm_method (header_of h) = "selectFirst") as -> by (unfold header_of; by rewrite Hm). simpl.
    destruct es1 as [|a es1]; [by inversion Hb1; subst|]. simpl.
    inversion Hb1 as [|? ? ? da ? ? ? ? Hda Hna]; subst.
    destruct (evaluate_some E dd _ da a _ (5 :: 0 :: tk) m2 Hna) as [m3 Hm3].
    destruct (evaluate E (5 :: 0 :: tk) a (Some m2)) as [[? ?] ?]. simpl in Hm3. subst. by left.
Qed.

(** Under selectFirst nothing changes at all. *)
Lemma left_out_first E dd G td h a l1 s l2 d e1 td1 :
  new_model E dd td (DMining h (a :: l1 ++ s :: l2)) = (Ok e1, td1) → sg_models s = [d] →
  (∀ f, f ∈ written_names dd d → f ∈ G) → unread G l2 → ordered l2 → mm_method h = "selectFirst" →
  ∃ e2 td2, new_model E dd td (DMining h (a :: l1 ++ l2)) = (Ok e2, td2) ∧
    ∀ tk r, (evaluate E tk e1 r).1 = (evaluate E tk e2 r).1.
Proof.
  intros H1 Hd Hw Hu Ho Hm.
  destruct (left_out E dd G td h (a :: l1) s l2 d e1 td1 H1 Hd Hw Hu Ho) as (e2 & td2 & H2 & _); [right; right; done|].
  exists e2, td2. split; [done|]. intros tk r.
  apply new_model_mining_inv in H1 as (sm1 & -> & Hb1 & _). apply new_model_mining_inv in H2 as (sm2 & -> & Hb2 & _).
  inversion Hb1 as [|? ? ? d1 x1 es1 t1 t2 Hd1 Hn1 _]; subst. inversion Hb2 as [|? ? ? d2 x2 es2 t3 t4 Hd2 Hn2 _]; subst.
  rewrite Hd1 in Hd2. injection Hd2 as <-. rewrite Hn1 in Hn2. injection Hn2 as <- <-.
  rewrite !mining_evaluate_run by done. cbn [built_mining em_defaults em_hdr].
  destruct (impute _ _ _ _) as [r1| |]; [|done..]. destruct (handle_input _ _ _) as [[u| |] r2]; [|done..].
  unfold run_method. cbn [built_mining em_hdr].
  assert (mm_method (header_of h) = "selectFirst") as -> by (unfold header_of; by rewrite Hm). simpl.
  by destruct (evaluate E (5 :: 0 :: tk) x1 r2) as [[? ?] ?].
Qed.
