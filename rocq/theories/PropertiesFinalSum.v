(** Property C133, continued: ensembles all of whose members predict. *)
From Verif Require Import Base Strconv Value Doc Expr Pred Tree Regression Model Lib ProofsPred ProofsOutput ProofsDoc ProofsEval ProofsWhole ProofsSim GoExt Samples
  SpecExpr SpecPred SpecTree SpecModel ProofsMining SpecRename SpecSegments PropertiesSegments PropertiesTree PropertiesEquiv SpecFinal ProofsFinal PropertiesFinal.

Lemma first_failing E tk r (als : list emodel) :
  (∃ outs, Forall3 (λ tk a out, (evaluate E tk a r).1.1 = Ok out) (seg_tickets tk 0 (length als)) als outs) ∨
  (∃ l1 a l2 outs, als = l1 ++ a :: l2 ∧
     Forall3 (λ tk a out, (evaluate E tk a r).1.1 = Ok out) (seg_tickets tk 0 (length l1)) l1 outs ∧
     ∀ out, (evaluate E (5 :: length l1 :: tk) a r).1.1 ≠ Ok out).
Proof.
  induction als as [|a als IH] using rev_ind; [left; exists []; constructor|].
  destruct IH as [[outs Ho]|(l1 & b & l2 & outs & -> & Ho & Hb)].
  - destruct ((evaluate E (5 :: length als :: tk) a r).1.1) as [out|x|x] eqn:Hev.
    + left. exists (outs ++ [out]). rewrite app_length. simpl. unfold seg_tickets. rewrite seq_app, map_app.
      apply Forall3_app; [done|]. simpl. by constructor; [|constructor].
    + right. exists als, a, [], outs. split; [done|]. split; [done|]. intros out. by rewrite Hev.
    + right. exists als, a, [], outs. split; [done|]. split; [done|]. intros out. by rewrite Hev.
  - right. exists l1, b, (l2 ++ [a]), outs. split; [by rewrite <- app_assoc|done].
Qed.

Lemma tickets_swap E r r2 tk1 tk2 l outs : ∀ i,
  Forall (λ a, ∀ u1 u2, (evaluate E u2 a r2).1.1 = (evaluate E u1 a r).1.1) l →
  Forall3 (λ tk a out, (evaluate E tk a r).1.1 = Ok out) (seg_tickets tk1 i (length l)) l outs →
  Forall3 (λ tk a out, (evaluate E tk a r2).1.1 = Ok out) (seg_tickets tk2 i (length l)) l outs.
Proof.
  intros i Hl. revert i outs. induction Hl as [|a l Ha _ IH]; intros i outs Ho; inversion Ho; subst; [constructor|].
  unfold seg_tickets. simpl. constructor; [by erewrite Ha|]. by apply IH.
Qed.

(** If all members are such trees, do not disturb each other and all of them predict, then
    the sum or average is final.  The rows are those the members get to see: the missing
    values of the ensemble's own fields are replaced and its derived fields computed. *)
Theorem C133_ensemble : ∀ E dd td h segs e td' calls1 calls2 tk1 tk2 (m m2 p p2 : row),
  new_model E dd td (DMining h segs) = (Ok e, td') → mm_method h ∈ ["sum"; ""; "average"] →
  undisturbed dd segs → prepared E h m p → prepared E h m2 p2 → p ⊆ p2 →
  (∀ s, s ∈ segs → ∃ t a tda, sg_models s = [DTree t] ∧
     tm_strategy t = "nullPrediction" ∧ plain_tests t ∧ same_sources (tm_lt t) (Some p) (Some p2) ∧
     new_model E dd (td ++ mm_lt h) (DTree t) = (Ok a, tda) ∧ (evaluate E [] a (Some p)).1.1 ≠ Ok None) →
  (evaluate E tk2 (after E calls2 e) (Some m2)).1.1 = (evaluate E tk1 (after E calls1 e) (Some m)).1.1.
Proof.
  intros E dd td h segs e td' calls1 calls2 tk1 tk2 m m2 p p2 Hn Hm Hu Hp Hp2 Hsub Hs.
  destruct (C100_alone_partial E dd td h segs e td' calls1 tk1 m p Hn Hm Hp Hu) as (als & Hals & Hok & Hbad).
  destruct (C100_alone_partial E dd td h segs e td' calls2 tk2 m2 p2 Hn Hm Hp2 Hu) as (als2 & Hals2 & Hok2 & Hbad2).
  assert (als2 = als) as ->.
  { clear -Hals Hals2. revert als2 Hals2. induction Hals as [|s a segs als (d & td1 & Hd & Ha) _ IH]; intros als2 H2;
      inversion H2 as [|? a2 ? als3 (d2 & td2 & Hd2 & Ha2) H3]; subst; [done|].
    f_equal; [congruence|by apply IH]. }
  assert (Hag : Forall (λ a, ∀ u1 u2, (evaluate E u2 a (Some p2)).1.1 = (evaluate E u1 a (Some p)).1.1) als).
  { apply Forall_forall. intros a Ha u1 u2. apply elem_of_list_lookup in Ha as [i Hi].
    destruct (Forall2_lookup_r _ _ _ _ _ Hals Hi) as (s & Hsi & d & td1 & Hd & Hda).
    destruct (Hs s) as (t & a' & tda & Ht & Hst & Hpl & Hss & Hta & Hne); [by eapply elem_of_list_lookup_2|].
    rewrite Ht in Hd. injection Hd as <-. rewrite Hta in Hda. injection Hda as -> ->.
    pose proof (C133_final E dd _ t a td1 [] [] [] u1 p p Hta Hst Hpl) as H1.
    pose proof (C133_final E dd _ t a td1 [] [] [] u2 p p2 Hta Hst Hpl) as H2. change (after E [] a) with a in *.
    rewrite H2, H1; done. }
  assert (Hlen : length als = length segs) by by apply Forall2_length in Hals.
  destruct (first_failing E tk1 (Some p) als) as [[outs Ho]|(l1 & a & l2 & outs & Hl & Ho & Hf)].
  - pose proof (tickets_swap E (Some p) (Some p2) tk1 tk2 als outs 0 Hag Ho) as Ho2.
    rewrite Hlen in Ho, Ho2. destruct (Hok outs Ho) as (out & -> & H1). destruct (Hok2 outs Ho2) as (out2 & -> & H2).
    do 2 f_equal. apply map_eq. intros k. by rewrite H1, H2.
  - rewrite (Hbad l1 a l2 outs Hl Ho Hf). rewrite Hl in Hag. apply Forall_app in Hag as [Hag1 Hag2].
    apply Forall_cons in Hag2 as [Hag2 _].
    pose proof (tickets_swap E (Some p) (Some p2) tk1 tk2 l1 outs 0 Hag1 Ho) as Ho2.
    rewrite (Hbad2 l1 a l2 outs Hl Ho2). { apply Hag2. } intros out. rewrite (Hag2 (5 :: length l1 :: tk1)). apply Hf.
Qed.
Print Assumptions C133_ensemble.

Definition golfers : list (segment doc_model) := [seg (golf "nullPrediction"); seg (golf "nullPrediction")].
Definition golfers_header (method : string) : mining_header :=
  MiningHeader "classification" method [] [] [OF "probability(yes)" "probability" "yes"] [] None.
Lemma golfers_undisturbed : undisturbed golf_dd golfers.
Proof.
  intros l1 s l2 s' d d' f Heq Hs' Hd Hd' Hf Hw.
  destruct l1 as [|x [|y l1]]; simpl in Heq; [by apply elem_of_nil in Hs'|..|by destruct l1].
  injection Heq as <- <- <-. apply elem_of_list_singleton in Hs' as ->. simpl in Hd, Hd'.
  apply elem_of_list_singleton in Hd as ->. apply elem_of_list_singleton in Hd' as ->.
  vm_compute in Hf, Hw. set_solver.
Qed.
Lemma golfers_prepared method m : prepared go_ext (golfers_header method) m m.
Proof. exists m. split; [|done]. intros k. split; [|done]. intros s (l1 & f & l2 & Hl & _). by destruct l1. Qed.
Lemma not_nothing E dd d r : dumped (run E dd d r) ≠ None → dumped (run E dd d r) ≠ Some (Ok None) →
  ∃ a tda, new_model E dd [] d = (Ok a, tda) ∧ (evaluate E [] a r).1.1 ≠ Ok None.
Proof.
  unfold run. destruct (new_model E dd [] d) as [[e| |] td1]; try done.
  intros _ H0. exists e, td1. split; [done|].
  destruct (evaluate E [] e r) as [[o1 r1] m1]. simpl in *. intros ->. by apply H0.
Qed.
Example C133_ensemble_example :
  undisturbed golf_dd golfers ∧ overcast ⊆ overcast_humid ∧
  (∀ s, s ∈ golfers → ∃ t a tda, sg_models s = [DTree t] ∧
     tm_strategy t = "nullPrediction" ∧ plain_tests t ∧ same_sources (tm_lt t) (Some overcast) (Some overcast_humid) ∧
     new_model go_ext golf_dd ([] ++ []) (DTree t) = (Ok a, tda) ∧ (evaluate go_ext [] a (Some overcast)).1.1 ≠ Ok None) ∧
  ∀ method, method ∈ ["sum"; ""; "average"] →
    (∀ m, prepared go_ext (golfers_header method) m m) ∧
    is_ok (new_model go_ext golf_dd [] (DMining (golfers_header method) golfers)).1 = true ∧
    dumped (run go_ext golf_dd (DMining (golfers_header method) golfers) (Some overcast)) ≠ Some (Ok None).
Proof.
  split; [apply golfers_undisturbed|]. split; [by apply insert_subseteq|]. split.
  - intros s Hs. assert (s = seg (golf "nullPrediction")) as ->.
    { by apply elem_of_cons in Hs as [->|[->|[]%elem_of_nil]%elem_of_cons]. }
    destruct (not_nothing go_ext golf_dd (golf "nullPrediction") (Some overcast)) as (a & tda & Ha & Hne); [by vm_compute..|].
    exists (golf_tree "nullPrediction" "0.5"), a, tda. split; [done|]. split; [done|].
    split; [repeat constructor; done|]. split; [|done].
    intros df f Hd Hf. apply elem_of_list_singleton in Hd as ->.
    simpl in Hf. apply elem_of_list_singleton in Hf as ->. by vm_compute.
  - intros method Hm. split; [apply golfers_prepared|].
    repeat (apply elem_of_cons in Hm as [->|Hm]); [..|by apply elem_of_nil in Hm]; split; by vm_compute.
Qed.
