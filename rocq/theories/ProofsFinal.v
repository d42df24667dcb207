(** C133: filling in missing fields keeps every predicate that was true or false. *)
From Verif Require Import Base Strconv Value Doc Expr Pred Tree Lib SpecExpr SpecPred SpecTree SpecFinal
  ProofsPred ProofsExpr.

Lemma simple_steady E ft f op raw r r2 v : completes r r2 → op ≠ "isMissing" →
  eval_simple E ft f op raw r = Ok v → v ≠ RU → eval_simple E ft f op raw r2 = Ok v.
Proof.
  intros Hc Hop. unfold eval_simple. destruct (ft !! f) as [dt|]; [|done]. destruct (is_nil raw); [done|].
  destruct (dr_get r f) as [x|] eqn:Hx.
  - by rewrite (Hc _ _ Hx).
  - apply String.eqb_neq in Hop. rewrite Hop. intros ? ?. simplify_eq.
Qed.

(** What an operand that was known says: what was unknown may become anything. *)
Definition refines (a b : presult) : Prop := a = RU ∨ a = b.

Lemma simple_refines E ft f op raw r r2 a b : completes r r2 → op ≠ "isMissing" →
  eval_simple E ft f op raw r = Ok a → eval_simple E ft f op raw r2 = Ok b → refines a b.
Proof.
  intros Hc Hop Ha Hb. destruct (decide (a = RU)) as [->|Hu]; [by left|]. right.
  rewrite (simple_steady _ _ _ _ _ _ _ _ Hc Hop Ha Hu) in Hb. by simplify_eq.
Qed.

Definition tally (v : presult) (l : list presult) : nat := length (filter (λ x, x = v) l).
Lemma tally_cons v x l : tally v (x :: l) = (if decide (x = v) then 1 else 0) + tally v l.
Proof. unfold tally. rewrite filter_cons. by destruct (decide (x = v)). Qed.

Lemma loop_tally ev bop n l vs : bop ≠ "surrogate" → Forall2 (λ p v, ev p = Ok v) l vs → ∀ tc uc,
  compound_loop ev bop n l tc uc = Ok (compound_result bop (tc + tally RT vs) (uc + tally RU vs) n).
Proof.
  intros Hb H. apply String.eqb_neq in Hb. induction H as [|p v l vs Hp H IH]; intros tc uc.
  - simpl. by rewrite !Nat.add_0_r.
  - simpl. rewrite Hp. simpl. rewrite Hb. simpl. rewrite !tally_cons. destruct v; rewrite IH; do 2 f_equal; simpl; lia.
Qed.

Lemma loop_values ev bop n l x : bop ≠ "surrogate" → ∀ tc uc,
  compound_loop ev bop n l tc uc = Ok x → ∃ vs, Forall2 (λ p v, ev p = Ok v) l vs.
Proof.
  intros Hb. apply String.eqb_neq in Hb. induction l as [|p l IH]; intros tc uc; simpl; [by exists []|].
  destruct (ev p) as [v| |] eqn:Hv; try done. simpl. rewrite Hb. simpl. intros H.
  assert (∃ vs, Forall2 (λ p v, ev p = Ok v) l vs) as [vs Hvs] by (destruct v; eauto).
  exists (v :: vs). by constructor.
Qed.

Lemma tally_all l : tally RU l + tally RT l + tally RF l = length l.
Proof. induction l as [|[] l IH]; [done|..]; rewrite !tally_cons; simpl; lia. Qed.

Lemma compound_refines bop l l2 : Forall2 refines l l2 →
  refines (compound_result bop (tally RT l) (tally RU l) (length l))
          (compound_result bop (tally RT l2) (tally RU l2) (length l2)).
Proof.
  intros H.
  assert (Hn : length l = length l2) by by eapply Forall2_length.
  assert (Ht : tally RT l ≤ tally RT l2 ∧ tally RF l ≤ tally RF l2 ∧ (tally RU l = 0 → l = l2)).
  { clear Hn. induction H as [|a b l l2 [->|<-] H (IH1 & IH2 & IH3)].
    - done.
    - rewrite !tally_cons. destruct b; simpl; (split; [lia|split; [lia|]]); done.
    - rewrite !tally_cons. destruct a; simpl; (split; [lia|split; [lia|]]); try done; intros Hu; f_equal; by apply IH3. }
  destruct Ht as (H1 & H2 & H3). pose proof (tally_all l) as Ha. pose proof (tally_all l2) as Hb.
  destruct (Nat.eq_dec (tally RU l) 0) as [Hu|Hu]; [rewrite (H3 Hu); by right|].
  unfold compound_result, refines. rewrite <- Hn in *.
  destruct (bop =s "and").
  { destruct (Nat.ltb_spec 0 (tally RU l)); [|lia]. simpl. destruct (Nat.eqb_spec (tally RU l + tally RT l) (length l)); [by left|].
    right. destruct (Nat.eqb_spec (tally RT l) (length l)); [lia|].
    destruct (Nat.eqb_spec (tally RU l2 + tally RT l2) (length l)); [lia|].
    rewrite andb_false_r. destruct (Nat.eqb_spec (tally RT l2) (length l)); [lia|]. done. }
  destruct (bop =s "or").
  { destruct (Nat.ltb_spec 0 (tally RT l)).
    - right. destruct (Nat.ltb_spec 0 (tally RT l2)); [done|lia].
    - destruct (Nat.ltb_spec 0 (tally RU l)); [by left|lia]. }
  destruct (bop =s "xor"); [destruct (Nat.ltb_spec 0 (tally RU l)); [by left|lia]|].
  destruct (bop =s "surrogate"); [by left|by right].
Qed.

Lemma operand_refines E ft r r2 p : completes r r2 → steady p → ∀ a b,
  eval_operand E ft r p = Ok a → eval_operand E ft r2 p = Ok b → refines a b.
Proof.
  intros Hc. induction p as [| |f op lit raw|bop ps IH|b0 f0 a0|] using predicate_rect'; intros Hs a b; simpl; try (intros Ha Hb; right; congruence).
  - intros Ha Hb. eapply simple_refines; [done|exact Hs|done|done].
  - destruct Hs as [Hb Hs]. intros H1 H2.
    destruct (loop_values _ _ _ _ _ Hb _ _ H1) as [vs Hvs]. destruct (loop_values _ _ _ _ _ Hb _ _ H2) as [vs2 Hvs2].
    rewrite (loop_tally _ _ _ _ _ Hb Hvs) in H1. rewrite (loop_tally _ _ _ _ _ Hb Hvs2) in H2. simplify_eq/=.
    rewrite (Forall2_length _ _ _ Hvs) at 1. rewrite (Forall2_length _ _ _ Hvs2). apply compound_refines.
    revert vs vs2 Hvs Hvs2. induction IH as [|p ps Hp IH IHps]; intros vs vs2 H1 H2.
    + inversion H1; inversion H2; subst. constructor.
    + inversion H1; inversion H2; subst. destruct Hs as [Hs1 Hs2]. constructor; [by eapply Hp|by apply IHps].
Qed.

Lemma test_refines E ft r r2 p a b : completes r r2 → steady p →
  run_test E ft p r = Ok a → run_test E ft p r2 = Ok b → refines a b.
Proof.
  intros Hc Hs. destruct p; simpl; intros H1 H2; try (right; congruence).
  - eapply (operand_refines E ft r r2 (PSimple _ _ _ _)); done.
  - eapply (operand_refines E ft r r2 (PCompound _ _)); done.
Qed.

(** Compiling keeps operators. *)
Lemma compile_steady E ft p p' : steady p → compile_predicate E ft p = Ok p' → steady p'.
Proof.
  revert p'. induction p as [| |f op lit raw|bop ps IH|b0 f0 a0|] using predicate_rect'; intros p' Hs; simpl; try (intros ?; by simplify_eq).
  - destruct (ft !! f) as [dt|]; [|done]. destruct (get_raw_value E dt lit); [|done|done]. simpl. intros ?. by simplify_eq.
  - destruct (rmap (compile_predicate E ft) ps) as [qs| |] eqn:Hq; try done. simpl. intros ?. simplify_eq.
    destruct Hs as [Hb Hs]. split; [done|]. revert qs Hq. induction IH as [|p ps Hp IH IHps]; intros qs Hq; simpl in Hq.
    + by simplify_eq.
    + destruct (compile_predicate E ft p) as [q| |] eqn:Hpq; try done. simpl in Hq.
      destruct (rmap (compile_predicate E ft) ps) as [qs'| |]; try done. simplify_eq/=. destruct Hs as [Hs1 Hs2].
      split; [by apply Hp|by apply IHps].
Qed.

(** ** Derived fields *)

Lemma completes_set r r2 k v r' r2' : completes r r2 → dr_set r k v = Ok r' → dr_set r2 k v = Ok r2' → completes r' r2'.
Proof.
  intros Hc H1 H2 f x. destruct r as [m|], r2 as [m2|]; try done. simplify_eq/=.
  destruct (decide (f = k)) as [->|Hne]; [by rewrite !lookup_insert|]. rewrite !lookup_insert_ne by done. apply Hc.
Qed.

Lemma input_final E lt : ∀ r r2, is_Some r2 ∨ r = r2 → is_Some r → completes r r2 → same_sources lt r r2 →
  (handle_input E lt r2).1 = (handle_input E lt r).1 ∧
  completes (handle_input E lt r).2 (handle_input E lt r2).2.
Proof.
  induction lt as [|df lt IH]; intros r r2 Hr2 [m ->] Hc Hs; [done|]. simpl.
  rewrite (handle_expr_local E (df_expr df) r2 (Some m)).
  2:{ intros f Hf. by apply (Hs df f); [left|]. }
  destruct (handle_expr E (df_expr df) (Some m)) as [v| |]; [|done|done].
  destruct r2 as [m2|]; [|by destruct Hr2 as [[? ?]|?]]. simpl.
  set (x := if _ =s _ then _ else _). apply IH; [by left; eexists|by eexists|by eapply completes_set|].
  intros df2 f Hd Hf. simpl. destruct (decide (f = df_name df)) as [->|Hne]; [by rewrite !lookup_insert|].
  rewrite !lookup_insert_ne by done. apply (Hs df2 f); [by right|done].
Qed.

(** ** Descents *)

Section descents.
  Context {N : Type} (kids : N → list N) (t1 t2 : N → presult → Prop).

  Lemma null_carried n leaf :
    everywhere_in kids (λ m, (t1 m RT → t2 m RT) ∧ (t1 m RF → t2 m RF)) n →
    descend_null kids t1 n leaf → descend_null kids t2 n leaf.
  Proof.
    intros H Hd. induction Hd as [n Hk|n l1 c l2 leaf Hk Hl Hc Hd IH]; inversion H as [n' Hn Hkids]; subst.
    - apply null_stop. intros c Hc. rewrite Forall_forall in Hkids. specialize (Hkids _ Hc). inversion Hkids as [? []]; subst. auto.
    - rewrite Forall_forall in Hkids. eapply null_step; [done| | |].
      + intros c' Hc'. assert (Hin : c' ∈ kids n) by (rewrite Hk; set_solver).
        specialize (Hkids _ Hin). inversion Hkids as [? []]; subst. auto.
      + assert (Hin : c ∈ kids n) by (rewrite Hk; set_solver). specialize (Hkids _ Hin). inversion Hkids as [? []]; subst. auto.
      + apply IH. apply Hkids. rewrite Hk. set_solver.
  Qed.
End descents.
