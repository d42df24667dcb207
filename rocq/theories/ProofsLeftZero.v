(** Members of a sum that always predict 0 (C152). *)
From Flocq Require Import Core.Core IEEE754.BinarySingleNaN.
From Verif Require Import Base Strconv Value Doc Expr Pred Tree Regression Model Lib
  SpecPred ProofsPred SpecExpr ProofsExpr SpecConstruct ProofsConstruct ProofsRange
  SpecTree ProofsTree ProofsOutput ProofsEval ProofsDoc ProofsSafe ProofsWhole ProofsSim ProofsRace
  GoExt RealLib ForestLib ProofsNest SpecSilent SpecConstant ProofsConstant.

Section left_zero.
  Context (E : Ext) (Hpf : ∀ s x, ext_parse_float E s = Some x → valid x).

  (** What the trees add to a total is a double. *)
  Definition adds_doubles (e : emodel) : Prop := ∀ tk r out v,
    (evaluate E tk e r).1.1 = Ok out → dr_get out "score" = Some v → valid (val_float64 E v).

  Lemma tree_adds dd td t e td' : tm_function t = "regression" → new_model E dd td (DTree t) = (Ok e, td') → adds_doubles e.
  Proof.
    intros Hf Hn tk r out v. apply new_model_tree_inv in Hn as (te & -> & _ & Hb).
    assert (tm_function (et_model te) = "regression") as Hf2.
    { pose proof (built_tree_of _ _ _ _ _ Hb) as Ht. destruct Ht. destruct_and?. congruence. }
    cbn [evaluate]. unfold tree_evaluate. destruct (negb _); [done|]. destruct (negb _); [done|].
    destruct (handle_input _ _ _) as [[u| |] r']; [|done..].
    destruct (node_evaluate _ _ _ _ _ _) as [[scores []]| |]; [by intros [= <-]| |by intros [= <-]|done..].
    unfold tree_output. rewrite Hf2. cbn [String.eqb Ascii.eqb Bool.eqb].
    destruct scores as [|s scores]; [done|]. destruct (ext_parse_float E (sc_value s)) as [x|] eqn:Hx; [|done].
    intros [= <-]. cbn. intros [= <-]. cbn. by eapply Hpf.
  Qed.

  Definition sound (sc : gmap string f64) : Prop := ∀ k v, sc !! k = Some v → valid v ∧ v ≠ S754_zero true.

  Lemma sound_add tk out sc : sound sc → (∀ v, dr_get out "score" = Some v → valid (val_float64 E v)) →
    sound (score_add E tk false out sc).
  Proof.
    intros Hs Ho k v. rewrite score_add_lookup. destruct (sc !! k) as [w|] eqn:Hw; [|done]. intros [= <-].
    destruct (Hs k w Hw) as [H1 H2]. unfold contribution. destruct (dr_get out "score") as [x|] eqn:Hx; [|done].
    split; [by apply fadd_valid; auto|]. by apply fadd_not_minus_zero; auto.
  Qed.
  Lemma sound_zero tk b sc : sound sc → score_add E tk false (Some {["score" := GF64 (S754_zero b)]}) sc = sc.
  Proof.
    intros Hs. apply map_eq. intros k. rewrite score_add_lookup. destruct (sc !! k) as [w|] eqn:Hw; [|done]. cbn. f_equal.
    destruct (Hs k w Hw) as [_ H]. by destruct w as [[]|[]| |[] ? ?], b.
  Qed.

  Notation ev tk := (λ i s r, evaluate E (5 :: i :: tk) s r).

  Lemma sum_later tk es : Forall (λ e, ∀ tk1 tk2 r, (evaluate E tk1 e r).1 = (evaluate E tk2 e r).1) es → ∀ i j sc r,
    (sum_segments E tk false (ev tk) i sc es r).1 = (sum_segments E tk false (ev tk) j sc es r).1.
  Proof.
    induction 1 as [|e es He _ IH]; intros i j sc r; [done|]. cbn [sum_segments].
    pose proof (He (5 :: i :: tk) (5 :: j :: tk) r) as H.
    destruct (evaluate E (5 :: i :: tk) e r) as [[o1 r1] e1], (evaluate E (5 :: j :: tk) e r) as [[o2 r2] e2].
    cbn [fst] in H. injection H as -> ->. destruct o2 as [out| |]; [|done..]. rewrite !score_add_eq.
    specialize (IH (S i) (S j) (map_imap (λ k v, Some (contribution E false out k v)) sc) r2).
    by destruct (sum_segments _ _ _ _ (S i) _ _ _) as [[? ?] ?], (sum_segments _ _ _ _ (S j) _ _ _) as [[? ?] ?].
  Qed.

  Lemma sum_left_out tk b x es1 es2 : (∀ tk r, (evaluate E tk x r).1 = (Ok (Some {["score" := GF64 (S754_zero b)]}), r)) →
    Forall adds_doubles es1 → Forall (λ e, ∀ tk1 tk2 r, (evaluate E tk1 e r).1 = (evaluate E tk2 e r).1) es2 → ∀ i sc r, sound sc →
    (sum_segments E tk false (ev tk) i sc (es1 ++ x :: es2) r).1 = (sum_segments E tk false (ev tk) i sc (es1 ++ es2) r).1.
  Proof.
    intros Hx H1 H2. induction H1 as [|e es1 He _ IH]; intros i sc r Hs; cbn [sum_segments app].
    - specialize (Hx (5 :: i :: tk) r). destruct (evaluate E (5 :: i :: tk) x r) as [[o r1] x']. cbn [fst] in Hx. injection Hx as -> ->.
      rewrite sound_zero by done. rewrite <- (sum_later tk es2 H2 (S i) i).
      by destruct (sum_segments _ _ _ _ _ _ _ _) as [[? ?] ?].
    - specialize (He (5 :: i :: tk) r). destruct (evaluate E (5 :: i :: tk) e r) as [[[out| |] r1] e']; [|done..].
      specialize (IH (S i) (score_add E (1 :: i :: tk) false out sc) r1). feed specialize IH.
      { apply sound_add; [done|]. intros v. by apply He. }
      by destruct (sum_segments _ _ _ _ (S i) _ (es1 ++ x :: es2) _) as [[? ?] ?], (sum_segments _ _ _ _ (S i) _ (es1 ++ es2) _) as [[? ?] ?].
  Qed.

  Lemma trees_add dd td segs es td' : built_segments E dd td segs es td' → regression_trees segs → Forall adds_doubles es.
  Proof.
    induction 1 as [|td s segs d e es td1 td2 Hd Hn _ IH]; intros Hr; constructor.
    - destruct (Hr s d) as (t & -> & Hf); [left|rewrite Hd; left|]. by eapply tree_adds.
    - apply IH. intros s' d' Hs. apply Hr. by right.
  Qed.
  Lemma trees_ordered dd td segs es td' : built_segments E dd td segs es td' → ordered segs →
    Forall (λ e, ∀ tk1 tk2 r, (evaluate E tk1 e r).1 = (evaluate E tk2 e r).1) es.
  Proof.
    induction 1 as [|td s segs d e es td1 td2 Hd Hn _ IH]; intros Hr; constructor.
    - intros tk1 tk2 r. assert (order_free_doc d) as Ho.
      { apply Forall_forall. intros t Ht. apply (Hr s d t); [left|rewrite Hd; left|done]. }
      pose proof (ticket_free E dd td d e td1 [] tk1 tk2 r Ho Hn) as H. cbn in H. by rewrite H.
    - apply IH. intros s' d' t' Hs. apply Hr. by right.
  Qed.
  Lemma sound_init outs tgs : sound (score_init outs tgs).
  Proof. intros k v ->%score_init_zero. done. Qed.

  Lemma zero_pair dd td h l1 s l2 t b :
    mm_method h = "sum" ∨ mm_method h = "" → mm_function h ≠ "classification" → regression_trees l1 → ordered l2 →
    sg_models s = [DTree t] → constant_tree E (S754_zero b) t →
    match new_model E dd td (DMining h (l1 ++ s :: l2)), new_model E dd td (DMining h (l1 ++ l2)) with
    | (Ok e1, td1), (Ok e2, td2) => td1 = td2 ∧ ∀ tk r, (evaluate E tk e1 r).1 = (evaluate E tk e2 r).1
    | (Err x, td1), (Err y, td2) => x = y ∧ td1 = td2
    | (Panic x, td1), (Panic y, td2) => x = y ∧ td1 = td2
    | _, _ => False
    end.
  Proof.
    intros Hm Hf Hr Ho Hs Hc. rewrite !new_model_mining.
    assert (mm_method (header_of h) = "sum") as Hm1.
    { unfold header_of. destruct Hm as [Hm|Hm]; rewrite Hm; by cbn. }
    rewrite Hm1. cbn [method_ok String.eqb Ascii.eqb Bool.eqb orb negb].
    destruct (List.find _ _) as [o|]; [done|]. rewrite !compile_app.
    destruct (compile_segments (new_model E dd) (td ++ mm_lt h) [] l1) as [[[[]|x|p] sm] td1] eqn:H1; [|done..].
    destruct s as [i ps ms]. cbn [sg_models] in Hs. subst ms. cbn [compile_segments].
    destruct (constant_built E dd td1 t (S754_zero b) Hc) as (e & -> & He).
    rewrite (compile_acc _ l2 td1 (sm ++ [e])), (compile_acc _ l2 td1 sm).
    destruct (compile_segments (new_model E dd) td1 [] l2) as [[[[]|x|p] sm2] td2] eqn:H2; [|done..].
    apply compile_segments_built in H1 as (es1 & -> & H1). apply compile_segments_built in H2 as (es2 & -> & H2).
    split; [done|]. intros tk r. rewrite <- !app_assoc. cbn [app].
    rewrite !mining_evaluate_run by done. cbn [built_mining em_defaults em_hdr].
    destruct (impute _ _ _ _) as [r1|x|p]; [|done..]. destruct (handle_input _ _ _) as [[u'|x|p] r2]; [|done..].
    unfold run_method. cbn [built_mining em_hdr]. rewrite Hm1. cbn [String.eqb Ascii.eqb Bool.eqb].
    unfold sum_models. cbn [built_mining em_hdr em_outputs em_targets].
    assert (mm_function (header_of h) =s "classification" = false) as ->.
    { rewrite header_of_function. by apply String.eqb_neq. }
    pose proof (sum_left_out tk b e es1 es2 He (trees_add _ _ _ _ _ H1 Hr) (trees_ordered _ _ _ _ _ H2 Ho)
      0 (score_init (mm_output h) (mm_targets h)) r2 (sound_init _ _)) as Hsum.
    destruct (sum_segments _ _ _ _ _ _ (es1 ++ e :: es2) _) as [[o1 q1] s1], (sum_segments _ _ _ _ _ _ (es1 ++ es2) _) as [[o2 q2] s2].
    cbn [fst] in Hsum. injection Hsum as -> ->. by destruct o2.
  Qed.
End left_zero.

(** The numbers of the examples are doubles. *)
Lemma decimal_valid neg m e : valid (decimal_f64 neg m e).
Proof.
  unfold decimal_f64. destruct m as [|p|p]; [done| |done]. destruct (0 <=? e)%Z.
  - rewrite normalize_equiv. apply valid_B2SF.
  - destruct (10 ^ - e)%Z as [|q|q]; [done| |done].
    pose proof (Bdiv_correct_aux 53 1024 prec53 emax1024 mode_NE neg p 0 false q 0) as H. cbv zeta in H.
    unfold SFdiv. destruct (SFdiv_core_binary 53 1024 (Zpos p) 0 (Zpos q) 0) as [[mz ez] lz].
    rewrite round_aux_equiv. by destruct H as [H _].
Qed.
Lemma go_parse_valid s x : ext_parse_float go_ext s = Some x → valid x.
Proof.
  change (ext_parse_float go_ext) with go_parse_float.
  assert (∀ neg s, parse_unsigned neg s = Some x → valid x) as H.
  { intros neg s'. unfold parse_unsigned. destruct (_ || _); [by intros [= <-]|].
    destruct (read_mantissa _ _ _ _ _) as [[[m f] sd] rest]. destruct (negb sd); [done|].
    destruct (exponent_of rest) as [e|]; [|done]. pose proof (decimal_valid neg m (e - f)) as H.
    destruct (decimal_f64 neg m (e - f)); try done; by intros [= <-]. }
  unfold go_parse_float. destruct s as [|c s]; [done|]. destruct (_ =s _); [by intros [= <-]|].
  destruct (Ascii.eqb _ _); [apply H|]. destruct (Ascii.eqb _ _); apply H.
Qed.
