(** Branches with a false predicate under weightedConfidence (C99). *)
From Verif Require Import Base Strconv Value Doc Expr Pred Tree Regression Model Lib
  SpecPred ProofsPred SpecExpr ProofsExpr SpecConstruct ProofsConstruct ProofsRange
  SpecTree ProofsTree ProofsOutput ProofsEval ProofsDoc ProofsSafe ProofsWhole ProofsSim
  SpecEssence ProofsEssence SpecEquiv ProofsEquiv ProofsPrune.

(** [E] with the orders of the range statements below the ticket [tk] taken from elsewhere *)
Definition moved (E : Ext) (tk : ticket) (f : ticket → ticket) (t : ticket) : ticket :=
  if decide (drop (length t - length tk) t = tk) then f (take (length t - length tk) t) ++ tk else t.
Definition reordered (E : Ext) (tk : ticket) (f : ticket → ticket) : Ext :=
  {| ext_parse_float := ext_parse_float E; ext_parse_float_empty := ext_parse_float_empty E;
     ext_exp := ext_exp E; ext_atan := ext_atan E; ext_fmt := ext_fmt E;
     ext_order t := ext_order E (moved E tk f t);
     ext_order_perm t := ext_order_perm E (moved E tk f t) |}.
Lemma reordered_world E tk f : same_world (reordered E tk f) E.
Proof. done. Qed.
Lemma reordered_order E tk f s : ext_order (reordered E tk f) (s ++ tk) = ext_order E (f s ++ tk).
Proof.
  cbn [reordered ext_order]. unfold moved.
  assert (length (s ++ tk) - length tk = length s) as -> by (rewrite app_length; lia).
  rewrite drop_app, take_app. by rewrite decide_True.
Qed.

Section weighted.
  Context (cx : tctx) (r : datarow) (E0 : Ext).
  Context (Hnt : cx_notrue cx ≠ "returnNullPrediction").
  Context (D : string → node → Prop) (HD : ∀ dc n, D dc n → run_test E0 (cx_ft cx) (n_test n) r = Ok RF).

  (** where the first run takes its orders from the second, or the other way round *)
  Definition taken (f g : ticket → ticket) (E1 E2 : Ext) (t1 t2 : ticket) : Prop :=
    (∀ s, ext_order E1 (s ++ t1) = ext_order E2 (f s ++ t2)) ∨
    (∀ s, ext_order E2 (s ++ t2) = ext_order E1 (g s ++ t1)).
  Definition below (f : nat → ticket → ticket) : ticket → ticket := λ s,
    match rev s with
    | [] => []
    | [0] => [0]
    | [1] => [1]
    | k :: s' => f k (rev s')
    end.

  Definition matched (cs1 cs2 : list node) (x y : res (list (list score * presult))) : Prop :=
    match x, y with
    | Ok rs1, Ok rs2 =>
        (∀ acc, foldl scan_step acc rs1 = foldl scan_step acc rs2) ∧
        (∀ acc, foldl wc_collect acc (zip cs1 rs1) = foldl wc_collect acc (zip cs2 rs2))
    | Err a, Err b => a = b
    | Panic a, Panic b => a = b
    | _, _ => False
    end.

  Definition follows n1 n2 : Prop := ∃ f g, ∀ E1 E2 t1 t2, same_world E1 E0 → same_world E2 E0 →
    taken f g E1 E2 t1 t2 → eval_weighted E1 cx r t1 n1 = eval_weighted E2 cx r t2 n2.

  Lemma same_world_trans E1 E2 : same_world E1 E0 → same_world E2 E0 → same_world E1 E2.
  Proof. intros (H1&H2&H3&H4) (G1&G2&G3&G4). repeat split; intros; congruence. Qed.

  Lemma children_follow dc cs1 cs2 :
    Forall (λ n1, ∀ n2, npruned D n1 n2 → follows n1 n2) cs1 → thinned (npruned D) (D dc) cs1 cs2 →
    ∀ i j, ∃ f g, ∀ E1 E2 t1 t2, same_world E1 E0 → same_world E2 E0 →
      ((∀ k s, i ≤ k → ext_order E1 (s ++ k :: t1) = ext_order E2 (f k s ++ t2)) ∨
       (∀ k s, j ≤ k → ext_order E2 (s ++ k :: t2) = ext_order E1 (g k s ++ t1))) →
      matched cs1 cs2 (rmapi (λ i c, eval_weighted E1 cx r (i :: t1) c) i cs1)
        (rmapi (λ i c, eval_weighted E2 cx r (i :: t2) c) j cs2).
  Proof.
    intros IH H. induction H as [|a b l1 l2 Hab _ IHl|a l1 l2 Ha _ IHl]; intros i j.
    - by exists (λ _ _, []), (λ _ _, []).
    - apply Forall_cons in IH as [IHa IH]. destruct (IHa _ Hab) as (fa & ga & Hf).
      destruct (IHl IH (S i) (S j)) as (f & g & Hfg).
      exists (λ k s, if decide (k = i) then fa s ++ [j] else f k s),
             (λ k s, if decide (k = j) then ga s ++ [i] else g k s).
      intros E1 E2 t1 t2 H1 H2 Ho. cbn [rmapi].
      assert (taken fa ga E1 E2 (i :: t1) (j :: t2)) as Hta.
      { destruct Ho as [Ho|Ho]; [left|right]; intros s.
        - rewrite (Ho i s) by lia. rewrite decide_True by done. by rewrite <- app_assoc.
        - rewrite (Ho j s) by lia. rewrite decide_True by done. by rewrite <- app_assoc. }
      rewrite (Hf E1 E2 _ _ H1 H2 Hta). destruct (eval_weighted E2 cx r (j :: t2) b) as [x| |]; cbn [rbind]; try done.
      specialize (Hfg E1 E2 t1 t2 H1 H2). feed specialize Hfg.
      { destruct Ho as [Ho|Ho]; [left|right]; intros k s Hk.
        - rewrite (Ho k s) by lia. by rewrite decide_False by lia.
        - rewrite (Ho k s) by lia. by rewrite decide_False by lia. }
      destruct (rmapi _ (S i) l1) as [rs1| |], (rmapi _ (S j) l2) as [rs2| |]; cbn [rbind]; try done.
      destruct Hfg as [Hs Hw]. split; [intros acc; apply Hs|]. intros acc. cbn [zip zip_with foldl].
      rewrite Hw. f_equal. by destruct Hab.
    - apply Forall_cons in IH as [_ IH]. destruct (IHl IH (S i) j) as (f & g & Hfg).
      exists f, g. intros E1 E2 t1 t2 H1 H2 Ho. cbn [rmapi].
      assert (∃ ds, eval_weighted E1 cx r (i :: t1) a = Ok (ds, RF)) as (ds & ->).
      { apply HD in Ha. destruct a as [id dc' cs ds t sc]. cbn [eval_weighted n_test] in *. 
        rewrite (run_test_world E1 E0) by done. rewrite Ha. by exists ds. }
      cbn [rbind]. specialize (Hfg E1 E2 t1 t2 H1 H2). feed specialize Hfg.
      { destruct Ho as [Ho|Ho]; [left|by right]. intros k s Hk. apply Ho. lia. }
      destruct (rmapi _ (S i) l1) as [rs1| |], (rmapi _ j l2) as [rs2| |]; cbn [rbind]; try done.
      destruct Hfg as [Hs Hw]. split; [intros [u d]; apply Hs|]. intros [[c1 c2] c3]. cbn [zip zip_with foldl]. apply Hw.
  Qed.

  Lemma below_at f k s : 2 ≤ k → below f (s ++ [k]) = f k s.
  Proof.
    intros Hk. unfold below. rewrite rev_app_distr. cbn [rev app]. destruct k as [|[|k]]; [lia..|]. by rewrite rev_involutive.
  Qed.

  Lemma weighted_follows n1 : ∀ n2, npruned D n1 n2 → follows n1 n2.
  Proof.
    induction n1 as [id dc cs1 ds t sc IH] using node_rect'; intros n2 Hn;
      inversion Hn as [? ? ? cs2 ? ? ? Hcs]; subst; clear Hn.
    destruct (children_follow dc cs1 cs2 IH Hcs 2 2) as (f & g & Hfg).
    exists (below f), (below g). intros E1 E2 t1 t2 H1 H2 Ho. cbn [eval_weighted].
    rewrite (run_test_world E1 E0), (run_test_world E2 E0) by done.
    rewrite (output_dist_children cx Hnt id dc cs1 cs2).
    assert (Hm : ∀ A (m : gmap string A), map_range E1 (0 :: t1) m = map_range E2 (0 :: t2) m ∧ map_range E1 (1 :: t1) m = map_range E2 (1 :: t2) m).
    { intros A m. unfold map_range. destruct Ho as [Ho|Ho];
        pose proof (Ho [0]) as Ho0; pose proof (Ho [1]) as Ho1; cbn in Ho0, Ho1; by rewrite Ho0, Ho1. }
    specialize (Hfg E1 E2 t1 t2 H1 H2). feed specialize Hfg.
    { destruct Ho as [Ho|Ho]; [left|right]; intros k s Hk.
      - pose proof (Ho (s ++ [k])) as Hk'. rewrite below_at in Hk' by done. by rewrite <- app_assoc in Hk'.
      - pose proof (Ho (s ++ [k])) as Hk'. rewrite below_at in Hk' by done. by rewrite <- app_assoc in Hk'. }
    destruct (run_test E0 _ _ _) as [[| |]| |]; cbn [rbind]; try done.
    all: destruct (rmapi _ 2 cs1) as [rs1| |], (rmapi _ 2 cs2) as [rs2| |]; cbn [rbind matched] in *; try done; try congruence.
    all: destruct Hfg as [-> ->]; destruct (foldl scan_step _ _) as [u td]; destruct (foldl wc_collect _ _) as [[c1 c2] c3].
    all: destruct (Hm _ c2) as [-> _]; by destruct (Hm _ (foldl (λ agg '(nid, ss), foldl (wc_add (fdiv (default fzero (c1 !! nid)) c3)) agg ss) ∅ (map_range E2 (0 :: t2) c2))) as [_ ->].
  Qed.
End weighted.

(** One tree, one row: whatever order the one takes its maps in, there is one for the other. *)
Lemma tree_pruned_weighted E dd td t n e td' r (D : string → mnode → Prop) :
  new_model E dd td (DTree t) = (Ok e, td') →
  (∀ dc m, D dc m → ∃ q, compile_predicate E (field_types dd td') (mn_pred m) = Ok q ∧
     run_test E (field_types dd td') q (handle_input E (tm_lt t) r).2 = Ok RF) →
  tm_strategy t = "weightedConfidence" → tm_notrue t ≠ "returnNullPrediction" →
  pruned D (tm_node t) n →
  ∃ e', new_model E dd td (DTree (with_node t n)) = (Ok e', td') ∧
    ∃ f g, ∀ E1 E2 tk, same_world E1 E → same_world E2 E → taken f g E1 E2 tk tk →
      (evaluate E1 tk e r).1 = (evaluate E2 tk e' r).1.
Proof.
  intros Hnew HD Hst Hnt Hn. revert Hnew. cbn [new_model]. unfold new_tree_model, tree_validate, with_node.
  cbn [et_model tm_function et_dd et_ft et_root et_outkeys et_target et_compiled].
  destruct (_ && _); [done|].
  unfold tree_compile. cbn [et_model tm_lt tm_schema tm_node et_dd et_target et_validated et_compiled et_outkeys et_root
    tm_function tm_strategy tm_penalty tm_notrue tm_verification].
  rewrite mf_defaults_target.
  destruct (new_node E _ (tm_node t)) as [n1|x|p] eqn:H1; [|done..]. intros [= <- <-].
  set (r' := (handle_input E (tm_lt t) r).2) in *. set (ft := field_types dd (td ++ tm_lt t)) in *.
  assert (∀ dc m m', D dc m → new_node E ft m = Ok m' → run_test E ft (n_test m') r' = Ok RF) as HD'.
  { intros dc m m' Hm Hc. destruct (HD _ _ Hm) as (q & Hq & Hrun).
    destruct m as [id dc' sc c ds ns p]. cbn [new_node mn_pred mn_id] in *.
    rewrite Hq in Hc. by apply rbind_ok in Hc as (cs & _ & [= <-]). }
  destruct (new_node_pruned E ft D (λ dc m, run_test E ft (n_test m) r' = Ok RF) HD' _ _ _ Hn H1) as (n2 & -> & Hn2).
  eexists. split; [done|].
  pose proof (weighted_follows (Tctx ft dd (target_field (tm_schema t)) (tm_penalty t) (tm_notrue t)) r' E Hnt
    (λ dc m, run_test E ft (n_test m) r' = Ok RF) ltac:(intros dc m Hm; exact Hm) n1 n2 Hn2) as (f & g & Hfg).
  exists f, g. intros E1 E2 tk Hw1 Hw2 Ho. cbn [evaluate]. unfold tree_evaluate.
  cbn [et_validated et_compiled negb et_model tm_lt tm_strategy tm_schema et_root].
  rewrite (handle_input_world E1 E Hw1), (handle_input_world E2 E Hw2).
  destruct (handle_input E (tm_lt t) r) as [[u|x|p] r0]; [|done..]. cbn in r'. subst r'.
  unfold tree_ctx. cbn [et_ft et_dd et_target et_model tm_penalty tm_notrue]. rewrite Hst.
  change (node_evaluate E1 ?c "weightedConfidence" r0 tk n1) with (eval_weighted E1 c r0 tk n1).
  change (node_evaluate E2 ?c "weightedConfidence" r0 tk n2) with (eval_weighted E2 c r0 tk n2).
  rewrite (Hfg E1 E2 tk tk Hw1 Hw2 Ho).
  destruct (eval_weighted _ _ _ _ _) as [[s v]| |]; try done. destruct v; try done.
  unfold tree_output. cbn [et_model tm_function et_target et_outkeys].
  destruct (_ =s "classification"); [by destruct (foldl _ _ _)|].
  destruct (_ =s "regression"); [|done]. cbn [fst]. destruct s as [|s0 s]; [done|].
  by rewrite (proj1 Hw1), (proj1 Hw2).
Qed.
