(** Branches with a false predicate. *)
From Verif Require Import Base Strconv Value Doc Expr Pred Tree Regression Model Lib
  SpecPred ProofsPred SpecExpr ProofsExpr SpecConstruct ProofsConstruct ProofsRange
  SpecTree ProofsTree ProofsOutput ProofsEval ProofsDoc ProofsSafe ProofsWhole ProofsSim
  SpecEssence ProofsEssence SpecEquiv ProofsEquiv.

Inductive npruned (D : string → node → Prop) : node → node → Prop :=
| npr_node id dc cs1 cs2 ds t sc :
    thinned (npruned D) (D dc) cs1 cs2 → npruned D (Node id dc cs1 ds t sc) (Node id dc cs2 ds t sc).

Lemma new_node_pruned E ft (D : string → mnode → Prop) (D' : string → node → Prop) :
  (∀ dc m n, D dc m → new_node E ft m = Ok n → D' dc n) →
  ∀ m1 m2 n1, pruned D m1 m2 → new_node E ft m1 = Ok n1 →
  ∃ n2, new_node E ft m2 = Ok n2 ∧ npruned D' n1 n2.
Proof.
  intros HD m1. induction m1 as [id dc sc c ds ns1 p1 IH] using mnode_rect'. intros m2 n1 Hm.
  inversion Hm as [? ? ? ? ? ? ns2 ? Hns]; subst; clear Hm. cbn [new_node].
  intros (cs1 & Hcs1 & (q1 & -> & [= <-])%rbind_ok)%rbind_ok.
  assert (∃ cs2, rmap (new_node E ft) ns2 = Ok cs2 ∧ thinned (npruned D') (D' dc) cs1 cs2) as (cs2 & -> & Hcs2).
  { clear -IH Hns Hcs1 HD. revert cs1 Hcs1. induction Hns as [|a b l1 l2 Hab _ IHl|a l1 l2 Ha _ IHl]; intros cs1 Hcs1.
    - simpl in Hcs1. injection Hcs1 as <-. eexists. split; [done|]. constructor.
    - apply Forall_cons in IH as [Ha IH]. cbn [rmap] in Hcs1 |- *.
      apply rbind_ok in Hcs1 as (x & Hx & (xs & Hxs & [= <-])%rbind_ok).
      destruct (Ha _ _ Hab Hx) as (y & -> & Hy). destruct (IHl IH _ Hxs) as (ys & -> & Hys). simpl.
      eexists. split; [done|]. by constructor.
    - apply Forall_cons in IH as [_ IH]. cbn [rmap] in Hcs1.
      apply rbind_ok in Hcs1 as (x & Hx & (xs & Hxs & [= <-])%rbind_ok).
      destruct (IHl IH _ Hxs) as (ys & -> & Hys). eexists. split; [done|]. constructor; [by eapply HD|done]. }
  eexists. split; [done|]. by constructor.
Qed.

Section prune.
  Context (E : Ext) (cx : tctx) (r : datarow).
  Context (Hnt : cx_notrue cx ≠ "returnNullPrediction").

  Definition dead (n : node) : Prop := run_test E (cx_ft cx) (n_test n) r = Ok RF.

  Lemma output_dist_children id dc cs1 cs2 ds t sc :
    output_dist cx (Node id dc cs1 ds t sc) = output_dist cx (Node id dc cs2 ds t sc).
  Proof. unfold output_dist. apply String.eqb_neq in Hnt as ->. by rewrite !andb_false_r. Qed.

  Ltac start n1 n2 :=
    induction n1 as [id dc cs1 ds t sc IH] using node_rect'; intros n2 Hn;
    inversion Hn as [? ? ? cs2 ? ? ? Hcs]; subst; clear Hn.

  Definition skips (D : string → node → Prop) (f : node → res (list score * presult)) : Prop :=
    ∀ dc n, D dc n → f n = Ok ([], RF).

  Lemma thinned_first_true D f d dc cs1 cs2 : skips D f →
    Forall (λ n1, ∀ n2, npruned D n1 n2 → f n1 = f n2) cs1 →
    thinned (npruned D) (D dc) cs1 cs2 → first_true f d cs1 = first_true f d cs2.
  Proof.
    intros Hf IH H. induction H as [|a b l1 l2 Hab _ IHl|a l1 l2 Ha _ IHl]; [done|..];
      apply Forall_cons in IH as [IHa IH]; cbn [first_true].
    - rewrite (IHa _ Hab). destruct (f b) as [[s [| |]]| |]; simpl; auto.
    - rewrite (Hf _ _ Ha). simpl. auto.
  Qed.
  Lemma thinned_first_known D f d dc cs1 cs2 : skips D f →
    Forall (λ n1, ∀ n2, npruned D n1 n2 → f n1 = f n2) cs1 →
    thinned (npruned D) (D dc) cs1 cs2 → first_known f d cs1 = first_known f d cs2.
  Proof.
    intros Hf IH H. induction H as [|a b l1 l2 Hab _ IHl|a l1 l2 Ha _ IHl]; [done|..];
      apply Forall_cons in IH as [IHa IH]; cbn [first_known].
    - rewrite (IHa _ Hab). destruct (f b) as [[s [| |]]| |]; simpl; auto.
    - rewrite (Hf _ _ Ha). simpl. auto.
  Qed.

  (** the results of the children, without those of the dropped ones *)
  Lemma thinned_results D f dc cs1 cs2 : skips D f →
    Forall (λ n1, ∀ n2, npruned D n1 n2 → f n1 = f n2) cs1 →
    thinned (npruned D) (D dc) cs1 cs2 →
    match rmap f cs1, rmap f cs2 with
    | Ok rs1, Ok rs2 =>
        (∀ acc, foldl scan_step acc rs1 = foldl scan_step acc rs2) ∧
        ((∀ n, D dc n → n_id n ≠ dc) →
         ∀ m1 m2 : gmap string (list score), m1 !! dc = m2 !! dc →
           foldl (λ m '(c, x), <[n_id c := x.1]> m) m1 (zip cs1 rs1) !! dc =
           foldl (λ m '(c, x), <[n_id c := x.1]> m) m2 (zip cs2 rs2) !! dc)
    | Err a, Err b => a = b
    | Panic a, Panic b => a = b
    | _, _ => False
    end.
  Proof.
    intros Hf IH H. induction H as [|a b l1 l2 Hab _ IHl|a l1 l2 Ha _ IHl]; [done|..];
      apply Forall_cons in IH as [IHa IH]; cbn [rmap].
    - rewrite (IHa _ Hab). specialize (IHl IH). destruct (f b) as [x| |]; cbn [rbind]; try done.
      destruct (rmap f l1) as [rs1| |], (rmap f l2) as [rs2| |]; cbn [rbind]; try done.
      destruct IHl as [H1 H2]. split; [intros acc; apply H1|]. intros Hid m1 m2 Hm. cbn [zip zip_with foldl].
      apply H2; [done|]. assert (n_id a = n_id b) as -> by by destruct Hab.
      destruct (decide (n_id b = dc)) as [->|Hne]; [by rewrite !lookup_insert|by rewrite !lookup_insert_ne].
    - rewrite (Hf _ _ Ha). specialize (IHl IH). cbn [rbind].
      destruct (rmap f l1) as [rs1| |], (rmap f l2) as [rs2| |]; cbn [rbind]; try done.
      destruct IHl as [H1 H2]. split; [intros [u d]; apply H1|]. intros Hid m1 m2 Hm. cbn [zip zip_with foldl].
      apply H2; [done|]. by rewrite lookup_insert_ne by by apply Hid.
  Qed.

  Context (D : string → node → Prop) (HD : ∀ dc n, D dc n → dead n).

  Lemma dead_none dc n : D dc n → eval_none E cx r n = Ok ([], RF).
  Proof. intros H%HD. destruct n. unfold dead in H. cbn [eval_none n_test] in *. by rewrite H. Qed.
  Lemma dead_null dc n : D dc n → eval_null E cx r n = Ok ([], RF).
  Proof. intros H%HD. destruct n. unfold dead in H. cbn [eval_null n_test] in *. by rewrite H. Qed.
  Lemma dead_last dc n : D dc n → eval_last E cx r n = Ok ([], RF).
  Proof. intros H%HD. destruct n. unfold dead in H. cbn [eval_last n_test] in *. by rewrite H. Qed.
  Lemma dead_default dc n : D dc n → eval_default E cx r n = Ok ([], RF).
  Proof. intros H%HD. destruct n. unfold dead in H. cbn [eval_default n_test] in *. by rewrite H. Qed.

  Lemma eval_none_pruned n1 : ∀ n2, npruned D n1 n2 → eval_none E cx r n1 = eval_none E cx r n2.
  Proof.
    start n1 n2. cbn [eval_none]. destruct (run_test _ _ _ _) as [[| |]| |]; cbn [rbind]; try done.
    rewrite (output_dist_children id dc cs1 cs2). by eapply thinned_first_true; [exact dead_none| |].
  Qed.
  Lemma eval_null_pruned n1 : ∀ n2, npruned D n1 n2 → eval_null E cx r n1 = eval_null E cx r n2.
  Proof.
    start n1 n2. cbn [eval_null]. destruct (run_test _ _ _ _) as [[| |]| |]; cbn [rbind]; try done.
    rewrite (output_dist_children id dc cs1 cs2). by eapply thinned_first_known; [exact dead_null| |].
  Qed.
  Lemma eval_last_pruned n1 : ∀ n2, npruned D n1 n2 → eval_last E cx r n1 = eval_last E cx r n2.
  Proof.
    start n1 n2. cbn [eval_last]. rewrite (output_dist_children id dc cs1 cs2).
    pose proof (thinned_results D _ dc cs1 cs2 dead_last IH Hcs) as H.
    destruct (run_test _ _ _ _) as [[| |]| |]; cbn [rbind]; try done.
    all: destruct (rmap _ cs1), (rmap _ cs2); cbn [rbind]; try done; try congruence.
    all: destruct H as [H _]; by rewrite H.
  Qed.
  Lemma eval_default_pruned (Hid : ∀ dc n, D dc n → n_id n ≠ dc) n1 :
    ∀ n2, npruned D n1 n2 → eval_default E cx r n1 = eval_default E cx r n2.
  Proof.
    start n1 n2. cbn [eval_default]. rewrite (output_dist_children id dc cs1 cs2).
    pose proof (thinned_results D _ dc cs1 cs2 dead_default IH Hcs) as H.
    destruct (run_test _ _ _ _) as [[| |]| |]; cbn [rbind]; try done.
    all: destruct (rmap _ cs1), (rmap _ cs2); cbn [rbind]; try done; try congruence.
    all: destruct H as [H H']; rewrite H; by rewrite (H' (Hid dc) ∅ ∅).
  Qed.

  Lemma node_evaluate_pruned st tk n1 n2 :
    ignores_false st → (st = "defaultChild" → ∀ dc n, D dc n → n_id n ≠ dc) →
    npruned D n1 n2 → node_evaluate E cx st r tk n1 = node_evaluate E cx st r tk n2.
  Proof.
    intros [H1 H2] Hid Hn. unfold node_evaluate. repeat case_str; try done;
      auto using eval_null_pruned, eval_default_pruned, eval_last_pruned, eval_none_pruned.
  Qed.
End prune.

(** One tree, one row. *)
Lemma tree_pruned E dd td t n e td' r (D : string → mnode → Prop) :
  new_model E dd td (DTree t) = (Ok e, td') →
  (∀ dc m, D dc m →
     (∃ q, compile_predicate E (field_types dd td') (mn_pred m) = Ok q ∧
           run_test E (field_types dd td') q (handle_input E (tm_lt t) r).2 = Ok RF) ∧
     (tm_strategy t = "defaultChild" → mn_id m ≠ dc)) →
  ignores_false (tm_strategy t) → tm_notrue t ≠ "returnNullPrediction" →
  pruned D (tm_node t) n →
  ∃ e', new_model E dd td (DTree (with_node t n)) = (Ok e', td') ∧
        ∀ tk, (evaluate E tk e r).1 = (evaluate E tk e' r).1.
Proof.
  intros Hnew HD Hst Hnt Hn. revert Hnew. cbn [new_model]. unfold new_tree_model, tree_validate, with_node.
  cbn [et_model tm_function et_dd et_ft et_root et_outkeys et_target et_compiled].
  destruct (_ && _); [done|].
  unfold tree_compile. cbn [et_model tm_lt tm_schema tm_node et_dd et_target et_validated et_compiled et_outkeys et_root
    tm_function tm_strategy tm_penalty tm_notrue tm_verification].
  rewrite mf_defaults_target.
  destruct (new_node E _ (tm_node t)) as [n1|x|p] eqn:H1; [|done..]. intros [= <- <-].
  set (r' := (handle_input E (tm_lt t) r).2) in *. set (ft := field_types dd (td ++ tm_lt t)) in *.
  assert (∀ dc m m', D dc m → new_node E ft m = Ok m' → run_test E ft (n_test m') r' = Ok RF ∧
     (tm_strategy t = "defaultChild" → n_id m' ≠ dc)) as HD'.
  { intros dc m m' Hm Hc. destruct (HD _ _ Hm) as [(q & Hq & Hrun) Hid].
    destruct m as [id dc' sc c ds ns p]. cbn [new_node mn_pred mn_id] in *.
    rewrite Hq in Hc. by apply rbind_ok in Hc as (cs & _ & [= <-]). }
  destruct (new_node_pruned E ft D (λ dc m, run_test E ft (n_test m) r' = Ok RF ∧
     (tm_strategy t = "defaultChild" → n_id m ≠ dc)) HD' _ _ _ Hn H1) as (n2 & -> & Hn2).
  eexists. split; [done|]. intros tk. cbn [evaluate]. unfold tree_evaluate.
  cbn [et_validated et_compiled negb et_model tm_lt tm_strategy tm_schema et_root].
  destruct (handle_input E (tm_lt t) r) as [[u|x|p] r0]; [|done..]. cbn in r'. subst r'.
  unfold tree_ctx. cbn [et_ft et_dd et_target et_model tm_penalty tm_notrue].
  rewrite (node_evaluate_pruned E (Tctx ft dd (target_field (tm_schema t)) (tm_penalty t) (tm_notrue t)) r0 Hnt
             (λ dc m, run_test E ft (n_test m) r0 = Ok RF ∧ (tm_strategy t = "defaultChild" → n_id m ≠ dc))
             ltac:(intros dc m [Hm _]; exact Hm) (tm_strategy t) tk n1 n2 Hst
             ltac:(intros Hd dc m [_ Hm]; exact (Hm Hd)) Hn2).
  destruct (node_evaluate _ _ _ _ _ _) as [[s v]| |]; try done. destruct v; try done.
  unfold tree_output. cbn [et_model tm_function et_target et_outkeys].
  destruct (_ =s "classification"); [by destruct (foldl _ _ _)|].
  destruct (_ =s "regression"); [|done]. done.
Qed.

Lemma stands_in_refl E dd d : stands_in E dd dd d d.
Proof. intros td e td' H. eauto. Qed.

Lemma cleared_stands_in E dd d1 d2 : cleared d1 d2 → stands_in E dd dd d1 d2.
Proof.
  apply rewritten_stands_in. intros t1 t2 [<-|[t n (H1 & H2 & Hp)]]; [apply stands_in_refl|].
  intros td e td' He.
  assert (∀ r, ∃ e', new_model E dd td (DTree (with_node t n)) = (Ok e', td') ∧
        ∀ tk, (evaluate E tk e r).1 = (evaluate E tk e' r).1) as Hall.
  { intros r. eapply tree_pruned; [exact He| |done|done|exact Hp]. intros dc m [Hm Hid]. split; [|done].
    destruct (mn_pred m); try done; by eexists. }
  destruct (Hall None) as (e' & He' & _). exists e'. split; [done|]. intros tk r.
  destruct (Hall r) as (e'' & He'' & Heq). rewrite He' in He''. injection He'' as <-. apply Heq.
Qed.
