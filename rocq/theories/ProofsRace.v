(** Evaluate as a program over the shared caches: it computes what [evaluate]
    computes, whatever the caches hold. *)
From Verif Require Import Base Strconv Value Doc Expr Pred Tree Regression Model Lib
  ProofsPred ProofsExpr ProofsTree ProofsOutput ProofsEval ProofsDoc ProofsWhole ProofsSim ProofsHistory Race.

(** ** Memoising programs *)

(** [memo a l m]: [m] consults exactly the entries [l], fills in the ones it
    misses, and returns [a] either way. *)
Inductive memo {A} (a : A) : list (list nat * string) → prog A → Prop :=
| memo_ret : memo a [] (Ret a)
| memo_get p v k l k' :
    k None = Put p v (prob_key v) k' → k (Some (prob_key v)) = k' → memo a l k' →
    memo a ((p, v) :: l) (Get p v k).

Lemma memo_bind {A B} (a : A) (b : B) l l' m f :
  memo a l m → memo b l' (f a) → memo b (l ++ l') (pbind m f).
Proof.
  intros Hm Hf. induction Hm as [|p v k l k' H1 H2 Hm IH]; simpl; [done|].
  apply (memo_get _ _ _ _ _ (pbind k' f)); [by rewrite H1|by rewrite H2|done].
Qed.

Lemma memo_map {A B} (a : A) l m (f : A → B) : memo a l m → memo (f a) l (pbind m (λ x, Ret (f x))).
Proof. intros H. rewrite <- (app_nil_r l). eapply memo_bind; [done|constructor]. Qed.

(** what an entry holds once the entries [l] have been consulted *)
Definition entry (l : list (list nat * string)) (x : list nat * string) (old : option string) : option string :=
  if decide (x ∈ l) then Some (prob_key x.2) else old.
Lemma entry_in l x old : x ∈ l → entry l x old = Some (prob_key x.2).
Proof. intros H. unfold entry. by rewrite decide_True. Qed.
Lemma entry_out l x old : x ∉ l → entry l x old = old.
Proof. intros H. unfold entry. by rewrite decide_False. Qed.
Lemma entry_ext l l' x old : (x ∈ l ↔ x ∈ l') → entry l x old = entry l' x old.
Proof. intros H. unfold entry. by apply decide_ext. Qed.
Lemma entry_some l x : entry l x (Some (prob_key x.2)) = Some (prob_key x.2).
Proof. unfold entry. by case_decide. Qed.
Opaque entry.

(** the tree loop *)
Lemma out_steps_memo p out keys scores :
  keys_ok keys →
  memo (foldl out_step (out, keys) scores).1 ((λ s, (p, sc_value s)) <$> scores) (out_steps p out scores) ∧
  ∀ v, (foldl out_step (out, keys) scores).2 !! v =
       entry ((λ s, (p, sc_value s)) <$> scores) (p, v) (keys !! v).
Proof.
  revert out keys. induction scores as [|s scores IH]; intros out keys Hk; simpl.
  - split; [constructor|]. intros v. rewrite entry_out; [done|]. set_solver.
  - destruct (keys !! sc_value s) as [key|] eqn:Hs.
    + assert (key = prob_key (sc_value s)) as -> by by apply Hk.
      destruct (IH (<[prob_key (sc_value s) := GF64 (sc_prob s)]> out) keys Hk) as [Hm Hl]. split.
      * by econstructor.
      * intros v. rewrite Hl. destruct (decide (v = sc_value s)) as [->|Hv].
        { rewrite (entry_in (_ :: _)) by set_solver. rewrite Hs. apply (entry_some _ (p, sc_value s)). }
        { apply entry_ext. set_solver. }
    + assert (keys_ok (<[sc_value s := prob_key (sc_value s)]> keys)) as Hk'.
      { intros v k. rewrite lookup_insert_Some. intros [[<- <-]|[_ H]]; [done|by apply Hk]. }
      destruct (IH (<[prob_key (sc_value s) := GF64 (sc_prob s)]> out) _ Hk') as [Hm Hl]. split.
      * by econstructor.
      * intros v. rewrite Hl. destruct (decide (v = sc_value s)) as [->|Hv].
        { rewrite (entry_in (_ :: _)) by set_solver. rewrite lookup_insert. apply (entry_some _ (p, sc_value s)). }
        { rewrite lookup_insert_ne by done. apply entry_ext. set_solver. }
Qed.

(** the caches before and after consulting the entries [l] *)
Definition filled (p : list nat) (l : list (list nat * string)) (e e' : emodel) : Prop :=
  ∀ q v, caches e' q v = entry l (p ++ q, v) (caches e q v).

Definition below (p : list nat) (l : list (list nat * string)) : Prop :=
  ∀ q v, (q, v) ∈ l → ∃ q', q = p ++ q'.

Lemma filled_nil p e : filled p [] e e.
Proof. intros q v. rewrite entry_out; [done|]. set_solver. Qed.

Lemma tree_steps_memo E tk p t r o r' t' :
  keys_ok (et_outkeys t) → tree_evaluate E tk t r = (o, r', t') →
  ∃ l, memo (o, r') l (tree_steps E tk p t r) ∧ filled p l (ETree t) (ETree t') ∧ below p l.
Proof.
  intros Hk. unfold tree_evaluate, tree_steps.
  assert (∀ (x : reply), ∃ l, memo x l (Ret x) ∧ filled p l (ETree t) (ETree t) ∧ below p l) as Hret.
  { intros x. exists []. split; [constructor|]. split; [apply filled_nil|]. intros q v H%elem_of_nil. done. }
  destruct (negb _); [intros [= <- <- <-]; apply Hret|].
  destruct (negb _); [intros [= <- <- <-]; apply Hret|].
  destruct (handle_input _ _ _) as [[u|x|x] r1]; [|intros [= <- <- <-]; apply Hret..].
  destruct (node_evaluate _ _ _ _ _ _) as [[s [| |]]|x|x]; try (intros [= <- <- <-]; apply Hret).
  unfold tree_output. destruct (_ =s "classification").
  - pose proof (out_steps_memo p {[et_target t := GStr (sc_value (pick_best s))]} (et_outkeys t) s Hk) as [Hm Hl].
    destruct (foldl out_step _ _) as [out keys]. simpl in *. intros [= <- <- <-].
    eexists. split; [exact (memo_map out _ _ (λ out, (Ok (Some out), r1)) Hm)|]. split.
    + intros [|i q] v; simpl; [rewrite app_nil_r; apply Hl|]. rewrite entry_out; [done|].
      rewrite elem_of_list_fmap. intros (y & H & _). injection H as H _.
      apply (f_equal length) in H. rewrite app_length in H. simpl in H. lia.
    + intros q v (y & H & _)%elem_of_list_fmap. injection H as -> _. exists []. by rewrite app_nil_r.
  - destruct (_ =s "regression"); simpl; intros [= <- <- <-];
      (eexists []; split; [constructor|]; split; [destruct t; apply filled_nil|]; intros q v H%elem_of_nil; done).
Qed.

(** ** Mining *)

Lemma caches_mining h sm i q v :
  caches (EMining h sm) (i :: q) v = match sm !! i with Some s => caches s q v | None => None end.
Proof.
  simpl. revert i. induction sm as [|s sm IH]; intros [|i]; simpl; done.
Qed.

(** the segments from index [i] on, before and after *)
Definition filled_segs (p : list nat) (i : nat) (l : list (list nat * string)) (sm sm' : list emodel) : Prop :=
  length sm' = length sm ∧
  (∀ j s s', sm !! j = Some s → sm' !! j = Some s' → filled (p ++ [i + j]) l s s') ∧
  ∀ q v, (q, v) ∈ l → ∃ j q', i ≤ j < i + length sm ∧ q = p ++ [j] ++ q'.

Lemma filled_segs_nil p i sm : filled_segs p i [] sm sm.
Proof.
  split; [done|]. split.
  - intros j s s' H1 H2. simplify_eq. apply filled_nil.
  - intros q v H%elem_of_nil. done.
Qed.

Lemma filled_stop p i l s s' sm :
  filled (p ++ [i]) l s s' → below (p ++ [i]) l → filled_segs p i l (s :: sm) (s' :: sm).
Proof.
  intros Hf Hb. split; [done|]. split.
  - intros [|j] a b; simpl; intros H1 H2; simplify_eq.
    + by rewrite Nat.add_0_r.
    + intros q v. rewrite entry_out; [done|]. intros [q' Hq]%Hb.
      rewrite <- !(assoc_L (++)) in Hq. apply app_inv_head in Hq. simpl in Hq. injection Hq as Hq _. lia.
  - intros q v [q' ->]%Hb. exists i, q'. split; [simpl; lia|]. by rewrite <- (assoc_L (++)).
Qed.

Lemma filled_cons p i l1 l2 s s' sm sm' :
  filled (p ++ [i]) l1 s s' → below (p ++ [i]) l1 → filled_segs p (S i) l2 sm sm' →
  filled_segs p i (l1 ++ l2) (s :: sm) (s' :: sm').
Proof.
  intros Hf Hb (Hlen & Hs & Hin). split; [simpl; lia|]. split.
  - intros [|j] a b; simpl; intros H1 H2; simplify_eq; intros q v.
    + rewrite Nat.add_0_r. rewrite Hf. apply entry_ext. rewrite elem_of_app. split; [by left|].
      intros [H|(j & q' & Hj & Hq)%Hin]; [done|].
      rewrite <- !(assoc_L (++)) in Hq. apply app_inv_head in Hq. simpl in Hq. injection Hq as Hq _. lia.
    + pose proof (Hs j a b H1 H2 q v) as H. replace (i + S j) with (S i + j) by lia. rewrite H.
      apply entry_ext. rewrite elem_of_app. split; [by right|].
      intros [[q' Hq]%Hb|Hx]; [|done].
      rewrite <- !(assoc_L (++)) in Hq. apply app_inv_head in Hq. simpl in Hq. injection Hq as Hq _. lia.
  - intros q v [[q' ->]%Hb|(j & q' & Hj & ->)%Hin]%elem_of_app.
    + exists i, q'. split; [simpl; lia|]. by rewrite <- (assoc_L (++)).
    + exists j, q'. split; [simpl; lia|done].
Qed.

(** Two copies of the segments that may differ in their caches, [sm] and [sc],
    make the same accesses. *)
Section methods.
  Context (E : Ext) (p : list nat) (ev : nat → emodel → datarow → outcome emodel)
    (evs : nat → emodel → datarow → prog reply).
  Definition faithful (s c : emodel) : Prop := ∀ i r o r' s', ev i s r = (o, r', s') →
    ∃ l, memo (o, r') l (evs i s r) ∧ memo (o, r') l (evs i c r) ∧
         filled (p ++ [i]) l s s' ∧ below (p ++ [i]) l.

  Lemma memo_stop {A B} (a : A) (b : B) l m f : memo a l m → f a = Ret b → memo b l (pbind m f).
  Proof. intros H Hf. rewrite <- (app_nil_r l). eapply memo_bind; [done|]. rewrite Hf. constructor. Qed.

  Lemma chain_memo tk i last sm sc r o r' sm' :
    Forall2 faithful sm sc → chain E tk ev i last sm r = (o, r', sm') →
    ∃ l, memo (o, r') l (chain_steps E tk evs i last sm r) ∧
         memo (o, r') l (chain_steps E tk evs i last sc r) ∧ filled_segs p i l sm sm'.
  Proof.
    intros H. revert i last r o r' sm'. induction H as [|s c sm sc Hs _ IH]; intros i last r o r' sm'; simpl.
    - intros [= <- <- <-]. exists []. split; [constructor|]. split; [constructor|apply filled_segs_nil].
    - destruct (copy_into _ _ _ _) as [r1|x|x];
        [|intros [= <- <- <-]; exists []; split; [constructor|]; split; [constructor|apply filled_segs_nil]..].
      destruct (ev i s r1) as [[o1 r2] s1] eqn:Hev. destruct (Hs _ _ _ _ _ Hev) as (l1 & Hm & Hc & Hf & Hb).
      destruct o1 as [out|x|x].
      + destruct (chain E tk ev (S i) out sm r2) as [[o2 r3] sm2] eqn:Hch. intros [= <- <- <-].
        destruct (IH _ _ _ _ _ _ Hch) as (l2 & Hm2 & Hc2 & Hf2). exists (l1 ++ l2).
        split; [by eapply memo_bind|]. split; [by eapply memo_bind|by apply filled_cons].
      + intros [= <- <- <-]. exists l1. split; [by eapply memo_stop|]. split; [by eapply memo_stop|by apply filled_stop].
      + intros [= <- <- <-]. exists l1. split; [by eapply memo_stop|]. split; [by eapply memo_stop|by apply filled_stop].
  Qed.

  Lemma sum_memo tk cl i scores sm sc r o r' sm' :
    Forall2 faithful sm sc → sum_segments E tk cl ev i scores sm r = (o, r', sm') →
    ∃ l, memo (o, r') l (sum_steps E tk cl evs i scores sm r) ∧
         memo (o, r') l (sum_steps E tk cl evs i scores sc r) ∧ filled_segs p i l sm sm'.
  Proof.
    intros H. revert i scores r o r' sm'. induction H as [|s c sm sc Hs _ IH]; intros i scores r o r' sm'; simpl.
    - intros [= <- <- <-]. exists []. split; [constructor|]. split; [constructor|apply filled_segs_nil].
    - destruct (ev i s r) as [[o1 r2] s1] eqn:Hev. destruct (Hs _ _ _ _ _ Hev) as (l1 & Hm & Hc & Hf & Hb).
      destruct o1 as [out|x|x].
      + destruct (sum_segments E tk cl ev (S i) _ sm r2) as [[o2 r3] sm2] eqn:Hch. intros [= <- <- <-].
        destruct (IH _ _ _ _ _ _ Hch) as (l2 & Hm2 & Hc2 & Hf2). exists (l1 ++ l2).
        split; [by eapply memo_bind|]. split; [by eapply memo_bind|by apply filled_cons].
      + intros [= <- <- <-]. exists l1. split; [by eapply memo_stop|]. split; [by eapply memo_stop|by apply filled_stop].
      + intros [= <- <- <-]. exists l1. split; [by eapply memo_stop|]. split; [by eapply memo_stop|by apply filled_stop].
  Qed.

  Lemma total_memo tk h sm sc r o r' sm' :
    Forall2 faithful sm sc → sum_models E tk h ev sm r = (o, r', sm') →
    ∃ l, memo (o, r') l (total_steps E tk h evs sm r) ∧
         memo (o, r') l (total_steps E tk h evs sc r) ∧ filled_segs p 0 l sm sm'.
  Proof.
    intros H. unfold sum_models, total_steps.
    destruct (sum_segments _ _ _ _ _ _ _ _) as [[o1 r1] sm1] eqn:Hs.
    destruct (sum_memo _ _ _ _ _ _ _ _ _ _ H Hs) as (l & Hm & Hc & Hf).
    intros Ho. exists l. repeat split.
    - eapply memo_stop; [done|]. by destruct o1; simplify_eq.
    - eapply memo_stop; [done|]. by destruct o1; simplify_eq.
    - destruct o1; simplify_eq; apply Hf.
    - destruct o1; simplify_eq; apply Hf.
    - destruct o1; simplify_eq; apply Hf.
  Qed.

  Lemma method_memo tk h sm sc r o r' sm' :
    Forall2 faithful sm sc → run_method E tk h ev sm r = (o, r', sm') →
    ∃ l, memo (o, r') l (method_steps E tk h evs sm r) ∧
         memo (o, r') l (method_steps E tk h evs sc r) ∧ filled_segs p 0 l sm sm'.
  Proof.
    intros H. unfold run_method, method_steps. destruct (_ =s "average").
    { unfold average_models. destruct (sum_models _ _ _ _ _ _) as [[o1 r1] sm1] eqn:Hs.
      destruct (total_memo _ _ _ _ _ _ _ _ H Hs) as (l & Hm & Hc & Hf). intros Ho. exists l.
      split; [eapply memo_stop; [done|]; by destruct o1; simplify_eq/=|].
      split; [eapply memo_stop; [done|]; by destruct o1; simplify_eq/=|]. destruct o1; by simplify_eq/=. }
    destruct (_ =s "sum").
    { destruct (sum_models _ _ _ _ _ _) as [[o1 r1] sm1] eqn:Hs.
      destruct (total_memo _ _ _ _ _ _ _ _ H Hs) as (l & Hm & Hc & Hf). intros Ho. exists l.
      split; [eapply memo_stop; [done|]; by destruct o1; simplify_eq/=|].
      split; [eapply memo_stop; [done|]; by destruct o1; simplify_eq/=|]. destruct o1; by simplify_eq/=. }
    destruct (_ =s "modelChain"); [by apply chain_memo|].
    destruct (_ =s "selectFirst").
    - destruct H as [|s c sm sc Hs H]; simpl.
      + intros [= <- <- <-]. exists []. split; [constructor|]. split; [constructor|apply filled_segs_nil].
      + destruct (ev 0 s r) as [[o1 r2] s1] eqn:Hev. destruct (Hs _ _ _ _ _ Hev) as (l1 & Hm & Hc & Hf & Hb).
        intros [= <- <- <-]. exists l1. split; [done|]. split; [done|by apply filled_stop].
    - intros [= <- <- <-]. exists []. split; [constructor|]. split; [constructor|apply filled_segs_nil].
  Qed.
End methods.

Lemma tree_steps_same E tk p t c r : same_tree t c → tree_steps E tk p t r = tree_steps E tk p c r.
Proof.
  intros Ht. pose proof (tree_output_same E E t c) as Ho. pose proof Ht as (_ & _ & Hv & Hc & Hdd & Hm & Hft & Hr & Htg).
  unfold tree_steps. rewrite <- Hv, <- Hc, <- Hm, <- Hr. replace (tree_ctx c) with (tree_ctx t)
    by (unfold tree_ctx; by rewrite Hft, Hdd, Hm, Htg).
  destruct (negb _); [done|]. destruct (negb _); [done|].
  destruct (handle_input _ _ _) as [[u|x|x] r1]; [|done..].
  destruct (node_evaluate _ _ _ _ _ _) as [[s [| |]]|x|x]; try done.
  rewrite <- Htg, Ho by done. done.
Qed.

(** The program computes [evaluate], and makes the same accesses whatever the
    caches hold. *)
Lemma evaluate_memo2 E tk p e c r o r' e' :
  msim same_tree e c → evaluate E tk e r = (o, r', e') →
  ∃ l, memo (o, r') l (evaluate_steps E tk p e r) ∧ memo (o, r') l (evaluate_steps E tk p c r) ∧
       filled p l e e' ∧ below p l.
Proof.
  revert tk p c r o r' e'. induction e as [t|x|h sm IH] using emodel_rect'; intros tk p c r o r' e' He.
  - inversion He as [? t2 Ht| |]; subst. cbn [evaluate evaluate_steps].
    destruct (tree_evaluate E tk t r) as [[o1 r1] t1] eqn:Ht1. intros [= <- <- <-].
    destruct (tree_steps_memo E tk p t r o1 r1 t1) as (l & Hm & Hf & Hb); [apply Ht|done|].
    exists l. split; [done|]. split; [by rewrite <- (tree_steps_same E tk p t t2)|done].
  - inversion He; subst. simpl. intros [= <- <- <-]. exists []. split; [constructor|]. split; [constructor|].
    split; [apply filled_nil|]. intros q v H%elem_of_nil. done.
  - inversion He as [| |? ? sc Hsm]; subst. cbn [evaluate evaluate_steps].
    assert (∀ (y : reply), ∃ l, memo y l (Ret y) ∧ memo y l (Ret y) ∧
      filled p l (EMining h sm) (EMining h sm) ∧ below p l) as Hret.
    { intros y. exists []. split; [constructor|]. split; [constructor|]. split; [apply filled_nil|]. intros q v H%elem_of_nil. done. }
    destruct (negb (em_validated h)); [intros [= <- <- <-]; apply Hret|].
    destruct (negb (em_compiled h)); [intros [= <- <- <-]; apply Hret|].
    destruct (impute _ _ _ _) as [r1|x|x]; [|intros [= <- <- <-]; apply Hret..].
    destruct (handle_input _ _ _) as [[u|x|x] r2]; [|intros [= <- <- <-]; apply Hret..].
    destruct (run_method _ _ _ _ _ _) as [[o3 r3] sm'] eqn:Hrun. intros [= <- <- <-].
    destruct (method_memo E p (λ i s r, evaluate E (5 :: i :: tk) s r)
      (λ i s r, evaluate_steps E (5 :: i :: tk) (p ++ [i]) s r) tk h sm sc r2 o3 r3 sm') as (l & Hm & Hc & Hlen & Hs & Hin).
    { apply Forall2_same_length_lookup. split; [by eapply Forall2_length|].
      intros j s s2 Hj Hj2 i r' o r'' s' Hev. rewrite Forall_lookup in IH.
      apply (IH _ _ Hj); [by eapply Forall2_lookup_lr|done]. }
    { done. }
    exists l. split; [done|]. split; [done|]. split.
    + intros [|i q] v.
      * simpl. rewrite app_nil_r, entry_out; [done|]. intros (j & q' & _ & Hq)%Hin.
        apply (f_equal length) in Hq. rewrite !app_length in Hq. simpl in Hq. lia.
      * rewrite !caches_mining. destruct (sm !! i) as [s|] eqn:Hi.
        { destruct (lookup_lt_is_Some_2 sm' i) as [s' Hi']; [rewrite Hlen; by eapply lookup_lt_Some|].
          rewrite Hi'. rewrite (Hs _ _ _ Hi Hi' q v), <- (assoc_L (++)). done. }
        { rewrite (proj2 (lookup_ge_None sm' i)) by (rewrite Hlen; by apply lookup_ge_None).
          rewrite entry_out; [done|]. intros (j & q' & Hj & Hq)%Hin.
          apply app_inv_head in Hq. simpl in Hq. injection Hq as -> _.
          apply lookup_ge_None in Hi. lia. }
    + intros q v (j & q' & _ & ->)%Hin. by eexists.
Qed.

Lemma evaluate_memo E tk p e r o r' e' :
  msim same_tree e e → evaluate E tk e r = (o, r', e') →
  ∃ l, memo (o, r') l (evaluate_steps E tk p e r) ∧ filled p l e e' ∧ below p l.
Proof.
  intros H1 H2. destruct (evaluate_memo2 E tk p e e r o r' e' H1 H2) as (l & Hm & _ & Hf). by exists l.
Qed.

Lemma memo_unique {A} (a b : A) l l' m : memo a l m → memo b l' m → a = b ∧ l = l'.
Proof.
  intros H. revert b l'. induction H as [|p v k l k' E1 E2 H IH]; intros b l' Hb.
  - by inversion Hb.
  - inversion Hb as [|? ? ? l2 k2 F1 F2 F3]; subst. apply IH in F3 as [-> ->]. done.
Qed.

(** equal caches, equal evaluators *)
Lemma msim_caches e e' : msim same_tree e e' → (∀ q v, caches e q v = caches e' q v) → e = e'.
Proof.
  revert e'. induction e as [t|x|h sm IH] using emodel_rect'; intros e' He Hc;
    inversion He as [? t2 Ht|?|? ? sm2 Hsm]; subst; [|done|].
  - f_equal. destruct t, t2, Ht as (_ & _ & ? & ? & ? & ? & ? & ? & ?). simpl in *. subst. f_equal.
    apply map_eq. intros v. apply (Hc [] v).
  - f_equal. clear He. assert (∀ i q v, match sm !! i with Some s => caches s q v | None => None end =
      match sm2 !! i with Some s => caches s q v | None => None end) as Hc'.
    { intros i q v. rewrite <- !caches_mining with (h := h). apply Hc. }
    clear Hc. induction Hsm as [|a b l1 l2 Hab Hl IHl]; [done|]. apply Forall_cons in IH as [IH1 IH2]. f_equal.
    + apply IH1; [done|]. intros q v. apply (Hc' 0).
    + apply IHl; [done|]. intros i. apply (Hc' (S i)).
Qed.

(** ** Interleavings *)

(** goroutines under way: what each will return and the entries it may still touch *)
Inductive running {A} (a : A) : list (list nat * string) → prog A → Prop :=
| run_memo l m : memo a l m → running a l m
| run_put l p v k : memo a l k → running a ((p, v) :: l) (Put p v (prob_key v) k).

Definition store_ok (σ : store) : Prop := ∀ p v k, σ p v = Some k → k = prob_key v.

Lemma store_put_ok σ p v : store_ok σ → store_ok (store_put σ p v (prob_key v)).
Proof.
  intros H q w k. unfold store_put. case_decide; [|apply H]. intros [= <-]. by simplify_eq.
Qed.

Definition pool {A} (answers : list A) (ths : list (prog A)) : Prop :=
  Forall2 (λ a m, ∃ l, running a l m) answers ths.

Lemma step_pool {A} (answers : list A) σ ths a σ' ths' :
  step σ ths a σ' ths' → store_ok σ → pool answers ths → store_ok σ' ∧ pool answers ths'.
Proof.
  intros Hs Hσ Hp. destruct Hs as [σ ths i p v k Hi|σ ths i p v key k Hi].
  - split; [done|]. destruct (Forall2_lookup_r _ _ _ _ _ Hp Hi) as (ans & Hans & l & Hr).
    inversion Hr as [? ? Hm|]; subst. inversion Hm as [|? ? ? l' k' H1 H2 H3]; subst.
    rewrite <- (list_insert_id _ _ _ Hans). apply Forall2_insert; [done|].
    destruct (σ p v) as [key|] eqn:Hk.
    + rewrite (Hσ _ _ _ Hk). eexists. by apply run_memo.
    + rewrite H1. eexists. by apply run_put.
  - destruct (Forall2_lookup_r _ _ _ _ _ Hp Hi) as (ans & Hans & l & Hr).
    inversion Hr as [? ? Hm|? ? ? ? Hm]; subst; [inversion Hm|]. split; [by apply store_put_ok|].
    rewrite <- (list_insert_id _ _ _ Hans). apply Forall2_insert; [done|]. eexists. by apply run_memo.
Qed.

Lemma exec_pool {A} (answers : list A) σ ths tr σ' ths' :
  exec σ ths tr σ' ths' → store_ok σ → pool answers ths → store_ok σ' ∧ pool answers ths'.
Proof.
  induction 1 as [|σ ths a σ1 ths1 tr σ2 ths2 Hs _ IH]; [done|]. intros Hσ Hp.
  destruct (step_pool _ _ _ _ _ _ Hs Hσ Hp). by apply IH.
Qed.

(** goroutines that find everything they look for *)
Definition quiet {A} (σ : store) (m : prog A) : Prop :=
  ∃ a l, memo a l m ∧ ∀ p v, (p, v) ∈ l → σ p v = Some (prob_key v).

Lemma exec_quiet {A} σ (ths : list (prog A)) tr σ' ths' :
  exec σ ths tr σ' ths' → Forall (quiet σ) ths →
  σ' = σ ∧ Forall (λ a, a_write a = false) tr ∧ Forall (quiet σ) ths'.
Proof.
  induction 1 as [|σ ths a σ1 ths1 tr σ2 ths2 Hs _ IH]; [done|]. intros Hq.
  destruct Hs as [σ ths i p v k Hi|σ ths i p v key k Hi].
  - destruct (IH) as (H1 & H2 & H3); [|split; [done|]; by split; [constructor|]].
    apply Forall_insert; [done|]. rewrite Forall_lookup in Hq. destruct (Hq _ _ Hi) as (b & l & Hm & Hl).
    inversion Hm as [|? ? ? l' k' E1 E2 E3]; subst. rewrite (Hl p v) by set_solver.
    exists b, l'. split; [done|]. intros q w Hin. apply Hl. set_solver.
  - rewrite Forall_lookup in Hq. destruct (Hq _ _ Hi) as (b & l & Hm & Hl). inversion Hm.
Qed.

Lemma exec_app {A} σ (ths : list (prog A)) tr σ1 ths1 tr2 σ2 ths2 :
  exec σ ths tr σ1 ths1 → exec σ1 ths1 tr2 σ2 ths2 → exec σ ths (tr ++ tr2) σ2 ths2.
Proof. induction 1; simpl; [done|]. intros. econstructor; eauto. Qed.

(** one goroutine reads the entries it finds *)
Lemma exec_reads {A} (a : A) σ ths i l1 l2 m :
  ths !! i = Some m → memo a (l1 ++ l2) m → (∀ p v, (p, v) ∈ l1 → σ p v = Some (prob_key v)) →
  ∃ tr m', exec σ ths tr σ (<[i := m']> ths) ∧ memo a l2 m'.
Proof.
  revert ths m. induction l1 as [|[p v] l1 IH]; intros ths m Hi Hm Hl.
  - exists [], m. rewrite list_insert_id by done. split; [constructor|done].
  - inversion Hm as [|? ? k ? k' E1 E2 E3]; subst.
    destruct (IH (<[i := k (σ p v)]> ths) (k (Some (prob_key v)))) as (tr & m' & He & Hm').
    + rewrite (Hl p v) by set_solver. apply list_lookup_insert. by eapply lookup_lt_Some.
    + done.
    + intros q w Hin. apply Hl. set_solver.
    + rewrite list_insert_insert in He. eexists _, m'. split; [|done]. econstructor; [by apply step_get|done].
Qed.

(** the state of an evaluator after any calls *)
Lemma after_msim E dd td d e0 td' calls :
  new_model E dd td d = (Ok e0, td') → msim same_tree (after E calls e0) (after E calls e0).
Proof.
  intros H%new_model_msim. pose proof (after_step E calls e0 H) as Hs.
  assert (∀ a b, same_tree a b → same_tree b a) as Hsym by (unfold same_tree; naive_solver).
  eapply msim_trans; [apply same_tree_trans| |exact Hs].
  clear -Hs Hsym. revert Hs. generalize (after E calls e0) as e1. revert e0.
  intros e'. induction e' as [t|x|h sm IH] using emodel_rect'; intros e2 He;
    inversion He as [? t2 Ht|?|? ? sm2 Hsm]; subst; constructor; [by apply Hsym|].
  clear He. induction Hsm; constructor; apply Forall_cons in IH as [IH1 IH2]; auto.
Qed.

Lemma caches_ok e : msim same_tree e e → store_ok (caches e).
Proof.
  intros He. induction e as [t|x|h sm IH] using emodel_rect'; inversion He as [? ? Ht| |? ? ? Hsm]; subst; intros p v k.
  - destruct p; simpl; [|done]. apply Ht.
  - done.
  - destruct p as [|i p]; [done|]. rewrite caches_mining. destruct (sm !! i) as [s|] eqn:Hi; [|done].
    rewrite Forall_lookup in IH. apply (IH i s Hi). eapply Forall2_lookup_lr; done.
Qed.

Lemma unchanged_quiet E e c :
  msim same_tree e e → (evaluate E c.1 e c.2).2 = e → quiet (caches e) (evaluate_steps E c.1 [] e c.2).
Proof.
  intros He Hc. destruct (evaluate E c.1 e c.2) as [[o r'] e'] eqn:Hev. simpl in Hc. subst e'.
  destruct (evaluate_memo E c.1 [] e c.2 o r' e He Hev) as (l & Hm & Hf & _).
  exists (o, r'), l. split; [done|]. intros p v Hin. specialize (Hf p v). simpl in Hf.
  by rewrite entry_in in Hf.
Qed.

Lemma unchanged_race_free E e calls :
  msim same_tree e e → Forall (λ c, (evaluate E c.1 e c.2).2 = e) calls → race_free E e calls.
Proof.
  intros He Hc tr σ ths Hex. apply exec_quiet in Hex as (_ & Hw & _).
  - intros (a & b & Ha & _ & _ & _ & Hwr). rewrite Forall_forall in Hw. rewrite (Hw a Ha) in Hwr. done.
  - unfold goroutines. apply Forall_fmap. eapply Forall_impl; [exact Hc|]. intros c Hcc.
    by apply unchanged_quiet.
Qed.

(** the first entry a changing call misses *)
Lemma first_miss (σ : store) l :
  store_ok σ → (∀ p v, (p, v) ∈ l → σ p v = Some (prob_key v)) ∨
  ∃ l1 p v l2, l = l1 ++ (p, v) :: l2 ∧ σ p v = None ∧ ∀ q w, (q, w) ∈ l1 → σ q w = Some (prob_key w).
Proof.
  intros Hσ. induction l as [|[p v] l IH].
  - left. intros p v H%elem_of_nil. done.
  - destruct (σ p v) as [k|] eqn:Hk.
    + pose proof (Hσ _ _ _ Hk) as ->. destruct IH as [IH|(l1 & q & w & l2 & -> & Hq & Hl)].
      * left. intros q w [Heq|H]%elem_of_cons; [by simplify_eq|by apply IH].
      * right. exists ((p, v) :: l1), q, w, l2. split; [done|]. split; [done|].
        intros q' w' [Heq|H]%elem_of_cons; [by simplify_eq|by apply Hl].
    + right. exists [], p, v, l. split; [done|]. split; [done|]. intros q w H%elem_of_nil. done.
Qed.

(** two goroutines making the same call, one of them missing an entry *)
Lemma changing_race E e c :
  msim same_tree e e → (evaluate E c.1 e c.2).2 ≠ e → ¬ race_free E e [c; c].
Proof.
  intros He Hc Hrf. destruct (evaluate E c.1 e c.2) as [[o r'] e'] eqn:Hev. simpl in Hc.
  pose proof (evaluate_step E c.1 e c.2 He) as Hstep. rewrite Hev in Hstep. simpl in Hstep.
  destruct (evaluate_memo E c.1 [] e c.2 o r' e' He Hev) as (l & Hm & Hf & _).
  destruct (first_miss (caches e) l (caches_ok e He)) as [Hall|(l1 & p & v & l2 & -> & Hp & Hl)].
  { apply Hc. symmetry. apply msim_caches; [done|]. intros q v. rewrite Hf. simpl.
    destruct (decide ((q, v) ∈ l)) as [Hin|Hin]; [rewrite entry_in by done; by apply Hall|by rewrite entry_out]. }
  set (m := evaluate_steps E c.1 [] e c.2) in *.
  assert (goroutines E e [c; c] = [m; m]) as Hg by done.
  destruct (exec_reads (o, r') (caches e) [m; m] 0 l1 _ m eq_refl Hm Hl) as (tr1 & m1 & He1 & Hm1).
  simpl in He1. destruct (exec_reads (o, r') (caches e) [m1; m] 1 l1 _ m eq_refl Hm Hl) as (tr2 & m2 & He2 & Hm2).
  simpl in He2. inversion Hm1 as [|? ? k ? k' E1 E2 E3]; subst. inversion Hm2 as [|? ? k2 ? k2' F1 F2 F3]; subst.
  eapply (Hrf (tr1 ++ tr2 ++ [Access 0 p false; Access 1 p false; Access 0 p true])).
  - eapply exec_app; [rewrite Hg; exact He1|]. eapply exec_app; [exact He2|].
    eapply exec_cons; [by apply (step_get _ _ 0)|]. simpl. rewrite Hp, E1.
    eapply exec_cons; [by apply (step_get _ _ 1)|]. simpl. rewrite Hp, F1.
    eapply exec_cons; [by apply (step_put _ _ 0)|]. simpl. apply exec_nil.
  - exists (Access 0 p true), (Access 1 p false). set_solver.
Qed.

(** caches only grow, so a call made before misses nothing *)
Lemma caches_after_mono E calls e p v k :
  msim same_tree e e → caches e p v = Some k → caches (after E calls e) p v = Some k.
Proof.
  intros He. assert (store_ok (caches e)) as Hok by by apply caches_ok. intros Hk. pose proof (Hok _ _ _ Hk) as ->.
  clear Hok. revert e He Hk. induction calls as [|c calls IH]; intros e He Hk; [done|]. cbn.
  destruct (evaluate E c.1 e c.2) as [[o r'] e'] eqn:Hev.
  pose proof (evaluate_step E c.1 e c.2 He) as Hstep. rewrite Hev in Hstep. simpl in Hstep.
  destruct (evaluate_memo E c.1 [] e c.2 o r' e' He Hev) as (l & _ & Hf & _).
  apply IH; [|].
  - simpl. assert (∀ a b, same_tree a b → same_tree b a) as Hsym by (unfold same_tree; naive_solver).
    eapply msim_trans; [apply same_tree_trans| |exact Hstep].
    clear -Hstep Hsym. revert e Hstep.
    intros e. revert e'. induction e as [t|x|h sm IH] using emodel_rect'; intros e2 He;
      inversion He as [? t2 Ht|?|? ? sm2 Hsm]; subst; constructor; [by apply Hsym|].
    clear He. induction Hsm; constructor; apply Forall_cons in IH as [IH1 IH2]; auto.
  - simpl. specialize (Hf p v). simpl in Hf. rewrite Hf, Hk. apply (entry_some _ (p, v)).
Qed.

(** a call made before changes nothing *)
Lemma replay_unchanged E dd td d e0 td' hist c :
  new_model E dd td d = (Ok e0, td') → c ∈ hist →
  (evaluate E c.1 (after E hist e0) c.2).2 = after E hist e0.
Proof.
  intros Hn (h1 & h2 & ->)%elem_of_list_split.
  pose proof (after_msim E dd td d e0 td' h1 Hn) as H1.
  pose proof (after_msim E dd td d e0 td' (h1 ++ c :: h2) Hn) as H2.
  assert (after E (h1 ++ c :: h2) e0 = after E h2 (evaluate E c.1 (after E h1 e0) c.2).2) as Ha
    by (unfold after; by rewrite foldl_app).
  set (e1 := after E h1 e0) in *. set (e := after E (h1 ++ c :: h2) e0) in *.
  destruct (evaluate E c.1 e1 c.2) as [[o1 r1] e1'] eqn:Hev1. simpl in Ha.
  destruct (evaluate E c.1 e c.2) as [[o r'] e'] eqn:Hev. simpl.
  assert (msim same_tree e1 e) as H12.
  { assert (e = after E (c :: h2) e1) as -> by (unfold e, e1, after; by rewrite foldl_app).
    by apply after_step. }
  pose proof (evaluate_step E c.1 e c.2 H2) as Hs. rewrite Hev in Hs. simpl in Hs.
  pose proof (evaluate_step E c.1 e1 c.2 H1) as Hs1. rewrite Hev1 in Hs1. simpl in Hs1.
  destruct (evaluate_memo2 E c.1 [] e1 e c.2 o1 r1 e1' H12 Hev1) as (l1 & _ & Hm1 & Hf1 & _).
  destruct (evaluate_memo E c.1 [] e c.2 o r' e' H2 Hev) as (l & Hm & Hf & _).
  destruct (memo_unique _ _ _ _ _ Hm1 Hm) as [_ ->].
  symmetry. apply msim_caches; [done|]. intros q v. rewrite Hf. simpl.
  destruct (decide ((q, v) ∈ l)) as [Hin|Hin]; [|by rewrite entry_out].
  rewrite entry_in by done. simpl. rewrite Ha. apply caches_after_mono.
  - apply (msim_right_refl e1). done.
  - specialize (Hf1 q v). simpl in Hf1. rewrite Hf1. by apply entry_in.
Qed.

(** without iteration orders, the ticket of a call does not matter *)
Lemma ticket_free E dd td d e0 td' hist tk1 tk2 r :
  order_free_doc d → new_model E dd td d = (Ok e0, td') →
  evaluate E tk1 (after E hist e0) r = evaluate E tk2 (after E hist e0) r.
Proof.
  intros Hd Hn. assert (msim (λ a b, a = b ∧ keys_ok (et_outkeys a) ∧ order_free (tm_strategy (et_model a)))
    (after E hist e0) (after E hist e0)) as Hm.
  { pose proof (after_msim E dd td d e0 td' hist Hn) as H1.
    pose proof (after_step E hist e0 (new_model_msim _ _ _ _ _ _ Hn)) as H2.
    apply new_model_all in Hn.
    assert (msim (λ a b, order_free (tm_strategy (et_model a))) e0 e0) as H0.
    { eapply all_model_msim; [|exact Hn]. intros te (td1 & t & Ht & Hte).
      destruct Hte as (Hv & Hc & Hk & _ & _ & Hst & _).
      unfold order_free_doc in Hd. rewrite Forall_forall in Hd. specialize (Hd t Ht). by rewrite Hst. }
    clear -H0 H2. revert H0 H2. generalize (after E hist e0) as e. induction e0 as [t|x|h sm IH] using emodel_rect';
      intros e H0 H2; inversion H2 as [? t2 Ht|?|? ? sm2 Hsm]; subst; constructor; inversion H0 as [? ? Ho| |? ? ? Hsm0]; subst.
    - destruct Ht as (_ & Hk & _ & _ & _ & Hmm & _). split; [done|]. split; [done|]. by rewrite <- Hmm.
    - clear H0 H2. induction Hsm; constructor; apply Forall_cons in IH as [IH1 IH2]; inversion Hsm0; subst; auto. }
  destruct (evaluate_sim E E (same_world_refl E) (λ a b, a = b ∧ keys_ok (et_outkeys a) ∧ order_free (tm_strategy (et_model a)))
    (λ _ _, True)) with (tk1 := tk1) (tk2 := tk2) (e1 := after E hist e0) (e2 := after E hist e0) (r := r)
    as [H1 H2]; [done| |done|done|].
  - intros k1 k2 t ? r1 _ (<- & Hk & Ho).
    assert (tree_evaluate E k1 t r1 = tree_evaluate E k2 t r1) as Heq.
    { unfold tree_evaluate. destruct (negb _); [done|]. destruct (negb _); [done|].
      destruct (handle_input _ _ _) as [[u|x|x] r2]; [|done..].
      by rewrite (node_evaluate_order_free E E k1 k2 _ _ _ _ (same_world_refl E) Ho). }
    rewrite Heq. split; [done|]. split; [done|].
    pose proof (tree_evaluate_step E k2 t r1 Hk) as (_ & Hk' & _ & _ & _ & Hmm & _). split; [done|]. by rewrite <- Hmm.
  - destruct (evaluate E tk1 _ r) as [[o1 r1] e1], (evaluate E tk2 _ r) as [[o2 r2] e2]. simpl in *. simplify_eq.
    f_equal. clear -H2. revert e2 H2. induction e1 as [t|x|h sm IH] using emodel_rect'; intros e2 H2;
      inversion H2 as [? t2 Ht|?|? ? sm2 Hsm]; subst; f_equal; [by destruct Ht|].
    clear H2. induction Hsm; [done|]. apply Forall_cons in IH as [IH1 IH2]. f_equal; auto.
Qed.

(** models without classification trees have nothing to cache *)
Definition no_class (e : emodel) : Prop :=
  msim (λ a b, a = b ∧ tm_function (et_model a) ≠ "classification") e e.

Lemma no_class_unchanged E tk e r : no_class e → (evaluate E tk e r).2 = e.
Proof.
  revert tk r. induction e as [t|x|h sm IH] using emodel_rect'; intros tk r He.
  - inversion He as [? ? [_ Ht]| |]; subst. cbn [evaluate].
    assert ((tree_evaluate E tk t r).2 = t) as H.
    { unfold tree_evaluate. destruct (negb _); [done|]. destruct (negb _); [done|].
      destruct (handle_input _ _ _) as [[u|x|x] r1]; [|done..].
      destruct (node_evaluate _ _ _ _ _ _) as [[s [| |]]|x|x]; try done.
      unfold tree_output. apply String.eqb_neq in Ht as ->. by destruct (_ =s "regression"), t. }
    destruct (tree_evaluate E tk t r) as [[o r'] t']. simpl in *. by subst.
  - done.
  - inversion He as [| |? ? ? Hsm]; subst. cbn [evaluate].
    destruct (negb (em_validated h)); [done|]. destruct (negb (em_compiled h)); [done|].
    destruct (impute _ _ _ _) as [r1|x|p]; [|done..].
    destruct (handle_input _ _ _) as [[u|x|p] r2]; [|done..].
    pose proof (run_method_step E (@eq emodel) (λ s, eq_refl) (λ i s r, evaluate E (5 :: i :: tk) s r) tk h sm r2) as Hrun.
    feed specialize Hrun.
    { apply Forall_lookup. intros j s Hj i r'. rewrite Forall_lookup in IH. symmetry. apply (IH _ _ Hj).
      exact (Forall2_lookup_lr _ _ _ _ _ _ Hsm Hj Hj). }
    destruct (run_method _ _ _ _ _ _) as [[o r3] sm']. simpl in *. f_equal. symmetry.
    clear -Hrun. by induction Hrun; subst.
Qed.

Lemma new_model_no_class E dd td d e td' :
  new_model E dd td d = (Ok e, td') → Forall (λ t, tm_function t ≠ "classification") (doc_trees d) → no_class e.
Proof.
  intros Hn%new_model_all Hd. eapply all_model_msim; [|exact Hn]. intros te (td1 & t & Ht & Hte).
  split; [done|]. destruct Hte as (_ & _ & _ & _ & Hfn & _). rewrite Forall_forall in Hd. specialize (Hd t Ht).
  by rewrite Hfn.
Qed.

Lemma no_class_after E calls e : no_class e → after E calls e = e.
Proof.
  intros He. unfold after. induction calls as [|c calls IH]; [done|]. cbn [foldl]. by rewrite no_class_unchanged.
Qed.

(** whatever the interleaving, a goroutine that finishes returns what its call
    alone would *)
Lemma exec_answers E e calls tr σ ths i c a :
  msim same_tree e e → exec (caches e) (goroutines E e calls) tr σ ths →
  calls !! i = Some c → ths !! i = Some (Ret a) → a = (evaluate E c.1 e c.2).1.
Proof.
  intros He Hex Hc Ha.
  destruct (exec_pool ((λ c, (evaluate E c.1 e c.2).1) <$> calls) _ _ _ _ _ Hex) as [_ Hp].
  - by apply caches_ok.
  - unfold pool, goroutines. apply Forall2_fmap. apply Forall2_same_length_lookup. split; [done|].
    intros j x y Hx Hy. simplify_eq. destruct (evaluate E x.1 e x.2) as [[o r'] e'] eqn:Hev.
    destruct (evaluate_memo E x.1 [] e x.2 o r' e' He Hev) as (l & Hm & _). exists l. by apply run_memo.
  - destruct (Forall2_lookup_r _ _ _ _ _ Hp Ha) as (b & Hb & l & Hr).
    rewrite list_lookup_fmap, Hc in Hb. simpl in Hb. simplify_eq.
    inversion Hr as [? ? Hm|]; subst. by inversion Hm.
Qed.

(** every goroutine can run to its end, wherever the others stand *)
Lemma can_finish {A} σ (ths : list (prog A)) i m :
  ths !! i = Some m → ∃ tr σ' a, exec σ ths tr σ' (<[i := Ret a]> ths).
Proof.
  revert σ ths. induction m as [a|p v k IH|p v key k IH]; intros σ ths Hi.
  - exists [], σ, a. rewrite list_insert_id by done. constructor.
  - destruct (IH (σ p v) σ (<[i := k (σ p v)]> ths)) as (tr & σ' & a & Hex).
    { apply list_lookup_insert. by eapply lookup_lt_Some. }
    rewrite list_insert_insert in Hex. eexists _, σ', a. econstructor; [by apply step_get|done].
  - destruct (IH (store_put σ p v key) (<[i := k]> ths)) as (tr & σ' & a & Hex).
    { apply list_lookup_insert. by eapply lookup_lt_Some. }
    rewrite list_insert_insert in Hex. eexists _, σ', a. econstructor; [by apply step_put|done].
Qed.
