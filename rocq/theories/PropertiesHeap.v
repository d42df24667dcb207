(** Property C126: a returned row is the caller's own. *)
From Verif Require Import Base Strconv Value Doc Expr Pred Tree Regression Model Lib ProofsWhole ProofsSim Heap ProofsHeap
  SpecHeap GoExt Samples PropertiesModel.

Definition sound (s : session) : Prop := ∀ x, live (in_memory s) (var s x).
Lemma var_assign s x q z : var (assign s x q) z = if decide (x = z) then q else var s z.
Proof.
  unfold var, assign. simpl. destruct (decide (x = z)) as [<-|Hn]; [by rewrite lookup_insert|by rewrite lookup_insert_ne].
Qed.

(** One statement changes no row but the one it is about, and the only rows it hands
    out are rows made by it and rows it was given. *)
Definition about (s : session) (a : action) (l : nat) : Prop :=
  match a with
  | ANew _ | AShare _ _ => False
  | ASet x _ _ | ADelete x _ => var s x = Some l
  | AEval _ _ y _ => var s y = Some l
  end.
Lemma act_memory E s a : sound s →
  (∀ l, is_Some (in_memory s !! l) → is_Some (in_memory (act E s a) !! l)) ∧
  (∀ l, is_Some (in_memory s !! l) → ¬ about s a l → in_memory (act E s a) !! l = in_memory s !! l).
Proof.
  intros Hs. destruct a as [x|x y|x k v|x k|x i y tk]; cbn [act about mentions].
  - destruct (make_map (in_memory s)) as [l h] eqn:Hm. simpl. pose proof (make_later None _ _ _ Hm) as [A B].
    split; [exact A|]. intros l' Hl' _. by apply B.
  - by split.
  - destruct (var s x) as [lx|] eqn:Hx; simpl; [|by split]. split; [intros l Hl; by rewrite put_some|].
    intros l _ Hn. apply put_other. naive_solver.
  - destruct (var s x) as [lx|] eqn:Hx; simpl; [|by split]. split.
    + intros l Hl. destruct (decide (lx = l)) as [<-|Hn]; [|by rewrite lookup_alter_ne].
      rewrite lookup_alter. by rewrite fmap_is_Some.
    + intros l _ Hn. apply lookup_alter_ne. naive_solver.
  - destruct (evaluators s !! i) as [e|]; simpl; [|by split].
    pose proof (h_evaluate_spec E e tk (var s y) (in_memory s) (Hs y)) as H.
    destruct (evaluate E tk e _) as [[o r] e1]. destruct (h_evaluate E tk e (var s y) (in_memory s)) as [[[q o'] h] e2].
    destruct H as (_ & [A B] & _). destruct o'; simpl; split; auto.
Qed.
Lemma act_vars E s a z l : sound s → var (act E s a) z = Some l →
  var s z = Some l ∨ (mentions a z ∧ ((in_memory s !! l = None ∧ is_Some (in_memory (act E s a) !! l)) ∨
                                      ∃ x, a = AShare z x ∧ var s x = Some l)).
Proof.
  intros Hs. destruct a as [x|x y|x k v|x k|x i y tk]; cbn [act about mentions].
  - destruct (make_map (in_memory s)) as [l' h] eqn:Hm. rewrite var_assign. destruct (make_spec _ _ _ Hm) as [Hl ->].
    destruct (decide (x = z)) as [<-|Hn]; [|by left]. intros [= ->]. right. split; [done|]. left. split; [done|].
    simpl. rewrite lookup_insert. by eexists.
  - rewrite var_assign. destruct (decide (x = z)) as [<-|Hn]; [|by left]. intros H. right. split; [by left|]. right. by exists y.
  - destruct (store (in_memory s) (var s x) k v); by left.
  - destruct (var s x); by left.
  - destruct (evaluators s !! i) as [e|]; [|by left].
    pose proof (h_evaluate_spec E e tk (var s y) (in_memory s) (Hs y)) as H.
    destruct (evaluate E tk e _) as [[o r] e1]. destruct (h_evaluate E tk e (var s y) (in_memory s)) as [[[q o'] h] e2].
    destruct H as (_ & _ & _ & Hq & _).
    assert (var (assign (Session h (vars s) (<[i:=e2]> (evaluators s))) x q) z = Some l →
      var s z = Some l ∨ (x = z ∨ y = z) ∧ ((in_memory s !! l = None ∧ is_Some (h !! l)) ∨ (∃ x0, AEval x i y tk = AShare z x0 ∧ var s x0 = Some l))) as H.
    { rewrite var_assign. destruct (decide (x = z)) as [<-|Hn]; [|by left]. intros ->. right. split; [by left|]. left. by apply Hq. }
    destruct o'; [exact H|exact H|by left].
Qed.
Lemma act_sound E s a : sound s → sound (act E s a).
Proof.
  intros Hs z l Hz. destruct (act_memory E s a Hs) as [A _].
  destruct (act_vars E s a z l Hs Hz) as [H|[_ [[_ H]|(x & _ & H)]]]; [by apply A, (Hs z)|done|by apply A, (Hs x)].
Qed.
Lemma acts_sound E l s : sound s → sound (acts E s l).
Proof. revert s. induction l as [|a l IH]; intros s Hs; [done|]. by apply IH, act_sound. Qed.
Lemma start_sound evs : sound (start evs).
Proof. intros x l. unfold var, start. simpl. by rewrite lookup_empty. Qed.

(** The evaluators of a program have seen some calls. *)
Lemma acts_evaluators E l : ∀ s, sound s → ∀ i e, evaluators s !! i = Some e →
  ∃ calls, evaluators (acts E s l) !! i = Some (after E calls e).
Proof.
  induction l as [|a l IH]; intros s Hs i e He; [by exists []|].
  assert (∃ calls, evaluators (act E s a) !! i = Some (after E calls e)) as [c1 H1].
  { destruct a as [x|x y|x k v|x k|x j y tk]; cbn [act].
    - destruct (make_map (in_memory s)). by exists [].
    - by exists [].
    - destruct (store _ _ _ _); by exists [].
    - destruct (var s x); by exists [].
    - destruct (evaluators s !! j) as [e1|] eqn:Hj; [|by exists []].
      pose proof (h_evaluate_spec E e1 tk (var s y) (in_memory s) (Hs y)) as H.
      destruct (evaluate E tk e1 (deref (in_memory s) (var s y))) as [[o r] e2] eqn:Hev.
      destruct (h_evaluate E tk e1 (var s y) (in_memory s)) as [[[q o'] h] e3]. destruct H as (-> & _).
      assert (∃ calls, <[j:=e2]> (evaluators s) !! i = Some (after E calls e)) as H.
      { destruct (decide (j = i)) as [->|Hn]; [|rewrite list_lookup_insert_ne by done; by exists []].
        rewrite list_lookup_insert by (by eapply lookup_lt_Some). rewrite Hj in He. injection He as ->.
        exists [(tk, deref (in_memory s) (var s y))]. unfold after. simpl. by rewrite Hev. }
      by destruct o'. }
  destruct (IH _ (act_sound E s a Hs) i _ H1) as [c2 H2]. exists (c1 ++ c2). unfold acts in *. simpl. rewrite H2. f_equal.
  unfold after. by rewrite foldl_app.
Qed.

(** *** C126.  Evaluate in a program: what the caller finds is decided by the contents
    of the row passed, whatever happened before, and every row that is not the row
    passed stays as it was. *)
Theorem C126_answer E evs before x i y tk e :
  from_documents E evs → evs !! i = Some e →
  let s := acts E (start evs) before in
  let s' := act E s (AEval x i y tk) in
  let '(o, r) := (evaluate E tk e (contents s y)).1 in
  (match o with
   | Ok out => reports E s i y tk = Some (Ok tt) ∧ contents s' x = out
   | Err err => reports E s i y tk = Some (Err err)
   | Panic p => reports E s i y tk = Some (Panic p)
   end) ∧
  ∀ z, z ≠ x → contents s' z = if decide (var s z = var s y) then r else contents s z.
Proof.
  intros Hd Hi s s'. assert (sound s) as Hs by apply acts_sound, start_sound.
  destruct (acts_evaluators E before (start evs) (start_sound evs) i e Hi) as [calls Hc]. fold s in Hc.
  apply (Forall_lookup_1 _ _ _ _ Hd) in Hi as (dd & td & d & td' & Hn).
  rewrite <- (history_independent E dd td d e td' calls tk (contents s y) Hn). unfold contents at 1.
  pose proof (h_evaluate_spec E (after E calls e) tk (var s y) (in_memory s) (Hs y)) as H.
  unfold reports. subst s'. simpl. rewrite Hc. simpl.
  destruct (evaluate E tk (after E calls e) (deref (in_memory s) (var s y))) as [[o r] e1].
  destruct (h_evaluate E tk (after E calls e) (var s y) (in_memory s)) as [[[q o'] h] e2]. simpl.
  destruct H as (_ & [_ Hl] & Hr & Hq & Ho).
  assert (∀ z, deref h (var s z) = if decide (var s z = var s y) then r else contents s z) as Hz.
  { intros z. destruct (decide (var s z = var s y)) as [->|Hne]; [done|]. unfold contents.
    destruct (var s z) as [l|] eqn:Hv; [|done]. apply Hl; [by apply (Hs z)|]. congruence. }
  assert (∀ z q', z ≠ x → deref h (var (assign (Session h (vars s) (<[i := e2]> (evaluators s))) x q') z) =
    if decide (var s z = var s y) then r else contents s z) as Hz'.
  { intros z q' Hne. rewrite var_assign. rewrite decide_False by done. apply Hz. }
  destruct o as [out|err|p].
  - destruct Ho as (-> & Ho & _). split; [|intros z; apply Hz']. split; [done|]. unfold contents. rewrite var_assign.
    by rewrite decide_True.
  - rewrite Ho. split; [done|]. intros z; apply Hz'.
  - rewrite Ho. split; [done|]. intros z _. apply Hz.
Qed.
Print Assumptions C126_answer.

Lemma act_keeps_var E s a x : ¬ mentions a x → var (act E s a) x = var s x.
Proof.
  destruct a as [w|w w'|w k v|w k|w i w' tk]; cbn [act mentions]; intros Ha.
  - destruct (make_map (in_memory s)). rewrite var_assign. by rewrite decide_False.
  - rewrite var_assign. by rewrite decide_False by naive_solver.
  - by destruct (store _ _ _ _).
  - by destruct (var s w).
  - destruct (evaluators s !! i) as [e|]; [|done].
    destruct (h_evaluate E tk e (var s w') (in_memory s)) as [[[q o'] h] e2].
    assert (var (assign (Session h (vars s) (<[i:=e2]> (evaluators s))) w q) x = var s x) as H.
    { rewrite var_assign. by rewrite decide_False by naive_solver. }
    by destruct o'.
Qed.
Lemma acts_keep_var E x rest : ∀ s, Forall (λ a, ¬ mentions a x) rest → var (acts E s rest) x = var s x.
Proof.
  induction rest as [|a rest IH]; intros s H; [done|]. apply Forall_cons in H as [Ha H].
  unfold acts in *. simpl. rewrite IH by done. by apply act_keeps_var.
Qed.

(** no other variable holds the row at [l] *)
Definition private (s : session) (x : string) (l : nat) : Prop := ∀ z, z ≠ x → var s z ≠ Some l.
Lemma private_acts E x l rest : ∀ s, sound s → is_Some (in_memory s !! l) → private s x l → Forall (λ a, ¬ mentions a x) rest →
  private (acts E s rest) x l ∧ in_memory (acts E s rest) !! l = in_memory s !! l.
Proof.
  induction rest as [|a rest IH]; intros s Hs Hl Hz Hm; [done|].
  apply Forall_cons in Hm as [Ha Hm]. pose proof (act_memory E s a Hs) as [_ Hk].
  assert (in_memory (act E s a) !! l = in_memory s !! l) as Hkeep.
  { apply Hk; [done|]. intros Hab. destruct a as [?|? ?|w ? ?|w ?|? ? w ?]; simpl in *; [done..| | |];
      apply (Hz w); try done; naive_solver. }
  destruct (IH (act E s a)) as [H1 H2]; [by apply act_sound|by rewrite Hkeep| |done|].
  - intros z Hne Hv. destruct (act_vars E s a z l Hs Hv) as [H|[_ [[H _]|(w & -> & H)]]].
    + by apply (Hz z).
    + rewrite H in Hl. by destruct Hl.
    + apply (Hz w); [|done]. intros ->. apply Ha. by right.
  - split; [exact H1|]. unfold acts in *. simpl. by rewrite H2.
Qed.
Lemma eval_private E s x i y tk o l : sound s → reports E s i y tk = Some o → (∀ p, o ≠ Panic p) →
  var (act E s (AEval x i y tk)) x = Some l →
  is_Some (in_memory (act E s (AEval x i y tk)) !! l) ∧ private (act E s (AEval x i y tk)) x l.
Proof.
  intros Hs. unfold reports. simpl. destruct (evaluators s !! i) as [e|]; [|done]. simpl.
  pose proof (h_evaluate_spec E e tk (var s y) (in_memory s) (Hs y)) as H.
  destruct (evaluate E tk e _) as [[o1 r] e1]. destruct (h_evaluate E tk e (var s y) (in_memory s)) as [[[q o'] h] e2].
  destruct H as (_ & [A B] & _ & Hq & _). simpl. intros [= ->] Hp.
  assert (var (assign (Session h (vars s) (<[i:=e2]> (evaluators s))) x q) x = Some l →
    is_Some (h !! l) ∧ private (assign (Session h (vars s) (<[i:=e2]> (evaluators s))) x q) x l) as H.
  { rewrite var_assign, decide_True by done. intros ->. destruct (Hq l eq_refl) as [Hn Hl]. split; [done|].
    intros z Hne. rewrite var_assign, decide_False by done. intros Hv. destruct (Hs z l Hv) as [? H]. congruence. }
  destruct o as [|err|p]; [exact H|exact H|]. by destruct (Hp p).
Qed.

(** *** The row a variable got from Evaluate belongs to that variable: until the
    program mentions it, no statement changes it and no other variable comes to hold it;
    so what the program then writes to it is seen through no other variable. *)
Theorem C126_own E evs before x i y tk o rest :
  let s := acts E (start evs) before in
  let s1 := act E s (AEval x i y tk) in
  let s2 := acts E s1 rest in
  reports E s i y tk = Some o → (∀ p, o ≠ Panic p) → Forall (λ a, ¬ mentions a x) rest →
  contents s2 x = contents s1 x ∧
  (∀ z, z ≠ x → contents s2 x ≠ None → var s2 z ≠ var s2 x) ∧
  ∀ z, z ≠ x →
    (∀ k v, contents (act E s2 (ASet x k v)) z = contents s2 z) ∧
    (∀ k, contents (act E s2 (ADelete x k)) z = contents s2 z) ∧
    (∀ w j tk', w ≠ z → contents (act E s2 (AEval w j x tk')) z = contents s2 z).
Proof.
  intros s s1 s2 Ho Hp Hr. assert (sound s) as Hs by apply acts_sound, start_sound.
  assert (sound s1) as Hs1 by by apply act_sound. assert (sound s2) as Hs2 by by apply acts_sound.
  pose proof (acts_keep_var E x rest s1 Hr) as Hx. fold s2 in Hx.
  assert (∀ a z, ¬ mentions a z ∨ (∃ w j tk', a = AEval w j x tk' ∧ w ≠ z) → (∀ l, var s2 z = Some l → ¬ about s2 a l) →
    contents (act E s2 a) z = contents s2 z) as Hout.
  { intros a z Ha Hl. assert (var (act E s2 a) z = var s2 z) as Hv.
    { destruct Ha as [Ha|(w & j & tk' & -> & Hw)]; [by apply act_keeps_var|]. simpl. destruct (evaluators s2 !! j); [|done].
      destruct (h_evaluate _ _ _ _ _) as [[[q o'] h] e2].
      assert (var (assign (Session h (vars s2) (<[j:=e2]> (evaluators s2))) w q) z = var s2 z) as H
        by (rewrite var_assign; by rewrite decide_False). by destruct o'. }
    unfold contents. rewrite Hv. destruct (var s2 z) as [l|] eqn:Hz; [|done].
    destruct (act_memory E s2 a Hs2) as [_ H]. apply H; [by apply (Hs2 z)|]. by apply Hl. }
  destruct (var s1 x) as [l|] eqn:Hv.
  - destruct (eval_private E s x i y tk o l Hs Ho Hp Hv) as [Hl Hpr]. fold s1 in Hl, Hpr.
    destruct (private_acts E x l rest s1 Hs1 Hl Hpr Hr) as [Hpr2 Hk]. fold s2 in Hpr2, Hk.
    split; [unfold contents; rewrite Hx, Hv; exact Hk|]. split; [intros z Hne _; rewrite Hx; by apply Hpr2|].
    intros z Hne. pose proof (Hpr2 z Hne) as Hz.
    split; [|split].
    + intros k v. apply Hout; [left; simpl; congruence|]. simpl. intros l'. congruence.
    + intros k. apply Hout; [left; simpl; congruence|]. simpl. intros l'. congruence.
    + intros w j tk' Hw. apply Hout; [right; by exists w, j, tk'|]. simpl. intros l'. congruence.
  - split; [unfold contents; by rewrite Hx, Hv|].
    split; [intros z _ Hc; unfold contents in Hc; by rewrite Hx in Hc|].
    intros z Hne. split; [|split].
    + intros k v. apply Hout; [left; simpl; congruence|]. simpl. intros l'. congruence.
    + intros k. apply Hout; [left; simpl; congruence|]. simpl. intros l'. congruence.
    + intros w j tk' Hw. apply Hout; [right; by exists w, j, tk'|]. simpl. intros l'. congruence.
Qed.
Print Assumptions C126_own.

(** A chain evaluates two flats; the second call is given the same row as the first.
    The answers are two rows; the chain leaves the first member's score in the row it
    was given, and emptying one answer leaves the other alone. *)
Definition chain_model : emodel := built go_ext score_dd (DMining chain_header chain_segs).
Definition flats : list action :=
  [ANew "flat"; ASet "flat" "area" (GF64 (fl "50")); AEval "first" 0 "flat" []].
Definition more : list action :=
  [AShare "same" "flat"; ASet "same" "area" (GF64 (fl "80")); AEval "second" 0 "flat" []; ADelete "second" "score"].
Example C126_example :
  from_documents go_ext [chain_model] ∧
  reports go_ext (acts go_ext (start [chain_model]) (take 2 flats)) 0 "flat" [] = Some (Ok tt) ∧
  Forall (λ a, ¬ mentions a "first") more ∧
  let s1 := acts go_ext (start [chain_model]) flats in let s2 := acts go_ext s1 more in
  dump (contents s1 "flat") = dump (Some {["area" := GF64 (fl "50"); "score" := GF64 (fl "50.5")]}) ∧
  dump (contents s1 "first") = dump (Some {["score" := GF64 (fl "7")]}) ∧
  dump (contents s2 "first") = dump (Some {["score" := GF64 (fl "7")]}) ∧
  dump (contents s2 "second") = dump (Some ∅) ∧
  dump (contents s2 "flat") = dump (Some {["area" := GF64 (fl "80"); "score" := GF64 (fl "200")]}) ∧
  var s2 "same" = var s2 "flat" ∧ var s2 "first" ≠ None.
Proof.
  split; [apply Forall_singleton; exists score_dd, [], (DMining chain_header chain_segs), (new_model go_ext score_dd [] (DMining chain_header chain_segs)).2; apply built_ok; by vm_compute|].
  split; [by vm_compute|]. split; [repeat (apply Forall_cons; split; [simpl; intuition congruence|]); by apply Forall_nil|].
  repeat split; by vm_compute.
Qed.
