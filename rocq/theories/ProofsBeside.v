(** Evaluate as a program that reads shared memory: run alone it is [evaluate], and it
    reads a literal exactly when it tests a simple predicate. *)
From Verif Require Import Base Strconv Value Doc Expr Pred Tree Regression Model Lib SpecTree SpecConstruct ProofsConstruct
  ProofsEval ProofsWhole ProofsSim ProofsHistory Race Build SpecBuild ProofsBuild Beside SpecBeside.

Section beside.
(** the number of the document *)
Context (D : nat).

Definition literal (x : place) : Prop := match x with AtLiteral n _ _ _ => n = D | _ => False end.
Definition quiet {A} : bprog A → Prop := within (λ x w, w = false ∧ (literal x ∨ ∃ p, x = AtMethod D p)).

(** The program leaves the dictionary alone, returns [a] and reads a literal exactly
    when [P] holds. *)
Definition does {A} (m : bprog A) (a : A) (P : Prop) : Prop :=
  (∀ td, brun td m = (a, td)) ∧ quiet m ∧ ((∃ x, literal x ∧ (x, false) ∈ btrace [] m) ↔ P).

Lemma does_iff {A} (m : bprog A) a P Q : does m a P → (P ↔ Q) → does m a Q.
Proof. intros (H1 & H2 & H3) H. split; [done|]. split; [done|]. by rewrite H3. Qed.
Lemma does_ret {A} (a : A) : does (BRet a) a False.
Proof. split; [done|]. split; [done|]. split; [|done]. intros (x & _ & H). by apply elem_of_nil in H. Qed.
Lemma does_bind {A B} (m : bprog A) (f : A → bprog B) a P b Q :
  does m a P → does (f a) b Q → (∀ a', quiet (f a')) → does (bbind m f) b (P ∨ Q).
Proof.
  intros (H1 & H2 & H3) (G1 & G2 & G3) Hq. split; [|split].
  - intros td. rewrite brun_bind, H1. simpl. apply G1.
  - by apply within_bind.
  - rewrite btrace_bind, H1. simpl. rewrite <- H3, <- G3. set_solver.
Qed.
Lemma does_read {A} x (m : bprog A) a P : literal x → does m a P → does (BTouch false x m) a True.
Proof.
  intros Hx (H1 & H2 & _). split; [done|]. split; [split; [by auto|done]|]. split; [done|]. intros _. exists x. split; [done|]. by left.
Qed.
Lemma does_method {A} p (m : bprog A) a P : does m a P → does (BTouch false (AtMethod D p) m) a P.
Proof.
  intros (H1 & H2 & H3). split; [done|]. split; [split; [by eauto|done]|]. rewrite <- H3. simpl.
  split; intros (x & Hx & Hin); exists x; (split; [done|]); [|by right].
  apply elem_of_cons in Hin as [[= ->]|Hin]; [done|]. done.
Qed.
Lemma quiet_ret {A} (a : A) : quiet (BRet a).
Proof. done. Qed.

(** ** Reaching an element of a list *)

Definition reached {A} (R P : A → Prop) (l : list A) : Prop :=
  ∃ before a after, l = before ++ a :: after ∧ Forall R before ∧ P a.
Lemma reached_nil {A} (R P : A → Prop) : reached R P [] ↔ False.
Proof. split; [|done]. intros ([|? ?] & ? & ? & H & _); done. Qed.
Lemma reached_cons {A} (R P : A → Prop) a l : reached R P (a :: l) ↔ P a ∨ R a ∧ reached R P l.
Proof.
  split.
  - intros ([|b before] & a' & after & [= -> ->] & HR & HP); [by left|]. right.
    apply Forall_cons in HR as [HRb HR]. split; [done|]. by exists before, a', after.
  - intros [HP|(HR & before & a' & after & -> & HF & HP)].
    + exists [], a, l. split; [done|]. split; [constructor|done].
    + exists (a :: before), a', after. split; [done|]. split; [by constructor|done].
Qed.

(** ** Predicates *)

Lemma compound_does (ev : nat → predicate → bprog (res presult)) (g : predicate → res presult) (P : predicate → Prop) b n i l tc uc :
  (∀ i p, p ∈ l → does (ev i p) (g p) (P p)) →
  does (compound_reads ev b n i l tc uc) (compound_loop g b n l tc uc)
    (reached (λ q, ∃ v, g q = Ok v ∧ (b = "surrogate" → v = RU)) P l)
  ∧ ∀ i tc uc, quiet (compound_reads ev b n i l tc uc).
Proof.
  revert i tc uc. induction l as [|p l IH]; intros i tc uc H.
  { simpl. split; [|done]. eapply does_iff; [apply does_ret|]. by rewrite reached_nil. }
  assert (∀ i tc uc, quiet (compound_reads ev b n i l tc uc)) as Hql by (apply (IH 0 0 0); intros; apply H; by right).
  assert (∀ i tc uc, does (compound_reads ev b n i l tc uc) (compound_loop g b n l tc uc)
    (reached (λ q, ∃ v, g q = Ok v ∧ (b = "surrogate" → v = RU)) P l)) as Hdl
    by (intros; apply IH; intros; apply H; by right).
  assert (∀ i tc uc o, quiet (match o with
        | Ok v =>
            if (b =s "surrogate") && negb (match v with RU => true | _ => false end)
            then BRet (Ok v)
            else match v with
                 | RT => compound_reads ev b n (S i) l (S tc) uc
                 | RU => compound_reads ev b n (S i) l tc (S uc)
                 | RF => compound_reads ev b n (S i) l tc uc
                 end
        | _ => BRet o
        end)) as Hq.
  { intros i' tc' uc' [v| |]; [|done..]. destruct (_ && _); [done|]. by destruct v. }
  split.
  - simpl. eapply does_iff; [eapply does_bind; [apply H; by left| |apply Hq]|].
    2:{ rewrite reached_cons. apply (or_iff_compat_l (P p)). reflexivity. }
    destruct (g p) as [v|e|e]; simpl.
    + destruct ((b =s "surrogate") && negb _) eqn:Hs.
      * eapply does_iff; [apply does_ret|]. split; [done|]. intros [(v' & [= <-] & Hv) _].
        apply andb_true_iff in Hs as [Hs Hn]. apply String.eqb_eq in Hs. rewrite (Hv Hs) in Hn. done.
      * assert ((∃ v0, Ok v = Ok v0 ∧ (b = "surrogate" → v0 = RU)) ∧ reached (λ q, ∃ v, g q = Ok v ∧ (b = "surrogate" → v = RU)) P l
          ↔ reached (λ q, ∃ v, g q = Ok v ∧ (b = "surrogate" → v = RU)) P l) as Hiff.
        { split; [by intros [_ ?]|]. intros Hr. split; [|done]. exists v. split; [done|]. intros ->. simpl in Hs.
          by destruct v. }
        destruct v; (eapply does_iff; [apply Hdl|]; by rewrite Hiff).
    + eapply does_iff; [apply does_ret|]. split; [done|]. intros [(v' & ? & _) _]. done.
    + eapply does_iff; [apply does_ret|]. split; [done|]. intros [(v' & ? & _) _]. done.
  - intros i' tc' uc'. simpl. apply within_bind; [apply (H i' p); by left|]. intros o. apply Hq.
Qed.

Lemma operand_does E ft x r q p : (∀ q, literal (x q)) →
  does (operand_reads E ft x r q p) (eval_operand E ft r p) (asks E ft r p).
Proof.
  intros Hx. revert q. induction p as [| |f op v raw|b ps IH|b f a|] using predicate_rect'; intros q; simpl.
  1,2,5,6: eapply does_iff; [apply does_ret|]; split; [done|]; intros H; inversion H.
  - unfold simple_reads. destruct (ft !! f) as [dt|] eqn:Hf.
    + eapply does_iff; [eapply does_read; [apply Hx|apply does_ret]|]. split; [|done]. intros _. constructor. by rewrite Hf.
    + assert (eval_simple E ft f op raw r = Ok RF) as -> by (unfold eval_simple; by rewrite Hf).
      eapply does_iff; [apply does_ret|]. split; [done|]. intros H. inversion H as [? ? ? ? Hs|]; subst.
      rewrite Hf in Hs. by destruct Hs.
  - eapply does_iff.
    + apply (compound_does _ (eval_operand E ft r) (asks E ft r)). intros i p Hp. rewrite Forall_forall in IH. by apply IH.
    + split.
      * intros (before & p & after & -> & HF & HP). by constructor.
      * intros H. inversion H as [|? before p after HF HP]; subst. by exists before, p, after.
Qed.

Lemma test_does E ft x r p : (∀ q, literal (x q)) → does (test_reads E ft x r p) (run_test E ft p r) (asks E ft r p).
Proof.
  intros Hx. destruct p; simpl.
  1,2,5,6: eapply does_iff; [apply does_ret|]; split; [done|]; intros H; inversion H.
  - by apply (operand_does E ft x r [] (PSimple field op _ raw)).
  - by apply (operand_does E ft x r [] (PCompound bop ps)).
Qed.

(** ** Nodes *)

Definition until (g : node → scored) (stop : list score → presult → option (list score * presult))
    (dflt : list score * presult) : list node → scored :=
  fix go l := match l with
    | [] => Ok dflt
    | c :: l' => match g c with
                 | Ok (s, v) => match stop s v with Some a => Ok a | None => go l' end
                 | o => o
                 end
    end.
Lemma first_true_until g dflt l :
  first_true g dflt l = until g (λ s v, match v with RT => Some (s, RT) | _ => None end) dflt l.
Proof. induction l as [|c l IH]; simpl; [done|]. destruct (g c) as [[s []]| |]; simpl; done. Qed.
Lemma first_known_until g dflt l :
  first_known g dflt l = until g (λ s v, match v with RT => Some (s, RT) | RU => Some ([], RU) | RF => None end) dflt l.
Proof. induction l as [|c l IH]; simpl; [done|]. destruct (g c) as [[s []]| |]; simpl; done. Qed.

Lemma until_does (f : nat → node → bprog scored) (g : node → scored) (P : node → Prop) stop dflt i l :
  (∀ i c, c ∈ l → does (f i c) (g c) (P c)) →
  does (until_reads f stop dflt i l)
    (until g stop dflt l)
    (reached (λ c, ∃ s v, g c = Ok (s, v) ∧ stop s v = None) P l)
  ∧ ∀ i, quiet (until_reads f stop dflt i l).
Proof.
  revert i. induction l as [|c l IH]; intros i H.
  { split; [|done]. eapply does_iff; [apply does_ret|]. by rewrite reached_nil. }
  assert (∀ i, quiet (until_reads f stop dflt i l)) as Hql by (apply (IH 0); intros; apply H; by right).
  assert (∀ i o, quiet (match o with
        | Ok (s, v) => match stop s v with Some a => BRet (Ok a) | None => until_reads f stop dflt (S i) l end
        | _ => BRet o
        end)) as Hq.
  { intros i' [[s v]| |]; [|done..]. by destruct (stop s v). }
  split.
  - simpl. eapply does_iff; [eapply does_bind; [apply H; by left| |apply Hq]|].
    2:{ rewrite reached_cons. apply (or_iff_compat_l (P c)). reflexivity. }
    destruct (g c) as [[s v]|e|e]; simpl.
    + destruct (stop s v) as [a|] eqn:Hs.
      * eapply does_iff; [apply does_ret|]. split; [done|]. intros [(s' & v' & [= <- <-] & Hv) _]. congruence.
      * eapply does_iff; [apply IH; intros; apply H; by right|].
        split; [|by intros [_ ?]]. intros Hr. split; [|done]. by exists s, v.
    + eapply does_iff; [apply does_ret|]. split; [done|]. by intros [(s' & v' & ? & _) _].
    + eapply does_iff; [apply does_ret|]. split; [done|]. by intros [(s' & v' & ? & _) _].
  - intros i'. simpl. apply within_bind; [apply (H i' c); by left|]. intros o. apply Hq.
Qed.

Lemma node_asks_iff E cx st r n : node_asks E cx st r n ↔
  asks E (cx_ft cx) r (n_test n) ∨
  ∃ v, run_test E (cx_ft cx) (n_test n) r = Ok v ∧ enters st v ∧
    reached (λ c, ∃ t s v', node_evaluate E cx st r t c = Ok (s, v') ∧ moves_on st v') (node_asks E cx st r) (n_children n).
Proof.
  split.
  - intros H. inversion H as [? Ha|? v before c after Hc Ht Hv Hb Hn]; subst; [by left|]. right. exists v.
    split; [done|]. split; [done|]. by exists before, c, after.
  - intros [Ha|(v & Ht & Hv & before & c & after & Hc & Hb & Hn)]; [by apply node_asks_test|].
    by eapply node_asks_child.
Qed.

Section early.
  Context (E : Ext) (cx : tctx) (x : list nat → list nat → place) (r : datarow) (Hx : ∀ k q, literal (x k q)).

  Lemma enters_early st v : ¬ exhaustive st → enters st v ↔ v = RT.
  Proof. unfold enters. tauto. Qed.

  Lemma none_does st k n : st ≠ "nullPrediction" → ¬ exhaustive st →
    (∀ t n, node_evaluate E cx st r t n = eval_none E cx r n) →
    does (none_reads E cx x r k n) (eval_none E cx r n) (node_asks E cx st r n).
  Proof.
    intros Hn Hex Hst. revert k. induction n as [id dc cs ds test sc IH] using node_rect'; intros k.
    set (n := Node id dc cs ds test sc).
    assert (∀ i c, c ∈ cs → does (none_reads E cx x r (k ++ [i]) c) (eval_none E cx r c) (node_asks E cx st r c)) as Hc.
    { intros i c Hin. rewrite Forall_forall in IH. by apply IH. }
    destruct (until_does _ (eval_none E cx r) (node_asks E cx st r)
      (λ s v, match v with RT => Some (s, RT) | _ => None end) (output_dist cx n, RT) 0 cs Hc) as [Hu Hq].
    eapply does_iff; [eapply does_bind; [by apply test_does| |]|].
    3:{ rewrite node_asks_iff. apply or_iff_compat_l. reflexivity. }
    - cbn [eval_none n_test n_children n]. destruct (run_test E (cx_ft cx) test r) as [v|e|e]; simpl.
      2,3: eapply does_iff; [apply does_ret|]; split; [done|]; by intros (v & ? & _).
      destruct v.
      1,3: eapply does_iff; [apply does_ret|]; split; [done|]; intros (v & [= <-] & Hv & _); by apply enters_early in Hv.
      eapply does_iff.
      + rewrite first_true_until. apply Hu.
      + assert (∀ l, reached (λ c, ∃ s v, eval_none E cx r c = Ok (s, v) ∧ match v with RT => Some (s, RT) | _ => None end = None) (node_asks E cx st r) l
          ↔ reached (λ c, ∃ t s v, node_evaluate E cx st r t c = Ok (s, v) ∧ moves_on st v) (node_asks E cx st r) l) as Heq.
        { intros l. induction l as [|c l IHl]; [by rewrite !reached_nil|]. rewrite !reached_cons, IHl.
          apply or_iff_compat_l, and_iff_compat_r. split.
          - intros (s & v & Hv & Hm). exists [], s, v. rewrite Hst. split; [done|]. unfold moves_on.
            rewrite decide_False by done. right. intros ->. done.
          - intros (t & s & v & Hv & Hm). rewrite Hst in Hv. exists s, v. split; [done|]. unfold moves_on in Hm.
            rewrite decide_False in Hm by done. destruct v; [done| |done]. destruct Hm; done. }
        rewrite Heq. split.
        * intros H. exists RT. split; [done|]. split; [by left|done].
        * by intros (v & _ & _ & H).
    - intros [[]| |]; try done; apply Hq.
  Qed.

  Lemma null_does k n :
    does (null_reads E cx x r k n) (eval_null E cx r n) (node_asks E cx "nullPrediction" r n).
  Proof.
    revert k. induction n as [id dc cs ds test sc IH] using node_rect'; intros k.
    set (n := Node id dc cs ds test sc).
    assert (∀ i c, c ∈ cs → does (null_reads E cx x r (k ++ [i]) c) (eval_null E cx r c) (node_asks E cx "nullPrediction" r c)) as Hc.
    { intros i c Hin. rewrite Forall_forall in IH. by apply IH. }
    destruct (until_does _ (eval_null E cx r) (node_asks E cx "nullPrediction" r)
      (λ s v, match v with RT => Some (s, RT) | RU => Some ([], RU) | RF => None end) (output_dist cx n, RT) 0 cs Hc) as [Hu Hq].
    assert (¬ exhaustive "nullPrediction") as Hex by (unfold exhaustive; naive_solver).
    eapply does_iff; [eapply does_bind; [by apply test_does| |]|].
    3:{ rewrite node_asks_iff. apply or_iff_compat_l. reflexivity. }
    - cbn [eval_null n_test n_children n]. destruct (run_test E (cx_ft cx) test r) as [v|e|e]; simpl.
      2,3: eapply does_iff; [apply does_ret|]; split; [done|]; by intros (v & ? & _).
      destruct v.
      1,3: eapply does_iff; [apply does_ret|]; split; [done|]; intros (v & [= <-] & Hv & _); by apply enters_early in Hv.
      eapply does_iff.
      + rewrite first_known_until. apply Hu.
      + assert (∀ l, reached (λ c, ∃ s v, eval_null E cx r c = Ok (s, v) ∧
            match v with RT => Some (s, RT) | RU => Some ([], RU) | RF => None end = None) (node_asks E cx "nullPrediction" r) l
          ↔ reached (λ c, ∃ t s v, node_evaluate E cx "nullPrediction" r t c = Ok (s, v) ∧ moves_on "nullPrediction" v) (node_asks E cx "nullPrediction" r) l) as Heq.
        { intros l. induction l as [|c l IHl]; [by rewrite !reached_nil|]. rewrite !reached_cons, IHl.
          apply or_iff_compat_l, and_iff_compat_r. split.
          - intros (s & v & Hv & Hm). exists [], s, v. split; [done|]. unfold moves_on. rewrite decide_True by done.
            by destruct v.
          - intros (t & s & v & Hv & Hm). exists s, v. split; [done|]. unfold moves_on in Hm.
            rewrite decide_True in Hm by done. by subst. }
        rewrite Heq. split.
        * intros H. exists RT. split; [done|]. split; [by left|done].
        * by intros (v & _ & _ & H).
    - intros [[]| |]; try done; apply Hq.
  Qed.
End early.

(** an exhaustive strategy answers whatever the map orders, or never *)
Lemma exhaustive_answers E cx st r n : exhaustive st → ∀ t t', is_ok (node_evaluate E cx st r t n) = is_ok (node_evaluate E cx st r t' n).
Proof.
  assert (∀ (f g : nat → node → scored) i cs,
    Forall (λ c, ∀ j, is_ok (f j c) = is_ok (g j c)) cs → is_ok (rmapi f i cs) = is_ok (rmapi g i cs)) as Hr.
  { intros f g i cs H. revert i. induction H as [|c cs H _ IH]; intros i; [done|]. simpl. specialize (H i).
    destruct (f i c), (g i c); simpl in *; try done. specialize (IH (S i)).
    by destruct (rmapi f (S i) cs), (rmapi g (S i) cs). }
  intros [->|[->|[->| ->]]] t t'; [..|done|done]; unfold node_evaluate; simpl; revert t t';
    induction n as [id dc cs ds test sc IH] using node_rect'; intros t t'; simpl;
    destruct (run_test E (cx_ft cx) test r) as [[]| |]; simpl; try done.
  1,2: assert (is_ok (rmapi (λ i c, eval_aggregate E cx r (i :: t) c) 1 cs) = is_ok (rmapi (λ i c, eval_aggregate E cx r (i :: t') c) 1 cs)) as H
      by (apply Hr; rewrite Forall_forall in *; naive_solver);
    destruct (rmapi _ 1 cs) as [rs| |], (rmapi _ 1 cs) as [rs'| |]; simpl in *; try done;
    destruct (foldl scan_step _ rs), (foldl scan_step _ rs'); repeat case_match; done.
  all: assert (is_ok (rmapi (λ i c, eval_weighted E cx r (i :: t) c) 2 cs) = is_ok (rmapi (λ i c, eval_weighted E cx r (i :: t') c) 2 cs)) as H
      by (apply Hr; rewrite Forall_forall in *; naive_solver);
    destruct (rmapi _ 2 cs) as [rs| |], (rmapi _ 2 cs) as [rs'| |]; simpl in *; try done;
    destruct (foldl scan_step _ rs), (foldl scan_step _ rs'); repeat case_match; done.
Qed.

Lemma each_does (f : nat → node → bprog scored) (g : nat → node → scored) (P : node → Prop) i l :
  (∀ i c, c ∈ l → does (f i c) (g i c) (P c)) → (∀ i j c, is_ok (g i c) = is_ok (g j c)) →
  (∃ o, does (each_steps f i l) o (reached (λ c, ∀ i, is_ok (g i c) = true) P l))
  ∧ ∀ i, quiet (each_steps f i l).
Proof.
  intros H Hg. revert i. induction l as [|c l IH]; intros i.
  { split; [|done]. exists (Ok []). eapply does_iff; [apply does_ret|]. by rewrite reached_nil. }
  assert (∀ i, quiet (each_steps f i l)) as Hql by (apply (IH ltac:(intros; apply H; by right) 0)).
  assert (∀ i o, quiet (match o with
        | Ok b => bbind (each_steps f (S i) l) (λ o', BRet (bs <-! o'; Ok (b :: bs)))
        | Err e => BRet (Err e)
        | Panic x => BRet (Panic x)
        end)) as Hq.
  { intros i' [b| |]; [|done..]. apply within_bind; [apply Hql|done]. }
  split.
  - destruct (IH ltac:(intros; apply H; by right) (S i)) as [[o' Ho'] _].
    assert (∃ o, does (match g i c with
        | Ok b => bbind (each_steps f (S i) l) (λ o', BRet (bs <-! o'; Ok (b :: bs)))
        | Err e => BRet (Err e)
        | Panic x => BRet (Panic x)
        end) o ((∀ i, is_ok (g i c) = true) ∧ reached (λ c, ∀ i, is_ok (g i c) = true) P l)) as [o Ho].
    { destruct (g i c) as [b|e|e] eqn:Hgc.
      - eexists. eapply does_iff; [eapply does_bind; [exact Ho'|apply does_ret|done]|]. split; [|by intros [_ ?]; left].
        intros [Hr|[]]. split; [|done]. intros j. rewrite (Hg j i c), Hgc. done.
      - eexists. eapply does_iff; [apply does_ret|]. split; [done|]. intros [Hi _]. specialize (Hi i). by rewrite Hgc in Hi.
      - eexists. eapply does_iff; [apply does_ret|]. split; [done|]. intros [Hi _]. specialize (Hi i). by rewrite Hgc in Hi. }
    exists o. simpl. eapply does_iff; [eapply does_bind; [apply H; by left|exact Ho|apply Hq]|]. by rewrite reached_cons.
  - intros i'. simpl. apply within_bind; [apply (H i' c); by left|]. intros o. apply Hq.
Qed.

Lemma every_does E cx x r st base t k n : (∀ k q, literal (x k q)) → exhaustive st →
  does (every_reads E cx x r st base t k n) (node_evaluate E cx st r t n) (node_asks E cx st r n).
Proof.
  intros Hx Hex. revert t k. induction n as [id dc cs ds test sc IH] using node_rect'; intros t k.
  set (n := Node id dc cs ds test sc).
  destruct (each_does (λ i, every_reads E cx x r st base (base + i :: t) (k ++ [i]))
    (λ i, node_evaluate E cx st r (base + i :: t)) (node_asks E cx st r) 0 cs) as [[o Ho] Hq].
  { intros i c Hc. rewrite Forall_forall in IH. by apply IH. }
  { intros. by apply exhaustive_answers. }
  assert (st ≠ "nullPrediction") as Hst by (destruct Hex as [->|[->|[->| ->]]]; done).
  assert (∀ l, reached (λ c, ∀ i, is_ok (node_evaluate E cx st r (base + i :: t) c) = true) (node_asks E cx st r) l
    ↔ reached (λ c, ∃ t s v, node_evaluate E cx st r t c = Ok (s, v) ∧ moves_on st v) (node_asks E cx st r) l) as Heq.
  { intros l. induction l as [|c l IHl]; [by rewrite !reached_nil|]. rewrite !reached_cons, IHl.
    apply or_iff_compat_l, and_iff_compat_r. split.
    - intros H. specialize (H 0). destruct (node_evaluate E cx st r (base + 0 :: t) c) as [[s v]| |] eqn:Hn; [|done..].
      exists (base + 0 :: t), s, v. split; [done|]. unfold moves_on. rewrite decide_False by done. by left.
    - intros (t' & s & v & Hv & _) i. rewrite (exhaustive_answers E cx st r c Hex _ t'), Hv. done. }
  assert (node_evaluate E cx st r t n = node_evaluate E cx st r t n ∧ run_test E (cx_ft cx) (n_test n) r = run_test E (cx_ft cx) test r) as [_ Htest] by done.
  cbn [every_reads n]. fold n. eapply does_iff; [eapply does_bind; [by apply test_does| |]|].
  3:{ rewrite node_asks_iff. apply or_iff_compat_l. reflexivity. }
  - cbn [n_test n_children n] in *. destruct (run_test E (cx_ft cx) test r) as [v|e|e]; simpl.
    2,3: eapply does_iff; [apply does_ret|]; split; [done|]; by intros (v & ? & _).
    assert (v ≠ RF → does (bbind (each_steps (λ i, every_reads E cx x r st base (base + i :: t) (k ++ [i])) 0 cs)
        (λ _, BRet (node_evaluate E cx st r t n))) (node_evaluate E cx st r t n)
      (∃ v0, Ok v = Ok v0 ∧ enters st v0 ∧ reached (λ c, ∃ t s v', node_evaluate E cx st r t c = Ok (s, v') ∧ moves_on st v') (node_asks E cx st r) cs)) as Hc.
    { intros Hv. eapply does_iff; [eapply does_bind; [exact Ho|apply does_ret|done]|]. rewrite Heq. split.
      - intros [H|[]]. exists v. split; [done|]. split; [|done]. destruct v; [by right|by left|done].
      - intros (_ & _ & _ & H). by left. }
    destruct v; [by apply Hc|by apply Hc|].
    eapply does_iff; [apply does_ret|]. split; [done|]. intros (v & [= <-] & [Hv|[Hv _]] & _); done.
  - intros [[]| |]; try done; (apply within_bind; [apply Hq|done]).
Qed.

Lemma node_does E cx st x r t n : (∀ k q, literal (x k q)) →
  does (node_reads E cx st x r t n) (node_evaluate E cx st r t n) (node_asks E cx st r n).
Proof.
  intros Hx. unfold node_reads.
  destruct (String.eqb_spec st "nullPrediction") as [->|H1]; [by apply null_does|].
  destruct (String.eqb_spec st "aggregateNodes") as [->|H2]; [apply every_does; [done|by left]|].
  destruct (String.eqb_spec st "weightedConfidence") as [->|H3]; [apply every_does; [done|by right; left]|].
  destruct (String.eqb_spec st "defaultChild") as [->|H4]; [apply every_does; [done|by right; right; left]|].
  destruct (String.eqb_spec st "lastPrediction") as [->|H5]; [apply every_does; [done|by right; right; right]|].
  simpl. assert (∀ t n, node_evaluate E cx st r t n = eval_none E cx r n) as Hst.
  { intros t' n'. unfold node_evaluate. by rewrite !(proj2 (String.eqb_neq _ _)). }
  rewrite Hst. apply none_does; [done|done| |done]. unfold exhaustive. tauto.
Qed.

(** ** Models *)

Lemma tree_does E tk x t r : (∀ k q, literal (x k q)) →
  does (tree_reads E tk x t r) (tree_evaluate E tk t r).1 (model_asks E tk (ETree t) r).
Proof.
  intros Hx. unfold tree_reads, tree_evaluate.
  destruct (et_validated t) eqn:Hv; simpl.
  2:{ eapply does_iff; [apply does_ret|]. split; [done|]. intros H. inversion H; congruence. }
  destruct (et_compiled t) eqn:Hc; simpl.
  2:{ eapply does_iff; [apply does_ret|]. split; [done|]. intros H. inversion H; congruence. }
  destruct (handle_input E (tm_lt (et_model t)) r) as [[u|e|e] r'] eqn:Hi; simpl.
  2,3: eapply does_iff; [apply does_ret|]; split; [done|]; intros H; inversion H; congruence.
  eapply does_iff; [eapply does_bind; [by apply node_does| |done]|].
  - set (o := node_evaluate E _ _ r' tk _).
    assert (∀ o1 o2 : res datarow * datarow, o1 = o2 → does (BRet o1) o2 False) as Hret by (intros ? ? ->; apply does_ret).
    apply Hret. destruct o as [[scores []]| |]; [done| |done..]. by destruct (tree_output E t scores).
  - split.
    + intros [H|[]]. destruct u. by eapply asks_tree.
    + intros H. inversion H as [? ? ? r'' ? ? Hi' Hn|]; subst. rewrite Hi in Hi'. injection Hi' as _ <-. by left.
Qed.

(** The segments reached by one of the loops, from segment [i] on. *)
Section loops.
  Context (E : Ext) (tk : ticket) (chained : bool).
  Context (g : nat → emodel → datarow → reply) (P : nat → emodel → datarow → Prop).
  Definition given (i : nat) (last r r1 : datarow) : Prop :=
    if chained then copy_into E (0 :: i :: tk) last r = Ok r1 else r1 = r.
  Fixpoint on (i : nat) (last : datarow) (sm : list emodel) (r : datarow) : Prop :=
    match sm with
    | [] => False
    | s :: sm' => ∃ r1, given i last r r1 ∧
        (P i s r1 ∨ ∃ out r2, g i s r1 = (Ok out, r2) ∧ on (S i) out sm' r2)
    end.
End loops.

Lemma on_fed E tk chained P sm r :
  on E tk chained (λ i s r, (evaluate E (5 :: i :: tk) s r).1) P 0 (Some ∅) sm r ↔
  ∃ i s last r3 r4, sm !! i = Some s ∧ fed E tk chained sm r i last r3 ∧
    given E tk chained i last r3 r4 ∧ P i s r4.
Proof.
  set (g := λ i s r, (evaluate E (5 :: i :: tk) s r).1). split.
  - enough (∀ l i last r1, fed E tk chained sm r i last r1 → drop i sm = l → on E tk chained g P i last l r1 →
      ∃ i s last r3 r4, sm !! i = Some s ∧ fed E tk chained sm r i last r3 ∧ given E tk chained i last r3 r4 ∧ P i s r4) as H.
    { intros Ho. eapply H; [constructor|done|done]. }
    induction l as [|s l IH]; intros i last r1 Hf Hd Ho; [done|]. simpl in Ho. destruct Ho as (r2 & Hg & Ho).
    assert (sm !! i = Some s) as Hs by (rewrite <- (Nat.add_0_r i), <- lookup_drop, Hd; done).
    destruct Ho as [HP|(out & r3 & Hev & Ho)]; [by exists i, s, last, r1, r2|].
    apply (IH (S i) out r3); [by eapply fed_next| |done].
    assert (drop (S i) sm = drop 1 (drop i sm)) as -> by (rewrite drop_drop; f_equal; lia). by rewrite Hd.
  - intros (i & s & last & r3 & r4 & Hs & Hf & Hg & HP).
    assert (on E tk chained g P i last (drop i sm) r3) as Ho.
    { rewrite (drop_S _ s) by done. simpl. exists r4. split; [done|]. by left. }
    clear Hs Hg HP. induction Hf as [|i last r1 r2 s' out r3 Hf IH Hs Hc Hev]; [done|].
    apply IH. rewrite (drop_S _ s') by done. simpl. exists r2. split; [done|]. right. by exists out, r3.
Qed.

Lemma chain_does E tk (ev : nat → emodel → datarow → bprog reply) (g : nat → emodel → datarow → outcome emodel) P i last sm r :
  (∀ i s r, s ∈ sm → does (ev i s r) (g i s r).1 (P i s r)) →
  does (chain_reads E tk ev i last sm r) (chain E tk g i last sm r).1 (on E tk true (λ i s r, (g i s r).1) P i last sm r).
Proof.
  revert i last r. induction sm as [|s sm IH]; intros i last r H; simpl; [apply does_ret|].
  assert (∀ i last r, does (chain_reads E tk ev i last sm r) (chain E tk g i last sm r).1 (on E tk true (λ i s r, (g i s r).1) P i last sm r)) as Hd
    by (intros; apply IH; intros; apply H; by right).
  destruct (copy_into E (0 :: i :: tk) last r) as [r1|e|e].
  2,3: eapply does_iff; [apply does_ret|]; split; [done|]; by intros (r1 & ? & _).
  pose proof (H i s r1 ltac:(by left)) as Hs. destruct (g i s r1) as [[o r2] s'] eqn:Hg. simpl in Hs.
  eapply does_iff; [eapply (does_bind _ _ _ _ _ _ Hs)|].
  - instantiate (1 := ∃ out, o = Ok out ∧ on E tk true (λ i s r, (g i s r).1) P (S i) out sm r2).
    destruct o as [out|e|e]; simpl.
    2,3: eapply does_iff; [apply does_ret|]; split; [done|]; by intros (out & ? & _).
    pose proof (Hd (S i) out r2) as Hd'. destruct (chain E tk g (S i) out sm r2) as [[o3 r3] sm3]. simpl in *.
    eapply does_iff; [exact Hd'|]. split; [by eauto|]. by intros (out' & [= <-] & ?).
  - intros [[out|e|e] r3]; [|done..]. apply Hd.
  - split.
    + intros Hor. exists r1. split; [done|]. rewrite Hg. simpl. destruct Hor as [HP|(out & -> & Ho)]; [by left|]. right. by exists out, r2.
    + intros (r1' & [= <-] & Hor). rewrite Hg in Hor. simpl in Hor.
      destruct Hor as [HP|(out & r2' & [= -> <-] & Ho)]; [by left|]. right. by exists out.
Qed.

Lemma sum_does E tk cl (ev : nat → emodel → datarow → bprog reply) (g : nat → emodel → datarow → outcome emodel) P i sc last sm r :
  (∀ i s r, s ∈ sm → does (ev i s r) (g i s r).1 (P i s r)) →
  does (sum_reads E tk cl ev i sc sm r) (sum_segments E tk cl g i sc sm r).1 (on E tk false (λ i s r, (g i s r).1) P i last sm r).
Proof.
  revert i sc last r. induction sm as [|s sm IH]; intros i sc last r H; simpl; [apply does_ret|].
  assert (∀ i sc last r, does (sum_reads E tk cl ev i sc sm r) (sum_segments E tk cl g i sc sm r).1 (on E tk false (λ i s r, (g i s r).1) P i last sm r)) as Hd
    by (intros; apply IH; intros; apply H; by right).

  pose proof (H i s r ltac:(by left)) as Hs. destruct (g i s r) as [[o r2] s'] eqn:Hg. simpl in Hs.
  eapply does_iff; [eapply (does_bind _ _ _ _ _ _ Hs)|].
  - instantiate (1 := ∃ out, o = Ok out ∧ on E tk false (λ i s r, (g i s r).1) P (S i) out sm r2).
    destruct o as [out|e|e]; simpl.
    2,3: eapply does_iff; [apply does_ret|]; split; [done|]; by intros (out & ? & _).
    pose proof (Hd (S i) (score_add E (1 :: i :: tk) cl out sc) out r2) as Hd'.
    destruct (sum_segments E tk cl g (S i) _ sm r2) as [[o3 r3] sm3]. simpl in *.
    eapply does_iff; [exact Hd'|]. split; [by eauto|]. by intros (out' & [= <-] & ?).
  - intros [[out|e|e] r3]; [|done..]. by apply (Hd _ _ None).
  - split.
    + intros Hor. exists r. split; [done|]. rewrite Hg. simpl. destruct Hor as [HP|(out & -> & Ho)]; [by left|]. right. by exists out, r2.
    + intros (r1' & -> & Hor). rewrite Hg in Hor. simpl in Hor.
      destruct Hor as [HP|(out & r2' & [= -> <-] & Ho)]; [by left|]. right. by exists out.
Qed.

Lemma does_eq {A} (m : bprog A) a b P : does m a P → a = b → does m b P.
Proof. by intros ? ->. Qed.

Lemma total_does E tk h (ev : nat → emodel → datarow → bprog reply) (g : nat → emodel → datarow → outcome emodel) P sm r :
  (∀ i s r, s ∈ sm → does (ev i s r) (g i s r).1 (P i s r)) →
  does (total_reads E tk h ev sm r) (sum_models E tk h g sm r).1 (on E tk false (λ i s r, (g i s r).1) P 0 (Some ∅) sm r).
Proof.
  intros H. unfold total_reads, sum_models.
  pose proof (sum_does E tk (mm_function (em_hdr h) =s "classification") ev g P 0 (score_init (em_outputs h) (em_targets h)) (Some ∅) sm r H) as Hd.
  destruct (sum_segments _ _ _ _ _ _ _ _) as [[o r1] sm1]. simpl in *.
  eapply does_eq; [eapply does_iff; [eapply does_bind; [exact Hd|apply does_ret|by intros []]|by rewrite (right_id False or)]|].
  by destruct o.
Qed.

Lemma method_does E tk h (ev : nat → emodel → datarow → bprog reply) (g : nat → emodel → datarow → outcome emodel) P sm r :
  (∀ i s r, s ∈ sm → does (ev i s r) (g i s r).1 (P i s r)) →
  does (method_reads E tk h ev sm r) (run_method E tk h g sm r).1
    (if mm_method (em_hdr h) =s "selectFirst" then ∃ s, sm !! 0 = Some s ∧ P 0 s r
     else mm_method (em_hdr h) ∈ ["average"; "sum"; "modelChain"] ∧
       on E tk (mm_method (em_hdr h) =s "modelChain") (λ i s r, (g i s r).1) P 0 (Some ∅) sm r).
Proof.
  intros H. unfold method_reads, run_method. set (me := mm_method (em_hdr h)).
  pose proof (total_does E tk h ev g P sm r H) as Ht.
  destruct (String.eqb_spec me "average") as [->|H1].
  { simpl. unfold average_models. destruct (sum_models E tk h g sm r) as [[o r1] sm1]. simpl in *.
    eapply does_eq; [eapply does_iff; [eapply does_bind; [exact Ht|apply does_ret|by intros []]|]|by destruct o].
    rewrite (right_id False or). split; [|tauto]. intros. split; [set_solver|done]. }
  destruct (String.eqb_spec me "sum") as [->|H2].
  { simpl. destruct (sum_models E tk h g sm r) as [[o r1] sm1]. simpl in *.
    eapply does_eq; [eapply does_iff; [eapply does_bind; [exact Ht|apply does_ret|by intros []]|]|by destruct o].
    rewrite (right_id False or). split; [|tauto]. intros. split; [set_solver|done]. }
  destruct (String.eqb_spec me "modelChain") as [->|H3].
  { simpl. eapply does_iff; [by apply chain_does|]. split; [|tauto]. intros. split; [set_solver|done]. }
  destruct (String.eqb_spec me "selectFirst") as [->|H4].
  { destruct sm as [|s sm]; simpl.
    - eapply does_iff; [apply does_ret|]. split; [done|]. by intros (s & ? & _).
    - eapply does_iff; [eapply does_eq; [apply H; by left|]|].
      + by destruct (g 0 s r) as [[o r1] s1].
      + split; [by eauto|]. by intros (s' & [= <-] & ?). }
  eapply does_iff; [apply does_ret|]. split; [done|]. intros [Hin _]. set_solver.
Qed.

Lemma model_asks_mining E tk h sm r r1 r2 :
  em_validated h = true → em_compiled h = true → impute E (4 :: tk) (em_defaults h) r = Ok r1 →
  handle_input E (mm_lt (em_hdr h)) r1 = (Ok tt, r2) →
  model_asks E tk (EMining h sm) r ↔
  (if mm_method (em_hdr h) =s "selectFirst" then ∃ s, sm !! 0 = Some s ∧ model_asks E (5 :: 0 :: tk) s r2
   else mm_method (em_hdr h) ∈ ["average"; "sum"; "modelChain"] ∧
     on E tk (mm_method (em_hdr h) =s "modelChain") (λ i s r, (evaluate E (5 :: i :: tk) s r).1)
       (λ i s r, model_asks E (5 :: i :: tk) s r) 0 (Some ∅) sm r2).
Proof.
  intros Hv Hc Him Hin. split.
  - intros H. inversion H as [|? ? ? ? r1' r2' i s last r3 r4 _ _ Hi1 Hi2 Hs Hf Hg H0 Hm Ha]; subst.
    rewrite Him in Hi1. injection Hi1 as <-. rewrite Hin in Hi2. injection Hi2 as <-.
    destruct (String.eqb_spec (mm_method (em_hdr h)) "selectFirst") as [He|He].
    + rewrite He in *. specialize (H0 eq_refl) as ->. simpl in *. subst r4. inversion Hf; subst. eauto.
    + split; [set_solver|]. apply on_fed. by exists i, s, last, r3, r4.
  - destruct (String.eqb_spec (mm_method (em_hdr h)) "selectFirst") as [He|He].
    + intros (s & Hs & Ha). eapply (asks_segment E tk h sm r r1 r2 0 s (Some ∅) r2 r2); try done.
      * constructor.
      * by rewrite He.
      * rewrite He. set_solver.
    + intros [Hm (i & s & last & r3 & r4 & Hs & Hf & Hg & Ha)%on_fed].
      eapply (asks_segment E tk h sm r r1 r2 i s last r3 r4); try done. set_solver.
Qed.

Theorem evaluate_does E tk p e r :
  does (evaluate_reads E D tk p e r) (evaluate E tk e r).1 (model_asks E tk e r).
Proof.
  revert tk p r. induction e as [t|x|h sm IH] using emodel_rect'; intros tk p r.
  - simpl. eapply does_eq; [by apply tree_does|]. by destruct (tree_evaluate E tk t r) as [[o r'] t'].
  - simpl. eapply does_iff; [apply does_ret|]. split; [done|]. intros H. inversion H.
  - simpl. destruct (em_validated h) eqn:Hv; simpl.
    2:{ eapply does_iff; [apply does_ret|]. split; [done|]. intros H. inversion H; congruence. }
    destruct (em_compiled h) eqn:Hc; simpl.
    2:{ eapply does_iff; [apply does_ret|]. split; [done|]. intros H. inversion H; congruence. }
    destruct (impute E (4 :: tk) (em_defaults h) r) as [r1|e|e] eqn:Him; simpl.
    2,3: eapply does_iff; [apply does_ret|]; split; [done|]; intros H; inversion H; congruence.
    destruct (handle_input E (mm_lt (em_hdr h)) r1) as [[[]|e|e] r2] eqn:Hin; simpl.
    2,3: eapply does_iff; [apply does_ret|]; split; [done|]; intros H; inversion H; congruence.
    apply does_method. eapply does_iff; [|symmetry; by apply (model_asks_mining E tk h sm r r1 r2)].
    eapply does_eq; [apply (method_does E tk h _ (λ i s r, evaluate E (5 :: i :: tk) s r) (λ i s r, model_asks E (5 :: i :: tk) s r))|].
    + intros i s r0 Hs. rewrite Forall_forall in IH. by apply IH.
    + by destruct (run_method E tk h _ sm r2) as [[o r3] sm3].
Qed.

(** ** What Evaluate reads is what NewModel writes *)

(** every literal read is at a place in [W] *)
Definition reads_in {A} (W : place → Prop) (m : bprog A) : Prop :=
  within (λ x _, literal x → W x) m.

Lemma compound_reads_in W (ev : nat → predicate → bprog (res presult)) b n i l tc uc :
  (∀ j p, l !! j = Some p → reads_in W (ev (i + j) p)) → reads_in W (compound_reads ev b n i l tc uc).
Proof.
  revert i tc uc. induction l as [|p l IH]; intros i tc uc H; simpl; [done|].
  assert (∀ tc uc, reads_in W (compound_reads ev b n (S i) l tc uc)) as Hl.
  { intros. apply IH. intros j p' Hj. rewrite Nat.add_succ_comm. by apply H. }
  apply within_bind; [rewrite <- (Nat.add_0_r i); by apply H|].
  intros [v| |]; [|done..]. destruct (_ && _); [done|]. destruct v; apply Hl.
Qed.
Lemma until_reads_in W f stop dflt i l :
  (∀ j c, l !! j = Some c → reads_in W (f (i + j) c)) → reads_in W (until_reads f stop dflt i l).
Proof.
  revert i. induction l as [|c l IH]; intros i H; simpl; [done|].
  apply within_bind; [rewrite <- (Nat.add_0_r i); by apply H|].
  intros [[s v]| |]; [|done..]. destruct (stop s v); [done|]. apply IH. intros j c' Hj. rewrite Nat.add_succ_comm. by apply H.
Qed.
Lemma each_reads_in {B C} W (f : nat → B → bprog (res C)) i l :
  (∀ j c, l !! j = Some c → reads_in W (f (i + j) c)) → reads_in W (each_steps f i l).
Proof.
  revert i. induction l as [|c l IH]; intros i H; simpl; [done|].
  apply within_bind; [rewrite <- (Nat.add_0_r i); by apply H|].
  intros [b| |]; [|done..]. apply within_bind; [|done]. apply IH. intros j c' Hj. rewrite Nat.add_succ_comm. by apply H.
Qed.

(** a loop that ends well has run for every element *)
Lemma each_ran {B C} (f : nat → B → bprog (res C)) td i l bs td' j a :
  brun td (each_steps f i l) = (Ok bs, td') → l !! j = Some a →
  ∃ td1 b td2, brun td1 (f (i + j) a) = (Ok b, td2) ∧ btrace td1 (f (i + j) a) ⊆ btrace td (each_steps f i l).
Proof.
  revert td i bs td' j. induction l as [|a' l IH]; intros td i bs td' j Hr Ha; [done|].
  simpl in *. rewrite brun_bind in Hr. rewrite btrace_bind.
  destruct (brun td (f i a')) as [[b|e|e] td1] eqn:Hf; simpl in *; [|done..].
  rewrite brun_bind in Hr. rewrite btrace_bind.
  destruct (brun td1 (each_steps f (S i) l)) as [[bs'|e|e] td2] eqn:Hl; simpl in Hr; [|done..].
  destruct j as [|j]; simpl in Ha.
  - injection Ha as ->. rewrite Nat.add_0_r. exists td, b, td1. split; [done|]. set_solver.
  - destruct (IH _ _ _ _ j Hl Ha) as (td3 & b' & td4 & Hb & Hs). rewrite <- Nat.add_succ_comm.
    exists td3, b', td4. split; [done|]. set_solver.
Qed.

Lemma operand_covered E ft (r : datarow) E' ft' x q p p1 p' td (W : place → Prop) :
  compile_predicate E ft p = Ok p1 → compile_predicate E' ft' p = Ok p' →
  (∀ y, (y, true) ∈ btrace td (pred_steps E' ft' x q p) → W y) →
  ∀ (E0 : Ext) (ft0 : fieldtypes), reads_in W (operand_reads E0 ft0 x r q p1).
Proof.
  intros H1 H2 HW E0 ft0. revert q p1 p' td H1 H2 HW.
  induction p as [| |f op v raw|b ps IH|b f a|] using predicate_rect'; intros q p1 p' td H1 H2 HW; simpl in *; simplify_eq; try done.
  - destruct (ft !! f); [|done]. apply rbind_ok in H1 as (raw1 & _ & [= <-]). simpl. unfold simple_reads.
    destruct (ft0 !! f); [|done]. split; [|done]. intros _. destruct (ft' !! f) as [dt|]; [|done]. simpl in H2.
    destruct (get_raw_value E' dt v); [|done..]. apply HW. by left.
  - apply rbind_ok in H1 as (ps1 & H1 & [= <-]). apply rbind_ok in H2 as (ps2 & H2 & [= <-]). simpl.
    assert (brun td (each_steps (λ i, pred_steps E' ft' x (q ++ [i])) 0 ps) = (Ok ps2, td)) as Hb.
    { rewrite (brun_each _ (compile_predicate E' ft')); [by rewrite H2|]. intros. apply pred_alone. }
    apply compound_reads_in. intros j p1 Hj. rewrite rmap_ok in H1.
    destruct (Forall2_lookup_r _ _ _ _ _ H1 Hj) as (p & Hp & H1p).
    destruct (each_ran _ _ _ _ _ _ j p Hb Hp) as (td1 & p2 & td2 & Hr & Hs). rewrite pred_alone in Hr. injection Hr as Hr _.
    rewrite Forall_lookup in IH. eapply (IH j p Hp); [exact H1p|done|].
    intros y Hy. apply HW. rewrite btrace_bind. apply elem_of_app. left. apply Hs. exact Hy.
Qed.

Lemma test_covered E ft (r : datarow) E' ft' x p p1 p' td (W : place → Prop) :
  compile_predicate E ft p = Ok p1 → compile_predicate E' ft' p = Ok p' →
  (∀ y, (y, true) ∈ btrace td (pred_steps E' ft' x [] p) → W y) →
  ∀ (E0 : Ext) (ft0 : fieldtypes), reads_in W (test_reads E0 ft0 x r p1).
Proof.
  intros H1 H2 HW E0 ft0. pose proof (operand_covered E ft r E' ft' x [] p p1 p' td W H1 H2 HW E0 ft0) as H.
  by destruct p1.
Qed.

Lemma node_covered E ft (r : datarow) E' ft' x m n1 n2 (W : place → Prop) E0 cx :
  new_node E ft m = Ok n1 → new_node E' ft' m = Ok n2 →
  ∀ k td, (∀ y, (y, true) ∈ btrace td (node_steps E' ft' x k m) → W y) →
  reads_in W (none_reads E0 cx x r k n1) ∧ reads_in W (null_reads E0 cx x r k n1) ∧
  ∀ st base t, reads_in W (every_reads E0 cx x r st base t k n1).
Proof.
  revert n1 n2. induction m as [id dc sc c ds ns p IH] using mnode_rect'. intros n1 n2 H1 H2 k td HW. simpl in *.
  apply rbind_ok in H1 as (cs1 & Hc1 & (p1 & Hp1 & [= <-])%rbind_ok).
  apply rbind_ok in H2 as (cs2 & Hc2 & (p2 & Hp2 & [= <-])%rbind_ok).
  assert (brun td (each_steps (λ i, node_steps E' ft' x (k ++ [i])) 0 ns) = (Ok cs2, td)) as Hb.
  { rewrite (brun_each _ (new_node E' ft')); [by rewrite Hc2|]. intros. apply node_alone. }
  assert (∀ y, (y, true) ∈ btrace td (pred_steps E' ft' (x k) [] p) → W y) as HWp.
  { intros y Hy. apply HW. rewrite btrace_bind, Hb. simpl. rewrite btrace_bind. set_solver. }
  pose proof (test_covered E ft r E' ft' (x k) p p1 p2 td W Hp1 Hp2 HWp E0 (cx_ft cx)) as Ht.
  assert (∀ j c1, cs1 !! j = Some c1 → reads_in W (none_reads E0 cx x r (k ++ [j]) c1) ∧ reads_in W (null_reads E0 cx x r (k ++ [j]) c1) ∧
    ∀ st base t, reads_in W (every_reads E0 cx x r st base t (k ++ [j]) c1)) as Hcs.
  { intros j c1 Hj. rewrite rmap_ok in Hc1. destruct (Forall2_lookup_r _ _ _ _ _ Hc1 Hj) as (m & Hm & Hn).
    destruct (each_ran _ _ _ _ _ _ j m Hb Hm) as (td1 & n2 & td2 & Hr & Hs). rewrite node_alone in Hr. injection Hr as Hr _.
    rewrite Forall_lookup in IH. eapply (IH j m Hm c1 n2 Hn Hr). intros y Hy. apply HW. rewrite btrace_bind.
    apply elem_of_app. left. apply Hs. exact Hy. }
  simpl. split; [|split].
  - apply within_bind; [done|]. intros [[]| |]; try done. apply until_reads_in. intros j c1 Hj. by apply Hcs.
  - apply within_bind; [done|]. intros [[]| |]; try done. apply until_reads_in. intros j c1 Hj. by apply Hcs.
  - intros st base t. apply within_bind; [done|].
    intros [[]| |]; try done; (apply within_bind; [|done]); apply each_reads_in; intros j c1 Hj; by apply Hcs.
Qed.

Lemma tree_covered E ft E' dd' n p t te td' e2 td2 (W : place → Prop) E0 tk r :
  new_node E ft (tm_node t) = Ok (et_root te) → new_tree_model E' dd' td' t = (Ok e2, td2) →
  (∀ y, (y, true) ∈ btrace td' (tree_steps E' dd' n p t) → W y) →
  reads_in W (tree_reads E0 tk (AtLiteral n p) te r).
Proof.
  intros H1 H2 HW. revert H2 HW. unfold new_tree_model, tree_steps, tree_validate. cbn [et_model].
  destruct (negb (tm_function t =s "classification") && _); [done|].
  unfold tree_compile. cbn [et_model tm_lt et_dd tm_node tm_schema et_validated et_outkeys et_target].
  destruct (new_node E' _ (tm_node t)) as [root| |] eqn:Hn; [|done..]. intros _ HW.
  unfold tree_reads. destruct (negb _); [done|]. destruct (negb _); [done|].
  destruct (handle_input E0 (tm_lt (et_model te)) r) as [[u| |] r']; [|done..]. apply within_bind; [|done].
  destruct (node_covered E ft r' E' _ (AtLiteral n p) _ _ _ W E0 (tree_ctx te) H1 Hn [] (td' ++ tm_lt t)) as (Ha & Hb & Hc).
  { intros y Hy. apply HW. apply schema_trace, target_trace, append_trace. simpl. right. rewrite btrace_bind. set_solver. }
  unfold node_reads. repeat case_match; first [done|apply Hc].
Qed.

(** The evaluator has the shape of the document. *)
Inductive shaped : emodel → doc_model → Prop :=
| shaped_tree E ft te t : new_node E ft (tm_node t) = Ok (et_root te) → shaped (ETree te) (DTree t)
| shaped_regr x r : shaped (ERegr x) (DRegr r)
| shaped_mining h sm h' segs :
    Forall2 (λ e s, ∃ d, sg_models s = [d] ∧ shaped e d) sm segs → shaped (EMining h sm) (DMining h' segs).

Lemma new_model_shaped E dd td d e td' : new_model E dd td d = (Ok e, td') → shaped e d.
Proof.
  revert td e td'. induction d as [t|r|k|h segs IH] using doc_rect'; intros td e td'.
  - intros (te & -> & -> & Hb)%new_model_tree_inv. econstructor. apply Hb.
  - intros [= <- _]. constructor.
  - done.
  - intros (sm & -> & Hs & _)%new_model_mining_inv. constructor. revert IH.
    induction Hs as [td0|td0 s segs d e es td1 td2 Hd Hn Hs IHs]; intros IH; [constructor|].
    apply Forall_cons in IH as [IHd IH]. constructor; [|by apply IHs]. exists d. split; [done|].
    rewrite Hd in IHd. apply Forall_cons in IHd as [IHd _]. by eapply IHd.
Qed.
Lemma msim_shaped e e' d : msim same_tree e e' → shaped e d → shaped e' d.
Proof.
  revert e' d. induction e as [t|x|h sm IH] using emodel_rect'; intros e' d Hm Hs.
  - inversion Hm as [? t2 Ht| |]; subst. inversion Hs as [E ft ? ? Hn| |]; subst. apply (shaped_tree E ft). unfold same_tree in Ht.
    destruct_and!. congruence.
  - inversion Hm; subst. done.
  - inversion Hm as [| |? ? sm2 Hf]; subst. inversion Hs as [| |? ? ? segs Hg]; subst. constructor.
    clear Hm Hs. revert sm2 segs Hf Hg. induction IH as [|e sm IHe _ IHs]; intros sm2 segs Hf Hg.
    + inversion Hf; subst. inversion Hg; subst. constructor.
    + inversion Hf as [|? e2 ? sm2' He Hf']; subst. inversion Hg as [|? s ? segs' (d & Hd & Hde) Hg']; subst.
      constructor; [|by apply IHs]. exists d. split; [done|]. by eapply IHe.
Qed.
Lemma after_shaped E dd td d e td' hist : new_model E dd td d = (Ok e, td') → shaped (after E hist e) d.
Proof. intros H. eapply msim_shaped; [by eapply msim_refl_of|]. by eapply new_model_shaped. Qed.

Lemma method_reads_in {M} W E tk h (ev : nat → M → datarow → bprog reply) sm r :
  (∀ j s r, sm !! j = Some s → reads_in W (ev j s r)) → reads_in W (method_reads E tk h ev sm r).
Proof.
  intros H.
  assert (∀ cl l i sc r, (∀ j s r, l !! j = Some s → reads_in W (ev (i + j) s r)) → reads_in W (sum_reads E tk cl ev i sc l r)) as Hsum.
  { intros cl l. induction l as [|s l IH]; intros i sc r0 Hl; simpl; [done|].
    apply within_bind; [rewrite <- (Nat.add_0_r i); by apply Hl|]. intros [[out| |] r1]; [|done..].
    apply IH. intros j s' r' Hj. rewrite Nat.add_succ_comm. by apply Hl. }
  assert (∀ l i last r, (∀ j s r, l !! j = Some s → reads_in W (ev (i + j) s r)) → reads_in W (chain_reads E tk ev i last l r)) as Hchain.
  { intros l. induction l as [|s l IH]; intros i last r0 Hl; simpl; [done|]. destruct (copy_into _ _ _ _) as [r1| |]; [|done..].
    apply within_bind; [rewrite <- (Nat.add_0_r i); by apply Hl|]. intros [[out| |] r2]; [|done..].
    apply IH. intros j s' r' Hj. rewrite Nat.add_succ_comm. by apply Hl. }
  assert (reads_in W (total_reads E tk h ev sm r)) as Htot.
  { apply within_bind; [apply Hsum; apply H|by intros []]. }
  unfold method_reads. repeat case_match; subst.
  - apply within_bind; [done|by intros []].
  - apply within_bind; [done|by intros []].
  - by apply Hchain.
  - done.
  - by apply H.
  - done.
Qed.

Theorem model_covered d : ∀ e E' dd' n p td' e2 td2 (W : place → Prop) E0 tk r,
  shaped e d → new_model E' dd' td' d = (Ok e2, td2) →
  (∀ y, (y, true) ∈ btrace td' (build_steps E' dd' n p d) → W y) →
  reads_in W (evaluate_reads E0 n tk p e r).
Proof.
  induction d as [t|r0|k|h segs IH] using doc_rect'; intros e E' dd' n p td' e2 td2 W E0 tk r Hs Hn HW.
  - inversion Hs as [E ft te ? Ht| |]; subst. simpl in *. destruct (new_tree_model E' dd' td' t) as [[e3| |] td3] eqn:Hn'; [|done..].
    eapply tree_covered; [done|done|]. intros y Hy. apply HW. rewrite btrace_bind. set_solver.
  - inversion Hs; subst. done.
  - done.
  - inversion Hs as [| |h1 sm ? ? Hf]; subst. simpl. destruct (negb _); [done|]. destruct (negb _); [done|].
    destruct (impute _ _ _ _) as [r1| |]; [|done..]. destruct (handle_input _ _ _) as [[u| |] r2]; [|done..].
    split; [done|]. apply method_reads_in. intros j s r3 Hj.
    destruct (Forall2_lookup_l _ _ _ _ _ Hf Hj) as (sg & Hsg & d & Hd & Hsd).
    rewrite <- (build_alone E' dd' n p) in Hn. simpl in Hn, HW.
    assert (∃ m1, mining_validate (mining_fresh dd' h segs) = (Ok tt, m1)) as [m1 Hv].
    { destruct (mining_validate _) as [[[]| |] m1]; [by exists m1|..]; exfalso; destruct (mm_method h =s ""); done. }
    rewrite Hv in Hn, HW.
    assert (∃ sm2 td3, brun (td' ++ mm_lt h) (segment_steps (λ i d, build_steps E' dd' n (p ++ [i]) d) 0 segs) = (Ok sm2, td3)) as (sm2 & td3 & Hb).
    { assert (∀ A (b : bool) x (m : bprog A), brun td' ((if b then BTouch true x else id) m) = brun td' m) as Hif by (by intros A [] x m).
      rewrite Hif, brun_append in Hn. cbn [brun] in Hn. rewrite brun_bind in Hn.
      destruct (brun (td' ++ mm_lt h) (segment_steps _ 0 segs)) as [[sm2|e'|e'] td3]; [by eauto|done..]. }
    destruct (each_ran _ _ _ _ _ _ j sg Hb Hsg) as (td4 & e4 & td5 & Hr & Hsub). cbn beta in Hr, Hsub. rewrite Hd in Hr, Hsub. cbn [plus] in Hr, Hsub.
    rewrite build_alone in Hr. rewrite Forall_lookup in IH. specialize (IH j sg Hsg). rewrite Hd in IH. apply Forall_cons in IH as [IH _].
    eapply IH; [done|done|]. intros y Hy. apply HW. right.
    assert (∀ A (b : bool) x (m : bprog A) y, y ∈ btrace td' m → y ∈ btrace td' ((if b then BTouch true x else id) m)) as Hif
      by (intros A [] x m z Hz; [by right|done]).
    apply Hif, append_trace. simpl. right. rewrite btrace_bind. apply elem_of_app. left. apply Hsub. exact Hy.
Qed.
End beside.
