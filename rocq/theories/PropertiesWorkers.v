(** One evaluator per goroutine: C121. *)
From Verif Require Import Base Strconv Value Doc Expr Pred Tree Regression Model Lib GoExt Samples
  ProofsWhole ProofsSim ProofsHistory Race ProofsRace Workers PropertiesRace.

(** An evaluator that NewModel returned, after any calls. *)
Definition in_use (E : Ext) (e : emodel) : Prop :=
  ∃ dd td d e0 td' hist, new_model E dd td d = (Ok e0, td') ∧ e = after E hist e0.

Lemma in_use_sim E e : in_use E e → msim same_tree e e.
Proof. intros (dd & td & d & e0 & td' & hist & Hn & ->). by eapply after_msim. Qed.

Lemma all_caches_ok E es : Forall (in_use E) es → store_ok (all_caches es).
Proof.
  intros He [|j p] v k; [done|]. simpl. destruct (es !! j) as [e|] eqn:Hj; [|done].
  rewrite Forall_lookup in He. apply caches_ok. by eapply in_use_sim, He.
Qed.

Lemma worker_memo E es jobs : Forall (in_use E) es →
  ∃ l, memo (alone E es jobs) l (worker_steps E es jobs) ∧ ∀ p v, (p, v) ∈ l → ∃ j q, j ∈ jobs ∧ p = j_model j :: q.
Proof.
  intros He. induction jobs as [|j jobs (l & Hm & Hl)]; [exists []; split; [constructor|set_solver]|].
  simpl. destruct (es !! j_model j) as [e|] eqn:Hj; simpl.
  - rewrite Forall_lookup in He. pose proof (in_use_sim _ _ (He _ _ Hj)) as Hs.
    destruct (evaluate E (j_ticket j) e (j_row j)) as [[o r'] e'] eqn:Hev.
    destruct (evaluate_memo E _ [j_model j] e _ o r' e' Hs Hev) as (l1 & Hm1 & _ & Hb). simpl.
    exists (l1 ++ l). split.
    + eapply memo_bind; [done|]. apply (memo_map (alone E es jobs) l _ (λ x, (o, r') :: x)). done.
    + intros p v [Hin|Hin]%elem_of_app.
      * destruct (Hb p v Hin) as [q ->]. exists j, q. split; [by left|done].
      * destruct (Hl p v Hin) as (j' & q & ? & ?). exists j', q. split; [by right|done].
  - exists l. split; [done|]. intros p v Hin. destruct (Hl p v Hin) as (j' & q & ? & ?).
    exists j', q. split; [by right|done].
Qed.

(** every access is one its goroutine announced *)
Lemma exec_within {A} (P : nat → list nat → Prop) σ (ths : list (prog A)) tr σ' ths' :
  exec σ ths tr σ' ths' → store_ok σ →
  (∀ i m, ths !! i = Some m → ∃ a l, running a l m ∧ ∀ p v, (p, v) ∈ l → P i p) →
  Forall (λ a, P (a_by a) (a_cache a)) tr.
Proof.
  induction 1 as [|σ ths a σ1 ths1 tr σ2 ths2 Hs _ IH]; [constructor|]. intros Hσ Hp.
  destruct Hs as [σ ths i p v k Hi|σ ths i p v key k Hi]; destruct (Hp i _ Hi) as (b & l & Hr & Hl).
  - inversion Hr as [? ? Hm|]; subst. inversion Hm as [|? ? ? l' k' H1 H2 H3]; subst.
    constructor; [apply (Hl p v); by left|]. apply IH; [done|]. intros i' m' Hi'.
    destruct (decide (i = i')) as [<-|Hne].
    + rewrite list_lookup_insert in Hi' by (by eapply lookup_lt_Some). injection Hi' as <-.
      destruct (σ p v) as [key|] eqn:Hk.
      * rewrite (Hσ _ _ _ Hk). exists b, l'. split; [by apply run_memo|]. intros q w Hin. apply (Hl q w). by right.
      * rewrite H1. exists b, ((p, v) :: l'). split; [by apply run_put|done].
    + rewrite list_lookup_insert_ne in Hi' by done. by apply Hp.
  - inversion Hr as [? ? Hm|? ? ? ? Hm]; subst; [inversion Hm|].
    constructor; [apply (Hl p v); by left|]. apply IH; [by apply store_put_ok|]. intros i' m' Hi'.
    destruct (decide (i = i')) as [<-|Hne].
    + rewrite list_lookup_insert in Hi' by (by eapply lookup_lt_Some). injection Hi' as <-.
      eexists b, _. split; [by apply run_memo|]. intros q w Hin. apply (Hl q w). by right.
    + rewrite list_lookup_insert_ne in Hi' by done. by apply Hp.
Qed.

(** *** C121: goroutines that share no evaluator never race, however the evaluators
    were built and used before, and however many calls each goroutine makes *)
Theorem C121_own_evaluator : ∀ E es work tr σ ths,
  Forall (in_use E) es →
  (∀ i1 i2 jobs1 jobs2 a b, work !! i1 = Some jobs1 → work !! i2 = Some jobs2 → i1 ≠ i2 →
     a ∈ jobs1 → b ∈ jobs2 → j_model a ≠ j_model b) →
  exec (all_caches es) (workers E es work) tr σ ths → ¬ racy tr.
Proof.
  intros E es work tr σ ths He Hdis Hex (a & b & Ha & Hb & Hne & Hc & _).
  assert (Forall (λ a, ∃ jobs j q, work !! a_by a = Some jobs ∧ j ∈ jobs ∧ a_cache a = j_model j :: q) tr) as Hw.
  { apply (exec_within (λ i p, ∃ jobs j q, work !! i = Some jobs ∧ j ∈ jobs ∧ p = j_model j :: q) _ _ _ _ _ Hex);
      [by eapply all_caches_ok|].
    intros i m Hi. unfold workers in Hi. rewrite list_lookup_fmap in Hi.
    destruct (work !! i) as [jobs|] eqn:Hj; simpl in Hi; [|done]. injection Hi as <-.
    destruct (worker_memo E es jobs He) as (l & Hm & Hl). exists (alone E es jobs), l. split; [by apply run_memo|].
    intros p v Hin. destruct (Hl p v Hin) as (j & q & ? & ?). eauto 6. }
  rewrite Forall_forall in Hw. destruct (Hw a Ha) as (j1 & x & q1 & Hj1 & Hx & Ha1).
  destruct (Hw b Hb) as (j2 & y & q2 & Hj2 & Hy & Hb1). rewrite Ha1, Hb1 in Hc. injection Hc as Hc _.
  by apply (Hdis _ _ _ _ x y Hj1 Hj2 Hne Hx Hy).
Qed.
Print Assumptions C121_own_evaluator.

(** Each goroutine can always finish, and then holds the replies that its calls give
    one by one on the evaluators as they were. *)
Theorem C121_replies : ∀ E es work tr σ ths i jobs,
  Forall (in_use E) es →
  exec (all_caches es) (workers E es work) tr σ ths → work !! i = Some jobs →
  (∀ l, ths !! i = Some (Ret l) → l = alone E es jobs) ∧
  ∃ tr' σ', exec σ ths tr' σ' (<[i := Ret (alone E es jobs)]> ths).
Proof.
  intros E es work tr σ ths i jobs He Hex Hi.
  assert (∀ tr σ ths l, exec (all_caches es) (workers E es work) tr σ ths → ths !! i = Some (Ret l) → l = alone E es jobs) as Hans.
  { intros tr0 σ0 ths0 l Hex0 Ha.
    destruct (exec_pool (alone E es <$> work) _ _ _ _ _ Hex0) as [_ Hp].
    - by eapply all_caches_ok.
    - unfold pool, workers. apply Forall2_fmap. apply Forall2_same_length_lookup. split; [done|].
      intros j x y Hx Hy. simplify_eq. destruct (worker_memo E es x He) as (l' & Hm & _). exists l'. by apply run_memo.
    - destruct (Forall2_lookup_r _ _ _ _ _ Hp Ha) as (b & Hb & l' & Hr).
      rewrite list_lookup_fmap, Hi in Hb. simpl in Hb. simplify_eq.
      inversion Hr as [? ? Hm|]; subst. by inversion Hm. }
  split; [intros l; by apply (Hans _ _ _ l Hex)|].
  assert (length ths = length work) as Hlen.
  { transitivity (length (workers E es work)); [|unfold workers; by rewrite fmap_length].
    clear -Hex. induction Hex as [|σ ths a σ1 ths1 tr σ2 ths2 Hs _ IH]; [done|]. rewrite IH.
    destruct Hs; by rewrite insert_length. }
  destruct (lookup_lt_is_Some_2 ths i) as [m Hm]; [rewrite Hlen; by eapply lookup_lt_Some|].
  destruct (can_finish σ ths i m Hm) as (tr' & σ' & a & Hf). exists tr', σ'.
  rewrite <- (Hans _ _ _ a (exec_app _ _ _ _ _ _ _ _ Hex Hf)); [done|].
  apply list_lookup_insert. by eapply lookup_lt_Some.
Qed.
Print Assumptions C121_replies.

(** Two evaluators of the golf document, one per goroutine, two calls each; shared,
    the same evaluator would race (C33_race_refuted). *)
Example C121_example :
  let e := built go_ext golf_dd (golf "lastPrediction") in
  let es := [e; e] in
  let work := [[Job 0 [] golf_row; Job 0 [] (Some ∅)]; [Job 1 [] golf_row; Job 1 [] golf_row]] in
  Forall (in_use go_ext) es ∧
  (∀ i1 i2 jobs1 jobs2 a b, work !! i1 = Some jobs1 → work !! i2 = Some jobs2 → i1 ≠ i2 →
     a ∈ jobs1 → b ∈ jobs2 → j_model a ≠ j_model b) ∧
  map (λ a, a.1) (alone go_ext es [Job 0 [] golf_row]) = [(evaluate go_ext [] e golf_row).1.1] ∧
  is_ok (evaluate go_ext [] e golf_row).1.1 = true.
Proof.
  cbv zeta. split; [|split; [|split; by vm_compute]].
  - assert (in_use go_ext (built go_ext golf_dd (golf "lastPrediction"))) as H; [|by repeat constructor].
    exists golf_dd, [], (golf "lastPrediction"), (built go_ext golf_dd (golf "lastPrediction")),
      (new_model go_ext golf_dd [] (golf "lastPrediction")).2, []. split; [apply built_ok; by vm_compute|done].
  - intros [|[|?]] [|[|?]] ? ? ? ? ? ? ? Ha Hb; simplify_eq/=; set_solver.
Qed.
