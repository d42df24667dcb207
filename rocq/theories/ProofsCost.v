(** The accesses of an Evaluate call: none twice, and how many. *)
From Verif Require Import Base Strconv Value Doc Expr Pred Tree Regression Model Lib SpecTree SpecConstruct ProofsConstruct
  ProofsEval ProofsDoc ProofsWhole ProofsSim ProofsHistory Race Build SpecBuild ProofsBuild Beside SpecBeside ProofsBeside SpecCost.

Definition touched {A} (td : list derived_field) (m : bprog A) : list place := (btrace td m).*1.
Definition lits (l : list place) : nat := length (filter is_literal l).
Lemma lits_app l1 l2 : lits (l1 ++ l2) = lits l1 + lits l2.
Proof. unfold lits. by rewrite filter_app, app_length. Qed.
Lemma lits_cons x l : lits (x :: l) = (if is_literal x then 1 else 0) + lits l.
Proof.
  unfold lits. rewrite filter_cons. destruct (decide (is_literal x)) as [H|H]; destruct (is_literal x); done.
Qed.
Lemma touched_bind {A B} td (m : bprog A) (f : A → bprog B) :
  touched td (bbind m f) = touched td m ++ touched (brun td m).2 (f (brun td m).1).
Proof. unfold touched. by rewrite btrace_bind, fmap_app. Qed.

Lemma lits_ret {A} td (a : A) : lits (touched td (BRet a)) = 0.
Proof. done. Qed.

(** All accesses are of places in [P], none is repeated, at most [n] are of literals. *)
Definition tidy {A} (P : place → Prop) (n : nat) (m : bprog A) : Prop :=
  ∀ td, Forall P (touched td m) ∧ NoDup (touched td m) ∧ lits (touched td m) ≤ n.
Lemma tidy_ret {A} P n (a : A) : tidy P n (BRet a).
Proof. intros td. split; [constructor|]. split; [constructor|]. unfold lits. simpl. lia. Qed.
Lemma tidy_mono {A} (P Q : place → Prop) n k (m : bprog A) : tidy P n m → (∀ x, P x → Q x) → n ≤ k → tidy Q k m.
Proof.
  intros H HQ Hk td. destruct (H td) as (H1 & H2 & H3). split; [by eapply Forall_impl|]. split; [done|]. lia.
Qed.
Lemma tidy_bind {A B} (P Q : place → Prop) n k (m : bprog A) (f : A → bprog B) :
  tidy P n m → (∀ a, tidy Q k (f a)) → (∀ x, P x → Q x → False) → tidy (λ x, P x ∨ Q x) (n + k) (bbind m f).
Proof.
  intros H1 H2 Hd td. rewrite touched_bind. destruct (H1 td) as (A1 & A2 & A3).
  destruct (H2 (brun td m).1 (brun td m).2) as (B1 & B2 & B3). split; [|split].
  - apply Forall_app. split; (eapply Forall_impl; [done|]; auto).
  - apply NoDup_app. split; [done|]. split; [|done]. intros x Hx Hy. rewrite Forall_forall in A1, B1. eauto.
  - rewrite lits_app. lia.
Qed.
Lemma tidy_touch {A} (P Q : place → Prop) n x (m : bprog A) : tidy P n m → ¬ P x → Q x → (∀ y, P y → Q y) →
  tidy Q ((if is_literal x then 1 else 0) + n) (BTouch false x m).
Proof.
  intros H Hx HQ HPQ td. destruct (H td) as (H1 & H2 & H3).
  assert (touched td (BTouch false x m) = x :: touched td m) as -> by done. split; [|split].
  - constructor; [done|]. eapply Forall_impl; [exact H1|done].
  - constructor; [|done]. intros Hin. rewrite Forall_forall in H1. by apply Hx, H1.
  - rewrite lits_cons. lia.
Qed.

(** ** Loops: the places of the i-th round are [P i] *)
Definition apart (P : nat → place → Prop) : Prop := ∀ i j x, P i x → P j x → i = j.
Definition from (P : nat → place → Prop) (i : nat) (x : place) : Prop := ∃ j, i ≤ j ∧ P j x.

Lemma round_tidy {A B} (P : nat → place → Prop) i n k (m : bprog A) (f : A → bprog B) : apart P →
  tidy (P i) n m → (∀ a, tidy (from P (S i)) k (f a)) → tidy (from P i) (n + k) (bbind m f).
Proof.
  intros HP Hm Hf. eapply tidy_mono; [apply (tidy_bind (P i) (from P (S i))); [done|done|]| |done].
  - intros x Hx (j & Hj & Hxj). pose proof (HP _ _ _ Hx Hxj). lia.
  - intros x [Hx|(j & Hj & Hx)]; [by exists i|]. exists j. split; [lia|done].
Qed.

Lemma compound_tidy P ev b n (c : predicate → nat) l : apart P → ∀ i tc uc,
  (∀ j p, l !! j = Some p → tidy (P (i + j)) (c p) (ev (i + j) p)) →
  tidy (from P i) (sum_list (map c l)) (compound_reads ev b n i l tc uc).
Proof.
  intros HP. induction l as [|p l IH]; intros i tc uc H; simpl; [apply tidy_ret|].
  apply round_tidy; [done|pose proof (H 0 p eq_refl) as H0; by rewrite Nat.add_0_r in H0|].
  assert (∀ tc uc, tidy (from P (S i)) (sum_list (map c l)) (compound_reads ev b n (S i) l tc uc)) as Hl.
  { intros tc' uc'. apply IH. intros j q Hj. rewrite Nat.add_succ_comm. by apply H. }
  intros [v|e|x]; [|apply tidy_ret..]. destruct ((b =s "surrogate") && _); [apply tidy_ret|]. destruct v; apply Hl.
Qed.
Lemma until_tidy P f stop dflt (c : node → nat) l : apart P → ∀ i,
  (∀ j p, l !! j = Some p → tidy (P (i + j)) (c p) (f (i + j) p)) →
  tidy (from P i) (sum_list (map c l)) (until_reads f stop dflt i l).
Proof.
  intros HP. induction l as [|p l IH]; intros i H; simpl; [apply tidy_ret|].
  apply round_tidy; [done|pose proof (H 0 p eq_refl) as H0; by rewrite Nat.add_0_r in H0|].
  intros [[s v]|e|x]; [|apply tidy_ret..]. destruct (stop s v); [apply tidy_ret|].
  apply IH. intros j q Hj. rewrite Nat.add_succ_comm. by apply H.
Qed.
Lemma each_tidy {A B} P (f : nat → A → bprog (res B)) (c : A → nat) l : apart P → ∀ i,
  (∀ j p, l !! j = Some p → tidy (P (i + j)) (c p) (f (i + j) p)) →
  tidy (from P i) (sum_list (map c l)) (each_steps f i l).
Proof.
  intros HP. induction l as [|p l IH]; intros i H; simpl; [apply tidy_ret|].
  apply round_tidy; [done|pose proof (H 0 p eq_refl) as H0; by rewrite Nat.add_0_r in H0|].
  intros [s|e|x]; [|apply tidy_ret..].
  eapply tidy_mono; [apply (tidy_bind (from P (S i)) (λ _, False) (sum_list (map c l)) 0); [apply IH|intros; apply tidy_ret|done]| |lia].
  - intros j q Hj. rewrite Nat.add_succ_comm. by apply H.
  - by intros y [Hy|[]].
Qed.
(** the costs of the segments, one by one *)
Definition priced {M} (P : nat → place → Prop) (ev : nat → M → datarow → bprog reply) (i : nat) (l : list M) (cs : list nat) : Prop :=
  ∀ j s, l !! j = Some s → ∃ n, cs !! j = Some n ∧ ∀ r, tidy (P (i + j)) n (ev (i + j) s r).
Lemma priced_cons {M} P (ev : nat → M → datarow → bprog reply) i s l cs : priced P ev i (s :: l) cs →
  ∃ n cs', cs = n :: cs' ∧ (∀ r, tidy (P i) n (ev i s r)) ∧ priced P ev (S i) l cs'.
Proof.
  intros H. destruct (H 0 s eq_refl) as (n & Hn & Ht). destruct cs as [|n' cs']; [done|]. simpl in Hn. injection Hn as ->.
  exists n, cs'. split; [done|]. rewrite Nat.add_0_r in Ht. split; [done|]. intros j q Hj. rewrite Nat.add_succ_comm.
  destruct (H (S j) q Hj) as (n' & Hn' & Ht'). by exists n'.
Qed.
Lemma sum_tidy {M} P E tk cl (ev : nat → M → datarow → bprog reply) l : apart P → ∀ cs i sc r,
  priced P ev i l cs → tidy (from P i) (sum_list cs) (sum_reads E tk cl ev i sc l r).
Proof.
  intros HP. induction l as [|p l IH]; intros cs i sc r H; simpl; [apply tidy_ret|].
  apply priced_cons in H as (n & cs' & -> & Hn & H). simpl. apply round_tidy; [done|done|].
  intros [[out|e|x] r1]; [|apply tidy_ret..]. by apply IH.
Qed.
Lemma chain_tidy {M} P E tk (ev : nat → M → datarow → bprog reply) l : apart P → ∀ cs i last r,
  priced P ev i l cs → tidy (from P i) (sum_list cs) (chain_reads E tk ev i last l r).
Proof.
  intros HP. induction l as [|p l IH]; intros cs i last r H; simpl; [apply tidy_ret|].
  apply priced_cons in H as (n & cs' & -> & Hn & H). simpl.
  destruct (copy_into _ _ _ _) as [r1|e|x]; [|apply tidy_ret..]. apply round_tidy; [done|done|].
  intros [[out|e|x] r2]; [|apply tidy_ret..]. by apply IH.
Qed.

(** ** Predicates *)
Definition below (x : list nat → place) (q : list nat) (y : place) : Prop := ∃ s, y = x (q ++ s).
Lemma below_apart x q : Inj (=) (=) x → apart (λ i, below x (q ++ [i])).
Proof.
  intros Hx i j y [s ->] [s' H]. apply Hx in H. rewrite <- !app_assoc in H. apply app_inv_head in H. by simplify_eq.
Qed.
Lemma below_child x q i y : below x (q ++ [i]) y → below x q y.
Proof. intros [s ->]. exists ([i] ++ s). by rewrite app_assoc. Qed.

Lemma operand_tidy E ft x r p : Inj (=) (=) x → ∀ q, tidy (below x q) (simples p) (operand_reads E ft x r q p).
Proof.
  intros Hx. induction p as [| |f op v raw|b ps IH|b f a|] using predicate_rect'; intros q; simpl; try apply tidy_ret.
  - unfold simple_reads. destruct (ft !! f); [|apply tidy_ret].
    eapply tidy_mono; [apply (tidy_touch (λ _, False) (below x q) 0); [apply tidy_ret|tauto|exists []; by rewrite app_nil_r|done]|done|].
    destruct (is_literal (x q)); lia.
  - eapply tidy_mono; [apply (compound_tidy (λ i, below x (q ++ [i]))); [by apply below_apart|]| |done].
    + intros j p Hj. rewrite Forall_lookup in IH. by apply (IH j p Hj).
    + intros y (j & _ & Hy). by eapply below_child.
Qed.
Lemma test_tidy E ft x r p : Inj (=) (=) x → tidy (below x []) (simples p) (test_reads E ft x r p).
Proof. intros Hx. destruct p; try apply tidy_ret; by apply (operand_tidy E ft x r _ Hx []). Qed.

Lemma compile_simples E ft p p1 : compile_predicate E ft p = Ok p1 → simples p1 = simples p.
Proof.
  revert p1. induction p as [| |f op v raw|b ps IH|b f a|] using predicate_rect'; intros p1 H; simpl in *; simplify_eq; try done.
  - destruct (ft !! f); [|done]. by apply rbind_ok in H as (raw1 & _ & [= <-]).
  - apply rbind_ok in H as (ps1 & H & [= <-]). simpl. rewrite rmap_ok in H. f_equal.
    induction H as [|p p1 ps ps1 Hp H IHl]; [done|]. apply Forall_cons in IH as [IHp IH]. simpl. f_equal; [by apply IHp|by apply IHl].
Qed.

(** ** Nodes *)
Definition inside (x : list nat → list nat → place) (k : list nat) (y : place) : Prop := ∃ s q, y = x (k ++ s) q.
Definition own (x : list nat → list nat → place) (k : list nat) (y : place) : Prop := ∃ q, y = x k q.
Definition distinct (x : list nat → list nat → place) : Prop := ∀ k q k' q', x k q = x k' q' → k = k' ∧ q = q'.
Lemma inside_apart x k : distinct x → apart (λ i, inside x (k ++ [i])).
Proof.
  intros Hx i j y (s & q & ->) (s' & q' & H). apply Hx in H as [H _]. rewrite <- !app_assoc in H. apply app_inv_head in H.
  by simplify_eq.
Qed.
Lemma inside_child x k i y : inside x (k ++ [i]) y → inside x k y.
Proof. intros (s & q & ->). exists ([i] ++ s), q. by rewrite app_assoc. Qed.
Lemma own_inside x k y : own x k y → inside x k y.
Proof. intros (q & ->). exists [], q. by rewrite app_nil_r. Qed.
Lemma own_apart x k i y : distinct x → own x k y → from (λ i, inside x (k ++ [i])) i y → False.
Proof.
  intros Hx (q & ->) (j & _ & s & q' & H). apply Hx in H as [H _]. rewrite <- app_assoc in H.
  apply (f_equal length) in H. rewrite !app_length in H. simpl in H. lia.
Qed.
Lemma own_test E ft x k r p : distinct x → tidy (own x k) (simples p) (test_reads E ft (x k) r p).
Proof.
  intros Hx. eapply tidy_mono; [apply test_tidy|intros y (s & ->); by exists s|done]. intros q q' H. by apply Hx in H as [_ ?].
Qed.
Lemma node_bind {A B} x k n n' (m : bprog A) (f : A → bprog B) : distinct x →
  tidy (own x k) n m → (∀ a, tidy (from (λ i, inside x (k ++ [i])) 0) n' (f a)) → tidy (inside x k) (n + n') (bbind m f).
Proof.
  intros Hx Hm Hf. eapply tidy_mono; [apply (tidy_bind (own x k) (from (λ i, inside x (k ++ [i])) 0) n n'); [done|exact Hf|]| |done].
  - intros y. by apply own_apart.
  - intros y [Hy|(j & _ & Hy)]; [by apply own_inside|by eapply inside_child].
Qed.

Fixpoint node_simples (n : node) : nat :=
  match n with Node _ _ cs _ p _ => simples p + sum_list (map node_simples cs) end.
Lemma new_node_simples E ft m n : new_node E ft m = Ok n → node_simples n = all_simples m.
Proof.
  revert n. induction m as [id dc sc c ds ns p IH] using mnode_rect'. intros n H. simpl in *.
  apply rbind_ok in H as (cs & Hc & (p1 & Hp & [= <-])%rbind_ok). simpl. rewrite (compile_simples _ _ _ _ Hp). f_equal.
  rewrite rmap_ok in Hc. f_equal. induction Hc as [|m n ns cs Hm H IHl]; [done|]. apply Forall_cons in IH as [IHm IH].
  simpl. f_equal; [by apply IHm|by apply IHl].
Qed.

Lemma none_tidy E cx x r n : distinct x → ∀ k, tidy (inside x k) (node_simples n) (none_reads E cx x r k n).
Proof.
  intros Hx. induction n as [id dc cs ds test sc IH] using node_rect'; intros k. cbn [none_reads node_simples].
  apply node_bind; [done|by apply own_test|]. intros [[]|e|e]; try apply tidy_ret.
  apply until_tidy; [by apply inside_apart|]. intros j c Hj. rewrite Forall_lookup in IH. by apply (IH j c Hj).
Qed.
Lemma null_tidy E cx x r n : distinct x → ∀ k, tidy (inside x k) (node_simples n) (null_reads E cx x r k n).
Proof.
  intros Hx. induction n as [id dc cs ds test sc IH] using node_rect'; intros k. cbn [null_reads node_simples].
  apply node_bind; [done|by apply own_test|]. intros [[]|e|e]; try apply tidy_ret.
  apply until_tidy; [by apply inside_apart|]. intros j c Hj. rewrite Forall_lookup in IH. by apply (IH j c Hj).
Qed.
Lemma every_tidy E cx x r st base n : distinct x → ∀ t k, tidy (inside x k) (node_simples n) (every_reads E cx x r st base t k n).
Proof.
  intros Hx. induction n as [id dc cs ds test sc IH] using node_rect'; intros t k. cbn [every_reads node_simples].
  assert (∀ s : scored, tidy (from (λ i, inside x (k ++ [i])) 0) (sum_list (map node_simples cs))
    (bbind (each_steps (λ i, every_reads E cx x r st base (base + i :: t) (k ++ [i])) 0 cs) (λ _, BRet s))) as Hc.
  { intros s. eapply tidy_mono; [apply (tidy_bind (from (λ i, inside x (k ++ [i])) 0) (λ _, False) (sum_list (map node_simples cs)) 0); [|intros; apply tidy_ret|done]| |].
    - apply (each_tidy _ _ node_simples); [by apply inside_apart|]. intros j c Hj. rewrite Forall_lookup in IH. by apply (IH j c Hj).
    - by intros y [Hy|[]].
    - lia. }
  apply node_bind; [done|by apply own_test|]. intros [[]|e|e]; try apply tidy_ret; apply Hc.
Qed.
Lemma node_tidy E cx st x r t n : distinct x → tidy (inside x []) (node_simples n) (node_reads E cx st x r t n).
Proof.
  intros Hx. unfold node_reads. repeat case_match; first [by apply null_tidy|by apply every_tidy|by apply none_tidy].
Qed.

(** ** One path *)
Lemma until_result f stop dflt (Q : presult → Prop) : Q dflt.2 → (∀ s v a, stop s v = Some a → Q a.2) →
  ∀ l i td s v, (brun td (until_reads f stop dflt i l)).1 = Ok (s, v) → Q v.
Proof.
  intros Hd Hs. induction l as [|c l IH]; intros i td s v; simpl; [by intros [= ->]|]. rewrite brun_bind.
  destruct (brun td (f i c)) as [[[s' v']|e|e] td1]; simpl; [|done..].
  destruct (stop s' v') as [a|] eqn:Ha; simpl; [intros [= ->]; by apply (Hs _ _ _ Ha)|]. apply IH.
Qed.
Lemma until_path f stop dflt a b l : ∀ i td,
  (∀ j c, l !! j = Some c → ∀ td, lits (touched td (f (i + j) c)) ≤ a + b ∧
     ∀ s v, (brun td (f (i + j) c)).1 = Ok (s, v) → stop s v = None → lits (touched td (f (i + j) c)) ≤ a) →
  lits (touched td (until_reads f stop dflt i l)) ≤ length l * a + b.
Proof.
  induction l as [|c l IH]; intros i td H; [unfold lits; simpl; lia|]. cbn [until_reads]. rewrite touched_bind, lits_app.
  destruct (H 0 c eq_refl td) as [H1 H2]. rewrite Nat.add_0_r in H1, H2. cbn [length Nat.mul]. unfold scored in *.
  destruct (brun td (f i c)) as [[[s v]|e|e] td1]; cbn [fst snd] in *.
  - destruct (stop s v) as [x|] eqn:Hs.
    + cbn match. rewrite lits_ret. nia.
    + apply (Nat.le_trans _ (a + (length l * a + b))); [|lia]. apply Nat.add_le_mono; [exact (H2 s v eq_refl Hs)|].
      apply IH. intros j c' Hj. rewrite Nat.add_succ_comm. by apply H.
  - rewrite lits_ret. nia.
  - rewrite lits_ret. nia.
Qed.

Lemma max_in {A} (f : A → nat) l a : a ∈ l → f a ≤ max_list (map f l).
Proof.
  induction l as [|b l IH]; [by intros ?%elem_of_nil|]. simpl. intros [->|H]%elem_of_cons; [lia|]. specialize (IH H). lia.
Qed.

(** What a node does beyond its own test. *)
Definition deeper (s w : nat) (m : mnode) : nat := s * (w * (levels m - 1)).
Lemma deep_arith n s w l : 1 ≤ l → n ≤ w → n * s + s * (w * (l - 1)) ≤ s * (w * l).
Proof. intros H1 H2. destruct l as [|l]; [lia|]. rewrite Nat.sub_succ, Nat.sub_0_r. nia. Qed.
Lemma path_bound E0 ft0 E cx x r s w m : ∀ n, new_node E0 ft0 m = Ok n → longest m ≤ s → widest m ≤ w → distinct x → ∀ k td,
  (lits (touched td (none_reads E cx x r k n)) ≤ s + deeper s w m ∧
   ∀ sc v, (brun td (none_reads E cx x r k n)).1 = Ok (sc, v) → v ≠ RT → lits (touched td (none_reads E cx x r k n)) ≤ s) ∧
  (lits (touched td (null_reads E cx x r k n)) ≤ s + deeper s w m ∧
   ∀ sc v, (brun td (null_reads E cx x r k n)).1 = Ok (sc, v) → v = RF → lits (touched td (null_reads E cx x r k n)) ≤ s).
Proof.
  induction m as [id dc sc c ds ns p IH] using mnode_rect'. intros n H Hs Hw Hx k td. cbn [new_node] in H.
  apply rbind_ok in H as (cs & Hc & (p1 & Hp & [= <-])%rbind_ok). rewrite rmap_ok in Hc. cbn [longest widest] in Hs, Hw.
  pose proof (compile_simples _ _ _ _ Hp) as Hsp.
  destruct (own_test E (cx_ft cx) x k r p1 Hx td) as (_ & _ & Ht).
  assert (∀ j c, cs !! j = Some c → ∃ m, m ∈ ns ∧ new_node E0 ft0 m = Ok c) as Hcs.
  { intros j c1 Hj. destruct (Forall2_lookup_r _ _ _ _ _ Hc Hj) as (m & Hm & Hn). exists m. split; [by eapply elem_of_list_lookup_2|done]. }
  pose proof (Forall2_length _ _ _ Hc) as Hlen.
  set (b := s * (w * (max_list (map levels ns) - 1))).
  assert (length cs * s + b ≤ deeper s w (MNode id dc sc c ds ns p)) as Hdeep.
  { unfold deeper, b. cbn [levels]. rewrite Nat.sub_succ, Nat.sub_0_r. rewrite <- Hlen.
    destruct ns as [|m0 ns']; [simpl; lia|].
    assert (1 ≤ max_list (map levels (m0 :: ns'))) by (destruct m0; simpl; lia).
    assert (length (m0 :: ns') ≤ w) by exact (Nat.le_trans _ _ _ (Nat.le_max_l _ _) Hw).
    by apply deep_arith. }
  assert (∀ m, m ∈ ns → longest m ≤ s ∧ widest m ≤ w ∧ deeper s w m ≤ b) as Hb.
  { intros m Hm. pose proof (max_in longest ns m Hm). pose proof (max_in widest ns m Hm). pose proof (max_in levels ns m Hm).
    split; [lia|]. split; [lia|]. unfold deeper, b. apply Nat.mul_le_mono_l, Nat.mul_le_mono_l. lia. }
  rewrite Forall_forall in IH.
  split.
  - cbn [none_reads]. rewrite touched_bind, brun_bind, lits_app.
    destruct (brun td (test_reads E (cx_ft cx) (x k) r p1)) as [[[]|e|e] td1]; cbn [fst snd];
      try (rewrite lits_ret; split; [lia|]; intros; lia).
    assert (∀ td, lits (touched td (until_reads (λ i, none_reads E cx x r (k ++ [i])) (λ s v, match v with RT => Some (s, RT) | _ => None end)
      (output_dist cx (Node id dc cs (convert_dists ds) p1 (Score sc fzero fzero c)), RT) 0 cs)) ≤ length cs * s + b) as Hl.
    { intros td2. apply until_path. intros j c1 Hj td3. destruct (Hcs j c1 Hj) as (m & Hm & Hn). destruct (Hb m Hm) as (B1 & B2 & B3).
      destruct (IH m Hm c1 Hn B1 B2 Hx (k ++ [0 + j]) td3) as [[I1 I2] _]. split; [exact (Nat.le_trans _ _ _ I1 (proj1 (Nat.add_le_mono_l _ _ s) B3))|]. intros s1 v1 Hr Hst. apply (I2 s1 v1 Hr).
      intros ->. done. }
    specialize (Hl td1). split; [lia|]. intros s1 v1 Hr Hv. exfalso. apply Hv.
    eapply (until_result _ _ _ (λ v, v = RT)); [| |exact Hr]; [done|]. intros s2 [] a [= <-]; done.
  - cbn [null_reads]. rewrite touched_bind, brun_bind, lits_app.
    destruct (brun td (test_reads E (cx_ft cx) (x k) r p1)) as [[[]|e|e] td1]; cbn [fst snd];
      try (rewrite lits_ret; split; [lia|]; intros; lia).
    assert (∀ td, lits (touched td (until_reads (λ i, null_reads E cx x r (k ++ [i])) (λ s v, match v with RT => Some (s, RT) | RU => Some ([], RU) | RF => None end)
      (output_dist cx (Node id dc cs (convert_dists ds) p1 (Score sc fzero fzero c)), RT) 0 cs)) ≤ length cs * s + b) as Hl.
    { intros td2. apply until_path. intros j c1 Hj td3. destruct (Hcs j c1 Hj) as (m & Hm & Hn). destruct (Hb m Hm) as (B1 & B2 & B3).
      destruct (IH m Hm c1 Hn B1 B2 Hx (k ++ [0 + j]) td3) as [_ [I1 I2]]. split; [exact (Nat.le_trans _ _ _ I1 (proj1 (Nat.add_le_mono_l _ _ s) B3))|]. intros s1 v1 Hr Hst. apply (I2 s1 v1 Hr).
      by destruct v1. }
    specialize (Hl td1). split; [lia|]. intros s1 v1 Hr Hv. exfalso.
    apply (until_result _ _ _ (λ v, v ≠ RF)) in Hr; [done|done|]. intros s2 [] a [= <-]; done.
Qed.

(** ** Models *)
Lemma literal_distinct d p : distinct (AtLiteral d p).
Proof. by intros k q k' q' [= -> ->]. Qed.
Lemma tidy_then {A B} P n (m : bprog A) (g : A → B) : tidy P n m → tidy P n (bbind m (λ a, BRet (g a))).
Proof.
  intros H. eapply tidy_mono; [apply (tidy_bind P (λ _, False) n 0); [done|intros; apply tidy_ret|done]| |lia]. by intros y [Hy|[]].
Qed.

Definition bounds (f : tree_model → nat) : Prop := ∀ E0 ft0 t te, new_node E0 ft0 (tm_node t) = Ok (et_root te) →
  tm_strategy (et_model te) = tm_strategy t → ∀ E d p tk r, tidy (inside (AtLiteral d p) []) (f t) (tree_reads E tk (AtLiteral d p) te r).
Lemma all_bound : bounds (λ t, all_simples (tm_node t)).
Proof.
  intros E0 ft0 t te Hn _ E d p tk r. unfold tree_reads. destruct (negb _); [apply tidy_ret|]. destruct (negb _); [apply tidy_ret|].
  destruct (handle_input _ _ _) as [[u|e|e] r']; [|apply tidy_ret..]. apply tidy_then. rewrite <- (new_node_simples _ _ _ _ Hn).
  apply node_tidy, literal_distinct.
Qed.
Lemma path_bounds : bounds tree_bound.
Proof.
  intros E0 ft0 t te Hn Hst E d p tk r. unfold tree_bound. case_bool_decide as Hex; [by apply (all_bound E0 ft0)|].
  unfold tree_reads. destruct (negb _); [apply tidy_ret|]. destruct (negb _); [apply tidy_ret|].
  destruct (handle_input _ _ _) as [[u|e|e] r']; [|apply tidy_ret..]. apply tidy_then. rewrite Hst.
  intros td. destruct (node_tidy E (tree_ctx te) (tm_strategy t) (AtLiteral d p) r' tk (et_root te) (literal_distinct d p) td) as (H1 & H2 & _).
  split; [done|]. split; [done|].
  destruct (path_bound E0 ft0 E (tree_ctx te) (AtLiteral d p) r' (longest (tm_node t)) (widest (tm_node t)) (tm_node t)
    (et_root te) Hn ltac:(done) ltac:(done) (literal_distinct d p) [] td) as [[B1 _] [B2 _]].
  assert (longest (tm_node t) + deeper (longest (tm_node t)) (widest (tm_node t)) (tm_node t) = along_a_path (tm_node t)) as Heq
    by (unfold deeper, along_a_path; lia).
  rewrite Heq in B1, B2. revert Hex. unfold node_reads.
  destruct (String.eqb_spec (tm_strategy t) "nullPrediction") as [->|Ha]; [done|].
  destruct (String.eqb_spec (tm_strategy t) "aggregateNodes") as [->|Hb]; [set_solver|].
  destruct (String.eqb_spec (tm_strategy t) "weightedConfidence") as [->|Hc]; [set_solver|].
  destruct (String.eqb_spec (tm_strategy t) "defaultChild") as [->|Hd]; [set_solver|].
  destruct (String.eqb_spec (tm_strategy t) "lastPrediction") as [->|He]; [set_solver|]. done.
Qed.

(** The evaluator has the shape and the strategies of the document. *)
Inductive similar : emodel → doc_model → Prop :=
| similar_tree E ft te t : new_node E ft (tm_node t) = Ok (et_root te) → tm_strategy (et_model te) = tm_strategy t →
    similar (ETree te) (DTree t)
| similar_regr x r : similar (ERegr x) (DRegr r)
| similar_mining h sm h' segs :
    Forall2 (λ e s, ∃ d, sg_models s = [d] ∧ similar e d) sm segs → similar (EMining h sm) (DMining h' segs).
Lemma new_model_similar E dd td d e td' : new_model E dd td d = (Ok e, td') → similar e d.
Proof.
  revert td e td'. induction d as [t|r|k|h segs IH] using doc_rect'; intros td e td'.
  - intros (te & -> & -> & Hb)%new_model_tree_inv. pose proof (built_tree_of _ _ _ _ _ Hb) as Ht.
    econstructor; [apply Hb|]. unfold tree_of in Ht. by destruct_and!.
  - intros [= <- _]. constructor.
  - done.
  - intros (sm & -> & Hs & _)%new_model_mining_inv. constructor. revert IH.
    induction Hs as [td0|td0 s segs d e es td1 td2 Hd Hn Hs IHs]; intros IH; [constructor|].
    apply Forall_cons in IH as [IHd IH]. constructor; [|by apply IHs]. exists d. split; [done|].
    rewrite Hd in IHd. apply Forall_cons in IHd as [IHd _]. by eapply IHd.
Qed.
Lemma msim_similar e e' d : msim same_tree e e' → similar e d → similar e' d.
Proof.
  revert e' d. induction e as [t|x|h sm IH] using emodel_rect'; intros e' d Hm Hs.
  - inversion Hm as [? t2 Ht| |]; subst. inversion Hs as [E ft ? ? Hn| |]; subst. unfold same_tree in Ht.
    destruct_and!. apply (similar_tree E ft); congruence.
  - inversion Hm; subst. done.
  - inversion Hm as [| |? ? sm2 Hf]; subst. inversion Hs as [| |? ? ? segs Hg]; subst. constructor.
    clear Hm Hs. revert sm2 segs Hf Hg. induction IH as [|e sm IHe _ IHs]; intros sm2 segs Hf Hg.
    + inversion Hf; subst. inversion Hg; subst. constructor.
    + inversion Hf as [|? e2 ? sm2' He Hf']; subst. inversion Hg as [|? s ? segs' (d & Hd & Hde) Hg']; subst.
      constructor; [|by apply IHs]. exists d. split; [done|]. by eapply IHe.
Qed.
Lemma after_similar E dd td d e td' hist : new_model E dd td d = (Ok e, td') → similar (after E hist e) d.
Proof. intros H. eapply msim_similar; [by eapply msim_refl_of|]. by eapply new_model_similar. Qed.

(** the places of a model at [p] *)
Definition within_model (d : nat) (p : list nat) (y : place) : Prop :=
  ∃ s, y = AtMethod d (p ++ s) ∨ ∃ k q, y = AtLiteral d (p ++ s) k q.
Lemma models_apart d p : apart (λ i, within_model d (p ++ [i])).
Proof.
  intros i j y (s & Hy) (s' & Hy').
  assert ((p ++ [i]) ++ s = (p ++ [j]) ++ s') as H by (destruct Hy as [->|(k & q & ->)], Hy' as [?|(k' & q' & ?)]; by simplify_eq).
  rewrite <- !app_assoc in H. apply app_inv_head in H. by simplify_eq.
Qed.
Lemma model_child d p i y : within_model d (p ++ [i]) y → within_model d p y.
Proof. intros (s & Hy). exists ([i] ++ s). by rewrite app_assoc. Qed.

Lemma method_tidy {M} (P : nat → place → Prop) E tk h (ev : nat → M → datarow → bprog reply) cs sm r : apart P →
  priced P ev 0 sm cs → tidy (from P 0) (sum_list cs) (method_reads E tk h ev sm r).
Proof.
  intros HP H.
  assert (tidy (from P 0) (sum_list cs) (total_reads E tk h ev sm r)) as Htot.
  { unfold total_reads.
    eapply tidy_mono; [eapply (tidy_bind (from P 0) (λ _, False) (sum_list cs) 0); [by apply sum_tidy|intros []; apply tidy_ret|done]| |lia].
    by intros y [Hy|[]]. }
  unfold method_reads. repeat case_match; subst.
  - eapply tidy_mono; [eapply (tidy_bind (from P 0) (λ _, False) (sum_list cs) 0); [done|intros []; apply tidy_ret|done]| |lia].
    by intros y [Hy|[]].
  - eapply tidy_mono; [eapply (tidy_bind (from P 0) (λ _, False) (sum_list cs) 0); [done|intros []; apply tidy_ret|done]| |lia].
    by intros y [Hy|[]].
  - by apply chain_tidy.
  - apply tidy_ret.
  - apply priced_cons in H as (n & cs' & -> & Hn & H). eapply tidy_mono; [apply Hn|intros y Hy; by exists 0|]. simpl. lia.
  - apply tidy_ret.
Qed.

Lemma sum_list_app l1 l2 : sum_list (l1 ++ l2) = sum_list l1 + sum_list l2.
Proof. induction l1 as [|x l1 IH]; simpl; lia. Qed.

Theorem evaluate_tidy f : bounds f → ∀ d e, similar e d → ∀ E D tk p r,
  tidy (within_model D p) (over_trees f d) (evaluate_reads E D tk p e r).
Proof.
  intros Hf. induction d as [t|r0|k|h segs IH] using doc_rect'; intros e Hs E D tk p r.
  - inversion Hs as [E0 ft te ? Hn Hst| |]; subst. cbn [evaluate_reads].
    eapply tidy_mono; [by apply (Hf E0 ft t te Hn Hst)| |unfold over_trees; simpl; lia].
    intros y (s & q & ->). exists []. right. rewrite app_nil_r. by exists s, q.
  - inversion Hs; subst. apply tidy_ret.
  - inversion Hs.
  - inversion Hs as [| |h1 sm ? ? Hg]; subst. cbn [evaluate_reads]. destruct (negb _); [apply tidy_ret|]. destruct (negb _); [apply tidy_ret|].
    destruct (impute _ _ _ _) as [r1|e|e]; [|apply tidy_ret..]. destruct (handle_input _ _ _) as [[u|e|e] r2]; [|apply tidy_ret..].
    assert (∃ cs, priced (λ i, within_model D (p ++ [i])) (λ i s r, evaluate_reads E D (5 :: i :: tk) (p ++ [i]) s r) 0 sm cs ∧
      sum_list cs = over_trees f (DMining h segs)) as (cs & Hc & Hle).
    { exists ((λ s, sum_list (over_trees f <$> sg_models s)) <$> segs). split.
      - intros j s Hj. destruct (Forall2_lookup_l _ _ _ _ _ Hg Hj) as (sg & Hsg & d & Hd & Hsd).
        rewrite Forall_lookup in IH. pose proof (IH j sg Hsg) as IHd. rewrite Hd in IHd. apply Forall_cons in IHd as [IHd _].
        exists (over_trees f d). split; [rewrite list_lookup_fmap, Hsg; simpl; rewrite Hd; simpl; f_equal; lia|].
        intros r'. by apply IHd.
      - unfold over_trees. cbn [doc_trees]. clear. induction segs as [|s segs IH]; [done|]. cbn [map concat fmap list_fmap].
        rewrite fmap_app, sum_list_app, <- IH. cbn [sum_list foldr]. f_equal. induction (sg_models s) as [|d ds IHd]; [done|].
        cbn [map concat fmap list_fmap]. rewrite fmap_app, sum_list_app, <- IHd. done. }
    eapply tidy_mono; [apply (tidy_touch (from (λ i, within_model D (p ++ [i])) 0) (within_model D p) (sum_list cs))| |].
    + apply (method_tidy (λ i, within_model D (p ++ [i])) E tk h1 _ cs); [apply models_apart|done].
    + intros (j & _ & s & [[= H]|(k & q & ?)]); [|done]. apply (f_equal length) in H. rewrite !app_length in H. simpl in H. lia.
    + exists []. left. by rewrite app_nil_r.
    + intros y (j & _ & Hy). by eapply model_child.
    + done.
    + simpl. lia.
Qed.
