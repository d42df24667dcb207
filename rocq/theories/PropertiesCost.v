(** Property C127: what an Evaluate call costs. *)
From Verif Require Import Base Strconv Value Doc Expr Pred Tree Regression Model Lib ProofsWhole GoExt Samples Race Build SpecBuild
  ProofsBuild PropertiesBuild Beside SpecBeside ProofsBeside SpecCost ProofsCost.

Lemma run_prefix {A} (m : bprog A) td tr td' ths : bexec td [m] tr td' ths → ∃ rest, touched td m = (b_place <$> tr) ++ rest.
Proof.
  remember [m] as l eqn:Hl. intros H. revert m Hl.
  induction H as [|td ths a td1 ths1 tr td2 ths2 Hs _ IH]; intros m ->; [by eexists|].
  inversion Hs as [? ? i k Hi|? ? i td3 k Hi|? ? i w x k Hi]; subst;
    (destruct i as [|i]; [|done]; simpl in Hi; injection Hi as ->; destruct (IH _ eq_refl) as [rest Hr];
     exists rest; exact (f_equal (cons _) Hr)).
Qed.
Lemma call_tidy f E dd td d e td' calls n tk r : bounds f → new_model E dd td d = (Ok e, td') →
  tidy (within_model n []) (over_trees f d) (task_steps E dd (Evaluating n (after E calls e) tk r)).
Proof. intros Hf Hn. simpl. apply tidy_then, evaluate_tidy; [done|]. by eapply after_similar. Qed.

(** *** C127.  An Evaluate call compares with no literal twice: the accesses of its run,
    up to any point, are of different places. *)
Theorem C127_once E dd td d e td' calls n tk r td0 tr td1 ths :
  new_model E dd td d = (Ok e, td') →
  bexec td0 (task_steps E dd <$> [Evaluating n (after E calls e) tk r]) tr td1 ths →
  NoDup (b_place <$> tr).
Proof.
  intros Hn [rest H]%run_prefix. destruct (call_tidy _ E dd td d e td' calls n tk r all_bound Hn td0) as (_ & H2 & _).
  rewrite H in H2. by apply NoDup_app in H2 as [H2 _].
Qed.
Print Assumptions C127_once.

(** So there are at most as many comparisons as the document has simple predicates. *)
Theorem C127_total E dd td d e td' calls n tk r td0 tr td1 ths :
  new_model E dd td d = (Ok e, td') →
  bexec td0 (task_steps E dd <$> [Evaluating n (after E calls e) tk r]) tr td1 ths →
  comparisons tr ≤ over_trees (λ t, all_simples (tm_node t)) d.
Proof.
  intros Hn [rest H]%run_prefix. destruct (call_tidy _ E dd td d e td' calls n tk r all_bound Hn td0) as (_ & _ & H3).
  rewrite H, lits_app in H3. unfold comparisons, lits in *. lia.
Qed.
Print Assumptions C127_total.

(** A tree that does not look into several branches (strategy none or nullPrediction)
    costs one path from the root and the siblings of its nodes, however many nodes it
    has; an ensemble costs the sum of its members. *)
Theorem C127_path E dd td d e td' calls n tk r td0 tr td1 ths :
  new_model E dd td d = (Ok e, td') →
  bexec td0 (task_steps E dd <$> [Evaluating n (after E calls e) tk r]) tr td1 ths →
  comparisons tr ≤ over_trees tree_bound d.
Proof.
  intros Hn [rest H]%run_prefix. destruct (call_tidy _ E dd td d e td' calls n tk r path_bounds Hn td0) as (_ & _ & H3).
  rewrite H, lits_app in H3. unfold comparisons, lits in *. lia.
Qed.
Print Assumptions C127_path.

(** A binary tree of n levels below its root: 2^(n+1) - 2 predicates, of which a call
    looks at up to 2 n + 1.  With three levels and an input, the call looks at 6 of 14;
    without any input the strategy defaultChild looks at all of them. *)
Fixpoint splits (n : nat) (p : predicate) : mnode :=
  MNode "" "" "yes" (fl "1") [SD "yes" "1"]
    match n with
    | 0 => []
    | S n' => [splits n' (SP "humidity" "lessThan" "75"); splits n' (SP "humidity" "greaterOrEqual" "75")]
    end p.
Definition split_tree (st : string) (n : nat) : doc_model :=
  DTree (TreeModel "classification" st fone "returnLastPrediction" []
    [MF "humidity" "active"; MF "play" "target"] None (splits n PTrue)).
Definition split_cost (st : string) (n : nat) (r : row) : nat :=
  let p := task_steps go_ext golf_dd (Evaluating 0 (built go_ext golf_dd (split_tree st n)) [] (Some r)) in
  comparisons ((λ y, BAccess 0 y.1 y.2) <$> btrace [] p).
Lemma splits_shape n : ∀ p, simples p ≤ 1 →
  levels (splits n p) = S n ∧ widest (splits n p) ≤ 2 ∧ longest (splits n p) ≤ 1 ∧ all_simples (splits n p) + 2 = 2 ^ S n + simples p.
Proof.
  induction n as [|n IH]; intros p Hp; [simpl; lia|]. cbn [splits].
  destruct (IH (SP "humidity" "lessThan" "75") ltac:(simpl; lia)) as (A1 & A2 & A3 & A4).
  destruct (IH (SP "humidity" "greaterOrEqual" "75") ltac:(simpl; lia)) as (B1 & B2 & B3 & B4).
  change (simples (SP _ _ _)) with 1 in A4, B4.
  cbn [levels widest longest all_simples map max_list sum_list foldr length]. 
  revert A1 A2 A3 A4 B1 B2 B3 B4. generalize (splits n (SP "humidity" "lessThan" "75")) (splits n (SP "humidity" "greaterOrEqual" "75")).
  intros a b. intros. simpl max_list. simpl sum_list. rewrite (Nat.pow_succ_r' 2 (S n)). unfold id. lia.
Qed.
Example C127_example :
  (∀ n, over_trees (λ t, all_simples (tm_node t)) (split_tree "none" n) + 2 = 2 ^ S n ∧
        over_trees tree_bound (split_tree "none" n) ≤ 2 * n + 1) ∧
  is_ok (new_model go_ext golf_dd [] (split_tree "none" 3)).1 = true ∧
  split_cost "none" 3 {["humidity" := GF64 (fl "80")]} = 6 ∧
  is_ok (new_model go_ext golf_dd [] (split_tree "defaultChild" 3)).1 = true ∧
  split_cost "defaultChild" 3 ∅ = 14.
Proof.
  split; [|split; [by vm_compute|split; [by vm_compute|split; by vm_compute]]].
  intros n. destruct (splits_shape n PTrue ltac:(simpl; lia)) as (H1 & H2 & H3 & H4). unfold over_trees, split_tree, tree_bound.
  cbn [doc_trees fmap list_fmap tm_node tm_strategy sum_list foldr]. split; [simpl in H4 |- *; lia|].
  rewrite bool_decide_false by (rewrite !elem_of_cons, elem_of_nil; intuition congruence). unfold along_a_path. rewrite H1. simpl sum_list.
  unfold id. rewrite Nat.sub_succ, Nat.sub_0_r, Nat.add_0_r.
  apply (Nat.le_trans _ (1 * (1 + 2 * n))); [|lia]. apply Nat.mul_le_mono; [exact H3|]. by apply le_n_S, Nat.mul_le_mono_r.
Qed.
