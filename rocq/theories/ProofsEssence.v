(** Blanking the unread parts of a document does not change Evaluate. *)
From Verif Require Import Base Strconv Value Doc Expr Pred Tree Regression Model Lib
  SpecPred ProofsPred SpecExpr ProofsExpr SpecConstruct ProofsConstruct ProofsRange
  SpecTree ProofsTree ProofsOutput ProofsEval ProofsDoc ProofsSafe ProofsWhole ProofsSim SpecEssence.

(** ** Expressions *)
Lemma handle_expr_essential E e r : handle_expr E (essential_expr e) r = handle_expr E e r.
Proof.
  induction e as [f m|dt v|fn d m args IH|a b c d e f|k] using expr_rect'; try done.
  cbn [essential_expr]. destruct (decide (fn = "sum")) as [->|Hsum].
  { rewrite !handle_sum. generalize fzero.
    induction IH as [|a args Ha _ IHa]; intros s; simpl; [done|].
    rewrite Ha. destruct (handle_expr E a r); simpl; auto. }
  destruct (arith_meaning fn) as [op|] eqn:Har.
  { rewrite !(handle_arith _ _ _ _ _ _ _ Har). destruct args as [|a [|b [|c args]]]; try done.
    - apply Forall_cons in IH as [Ha IH]. apply Forall_cons in IH as [Hb _]. simpl. by rewrite Ha, Hb.
    - simpl. by rewrite fmap_length. }
  simpl. apply String.eqb_neq in Hsum as ->.
  assert (is_arith fn = false) as ->.
  { unfold arith_meaning in Har. unfold is_arith.
    repeat case_str_in Har; repeat case_str; done. }
  repeat case_str; try done.
  + destruct args as [|a [|b args]]; try done; simpl; [|by rewrite ?fmap_length].
    apply Forall_cons in IH as [Ha _]. by rewrite Ha.
  + destruct args as [|a [|b args]]; try done; simpl; [|by rewrite ?fmap_length].
    apply Forall_cons in IH as [Ha _]. by rewrite Ha.
  + destruct args as [|c [|a [|b [|? args]]]]; try done; simpl; [|by rewrite ?fmap_length].
    apply Forall_cons in IH as [Hc IH]. apply Forall_cons in IH as [Ha IH].
    apply Forall_cons in IH as [Hb _]. rewrite Hc, Ha, Hb. done.
Qed.

Lemma handle_input_essential E lt r : handle_input E (essential_field <$> lt) r = handle_input E lt r.
Proof.
  revert r. induction lt as [|df lt IH]; intros r; simpl; [done|].
  rewrite handle_expr_essential. destruct (handle_expr _ _ _) as [v| |]; try done.
  assert (((if bool_decide (df_optype df = "continuous") then "continuous" else "") =s "continuous")
          = (df_optype df =s "continuous")) as ->.
  { case_bool_decide as H; [by rewrite H|]. by apply String.eqb_neq in H as ->. }
  destruct (dr_set _ _ _); auto.
Qed.

(** ** Predicates *)
Fixpoint blank_sets (p : predicate) : predicate :=
  match p with
  | PCompound b ps => PCompound b (blank_sets <$> ps)
  | PSet _ _ _ => PSet "" "" []
  | p => p
  end.

Lemma rmap_fmap {A B C} (f : B → res C) (g : A → B) l : rmap f (g <$> l) = rmap (λ x, f (g x)) l.
Proof. induction l as [|a l IH]; [done|]. rewrite fmap_cons. cbn [rmap]. by rewrite IH. Qed.

Definition res_map {A B} (f : A → B) (x : res A) : res B := y <-! x; Ok (f y).

Lemma rmap_res_map {A B C} (f : A → res C) (g : A → res B) (h : C → B) l :
  Forall (λ x, g x = res_map h (f x)) l → rmap g l = res_map (fmap h) (rmap f l).
Proof.
  induction 1 as [|a l Ha _ IH]; simpl; [done|]. rewrite Ha, IH.
  destruct (f a); simpl; try done. by destruct (rmap f l).
Qed.

Lemma compile_essential E ft p :
  compile_predicate E ft (essential_pred p) = res_map blank_sets (compile_predicate E ft p).
Proof.
  induction p as [| |f op v raw|b ps IH|b f arr|] using predicate_rect'; simpl; try done.
  - destruct (ft !! f); [|done]. by destruct (get_raw_value _ _ _).
  - rewrite rmap_fmap, (rmap_res_map _ _ _ _ IH).
    by destruct (rmap _ ps).
Qed.

Lemma compound_loop_fmap ev (g : predicate → predicate) b n l tc uc :
  Forall (λ p, ev (g p) = ev p) l → compound_loop ev b n (g <$> l) tc uc = compound_loop ev b n l tc uc.
Proof.
  intros H. revert tc uc. induction H as [|p l Hp _ IH]; intros tc uc; simpl; [done|].
  rewrite Hp. destruct (ev p) as [v| |]; simpl; try done. destruct (_ && _); [done|].
  destruct v; apply IH.
Qed.

Lemma eval_operand_blank E ft r p : eval_operand E ft r (blank_sets p) = eval_operand E ft r p.
Proof.
  induction p as [| |f op v raw|b ps IH|b f arr|] using predicate_rect'; simpl; try done.
  rewrite fmap_length. by apply compound_loop_fmap.
Qed.

Lemma run_test_blank E ft p r : run_test E ft (blank_sets p) r = run_test E ft p r.
Proof.
  destruct p; simpl; try done. unfold eval_compound. rewrite fmap_length.
  apply compound_loop_fmap, Forall_forall. intros q _. apply eval_operand_blank.
Qed.

(** ** Nodes *)
Definition blank_score (kc : bool) (s : score) : score :=
  Score (sc_value s) (if kc then sc_conf s else fzero) (sc_prob s) (sc_count s).
Fixpoint blank_node (ki kd kc : bool) (n : node) : node :=
  match n with
  | Node id dc cs ds t sc =>
      Node (if ki then id else "") (if kd then dc else "") (blank_node ki kd kc <$> cs)
           (blank_score kc <$> ds) (blank_sets t) (blank_score kc sc)
  end.
Definition blank_result (kc : bool) (x : list score * presult) : list score * presult :=
  (blank_score kc <$> x.1, x.2).

Lemma blank_score_idem kc s : blank_score kc (blank_score kc s) = blank_score kc s.
Proof. by destruct kc. Qed.
Lemma blank_scores_idem kc (l : list score) : blank_score kc <$> (blank_score kc <$> l) = blank_score kc <$> l.
Proof. rewrite <- list_fmap_compose. apply list_fmap_ext. intros. apply blank_score_idem. Qed.

Lemma blank_sets_idem p : blank_sets (blank_sets p) = blank_sets p.
Proof.
  induction p as [| |f op v raw|b ps IH|b f arr|] using predicate_rect'; simpl; try done.
  f_equal. rewrite <- list_fmap_compose. apply fmap_ext_in. intros x Hx.
  rewrite Forall_forall in IH. by apply IH.
Qed.

Lemma convert_dists_blank kc ds :
  blank_score kc <$> convert_dists (essential_dist kc <$> ds) = blank_score kc <$> convert_dists ds.
Proof.
  unfold convert_dists. rewrite <- !list_fmap_compose.
  assert (total_records (essential_dist kc <$> ds) = total_records ds) as ->.
  { unfold total_records. generalize fzero. induction ds as [|s ds IH]; intros a; simpl; [done|]. apply IH. }
  apply list_fmap_ext. intros i s _. by destruct kc.
Qed.

Lemma new_node_essential E ft ki kd kc m :
  res_map (blank_node ki kd kc) (new_node E ft (essential_node ki kd kc m)) =
  res_map (blank_node ki kd kc) (new_node E ft m).
Proof.
  induction m as [id dc sc c ds ns pr IH] using mnode_rect'. cbn [essential_node new_node].
  rewrite rmap_fmap.
  assert (res_map (fmap (blank_node ki kd kc)) (rmap (λ m, new_node E ft (essential_node ki kd kc m)) ns) =
          res_map (fmap (blank_node ki kd kc)) (rmap (new_node E ft) ns)) as Hns.
  { clear pr. induction IH as [|m ns Hm _ IHn]; simpl; [done|].
    destruct (new_node E ft (essential_node ki kd kc m)) as [n1| |], (new_node E ft m) as [n2| |];
      simpl in Hm |- *; try done; try congruence.
    destruct (rmap _ ns) as [l1| |], (rmap (new_node E ft) ns) as [l2| |]; simpl in IHn |- *; try done; try congruence.
    injection Hm as Hm. injection IHn as IHn. f_equal. by apply (f_equal2 cons). }
  destruct (rmap _ ns) as [l1| |], (rmap (new_node E ft) ns) as [l2| |]; simpl in Hns |- *; try done; try congruence.
  rewrite compile_essential. destruct (compile_predicate E ft pr) as [q| |]; simpl; try done.
  simplify_eq/=. rewrite convert_dists_blank, blank_sets_idem.
  do 2 f_equal; try congruence; by destruct ki, kd.
Qed.

(** *** The strategies *)
Lemma blank_node_eq ki kd kc id dc cs ds t sc :
  blank_node ki kd kc (Node id dc cs ds t sc) =
  Node (if ki then id else "") (if kd then dc else "") (blank_node ki kd kc <$> cs)
       (blank_score kc <$> ds) (blank_sets t) (blank_score kc sc).
Proof. done. Qed.

Lemma output_dist_blank ki kd kc cx n :
  blank_score kc <$> output_dist cx (blank_node ki kd kc n) = blank_score kc <$> output_dist cx n.
Proof.
  destruct n as [id dc cs ds t sc]. rewrite blank_node_eq. unfold output_dist. cbn [sc_value sc_count blank_score]. rewrite !fmap_length.
  destruct (_ && _); [done|]. destruct (Nat.ltb _ _); [apply blank_scores_idem|].
  destruct (negb _); [done|]. simpl. by rewrite blank_score_idem.
Qed.

Lemma first_true_blank kc (f : node → res (list score * presult)) (g : node → node) d1 d2 l :
  Forall (λ c, res_map (blank_result kc) (f (g c)) = res_map (blank_result kc) (f c)) l →
  blank_result kc d1 = blank_result kc d2 →
  res_map (blank_result kc) (first_true f d1 (g <$> l)) = res_map (blank_result kc) (first_true f d2 l).
Proof.
  intros H Hd. induction H as [|c l Hc _ IH]; simpl; [by rewrite Hd|].
  destruct (f (g c)) as [[s1 v1]| |], (f c) as [[s2 v2]| |]; simpl in Hc |- *; try done; try congruence.
  unfold blank_result in Hc. simpl in Hc. simplify_eq/=. destruct v2; try done.
  simpl. unfold blank_result. simpl. congruence.
Qed.

Lemma first_known_blank kc (f : node → res (list score * presult)) (g : node → node) d1 d2 l :
  Forall (λ c, res_map (blank_result kc) (f (g c)) = res_map (blank_result kc) (f c)) l →
  blank_result kc d1 = blank_result kc d2 →
  res_map (blank_result kc) (first_known f d1 (g <$> l)) = res_map (blank_result kc) (first_known f d2 l).
Proof.
  intros H Hd. induction H as [|c l Hc _ IH]; simpl; [by rewrite Hd|].
  destruct (f (g c)) as [[s1 v1]| |], (f c) as [[s2 v2]| |]; simpl in Hc |- *; try done; try congruence.
  unfold blank_result in Hc. simpl in Hc. simplify_eq/=. destruct v2; try done.
  simpl. unfold blank_result. simpl. congruence.
Qed.

(** the results of all children *)
Lemma rmap_blank kc (f : node → res (list score * presult)) (g : node → node) l :
  Forall (λ c, res_map (blank_result kc) (f (g c)) = res_map (blank_result kc) (f c)) l →
  res_map (fmap (blank_result kc)) (rmap f (g <$> l)) = res_map (fmap (blank_result kc)) (rmap f l).
Proof.
  induction 1 as [|c l Hc _ IH]; [done|]. rewrite !fmap_cons. cbn [rmap].
  destruct (f (g c)) as [x| |], (f c) as [y| |]; simpl in Hc |- *; try done; try congruence.
  destruct (rmap f (g <$> l)) as [xs| |], (rmap f l) as [ys| |]; simpl in IH |- *; try done; try congruence.
  assert (blank_result kc x = blank_result kc y) as Hxy by congruence. injection IH as IH.
  f_equal. by apply (f_equal2 cons).
Qed.

Lemma rmapi_blank kc (f : nat → node → res (list score * presult)) (g : node → node) i l :
  Forall (λ c, ∀ i, res_map (blank_result kc) (f i (g c)) = res_map (blank_result kc) (f i c)) l →
  res_map (fmap (blank_result kc)) (rmapi f i (g <$> l)) = res_map (fmap (blank_result kc)) (rmapi f i l).
Proof.
  intros H. revert i. induction H as [|c l Hc _ IH]; intros i; [done|]. rewrite !fmap_cons. cbn [rmapi].
  specialize (Hc i). specialize (IH (S i)).
  destruct (f i (g c)) as [x| |], (f i c) as [y| |]; simpl in Hc |- *; try done; try congruence.
  destruct (rmapi f (S i) (g <$> l)) as [xs| |], (rmapi f (S i) l) as [ys| |]; simpl in IH |- *; try done; try congruence.
  assert (blank_result kc x = blank_result kc y) as Hxy by congruence. injection IH as IH.
  f_equal. by apply (f_equal2 cons).
Qed.

Definition blank_scan (kc : bool) (x : bool * list score) : bool * list score :=
  (x.1, blank_score kc <$> x.2).

Lemma scan_blank kc a1 a2 (xs ys : list (list score * presult)) :
  blank_scan kc a1 = blank_scan kc a2 → blank_result kc <$> xs = blank_result kc <$> ys →
  blank_scan kc (foldl scan_step a1 xs) = blank_scan kc (foldl scan_step a2 ys).
Proof.
  revert a1 a2 ys. induction xs as [|[s v] xs IH]; intros a1 a2 [|[s' v'] ys] Ha Hx; try done.
  rewrite !fmap_cons in Hx. apply (inj2 cons) in Hx as [Hs Hx]. simpl. apply IH; [|done].
  destruct a1 as [u1 d1], a2 as [u2 d2]. unfold blank_scan, blank_result in *. simpl in *. simplify_eq.
  destruct v'; simpl; congruence.
Qed.

Lemma blank_length kc (l1 l2 : list score) :
  blank_score kc <$> l1 = blank_score kc <$> l2 → length l1 = length l2.
Proof. intros H. rewrite <- (fmap_length (blank_score kc) l1), H. apply fmap_length. Qed.

Lemma eval_none_blank E ki kd kc cx r n :
  res_map (blank_result kc) (eval_none E cx r (blank_node ki kd kc n)) = res_map (blank_result kc) (eval_none E cx r n).
Proof.
  induction n as [id dc cs ds t sc IH] using node_rect'.
  pose proof (output_dist_blank ki kd kc cx (Node id dc cs ds t sc)) as Ho.
  rewrite blank_node_eq in Ho |- *. cbn [eval_none]. rewrite run_test_blank.
  destruct (run_test E _ _ _) as [v| |]; simpl; try done. destruct v; try done.
  apply first_true_blank; [done|]. unfold blank_result. cbn [fst snd]. by rewrite Ho.
Qed.

Lemma eval_null_blank E ki kd kc cx r n :
  res_map (blank_result kc) (eval_null E cx r (blank_node ki kd kc n)) = res_map (blank_result kc) (eval_null E cx r n).
Proof.
  induction n as [id dc cs ds t sc IH] using node_rect'.
  pose proof (output_dist_blank ki kd kc cx (Node id dc cs ds t sc)) as Ho.
  rewrite blank_node_eq in Ho |- *. cbn [eval_null]. rewrite run_test_blank.
  destruct (run_test E _ _ _) as [v| |]; simpl; try done. destruct v; try done.
  apply first_known_blank; [done|]. unfold blank_result. cbn [fst snd]. by rewrite Ho.
Qed.

Lemma eval_last_blank E ki kd kc cx r n :
  res_map (blank_result kc) (eval_last E cx r (blank_node ki kd kc n)) = res_map (blank_result kc) (eval_last E cx r n).
Proof.
  induction n as [id dc cs ds t sc IH] using node_rect'.
  pose proof (output_dist_blank ki kd kc cx (Node id dc cs ds t sc)) as Ho.
  rewrite blank_node_eq in Ho |- *. cbn [eval_last]. rewrite run_test_blank.
  pose proof (rmap_blank kc (eval_last E cx r) _ cs IH) as Hr.
  destruct (run_test E _ _ _) as [v| |]; simpl; try done.
  destruct v; try done.
  all: destruct (rmap _ (_ <$> cs)) as [xs| |], (rmap _ cs) as [ys| |]; simpl in Hr |- *; try done; try congruence.
  all: assert (blank_result kc <$> xs = blank_result kc <$> ys) as Hx by congruence.
  all: pose proof (scan_blank kc (false, []) (false, []) xs ys eq_refl Hx) as Hs.
  all: destruct (foldl _ _ xs) as [u1 d1], (foldl _ _ ys) as [u2 d2].
  all: unfold blank_scan in Hs; simpl in Hs; simplify_eq.
  all: rewrite (blank_length kc d1 d2) by done; destruct (_ && _); simpl; unfold blank_result; simpl; congruence.
Qed.

(** children keep their identifiers *)
Lemma blank_ids kd kc c : n_id (blank_node true kd kc c) = n_id c.
Proof. by destruct c. Qed.

Lemma child_scores_blank kd kc cs (xs ys : list (list score * presult)) (m1 m2 : gmap string (list score)) k :
  blank_result kc <$> xs = blank_result kc <$> ys →
  fmap (M:=option) (fmap (blank_score kc)) (m1 !! k) = fmap (M:=option) (fmap (blank_score kc)) (m2 !! k) →
  fmap (M:=option) (fmap (blank_score kc)) (foldl (λ m '(c, x), <[n_id c := x.1]> m) m1 (zip (blank_node true kd kc <$> cs) xs) !! k) =
  fmap (M:=option) (fmap (blank_score kc)) (foldl (λ m '(c, x), <[n_id c := x.1]> m) m2 (zip cs ys) !! k).
Proof.
  revert xs ys m1 m2. induction cs as [|c cs IH]; intros [|x xs] [|y ys] m1 m2 Hx Hm; try done.
  rewrite !fmap_cons in Hx. apply (inj2 cons) in Hx as [Hxy Hx]. rewrite fmap_cons. simpl.
  apply IH; [done|]. rewrite blank_ids. destruct (decide (n_id c = k)) as [->|Hk].
  - rewrite !lookup_insert. simpl. f_equal. unfold blank_result in Hxy. congruence.
  - by rewrite !lookup_insert_ne.
Qed.

Lemma adjust_blank p (d1 d2 : list score) :
  blank_score false <$> d1 = blank_score false <$> d2 →
  blank_score false <$> (adjust p <$> d1) = blank_score false <$> (adjust p <$> d2).
Proof.
  revert d2. induction d1 as [|a d1 IH]; intros [|b d2] H; try done.
  rewrite !fmap_cons in H |- *. apply (inj2 cons) in H as [Hab H]. apply (f_equal2 cons); [|by apply IH].
  unfold blank_score, adjust in *. simpl in *. congruence.
Qed.

Lemma eval_default_blank E cx r n :
  res_map (blank_result false) (eval_default E cx r (blank_node true true false n)) =
  res_map (blank_result false) (eval_default E cx r n).
Proof.
  induction n as [id dc cs ds t sc IH] using node_rect'.
  pose proof (output_dist_blank true true false cx (Node id dc cs ds t sc)) as Ho.
  rewrite blank_node_eq in Ho |- *. cbn [eval_default]. rewrite run_test_blank.
  pose proof (rmap_blank false (eval_default E cx r) _ cs IH) as Hr.
  destruct (run_test E _ _ _) as [v| |]; simpl; try done.
  destruct v; try done.
  all: destruct (rmap _ (_ <$> cs)) as [xs| |], (rmap _ cs) as [ys| |]; simpl in Hr |- *; try done; try congruence.
  all: assert (blank_result false <$> xs = blank_result false <$> ys) as Hx by congruence.
  all: pose proof (scan_blank false (false, []) (false, []) xs ys eq_refl Hx) as Hs.
  all: pose proof (child_scores_blank true false cs xs ys ∅ ∅ dc Hx eq_refl) as Hcs.
  all: destruct (foldl scan_step _ xs) as [u1 d1], (foldl scan_step _ ys) as [u2 d2].
  all: unfold blank_scan in Hs; simpl in Hs; simplify_eq.
  all: rewrite (blank_length false d1 d2) by done; destruct (_ && _); simpl; [unfold blank_result; simpl; congruence|].
  all: destruct u2; simpl; [|unfold blank_result; simpl; congruence].
  all: destruct (_ !! dc) as [s1|], (foldl _ _ (zip cs ys) !! dc) as [s2|]; simpl in Hcs; try done.
  all: injection Hcs as Hcs; unfold blank_result; simpl; by rewrite (adjust_blank _ s1 s2).
Qed.

Lemma an_add_blank kc acc s1 s2 :
  blank_score kc s1 = blank_score kc s2 → an_add acc s1 = an_add acc s2.
Proof.
  unfold blank_score, an_add. intros H. injection H as Hv _ Hp Hc. by rewrite Hv, Hc.
Qed.

Lemma concat_blank kc (xs ys : list (list score * presult)) :
  blank_result kc <$> xs = blank_result kc <$> ys →
  blank_score kc <$> concat xs.*1 = blank_score kc <$> concat ys.*1.
Proof.
  revert ys. induction xs as [|x xs IH]; intros [|y ys] H; try done.
  rewrite !fmap_cons in H. apply (inj2 cons) in H as [Hxy H]. rewrite !fmap_cons. simpl.
  rewrite !fmap_app. f_equal; [|by apply IH]. unfold blank_result in Hxy. congruence.
Qed.

Lemma an_fold_blank kc acc (l1 l2 : list score) :
  blank_score kc <$> l1 = blank_score kc <$> l2 → foldl an_add acc l1 = foldl an_add acc l2.
Proof.
  revert acc l2. induction l1 as [|a l1 IH]; intros acc [|b l2] H; try done.
  rewrite !fmap_cons in H. apply (inj2 cons) in H as [Hab H]. cbn [foldl].
  rewrite (an_add_blank kc acc a b) by done. by apply IH.
Qed.

Lemma eval_aggregate_blank E ki kd kc cx r t n :
  res_map (blank_result kc) (eval_aggregate E cx r t (blank_node ki kd kc n)) =
  res_map (blank_result kc) (eval_aggregate E cx r t n).
Proof.
  revert t. induction n as [id dc cs ds p sc IH] using node_rect'. intros t.
  pose proof (output_dist_blank ki kd kc cx (Node id dc cs ds p sc)) as Ho.
  rewrite blank_node_eq in Ho |- *. cbn [eval_aggregate]. rewrite run_test_blank.
  pose proof (rmapi_blank kc (λ i c, eval_aggregate E cx r (i :: t) c) (blank_node ki kd kc) 1 cs) as Hr.
  feed specialize Hr. { eapply Forall_impl; [exact IH|]. intros c Hc i. apply Hc. }
  destruct (run_test E _ _ _) as [v| |]; simpl; try done.
  destruct v; [| |unfold blank_result; simpl; congruence].
  all: destruct (rmapi _ _ (_ <$> cs)) as [xs| |], (rmapi _ _ cs) as [ys| |]; simpl in Hr |- *; try done; try congruence.
  all: assert (blank_result kc <$> xs = blank_result kc <$> ys) as Hx by congruence.
  all: pose proof (scan_blank kc (false, []) (false, []) xs ys eq_refl Hx) as Hs.
  all: rewrite (an_fold_blank kc _ (concat xs.*1) (concat ys.*1)) by by apply concat_blank.
  all: destruct (foldl scan_step _ xs) as [u1 d1], (foldl scan_step _ ys) as [u2 d2].
  all: unfold blank_scan in Hs; simpl in Hs; simplify_eq.
  all: rewrite (blank_length kc d1 d2) by done; destruct (_ && _); simpl; [unfold blank_result; simpl; congruence|].
  all: destruct u2; simpl; [done|unfold blank_result; simpl; congruence].
Qed.

Lemma blank_score_true s : blank_score true s = s.
Proof. by destruct s. Qed.
Lemma blank_scores_true (l : list score) : blank_score true <$> l = l.
Proof. rewrite <- (list_fmap_id l) at 2. apply list_fmap_ext. intros. apply blank_score_true. Qed.
Lemma blank_result_true x : blank_result true x = x.
Proof. destruct x. unfold blank_result. simpl. by rewrite blank_scores_true. Qed.
Lemma blank_results_true (l : list (list score * presult)) : blank_result true <$> l = l.
Proof. rewrite <- (list_fmap_id l) at 2. apply list_fmap_ext. intros. apply blank_result_true. Qed.

Lemma eval_weighted_blank E cx r t n :
  eval_weighted E cx r t (blank_node true false true n) = eval_weighted E cx r t n.
Proof.
  revert t. induction n as [id dc cs ds p sc IH] using node_rect'. intros t.
  pose proof (output_dist_blank true false true cx (Node id dc cs ds p sc)) as Ho.
  rewrite blank_node_eq in Ho |- *. rewrite !blank_scores_true in Ho. cbn [eval_weighted]. rewrite run_test_blank.
  pose proof (rmapi_blank true (λ i c, eval_weighted E cx r (i :: t) c) (blank_node true false true) 2 cs) as Hr.
  feed specialize Hr. { eapply Forall_impl; [exact IH|]. simpl. intros c Hc i. by rewrite Hc. }
  rewrite blank_scores_true.
  destruct (run_test E _ _ _) as [v| |]; simpl; try done.
  destruct v; [| |done].
  all: destruct (rmapi _ _ (_ <$> cs)) as [xs| |], (rmapi _ _ cs) as [ys| |]; simpl in Hr |- *; try done; try congruence.
  all: injection Hr as Hr; rewrite !blank_results_true in Hr; subst xs.
  all: assert (∀ acc, foldl wc_collect acc (zip (blank_node true false true <$> cs) ys) = foldl wc_collect acc (zip cs ys)) as ->.
  1,3: clear; revert ys; induction cs as [|c cs IH]; intros [|[s v] ys] acc; try done;
       rewrite fmap_cons; simpl; rewrite IH; f_equal; destruct acc as [[counts scores] total]; simpl;
       rewrite blank_ids; by destruct c.
  all: destruct (foldl scan_step _ ys) as [u2 d2]; destruct (foldl wc_collect _ _) as [[counts scores] total].
  all: destruct (_ && _); [done|]; destruct u2; [done|].
  all: by rewrite Ho.
Qed.

(** Whatever the strategy, with the parts it reads kept. *)
Lemma node_evaluate_blank E cx st r t n :
  res_map (blank_result (reads_confidence st))
    (node_evaluate E cx st r t (blank_node (reads_ids st) (reads_default st) (reads_confidence st) n)) =
  res_map (blank_result (reads_confidence st)) (node_evaluate E cx st r t n).
Proof.
  unfold node_evaluate. repeat case_str; subst.
  - apply eval_null_blank.
  - apply eval_aggregate_blank.
  - apply f_equal, eval_weighted_blank.
  - apply eval_default_blank.
  - apply eval_last_blank.
  - apply eval_none_blank.
Qed.

(** ** What nodes read of the tree *)
Section context.
  Context (E : Ext) (c1 c2 : tctx) (Hft : cx_ft c1 = cx_ft c2)
          (Ho : ∀ n, output_dist c1 n = output_dist c2 n).

  Lemma eval_none_ctx r n : eval_none E c1 r n = eval_none E c2 r n.
  Proof.
    induction n as [id dc cs ds t sc IH] using node_rect'. cbn [eval_none]. rewrite Hft, Ho.
    destruct (run_test E _ _ _) as [[]| |]; simpl; try done. by apply first_true_ext.
  Qed.
  Lemma eval_null_ctx r n : eval_null E c1 r n = eval_null E c2 r n.
  Proof.
    induction n as [id dc cs ds t sc IH] using node_rect'. cbn [eval_null]. rewrite Hft, Ho.
    destruct (run_test E _ _ _) as [[]| |]; simpl; try done. by apply first_known_ext.
  Qed.
  Lemma eval_last_ctx r n : eval_last E c1 r n = eval_last E c2 r n.
  Proof.
    induction n as [id dc cs ds t sc IH] using node_rect'. cbn [eval_last]. rewrite Hft, Ho.
    by rewrite (rmap_ext _ _ _ IH).
  Qed.
  Lemma eval_default_ctx r n : cx_penalty c1 = cx_penalty c2 → eval_default E c1 r n = eval_default E c2 r n.
  Proof.
    intros Hp. induction n as [id dc cs ds t sc IH] using node_rect'. cbn [eval_default]. rewrite Hft, Ho, Hp.
    by rewrite (rmap_ext _ _ _ IH).
  Qed.
  Lemma rmapi_ext {A B} (f g : nat → A → res B) i l :
    Forall (λ x, ∀ i, f i x = g i x) l → rmapi f i l = rmapi g i l.
  Proof. intros H. revert i. induction H as [|a l Ha _ IH]; intros i; simpl; [done|]. by rewrite Ha, IH. Qed.
  Lemma eval_aggregate_ctx r t n : eval_aggregate E c1 r t n = eval_aggregate E c2 r t n.
  Proof.
    revert t. induction n as [id dc cs ds p sc IH] using node_rect'. intros t. cbn [eval_aggregate]. rewrite Hft, Ho.
    rewrite (rmapi_ext _ (λ i c, eval_aggregate E c2 r (i :: t) c)); [done|].
    eapply Forall_impl; [exact IH|]. simpl. auto.
  Qed.
  Lemma eval_weighted_ctx r t n : eval_weighted E c1 r t n = eval_weighted E c2 r t n.
  Proof.
    revert t. induction n as [id dc cs ds p sc IH] using node_rect'. intros t. cbn [eval_weighted]. rewrite Hft, Ho.
    rewrite (rmapi_ext _ (λ i c, eval_weighted E c2 r (i :: t) c)); [done|].
    eapply Forall_impl; [exact IH|]. simpl. auto.
  Qed.

  Lemma node_evaluate_ctx st r t n :
    (st = "defaultChild" → cx_penalty c1 = cx_penalty c2) →
    node_evaluate E c1 st r t n = node_evaluate E c2 st r t n.
  Proof.
    intros Hp. unfold node_evaluate. repeat case_str; subst.
    - apply eval_null_ctx.
    - apply eval_aggregate_ctx.
    - apply eval_weighted_ctx.
    - by apply eval_default_ctx, Hp.
    - apply eval_last_ctx.
    - apply eval_none_ctx.
  Qed.
End context.

Lemma essential_strategy E cx st r t n :
  node_evaluate E cx (if bool_decide (st ∈ known_strategies) then st else "none") r t n =
  node_evaluate E cx st r t n.
Proof.
  case_bool_decide as H; [done|]. unfold node_evaluate. simpl.
  repeat case_str; subst; try done; destruct H; unfold known_strategies; set_solver.
Qed.

(** ** Trees *)
Lemma out_steps_blank kc a (l1 l2 : list score) :
  blank_score kc <$> l1 = blank_score kc <$> l2 → foldl out_step a l1 = foldl out_step a l2.
Proof.
  revert a l2. induction l1 as [|x l1 IH]; intros a [|y l2] H; try done.
  rewrite !fmap_cons in H. apply (inj2 cons) in H as [Hxy H]. cbn [foldl].
  assert (out_step a x = out_step a y) as ->; [|by apply IH].
  unfold out_step. injection Hxy as Hv _ Hp _. by rewrite Hv, Hp.
Qed.

Lemma pick_best_blank kc (l1 l2 : list score) (a b : score) :
  blank_score kc a = blank_score kc b → blank_score kc <$> l1 = blank_score kc <$> l2 →
  blank_score kc (foldl (λ best s, if fltb (sc_prob best) (sc_prob s) then s else best) a l1) =
  blank_score kc (foldl (λ best s, if fltb (sc_prob best) (sc_prob s) then s else best) b l2).
Proof.
  revert a b l2. induction l1 as [|x l1 IH]; intros a b [|y l2] Hab H; try done.
  rewrite !fmap_cons in H. apply (inj2 cons) in H as [Hxy H]. cbn [foldl]. apply IH; [|done].
  assert (sc_prob a = sc_prob b) as -> by (unfold blank_score in Hab; congruence).
  assert (sc_prob x = sc_prob y) as -> by (unfold blank_score in Hxy; congruence).
  by destruct (fltb _ _).
Qed.

Lemma tree_output_blank E kc t1 t2 (l1 l2 : list score) :
  tm_function (et_model t1) = tm_function (et_model t2) → et_target t1 = et_target t2 →
  et_outkeys t1 = et_outkeys t2 →
  blank_score kc <$> l1 = blank_score kc <$> l2 → (tree_output E t1 l1).1 = (tree_output E t2 l2).1.
Proof.
  intros Hf Ht Hk Hl. unfold tree_output. rewrite Hf, Ht, Hk.
  assert (sc_value (pick_best l1) = sc_value (pick_best l2)) as Hb.
  { pose proof (pick_best_blank kc l1 l2 (Score "" fzero fzero fzero) (Score "" fzero fzero fzero) eq_refl Hl) as H.
    unfold blank_score in H. unfold pick_best. congruence. }
  destruct (_ =s "classification").
  { rewrite Hb, (out_steps_blank kc _ l1 l2 Hl). by destruct (foldl _ _ _). }
  destruct (_ =s "regression"); [|done]. simpl.
  destruct l1 as [|x l1], l2 as [|y l2]; try done. rewrite !fmap_cons in Hl.
  apply (inj2 cons) in Hl as [Hxy _]. injection Hxy as Hv _ _ _. by rewrite Hv.
Qed.

Lemma field_types_same dd td1 td2 : same_fields td1 td2 → field_types dd td1 = field_types dd td2.
Proof.
  unfold field_types, same_fields. generalize (foldl (λ ft df, <[dd_name df := dd_datatype df]> ft) ∅ dd : gmap string string).
  revert td2. induction td1 as [|a td1 IH]; intros [|b td2] m H; try done.
  rewrite !fmap_cons in H. apply (inj2 cons) in H as [Hab H]. cbn [foldl].
  injection Hab as -> ->. by apply IH.
Qed.

Lemma same_fields_app a1 a2 b1 b2 : same_fields a1 a2 → same_fields b1 b2 → same_fields (a1 ++ b1) (a2 ++ b2).
Proof. unfold same_fields. intros H1 H2. rewrite !fmap_app. congruence. Qed.
Lemma same_fields_essential l : same_fields (essential_field <$> l) l.
Proof. unfold same_fields. rewrite <- list_fmap_compose. by apply list_fmap_ext. Qed.

(** Two answers of NewModel that cannot be told apart by Evaluate. *)
Definition alike (E : Ext) (x y : res emodel * list derived_field) : Prop :=
  same_fields x.2 y.2 ∧
  match x.1, y.1 with
  | Ok e1, Ok e2 => ∀ tk r, (evaluate E tk e1 r).1 = (evaluate E tk e2 r).1
  | Err a, Err b => a = b
  | Panic a, Panic b => a = b
  | _, _ => False
  end.

Lemma essential_target l : target_of "" (mf_defaults <$> essential_schema l) = target_of "" (mf_defaults <$> l).
Proof.
  rewrite !mf_defaults_target. unfold target_field, essential_schema.
  destruct (last (filter _ l)) as [f|]; [|done]. simpl.
  done.
Qed.

Lemma tree_alike E dd td1 td2 t :
  same_fields td1 td2 →
  alike E (new_model E dd td1 (DTree (essential_tree t))) (new_model E dd td2 (DTree t)).
Proof.
  intros Htd. unfold alike. cbn [new_model]. unfold new_tree_model, tree_validate, essential_tree.
  cbn [et_model tm_function et_dd et_ft et_root et_outkeys et_target et_compiled].
  destruct (_ && _); [done|].
  unfold tree_compile. cbn [et_model tm_lt tm_schema tm_node et_dd et_target et_validated et_compiled et_outkeys et_root
    tm_function tm_strategy tm_penalty tm_notrue tm_verification].
  assert (same_fields (td1 ++ (essential_field <$> tm_lt t)) (td2 ++ tm_lt t)) as Hn
    by (apply same_fields_app; [done|apply same_fields_essential]).
  rewrite (field_types_same dd _ _ Hn), essential_target.
  set (ft := field_types dd (td2 ++ tm_lt t)). set (tg := target_of "" (mf_defaults <$> tm_schema t)).
  pose proof (new_node_essential E ft (reads_ids (tm_strategy t)) (reads_default (tm_strategy t))
                (reads_confidence (tm_strategy t)) (tm_node t)) as Hb.
  destruct (new_node E ft (essential_node _ _ _ _)) as [n1| |], (new_node E ft (tm_node t)) as [n2| |];
    simpl in Hb; try done; try (split; [done|]; simpl; congruence).
  split; [done|]. cbn [fst]. intros tk r. cbn [evaluate]. unfold tree_evaluate.
  cbn [et_validated et_compiled negb et_model tm_lt tm_strategy tm_schema et_root].
  rewrite handle_input_essential. destruct (handle_input E (tm_lt t) r) as [[u|x|p] r']; [|done..].
  rewrite essential_strategy. unfold tree_ctx.
  cbn [et_ft et_dd et_target et_model tm_penalty tm_notrue].
  rewrite (node_evaluate_ctx E _ (Tctx ft dd tg (tm_penalty t) (tm_notrue t))); [|done| |].
  2:{ intros n. destruct n. unfold output_dist. cbn [cx_notrue cx_target cx_dd].
      assert (((if bool_decide (tm_notrue t = "returnNullPrediction") then "returnNullPrediction" else "")
               =s "returnNullPrediction") = (tm_notrue t =s "returnNullPrediction")) as ->; [|done].
      case_bool_decide as H; [by rewrite H|]. by apply String.eqb_neq in H as ->. }
  2:{ intros Hd. cbn. unfold reads_default. by rewrite bool_decide_true. }
  injection Hb as Hb.
  pose proof (node_evaluate_blank E (Tctx ft dd tg (tm_penalty t) (tm_notrue t)) (tm_strategy t) r' tk n1) as H1.
  pose proof (node_evaluate_blank E (Tctx ft dd tg (tm_penalty t) (tm_notrue t)) (tm_strategy t) r' tk n2) as H2.
  rewrite Hb in H1. rewrite H1 in H2. clear H1.
  destruct (node_evaluate E _ _ _ _ n1) as [[s1 v1]| |], (node_evaluate E _ _ _ _ n2) as [[s2 v2]| |];
    simpl in H2; try done; try (simpl; congruence).
  assert (v1 = v2) as -> by (unfold blank_result in H2; simpl in H2; congruence).
  destruct v2; try done.
  pose proof (tree_output_blank E (reads_confidence (tm_strategy t))) as Ho.
  match goal with |- context [tree_output E ?a s1] => match goal with |- context [tree_output E ?b s2] =>
    specialize (Ho a b s1 s2 eq_refl eq_refl eq_refl) end end.
  feed specialize Ho. { unfold blank_result in H2. simpl in H2. congruence. }
  destruct (tree_output E _ s1) as [o1 k1], (tree_output E _ s2) as [o2 k2]. simpl in *. by rewrite Ho.
Qed.

(** ** Regression models *)
Lemma linear_form_essential E y ps r :
  linear_form E y ((λ p, Predictor (np_name p) (np_coeff p) 1) <$> ps) r = linear_form E y ps r.
Proof.
  revert y. induction ps as [|p ps IH]; intros y; [done|]. rewrite fmap_cons. cbn [linear_form np_name np_coeff].
  destruct (dr_get _ _); [|done]. apply IH.
Qed.
Lemma binary_form_essential E m y ps r :
  binary_form E m y ((λ p, Predictor (np_name p) (np_coeff p) 1) <$> ps) r = binary_form E m y ps r.
Proof.
  revert y. induction ps as [|p ps IH]; intros y; [done|]. rewrite fmap_cons. cbn [binary_form np_name].
  destruct (dr_get _ _); [|done]. destruct (normalize _ _ _); [apply IH|done..].
Qed.

Lemma regr_essential E m r : regr_evaluate E (essential_regr m) r = regr_evaluate E m r.
Proof.
  unfold regr_evaluate. cbn [essential_regr rm_function rm_output]. rewrite fmap_length.
  assert (eval_regression E (essential_regr m) r = eval_regression E m r) as ->.
  { unfold eval_regression. destruct m as [f n lt sch ts os v]. cbn [essential_regr rm_tables rm_output rm_norm].
    destruct ts as [|t [|t2 ts]]; try done; simpl; [|by rewrite fmap_length].
    rewrite linear_form_essential. destruct os as [|o [|o2 os]]; try done; simpl. by rewrite fmap_length. }
  assert (eval_binary E (essential_regr m) r = eval_binary E m r) as ->.
  { unfold eval_binary. cbn [essential_regr rm_tables]. generalize fone as y, (∅ : row) as out.
    induction (rm_tables m) as [|t ts IH]; intros y out; [done|]. rewrite fmap_cons.
    cbn [binary_tables essential_table rt_predictors rt_intercept rt_category].
    rewrite fmap_length, binary_form_essential. cbn [essential_regr rm_norm rm_output].
    destruct (if Nat.ltb _ _ then _ else _) as [p| |]; cbn [rbind]; [|done..].
    rewrite IH. f_equal. generalize out as o. induction (rm_output m) as [|a l IHl]; intros o; [done|].
    rewrite fmap_cons. cbn [foldl of_value of_name]. apply IHl. }
  assert (eval_multiclass E (essential_regr m) r = eval_multiclass E m r) as ->; [|done].
  unfold eval_multiclass. cbn [essential_regr rm_tables rm_output rm_norm].
  rewrite rmap_fmap.
  rewrite (rmap_ext _ (λ t, linear_form E (rt_intercept t) (rt_predictors t) r)).
  2:{ apply Forall_forall. intros t _. cbn [essential_table rt_intercept rt_predictors]. apply linear_form_essential. }
  destruct (rmap _ _) as [ys| |]; cbn [rbind]; try done. f_equal. f_equal.
  rewrite <- list_fmap_compose. apply list_fmap_ext. intros i t _. simpl. f_equal. f_equal.
  unfold out_fields. generalize (∅ : gmap string string). induction (rm_output m) as [|a l IHl]; intros o; [done|].
  rewrite fmap_cons. cbn [foldl of_value of_name]. apply IHl.
Qed.

(** ** Ensembles *)
Lemma default_values_essential l :
  default_values ((λ f, MiningField (mf_name f) "" (mf_replacement f) "" "")
                    <$> filter (λ f, is_Some (mf_replacement f)) l) = default_values l.
Proof.
  unfold default_values. generalize (∅ : row). induction l as [|f l IH]; intros m; [done|].
  rewrite filter_cons. cbn [foldl]. case_decide as H.
  - rewrite fmap_cons. cbn [foldl mf_replacement mf_name]. apply IH.
  - rewrite IH. destruct (mf_replacement f); [|done]. destruct H. by eexists.
Qed.

Lemma essential_method h : mm_method (header_of (essential_header h)) = mm_method (header_of h).
Proof.
  unfold header_of, essential_header. cbn [mm_method]. case_bool_decide as H.
  - rewrite H. done.
  - apply String.eqb_neq in H. by rewrite H.
Qed.

Lemma bad_feature_essential l :
  of_feature <$> List.find bad_feature ((λ o, OutputField (of_name o) (of_feature o) "") <$> l) =
  of_feature <$> List.find bad_feature l.
Proof.
  induction l as [|o l IH]; [done|]. rewrite fmap_cons. cbn [List.find].
  unfold bad_feature at 1 3. cbn [of_feature]. destruct (_ && _); [done|]. apply IH.
Qed.

Lemma score_init_essential outs tgs :
  score_init ((λ o, OutputField (of_name o) (of_feature o) "") <$> outs) tgs = score_init outs tgs.
Proof.
  unfold score_init. f_equal. generalize (∅ : gmap string f64).
  induction outs as [|o l IH]; intros m; [done|]. rewrite fmap_cons. cbn [foldl of_name]. apply IH.
Qed.

Lemma run_method_header {M} E tk h1 h2 (ev : nat → M → datarow → outcome M) sm r :
  mm_method (em_hdr h1) = mm_method (em_hdr h2) → length (em_segs h1) = length (em_segs h2) →
  (mm_function (em_hdr h1) =s "classification") = (mm_function (em_hdr h2) =s "classification") →
  score_init (em_outputs h1) (em_targets h1) = score_init (em_outputs h2) (em_targets h2) →
  em_targets h1 = em_targets h2 →
  run_method E tk h1 ev sm r = run_method E tk h2 ev sm r.
Proof.
  intros Hm Hl Hf Hs Ht. unfold run_method, average_models, sum_models. by rewrite Hm, Hl, Hf, Hs, Ht.
Qed.

Lemma segments_alike E dd segs :
  Forall (λ s, Forall (λ d, ∀ td1 td2, same_fields td1 td2 →
      alike E (new_model E dd td1 (essence d)) (new_model E dd td2 d)) (sg_models s)) segs →
  ∀ td1 td2 a1 a2, same_fields td1 td2 →
  Forall2 (λ e1 e2, ∀ tk r, (evaluate E tk e1 r).1 = (evaluate E tk e2 r).1) a1 a2 →
  match compile_segments (new_model E dd) td1 a1
          ((λ s, match s with Segment _ _ ms => Segment "" [] (essence <$> ms) end) <$> segs),
        compile_segments (new_model E dd) td2 a2 segs with
  | (o1, s1, t1), (o2, s2, t2) =>
      o1 = o2 ∧ same_fields t1 t2 ∧
      Forall2 (λ e1 e2, ∀ tk r, (evaluate E tk e1 r).1 = (evaluate E tk e2 r).1) s1 s2
  end.
Proof.
  induction 1 as [|[i ps ms] segs Hs _ IH]; intros td1 td2 a1 a2 Htd Ha; [by simpl|].
  rewrite fmap_cons. cbn [compile_segments]. simpl in Hs.
  destruct ms as [|d [|d2 ms]]; [done| |].
  - apply Forall_cons in Hs as [Hd _]. specialize (Hd td1 td2 Htd). cbn [fmap list_fmap].
    unfold alike in Hd.
    destruct (new_model E dd td1 (essence d)) as [[e1|x|p] t1], (new_model E dd td2 d) as [[e2|x'|p'] t2];
      simpl in Hd; destruct Hd as [Hn Hd]; try done; try (split; [congruence|done]).
    apply IH; [done|]. apply Forall2_app; [done|]. by constructor.
  - rewrite !fmap_cons. split; [|done]. cbn [length]. by rewrite fmap_length.
Qed.

Lemma essence_alike E dd d : ∀ td1 td2, same_fields td1 td2 →
  alike E (new_model E dd td1 (essence d)) (new_model E dd td2 d).
Proof.
  induction d as [t|m|k|h segs IH] using doc_rect'; intros td1 td2 Htd.
  - by apply tree_alike.
  - split; [done|]. simpl. intros tk r. by rewrite regr_essential.
  - by split.
  - cbn [essence]. rewrite !new_model_mining, essential_method.
    destruct (negb _); [by split|].
    pose proof (bad_feature_essential (mm_output h)) as Hb. cbn [essential_header mm_output].
    destruct (List.find bad_feature (_ <$> _)) as [o1|], (List.find bad_feature (mm_output h)) as [o2|]; try done.
    { split; [done|]. simpl in Hb |- *. congruence. }
    pose proof (segments_alike E dd segs IH (td1 ++ mm_lt (essential_header h)) (td2 ++ mm_lt h) [] []) as Hs.
    feed specialize Hs. { apply same_fields_app; [done|apply same_fields_essential]. } { constructor. }
    cbn [essential_header mm_lt] in Hs |- *.
    destruct (compile_segments _ _ _ (_ <$> _)) as [[o1 s1] t1], (compile_segments _ _ _ segs) as [[o2 s2] t2].
    destruct Hs as (-> & Hn & Hs). destruct o2 as [u|x|p]; [|by split..].
    split; [done|]. intros tk r. cbn [fst]. rewrite !mining_evaluate_run by done.
    cbn [built_mining em_defaults em_hdr essential_header mm_schema].
    rewrite default_values_essential. destruct (impute _ _ _ _) as [r1|x|p]; [|done..].
    rewrite !header_of_lt. cbn [essential_header mm_lt]. rewrite handle_input_essential.
    destruct (handle_input _ _ _) as [[u'|x|p] r2]; [|done..].
    rewrite (run_method_header E tk _ (built_mining dd td2 h segs)).
    + pose proof (run_method_sim E E (same_world_refl E)
        (λ e1 e2, ∀ tk r, (evaluate E tk e1 r).1 = (evaluate E tk e2 r).1) (λ _ _, True) (λ _ _ _, I)
        (λ i s r, evaluate E (5 :: i :: tk) s r) (λ i s r, evaluate E (5 :: i :: tk) s r)) as Hr.
      feed specialize Hr. { intros i e1 e2 r' He. split; [apply He|done]. }
      specialize (Hr tk tk (built_mining dd td2 h segs) s1 s2 r2 Hs) as [Hr _].
      destruct (run_method _ _ _ _ s1 _) as [[? ?] ?], (run_method _ _ _ _ s2 _) as [[? ?] ?]. exact Hr.
    + cbn [built_mining em_hdr]. apply essential_method.
    + cbn [built_mining em_segs]. apply fmap_length.
    + cbn [built_mining em_hdr]. rewrite !header_of_function. cbn [essential_header mm_function].
      case_bool_decide as H; [by rewrite H|]. by apply String.eqb_neq in H as ->.
    + cbn [built_mining em_outputs em_targets essential_header mm_output mm_targets]. apply score_init_essential.
    + done.
Qed.

(** Documents with the same essence. *)
Lemma same_essence E dd td1 td2 d1 d2 e1 td1' calls1 calls2 tk r :
  same_fields td1 td2 → essence d1 = essence d2 → new_model E dd td1 d1 = (Ok e1, td1') →
  ∃ e2 td2', new_model E dd td2 d2 = (Ok e2, td2') ∧
    (evaluate E tk (after E calls1 e1) r).1 = (evaluate E tk (after E calls2 e2) r).1.
Proof.
  intros Htd Hd H1.
  pose proof (essence_alike E dd d1 td1 td1 eq_refl) as [_ A1].
  pose proof (essence_alike E dd d2 td1 td2 Htd) as [_ A2].
  rewrite H1 in A1. rewrite <- Hd in A2.
  destruct (new_model E dd td1 (essence d1)) as [[e0|x|p] td0] eqn:H0; simpl in A1; try done.
  destruct (new_model E dd td2 d2) as [[e2|x|p] td2'] eqn:H2; simpl in A2; try done.
  exists e2, td2'. split; [done|].
  rewrite (history_independent _ _ _ _ _ _ _ _ _ H1), (history_independent _ _ _ _ _ _ _ _ _ H2).
  by rewrite <- A1, A2.
Qed.

(** ** Defaults written out *)
Lemma spelled_schema l : essential_schema (spelled_mining_field <$> l) = essential_schema l.
Proof.
  unfold essential_schema.
  assert (mf_name <$> last (filter (λ f, mf_usage f = "target") (spelled_mining_field <$> l)) =
          mf_name <$> last (filter (λ f, mf_usage f = "target") l)) as H.
  { induction l as [|f l IH]; [done|]. rewrite fmap_cons, !filter_cons.
    assert (mf_usage (spelled_mining_field f) = "target" ↔ mf_usage f = "target") as Hu.
    { simpl. unfold or_default. case_bool_decide as He; [|done]. by rewrite He. }
    destruct (decide (mf_usage f = "target")) as [Ht|Ht].
    - rewrite decide_True by by apply Hu. rewrite !last_cons_default. simpl. f_equal.
      destruct (last (filter _ (_ <$> l))), (last (filter _ l)); simpl in *; congruence.
    - rewrite decide_False by by rewrite Hu. done. }
  destruct (last (filter _ (_ <$> l))) as [a|], (last (filter _ l)) as [b|]; simpl in H; try done.
  by injection H as ->.
Qed.

Lemma spelled_essence d : essence (spelled_out d) = essence d.
Proof.
  induction d as [t|m|k|h segs IH] using doc_rect'; try done.
  - cbn [spelled_out essence]. f_equal. unfold essential_tree.
    cbn [tm_function tm_strategy tm_penalty tm_notrue tm_lt tm_schema tm_verification tm_node].
    rewrite spelled_schema. unfold or_default. destruct (bool_decide_reflect (tm_strategy t = "")) as [H|H]; [|done]. rewrite H.
    unfold reads_ids, reads_default, reads_confidence.
    rewrite !(bool_decide_false (_ ∈ known_strategies)) by (unfold known_strategies; set_solver).
    rewrite !(bool_decide_false (_ ∈ [_; _])) by set_solver. done.
  - cbn [spelled_out essence]. f_equal.
    + unfold essential_header. cbn [mm_function mm_method mm_lt mm_schema mm_output mm_targets]. f_equal.
      induction (mm_schema h) as [|f l IHl]; [done|]. rewrite fmap_cons, !filter_cons.
      cbn [spelled_mining_field mf_replacement]. case_decide; [|done]. rewrite !fmap_cons. by f_equal.
    + rewrite <- list_fmap_compose. apply fmap_ext_in. intros [i p ms] Hs. simpl. f_equal.
      rewrite Forall_forall in IH. specialize (IH _ Hs). simpl in IH.
      rewrite <- list_fmap_compose. apply fmap_ext_in. intros d Hd. rewrite Forall_forall in IH. by apply IH.
Qed.
