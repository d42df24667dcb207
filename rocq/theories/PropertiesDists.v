(** Property C151: the order of score distributions. *)
From Coq Require Import Reals Lra.
From Flocq Require Import Core.Core IEEE754.BinarySingleNaN.
From Verif Require Import Base Strconv Value Doc Expr Pred Tree Regression Model Lib GoExt Samples SpecPred ProofsPred
  SpecTree ProofsTree SpecConstruct ProofsConstruct ProofsWhole ProofsSim SpecEquiv ProofsEquiv RealLib AccLib ForestLib SpecRecords ProofsRecords
  SpecOrder ProofsOrder PropertiesTree PropertiesModel PropertiesRecords PropertiesOrder SpecDists ProofsDists.
Local Open Scope R_scope.

(** *** C151.  The order in which nodes list their classes only decides between equally
    probable classes. *)
Theorem C151_order : ∀ E dd td t n e td' calls calls2,
  tm_function t = "classification" → classes_reordered (tm_node t) n →
  (tm_strategy t = "aggregateNodes" → NoDup (target_values dd (target_field (tm_schema t))) ∧
     whole_records (tm_node t) ∧ tree_records (tm_node t) <= IZR (2 ^ 53)) →
  new_model E dd td (DTree t) = (Ok e, td') →
  ∃ e2, new_model E dd td (DTree (with_node t n)) = (Ok e2, td') ∧
    ∀ tk r, (evaluate E tk (after E calls e) r).1.2 = (evaluate E tk (after E calls2 e2) r).1.2 ∧
      same_but_ties (target_field (tm_schema t))
        (evaluate E tk (after E calls e) r).1.1 (evaluate E tk (after E calls2 e2) r).1.1.
Proof.
  intros E dd td t n e td' calls calls2 Hf Hr Hag Hn.
  destruct (sorted_answers E dd td t n e td' Hf Hr Hag Hn) as (e2 & H2 & H). exists e2. split; [done|]. intros tk r.
  rewrite (history_independent _ _ _ _ _ _ _ _ _ Hn), (history_independent _ _ _ _ _ _ _ _ _ H2). apply H.
Qed.
Print Assumptions C151_order.

(** The classes of every node backwards. *)
Fixpoint backwards (m : mnode) : mnode :=
  match m with MNode id dc sc c ds ns p => MNode id dc sc c (rev ds) (backwards <$> ns) p end.
Example C151_example : ∀ st, let t := grown_tree st 1 in
  classes_reordered (tm_node t) (backwards (tm_node t)) ∧
  (NoDup (target_values golf_dd (target_field (tm_schema t))) ∧
     whole_records (tm_node t) ∧ tree_records (tm_node t) <= IZR (2 ^ 53)) ∧
  dumped (run go_ext golf_dd (DTree (with_node (grown_tree "weightedConfidence" 1) (backwards (grown 1)))) (Some ∅)) =
  dumped (run go_ext golf_dd (DTree (grown_tree "weightedConfidence" 1)) (Some ∅)) ∧
  dumped (run go_ext golf_dd (DTree (with_node (grown_tree "none" 1) (backwards (grown 1)))) (Some ∅)) =
    dumped (Some (golf_out "yes" "0.6" "0.4", None)).
Proof.
  intros st t. split; [|split; [|split; by vm_compute]].
  - assert (∀ a b, (0 <= a <= 10)%Z → (0 <= b <= 10)%Z →
      exact_shares [ScoreDistribution "yes" (n_records 1 a) None None; ScoreDistribution "no" (n_records 1 b) None None]) as Hx.
    { intros a b Ha Hb. right. exists [a; b]. split; [|split; [cbn [foldr]; lia|by unfold n_records; cbn [fmap list_fmap sd_count]; rewrite !Z.mul_1_l]].
      intros z Hz. apply elem_of_cons in Hz as [->|Hz]; [lia|]. apply elem_of_list_singleton in Hz as ->. lia. }
    assert (∀ a b : f64, NoDup (sd_value <$> [ScoreDistribution "yes" a None None; ScoreDistribution "no" b None None])) as Hnd.
    { intros a b. repeat constructor; set_solver. }
    subst t. cbn [grown_tree tm_node grown backwards fmap list_fmap].
    repeat first [apply Hnd|apply Hx; lia|apply Permutation_rev|constructor].
  - subst t. destruct C119_example as (H1 & H2 & H3 & _). split; [exact H3|]. split; [exact H1|exact H2].
Qed.

(** The reordered document is accepted exactly if the original is. *)
Lemma exact_shares_perm ds1 ds2 : ds1 ≡ₚ ds2 → exact_shares ds1 → exact_shares ds2.
Proof.
  intros Hp [H|(zs & Hz & Hle & Hc)]; [left; intros d Hd; apply H; by rewrite Hp|right].
  assert (f64_of_Z <$> zs ≡ₚ sd_count <$> ds2) as H by by rewrite <- Hc, Hp.
  symmetry in H. apply Permutation_map_inv in H as (zs2 & Heq & H2). exists zs2.
  split; [intros z Hin; apply Hz; by rewrite H2|]. split; [by rewrite <- (sum_perm _ _ H2)|done].
Qed.
Lemma classes_reordered_sym m1 : ∀ m2, classes_reordered m1 m2 → classes_reordered m2 m1.
Proof.
  induction m1 as [id dc sc c ds ns p IH] using mnode_rect'. intros m2 Hr.
  inversion Hr as [? ? ? ? ? ds2 ? ns2 ? Hp Hnd Hx Hns]; subst.
  constructor; [done|by rewrite <- Hp|by eapply exact_shares_perm|].
  clear -IH Hns. induction Hns as [|a b l1 l2 Hab _ IHl]; [constructor|]. apply Forall_cons in IH as [Ha IH].
  constructor; [by apply Ha|by apply IHl].
Qed.
Theorem C151_accepted : ∀ E dd td t n, classes_reordered (tm_node t) n →
  (∃ e td', new_model E dd td (DTree t) = (Ok e, td')) ↔ (∃ e td', new_model E dd td (DTree (with_node t n)) = (Ok e, td')).
Proof.
  assert (∀ E dd td t n e td', classes_reordered (tm_node t) n → new_model E dd td (DTree t) = (Ok e, td') →
    ∃ e2, new_model E dd td (DTree (with_node t n)) = (Ok e2, td')) as H.
  { intros E dd td t n e td' Hr. cbn [new_model]. unfold new_tree_model, tree_validate, with_node.
    cbn [et_model tm_function et_dd et_ft et_root et_outkeys et_target et_compiled].
    destruct (_ && _); [done|].
    unfold tree_compile. cbn [et_model tm_lt tm_schema tm_node et_dd et_target et_validated et_compiled et_outkeys et_root
      tm_function tm_strategy tm_penalty tm_notrue tm_verification].
    destruct (new_node E _ (tm_node t)) as [n1|x|p] eqn:H1; [|done..]. intros [= <- <-].
    destruct (new_node_resorted _ _ _ _ _ Hr H1) as (n2 & -> & Hn). eauto. }
  intros E dd td t n Hr. split; intros (e & td' & He).
  - destruct (H _ _ _ _ _ _ _ Hr He) as [e2 H2]. eauto.
  - destruct (H E dd td (with_node t n) (tm_node t) e td') as [e2 H2]; [|done|].
    { by apply classes_reordered_sym. } exists e2, td'. rewrite <- H2. by destruct t.
Qed.
Print Assumptions C151_accepted.

(** Where the provisos fail: among equally probable classes the first one listed is predicted, ... *)
Definition order_tree (fn : string) (ds : list score_distribution) : tree_model :=
  TreeModel fn "none" fone "returnLastPrediction" [] [MF "play" "target"] None (MNode "1" "" "" (fl "2") ds [] PTrue).
Theorem C151_ties : ∃ E dd ds1 ds2 r, ds1 ≡ₚ ds2 ∧ NoDup (sd_value <$> ds1) ∧ exact_shares ds1 ∧
  dumped (run E dd (DTree (order_tree "classification" ds1)) r) = dumped (Some (golf_out "yes" "0.5" "0.5", r)) ∧
  dumped (run E dd (DTree (order_tree "classification" ds2)) r) = dumped (Some (golf_out "no" "0.5" "0.5", r)).
Proof.
  exists go_ext, golf_dd, [SD "yes" "1"; SD "no" "1"], [SD "no" "1"; SD "yes" "1"], None.
  split; [constructor|]. split; [repeat constructor; set_solver|]. split.
  { right. exists [1; 1]%Z. split; [|split; [by cbn; lia|by vm_compute]]. intros z Hz. apply elem_of_cons in Hz as [->|Hz]; [lia|].
    apply elem_of_list_singleton in Hz as ->. lia. }
  split; by vm_compute.
Qed.
Print Assumptions C151_ties.

(** ... the sum of record counts that are no whole numbers depends on their order, ... *)
Definition reported_for (c : string) (o : option (res datarow * datarow)) : option gov :=
  match o with Some (Ok out, _) => dr_get out ("probability(" +:+ c +:+ ")") | _ => None end.
Theorem C151_fractions : ∃ E dd ds1 ds2 r p1 p2, ds1 ≡ₚ ds2 ∧ NoDup (sd_value <$> ds1) ∧
  reported_for "yes" (run E dd (DTree (order_tree "classification" ds1)) r) = Some (GF64 p1) ∧
  reported_for "yes" (run E dd (DTree (order_tree "classification" ds2)) r) = Some (GF64 p2) ∧ fltb p1 p2 = true.
Proof.
  exists go_ext, golf_dd, [SD "yes" "0.1"; SD "no" "0.2"; SD "maybe" "0.3"], [SD "maybe" "0.3"; SD "no" "0.2"; SD "yes" "0.1"], None.
  do 2 eexists. split; [apply (Permutation_rev [SD "yes" "0.1"; SD "no" "0.2"; SD "maybe" "0.3"])|].
  split; [repeat constructor; set_solver|].
  split; [vm_compute; reflexivity|]. split; [vm_compute; reflexivity|]. by vm_compute.
Qed.
Print Assumptions C151_fractions.

(** ... and a regression tree that lists scores predicts the first one, not the most frequent. *)
Theorem C151_regression : ∀ E dd ds, ds ≠ [] → 
  run E dd (DTree (order_tree "regression" ds)) None =
  Some (match ds with
        | [] => Ok None
        | d :: _ => match ext_parse_float E (sd_value d) with
                    | Some f => Ok (Some {["score" := GF64 f]}) | None => Err (EParseFloat (sd_value d)) end
        end, None).
Proof. intros E dd [|d ds] Hd; [done|]. by vm_compute. Qed.
Print Assumptions C151_regression.
