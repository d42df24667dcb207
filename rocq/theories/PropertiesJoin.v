(** Property C148: neighbouring branches that say the same. *)
From Verif Require Import Base Strconv Value Doc Expr Pred Tree Regression Model Lib GoExt Samples SpecPred ProofsPred
  SpecTree ProofsTree ProofsOutput ProofsEval ProofsDoc ProofsSafe ProofsWhole ProofsSim ProofsAnswer SpecEquiv ProofsEquiv
  PropertiesTree PropertiesEquiv SpecElse ProofsElse PropertiesElse SpecWrap ProofsWrap SpecJoin ProofsJoin.

(** Without a strategy for missing values: all rows. *)
Theorem C148_joined_partial : ∀ E dd td d1 d2 e1 td' calls1 calls2 tk r,
  rejoined d1 d2 → new_model E dd td d1 = (Ok e1, td') →
  ∃ e2, new_model E dd td d2 = (Ok e2, td') ∧
    (evaluate E tk (after E calls1 e1) r).1 = (evaluate E tk (after E calls2 e2) r).1.
Proof.
  intros E dd td d1 d2 e1 td' calls1 calls2 tk r Hd H1.
  destruct (rejoined_stands_in E dd d1 d2 Hd td e1 td' H1) as (e2 & H2 & He).
  exists e2. split; [done|].
  by rewrite (history_independent _ _ _ _ _ _ calls1 _ _ H1), (history_independent _ _ _ _ _ _ calls2 _ _ H2).
Qed.
Print Assumptions C148_joined_partial.

(** Under nullPrediction: rows that leave no predicate unknown. *)
Theorem C148_null_partial : ∀ E dd td t n e td' calls1 calls2 tk r r',
  new_model E dd td (DTree t) = (Ok e, td') → joined (tm_node t) n → tm_strategy t = "nullPrediction" →
  handle_input E (tm_lt t) r = (Ok tt, r') →
  let truth := doc_truth E dd td t r' in
  everywhere_doc (λ m, truth m RT ∨ truth m RF) (tm_node t) →
  ∃ e', new_model E dd td (DTree (with_node t n)) = (Ok e', td') ∧
    (evaluate E tk (after E calls1 e) r).1 = (evaluate E tk (after E calls2 e') r).1.
Proof.
  intros E dd td t n e td' calls1 calls2 tk r r' He Hj Hst Hi truth Hk.
  destruct (joined_null _ _ _ _ _ _ _ _ _ He Hj Hst Hi Hk) as (e' & He' & H). exists e'. split; [done|].
  by rewrite (history_independent _ _ _ _ _ _ calls1 _ _ He), (history_independent _ _ _ _ _ _ calls2 _ _ He').
Qed.
Print Assumptions C148_null_partial.

(** The same under the other four. *)
Theorem C148_known_partial : ∀ E dd td t n e td' calls1 calls2 tk r r',
  new_model E dd td (DTree t) = (Ok e, td') → joined (tm_node t) n →
  tm_strategy t ∈ ["aggregateNodes"; "weightedConfidence"; "defaultChild"; "lastPrediction"] →
  handle_input E (tm_lt t) r = (Ok tt, r') →
  let truth := doc_truth E dd td t r' in
  truth (tm_node t) RT →
  everywhere_doc (λ m, truth m RT ∨ truth m RF) (tm_node t) →
  everywhere_doc (λ m, node_dist dd t m ≠ []) (tm_node t) →
  everywhere_doc (λ m, node_dist dd t m ≠ []) n →
  ∃ e', new_model E dd td (DTree (with_node t n)) = (Ok e', td') ∧
    (evaluate E tk (after E calls1 e) r).1 = (evaluate E tk (after E calls2 e') r).1.
Proof.
  intros E dd td t n e td' calls1 calls2 tk r r' He Hj Hst Hi truth Hroot Hk Hd1 Hd2.
  destruct (joined_accepted _ _ _ _ _ _ _ Hj He) as [e' He']. exists e'. split; [done|].
  assert (∀ m1 m2 v, m_pred m1 = m_pred m2 → truth m1 v → truth m2 v) as Hpred.
  { intros m1 m2 v Hm. unfold truth, doc_truth, node_truth. by rewrite Hm. }
  assert (∀ m v w, truth m v → truth m w → v = w) as Hfun.
  { intros m v w (p & Hp & Hv) (q & Hq & Hw). rewrite Hp in Hq. injection Hq as <-. congruence. }
  destruct (C144_last_child E dd td t e td' calls1 tk r r' He Hst Hi Hroot Hk Hd1) as (l1 & Hl1 & ->).
  destruct (C144_last_child E dd td (with_node t n) e' td' calls2 tk r r' He' Hst Hi) as (l2 & Hl2 & ->).
  - eapply Hpred; [|exact Hroot]. by destruct Hj.
  - eapply (joined_known truth Hpred ltac:(intros *; apply or_truth)); [exact Hj|exact Hk].
  - exact Hd2.
  - destruct (joined_late truth Hpred Hfun ltac:(intros *; apply or_truth) _ _ Hj Hk (m_id (tm_node t)) (m_pred (tm_node t))
      (m_id n) (m_pred n) l1) as (l2' & Hl2' & Hs); [by destruct (tm_node t)|].
    assert (retested (m_id n) (m_pred n) n = n) as Hn by by destruct n. rewrite Hn in Hl2'.
    assert (l2 = l2') as -> by (by eapply (late_fun truth)). by rewrite (same_words_dist _ _ _ _ Hs).
Qed.
Print Assumptions C148_known_partial.

(** two bad branches, apart and together *)
Definition sultry (id : string) (p : predicate) : mnode := MNode id "" "no" (fl "4") [SD "yes" "1"; SD "no" "3"] [] p.
Definition apart : list mnode :=
  [sultry "2" (SP "outlook" "equal" "rain"); sultry "3" (SP "humidity" "greaterThan" "75")].
Definition together : list mnode :=
  [sultry "2" (PCompound "or" [SP "outlook" "equal" "rain"; SP "humidity" "greaterThan" "75"])].
Definition two_bad (st : string) (ns : list mnode) : tree_model :=
  TreeModel "classification" st fhalf "returnLastPrediction" [] [MF "play" "target"] None
    (MNode "1" "2" "yes" (fl "10") [SD "yes" "6"; SD "no" "4"]
       (ns ++ [MNode "4" "" "yes" (fl "2") [SD "yes" "2"; SD "no" "0"] [] (SP "kmh" "lessThan" "20")]) PTrue).
Lemma two_bad_joined st : joined (tm_node (two_bad st apart)) (tm_node (two_bad st together)).
Proof.
  constructor. apply (jo_join _ (sultry "2" (SP "outlook" "equal" "rain")) (sultry "2" (SP "outlook" "equal" "rain")) "3"
    (SP "humidity" "greaterThan" "75") "2"
    [MNode "4" "" "yes" (fl "2") [SD "yes" "2"; SD "no" "0"] [] (SP "kmh" "lessThan" "20")]
    [MNode "4" "" "yes" (fl "2") [SD "yes" "2"; SD "no" "0"] [] (SP "kmh" "lessThan" "20")]); try done.
  - constructor. constructor.
  - constructor; [constructor; constructor|constructor].
Qed.

(** With an unknown predicate the strategies treat one branch and two differently. *)
Theorem C148_joined_refuted : ∀ st, st ∈ ["nullPrediction"; "aggregateNodes"; "weightedConfidence"; "defaultChild"; "lastPrediction"] →
  ∃ E dd t n r, tm_strategy t = st ∧ joined (tm_node t) n ∧
  ∃ e1 e2 td1 td2, new_model E dd [] (DTree t) = (Ok e1, td1) ∧ new_model E dd [] (DTree (with_node t n)) = (Ok e2, td2) ∧
    (evaluate E [] e1 r).1.1 ≠ (evaluate E [] e2 r).1.1.
Proof.
  intros st Hst. rewrite !elem_of_cons in Hst.
  exists go_ext, golf_dd, (two_bad st apart), (tm_node (two_bad st together)), (Some {["humidity" := GF64 (fl "90"); "kmh" := GF64 (fl "5")]}).
  split; [done|]. split; [apply two_bad_joined|].
  destruct Hst as [->|[->|[->|[->|[->|Hst%elem_of_nil]]]]]; [..|done]; apply told_apart; by vm_compute.
Qed.
Print Assumptions C148_joined_refuted.

(** Predicates True and False are exempt: as operands of or they count as unknown. *)
Example C148_constants :
  map (λ ns, dumped (run go_ext golf_dd (DTree (two_bad "none" ns)) (Some {["humidity" := GF64 (fl "50")]})))
    [[sultry "2" (SP "humidity" "greaterThan" "75"); sultry "3" PTrue];
     [sultry "2" (PCompound "or" [SP "humidity" "greaterThan" "75"; PTrue])]] =
  [Some (Ok (dump (Some {["play" := GStr "no"; "probability(yes)" := GF64 (fl "0.25"); "probability(no)" := GF64 (fl "0.75")]})));
   Some (Ok (dump (Some {["play" := GStr "yes"; "probability(yes)" := GF64 (fl "0.6"); "probability(no)" := GF64 (fl "0.4")]})))].
Proof. by vm_compute. Qed.

Definition rainy_day : datarow := Some {["outlook" := GStr "rain"; "humidity" := GF64 (fl "50"); "kmh" := GF64 (fl "30")]}.
Definition no_rainy_day : option (res (option (list (string * gov)))) :=
  Some (Ok (dump (Some {["play" := GStr "no"; "probability(yes)" := GF64 (fl "0.25"); "probability(no)" := GF64 (fl "0.75")]}))).
Example C148_example :
  rejoined (DTree (two_bad "none" apart)) (DTree (two_bad "none" together)) ∧
  map (λ ns, dumped (run go_ext golf_dd (DTree (two_bad "none" ns)) rainy_day)) [apart; together] = replicate 2 no_rainy_day ∧
  map (λ ns, dumped (run go_ext golf_dd (DTree (two_bad "none" ns)) (Some {["humidity" := GF64 (fl "90")]}))) [apart; together] =
    replicate 2 no_rainy_day.
Proof.
  split; [|split; by vm_compute]. constructor. right.
  apply (stb _ (two_bad "none" apart) (tm_node (two_bad "none" together))).
  split; [|apply two_bad_joined]. cbn [tm_strategy two_bad]. set_solver.
Qed.
Example C148_known_example :
  ∀ st, st ∈ ["nullPrediction"; "aggregateNodes"; "weightedConfidence"; "defaultChild"; "lastPrediction"] →
  let t := two_bad st apart in let n := tm_node (two_bad st together) in
  let truth := doc_truth go_ext golf_dd [] t rainy_day in
  joined (tm_node t) n ∧ truth (tm_node t) RT ∧ everywhere_doc (λ m, truth m RT ∨ truth m RF) (tm_node t) ∧
  everywhere_doc (λ m, node_dist golf_dd t m ≠ []) (tm_node t) ∧ everywhere_doc (λ m, node_dist golf_dd t m ≠ []) n ∧
  dumped (run go_ext golf_dd (DTree (with_node t n)) rainy_day) = no_rainy_day.
Proof.
  intros st Hst t n truth. split_and!.
  - apply two_bad_joined.
  - exists PTrue. split; reflexivity.
  - apply (everywhere_tested _ (λ m, match truth_b go_ext golf_dd t rainy_day m with Some RT | Some RF => true | _ => false end)); [|by vm_compute].
    intros m. destruct (truth_b go_ext golf_dd t rainy_day m) as [[| |]|] eqn:H; [done| | |done]; intros _; [left|right];
      by apply (truth_b_ok _ _ _ _ _ _ H).
  - apply (everywhere_tested _ (λ m, match node_dist golf_dd t m with [] => false | _ => true end)); [|by vm_compute].
    intros m. by destruct (node_dist golf_dd t m).
  - apply (everywhere_tested _ (λ m, match node_dist golf_dd t m with [] => false | _ => true end)); [|by vm_compute].
    intros m. by destruct (node_dist golf_dd t m).
  - rewrite !elem_of_cons in Hst. subst t n truth. destruct Hst as [->|[->|[->|[->|[->|Hst%elem_of_nil]]]]]; [..|done]; by vm_compute.
Qed.
