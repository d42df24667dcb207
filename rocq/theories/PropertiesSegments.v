(** Property theorems about the segments of an ensemble (C100 - C102). *)
From Verif Require Import Base Strconv Value Doc Expr Pred Tree Regression Model Api Lib GoExt
  SpecPred SpecExpr SpecConstruct ProofsConstruct SpecTree ProofsTree ProofsEval ProofsDoc ProofsSafe
  ProofsWhole ProofsSim ProofsRange ProofsExpr SpecModel ProofsMining ProofsHistory SpecRename SpecSegments ProofsSegments Samples PropertiesModel.

(** *** C100: segments do not influence each other *)
Theorem C100_alone_partial : ∀ E dd td h segs e td' calls tk m m2,
  new_model E dd td (DMining h segs) = (Ok e, td') → mm_method h ∈ ["sum"; ""; "average"] →
  prepared E h m m2 → undisturbed dd segs →
  ∃ als, Forall2 (λ s a, ∃ d td1, sg_models s = [d] ∧ new_model E dd (td ++ mm_lt h) d = (Ok a, td1)) segs als ∧
    (∀ outs, Forall3 (λ tk a out, (evaluate E tk a (Some m2)).1.1 = Ok out)
                     (seg_tickets tk 0 (length segs)) als outs →
       ∃ out, (evaluate E tk (after E calls e) (Some m)).1.1 = Ok (Some out) ∧
         ∀ k, out !! k =
           if decide (k ∈ header_output_names h) then
             Some (GF64 (if decide (mm_method h = "average")
                         then fdiv (sum_total E h k outs) (f64_of_Z (Z.of_nat (length segs)))
                         else sum_total E h k outs))
           else None) ∧
    (∀ l1 a l2 outs, als = l1 ++ a :: l2 →
       Forall3 (λ tk a out, (evaluate E tk a (Some m2)).1.1 = Ok out) (seg_tickets tk 0 (length l1)) l1 outs →
       (∀ out, (evaluate E (5 :: length l1 :: tk) a (Some m2)).1.1 ≠ Ok out) →
       (evaluate E tk (after E calls e) (Some m)).1.1 = (evaluate E (5 :: length l1 :: tk) a (Some m2)).1.1).
Proof.
  intros E dd td h segs e td' calls tk m m2 Hn Hm Hp Hu.
  destruct (mining_parts E dd td h segs e td' Hn) as (es & He & Hs & Hl).
  destruct (alone_built E dd (td ++ mm_lt h) segs (td ++ mm_lt h) es Hs) as [als Hals]; [done..|].
  exists als. split.
  { clear -Hals. induction Hals as [|s e a segs es als (d & tdc & td1 & td2 & Hd & _ & Ha & _) _ IH]; constructor; eauto. }
  split.
  - intros outs Ho. rewrite <- (app_nil_r segs) in Hu.
    destruct (alone_run E dd (td ++ mm_lt h) segs es als Hals [] _ m2 m2 outs Hu (λ _ _, eq_refl) Ho) as (m3 & Hm3 & _).
    rewrite !elem_of_cons in Hm.
    destruct (decide (mm_method h = "average")) as [Ha|Ha].
    + destruct (C49_average E dd td h segs e td' calls tk m m2 es outs m3) as (out & -> & Hout); [done..|]. eauto.
    + destruct (C48_sum E dd td h segs e td' calls tk m m2 es outs m3) as (out & -> & Hout); [done| |done..|eauto].
      destruct Hm as [Hm|[Hm|[Hm|Hm%elem_of_nil]]]; [by left|by right|done|done].
  - intros l1 a l2 outs -> Ho Hno.
    apply Forall3_app_inv_r in Hals as (sl & sr & el & er & -> & -> & H1 & H2).
    inversion H2 as [|s e1 ? sr' er' ? Hpair H2']; subst. clear H2.
    destruct (alone_run E dd (td ++ mm_lt h) sl el l1 H1 (s :: sr') _ m2 m2 outs Hu (λ _ _, eq_refl) Ho) as (m3 & Hm3 & Hf).
    assert (length el = length l1) as Hlen.
    { by rewrite <- (Forall3_length_lm _ _ _ _ H1), <- (Forall3_length_lr _ _ _ _ H1). }
    destruct (evaluate E (5 :: length l1 :: tk) e1 (Some m3)).1 as [o r4] eqn:Hev.
    assert ((evaluate E (5 :: length l1 :: tk) a (Some m2)).1.1 = o) as Ho'.
    { rewrite <- (same_inputs E dd (td ++ mm_lt h) s e1 a (5 :: length l1 :: tk) m3 m2 Hpair); [by rewrite Hev|].
      intros f (s' & d & ->%elem_of_list_singleton & Hd & Hfd). apply Hf. exists s, d. split; [by left|done]. }
    rewrite Ho' in *. rewrite <- Hlen in Hev, Hm3.
    rewrite (C50_failing_segment_sum E dd td h _ _ td' calls tk m m2 el e1 er' outs m3 o r4 Hn); [done..|].
    done.
Qed.
Print Assumptions C100_alone_partial.

(** a tree that computes its own area2, beside one that reads area *)
Definition doubled (name : string) : tree_model :=
  TreeModel "regression" "none" fone "returnLastPrediction"
    [DF name "double" (XA "*" [XF "area"; XConst "double" "2"])] [MF "area" "active"] None
    (MNode "1" "" "1" (fl "1") [] [MNode "2" "" "3" (fl "1") [] [] (SP name "greaterThan" "110")] PTrue).
Definition street (name : string) : doc_model :=
  mining "regression" "sum" [] [OF "price" "" ""] [] [DTree (doubled name); DTree price_tree].
Definition street_header : mining_header := MiningHeader "regression" "sum" [] [] [OF "price" "" ""] [] None.
Lemma street_undisturbed : undisturbed price_dd [seg (DTree (doubled "area2")); seg (DTree price_tree)].
Proof.
  intros l1 s l2 s' d d' f Heq Hs' Hd Hd' Hf Hw.
  destruct l1 as [|x [|y l1]]; simpl in Heq; [by apply elem_of_nil in Hs'|..|by destruct l1].
  injection Heq as <- <- <-. apply elem_of_list_singleton in Hs' as ->. simpl in Hd, Hd'.
  apply elem_of_list_singleton in Hd as ->. apply elem_of_list_singleton in Hd' as ->.
  vm_compute in Hf, Hw. set_solver.
Qed.
Lemma street_prepared m : prepared go_ext street_header m m.
Proof. 
  exists m. split; [|done]. intros k. split; [|done]. intros s (l1 & f & l2 & Hl & _). by destruct l1.
Qed.
Example C100_example :
  undisturbed price_dd [seg (DTree (doubled "area2")); seg (DTree price_tree)] ∧
  (∀ m, prepared go_ext street_header m m) ∧
  map (λ d, dumped (run go_ext price_dd d (Some {["area" := GF64 (fl "58")]})))
    [DTree (doubled "area2"); DTree price_tree; street "area2"] =
  map (λ r, Some (Ok (dump (Some r))))
    [{["score" := GF64 (fl "3")]}; {["score" := GF64 (fl "50.5")]}; {["price" := GF64 (fl "53.5")]}].
Proof. split; [apply street_undisturbed|]. split; [apply street_prepared|by vm_compute]. Qed.

(** The derived field of the first segment is called like an input of the
    second: the sum is not that of the segments' own predictions. *)
Theorem C100_leak_refuted : ∃ E dd h s1 s2 e a1 a2 m o1 o2 out,
  new_model E dd [] (DMining h [s1; s2]) = (Ok e, doc_locals (DMining h [s1; s2])) ∧
  mm_method h = "sum" ∧ mm_targets h = [] ∧ mm_lt h = [] ∧ mm_schema h = [] ∧
  (∃ d1 d2, sg_models s1 = [d1] ∧ sg_models s2 = [d2] ∧
     (new_model E dd [] d1).1 = Ok a1 ∧ (new_model E dd [] d2).1 = Ok a2) ∧
  (evaluate E [] a1 (Some m)).1.1 = Ok (Some o1) ∧ o1 !! "score" = Some (GF64 (fl "3")) ∧
  (evaluate E [] a2 (Some m)).1.1 = Ok (Some o2) ∧ o2 !! "score" = Some (GF64 (fl "50.5")) ∧
  (evaluate E [] e (Some m)).1.1 = Ok (Some out) ∧ out !! "price" = Some (GF64 (fl "203")).
Proof.
  set (d := street "area"). set (d1 := DTree (doubled "area")).
  exists go_ext, price_dd, street_header, (seg d1), (seg (DTree price_tree)),
    (built go_ext price_dd d), (built go_ext price_dd d1), (built go_ext price_dd (DTree price_tree)),
    {["area" := GF64 (fl "58")]}, {["score" := GF64 (fl "3")]}, {["score" := GF64 (fl "50.5")]},
    {["price" := GF64 (fl "203")]}.
  split; [by rewrite built_ok; [|by vm_compute]|]. do 4 (split; [done|]).
  split.
  { exists d1, (DTree price_tree). split; [done|]. split; [done|].
    split; by rewrite built_ok; [|by vm_compute]. }
  split; [by apply run_out; vm_compute|]. split; [done|].
  split; [by apply run_out; vm_compute|]. split; [done|].
  split; [by apply run_out; vm_compute|]. done.
Qed.
Print Assumptions C100_leak_refuted.

(** *** C101: an ensemble of one *)
Theorem C101_single_member : ∀ E dd td h s d e td' calls calls' tk r,
  mm_method h ∈ ["selectFirst"; "modelChain"] → mm_lt h = [] →
  Forall (λ f, mf_replacement f = None) (mm_schema h) → sg_models s = [d] →
  new_model E dd td (DMining h [s]) = (Ok e, td') →
  ∃ e0 tk0, new_model E dd td d = (Ok e0, td') ∧
    (evaluate E tk (after E calls e) r).1 = (evaluate E tk0 (after E calls' e0) r).1.
Proof.
  intros E dd td h s d e td' calls calls' tk r Hm Hlt Hrep Hd Hn.
  rewrite (history_independent E _ _ _ _ _ calls tk _ Hn).
  destruct (mining_parts E dd td h [s] e td' Hn) as (es & -> & Hs & _).
  inversion Hs as [|? ? ? d' e0 es' td1 Hd' Hn0 Hr]; subst. inversion Hr; subst.
  rewrite Hd in Hd'. injection Hd' as <-. rewrite Hlt, app_nil_r in Hn0.
  assert (td1 = td') as ->.
  { revert Hn. rewrite new_model_mining. destruct (negb _); [done|]. destruct (List.find _ _); [done|].
    rewrite Hlt, app_nil_r. destruct s as [i ps ms]. simpl in Hd. subst ms. cbn [compile_segments]. rewrite Hn0.
    by intros [= <-]. }
  exists e0, (5 :: 0 :: tk). split; [done|]. rewrite (history_independent E _ _ _ _ _ calls' _ _ Hn0).
  rewrite mining_evaluate_run by done. cbn [built_mining em_defaults em_hdr].
  assert (default_values (mm_schema h) = ∅) as ->.
  { unfold default_values. clear -Hrep. induction Hrep as [|f l Hf _ IH]; [done|]. simpl. by rewrite Hf. }
  unfold impute. rewrite map_range_empty. cbn [foldl]. rewrite header_of_lt, Hlt. cbn [handle_input].
  unfold run_method. cbn [em_hdr built_mining]. unfold header_of.
  rewrite !elem_of_cons in Hm. destruct Hm as [Hm|[Hm|Hm%elem_of_nil]]; [..|done]; rewrite Hm; simpl; rewrite Hm; simpl.
  - by destruct (evaluate E _ e0 r) as [[? ?] ?].
  - unfold copy_into. simpl. rewrite map_range_empty. simpl. by destruct (evaluate E _ e0 r) as [[[o|x|p] ?] ?].
Qed.
Print Assumptions C101_single_member.

(** and it is accepted whenever the member is *)
Theorem C101_single_accepted : ∀ E dd td h s d e0 td',
  mining_ok h → mm_lt h = [] → sg_models s = [d] → new_model E dd td d = (Ok e0, td') →
  ∃ e, new_model E dd td (DMining h [s]) = (Ok e, td').
Proof.
  intros E dd td h s d e0 td' Hok Hlt Hd Hn. eexists. eapply new_model_mining_of; [done|].
  rewrite Hlt, app_nil_r. econstructor; [done..|constructor].
Qed.
Print Assumptions C101_single_accepted.

(** With sum, each declared output is the member's, with -0 turned into 0. *)
Definition unsigned_zero (x : f64) : f64 := match x with S754_zero _ => fzero | x => x end.

Theorem C101_single_sum : ∀ E dd td h s d e td' calls calls' tk m,
  mm_method h ∈ ["sum"; ""] → mm_lt h = [] → mm_targets h = [] →
  Forall (λ f, mf_replacement f = None) (mm_schema h) → sg_models s = [d] →
  new_model E dd td (DMining h [s]) = (Ok e, td') →
  ∃ e0 tk0, new_model E dd td d = (Ok e0, td') ∧
    ∀ out0, (evaluate E tk0 (after E calls' e0) (Some m)).1.1 = Ok out0 →
    ∃ out, (evaluate E tk (after E calls e) (Some m)).1.1 = Ok (Some out) ∧
      ∀ o v, o ∈ mm_output h →
        dr_get out0 (if decide (mm_function h = "classification") then of_name o else "score") = Some v →
        out !! of_name o = Some (GF64 (unsigned_zero (val_float64 E v))).
Proof.
  intros E dd td h s d e td' calls calls' tk m Hm Hlt Htg Hrep Hd Hn.
  destruct (mining_parts E dd td h [s] e td' Hn) as (es & He & Hs & _).
  inversion Hs as [|? ? ? d' e0 es' td1 Hd' Hn0 Hr]; subst. inversion Hr; subst.
  rewrite Hd in Hd'. injection Hd' as <-. pose proof Hn0 as Hn0'. rewrite Hlt, app_nil_r in Hn0'.
  assert (td1 = td') as ->.
  { revert Hn. rewrite new_model_mining. destruct (negb _); [done|]. destruct (List.find _ _); [done|].
    rewrite Hlt, app_nil_r. destruct s as [i ps ms]. simpl in Hd. subst ms. cbn [compile_segments]. rewrite Hn0'.
    by intros [= <-]. }
  exists e0, (5 :: 0 :: tk). split; [done|]. intros out0. rewrite (history_independent E _ _ _ _ _ calls' _ _ Hn0').
  intros Ho.
  destruct (evaluate_some E dd td d e0 td' (5 :: 0 :: tk) m Hn0') as [m1 Hm1].
  assert (prepared E h m m) as Hp.
  { exists m. split; [|by rewrite Hlt]. intros k. split; [|done]. intros s' (l1 & f & l2 & Hl & _ & Hf & _).
    rewrite Hl in Hrep. rewrite Forall_app, Forall_cons in Hrep. destruct Hrep as (_ & Hf' & _). congruence. }
  destruct (C48_sum E dd td h [s] _ td' calls tk m m [e0] [out0] m1 Hn) as (out & Hout & Hk).
  - rewrite !elem_of_cons in Hm. destruct Hm as [Hm|[Hm|Hm%elem_of_nil]]; auto; done.
  - done.
  - done.
  - eapply so_cons; [|constructor]. simpl. destruct (evaluate E _ e0 _).1 as [? ?]. simpl in *. by subst.
  - exists out. rewrite Hout. split; [done|]. intros o v Hin Hv. rewrite Hk.
    rewrite decide_True; [|unfold header_output_names; apply elem_of_app; left; by apply elem_of_list_fmap_1].
    f_equal. f_equal. unfold sum_total, contributions. rewrite Htg. cbn [omap list_omap]. rewrite Hv. simpl.
    by destruct (val_float64 E v) as [[]|[]| |? ? ?].
Qed.
Print Assumptions C101_single_sum.

Example C101_example :
  map (λ method, dumped (run go_ext golf_dd (mining "classification" method [] [OF "probability(yes)" "" ""] [] [golf "none"])
                    (Some {["outlook" := GStr "sunny"; "humidity" := GF64 (fl "70"); "kmh" := GF64 (fl "36")]})))
    ["selectFirst"; "modelChain"; "sum"] =
  map (λ r, Some (Ok (dump (Some r))))
    [{["play" := GStr "yes"; "probability(yes)" := GF64 fone; "probability(no)" := GF64 fzero]};
     {["play" := GStr "yes"; "probability(yes)" := GF64 fone; "probability(no)" := GF64 fzero]};
     {["probability(yes)" := GF64 fone]}].
Proof. by vm_compute. Qed.

(** *** C102: every kind of segment contributes *)
Lemma ok_prepared E dd td h segs e td' tk m o :
  new_model E dd td (DMining h segs) = (Ok e, td') → (evaluate E tk e (Some m)).1.1 = Ok o →
  ∃ m2, prepared E h m m2.
Proof.
  intros Hn. destruct (mining_parts E dd td h segs e td' Hn) as (es & -> & _ & _).
  rewrite mining_evaluate_run by done. cbn [built_mining em_defaults em_hdr]. rewrite impute_some, header_of_lt.
  destruct (handle_input E (mm_lt h) _) as [[[]|x|p] r2] eqn:Hh; [|done..]. intros _.
  destruct (handle_input_ok_some _ _ _ _ _ Hh) as [m2 ->]. exists m2. eexists. split; [|done]. by apply imputed_iff.
Qed.

(** all segments succeed, or there is a first one that does not *)
Lemma first_failure E dd tk es : ∀ i m,
  (∀ e, e ∈ es → ∃ td1 d td2, new_model E dd td1 d = (Ok e, td2)) →
  (∃ outs m', seg_outputs E (seg_tickets tk i (length es)) es m outs m') ∨
  (∃ l1 e l2 outs m3 o r4, es = l1 ++ e :: l2 ∧ seg_outputs E (seg_tickets tk i (length l1)) l1 m outs m3 ∧
     (evaluate E (5 :: i + length l1 :: tk) e (Some m3)).1 = (o, r4) ∧ ∀ out, o ≠ Ok out).
Proof.
  induction es as [|e es IH]; intros i m Hb; [left; exists [], m; constructor|].
  destruct (Hb e) as (td1 & d & td2 & He); [by left|].
  destruct (evaluate_some E dd td1 d e td2 (5 :: i :: tk) m He) as [m1 Hm1].
  destruct (evaluate E (5 :: i :: tk) e (Some m)).1 as [o r1] eqn:Hev. simpl in Hm1. subst r1.
  destruct o as [out|x|p].
  2,3: right; exists [], e, es, [], m; do 2 eexists; split; [done|]; split; [constructor|];
    simpl; rewrite Nat.add_0_r; split; [exact Hev|done].
  destruct (IH (S i) m1) as [(outs & m' & H)|(l1 & e' & l2 & outs & m3 & o & r4 & -> & H & Hev' & Ho)].
  - intros e' He'. apply Hb. by right.
  - left. exists (out :: outs), m'. simpl. econstructor; [exact Hev|exact H].
  - right. exists (e :: l1), e', l2, (out :: outs), m3, o, r4. split; [done|].
    split; [simpl; econstructor; [exact Hev|exact H]|]. split; [|done]. simpl. by rewrite Nat.add_succ_r.
Qed.

(** A regression model reports its prediction under the names of its outputs, a
    summing ensemble with a function other than classification reads "score". *)
Theorem C102_regressions_ignored : ∀ E dd td h segs e td' calls tk m o,
  new_model E dd td (DMining h segs) = (Ok e, td') →
  mm_method h ∈ ["sum"; ""; "average"] → mm_function h ≠ "classification" →
  Forall (λ s, ∃ r, sg_models s = [DRegr r] ∧ "score" ∉ map of_name (rm_output r)) segs →
  (evaluate E tk (after E calls e) (Some m)).1.1 = Ok o →
  ∃ out, o = Some out ∧ ∀ k, out !! k =
    if decide (k ∈ header_output_names h) then
      Some (GF64 (if decide (mm_method h = "average")
                  then fdiv (sum_total E h k []) (f64_of_Z (Z.of_nat (length segs)))
                  else sum_total E h k []))
    else None.
Proof.
  intros E dd td h segs e td' calls tk m o Hn Hm Hf Hsegs Ho.
  pose proof Ho as Ho'. rewrite (history_independent E _ _ _ _ _ calls tk _ Hn) in Ho'.
  destruct (ok_prepared E dd td h segs e td' tk m o Hn Ho') as [m2 Hp]. clear Ho'.
  destruct (mining_parts E dd td h segs e td' Hn) as (es & He & Hs & Hl).
  destruct (first_failure E dd tk es 0 m2) as [(outs & m3 & H)|(l1 & e' & l2 & outs & m3 & o' & r4 & -> & H & Hev & Hno)].
  { intros e' He'. by eapply segment_models_in. }
  2:{ exfalso. simpl in Hev.
      rewrite (C50_failing_segment_sum E dd td h segs e td' calls tk m m2 l1 e' l2 outs m3 o' r4 Hn Hm Hp Hs H Hev Hno) in Ho.
      by eapply Hno. }
  assert (∀ k, contributions E h k outs = []) as Hc.
  { intros k. unfold contributions. rewrite decide_False by done. clear -Hs H Hsegs. revert H.
    generalize (seg_tickets tk 0 (length es)). intros tks H. revert tks m2 outs H.
    induction Hs as [|tdc s segs d e0 es td1 Hd Hn0 Hs IH]; intros tks m2 outs H;
      inversion H as [|tk0 tks' ? ? ? out ma outs' ? Ho Hr]; subst; [done|].
    apply Forall_cons in Hsegs as [(r & Hr' & Hsc) Hsegs]. rewrite Hd in Hr'. injection Hr' as ->.
    cbn [omap list_omap]. destruct (dr_get out "score") as [v|] eqn:Hv; simpl; [|by eapply IH]. exfalso.
    assert ("score" ∈ output_names dd (DRegr r)) as Hin.
    { eapply (C29_output_names E dd tdc (DRegr r) e0 td1 [] tk0 (Some m2) out Hn0); [change (after E [] e0) with e0; by rewrite Ho|by eexists]. }
    unfold output_names in Hin. simpl in Hin. rewrite !app_nil_r in Hin. unfold regr_output_names in Hin.
    apply elem_of_app in Hin as [Hin|Hin]; [done|]. case_decide; set_solver. }
  assert (∀ k, sum_total E h k outs = sum_total E h k []) as Ht.
  { intros k. unfold sum_total. by rewrite Hc. }
  rewrite Hl in H. destruct (decide (mm_method h = "average")) as [Ha|Ha].
  - destruct (C49_average E dd td h segs e td' calls tk m m2 es outs m3 Hn Ha Hp Hs H) as (out & Hev & Hout).
    rewrite Hev in Ho. injection Ho as <-. exists out. split; [done|]. intros k. by rewrite Hout, Ht.
  - destruct (C48_sum E dd td h segs e td' calls tk m m2 es outs m3 Hn) as (out & Hev & Hout); [|done..|].
    { rewrite !elem_of_cons in Hm. destruct Hm as [Hm|[Hm|[Hm|Hm%elem_of_nil]]]; auto; done. }
    rewrite Hev in Ho. injection Ho as <-. exists out. split; [done|]. intros k. by rewrite Hout, Ht.
Qed.
Print Assumptions C102_regressions_ignored.

(** Two models whose own predictions are positive: their sum, and
    their average, is 0. *)
Definition area_model (a b : string) : regr_model :=
  RegrModel "regression" "exp" [] [MF "area" "active"; MF "price" "target"]
    [RegrTable (fl a) "" [Predictor "area" (fl b) 1]] [OF "price" "" ""] None.
Theorem C102_regressions_refuted : ∀ method, method ∈ ["sum"; ""; "average"] →
  ∃ E dd m1 m2 e e1 e2 r p1 p2,
  let h := MiningHeader "regression" method [] [] [OF "price" "" ""] [] None in
  new_model E dd [] (DMining h [seg (DRegr m1); seg (DRegr m2)]) = (Ok e, []) ∧
  new_model E dd [] (DRegr m1) = (Ok e1, []) ∧ new_model E dd [] (DRegr m2) = (Ok e2, []) ∧
  (evaluate E [] e1 r).1.1 = Ok (Some {["price" := GF64 p1]}) ∧
  (evaluate E [] e2 r).1.1 = Ok (Some {["price" := GF64 p2]}) ∧
  fltb fzero p1 = true ∧ fltb fzero p2 = true ∧
  (evaluate E [] e r).1.1 = Ok (Some {["price" := GF64 fzero]}).
Proof.
  intros method Hm.
  set (h := MiningHeader "regression" method [] [] [OF "price" "" ""] [] None).
  set (d1 := DRegr (area_model "1" "0.5")). set (d2 := DRegr (area_model "2" "0.25")).
  set (r := Some {["area" := GF64 (fl "2")]} : datarow).
  set (own d := match run go_ext price_dd d r with
    | Some (Ok o, _) => match dr_get o "price" with Some (GF64 x) => x | _ => fzero end | _ => fzero end).
  exists go_ext, price_dd, (area_model "1" "0.5"), (area_model "2" "0.25"),
    (built go_ext price_dd (DMining h [seg d1; seg d2])), (built go_ext price_dd d1), (built go_ext price_dd d2), r, (own d1), (own d2).
  rewrite !elem_of_cons in Hm. destruct Hm as [->|[->|[->|Hm%elem_of_nil]]]; [..|done].
  all: split; [by rewrite built_ok; [|by vm_compute]|]; split; [by rewrite built_ok; [|by vm_compute]|];
    split; [by rewrite built_ok; [|by vm_compute]|]; split; [by apply run_out; vm_compute|];
    split; [by apply run_out; vm_compute|]; split; [by vm_compute|]; split; [by vm_compute|]; by apply run_out; vm_compute.
Qed.
Print Assumptions C102_regressions_refuted.
