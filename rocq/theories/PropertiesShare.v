(** Property theorems about several evaluators built from one document (C89). *)
From Verif Require Import Base Strconv Value Doc Expr Pred Tree Regression Model Api Lib SpecPred ProofsPred
  SpecConstruct ProofsConstruct ProofsEval ProofsWhole ProofsSim SpecShare ProofsShare ProofsHistory GoExt Samples
  PropertiesModel.

(** *** C89: a second evaluator of the same document

    [touch E dd td e] is the existing evaluator [e] after NewModel was called
    again on its document, with the dictionaries [dd] and [td]. *)
Theorem C89_second_evaluator_partial : ∀ E dd td d e td' calls dd2 td2 tk r,
  new_model E dd td d = (Ok e, td') →
  one_type (all_declared dd td d ++ all_declared dd2 td2 d) →
  (touch E dd2 td2 (after E calls e)).1.2 = after E calls e ∧
  (evaluate E tk (touch E dd2 td2 (after E calls e)).1.2 r).1 = (evaluate E tk e r).1.
Proof.
  intros E dd td d e td' calls dd2 td2 tk r Hn (T & HT)%one_type_map.
  assert (∀ f a, (f, a) ∈ all_declared dd td d → T !! f = Some a) as H1 by (intros; apply HT; set_solver).
  assert (∀ f a, (f, a) ∈ all_declared dd2 td2 d → T !! f = Some a) as H2 by (intros; apply HT; set_solver).
  apply declarations_agree in H1 as [H1 [H1a H1b]%Forall_app], H2 as [H2 [H2a _]%Forall_app].
  pose proof (new_model_fixed E T dd d td e td' H1 H1a H1b Hn) as Hf.
  pose proof (msim_refl_of E dd td d e td' calls Hn) as Hs.
  destruct (touch_fixed E T dd2 td2 (after E calls e) H2 H2a (fixed_model_msim _ _ _ _ Hs Hf)) as [-> _].
  split; [done|]. by eapply history_independent.
Qed.
Print Assumptions C89_second_evaluator_partial.

(** A tree, built again with the dictionaries as the first NewModel left them:
    no condition is needed. *)
Theorem C89_tree_again : ∀ E dd td t e td',
  new_model E dd td (DTree t) = (Ok e, td') →
  (touch E dd td' e).1.2 = e ∧ is_ok (new_model E dd td' (DTree t)).1 = true.
Proof.
  intros E dd td t e td' Hn. pose proof (new_model_again E dd dd _ td td' e td' Hn) as (_ & Hok & _).
  assert (Hn' := Hn). apply new_model_tree_inv in Hn' as (te & -> & -> & Hb).
  destruct Hb as (_ & _ & _ & _ & Hm & Hft & Hr & _ & Hf).
  assert (field_types dd ((td ++ tm_lt t) ++ tm_lt t) = et_ft te) as Hx.
  { rewrite Hft, !field_types_app. apply declare_twice. }
  destruct (touch_new_node E _ (et_ft te) _ _ Hr) as [H1 H2]. rewrite Hr in H1, H2.
  specialize (H2 _ eq_refl). rewrite <- Hok. cbn [touch]. rewrite Hm. cbn [tm_lt]. rewrite Hx.
  destruct (touch_node _ _ _) as [ok root]. cbn [fst snd is_ok] in *. subst. rewrite <- Hm. split; [by destruct te|]. by apply H1.
Qed.
Print Assumptions C89_tree_again.

(** What the second NewModel does with the document is what it does with its own
    evaluator: the old evaluator's tests are the new one's. *)
Theorem C89_tests_are_the_new_ones : ∀ E dd td d e td' dd2 td2 e2 td2',
  new_model E dd td d = (Ok e, td') → new_model E dd2 td2 d = (Ok e2, td2') →
  same_tests (touch E dd2 td2 e).1.2 e2 ∧ (touch E dd2 td2 e).2 = td2'.
Proof.
  intros E dd td d e td' dd2 td2 e2 td2' H1 H2.
  destruct (new_model_again E dd dd2 d td td2 e td' H1) as (Ht & _ & Hs). rewrite H2 in Ht, Hs. eauto.
Qed.
Print Assumptions C89_tests_are_the_new_ones.

Example C89_example :
  let e := built go_ext golf_dd (golf "none") in
  one_type (all_declared golf_dd [] (golf "none") ++ all_declared golf_dd golf_lt (golf "none")) ∧
  is_ok (new_model go_ext golf_dd golf_lt (golf "none")).1 = true ∧
  (touch go_ext golf_dd golf_lt e).2 = golf_lt ++ golf_lt.
Proof.
  cbv zeta. repeat apply conj; try by vm_compute. intros f a b Ha Hb. vm_compute in Ha, Hb.
  set_unfold in Ha. set_unfold in Hb. naive_solver.
Qed.

(** Without the condition: the same document and the same dictionaries, which the
    first NewModel extended.  The existing evaluator then panics. *)
Theorem C89_second_evaluator_refuted : ∃ E dd d e td' e2 td2 r out p,
  new_model E dd [] d = (Ok e, td') ∧ new_model E dd td' d = (Ok e2, td2) ∧
  (evaluate E [] e r).1.1 = Ok out ∧
  (evaluate E [] (touch E dd td' e).1.2 r).1.1 = Panic p.
Proof.
  set (td1 := (new_model go_ext price_dd [] retyped).2).
  assert (is_ok (new_model go_ext price_dd td1 retyped).1 = true) as H by by vm_compute.
  destruct (new_model go_ext price_dd td1 retyped) as [[e2| |] td2] eqn:H2; [|done..].
  exists go_ext, price_dd, retyped, (built go_ext price_dd retyped), td1, e2, td2, small,
    (Some {["score" := GF64 (fl "50.5")]}), PTypeAssert.
  split; [apply built_ok; by vm_compute|]. split; [done|]. split; [apply run_out; by vm_compute|]. by vm_compute.
Qed.
Print Assumptions C89_second_evaluator_refuted.

(** With another data dictionary the answer of the existing evaluator changes. *)
Definition code_tree : tree_model :=
  TreeModel "classification" "none" fone "returnNullPrediction" [] [MF "code" "active"; MF "play" "target"] None
    (MNode "1" "" "" (fl "2") []
       [MNode "2" "" "yes" (fl "1") [SD "yes" "1"] [] (SP "code" "equal" "7");
        MNode "3" "" "no" (fl "1") [SD "no" "1"] [] PTrue] PTrue).
Definition code_dd (dt : string) : list data_field :=
  [DataField "code" dt []; DataField "play" "string" ["yes"; "no"]].
Theorem C89_other_dictionary_refuted : ∃ E dd dd2 d e td' e2 td2 r out1 out2,
  new_model E dd [] d = (Ok e, td') ∧ new_model E dd2 [] d = (Ok e2, td2) ∧
  (evaluate E [] e r).1.1 = Ok out1 ∧ dr_get out1 "play" = Some (GStr "yes") ∧
  (evaluate E [] (touch E dd2 [] e).1.2 r).1.1 = Ok out2 ∧ dr_get out2 "play" = Some (GStr "no").
Proof.
  set (d := DTree code_tree).
  assert (is_ok (new_model go_ext (code_dd "integer") [] d).1 = true) as H by by vm_compute.
  exists go_ext, (code_dd "string"), (code_dd "integer"), d, (built go_ext (code_dd "string") d), [],
    (built go_ext (code_dd "integer") d), [], (Some {["code" := GStr "7"]}),
    (Some {["play" := GStr "yes"; "probability(yes)" := GF64 (fl "1")]}),
    (Some {["play" := GStr "no"; "probability(no)" := GF64 (fl "1")]}).
  split; [apply built_ok; by vm_compute|]. split; [apply built_ok; by vm_compute|].
  split; [apply run_out; by vm_compute|]. split; [done|]. split; [apply eval_out; by vm_compute|done].
Qed.
Print Assumptions C89_other_dictionary_refuted.
