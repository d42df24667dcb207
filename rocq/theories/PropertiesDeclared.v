(** Properties C145 and C146: what documents declare about missing, invalid and unlisted
    values. *)
From Verif Require Import Base Strconv Value Doc Expr Pred Tree Regression Model Lib GoExt Samples SpecPred ProofsPred
  SpecTree SpecModel ProofsRange ProofsMining ProofsWhole ProofsSim SpecEquiv ProofsEquiv SpecEssence ProofsEssence
  PropertiesModel PropertiesEssence PropertiesEquiv SpecDeclared ProofsDeclared.

(** *** C145: replacements of missing values *)
Lemma imputed_twice l m m' : imputed l m m' → imputed l m' m'.
Proof.
  rewrite !imputed_iff. intros ->. apply map_eq. intros k. unfold fill. rewrite !lookup_merge.
  destruct (default_values l !! k) as [x|], (m !! k) as [[]|]; simpl; try done; by destruct x.
Qed.

(** To an ensemble a row is the row with the replacements filled in. *)
Theorem C145_ensemble_partial : ∀ E dd td h segs e td' calls1 calls2 tk m m',
  new_model E dd td (DMining h segs) = (Ok e, td') →
  imputed (mm_schema h) m m' →
  (evaluate E tk (after E calls1 e) (Some m)).1 = (evaluate E tk (after E calls2 e) (Some m')).1.
Proof.
  intros E dd td h segs e td' calls1 calls2 tk m m' Hn Hm.
  destruct (C44_imputation E dd td h segs e td' calls1 tk m m' Hn Hm) as (e1 & H1 & ->).
  destruct (C44_imputation E dd td h segs e td' calls2 tk m' m' Hn (imputed_twice _ _ _ Hm)) as (e2 & H2 & ->).
  rewrite H1 in H2. by injection H2 as ->.
Qed.
Print Assumptions C145_ensemble_partial.

(** Replacements in trees and regression models, alone or inside ensembles, have no effect. *)
Theorem C145_ignored : ∀ E dd td d1 d2 e1 td1 calls1 calls2 tk r,
  only_ensembles_replace d1 = only_ensembles_replace d2 → new_model E dd td d1 = (Ok e1, td1) →
  ∃ e2 td2, new_model E dd td d2 = (Ok e2, td2) ∧
    (evaluate E tk (after E calls1 e1) r).1 = (evaluate E tk (after E calls2 e2) r).1.
Proof.
  intros. eapply C73_unread_parts; [|done]. by rewrite <- only_ensembles_essence, H, only_ensembles_essence.
Qed.
Print Assumptions C145_ignored.

Definition replaced_by (n v : string) (f : mining_field) : mining_field :=
  if mf_name f =s n then MiningField (mf_name f) (mf_usage f) (Some v) (mf_outliers f) (mf_invalid f) else f.
Definition damp_golf (st : string) : doc_model := with_fields (replaced_by "humidity" "70") id (golf st).
Definition fill_logit : doc_model := with_fields (replaced_by "area" "-2") id (DRegr logit_model).

Lemma rows_apart E dd d r1 r2 :
  is_ok (new_model E dd [] d).1 = true → dumped (run E dd d r1) ≠ dumped (run E dd d r2) →
  ∃ e td', new_model E dd [] d = (Ok e, td') ∧ (evaluate E [] e r1).1.1 ≠ (evaluate E [] e r2).1.1.
Proof.
  unfold run. destruct (new_model E dd [] d) as [[e| |] td']; try done.
  intros _ Hd. exists e, td'. split; [done|]. intros H. apply Hd.
  destruct (evaluate E [] e r1) as [[o1 s1] m1], (evaluate E [] e r2) as [[o2 s2] m2]. simpl in *. by subst.
Qed.

(** A tree answers a row without the field differently from the row with its replacement. *)
Theorem C145_tree_refuted : ∃ E dd t m m',
  imputed (tm_schema t) m m' ∧
  ∃ e td', new_model E dd [] (DTree t) = (Ok e, td') ∧
    (evaluate E [] e (Some m)).1.1 ≠ (evaluate E [] e (Some m')).1.1.
Proof.
  exists go_ext, golf_dd, (match damp_golf "lastPrediction" with DTree t => t | _ => price_tree end).
  exists {["outlook" := GStr "sunny"; "kmh" := GF64 (fl "36")]},
    {["outlook" := GStr "sunny"; "kmh" := GF64 (fl "36"); "humidity" := GStr "70"]}. split.
  - apply imputed_iff. apply map_to_list_inj. vm_compute. reflexivity.
  - apply rows_apart; by vm_compute.
Qed.
Print Assumptions C145_tree_refuted.

(** So does a regression model. *)
Theorem C145_regression_refuted : ∃ E dd t m m',
  imputed (rm_schema t) m m' ∧
  ∃ e td', new_model E dd [] (DRegr t) = (Ok e, td') ∧
    (evaluate E [] e (Some m)).1.1 ≠ (evaluate E [] e (Some m')).1.1.
Proof.
  exists go_ext, [], (match fill_logit with DRegr t => t | _ => lin_model end).
  exists ∅, {["area" := GStr "-2"]}. split.
  - apply imputed_iff. apply map_to_list_inj. vm_compute. reflexivity.
  - apply rows_apart; by vm_compute.
Qed.
Print Assumptions C145_regression_refuted.

Example C145_example :
  imputed (mm_schema (houses_header "sum")) {["rooms" := GInt KInt 3]} {["area" := GStr "70"; "rooms" := GInt KInt 3]} ∧
  dumped (run go_ext price_dd (houses "sum") (Some {["rooms" := GInt KInt 3]})) =
    Some (Ok (dump (Some {["price" := GF64 (fl "801")]}))) ∧
  only_ensembles_replace (damp_golf "lastPrediction") = only_ensembles_replace (golf "lastPrediction") ∧
  damp_golf "lastPrediction" ≠ golf "lastPrediction" ∧
  dumped (run go_ext golf_dd (damp_golf "lastPrediction") (Some {["outlook" := GStr "sunny"; "kmh" := GF64 (fl "36")]})) =
    dumped (run go_ext golf_dd (golf "lastPrediction") (Some {["outlook" := GStr "sunny"; "kmh" := GF64 (fl "36")]})).
Proof.
  split; [apply imputed_iff, map_to_list_inj; vm_compute; reflexivity|]. split; [by vm_compute|].
  split; [done|]. split; [|by vm_compute]. unfold damp_golf, golf, golf_tree. cbn. by intros [= ].
Qed.

(** *** C146: values that are not allowed *)
(** invalidValueTreatment and outliers have no effect, in any model at any depth. *)
Theorem C146_treatments_ignored : ∀ E dd td d1 d2 e1 td1 calls1 calls2 tk r,
  untreated d1 = untreated d2 → new_model E dd td d1 = (Ok e1, td1) →
  ∃ e2 td2, new_model E dd td d2 = (Ok e2, td2) ∧
    (evaluate E tk (after E calls1 e1) r).1 = (evaluate E tk (after E calls2 e2) r).1.
Proof. intros. eapply C73_unread_parts; [|done]. by rewrite <- untreated_essence, H, untreated_essence. Qed.
Print Assumptions C146_treatments_ignored.

(** Neither have the values the data dictionary lists for inputs. *)
Theorem C146_values_ignored : ∀ E dd1 dd2 td d e1 td' calls1 calls2 tk r,
  other_values (targets d) dd1 dd2 → new_model E dd1 td d = (Ok e1, td') →
  ∃ e2, new_model E dd2 td d = (Ok e2, td') ∧
    (evaluate E tk (after E calls1 e1) r).1 = (evaluate E tk (after E calls2 e2) r).1.
Proof.
  intros E dd1 dd2 td d e1 td' calls1 calls2 tk r Hd H1.
  destruct (other_values_stands_in E dd1 dd2 d Hd td e1 td' H1) as (e2 & H2 & He).
  exists e2. split; [done|].
  by rewrite (history_independent _ _ _ _ _ _ calls1 _ _ H1), (history_independent _ _ _ _ _ _ calls2 _ _ H2).
Qed.
Print Assumptions C146_values_ignored.

Definition treated (n v : string) (f : mining_field) : mining_field :=
  if mf_name f =s n then MiningField (mf_name f) (mf_usage f) (mf_replacement f) (mf_outliers f) v else f.
Definition strict_golf (st tr : string) : doc_model := with_fields (treated "outlook" tr) id (golf st).
Definition strict_dd : list data_field :=
  [DataField "outlook" "string" ["sunny"; "overcast"; "rain"]; DataField "humidity" "double" [];
   DataField "kmh" "double" []; DataField "play" "string" ["yes"; "no"]].
Definition strict_tree (st tr : string) : tree_model :=
  match strict_golf st tr with DTree t => t | _ => price_tree end.
Definition hail : gmap string gov := {["outlook" := GStr "hail"; "humidity" := GF64 (fl "70"); "kmh" := GF64 (fl "10.8")]}.
Lemma hail_not_listed : not_listed strict_dd hail "outlook" "hail".
Proof. split; [by vm_compute|]. split; [by vm_compute|]. vm_compute. intros H. set_solver. Qed.

(** A row with an unlisted value of a field marked returnInvalid gets a prediction. *)
Theorem C146_invalid_refuted : ∃ E dd t f m v,
  f ∈ tm_schema t ∧ mf_invalid f = "returnInvalid" ∧ not_listed dd m (mf_name f) v ∧
  ∃ e td' out, new_model E dd [] (DTree t) = (Ok e, td') ∧
    (evaluate E [] e (Some m)).1.1 = Ok (Some out) ∧ out !! "play" = Some (GStr "yes").
Proof.
  exists go_ext, strict_dd, (strict_tree "lastPrediction" "returnInvalid"),
    (MiningField "outlook" "active" None "" "returnInvalid"), hail, "hail".
  split; [by left|]. split; [done|]. split; [apply hail_not_listed|].
  assert (is_ok (new_model go_ext strict_dd [] (strict_golf "lastPrediction" "returnInvalid")).1 = true) as Hok by by vm_compute.
  pose proof (built_ok _ _ _ Hok) as Hb.
  assert (dumped (run go_ext strict_dd (strict_golf "lastPrediction" "returnInvalid") (Some hail)) =
    dumped (Some (Ok (Some {["play" := GStr "yes"; "probability(yes)" := GF64 (fdiv (fl "7") (fl "9"));
                             "probability(no)" := GF64 (fdiv (fl "2") (fl "9"))]}), None))) as Hr by by vm_compute.
  eexists _, _, _. split; [exact Hb|]. split; [eapply run_out; [exact Hok|exact Hr]|]. by vm_compute.
Qed.
Print Assumptions C146_invalid_refuted.

(** Nor does asMissing make it the row without the field. *)
Theorem C146_as_missing_refuted : ∃ E dd t f m v,
  f ∈ tm_schema t ∧ mf_invalid f = "asMissing" ∧ not_listed dd m (mf_name f) v ∧
  ∃ e td', new_model E dd [] (DTree t) = (Ok e, td') ∧
    (evaluate E [] e (Some m)).1.1 ≠ (evaluate E [] e (Some (delete (mf_name f) m))).1.1.
Proof.
  exists go_ext, strict_dd, (strict_tree "nullPrediction" "asMissing"),
    (MiningField "outlook" "active" None "" "asMissing"), hail, "hail".
  split; [by left|]. split; [done|]. split; [apply hail_not_listed|]. apply rows_apart; by vm_compute.
Qed.
Print Assumptions C146_as_missing_refuted.

Example C146_example :
  other_values (targets (strict_golf "lastPrediction" "asMissing")) strict_dd golf_dd ∧
  targets (strict_golf "lastPrediction" "asMissing") = ["play"] ∧
  untreated (strict_golf "lastPrediction" "asMissing") = untreated (golf "lastPrediction") ∧
  dumped (run go_ext strict_dd (strict_golf "lastPrediction" "asMissing") (Some hail)) =
    dumped (run go_ext golf_dd (golf "lastPrediction") (Some hail)).
Proof.
  split; [|split; [by vm_compute|split; [done|by vm_compute]]].
  assert (targets (strict_golf "lastPrediction" "asMissing") = ["play"]) as -> by by vm_compute.
  repeat constructor; simpl; try done; intros H%elem_of_list_singleton; done.
Qed.
