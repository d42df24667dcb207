(** Properties C87 - C88: field names are only names, and a prediction looks
    only at the inputs its document needs. *)
From Verif Require Import Base Strconv Value Doc Expr Pred Tree Regression Model Lib GoExt Samples
  ProofsConstruct ProofsEval ProofsWhole ProofsSim SpecRename ProofsRename.

(** *** C87: renaming the fields of a document renames its predictions *)
Theorem C87_renaming : ∀ ρ E dd td d e td' calls calls' tk,
  Inj (=) (=) ρ → keeps_reserved ρ → new_model E dd td d = (Ok e, td') →
  ∃ e', new_model E (ren_data ρ <$> dd) (ren_derived ρ <$> td) (ren_doc ρ d) = (Ok e', ren_derived ρ <$> td') ∧
    ∀ r, (evaluate E tk (after E calls' e') (ren_row ρ <$> r)).1.1 =
         ren_result ρ (evaluate E tk (after E calls e) r).1.1.
Proof.
  intros ρ E dd td d e td' calls calls' tk Hinj Hres Hn.
  destruct (renamed_outcome ρ E dd td d e td' Hinj Hres Hn) as (e' & Hn' & He). exists e'. split; [done|].
  intros r. rewrite (history_independent _ _ _ _ _ _ _ _ _ Hn), (history_independent _ _ _ _ _ _ _ _ _ Hn').
  apply He; [by destruct r|]. intros k _. by apply dr_get_ren.
Qed.
Print Assumptions C87_renaming.

(** A document is refused under its new names for the same reason. *)
Theorem C87_renaming_refused : ∀ ρ E dd td d x,
  Inj (=) (=) ρ → keeps_reserved ρ → (new_model E dd td d).1 = Err x →
  (new_model E (ren_data ρ <$> dd) (ren_derived ρ <$> td) (ren_doc ρ d)).1 = Err (ren_err ρ x).
Proof. intros ρ E dd td d x Hinj Hres. by apply renamed_refused. Qed.
Print Assumptions C87_renaming_refused.

(** two names exchanged *)
Definition swap (a b s : string) : string := if s =s a then b else if s =s b then a else s.

Lemma swap_inj a b : Inj (=) (=) (swap a b).
Proof.
  intros x y. unfold swap. destruct (String.eqb_spec x a), (String.eqb_spec y a); subst; try done;
    try destruct (String.eqb_spec x b); try destruct (String.eqb_spec y b); intros; subst; congruence.
Qed.

(** an input and the target of the golf tree under other names *)
Definition other_names (s : string) : string := swap "play" "decision" (swap "humidity" "moisture" s).
Lemma other_names_ok : Inj (=) (=) other_names ∧ keeps_reserved other_names.
Proof.
  split; [|by split; [|split]]. intros x y H. by apply (swap_inj "humidity" "moisture"), (swap_inj "play" "decision").
Qed.

Example C87_example :
  dumped (run go_ext golf_dd (golf "none")
    (Some (<["outlook" := GStr "sunny"]> {["humidity" := GF64 (fl "60")]}))) =
    Some (Ok (Some [("play", GStr "yes"); ("probability(no)", GF64 fzero); ("probability(yes)", GF64 fone)])) ∧
  dumped (run go_ext (ren_data other_names <$> golf_dd) (ren_doc other_names (golf "none"))
    (Some (<["outlook" := GStr "sunny"]> {["moisture" := GF64 (fl "60")]}))) =
    Some (Ok (Some [("probability(no)", GF64 fzero); ("probability(yes)", GF64 fone); ("decision", GStr "yes")])) ∧
  (new_model go_ext [] [] (golf "none")).1 = Err (EUnknownField "humidity") ∧
  (new_model go_ext [] [] (ren_doc other_names (golf "none"))).1 = Err (EUnknownField "moisture").
Proof. split_and!; by vm_compute. Qed.

(** The names the evaluator invents are not free: a field called "score" can be
    read from a regression tree earlier in the chain, under another name it
    cannot. *)
Definition score_chain : doc_model :=
  mining "regression" "modelChain" [] [] []
    [DTree price_tree;
     DRegr (RegrModel "regression" "exp" [] [] [RegrTable (fl "-400") "" [Predictor "score" (fl "2") 1]]
       [OF "total" "" ""] None)].
Definition points : string → string := swap "score" "points".

Theorem C87_any_name_refuted : ∃ ρ E dd d e e' td' r o x,
  Inj (=) (=) ρ ∧ new_model E dd [] d = (Ok e, td') ∧
  new_model E (ren_data ρ <$> dd) [] (ren_doc ρ d) = (Ok e', ren_derived ρ <$> td') ∧
  (evaluate E [] e r).1.1 = Ok o ∧
  (evaluate E [] e' (ren_row ρ <$> r)).1.1 = Err x.
Proof.
  exists points, go_ext, price_dd, score_chain, (built go_ext price_dd score_chain),
    (built go_ext (ren_data points <$> price_dd) (ren_doc points score_chain)), [],
    (Some {["area" := GF64 (fl "80")]}), (Some {["total" := GF64 fone]}), (EMissingTerm "points").
  split; [apply swap_inj|]. split; [by rewrite built_ok; [|by vm_compute]|].
  split; [by rewrite built_ok; [|by vm_compute]|].
  split; [by apply run_out; vm_compute|]. by apply run_err; vm_compute.
Qed.
Print Assumptions C87_any_name_refuted.

(** *** C88: a prediction looks only at the inputs its document needs *)
Theorem C88_inputs : ∀ E dd td d e td' calls1 calls2 tk r1 r2,
  new_model E dd td d = (Ok e, td') →
  (r1 = None ↔ r2 = None) →
  (∀ f, f ∈ doc_inputs d → dr_get r1 f = dr_get r2 f) →
  (evaluate E tk (after E calls1 e) r1).1.1 = (evaluate E tk (after E calls2 e) r2).1.1.
Proof.
  intros E dd td d e td' calls1 calls2 tk r1 r2 Hn H0 Hr.
  rewrite !(history_independent _ _ _ _ _ _ _ _ _ Hn).
  assert (keeps_reserved id) as Hk by (by split; [|split]).
  destruct (renamed_outcome id E dd td d e td' _ Hk Hn) as (e' & _ & He).
  rewrite <- (ren_result_id (evaluate E tk e r1).1.1), <- (ren_result_id (evaluate E tk e r2).1.1).
  rewrite <- (He tk r1 r2), <- (He tk r2 r2); try done. intros k Hk'. symmetry. by apply Hr.
Qed.
Print Assumptions C88_inputs.

(** Columns nobody asked for are ignored. *)
Theorem C88_extra_column : ∀ E dd td d e td' calls1 calls2 tk m f v,
  new_model E dd td d = (Ok e, td') → f ∉ doc_inputs d →
  (evaluate E tk (after E calls1 e) (Some (<[f := v]> m))).1.1 =
  (evaluate E tk (after E calls2 e) (Some m)).1.1.
Proof.
  intros E dd td d e td' calls1 calls2 tk m f v Hn Hf. eapply C88_inputs; [done..|].
  intros k Hk. simpl. rewrite lookup_insert_ne; [done|]. by intros ->.
Qed.
Print Assumptions C88_extra_column.

(** "wind" is computed from "kmh": a "wind" column of the caller's is ignored *)
Example C88_example :
  doc_inputs (golf "none") = ["kmh"; "outlook"; "humidity"; "humidity"; "outlook"] ∧
  is_ok (new_model go_ext golf_dd [] (golf "none")).1 = true ∧
  dumped (run go_ext golf_dd (golf "none") (Some (<["wind" := GF64 (fl "99")]> {["kmh" := GF64 (fl "9")]}))) =
  dumped (run go_ext golf_dd (golf "none") (Some {["kmh" := GF64 (fl "9")]})) ∧
  dumped (run go_ext golf_dd (golf "none") (Some {["kmh" := GF64 (fl "9")]})) ≠
  dumped (run go_ext golf_dd (golf "none") (Some {["kmh" := GF64 (fl "90")]})).
Proof. split_and!; try (by vm_compute). Qed.
