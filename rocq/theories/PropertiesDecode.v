(** Properties C67 - C72: reading documents. *)
From stdpp Require Import pretty.
From Verif Require Import Base Strconv Value Doc Expr Pred Tree Regression Model Xml Decode TokenLoop
  Lib GoExt Samples ProofsValue SpecDecode ProofsDecode ProofsAttrs ProofsRewrite.

(** *** C67: what is written is what is read *)
Theorem C67_document_survives : ∀ E U F version dd td ms,
  writable F (ext_parse_float E) U other_expr other_model dd td ms →
  decode E U (wr_pmml F version dd td ms) = Some (Pmml version dd td ms).
Proof. intros. by apply decode_wr. Qed.
Print Assumptions C67_document_survives.

(** a writer for the numbers of the samples *)
Definition sample_numbers : list string :=
  ["0"; "1"; "2"; "3"; "5"; "7"; "9"; "14"; "0.5"; "0.25"; "10"; "100"; "1E-6"].
Definition print_sample (f : f64) : string :=
  default "1" (list_find (λ s, gov_eqb (GF64 (fl s)) (GF64 f) = true) sample_numbers ≫= λ p, Some p.2).
Definition sample_models : list doc_model :=
  [golf "weightedConfidence"; DTree price_tree; DRegr lin_model; DRegr logit_model; DOther "NeuralNetwork";
   mining "regression" "sum" [DF "d" "double" (XMap [("outlook", "o")]
      [[{["o" := "sunny"; "output" := "1"]}; {["o" := "rain"; "output" := "2"]}]] (Some "0") "double" "output" None)]
     [OF "y" "predictedValue" ""] [Target "y" (Some (fl "2")) None]
     [DTree price_tree; mining "regression" "selectFirst" [] [] [] [DRegr lin_model]]].
Lemma sample_writable :
  writable print_sample (ext_parse_float go_ext) (λ _ _, true) other_expr other_model golf_dd golf_lt sample_models.
Proof.
  Ltac crush := repeat first
    [ exact I | reflexivity | discriminate
    | match goal with |- prints _ _ _ => split; [by vm_compute|split; by vm_compute] end
    | match goal with |- _ ∧ _ => split end
    | match goal with |- Forall _ _ => constructor end
    | match goal with |- _ ∨ _ => right end
    | progress hnf ].
  crush.
Qed.
Example C67_example :
  decode go_ext (λ _ _, true) (wr_pmml print_sample "4.3" golf_dd golf_lt sample_models)
    = Some (Pmml "4.3" golf_dd golf_lt sample_models).
Proof. apply C67_document_survives, sample_writable. Qed.

(** *** C68: an integer in the file is that integer *)
Theorem C68_integer_literal : ∀ E ft f op raw z,
  ft !! f = Some "integer" →
  compile_predicate E ft (PSimple f op (pretty z) raw) =
    if bool_decide (- 2 ^ 63 <= z < 2 ^ 63)%Z then Ok (PSimple f op (pretty z) (GInt KInt64 z))
    else Err (EParseInt (pretty z)).
Proof.
  intros E ft f op raw z Hf. cbn [compile_predicate]. rewrite Hf. unfold get_raw_value.
  cbn [String.eqb Ascii.eqb Bool.eqb]. case_bool_decide as Hz.
  - by rewrite parse_pretty.
  - by rewrite parse_pretty_out.
Qed.
Print Assumptions C68_integer_literal.

Theorem C68_integer_split : ∀ E ft f raw k (x z : Z) r (op : string) (b : bool),
  ft !! f = Some "integer" → (- 2 ^ 63 <= z < 2 ^ 63)%Z → (- 2 ^ 63 <= x < 2 ^ 63)%Z →
  dr_get r f = Some (GInt k x) →
  (op, b) ∈ [("lessThan", x <? z); ("lessOrEqual", x <=? z); ("greaterThan", z <? x);
             ("greaterOrEqual", z <=? x)]%Z →
  ∃ p, compile_predicate E ft (PSimple f op (pretty z) raw) = Ok p ∧
       run_test E ft p r = Ok (if b then RT else RF).
Proof.
  intros E ft f raw k x z r op b Hf Hz Hx Hr Hop. eexists. split.
  - rewrite C68_integer_literal by done. by rewrite bool_decide_true.
  - cbn [run_test]. unfold eval_simple. rewrite Hf, Hr. cbn [is_nil].
    repeat (apply elem_of_cons in Hop as [Hop|Hop]; [simplify_eq; cbn -[wrap64]; by rewrite wrap64_small|]).
    by apply elem_of_nil in Hop.
Qed.
Print Assumptions C68_integer_split.

Example C68_example :
  compile_predicate go_ext {["n" := "integer"]} (SP "n" "lessThan" "-9223372036854775808")
    = Ok (PSimple "n" "lessThan" "-9223372036854775808" (GInt KInt64 (- 2 ^ 63))) ∧
  compile_predicate go_ext {["n" := "integer"]} (SP "n" "lessThan" "9223372036854775808")
    = Err (EParseInt "9223372036854775808") ∧
  (pretty (- 2 ^ 63)%Z = "-9223372036854775808").
Proof. repeat split; by vm_compute. Qed.

(** *** C69: the layout of the file does not matter *)
Theorem C69_layout_irrelevant : ∀ E U more x y,
  (∀ n x y, rewritten more true x y → U n x = U n y) →
  rewritten_root more true x y → decode E U x = decode E U y.
Proof.
  intros E U more x y HU Hr. apply (decode_agree E U more true); [|done|done].
  intros n x' y' H. rewrite (HU n x' y' H). done.
Qed.
Print Assumptions C69_layout_irrelevant.

Definition tidy_tree : xml :=
  Elem "PMML" [("version", "4.3"); ("xmlns", "u")] "" [
    Elem "DataDictionary" [] "" [Elem "DataField" [("name", "x"); ("dataType", "double")] "" []];
    Elem "TreeModel" [("functionName", "regression"); ("missingValueStrategy", "none")] "" [
      Elem "MiningSchema" [] "" [Elem "MiningField" [("name", "x")] "" []];
      Elem "Node" [("id", "1"); ("score", "7")] "" [Elem "True" [] "" []]]].
Definition untidy_tree : xml :=
  Elem "PMML" [("xmlns", "u"); ("version", "4.3")] "" [Chars " ";
    Elem "DataDictionary" [] "" [
      Elem "Extension" [("name", "tool")] "" [];
      Elem "DataField" [("dataType", "double"); ("x-unit", "cm"); ("name", "x")] "" []]; Chars " ";
    Elem "TreeModel" [("missingValueStrategy", "none"); ("functionName", "regression")] "" [
      Elem "Vendor" [] "" []; Chars " ";
      Elem "MiningSchema" [] "" [Elem "MiningField" [("name", "x")] "" []];
      Elem "Node" [("score", "7"); ("id", "1")] "" [
        Elem "Extension" [] "" [Elem "Node" [] "" []]; Elem "True" [] "" []; Chars " "]]].
Example C69_example :
  rewritten_root [] true untidy_tree tidy_tree ∧
  is_Some (decode go_ext (λ _ _, true) untidy_tree) ∧
  decode go_ext (λ _ _, true) untidy_tree = decode go_ext (λ _ _, true) tidy_tree.
Proof.
  assert (rewritten_root [] true untidy_tree tidy_tree) as H.
  { Ltac same := split;
      [apply (bool_decide_unpack _); by vm_compute|apply (bool_decide_unpack _); by vm_compute].
    Ltac kids := match goal with |- rewritten_kids _ _ _ ?l1 ?l2 =>
      let v1 := eval vm_compute in l1 in let v2 := eval vm_compute in l2 in
      change l1 with v1; change l2 with v2 end.
    Ltac rewr := kids; repeat first
      [ apply rk_nil
      | apply rk_keep; [apply rw_elem; [done|same|by intros [?|?]|rewr]|]
      | apply rk_drop; [by vm_compute|by vm_compute|] ].
    split; [same|]. rewr. }
  split; [done|]. split; [vm_compute; by eexists|]. by apply (C69_layout_irrelevant _ _ []).
Qed.

(** *** C70: foreign elements *)

(** Reading a file that holds foreign elements (Extension and others) fails or
    gives the document without them. *)
Theorem C70_foreign_elements_never_change : ∀ E U more x y d,
  (∀ n x y, rewritten more false x y → U n x = true → U n y = true) →
  rewritten_root more false x y → decode E U x = Some d → decode E U y = Some d.
Proof.
  intros E U more x y d HU Hr. apply (decode_agree E U more false); [|done].
  intros n x' y' H. split; [by apply HU|done].
Qed.
Print Assumptions C70_foreign_elements_never_change.

(** Extensions are ignored wherever PMML allows them but under PMML, Segment and
    InlineTable. *)
Theorem C70_extensions_partial : ∀ E U more p n at_ i ks,
  (∀ n x y, rewritten more true x y → U n x = U n y) →
  "Extension" ∉ more → p ∉ ["row"; "PMML"; "Segment"; "InlineTable"; "Alternate"; n] →
  well_formed (Elem n at_ i ks) →
  decode E U (add_extension p (Elem n at_ i ks)) = decode E U (Elem n at_ i ks).
Proof.
  intros E U more p n at_ i ks HU Hm Hp Hwf. apply (C69_layout_irrelevant E U more); [done|].
  apply add_rewritten_root; try done.
  - apply not_true_iff_false. intros H. apply existsb_exists in H as (k & Hk & He).
    apply String.eqb_eq in He. subst k. apply Hm. by apply elem_of_list_In.
  - intros ->. apply Hp. set_solver.
  - unfold intolerant. cbn [String.eqb Ascii.eqb Bool.eqb negb]. rewrite andb_false_r, orb_false_r.
    rewrite !(proj2 (String.eqb_neq _ _)); [done|..]; intros ->; apply Hp; set_solver.
  - intros ->. apply Hp. set_solver.
Qed.
Print Assumptions C70_extensions_partial.

Definition small_ensemble : xml :=
  Elem "PMML" [("version", "4.3")] "" [
    Elem "DataDictionary" [] "" [Elem "DataField" [("name", "x"); ("dataType", "string")] "" []];
    Elem "MiningModel" [("functionName", "regression")] "" [
      Elem "MiningSchema" [] "" [];
      Elem "LocalTransformations" [] "" [
        Elem "DerivedField" [("name", "m"); ("dataType", "string")] "" [
          Elem "MapValues" [("outputColumn", "out")] "" [
            Elem "FieldColumnPair" [("field", "x"); ("column", "in")] "" [];
            Elem "InlineTable" [] "" [
              Elem "row" [] "" [Elem "in" [] "a" [Chars "a"]; Elem "out" [] "b" [Chars "b"]]]]]];
      Elem "Segmentation" [("multipleModelMethod", "sum")] "" [
        Elem "Segment" [("id", "1")] "" [
          Elem "True" [] "" [];
          Elem "TreeModel" [("functionName", "regression")] "" [
            Elem "Node" [("score", "7")] "" [Elem "True" [] "" []]]]]]].

(** PMML allows an Extension in each of these three elements. *)
Theorem C70_extensions_refuted : ∀ p, p ∈ ["PMML"; "Segment"; "InlineTable"] →
  ∃ x, well_formed x ∧ is_Some (decode go_ext (λ _ _, true) x) ∧
       decode go_ext (λ _ _, true) (add_extension p x) = None.
Proof.
  intros p Hp. exists small_ensemble. split; [|split].
  - repeat split; apply (bool_decide_unpack _); by vm_compute.
  - vm_compute. by eexists.
  - repeat (apply elem_of_cons in Hp as [->|Hp]; [by vm_compute|]). by apply elem_of_nil in Hp.
Qed.
Print Assumptions C70_extensions_refuted.

Example C70_example :
  add_extension "TreeModel" small_ensemble ≠ small_ensemble ∧
  decode go_ext (λ _ _, true) (add_extension "TreeModel" small_ensemble)
    = decode go_ext (λ _ _, true) small_ensemble ∧
  decode go_ext (λ _ _, true) (add_extension "Node" small_ensemble)
    = decode go_ext (λ _ _, true) small_ensemble.
Proof.
  split; [done|].
  split; (apply (C70_extensions_partial _ _ []); [done|set_solver|set_solver|
    repeat split; apply (bool_decide_unpack _); by vm_compute]).
Qed.

(** Why an unknown child of a hand-decoded element is an error: the token loop
    succeeds exactly if every child is known and decodes. *)
Theorem C70_token_loop : ∀ (A : Type) (known : string → bool) (step : xml → A → option A) n at_ i ks a,
  unmarshal known step (Elem n at_ i ks) a =
  kids_fold (λ k a, match k with
                    | Chars _ => Some a
                    | Elem m _ _ _ => if known m then step k a else None
                    end) ks a.
Proof. intros. apply unmarshal_is_fold. Qed.
Print Assumptions C70_token_loop.

(** *** C71: a constant is the text between its tags *)
Theorem C71_constant_text_exact : ∀ E U dt v,
  dec_expr E U (text_elem "Constant" [("dataType", dt)] v) = Some (Some (XConst dt (escape v))).
Proof. reflexivity. Qed.
Print Assumptions C71_constant_text_exact.

(** The field is filled with the raw bytes, markup escapes included. *)
Theorem C71_constant_text_refuted : ∃ v w, w ≠ v ∧
  dec_expr go_ext (λ _ _, true) (text_elem "Constant" [("dataType", "string")] v)
    = Some (Some (XConst "string" w)).
Proof. exists "R&D", "R&amp;D". split; [done|by vm_compute]. Qed.
Print Assumptions C71_constant_text_refuted.

Theorem C71_constant_text_partial : ∀ E U dt v, plain v →
  dec_expr E U (text_elem "Constant" [("dataType", dt)] v) = Some (Some (XConst dt v)).
Proof. intros E U dt v Hv. rewrite C71_constant_text_exact. by rewrite Hv. Qed.
Print Assumptions C71_constant_text_partial.
Example C71_example : plain "3.6" ∧ ¬ plain "a<b".
Proof. split; [done|]. unfold plain. by vm_compute. Qed.

(** *** C72: categorical predictors *)

(** A regression table with one numeric and one categorical predictor. *)
Definition flat_price (coefficient : string) : xml :=
  Elem "PMML" [("version", "4.3")] "" [
    Elem "DataDictionary" [] "" [];
    Elem "RegressionModel" [("functionName", "regression"); ("normalizationMethod", "exp")] "" [
      Elem "MiningSchema" [] "" []; Elem "Output" [] "" [Elem "OutputField" [("name", "price")] "" []];
      Elem "RegressionTable" [("intercept", "10")] "" [
        Elem "NumericPredictor" [("name", "area"); ("coefficient", "2")] "" [];
        Elem "CategoricalPredictor" [("name", "city"); ("value", "Rome"); ("coefficient", coefficient)] "" []]]].

Theorem C72_categorical_ignored_refuted : ∃ a b, a ≠ b ∧
  decode go_ext (λ _ _, true) (flat_price a) = decode go_ext (λ _ _, true) (flat_price b) ∧
  is_Some (decode go_ext (λ _ _, true) (flat_price a)).
Proof. exists "1", "500". split; [done|]. split; [by vm_compute|]. vm_compute. by eexists. Qed.
Print Assumptions C72_categorical_ignored_refuted.

(** Every predictor that is not numeric is dropped, whatever it says. *)
Theorem C72_only_numeric : ∀ E at_ ks1 n kat i cs ks2, n ≠ "NumericPredictor" →
  dec_regr_table E at_ (ks1 ++ Elem n kat i cs :: ks2) = dec_regr_table E at_ (ks1 ++ ks2).
Proof.
  intros E at_ ks1 n kat i cs ks2 Hn. unfold dec_regr_table.
  destruct (attrs_fold (table_attr E) at_ _) as [t|]; [|done]. cbn [mbind option_bind].
  rewrite !kids_fold_app. destruct (kids_fold (table_kid E) ks1 t) as [t'|]; [|done].
  cbn [kids_fold]. destruct t' as [ic tc ps]. cbn [table_kid]. apply String.eqb_neq in Hn. by rewrite Hn.
Qed.
Print Assumptions C72_only_numeric.
Example C72_example :
  dec_regr_table go_ext [("intercept", "10")]
    [Elem "NumericPredictor" [("name", "area"); ("coefficient", "2")] "" [];
     Elem "PredictorTerm" [("coefficient", "3")] "" []] =
  Some (RegrTable (fl "10") "" [Predictor "area" (fl "2") 0]).
Proof. by vm_compute. Qed.
