(** Property theorems about construction (C01 - C05). *)
From Verif Require Import Base Strconv Value Doc Expr Pred Tree Regression Model Lib SpecPred ProofsPred
  SpecConstruct ProofsConstruct ProofsEval ProofsWhole GoExt Samples.

(** *** C01: the supported kinds *)
Theorem C01_supported_kinds : ∀ E dd td d,
  match d with
  | DTree _ => ∀ e td', new_model E dd td d = (Ok e, td') → ∃ t, e = ETree t
  | DMining _ _ => ∀ e td', new_model E dd td d = (Ok e, td') → ∃ h sm, e = EMining h sm
  | DRegr m => new_model E dd td d = (Ok (ERegr (ERegr_ m)), td)
  | DOther k => ∃ x, new_model E dd td d = (Err x, td)
  end.
Proof.
  intros E dd td [t|h segs|r|k]; [| |done|simpl; eauto].
  - intros e td' (te & -> & _)%new_model_tree_inv. eauto.
  - intros e td' (sm & -> & _)%new_model_mining_inv. eauto.
Qed.
Print Assumptions C01_supported_kinds.

(** construction never panics *)
Theorem C01_construction_never_panics : ∀ E dd d td p td', new_model E dd td d ≠ (Panic p, td').
Proof. exact new_model_no_panic. Qed.
Print Assumptions C01_construction_never_panics.

Example C01_example :
  (∃ x, new_model go_ext golf_dd golf_lt (DOther "NaiveBayesModel") = (Err x, golf_lt)) ∧
  (∃ t td, new_model go_ext golf_dd [] (golf "none") = (Ok (ETree t), td)) ∧
  (∃ h sm td, new_model go_ext golf_dd [] (mining "classification" "" [] [] [] [golf "none"; DRegr lin_model])
     = (Ok (EMining h sm), td)).
Proof.
  split; [eexists; by vm_compute|]. split; [do 2 eexists; by vm_compute|do 3 eexists; by vm_compute].
Qed.

(** *** C02: which trees compile *)
Theorem C02_tree_compiles_iff : ∀ E dd td t,
  (∃ e td', new_model E dd td (DTree t) = (Ok e, td')) ↔ tree_ok E dd td t.
Proof.
  intros E dd td t. rewrite <- new_tree_model_ok_iff. simpl. split.
  - intros (e & td' & H). destruct (new_tree_model E dd td t) as [[te| |] td1]; naive_solver.
  - intros (e & td' & ->). eauto.
Qed.
Print Assumptions C02_tree_compiles_iff.

(** a golf tree compiles; a literal or a field that is wrong deep inside a
    compound predicate, or an unsupported mining function, stops it *)
Definition bad_tree (fn f v : string) : doc_model :=
  DTree (TreeModel fn "none" fone "" golf_lt [] None
    (MNode "1" "" "yes" (fl "1") [] [MNode "2" "" "no" (fl "1") [] []
      (PCompound "or" [SP "outlook" "equal" "rain"; PCompound "and" [PTrue; SP f "lessThan" v]])] PTrue)).
Example C02_example :
  (∃ e td, new_model go_ext golf_dd [] (bad_tree "classification" "wind" "5") = (Ok e, td)) ∧
  (∃ x td, new_model go_ext golf_dd [] (bad_tree "classification" "wind" "five") = (Err x, td)) ∧
  (∃ x td, new_model go_ext golf_dd [] (bad_tree "classification" "gust" "5") = (Err x, td)) ∧
  (∃ x td, new_model go_ext golf_dd [] (bad_tree "clustering" "wind" "5") = (Err x, td)).
Proof. repeat split; do 2 eexists; by vm_compute. Qed.

(** *** C03: lifecycle errors *)
Theorem C03_no_lifecycle_error : ∀ E dd td d e td' calls tk r x r' e',
  new_model E dd td d = (Ok e, td') →
  evaluate E tk (after E calls e) r = (Err x, r', e') →
  x ≠ ENotValidated ∧ x ≠ ENotCompiled.
Proof.
  intros E dd td d e td' calls tk r x r' e' Hn H.
  pose proof (no_lifecycle_error E dd td d e td' calls tk r x r' e' Hn H) as Hx.
  unfold lifecycle_error in Hx. tauto.
Qed.
Print Assumptions C03_no_lifecycle_error.

Theorem C03_zero_tree : ∀ E tk t r,
  et_validated t = false → evaluate E tk (ETree t) r = (Err ENotValidated, r, ETree t).
Proof. exact zero_tree. Qed.
Print Assumptions C03_zero_tree.

Theorem C03_zero_mining : ∀ E tk h sm r,
  em_validated h = false → evaluate E tk (EMining h sm) r = (Err ENotValidated, r, EMining h sm).
Proof. exact zero_mining. Qed.
Print Assumptions C03_zero_mining.

(** an evaluator that answers with an error, after an earlier call: not a
    lifecycle error; and the zero value *)
Example C03_example :
  match new_model go_ext price_dd []
    (mining "regression" "selectFirst" [DF "w" "double" (XOther "TextIndex")] [] [] [DTree price_tree]) with
  | (Ok e, _) =>
      (evaluate go_ext [] (after go_ext [([], Some ∅); ([], None)] e) (Some ∅)).1.1 = Err ETransformation
  | _ => False
  end ∧
  let z := ETree (ETree_ false false [] (golf_tree "" "1") ∅ zero_node ∅ "") in
  (evaluate go_ext [] z (Some {["a" := GNil]})).1 = (Err ENotValidated, Some {["a" := GNil]}).
Proof. split; [by vm_compute|done]. Qed.

(** *** C04: which mining documents compile *)
Theorem C04_mining_compiles_iff : ∀ E dd td h segs td',
  (∃ e, new_model E dd td (DMining h segs) = (Ok e, td')) ↔
  mm_method h ∈ [""; "average"; "sum"; "modelChain"; "selectFirst"] ∧
  (∀ o, o ∈ mm_output h → of_feature o = "" ∨ of_feature o = "probability") ∧
  accepted_segments E dd (td ++ mm_lt h) segs td'.
Proof.
  intros E dd td h segs td'. rewrite new_model_ok_iff. split.
  - intros H. inversion H as [| |? ? ? ? [H1 H2] H3]; subst. done.
  - intros (H1 & H2 & H3). by constructor.
Qed.
Print Assumptions C04_mining_compiles_iff.

(** the specification [accepted_segments] read as: segment i holds exactly one
    model, accepted given the fields declared before it *)
Theorem C04_accepted_segments : ∀ E dd td segs td',
  accepted_segments E dd td segs td' ↔
  ∃ ds, map sg_models segs = map (λ d, [d]) ds ∧ td' = td ++ concat (map doc_locals ds) ∧
    ∀ i d, ds !! i = Some d →
      let td_i := td ++ concat (map doc_locals (take i ds)) in
      ∃ e, new_model E dd td_i d = (Ok e, td_i ++ doc_locals d).
Proof.
  intros E dd td segs td'. split.
  - intros H. revert td H. induction segs as [|s segs IH]; intros td H;
      inversion H as [|? ? ? d td1 ? Hs Hd Hr]; subst.
    + exists []. split; [done|]. split; [by rewrite app_nil_r|]. by intros i d [=].
    + apply IH in Hr as (ds & H1 & H2 & H3). exists (d :: ds).
      pose proof (accepted_td _ _ _ _ _ Hd) as ->.
      split; [simpl; by rewrite Hs, H1|]. split; [simpl; by rewrite app_assoc|].
      intros [|i] d' Hi; simpl in *.
      * simplify_eq. rewrite app_nil_r. by apply new_model_ok_iff.
      * destruct (H3 i d' Hi) as [e He]. exists e. by rewrite app_assoc.
  - intros (ds & H1 & -> & H3). revert td segs H1 H3. induction ds as [|d ds IH]; intros td segs H1 H3.
    + destruct segs; [|done]. simpl. rewrite app_nil_r. constructor.
    + destruct segs as [|s segs]; [done|]. injection H1 as Hs H1.
      econstructor; [exact Hs| |].
      * apply new_model_ok_iff. destruct (H3 0 d eq_refl) as [e He]. simpl in He.
        rewrite app_nil_r in He. by exists e.
      * simpl. rewrite app_assoc. apply IH; [done|]. intros i d' Hi.
        destruct (H3 (S i) d' Hi) as [e He]. simpl in He. exists e. by rewrite app_assoc in He.
Qed.
Print Assumptions C04_accepted_segments.

(** the second segment uses a derived field that only the first declares *)
Definition uses_wind : doc_model :=
  DTree (TreeModel "classification" "none" fone "" [] [] None
    (MNode "1" "" "yes" (fl "1") [] [] (SP "wind" "lessThan" "5"))).
Example C04_example :
  (∃ e td, new_model go_ext golf_dd [] (mining "classification" "sum" [] [] [] [golf "none"; uses_wind]) = (Ok e, td)) ∧
  (∃ x td, new_model go_ext golf_dd [] (mining "classification" "sum" [] [] [] [uses_wind; golf "none"]) = (Err x, td)) ∧
  (∃ x td, new_model go_ext golf_dd [] (mining "classification" "majorityVote" [] [] [] [golf "none"]) = (Err x, td)) ∧
  (∃ x td, new_model go_ext golf_dd [] (mining "classification" "sum" [] [OF "a" "predictedValue" ""] [] [golf "none"]) = (Err x, td)) ∧
  (∃ x td, new_model go_ext golf_dd []
     (DMining (MiningHeader "classification" "sum" [] [] [] [] None) [Segment "" [] [golf "none"; golf "none"]]) = (Err x, td)).
Proof. repeat split; do 2 eexists; by vm_compute. Qed.

(** *** C05: the transformation dictionary *)
Theorem C05_dictionary_after_success : ∀ E dd td d e td',
  new_model E dd td d = (Ok e, td') → td' = td ++ doc_locals d.
Proof. intros E dd td d e td' H. eapply accepted_td. by eapply new_model_accepted. Qed.
Print Assumptions C05_dictionary_after_success.

Theorem C05_dictionary_after_failure : ∀ E dd d td o td',
  new_model E dd td d = (o, td') → ∃ l1 l2, td' = td ++ l1 ∧ doc_locals d = l1 ++ l2.
Proof. exact new_model_td_prefix. Qed.
Print Assumptions C05_dictionary_after_failure.

Example C05_example :
  let lt2 := [DF "x" "double" (XF "kmh"); DF "y" "string" (XF "x")] in
  let d l := mining "classification" "sum" lt2 [] [] [golf "none"; mining "classification" "" golf_lt [] [] l] in
  (new_model go_ext golf_dd golf_lt (d [golf ""])).2 = golf_lt ++ lt2 ++ golf_lt ++ golf_lt ++ golf_lt ∧
  (new_model go_ext golf_dd golf_lt (d [bad_tree "" "wind" "5"; golf ""])).2 = golf_lt ++ lt2 ++ golf_lt ++ golf_lt ∧
  is_ok (new_model go_ext golf_dd golf_lt (d [golf ""])).1 = true ∧
  is_ok (new_model go_ext golf_dd golf_lt (d [bad_tree "" "wind" "5"; golf ""])).1 = false.
Proof. by vm_compute. Qed.
