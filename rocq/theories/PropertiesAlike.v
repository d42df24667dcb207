(** Property C155: models that predict alike verify alike. *)
From Verif Require Import Base Strconv Value Doc Expr Pred Tree Regression Model Lib ProofsDoc ProofsWhole ProofsSim GoExt Samples
  SpecVerify ProofsVerify PropertiesVerify SpecEquiv ProofsEquiv SpecTrim ProofsTrim PropertiesTrim SpecAlike ProofsAlike.

(** *** C155.  The verdict of Verify, the error included, depends on the model only through the
    expected outputs for the rows of the verification table. *)
Theorem C155_verdict : ∀ E dd1 dd2 td1 td2 td1' td2' d1 d2 e1 e2 calls1 calls2 tk,
  new_model E dd1 td1 d1 = (Ok e1, td1') → new_model E dd2 td2 d2 = (Ok e2, td2') →
  doc_verification d1 = doc_verification d2 →
  (∀ v i vrow m, doc_verification d1 = Some v → vr_rows v !! i = Some vrow → verification_input (vr_fields v) vrow m →
    seen_alike (vr_fields v) vrow (evaluate E (2 :: i :: tk) e1 (Some m)).1.1 (evaluate E (2 :: i :: tk) e2 (Some m)).1.1) →
  (model_verify E tk (after E calls1 e1)).1 = (model_verify E tk (after E calls2 e2)).1.
Proof. intros. by eapply verdict_alike. Qed.
Print Assumptions C155_verdict.

(** So every way of writing a document that does not change its predictions does not change its verdict. *)
Theorem C155_same_predictions : ∀ E dd1 dd2 td1 td2 td1' td2' d1 d2 e1 e2 calls1 calls2 tk,
  new_model E dd1 td1 d1 = (Ok e1, td1') → new_model E dd2 td2 d2 = (Ok e2, td2') →
  doc_verification d1 = doc_verification d2 →
  (∀ tk r, (evaluate E tk e1 r).1.1 = (evaluate E tk e2 r).1.1) →
  (model_verify E tk (after E calls1 e1)).1 = (model_verify E tk (after E calls2 e2)).1.
Proof.
  intros E dd1 dd2 td1 td2 td1' td2' d1 d2 e1 e2 calls1 calls2 tk H1 H2 Hv H. eapply verdict_alike; [done..|].
  intros v i vrow m _ _ _. rewrite H. unfold seen_alike. by destruct (evaluate _ _ e2 _) as [[[] ?] ?].
Qed.
Print Assumptions C155_same_predictions.

(** For instance, with repeated conditions left out (C153). *)
Theorem C155_trimmed : ∀ E dd td d1 d2 e1 e2 td1 td2 calls1 calls2 tk,
  rtsc trimmed_trees d1 d2 → doc_verification d1 = doc_verification d2 →
  new_model E dd td d1 = (Ok e1, td1) → new_model E dd td d2 = (Ok e2, td2) →
  (model_verify E tk (after E calls1 e1)).1 = (model_verify E tk (after E calls2 e2)).1.
Proof.
  intros E dd td d1 d2 e1 e2 td1 td2 calls1 calls2 tk Hd Hv H1 H2. eapply C155_same_predictions; [exact H1|exact H2|done|].
  destruct (C153_repeated E dd td d1 d2 e1 td1 [] [] Hd H1) as (e2' & H2' & He). rewrite H2 in H2'. injection H2' as <- _.
  intros tk' r. specialize (He tk' r). cbn in He. by rewrite He.
Qed.
Print Assumptions C155_trimmed.

(** Two price trees that differ away from the table. *)
Definition wide_price (leaf other : string) : doc_model :=
  DTree (TreeModel "regression" "none" fone "returnLastPrediction" [] [MF "area" "active"; MF "price" "target"]
    (Some (Verification price_fields (price_table "50.6")))
    (MNode "1" "" "100" (fl "2") [ScoreDistribution "100" (fl "1") None None]
       [MNode "2" "" "50" (fl "1") [ScoreDistribution leaf (fl "1") None None] [] (SP "area" "lessThan" "60");
        MNode "3" "" other (fl "1") [ScoreDistribution other (fl "1") None None] [] (SP "area" "greaterThan" "1000");
        MNode "4" "" "200" (fl "1") [ScoreDistribution "200" (fl "1") None None] [] (SP "area" "greaterOrEqual" "60")]
       PTrue)).
Definition predicted_at (other area : string) : option (res (option (list (string * gov)))) :=
  dumped (run go_ext price_dd (wide_price "50.5" other) (Some {["area" := GStr area]})).
Example C155_example :
  (∀ area, area ∈ ["50"; "60.0"] → predicted_at "900" area = predicted_at "1" area) ∧
  predicted_at "900" "2000" ≠ predicted_at "1" "2000" ∧
  verify_result (wide_price "50.5" "900") = Some (Err (EVerMismatch "expected")) ∧
  verify_result (wide_price "50.5" "1") = Some (Err (EVerMismatch "expected")).
Proof.
  split; [|split; [|split; by vm_compute]].
  - intros area H. repeat (apply elem_of_cons in H as [->|H]; [by vm_compute|]). by apply elem_of_nil in H.
  - intros H. vm_compute in H. discriminate H.
Qed.
