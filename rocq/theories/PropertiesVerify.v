(** Properties C61 - C64: Verify. *)
From Verif Require Import Base Strconv Value Doc Expr Pred Tree Regression Model Lib GoExt Samples
  ProofsWhole SpecVerify ProofsVerify.

(** *** C61: Verify succeeds exactly when every row matches *)
Theorem C61_verify_iff : ∀ E dd td d e td' calls tk,
  new_model E dd td d = (Ok e, td') →
  (model_verify E tk (after E calls e)).1 = Ok tt ↔
  match doc_verification d with
  | None => True
  | Some v =>
      well_prefixed (vr_fields v) ∧
      ∀ i vrow, vr_rows v !! i = Some vrow →
        ∃ m out r', verification_input (vr_fields v) vrow m ∧
          (evaluate E (2 :: i :: tk) e (Some m)).1 = (Ok out, r') ∧
          row_checks E within (vr_fields v) vrow out
  end.
Proof. intros. by eapply verify_iff. Qed.
Print Assumptions C61_verify_iff.

Theorem C61_bad_prefix : ∀ E dd td d e td' calls tk v,
  new_model E dd td d = (Ok e, td') → doc_verification d = Some v → ¬ well_prefixed (vr_fields v) →
  ∃ f, f ∈ vr_fields v ∧ model_verify E tk (after E calls e) = (Err (EVerPrefix (vf_column f)), after E calls e).
Proof.
  intros E dd td d e td' calls tk v Hn Hv Hw. unfold model_verify, verify_model.
  rewrite after_verification, (new_model_verification _ _ _ _ _ _ Hn), Hv.
  destruct (ver_maps_bad _ Hw) as (f & Hf & ->). by exists f.
Qed.
Print Assumptions C61_bad_prefix.

(** Verify panics only where Evaluate does. *)
Theorem C61_panics_only_in_evaluate : ∀ E dd td d e td' calls tk p,
  new_model E dd td d = (Ok e, td') → (model_verify E tk (after E calls e)).1 = Panic p →
  ∃ v i vrow m, doc_verification d = Some v ∧ vr_rows v !! i = Some vrow ∧
    verification_input (vr_fields v) vrow m ∧ (evaluate E (2 :: i :: tk) e (Some m)).1.1 = Panic p.
Proof. intros. by eapply verify_panics. Qed.
Print Assumptions C61_panics_only_in_evaluate.

Definition verified_price (fields : list ver_field) (rows : list (gmap string string)) (leaf : string) : doc_model :=
  DTree (TreeModel "regression" "none" fone "returnLastPrediction" [] [MF "area" "active"; MF "price" "target"]
    (Some (Verification fields rows))
    (MNode "1" "" "100" (fl "2") [ScoreDistribution "100" (fl "1") None None]
       [MNode "2" "" "50" (fl "1") [ScoreDistribution leaf (fl "1") None None] [] (SP "area" "lessThan" "60");
        MNode "3" "" "200" (fl "1") [ScoreDistribution "200" (fl "1") None None] [] (SP "area" "greaterOrEqual" "60")]
       PTrue)).
Definition price_fields : list ver_field :=
  [VerField "area" "data:area" None; VerField "score" "data:expected" (Some (fl "1E-6"))].
Definition price_table (expected : string) : list (gmap string string) :=
  [{["area" := "50"; "expected" := expected]}; {["area" := "60.0"; "expected" := "200.001"; "note" := "x"]}].
Definition verify_result (d : doc_model) : option (res unit) :=
  match new_model go_ext price_dd [] d with
  | (Ok e, _) => Some (model_verify go_ext [] e).1
  | _ => None
  end.
Example C61_example :
  verify_result (verified_price price_fields (price_table "50.5001") "50.5") = Some (Ok tt) ∧
  verify_result (verified_price price_fields (price_table "50.6") "50.5") = Some (Err (EVerMismatch "expected")) ∧
  verify_result (verified_price [VerField "area" "area" None] (price_table "50.5") "50.5")
    = Some (Err (EVerPrefix "area")) ∧
  verify_result (verified_price [VerField "area" "data:area" None; VerField "price" "data:expected" (Some fone)]
                   (price_table "50.5") "50.5") = Some (Err (EVerMissing "price")) ∧
  verify_result (DTree price_tree) = Some (Ok tt).
Proof. repeat apply conj; by vm_compute. Qed.

(** *** C62: a model that reproduces the expected outputs *)
Theorem C62_nonnegative_partial : ∀ E dd td d e td' calls tk v,
  new_model E dd td d = (Ok e, td') → doc_verification d = Some v → well_prefixed (vr_fields v) →
  (∀ i vrow, vr_rows v !! i = Some vrow →
     ∃ m out r', verification_input (vr_fields v) vrow m ∧
       (evaluate E (2 :: i :: tk) e (Some m)).1 = (Ok out, r') ∧
       row_checks E (λ expected predicted, predicted = expected ∧ not_negative expected) (vr_fields v) vrow out) →
  (model_verify E tk (after E calls e)).1 = Ok tt.
Proof.
  intros E dd td d e td' calls tk v Hn Hv Hw H. apply (verify_iff _ _ _ _ _ _ calls tk Hn). rewrite Hv.
  split; [done|]. intros i vrow Hi. destruct (H i vrow Hi) as (m & out & r' & Hm & He & Hc).
  exists m, out, r'. split; [done|]. split; [done|]. intros k s fld Hk Ho.
  destruct (Hc k s fld Hk Ho) as (pv & Hp & Heq & Hneg). exists pv. split; [done|].
  simpl in Heq. rewrite Heq. by apply within_self.
Qed.
Print Assumptions C62_nonnegative_partial.

(** A table with a negative expectation is never verified, except by NaN. *)
Theorem C62_negative_never_verified : ∀ E dd td d e td' calls tk v i vrow k s fld,
  new_model E dd td d = (Ok e, td') → doc_verification d = Some v →
  vr_rows v !! i = Some vrow → vrow !! k = Some s → output_column (vr_fields v) k fld →
  clearly_negative (val_float64 E (GStr s)) →
  (model_verify E tk (after E calls e)).1 = Ok tt →
  ∃ m out r' pv, verification_input (vr_fields v) vrow m ∧
    (evaluate E (2 :: i :: tk) e (Some m)).1 = (Ok out, r') ∧ dr_get out fld = Some pv ∧
    (val_float64 E pv = S754_nan ∨ val_float64 E pv = S754_infinity true).
Proof.
  intros E dd td d e td' calls tk v i vrow k s fld Hn Hv Hi Hk Ho Hneg Hver.
  apply (verify_iff _ _ _ _ _ _ calls tk Hn) in Hver. rewrite Hv in Hver. destruct Hver as [_ Hrows].
  destruct (Hrows i vrow Hi) as (m & out & r' & Hm & He & Hc).
  destruct (Hc k s fld Hk Ho) as (pv & Hp & Hw). exists m, out, r', pv. split; [done|]. split; [done|].
  split; [done|]. destruct (within_negative _ _ Hneg Hw) as [?|[_ ?]]; auto.
Qed.
Print Assumptions C62_negative_never_verified.

Theorem C62_negative_refuted : ∃ E dd d e td' v vrow m out r' k s fld pv,
  new_model E dd [] d = (Ok e, td') ∧ doc_verification d = Some v ∧ vr_rows v = [vrow] ∧
  verification_input (vr_fields v) vrow m ∧ (evaluate E [2; 0] e (Some m)).1 = (Ok out, r') ∧
  vrow !! k = Some s ∧ output_column (vr_fields v) k fld ∧
  dr_get out fld = Some pv ∧ val_float64 E pv = val_float64 E (GStr s) ∧
  (model_verify E [] e).1 = Err (EVerMismatch k).
Proof.
  set (d := verified_price price_fields [{["area" := "50"; "expected" := "-5"]}] "-5").
  exists go_ext, price_dd, d, (built go_ext price_dd d), (new_model go_ext price_dd [] d).2.
  exists (Verification price_fields [{["area" := "50"; "expected" := "-5"]}]), {["area" := "50"; "expected" := "-5"]}.
  exists {["area" := GStr "50"]}, (Some {["score" := GF64 (fl "-5")]}), (Some {["area" := GStr "50"]}).
  exists "expected", "-5", "score", (GF64 (fl "-5")).
  split; [apply built_ok; by vm_compute|]. split; [done|]. split; [done|]. split.
  { intros k w. split.
    - intros H. apply lookup_singleton_Some in H as [<- <-]. split; [|by exists "50"].
      exists (VerField "area" "data:area" None). split; [|done]. apply elem_of_list_here.
    - intros ((f & Hf & Hc & Hp) & s & Hs & ->).
      apply elem_of_cons in Hf as [->|[->|?%elem_of_nil]%elem_of_cons]; [|discriminate Hp|done].
      apply (column_inj _ _ "area") in Hc as ->; [|done]. apply lookup_singleton_Some. split; [done|].
      assert (s = "50") as -> by (vm_compute in Hs; congruence). done. }
  split.
  { apply eval_ok; split; by vm_compute. }
  split; [by vm_compute|]. split.
  { exists [VerField "area" "data:area" None], (VerField "score" "data:expected" (Some (fl "1E-6"))), [].
    split; [done|]. split; [done|]. split; [by eexists|]. split; [done|]. by intros g ?%elem_of_nil. }
  split; [by vm_compute|]. split; by vm_compute.
Qed.
Print Assumptions C62_negative_refuted.

Example C62_example :
  verify_result (verified_price price_fields [{["area" := "50"; "expected" := "50.5"]}] "50.5") = Some (Ok tt) ∧
  fltb (fl "50.5") fzero = false ∧ clearly_negative (fl "-5") ∧ clearly_negative (fl "-1e-300").
Proof. repeat apply conj; by vm_compute. Qed.

(** *** C63: NaN predictions are accepted *)
Theorem C63_nan_accepted : ∀ E dd td d e td' calls tk v,
  new_model E dd td d = (Ok e, td') → doc_verification d = Some v → well_prefixed (vr_fields v) →
  (∀ i vrow, vr_rows v !! i = Some vrow →
     ∃ m out r', verification_input (vr_fields v) vrow m ∧
       (evaluate E (2 :: i :: tk) e (Some m)).1 = (Ok out, r') ∧
       row_checks E (λ _ predicted, predicted = S754_nan) (vr_fields v) vrow out) →
  (model_verify E tk (after E calls e)).1 = Ok tt.
Proof.
  intros E dd td d e td' calls tk v Hn Hv Hw H. apply (verify_iff _ _ _ _ _ _ calls tk Hn). rewrite Hv.
  split; [done|]. intros i vrow Hi. destruct (H i vrow Hi) as (m & out & r' & Hm & He & Hc).
  exists m, out, r'. split; [done|]. split; [done|]. intros k s fld Hk Ho.
  destruct (Hc k s fld Hk Ho) as (pv & Hp & Hnan). exists pv. split; [done|]. simpl in Hnan. rewrite Hnan. apply within_nan.
Qed.
Print Assumptions C63_nan_accepted.

Theorem C63_nan_refuted : ∃ E dd d e td' fields vrow,
  new_model E dd [] d = (Ok e, td') ∧ doc_verification d = Some (Verification fields [vrow]) ∧
  vrow !! "expected" = Some "50.5" ∧ output_column fields "expected" "score" ∧
  (evaluate E [2; 0] e (Some {["area" := GStr "50"]})).1.1 = Ok (Some {["score" := GF64 S754_nan]}) ∧
  (model_verify E [] e).1 = Ok tt.
Proof.
  set (vrow := {["area" := "50"; "expected" := "50.5"]} : gmap string string).
  set (d := verified_price price_fields [vrow] "NaN").
  exists go_ext, price_dd, d, (built go_ext price_dd d), (new_model go_ext price_dd [] d).2, price_fields, vrow.
  split; [apply built_ok; by vm_compute|]. split; [done|]. split; [by vm_compute|]. split.
  { exists [VerField "area" "data:area" None], (VerField "score" "data:expected" (Some (fl "1E-6"))), [].
    split; [done|]. split; [done|]. split; [by eexists|]. split; [done|]. by intros g ?%elem_of_nil. }
  split; [|by vm_compute].
  apply eval_out; by vm_compute.
Qed.
Print Assumptions C63_nan_refuted.

(** *** C64: inputs are fed under their column names *)
Theorem C64_column_is_field_partial : ∀ l vrow m,
  (∀ f, f ∈ l → vf_precision f = None → column f (vf_field f)) →
  verification_input l vrow m →
  ∀ k v, m !! k = Some v ↔
    (∃ f, f ∈ l ∧ vf_precision f = None ∧ vf_field f = k) ∧ ∃ s, vrow !! k = Some s ∧ v = GStr s.
Proof.
  intros l vrow m Hl Hm k v. rewrite (Hm k v). split; intros [H1 H2]; (split; [|done]).
  - destruct H1 as (f & Hf & Hc & Hp). exists f. split; [done|]. split; [done|].
    eapply column_inj; [by apply Hl|done].
  - destruct H1 as (f & Hf & Hp & <-). exists f. split; [done|]. split; [by apply Hl|done].
Qed.
Print Assumptions C64_column_is_field_partial.

(** the column "size" is declared for the field "area"; Evaluate gets "size" *)
Theorem C64_column_refuted : ∃ E dd d e td' fields vrow,
  new_model E dd [] d = (Ok e, td') ∧ doc_verification d = Some (Verification fields [vrow]) ∧
  VerField "area" "data:size" None ∈ fields ∧ vrow !! "size" = Some "50" ∧
  vrow !! "expected" = Some "50.5" ∧
  (evaluate E [2; 0] e (Some {["area" := GStr "50"]})).1.1 = Ok (Some {["score" := GF64 (fl "50.5")]}) ∧
  verification_input fields vrow {["size" := GStr "50"]} ∧
  (model_verify E [] e).1 = Err (EVerMismatch "expected").
Proof.
  set (vrow := {["size" := "50"; "expected" := "50.5"]} : gmap string string).
  set (fields := [VerField "area" "data:size" None; VerField "score" "data:expected" (Some (fl "1E-6"))]).
  set (d := verified_price fields [vrow] "50.5").
  exists go_ext, price_dd, d, (built go_ext price_dd d), (new_model go_ext price_dd [] d).2, fields, vrow.
  split; [apply built_ok; by vm_compute|]. split; [done|]. split; [apply elem_of_list_here|].
  split; [by vm_compute|]. split; [by vm_compute|]. split.
  { apply eval_out; by vm_compute. }
  split; [|by vm_compute].
  intros k w. split.
  - intros H. apply lookup_singleton_Some in H as [<- <-]. split; [|by exists "50"].
    exists (VerField "area" "data:size" None). split; [|done]. apply elem_of_list_here.
  - intros ((f & Hf & Hc & Hp) & s & Hs & ->).
    apply elem_of_cons in Hf as [->|[->|?%elem_of_nil]%elem_of_cons]; [|discriminate Hp|done].
    apply (column_inj _ _ "size") in Hc as ->; [|done]. apply lookup_singleton_Some. split; [done|].
    assert (s = "50") as -> by (vm_compute in Hs; congruence). done.
Qed.
Print Assumptions C64_column_refuted.

Example C64_example :
  (∀ f, f ∈ price_fields → vf_precision f = None → column f (vf_field f)).
Proof. intros f [->|[->|?%elem_of_nil]%elem_of_cons]%elem_of_cons; done. Qed.
