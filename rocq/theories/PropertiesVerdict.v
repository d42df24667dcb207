(** Properties C103 and C104: what Verify makes of the declared precision and of
    the verification data of members. *)
From Verif Require Import Base Strconv Value Doc Expr Pred Tree Regression Model Lib GoExt Samples
  ProofsWhole SpecVerify ProofsVerify PropertiesVerify SpecEssence ProofsEssence PropertiesEssence SpecVerdict.

Lemma same_columns_sym l1 l2 : same_columns l1 l2 → same_columns l2 l1.
Proof. intros H. apply Forall2_flip. eapply Forall2_impl; [exact H|]. intros f g (?&?&?). unfold flip. naive_solver. Qed.

Lemma precision_none f g : (is_Some (vf_precision f) ↔ is_Some (vf_precision g)) →
  vf_precision f = None → vf_precision g = None.
Proof. intros H Hf. apply eq_None_not_Some. rewrite <- H, Hf. by intros [? ?]. Qed.

Lemma well_prefixed_same l1 l2 : same_columns l1 l2 → well_prefixed l1 → well_prefixed l2.
Proof.
  intros H Hw g Hg. apply elem_of_list_lookup in Hg as [i Hg].
  destruct (Forall2_lookup_r _ _ _ _ _ H Hg) as (f & Hf & ? & Hc & ?).
  destruct (Hw f (elem_of_list_lookup_2 _ _ _ Hf)) as [c Hcf]. exists c. unfold column in *. congruence.
Qed.
Lemma input_column_same l1 l2 c : same_columns l1 l2 → input_column l1 c → input_column l2 c.
Proof.
  intros H (f & Hf & Hc & Hp). apply elem_of_list_lookup in Hf as [i Hf].
  destruct (Forall2_lookup_l _ _ _ _ _ H Hf) as (g & Hg & ? & Hcg & Hpg).
  exists g. split; [by eapply elem_of_list_lookup_2|]. split; [unfold column in *; congruence|].
  by eapply precision_none.
Qed.
Lemma output_column_same l1 l2 c fld : same_columns l1 l2 → output_column l1 c fld → output_column l2 c fld.
Proof.
  intros H (a & f & b & -> & Hc & Hp & Hf & Hl).
  apply Forall2_app_inv_l in H as (a' & r & _ & Hr & ->).
  inversion Hr as [|? g ? b' (Hfg & Hcg & Hpg) Hb]; subst. exists a', g, b'. split; [done|].
  split; [unfold column in *; congruence|]. split; [by apply Hpg|]. split; [congruence|].
  intros x Hx Hcx. apply elem_of_list_lookup in Hx as [i Hx].
  destruct (Forall2_lookup_r _ _ _ _ _ Hb Hx) as (y & Hy & ? & Hcy & Hpy).
  eapply precision_none; [exact Hpy|]. apply Hl; [by eapply elem_of_list_lookup_2|]. unfold column in *. congruence.
Qed.

Lemma verdict_impl E dd td d1 d2 e1 e2 td1 td2 calls1 calls2 tk :
  essence d1 = essence d2 → same_tables (doc_verification d1) (doc_verification d2) →
  new_model E dd td d1 = (Ok e1, td1) → new_model E dd td d2 = (Ok e2, td2) →
  (model_verify E tk (after E calls1 e1)).1 = Ok tt → (model_verify E tk (after E calls2 e2)).1 = Ok tt.
Proof.
  intros He Ht H1 H2. rewrite (C61_verify_iff _ _ _ _ _ _ calls1 tk H1), (C61_verify_iff _ _ _ _ _ _ calls2 tk H2).
  destruct (doc_verification d1) as [v1|], (doc_verification d2) as [v2|]; simpl in Ht; [|done..].
  destruct Ht as [Hc Hr]. intros [Hw Hrows]. split; [by eapply well_prefixed_same|].
  rewrite <- Hr. intros i vrow Hi. destruct (Hrows i vrow Hi) as (m & out & r' & Hm & Ho & Hck).
  exists m, out, r'. split; [|split].
  - intros k v. rewrite (Hm k v). split; intros [? ?]; (split; [|done]).
    + by eapply input_column_same.
    + eapply input_column_same; [by apply same_columns_sym|done].
  - destruct (C73_unread_parts E dd td d1 d2 e1 td1 [] [] (2 :: i :: tk) (Some m) He H1) as (e2' & td2' & H2' & Heq).
    rewrite H2 in H2'. injection H2' as -> ->. change (after E [] e1) with e1 in Heq. change (after E [] e2') with e2' in Heq.
    by rewrite <- Heq.
  - intros k s fld Hk Hof. apply (Hck k s fld Hk). eapply output_column_same; [by apply same_columns_sym|done].
Qed.

(** *** C103: the declared precision decides how close a prediction must be *)
(** The value of the precision has no influence on the verdict. *)
Theorem C103_precision_ignored : ∀ E dd td d1 d2 e1 e2 td1 td2 calls1 calls2 tk,
  essence d1 = essence d2 → same_tables (doc_verification d1) (doc_verification d2) →
  new_model E dd td d1 = (Ok e1, td1) → new_model E dd td d2 = (Ok e2, td2) →
  (model_verify E tk (after E calls1 e1)).1 = Ok tt ↔ (model_verify E tk (after E calls2 e2)).1 = Ok tt.
Proof.
  intros E dd td d1 d2 e1 e2 td1 td2 calls1 calls2 tk He Ht H1 H2. split; [by eapply verdict_impl|].
  apply (verdict_impl E dd td d2 d1 e2 e1 td2 td1); [done| |done..].
  destruct (doc_verification d1), (doc_verification d2); simpl in *; [|done..].
  destruct Ht as [? ->]. split; [by apply same_columns_sym|done].
Qed.
Print Assumptions C103_precision_ignored.

Definition precise (p : string) : list ver_field :=
  [VerField "area" "data:area" None; VerField "score" "data:expected" (Some (fl p))].
Example C103_example :
  let d1 := verified_price (precise "0.1") (price_table "50.5001") "50.5" in
  let d2 := verified_price (precise "1E-12") (price_table "50.5001") "50.5" in
  essence d1 = essence d2 ∧ same_tables (doc_verification d1) (doc_verification d2) ∧ d1 ≠ d2 ∧
  verify_result d1 = Some (Ok tt) ∧ verify_result d2 = Some (Ok tt).
Proof.
  split; [by vm_compute|]. split.
  { split; [|done]. repeat constructor; simpl; intros; by eauto. }
  split; [|split; by vm_compute]. intros H. assert (fl "0.1" = fl "1E-12") as H'; [|vm_compute in H'; discriminate H'].
  unfold verified_price, precise in H. congruence.
Qed.

(** Too far for the declared precision, accepted; near enough, refused. *)
Theorem C103_precision_refuted : ∃ E dd d1 d2 e1 e2 p1 p2 x1 x2 y,
  new_model E dd [] d1 = (Ok e1, []) ∧ new_model E dd [] d2 = (Ok e2, []) ∧
  doc_verification d1 = Some (Verification [VerField "area" "data:area" None; VerField "score" "data:expected" (Some p1)]
    [{["area" := "50"; "expected" := x1]}]) ∧
  doc_verification d2 = Some (Verification [VerField "area" "data:area" None; VerField "score" "data:expected" (Some p2)]
    [{["area" := "50"; "expected" := x2]}]) ∧
  (evaluate E [2; 0] e1 (Some {["area" := GStr "50"]})).1.1 = Ok (Some {["score" := GF64 y]}) ∧
  (evaluate E [2; 0] e2 (Some {["area" := GStr "50"]})).1.1 = Ok (Some {["score" := GF64 y]}) ∧
  fltb (fmul p1 (fl x1)) (fabs (fsub (fl x1) y)) = true ∧ (model_verify E [] e1).1 = Ok tt ∧
  fltb (fabs (fsub (fl x2) y)) (fmul p2 (fl x2)) = true ∧ (model_verify E [] e2).1 = Err (EVerMismatch "expected").
Proof.
  set (d1 := verified_price (precise "1E-9") [{["area" := "50"; "expected" := "50.5001"]}] "50.5").
  set (d2 := verified_price (precise "0.1") [{["area" := "50"; "expected" := "51"]}] "50.5").
  exists go_ext, price_dd, d1, d2, (built go_ext price_dd d1), (built go_ext price_dd d2),
    (fl "1E-9"), (fl "0.1"), "50.5001", "51", (fl "50.5").
  split; [by rewrite built_ok; [|by vm_compute]|]. split; [by rewrite built_ok; [|by vm_compute]|].
  split; [done|]. split; [done|]. split; [apply eval_out; by vm_compute|]. split; [apply eval_out; by vm_compute|].
  repeat apply conj; by vm_compute.
Qed.
Print Assumptions C103_precision_refuted.

(** *** C104: Verify checks the verification data of the members *)
Lemma essence_without_data d : essence (without_data d) = essence d.
Proof.
  induction d as [t|m|k|h segs IH] using doc_rect'; [done..|].
  cbn [without_data essence]. f_equal.
  rewrite <- list_fmap_compose. apply fmap_ext_in. intros [i p ms] Hs. simpl. f_equal.
  rewrite Forall_forall in IH. specialize (IH _ Hs). simpl in IH.
  rewrite <- list_fmap_compose. apply fmap_ext_in. intros d Hd. rewrite Forall_forall in IH. by apply IH.
Qed.

(** Only the data of the outermost model count. *)
Theorem C104_members_ignored : ∀ E dd td d1 d2 e1 e2 td1 td2 calls1 calls2 tk,
  without_data d1 = without_data d2 → doc_verification d1 = doc_verification d2 →
  new_model E dd td d1 = (Ok e1, td1) → new_model E dd td d2 = (Ok e2, td2) →
  (model_verify E tk (after E calls1 e1)).1 = Ok tt ↔ (model_verify E tk (after E calls2 e2)).1 = Ok tt.
Proof.
  intros E dd td d1 d2 e1 e2 td1 td2 calls1 calls2 tk Hd Hv. apply C103_precision_ignored.
  - by rewrite <- (essence_without_data d1), Hd, essence_without_data.
  - rewrite Hv. destruct (doc_verification d2); [|done]. split; [|done]. apply Forall_Forall2_diag.
    apply Forall_forall. by intros.
Qed.
Print Assumptions C104_members_ignored.

(** A member that fails its own verification, in an ensemble that passes. *)
Definition street_of (d : doc_model) : doc_model :=
  DMining (MiningHeader "regression" "modelChain" [] [] [OF "price" "" ""] [] None) [seg d].
Theorem C104_members_refuted : ∃ E dd h s d e e0,
  sg_models s = [d] ∧ new_model E dd [] (DMining h [s]) = (Ok e, []) ∧ new_model E dd [] d = (Ok e0, []) ∧
  (model_verify E [] e0).1 = Err (EVerMismatch "expected") ∧ (model_verify E [] e).1 = Ok tt.
Proof.
  set (d := verified_price price_fields (price_table "49") "50.5").
  exists go_ext, price_dd, (MiningHeader "regression" "modelChain" [] [] [OF "price" "" ""] [] None), (seg d), d,
    (built go_ext price_dd (street_of d)), (built go_ext price_dd d).
  split; [done|]. split; [by rewrite built_ok; [|by vm_compute]|]. split; [by rewrite built_ok; [|by vm_compute]|].
  split; by vm_compute.
Qed.
Print Assumptions C104_members_refuted.

Example C104_example :
  let d1 := street_of (verified_price price_fields (price_table "49") "50.5") in
  let d2 := street_of (verified_price price_fields (price_table "50.5") "50.5") in
  d1 ≠ d2 ∧ without_data d1 = without_data d2 ∧ doc_verification d1 = doc_verification d2 ∧
  verify_result d1 = Some (Ok tt) ∧ verify_result d2 = Some (Ok tt).
Proof.
  split; [|repeat apply conj; by vm_compute]. intros H.
  assert (price_table "49" = price_table "50.5") as H' by (unfold street_of, verified_price, seg in H; congruence).
  assert ((price_table "49" !! 0) ≫= lookup "expected" = (price_table "50.5" !! 0) ≫= lookup "expected") as H2 by by rewrite H'.
  by vm_compute in H2.
Qed.
