(** Models that predict alike verify alike (C155). *)
From Verif Require Import Base Strconv Value Doc Expr Pred Tree Regression Model Lib ProofsWhole ProofsSim ProofsHistory
  SpecVerify ProofsVerify SpecAlike.

Lemma check_alike E l outs a b vrow tk : (∀ c fld, outs !! c = Some fld ↔ output_column l c fld) →
  (∀ k s fld, vrow !! k = Some s → output_column l k fld → dr_get a fld = dr_get b fld) →
  foldl (ver_check_step E outs a) (Ok tt) (map_range E tk vrow) = foldl (ver_check_step E outs b) (Ok tt) (map_range E tk vrow).
Proof.
  intros Ho H. assert (∀ x, x ∈ map_range E tk vrow → vrow !! x.1 = Some x.2) as Hin.
  { intros [k s] Hx. by apply map_range_elem in Hx. }
  revert Hin. generalize (map_range E tk vrow) as xs. generalize (Ok tt : res unit) as acc.
  intros acc xs. revert acc. induction xs as [|x xs IH]; intros acc Hin; [done|]. cbn [foldl].
  assert (ver_check_step E outs a acc x = ver_check_step E outs b acc x) as ->.
  { unfold ver_check_step. destruct acc; cbn [rbind]; try done. destruct (outs !! x.1) as [fld|] eqn:Hf; [|done].
    rewrite (H x.1 x.2 fld); [done| |by apply Ho]. apply Hin. by left. }
  apply IH. intros y Hy. apply Hin. by right.
Qed.

Section two.
  Context (E : Ext) (tk : ticket) (l : list ver_field) (ins outs : gmap string string).
  Context (Hi : ∀ c, is_Some (ins !! c) ↔ input_column l c) (Ho : ∀ c fld, outs !! c = Some fld ↔ output_column l c fld).
  Context (dd1 dd2 : list data_field) (td1 td2 td1' td2' : list derived_field) (d1 d2 : doc_model) (e1 e2 : emodel).
  Context (H1 : new_model E dd1 td1 d1 = (Ok e1, td1')) (H2 : new_model E dd2 td2 d2 = (Ok e2, td2')).

  Lemma rows_alike rows : ∀ i calls1 calls2,
    (∀ j vrow m, rows !! j = Some vrow → verification_input l vrow m →
      seen_alike l vrow (evaluate E (2 :: (i + j) :: tk) e1 (Some m)).1.1 (evaluate E (2 :: (i + j) :: tk) e2 (Some m)).1.1) →
    (ver_rows E tk ins outs i rows (after E calls1 e1)).1 = (ver_rows E tk ins outs i rows (after E calls2 e2)).1.
  Proof using Hi Ho H1 H2.
    induction rows as [|v rows IH]; intros i calls1 calls2 H; [done|]. cbn [ver_rows].
    set (m := ver_input E (0 :: i :: tk) ins v).
    pose proof (history_independent E dd1 td1 d1 e1 td1' calls1 (2 :: i :: tk) (Some m) H1) as Hh1.
    pose proof (history_independent E dd2 td2 d2 e2 td2' calls2 (2 :: i :: tk) (Some m) H2) as Hh2.
    pose proof (H 0 v m eq_refl (ver_input_spec E (0 :: i :: tk) l ins v Hi)) as Hs. rewrite Nat.add_0_r in Hs.
    destruct (evaluate E (2 :: i :: tk) (after E calls1 e1) (Some m)) as [[o1 r1] e1'] eqn:He1.
    destruct (evaluate E (2 :: i :: tk) (after E calls2 e2) (Some m)) as [[o2 r2] e2'] eqn:He2.
    cbn [fst] in Hh1, Hh2. rewrite <- Hh1, <- Hh2 in Hs. cbn [fst] in Hs.
    assert (e1' = after E (calls1 ++ [(2 :: i :: tk, Some m)]) e1) as Ha1.
    { rewrite after_app. unfold after at 1. simpl. by rewrite He1. }
    assert (e2' = after E (calls2 ++ [(2 :: i :: tk, Some m)]) e2) as Ha2.
    { rewrite after_app. unfold after at 1. simpl. by rewrite He2. }
    destruct o1 as [a|x|p], o2 as [b|y|q]; simpl in Hs; try (by simplify_eq).
    rewrite (check_alike E l outs a b v (1 :: i :: tk) Ho Hs).
    destruct (foldl _ _ _) as [[]|x|p]; [|done..]. rewrite Ha1, Ha2. apply IH.
    intros j vrow m' Hj Hm. replace (S i + j) with (i + S j) by lia. by apply H.
  Qed.
End two.

Lemma verdict_alike E dd1 dd2 td1 td2 td1' td2' d1 d2 e1 e2 calls1 calls2 tk :
  new_model E dd1 td1 d1 = (Ok e1, td1') → new_model E dd2 td2 d2 = (Ok e2, td2') →
  doc_verification d1 = doc_verification d2 →
  (∀ v i vrow m, doc_verification d1 = Some v → vr_rows v !! i = Some vrow → verification_input (vr_fields v) vrow m →
    seen_alike (vr_fields v) vrow (evaluate E (2 :: i :: tk) e1 (Some m)).1.1 (evaluate E (2 :: i :: tk) e2 (Some m)).1.1) →
  (model_verify E tk (after E calls1 e1)).1 = (model_verify E tk (after E calls2 e2)).1.
Proof.
  intros H1 H2 Hv H. unfold model_verify, verify_model.
  rewrite !after_verification, (new_model_verification _ _ _ _ _ _ H1), (new_model_verification _ _ _ _ _ _ H2), <- Hv.
  destruct (doc_verification d1) as [v|]; [|done]. destruct (well_prefixed_dec (vr_fields v)) as [Hw|Hw].
  - destruct (ver_maps_ok _ Hw) as (ins & outs & -> & Hi & Ho).
    apply (rows_alike E tk (vr_fields v) ins outs Hi Ho dd1 dd2 td1 td2 td1' td2' d1 d2 e1 e2 H1 H2).
    intros j vrow m Hj Hm. by apply H.
  - by destruct (ver_maps_bad _ Hw) as (f & _ & ->).
Qed.
