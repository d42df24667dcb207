(** Histories that include Validate, Compile and Verify. *)
From Verif Require Import Base Strconv Value Doc Expr Pred Tree Regression Model Api Lib
  SpecPred ProofsPred SpecExpr ProofsExpr SpecConstruct ProofsConstruct ProofsRange
  SpecTree ProofsTree ProofsOutput ProofsEval ProofsDoc ProofsSafe ProofsWhole ProofsSim SpecShare ProofsShare.

(** ** Verify only evaluates *)

Lemma after_app E c1 c2 e : after E (c1 ++ c2) e = after E c2 (after E c1 e).
Proof. unfold after. by rewrite foldl_app. Qed.

Lemma ver_rows_after E tk ins outs i rows e :
  ∃ calls, (ver_rows E tk ins outs i rows e).2 = after E calls e.
Proof.
  revert i e. induction rows as [|v rows IH]; intros i e; simpl; [by exists []|].
  destruct (evaluate E _ e _) as [[o r'] e'] eqn:He.
  assert (∀ calls, after E ((2 :: i :: tk, Some (ver_input E (0 :: i :: tk) ins v)) :: calls) e = after E calls e') as Ha.
  { intros calls. unfold after. simpl. by rewrite He. }
  destruct o as [out|x|p]; [|by eexists [_]; rewrite Ha..].
  destruct (foldl _ _ _); [|by eexists [_]; rewrite Ha..].
  destruct (IH (S i) e') as [calls Hc]. eexists (_ :: calls). by rewrite Ha.
Qed.

Lemma verify_after E tk e : ∃ calls, (model_verify E tk e).2 = after E calls e.
Proof.
  unfold model_verify, verify_model. destruct (verification_of e) as [v|]; [|by exists []].
  destruct (ver_maps _) as [[ins outs]|x|p]; [apply ver_rows_after|by exists []..].
Qed.

(** ** Declaring the same derived fields again *)

Definition declare (ft : gmap string string) (l : list derived_field) : gmap string string :=
  foldl (λ ft df, <[df_name df := df_datatype df]> ft) ft l.

Lemma declare_lookup ft l k :
  declare ft l !! k = default (ft !! k) (Some <$> declare ∅ l !! k).
Proof.
  revert ft. induction l as [|df l IH]; intros ft; simpl; [by rewrite lookup_empty|].
  rewrite IH, (IH (<[_ := _]> ∅)). destruct (declare ∅ l !! k); simpl; [done|].
  destruct (decide (k = df_name df)) as [->|Hne]; [by rewrite !lookup_insert|].
  by rewrite !lookup_insert_ne, lookup_empty by done.
Qed.

Lemma declare_twice ft l : declare (declare ft l) l = declare ft l.
Proof.
  apply map_eq. intros k. rewrite (declare_lookup _ l), (declare_lookup ft l).
  by destruct (declare ∅ l !! k).
Qed.

Lemma field_types_app dd td l : field_types dd (td ++ l) = declare (field_types dd td) l.
Proof. unfold field_types, declare. by rewrite foldl_app. Qed.

(** ** Trees *)

Lemma mf_defaults_idem f : mf_defaults (mf_defaults f) = mf_defaults f.
Proof. unfold mf_defaults. simpl. f_equal; by repeat case_str. Qed.

(** a tree evaluator after some calls, with the dictionary it shares *)
Definition tree_live (E : Ext) (dd : list data_field) (td : list derived_field) (t : tree_model)
    (te : etree) (td' : list derived_field) : Prop :=
  keys_ok (et_outkeys te) ∧ field_types dd td' = field_types dd (td ++ tm_lt t) ∧
  et_validated te = true ∧ et_compiled te = true ∧ et_dd te = dd ∧
  et_model te = TreeModel (tm_function t) (tm_strategy t) (tm_penalty t) (tm_notrue t) (tm_lt t)
                 (mf_defaults <$> tm_schema t) (tm_verification t) (tm_node t) ∧
  et_ft te = field_types dd (td ++ tm_lt t) ∧
  new_node E (et_ft te) (tm_node t) = Ok (et_root te) ∧
  et_target te = target_of "" (mf_defaults <$> tm_schema t) ∧
  (tm_function t = "classification" ∨ tm_function t = "regression").

Lemma tree_live_built E dd td t te :
  built_tree E dd td t te → tree_live E dd td t te (td ++ tm_lt t).
Proof. intros (Hv & Hc & Hdd & Hk & Hm & Hft & Hn & Htg & Hfn). unfold tree_live. by rewrite Hk. Qed.

Lemma tree_live_same E dd td t te te' td' :
  tree_live E dd td t te td' → same_tree te te' → tree_live E dd td t te' td'.
Proof.
  intros (_ & H0 & H1 & H2 & H3 & H4 & H5 & H6 & H7 & H8) (_ & Hk & G1 & G2 & G3 & G4 & G5 & G6 & G7).
  unfold tree_live. rewrite <- G1, <- G2, <- G3, <- G4, <- G5, <- G6, <- G7. by repeat split.
Qed.

Lemma tree_live_same_tree E dd td t te te' td1 td2 :
  tree_live E dd td t te td1 → tree_live E dd td t te' td2 → same_tree te te'.
Proof.
  intros (Hk & _ & H1 & H2 & H3 & H4 & H5 & H6 & H7 & _) (Hk' & _ & G1 & G2 & G3 & G4 & G5 & G6 & G7 & _).
  unfold same_tree. rewrite H5 in H6. rewrite G5 in G6.
  repeat split; try congruence; done.
Qed.

Lemma tree_live_validate E dd td t te td' :
  tree_live E dd td t te td' → tree_validate te = (Ok tt, te).
Proof.
  intros (Hk & H0 & H1 & H2 & H3 & H4 & H5 & H6 & H7 & H8). unfold tree_validate. rewrite H4. simpl.
  assert (negb (tm_function t =s "classification") && negb (tm_function t =s "regression") = false) as ->.
  { by destruct H8 as [-> | ->]. }
  f_equal. destruct te. simpl in *. subst. f_equal. f_equal.
  rewrite <-list_fmap_compose. apply list_fmap_ext. intros i f _. apply mf_defaults_idem.
Qed.

Lemma target_of_again s l : target_of (target_of s l) l = target_of s l.
Proof.
  assert (∀ s, target_of s l = default s (list.last (map mf_name (List.filter (λ f, mf_usage f =s "target") l)))) as H.
  { clear s. induction l as [|f l IH]; intros s; [done|].
    change (target_of s (f :: l)) with (target_of (if mf_usage f =s "target" then mf_name f else s) l).
    rewrite IH. cbn [List.filter]. destruct (mf_usage f =s "target"); [|done]. cbn [map].
    rewrite last_cons. generalize (list.last (map mf_name (List.filter (λ f, mf_usage f =s "target") l))).
    by intros []. }
  rewrite !H. by destruct (list.last _).
Qed.

Lemma tree_live_compile E dd td t te td' :
  tree_live E dd td t te td' →
  ∃ te' td2, tree_compile E td' te = (Ok tt, te', td2) ∧ tree_live E dd td t te' td2.
Proof.
  intros (Hk & H0 & H1 & H2 & H3 & H4 & H5 & H6 & H7 & H8).
  assert (field_types dd (td' ++ tm_lt t) = field_types dd (td ++ tm_lt t)) as Hf.
  { rewrite field_types_app, H0, field_types_app. apply declare_twice. }
  rewrite H5 in H6. unfold tree_compile. rewrite H3, H4. simpl. rewrite Hf, H6. do 2 eexists. split; [done|].
  unfold tree_live. simpl. rewrite H7, target_of_again, H1. by repeat split.
Qed.

Lemma tree_after_live E dd td t te td' calls :
  tree_live E dd td t te td' → ∃ te', after E calls (ETree te) = ETree te' ∧ tree_live E dd td t te' td'.
Proof.
  revert te. induction calls as [|[tk r] calls IH]; intros te H; [by eauto|].
  simpl. pose proof (tree_evaluate_step E tk te r (proj1 H)) as Hs.
  destruct (tree_evaluate E tk te r) as [[o r'] te'] eqn:He. simpl in *.
  destruct (IH te') as (te2 & H2 & H3); [by eapply tree_live_same|]. eauto.
Qed.

Lemma tree_live_history E dd td t te td' calls :
  tree_live E dd td t te td' →
  ∃ te2 td2, history E calls (ETree te, td') = (ETree te2, td2) ∧ tree_live E dd td t te2 td2.
Proof.
  revert te td'. induction calls as [|c calls IH]; intros te td' H; [by eauto|].
  unfold history. cbn [foldl]. fold (history E calls). destruct c as [| |tk r|tk]; cbn [call_step].
  - simpl. rewrite (tree_live_validate E dd td t te td') by done. by apply IH.
  - simpl. destruct (tree_live_compile E dd td t te td' H) as (te1 & td1 & -> & H1). by apply IH.
  - destruct (tree_after_live E dd td t te td' [(tk, r)] H) as (te1 & Ha & H1).
    unfold after in Ha. cbn [foldl fst snd] in Ha. rewrite Ha. by apply IH.
  - destruct (verify_after E tk (ETree te)) as [cs ->].
    destruct (tree_after_live E dd td t te td' cs H) as (te1 & -> & H1). by apply IH.
Qed.

Lemma tree_history E dd td t e td' calls tk r :
  new_model E dd td (DTree t) = (Ok e, td') →
  (evaluate E tk (history E calls (e, td')).1 r).1 = (evaluate E tk e r).1.
Proof.
  intros (te & -> & -> & Hb)%new_model_tree_inv. apply tree_live_built in Hb as Hl.
  destruct (tree_live_history E dd td t te _ calls Hl) as (te2 & td2 & -> & Hl2).
  simpl. pose proof (tree_live_same_tree E dd td t te te2 _ _ Hl Hl2) as Hs.
  pose proof (tree_evaluate_same E E tk tk te te2 r (same_world_refl E) Hs (λ _, eq_refl)) as [H _].
  destruct (tree_evaluate E tk te r) as [[? ?] ?], (tree_evaluate E tk te2 r) as [[? ?] ?]. by simpl in *.
Qed.

(** every further Validate and Compile succeeds *)
Lemma tree_history_ok E dd td t e td' calls :
  new_model E dd td (DTree t) = (Ok e, td') →
  let '(e2, td2) := history E calls (e, td') in
  (model_validate e2).1 = Ok tt ∧ (model_compile E td2 e2).1.1 = Ok tt.
Proof.
  intros (te & -> & -> & Hb)%new_model_tree_inv. apply tree_live_built in Hb as Hl.
  destruct (tree_live_history E dd td t te _ calls Hl) as (te2 & td2 & -> & Hl2).
  simpl. rewrite (tree_live_validate E dd td t te2 td2) by done.
  by destruct (tree_live_compile E dd td t te2 td2 Hl2) as (te3 & td3 & -> & _).
Qed.

(** ** Regression models *)

Lemma regr_after E x calls : after E calls (ERegr x) = ERegr x.
Proof. induction calls as [|c calls IH]; [done|]. simpl. apply IH. Qed.

Lemma regr_history E x td calls :
  rm_norm (er_model x) ≠ "" → history E calls (ERegr x, td) = (ERegr x, td).
Proof.
  intros Hn. induction calls as [|c calls IH]; [done|]. unfold history in *. cbn [foldl].
  assert (call_step E (ERegr x, td) c = (ERegr x, td)) as ->; [|done].
  destruct c as [| |tk r|tk]; cbn [call_step]; try done.
  - simpl. unfold regr_validate. apply String.eqb_neq in Hn as ->. destruct x as [m]. simpl.
    assert (RegrModel (rm_function m) (rm_norm m) (rm_lt m) (rm_schema m) (rm_tables m) (rm_output m)
      (rm_verification m) = m) as -> by (by destruct m).
    by repeat case_match; simplify_eq.
  - destruct (verify_after E tk (ERegr x)) as [cs ->]. by rewrite regr_after.
Qed.

(** ** Mining models that select the first segment *)

(** what Evaluate of such a model reads, and what keeps a further Compile from
    changing it: every field has the type in [T] *)
Definition first_live (E : Ext) (T : fieldtypes) (dd : list data_field) (segs : list (segment doc_model))
    (h : mining_header) (s0 : emodel) (e : emodel) : Prop :=
  ∃ m s rest, e = EMining m (s :: rest) ∧ em_validated m = true ∧ em_compiled m = true ∧
    em_hdr m = h ∧ em_defaults m = default_values (mm_schema h) ∧ em_dd m = dd ∧ em_segs m = segs ∧
    msim same_tree s0 s ∧ Forall (fixed_model E T) (s :: rest).

Lemma msim_evaluate E tk e1 e2 r :
  msim same_tree e1 e2 → (evaluate E tk e1 r).1 = (evaluate E tk e2 r).1 ∧
  msim same_tree (evaluate E tk e1 r).2 (evaluate E tk e2 r).2.
Proof.
  intros H. apply (evaluate_sim E E (same_world_refl E) same_tree eq); [naive_solver| |done|done].
  intros tk1 tk2 t1 t2 r' -> Ht. by apply tree_evaluate_same.
Qed.

Lemma msim_refl_of E dd td d e td' calls :
  new_model E dd td d = (Ok e, td') → msim same_tree e (after E calls e).
Proof. intros H%new_model_msim. by apply after_step. Qed.

Lemma msim_sym e1 e2 : msim same_tree e1 e2 → msim same_tree e2 e1.
Proof.
  assert (∀ a b, same_tree a b → same_tree b a) as Hsym by (unfold same_tree; naive_solver).
  revert e2. induction e1 as [t|x|h sm IH] using emodel_rect'; intros e2 He;
    inversion He as [? t2 Ht|?|? ? sm2 Hsm]; subst; constructor; [by apply Hsym|].
  clear He. induction Hsm; constructor; apply Forall_cons in IH as [IH1 IH2]; auto.
Qed.

Lemma msim_right_refl e1 e2 : msim same_tree e1 e2 → msim same_tree e2 e2.
Proof. intros H. eapply msim_trans; [apply same_tree_trans|by apply msim_sym|done]. Qed.

Section first.
  Context (E : Ext) (T : fieldtypes) (dd : list data_field) (segs : list (segment doc_model))
    (h : mining_header) (s0 : emodel).
  Context (Hm : mm_method h = "selectFirst").
  Context (Hdd : agree_dd T dd) (Hlt : agree_td T (mm_lt h))
    (Hsegs : agree_td T (concat (map (λ s, concat (map doc_locals (sg_models s))) segs))).

  Notation live := (first_live E T dd segs h s0).

  Lemma first_live_evaluate e tk r :
    live e →
    (evaluate E tk e r).1 =
      match impute E (4 :: tk) (default_values (mm_schema h)) r with
      | Ok r1 => match handle_input E (mm_lt h) r1 with
                 | (Ok _, r2) => (evaluate E (5 :: 0 :: tk) s0 r2).1
                 | (Err x, r2) => (Err x, r2)
                 | (Panic x, r2) => (Panic x, r2)
                 end
      | Err x => (Err x, r)
      | Panic x => (Panic x, r)
      end.
  Proof.
    intros (m & s & rest & -> & Hv & Hc & Hh & Hd & _ & _ & Hs & _). rewrite mining_evaluate_run by done.
    rewrite Hh, Hd. destruct (impute _ _ _ _) as [r1|x|p]; [|done..].
    destruct (handle_input _ _ _) as [[u|x|p] r2]; [|done..].
    unfold run_method. rewrite Hh, Hm. simpl. destruct (msim_evaluate E (5 :: 0 :: tk) s0 s r2 Hs) as [-> _].
    by destruct (evaluate E _ s r2) as [[? ?] ?].
  Qed.

  Lemma first_live_step e tk r : live e → live (evaluate E tk e r).2.
  Proof.
    intros He. assert (He' := He).
    destruct He' as (m & s & rest & -> & Hv & Hc & Hh & Hd & Hx & Hg & Hs & Hf). rewrite mining_evaluate_run by done.
    rewrite Hh, Hd. destruct (impute _ _ _ _) as [r1|x|p]; [|done..].
    destruct (handle_input _ _ _) as [[u|x|p] r2]; [|done..].
    unfold run_method. rewrite Hh, Hm. simpl.
    pose proof (evaluate_step E (5 :: 0 :: tk) s r2 (msim_right_refl _ _ Hs)) as Hst.
    destruct (evaluate E _ s r2) as [[o r3] s']. simpl in *.
    exists m, s', rest. repeat split; try done.
    - by eapply (msim_trans same_tree); [apply same_tree_trans|..].
    - apply Forall_cons in Hf as [Hf1 Hf2]. constructor; [by eapply fixed_model_msim|done].
  Qed.

  Lemma first_live_compile td e :
    agree_td T td → live e →
    live (model_compile E td e).1.2 ∧ agree_td T (model_compile E td e).2.
  Proof.
    intros Htd (m & s & rest & -> & Hv & Hc & Hh & Hd & Hx & Hg & Hs & Hf).
    cbn [model_compile]. unfold mining_prepare. rewrite Hh, Hx, Hg.
    assert (agree_td T (td ++ mm_lt h)) as Htd' by (by apply Forall_app).
    rewrite (touch_rounds_fixed E T) by done.
    destruct (compile_segments_fixed E T dd (td ++ mm_lt h) [] segs) as [H1 H2]; [done..| |].
    { apply Forall_forall. intros sg Hin. apply Forall_forall. intros d Hd' td1 e td1' Ht1 Hl Hn.
      by apply (new_model_fixed E T dd d td1 e td1'). }
    destruct (compile_segments _ _ _ _) as [[o new] td2]. simpl in H1, H2.
    assert (∀ m', em_validated m' = true → em_compiled m' = true → em_hdr m' = h →
      em_defaults m' = default_values (mm_schema h) → em_dd m' = dd → em_segs m' = segs →
      live (EMining m' (s :: (rest ++ new)))) as Hy.
    { intros m' ? ? ? ? ? ?. exists m', s, (rest ++ new). repeat split; try done.
      change (s :: rest ++ new) with ((s :: rest) ++ new). by apply Forall_app. }
    destruct o; (split; [apply Hy; by simpl; rewrite ?Hh|done]).
  Qed.

  Lemma first_live_validate e : live e → live (model_validate e).2.
  Proof.
    intros (m & s & rest & -> & Hv & Hc & Hh & Hd & Hx & Hg & Hs & Hf). simpl. unfold mining_validate.
    rewrite Hh, Hm. simpl. rewrite Hm. simpl.
    destruct (List.find _ _); simpl; eexists _, s, rest; by repeat split.
  Qed.

  Lemma first_live_after e calls : live e → live (after E calls e).
  Proof.
    revert e. induction calls as [|c calls IH]; intros e He; [done|].
    unfold after. cbn [foldl]. apply IH. by apply first_live_step.
  Qed.

  Lemma first_live_history e td calls :
    agree_td T td → live e → live (history E calls (e, td)).1.
  Proof.
    revert e td. induction calls as [|c calls IH]; intros e td Htd He; [done|].
    unfold history. cbn [foldl]. fold (history E calls).
    destruct c as [| |tk r|tk]; cbn [call_step].
    - apply IH; [done|]. by apply first_live_validate.
    - destruct (first_live_compile td e Htd He) as [H1 H2].
      destruct (model_compile E td e) as [[o e'] td']. by apply IH.
    - apply IH; [done|]. by apply first_live_step.
    - apply IH; [done|]. destruct (verify_after E tk e) as [cs ->]. by apply first_live_after.
  Qed.
End first.

Lemma select_first_history E dd td h segs e td' calls tk r :
  new_model E dd td (DMining h segs) = (Ok e, td') → mm_method h = "selectFirst" → segs ≠ [] →
  one_type (all_declared dd td (DMining h segs)) →
  (evaluate E tk (history E calls (e, td')).1 r).1 = (evaluate E tk e r).1.
Proof.
  intros Hn Hm Hne (T & HT)%one_type_map. apply declarations_agree in HT as [Hdd Htd].
  apply Forall_app in Htd as [Htd Hl]. assert (Hl' := Hl). simpl in Hl'. apply Forall_app in Hl' as [Hlt Hsegs].
  pose proof (new_model_agree E T dd _ td _ td' Htd Hl Hn) as Htd'.
  pose proof (new_model_fixed E T dd _ td e td' Hdd Htd Hl Hn) as Hf.
  apply new_model_mining_inv in Hn as (sm & -> & Hb & _).
  inversion Hb as [|? s segs' d0 e0 es td1 td2 Hs Hn Hr]; subst; [done|].
  assert (header_of h = h) as Hh by (unfold header_of; by rewrite Hm).
  set (e := EMining (built_mining dd td h (s :: segs')) (e0 :: es)) in *.
  assert (first_live E T dd (s :: segs') h e0 e) as Hlv.
  { eexists _, e0, es. split; [done|]. simpl. rewrite Hh. repeat split; try done.
    - by eapply new_model_msim.
    - by inversion Hf. }
  rewrite (first_live_evaluate E T dd (s :: segs') h e0 Hm e) by done.
  by rewrite (first_live_evaluate E T dd (s :: segs') h e0 Hm) by (by apply first_live_history).
Qed.
