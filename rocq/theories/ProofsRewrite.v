(** Proofs: which changes to the file leave the document alone. *)
From Coq Require Import Ascii.
From Verif Require Import Base Strconv Doc Xml Decode SpecDecode Lib ProofsAttrs.

Lemma attrs_agree {A} (set : string → string → A → option A) t at1 at2 a :
  well_behaved set → same_attributes at1 at2 →
  agree t (attrs_fold set at1 a) (attrs_fold set at2 a).
Proof. intros [? ?] ?. apply agree_eq. by apply attrs_same. Qed.

(** ** Children *)

Lemma foreign_neq more n k : foreign more n → existsb (String.eqb k) pmml_names = true → (n =s k) = false.
Proof.
  intros Hf Hk. apply String.eqb_neq. intros ->. unfold foreign in Hf.
  rewrite forallb_app in Hf. apply andb_true_iff in Hf as [Hf _].
  rewrite forallb_forall in Hf. apply existsb_exists in Hk as (x & Hx & He).
  apply String.eqb_eq in He. subst x. specialize (Hf k Hx). by rewrite String.eqb_refl in Hf.
Qed.

Lemma kids_fold_elements {A} (f : xml → A → option A) : (∀ c a, f (Chars c) a = Some a) →
  ∀ ks a, kids_fold f ks a = kids_fold f (elements ks) a.
Proof.
  intros Hc. induction ks as [|k ks IH]; intros a; [done|].
  unfold elements. rewrite filter_cons. destruct k as [n at_ i cs|c].
  - rewrite decide_True by done. cbn [kids_fold]. destruct (f _ a); [apply IH|done].
  - rewrite decide_False by done. cbn [kids_fold]. rewrite Hc. apply IH.
Qed.

Lemma kids_agree {A} more t p (f : xml → A → option A) ks1 ks2 :
  (∀ c a, f (Chars c) a = Some a) →
  (∀ k1 k2 a, k1 ∈ ks1 → rewritten more t k1 k2 → agree t (f k1 a) (f k2 a)) →
  (∀ m at_ i ks a, foreign more m →
     f (Elem m at_ i ks) a = Some a ∨ (intolerant p m = true ∧ f (Elem m at_ i ks) a = None)) →
  rewritten_kids more t p (elements ks1) (elements ks2) →
  ∀ a, agree t (kids_fold f ks1 a) (kids_fold f ks2 a).
Proof.
  intros Hc Hk Hf Hr a. rewrite (kids_fold_elements f Hc ks1), (kids_fold_elements f Hc ks2).
  assert (∀ k1 k2 a, k1 ∈ elements ks1 → rewritten more t k1 k2 → agree t (f k1 a) (f k2 a)) as Hk'.
  { intros k1 k2 b Hin. apply Hk. unfold elements in Hin. apply elem_of_list_filter in Hin. tauto. }
  clear Hk Hc. revert a. generalize dependent (elements ks2). generalize dependent (elements ks1).
  intros l1 Hk l2 Hr. induction Hr as [p|p k1 k2 l1 l2 Hr Hrs IH|p n at_ i ks l1 l2 Hn Ht Hrs IH]; intros a.
  - apply agree_refl.
  - cbn [kids_fold].
    pose proof (agree_bind t (f k1 a) (f k2 a) (kids_fold f l1) (kids_fold f l2)) as Hb.
    assert (agree t (f k1 a ≫= kids_fold f l1) (f k2 a ≫= kids_fold f l2)) as H.
    { apply Hb; [apply Hk; [left|done]|]. apply IH; [done|]. intros. apply Hk; [by right|done]. }
    destruct (f k1 a), (f k2 a); exact H.
  - cbn [kids_fold]. destruct (Hf n at_ i ks a Hn) as [->|[Hi ->]].
    + apply IH; [done|]. intros. apply Hk; [by right|done].
    + split; [done|]. intros Htt. rewrite (Ht Htt) in Hi. done.
Qed.

Ltac not_foreign H :=
  repeat match goal with
  | |- context [String.eqb ?n ?k] => rewrite (foreign_neq _ n k H) by reflexivity
  end; cbn [orb].

Lemma dec_row_cells ks r : dec_row ks r = foldl (λ m nv, <[nv.1 := nv.2]> m) r (cells ks).
Proof.
  unfold dec_row, cells. revert r. induction ks as [|k ks IH]; intros r; [done|].
  destruct k as [n at_ i cs|c]; cbn [foldl omap list_omap]; apply IH.
Qed.

Lemma table_agree more t ks1 ks2 acc :
  rewritten_kids more t "InlineTable" (elements ks1) (elements ks2) →
  agree t (dec_table ks1 acc) (dec_table ks2 acc).
Proof.
  intros H. unfold dec_table. apply (kids_agree more t "InlineTable"); [done| | |done].
  - intros k1 k2 a _ Hr. destruct Hr as [at1 at2 i1 i2 c1 c2 Hc|n at1 at2 i1 i2 c1 c2 Hn _ _ _].
    + cbn [String.eqb Ascii.eqb Bool.eqb]. rewrite !dec_row_cells, Hc. apply agree_refl.
    + apply String.eqb_neq in Hn. rewrite Hn. apply agree_refl.
  - intros m at_ i ks a Hm. right. not_foreign Hm. done.
Qed.

(* the element named by a test has its children rewritten *)
Ltac eqb_case n k H := destruct (String.eqb n k) eqn:H; [apply String.eqb_eq in H; subst n|].

Section Agree.
  Context (E : Ext) (U : unread) (more : list string) (t : bool).
  Context (HU : ∀ n x y, rewritten more t x y → (U n x = true → U n y = true) ∧ (t = true → U n x = U n y)).

  Lemma check_agree {A} n x y (o : option A) : rewritten more t x y →
    agree t (check (U n x) ≫= λ _, o) (check (U n y) ≫= λ _, o).
  Proof.
    intros Hr. apply agree_bind; [|intros; apply agree_refl].
    destruct (HU n x y Hr) as [H1 H2]. unfold check. split.
    - destruct (U n x); [|done]. intros d <-. by rewrite H1.
    - intros Ht. by rewrite H2.
  Qed.

  Lemma map_agree at1 at2 ks1 ks2 : same_attributes at1 at2 →
    rewritten_kids more t "MapValues" (elements ks1) (elements ks2) →
    agree t (dec_map at1 ks1) (dec_map at2 ks2).
  Proof.
    intros Ha Hk. unfold dec_map. apply agree_bind; [apply attrs_agree; [apply map_ok|exact Ha]|].
    intros m. apply agree_bind; [|intros; apply agree_refl].
    apply (kids_agree more t "MapValues"); [by intros c []| | |done].
    - intros k1 k2 [ps ts d dt oc mmt] _ Hr. destruct Hr as [at1' at2' i1 i2 c1 c2 Hc|n at1' at2' i1 i2 c1 c2 Hn Hat Hi Hks].
      + apply agree_refl.
      + cbn [map_kid]. eqb_case n "FieldColumnPair" H1.
        { apply agree_bind; [apply attrs_agree; [apply pair_ok|exact Hat]|]. intros; apply agree_refl. }
        eqb_case n "InlineTable" H2.
        { apply agree_bind; [by eapply table_agree|]. intros; apply agree_refl. }
        apply agree_refl.
    - intros m' at_ i ks [] Hm. left. cbn [map_kid]. not_foreign Hm. done.
  Qed.

  (** an optional decoding: the name is known, or it is not *)
  Definition agree2 {A} (o1 o2 : option (option A)) : Prop :=
    match o1, o2 with
    | Some a, Some b => agree t a b
    | None, None => True
    | _, _ => False
    end.

  Lemma foreign_expr m at_ i ks : foreign more m → dec_expr E U (Elem m at_ i ks) = None.
  Proof. intros Hm. cbn [dec_expr]. unfold other_expr. not_foreign Hm. done. Qed.

  Lemma agree2_refl {A} (o : option (option A)) : agree2 o o.
  Proof. destruct o; [apply agree_refl|done]. Qed.

  Lemma agree2_app {A B} (o1 o2 : option (option A)) (k : A → option B) :
    agree2 o1 o2 →
    agree t (match o1 with Some (Some e) => k e | _ => None end)
            (match o2 with Some (Some e) => k e | _ => None end).
  Proof.
    destruct o1 as [o1|], o2 as [o2|]; try done.
    intros H. exact (agree_bind t o1 o2 k k H (λ a, agree_refl t (k a))).
  Qed.

  Lemma expr_agree x : ∀ y, rewritten more t x y → agree2 (dec_expr E U x) (dec_expr E U y).
  Proof.
    induction x as [n at1 i1 ks1 IH|s] using xml_rect'; intros y Hr; [|inversion Hr].
    inversion Hr as [? at2 ? i2 ? ks2 Hc|? ? at2 ? i2 ? ks2 Hn Ha Hi Hk]; subst.
    - done.
    - cbn [dec_expr].
      eqb_case n "FieldRef" H1.
      { cbn [agree2]. apply agree_bind; [apply attrs_agree; [apply ref_ok|exact Ha]|]. intros; apply agree_refl. }
      eqb_case n "Constant" H2.
      { cbn [agree2]. rewrite Hi by (by left). apply agree_bind; [apply attrs_agree; [apply const_ok|exact Ha]|]. intros; apply agree_refl. }
      eqb_case n "MapValues" H3.
      { cbn [agree2]. by apply map_agree. }
      eqb_case n "Apply" H4.
      { cbn [agree2]. apply agree_bind; [apply attrs_agree; [apply apply_ok|exact Ha]|]. intros a.
        apply agree_bind; [|intros; apply agree_refl].
        apply (kids_agree more t "Apply"); [done| | |done].
        - intros k1 k2 b Hin Hr1. rewrite Forall_forall in IH. pose proof (IH k1 Hin k2 Hr1) as He.
          destruct Hr1 as [? ? ? ? ? ? _|m at1' at2' i1' i2' c1 c2 Hm Hat _ _]; [apply agree_refl|].
          destruct (m =s "Extension"); [apply agree_refl|]. by apply agree2_app.
        - intros m at_ i ks b Hm. rewrite foreign_expr by done. unfold intolerant. not_foreign Hm.
          cbn [String.eqb Ascii.eqb Bool.eqb orb andb].
          destruct (m =s "Extension"); [by left|by right]. }
      destruct (other_expr n) eqn:H5; [|done].
      cbn [agree2]. by apply check_agree.
  Qed.

  Lemma field_agree at1 at2 ks1 ks2 : same_attributes at1 at2 →
    rewritten_kids more t "DerivedField" (elements ks1) (elements ks2) →
    agree t (dec_field E U at1 ks1) (dec_field E U at2 ks2).
  Proof.
    intros Ha Hk. unfold dec_field. apply agree_bind; [apply attrs_agree; [apply field_ok|exact Ha]|]. intros d.
    apply (kids_agree more t "DerivedField"); [by intros c []| | |done].
    - intros k1 k2 [nm op dt e] Hin Hr. pose proof (expr_agree k1 k2 Hr) as He.
      destruct Hr as [? ? ? ? ? ? _|m at1' at2' i1' i2' c1 c2 Hm Hat _ _]; [apply agree_refl|].
      cbn [field_kid]. destruct ((m =s "Extension") || (m =s "Value")); [apply agree_refl|].
      by apply agree2_app.
    - intros m at_ i ks [nm op dt e] Hm. cbn [field_kid]. rewrite foreign_expr by done.
      unfold intolerant. not_foreign Hm. cbn [String.eqb Ascii.eqb Bool.eqb orb andb].
      destruct (m =s "Extension"); [by left|by right].
  Qed.

  Lemma local_agree p ks1 ks2 l : rewritten_kids more t p (elements ks1) (elements ks2) →
    agree t (dec_local E U ks1 l) (dec_local E U ks2 l).
  Proof.
    intros Hk. unfold dec_local. apply (kids_agree more t p); [done| | |done].
    - intros k1 k2 a _ Hr. destruct Hr as [? ? ? ? ? ? _|m at1' at2' i1' i2' c1 c2 Hm Hat _ Hks]; [apply agree_refl|].
      eqb_case m "DerivedField" H1; [|apply agree_refl].
      apply agree_bind; [by eapply field_agree|]. intros; apply agree_refl.
    - intros m at_ i ks a Hm. left. not_foreign Hm. done.
  Qed.

  Lemma tdict_agree p ks1 ks2 l : rewritten_kids more t p (elements ks1) (elements ks2) →
    agree t (dec_tdict E U ks1 l) (dec_tdict E U ks2 l).
  Proof.
    intros Hk. unfold dec_tdict. apply (kids_agree more t p); [done| | |done].
    - intros k1 k2 a _ Hr. pose proof Hr as Hr0.
      destruct Hr as [? ? ? ? ? ? _|m at1' at2' i1' i2' c1 c2 Hm Hat _ Hks]; [apply agree_refl|].
      eqb_case m "DerivedField" H1; [apply agree_bind; [by eapply field_agree|]; intros; apply agree_refl|].
      destruct (m =s "DefineFunction"); [by apply check_agree|apply agree_refl].
    - intros m at_ i ks a Hm. left. not_foreign Hm. done.
  Qed.

  Lemma data_field_agree p at1 at2 ks1 ks2 : same_attributes at1 at2 →
    rewritten_kids more t p (elements ks1) (elements ks2) →
    agree t (dec_data_field U at1 ks1) (dec_data_field U at2 ks2).
  Proof.
    intros Ha Hk. unfold dec_data_field. apply agree_bind; [apply attrs_agree; [apply data_ok|exact Ha]|]. intros d.
    apply (kids_agree more t p); [by intros c []| | |done].
    - intros k1 k2 [nm dt vs] _ Hr. pose proof Hr as Hr0.
      destruct Hr as [? ? ? ? ? ? _|m at1' at2' i1' i2' c1 c2 Hm Hat _ Hks]; [apply agree_refl|].
      cbn [data_kid]. destruct (m =s "Value").
      { apply agree_bind; [apply attrs_agree; [apply value_ok|exact Hat]|]. intros; apply agree_refl. }
      destruct (m =s "Interval"); [by apply check_agree|apply agree_refl].
    - intros m at_ i ks [nm dt vs] Hm. left. cbn [data_kid]. not_foreign Hm. done.
  Qed.

  Lemma dict_agree p at1 at2 ks1 ks2 l : same_attributes at1 at2 →
    rewritten_kids more t p (elements ks1) (elements ks2) →
    agree t (dec_dict U at1 ks1 l) (dec_dict U at2 ks2 l).
  Proof.
    intros Ha Hk. unfold dec_dict. apply agree_bind; [apply attrs_agree; [apply dict_ok|exact Ha]|]. intros d.
    apply (kids_agree more t p); [done| | |done].
    - intros k1 k2 a _ Hr. pose proof Hr as Hr0.
      destruct Hr as [? ? ? ? ? ? _|m at1' at2' i1' i2' c1 c2 Hm Hat _ Hks]; [apply agree_refl|].
      cbn [dict_kid]. eqb_case m "DataField" H1.
      { apply agree_bind; [by eapply data_field_agree|]. intros; apply agree_refl. }
      destruct (m =s "Taxonomy"); [by apply check_agree|apply agree_refl].
    - intros m at_ i ks a Hm. left. cbn [dict_kid]. not_foreign Hm. done.
  Qed.

  Lemma list_agree {A} name (dec : list (string * string) → list xml → option A) p ks1 ks2 l :
    existsb (String.eqb name) pmml_names = true →
    (∀ at1 at2 c1 c2, same_attributes at1 at2 → rewritten_kids more t name (elements c1) (elements c2) →
       agree t (dec at1 c1) (dec at2 c2)) →
    name ≠ "row" →
    rewritten_kids more t p (elements ks1) (elements ks2) →
    agree t (dec_list name dec ks1 l) (dec_list name dec ks2 l).
  Proof.
    intros Hname Hd Hrow Hk. unfold dec_list. apply (kids_agree more t p); [done| | |done].
    - intros k1 k2 a _ Hr.
      destruct Hr as [? ? ? ? ? ? _|m at1' at2' i1' i2' c1 c2 Hm Hat _ Hks].
      { apply not_eq_sym, String.eqb_neq in Hrow. rewrite Hrow. apply agree_refl. }
      eqb_case m name H1; [|apply agree_refl].
      apply agree_bind; [by apply Hd|]. intros; apply agree_refl.
    - intros m at_ i ks a Hm. left. by rewrite (foreign_neq _ _ _ Hm) by done.
  Qed.

  Lemma schema_agree p ks1 ks2 l : rewritten_kids more t p (elements ks1) (elements ks2) →
    agree t (dec_schema E ks1 l) (dec_schema E ks2 l).
  Proof.
    apply list_agree; [done| |done]. intros at1 at2 c1 c2 Ha _. apply attrs_agree; [apply mfield_ok|exact Ha].
  Qed.

  Lemma output_agree p ks1 ks2 l : rewritten_kids more t p (elements ks1) (elements ks2) →
    agree t (dec_output ks1 l) (dec_output ks2 l).
  Proof.
    apply list_agree; [done| |done]. intros at1 at2 c1 c2 Ha _. apply attrs_agree; [apply out_ok|exact Ha].
  Qed.

  Lemma targets_agree p ks1 ks2 l : rewritten_kids more t p (elements ks1) (elements ks2) →
    agree t (dec_targets E U ks1 l) (dec_targets E U ks2 l).
  Proof.
    apply list_agree; [done| |done]. intros at1 at2 c1 c2 Ha Hk. unfold dec_target.
    apply agree_bind; [apply attrs_agree; [apply target_ok|exact Ha]|]. intros d.
    apply (kids_agree more t "Target"); [done| | |done].
    - intros k1 k2 a _ Hr. pose proof Hr as Hr0.
      destruct Hr as [? ? ? ? ? ? _|m at1' at2' i1' i2' d1 d2 Hm Hat _ Hks]; [apply agree_refl|].
      destruct (m =s "TargetValue"); [by apply check_agree|apply agree_refl].
    - intros m at_ i ks a Hm. left. not_foreign Hm. done.
  Qed.

  Lemma verif_agree p at1 at2 ks1 ks2 o : same_attributes at1 at2 →
    rewritten_kids more t p (elements ks1) (elements ks2) →
    agree t (dec_verif E at1 ks1 o) (dec_verif E at2 ks2 o).
  Proof.
    intros Ha Hk. unfold dec_verif. apply agree_bind; [apply attrs_agree; [apply verif_ok|exact Ha]|]. intros d.
    apply agree_bind; [|intros; apply agree_refl].
    apply (kids_agree more t p); [by intros c []| | |done].
    - intros k1 k2 [fs rs] _ Hr.
      destruct Hr as [? ? ? ? ? ? _|m at1' at2' i1' i2' c1 c2 Hm Hat _ Hks]; [apply agree_refl|].
      cbn [verif_kid]. eqb_case m "InlineTable" H1.
      { apply agree_bind; [by eapply table_agree|]. intros; apply agree_refl. }
      eqb_case m "VerificationFields" H2; [|apply agree_refl].
      apply agree_bind; [|intros; apply agree_refl]. eapply list_agree; [done| |done|done].
      intros a1 a2 d1 d2 Hd _. apply attrs_agree; [apply vfield_ok|exact Hd].
    - intros m at_ i ks [] Hm. left. cbn [verif_kid]. not_foreign Hm. done.
  Qed.

  (** ** Predicates and trees *)

  Lemma foreign_pred m at_ i ks : foreign more m → dec_pred (Elem m at_ i ks) = None.
  Proof. intros Hm. cbn [dec_pred]. not_foreign Hm. done. Qed.

  Lemma pred_agree x : ∀ y, rewritten more t x y → agree2 (dec_pred x) (dec_pred y).
  Proof.
    induction x as [n at1 i1 ks1 IH|s] using xml_rect'; intros y Hr; [|inversion Hr].
    inversion Hr as [? at2 ? i2 ? ks2 Hc|? ? at2 ? i2 ? ks2 Hn Ha Hi Hk]; subst; [done|].
    cbn [dec_pred].
    destruct (n =s "True"); [apply agree2_refl|]. destruct (n =s "False"); [apply agree2_refl|].
    destruct (n =s "SimplePredicate").
    { cbn [agree2]. apply agree_bind; [apply attrs_agree; [apply simple_ok|exact Ha]|]. intros; apply agree_refl. }
    eqb_case n "SimpleSetPredicate" H3.
    { cbn [agree2]. apply agree_bind; [apply attrs_agree; [apply set_ok|exact Ha]|]. intros a.
      apply agree_bind; [|intros; apply agree_refl].
      apply (kids_agree more t "SimpleSetPredicate"); [done| | |done].
      - intros k1 k2 b _ Hr1. destruct Hr1 as [? ? ? ? ? ? _|m at1' at2' i1' i2' c1 c2 Hm Hat Hi1 _]; [apply agree_refl|].
        cbn [set_kid]. eqb_case m "Array" H4; [|apply agree_refl]. rewrite Hi1 by (by right).
        apply agree_bind; [apply attrs_agree; [apply array_ok|exact Hat]|]. intros; apply agree_refl.
      - intros m at_ i ks b Hm. left. cbn [set_kid]. not_foreign Hm. done. }
    eqb_case n "CompoundPredicate" H4; [|done].
    cbn [agree2]. apply agree_bind; [apply attrs_agree; [apply compound_ok|exact Ha]|]. intros a.
    apply agree_bind; [|intros; apply agree_refl].
    apply (kids_agree more t "CompoundPredicate"); [done| | |done].
    - intros k1 k2 b Hin Hr1. rewrite Forall_forall in IH. pose proof (IH k1 Hin k2 Hr1) as He.
      destruct Hr1 as [? ? ? ? ? ? _|m at1' at2' i1' i2' c1 c2 Hm Hat _ _]; [apply agree_refl|].
      destruct (m =s "Extension"); [apply agree_refl|]. by apply agree2_app.
    - intros m at_ i ks b Hm. rewrite foreign_pred by done. unfold intolerant. not_foreign Hm.
      cbn [String.eqb Ascii.eqb Bool.eqb orb andb].
      destruct (m =s "Extension"); [by left|by right].
  Qed.

  Lemma node_agree x : ∀ y m, rewritten more t x y →
    match x with Elem n _ _ _ => n = "Node" | Chars _ => True end →
    agree t (dec_node E x m) (dec_node E y m).
  Proof.
    induction x as [n at1 i1 ks1 IH|s] using xml_rect'; intros y m0 Hr Hname; [|inversion Hr].
    subst n. inversion Hr as [? at2 ? i2 ? ks2 Hc|? ? at2 ? i2 ? ks2 Hn Ha Hi Hk]; subst.
    cbn [dec_node]. apply agree_bind; [apply attrs_agree; [apply node_ok|exact Ha]|]. intros a.
    apply (kids_agree more t "Node"); [by intros c []| | |done].
    - intros k1 k2 [id dc sc ct ds ns p] Hin Hr1. rewrite Forall_forall in IH.
      pose proof (λ m H, IH k1 Hin k2 m Hr1 H) as Hnode. pose proof (pred_agree k1 k2 Hr1) as Hp.
      destruct Hr1 as [? ? ? ? ? ? _|m at1' at2' i1' i2' c1 c2 Hm Hat _ _]; [apply agree_refl|].
      destruct (m =s "Extension"); [apply agree_refl|].
      eqb_case m "Node" H2.
      { apply agree_bind; [by apply Hnode|]. intros; apply agree_refl. }
      destruct (m =s "ScoreDistribution").
      { apply agree_bind; [unfold dec_dist; apply attrs_agree; [apply dist_ok|exact Hat]|]. intros; apply agree_refl. }
      destruct (m =s "Partition"); [apply agree_refl|].
      destruct (dec_pred (Elem m at1' i1' c1)) as [o1|], (dec_pred (Elem m at2' i2' c2)) as [o2|]; try done.
      exact (agree_bind t o1 o2 (λ q, Some (MNode id dc sc ct ds ns q)) _ Hp (λ a, agree_refl t _)).
    - intros m at_ i ks [id dc sc ct ds ns p] Hm. rewrite foreign_pred by done. unfold intolerant. not_foreign Hm.
      cbn [String.eqb Ascii.eqb Bool.eqb orb andb].
      destruct (m =s "Extension"); [by left|by right].
  Qed.

  Lemma tree_agree p at1 at2 ks1 ks2 : same_attributes at1 at2 →
    rewritten_kids more t p (elements ks1) (elements ks2) →
    agree t (dec_tree E U at1 ks1) (dec_tree E U at2 ks2).
  Proof.
    intros Ha Hk. unfold dec_tree. apply agree_bind; [apply attrs_agree; [apply tree_ok|exact Ha]|]. intros d.
    apply (kids_agree more t p); [by intros c []| | |done].
    - intros k1 k2 [fn st pe nt lt sc vr nd] _ Hr. pose proof Hr as Hr0.
      destruct Hr as [? ? ? ? ? ? _|m at1' at2' i1' i2' c1 c2 Hm Hat _ Hks]; [apply agree_refl|].
      cbn [tree_kid].
      destruct (m =s "LocalTransformations"); [apply agree_bind; [by eapply local_agree|]; intros; apply agree_refl|].
      destruct (m =s "MiningSchema"); [apply agree_bind; [by eapply schema_agree|]; intros; apply agree_refl|].
      destruct (m =s "ModelVerification"); [apply agree_bind; [by eapply verif_agree|]; intros; apply agree_refl|].
      eqb_case m "Node" H4; [apply agree_bind; [by apply node_agree|]; intros; apply agree_refl|].
      destruct (m =s "Output"); [apply agree_bind; [by eapply output_agree|]; intros; apply agree_refl|].
      destruct (m =s "Targets"); [apply agree_bind; [by eapply targets_agree|]; intros; apply agree_refl|].
      destruct (_ || _); [by apply check_agree|apply agree_refl].
    - intros m at_ i ks [] Hm. left. cbn [tree_kid]. not_foreign Hm. done.
  Qed.

  Lemma regr_table_agree p at1 at2 ks1 ks2 : same_attributes at1 at2 →
    rewritten_kids more t p (elements ks1) (elements ks2) →
    agree t (dec_regr_table E at1 ks1) (dec_regr_table E at2 ks2).
  Proof.
    intros Ha Hk. unfold dec_regr_table. apply agree_bind; [apply attrs_agree; [apply table_ok|exact Ha]|]. intros d.
    apply (kids_agree more t p); [by intros c []| | |done].
    - intros k1 k2 [ic tc ps] _ Hr.
      destruct Hr as [? ? ? ? ? ? _|m at1' at2' i1' i2' c1 c2 Hm Hat _ Hks]; [apply agree_refl|].
      cbn [table_kid]. destruct (m =s "NumericPredictor"); [|apply agree_refl].
      apply agree_bind; [apply attrs_agree; [apply predictor_ok|exact Hat]|]. intros; apply agree_refl.
    - intros m at_ i ks [] Hm. left. cbn [table_kid]. not_foreign Hm. done.
  Qed.

  Lemma regr_agree p at1 at2 ks1 ks2 : same_attributes at1 at2 →
    rewritten_kids more t p (elements ks1) (elements ks2) →
    agree t (dec_regr E U at1 ks1) (dec_regr E U at2 ks2).
  Proof.
    intros Ha Hk. unfold dec_regr. apply agree_bind; [apply attrs_agree; [apply regr_ok|exact Ha]|]. intros d.
    apply (kids_agree more t p); [by intros c []| | |done].
    - intros k1 k2 [fn nm lt sc ts os vr] _ Hr. pose proof Hr as Hr0.
      destruct Hr as [? ? ? ? ? ? _|m at1' at2' i1' i2' c1 c2 Hm Hat _ Hks]; [apply agree_refl|].
      cbn [regr_kid].
      destruct (m =s "LocalTransformations"); [apply agree_bind; [by eapply local_agree|]; intros; apply agree_refl|].
      destruct (m =s "MiningSchema"); [apply agree_bind; [by eapply schema_agree|]; intros; apply agree_refl|].
      destruct (m =s "RegressionTable"); [apply agree_bind; [by eapply regr_table_agree|]; intros; apply agree_refl|].
      destruct (m =s "ModelVerification"); [apply agree_bind; [by eapply verif_agree|]; intros; apply agree_refl|].
      destruct (m =s "Output"); [apply agree_bind; [by eapply output_agree|]; intros; apply agree_refl|].
      destruct (m =s "Targets"); [apply agree_bind; [by eapply targets_agree|]; intros; apply agree_refl|].
      destruct (_ || _); [by apply check_agree|apply agree_refl].
    - intros m at_ i ks [] Hm. left. cbn [regr_kid]. not_foreign Hm. done.
  Qed.

  Lemma mining_kid_agree m at1 at2 ks1 ks2 h p : same_attributes at1 at2 →
    rewritten_kids more t p (elements ks1) (elements ks2) →
    agree t (mining_kid E U m at1 ks1 h) (mining_kid E U m at2 ks2 h).
  Proof.
    intros Ha Hk. destruct h as [fn me lt sc os ts vr]. cbn [mining_kid].
    destruct (m =s "ModelVerification"); [apply agree_bind; [by eapply verif_agree|]; intros; apply agree_refl|].
    destruct (m =s "MiningSchema"); [apply agree_bind; [by eapply schema_agree|]; intros; apply agree_refl|].
    destruct (m =s "LocalTransformations"); [apply agree_bind; [by eapply local_agree|]; intros; apply agree_refl|].
    destruct (m =s "Output"); [apply agree_bind; [by eapply output_agree|]; intros; apply agree_refl|].
    destruct (m =s "Targets"); [apply agree_bind; [by eapply targets_agree|]; intros; apply agree_refl|].
    apply agree_refl.
  Qed.

  Lemma foreign_model m at_ i ks : foreign more m → dec_model E U (Elem m at_ i ks) = None.
  Proof. intros Hm. cbn [dec_model]. unfold other_model. not_foreign Hm. done. Qed.

  (* children, grandchildren and so on: what the recursion goes through *)
  Lemma model_agree x : ∀ y, rewritten more t x y → agree2 (dec_model E U x) (dec_model E U y).
  Proof.
    (* strong induction through Segmentation and Segment *)
    assert (∀ n x, (fix size (x : xml) : nat := match x with
              Elem _ _ _ ks => S (list_sum (map size ks)) | Chars _ => 1 end) x < n →
              ∀ y, rewritten more t x y → agree2 (dec_model E U x) (dec_model E U y)) as Hall.
    2:{ intros y Hr. eapply Hall; [|done]. apply Nat.lt_succ_diag_r. }
    set (size := (fix size (x : xml) : nat := match x with
              Elem _ _ _ ks => S (list_sum (map size ks)) | Chars _ => 1 end)).
    assert (∀ k ks, k ∈ ks → size k ≤ list_sum (map size ks)) as Hsum.
    { intros k ks. induction ks as [|k' ks IH]; intros Hin; [by apply elem_of_nil in Hin|].
      apply elem_of_cons in Hin as [<-|Hin]; cbn [map list_sum foldr]; [lia|]. specialize (IH Hin).
      change (foldr Init.Nat.add 0 (map size ks)) with (list_sum (map size ks)). lia. }
    induction n as [|n IH]; [lia|]. clear x. intros x Hx y Hr.
    destruct x as [nm at1 i1 ks1|s]; [|inversion Hr].
    pose proof Hr as Hr0.
    inversion Hr as [? at2 ? i2 ? ks2 Hc|? ? at2 ? i2 ? ks2 Hn Ha Hi Hk]; subst; [done|].
    cbn [dec_model].
    destruct (nm =s "TreeModel"); [cbn [agree2]; apply agree_fmap; by eapply tree_agree|].
    destruct (nm =s "RegressionModel"); [cbn [agree2]; apply agree_fmap; by eapply regr_agree|].
    eqb_case nm "MiningModel" H3.
    2:{ destruct (other_model nm); [|done]. cbn [agree2]. by apply check_agree. }
    cbn [agree2]. apply agree_bind; [apply attrs_agree; [apply mining_ok|exact Ha]|]. intros h.
    apply agree_bind; [|intros; apply agree_refl].
    change (size (Elem "MiningModel" at1 i1 ks1)) with (S (list_sum (map size ks1))) in Hx.
    apply (kids_agree more t "MiningModel"); [done| | |done].
    - intros k1 k2 acc Hin Hr1. pose proof (Hsum k1 ks1 Hin) as Hs1.
      destruct Hr1 as [? ? ? ? ? ? _|m kat1 kat2 ki1 ki2 c1 c2 Hm Hat _ Hks]; [apply agree_refl|].
      eqb_case m "Segmentation" H4.
      2:{ apply agree_bind; [by eapply mining_kid_agree|]. intros; apply agree_refl. }
      apply agree_bind; [apply attrs_agree; [apply segmentation_ok|exact Hat]|]. intros h1.
      apply agree_bind; [|intros; apply agree_refl].
      change (size (Elem "Segmentation" kat1 ki1 c1)) with (S (list_sum (map size c1))) in Hs1.
      apply (kids_agree more t "Segmentation"); [done| | |done].
      + intros s1 s2 l Hin2 Hr2. pose proof (Hsum s1 c1 Hin2) as Hs2.
        destruct Hr2 as [? ? ? ? ? ? _|m' sat1 sat2 si1 si2 d1 d2 Hm' Hat' _ Hks']; [apply agree_refl|].
        eqb_case m' "Segment" H5; [|apply agree_refl].
        apply agree_bind; [apply attrs_agree; [apply segment_ok|exact Hat']|]. intros id.
        apply agree_bind; [|intros; apply agree_refl].
        change (size (Elem "Segment" sat1 si1 d1)) with (S (list_sum (map size d1))) in Hs2.
        apply (kids_agree more t "Segment"); [done| | |done].
        * intros e1 e2 sg Hin3 Hr3. pose proof (Hsum e1 d1 Hin3) as Hs3.
          pose proof (pred_agree e1 e2 Hr3) as Hp.
          assert (agree2 (dec_model E U e1) (dec_model E U e2)) as Hmo by (apply IH; [lia|done]).
          destruct e1 as [en1 ea1 ei1 ek1|]; [|inversion Hr3].
          destruct e2 as [en2 ea2 ei2 ek2|]; [|inversion Hr3].
          destruct (dec_pred (Elem en1 ea1 ei1 ek1)) as [o1|], (dec_pred (Elem en2 ea2 ei2 ek2)) as [o2|]; try done.
          -- exact (agree_bind t o1 o2 (λ p, Some (Segment (sg_id sg) (sg_preds sg ++ [p]) (sg_models sg))) _ Hp
                      (λ a, agree_refl t _)).
          -- by apply (agree2_app _ _ (λ d, Some (Segment (sg_id sg) (sg_preds sg) (sg_models sg ++ [d])))).
        * intros e at_ i ks sg He. right. rewrite foreign_pred, foreign_model by done. done.
      + intros e at_ i ks sg He. left. not_foreign He. done.
    - intros e at_ i ks [[] ?] He. left. unfold mining_kid. not_foreign He. done.
  Qed.

  Lemma decode_agree x y : rewritten_root more t x y → agree t (decode E U x) (decode E U y).
  Proof.
    destruct x as [n1 at1 i1 ks1|], y as [n2 at2 i2 ks2|]; try done. intros [Ha Hk]. cbn [decode].
    apply agree_bind; [apply attrs_agree; [apply pmml_ok|exact Ha]|]. intros p.
    apply (kids_agree more t "PMML"); [by intros c []| | |done].
    - intros k1 k2 [vs dd td ms] _ Hr. pose proof (model_agree k1 k2 Hr) as Hmo. pose proof Hr as Hr0.
      destruct Hr as [? ? ? ? ? ? _|m at1' at2' i1' i2' c1 c2 Hm Hat _ Hks]; [apply agree_refl|].
      cbn [pmml_kid]. destruct (_ || _); [by apply check_agree|].
      destruct (m =s "DataDictionary"); [apply agree_bind; [by eapply dict_agree|]; intros; apply agree_refl|].
      destruct (m =s "TransformationDictionary"); [apply agree_bind; [by eapply tdict_agree|]; intros; apply agree_refl|].
      by apply (agree2_app _ _ (λ d, Some (Pmml vs dd td (ms ++ [d])))).
    - intros m at_ i ks [vs dd td ms] Hm. right. cbn [pmml_kid]. rewrite foreign_model by done.
      not_foreign Hm. done.
  Qed.
End Agree.

(** ** Adding Extensions *)

Lemma same_attributes_refl at_ : NoDup at_.*1 → same_attributes at_ at_.
Proof.
  intros H. split; [|done]. induction at_ as [|[n v] l IH]; [constructor|].
  cbn [fmap list_fmap fst] in H. apply NoDup_cons in H as [Hn Hl]. rewrite filter_cons.
  case_decide; [|by apply IH]. cbn [fmap list_fmap fst]. apply NoDup_cons. split; [|by apply IH].
  intros Hin. apply Hn. apply elem_of_list_fmap in Hin as ([n' v'] & Heq & Hin).
  apply elem_of_list_filter in Hin as [_ Hin]. cbn in Heq. subst n'.
  apply elem_of_list_fmap. by exists (n, v').
Qed.

Lemma text_add p ks : text_of (map (add_extension p) ks) = text_of ks.
Proof.
  induction ks as [|k ks IH]; [done|]. destruct k as [n at_ i cs|s]; cbn [map add_extension text_of]; [done|].
  by rewrite IH.
Qed.

Lemma cells_add p ks : cells (map (add_extension p) ks) = cells ks.
Proof.
  induction ks as [|k ks IH]; [done|]. destruct k as [n at_ i cs|s]; cbn [map add_extension].
  - unfold cells in *. cbn [omap list_omap]. rewrite IH. f_equal. f_equal.
    destruct (n =s p); cbn [app]; [unfold an_extension; cbn [text_of]|]; apply text_add.
  - exact IH.
Qed.

Lemma elements_app l1 l2 : elements (l1 ++ l2) = elements l1 ++ elements l2.
Proof. unfold elements. apply filter_app. Qed.

Lemma add_rewritten more p : existsb (String.eqb "Extension") more = false → p ≠ "row" →
  intolerant p "Extension" = false →
  ∀ x, well_formed x → is_elem x = true → rewritten more true (add_extension p x) x.
Proof.
  intros Hmore Hrow Hp. assert (foreign more "Extension") as Hf.
  { unfold foreign. rewrite forallb_app. apply andb_true_iff. split; [by vm_compute|].
    apply forallb_forall. intros k Hk. apply negb_true_iff. apply not_true_iff_false. intros He.
    apply not_true_iff_false in Hmore. apply Hmore. apply existsb_exists. by exists k. }
  induction x as [n at_ i ks IH|s] using xml_rect'; [|done]. intros Hwf _. cbn [well_formed] in Hwf.
  destruct Hwf as [Hnd Hks]. cbn [add_extension].
  destruct (String.eqb_spec n "row") as [->|Hn].
  - apply not_eq_sym, String.eqb_neq in Hrow. rewrite Hrow. cbn [app]. apply rw_row. apply cells_add.
  - apply rw_elem; [done|by apply same_attributes_refl|done|].
    assert (rewritten_kids more true n (elements (map (add_extension p) ks)) (elements ks)) as Hk.
    { clear Hnd. induction ks as [|k ks IHk]; [constructor|]. cbn [fold_right] in Hks. destruct Hks as [Hk Hks].
      apply Forall_cons in IH as [IH1 IH2]. specialize (IHk IH2 Hks). unfold elements in *. cbn [map].
      rewrite !filter_cons. destruct k as [m at' i' ks'|s]; cbn [add_extension is_elem].
      - rewrite !decide_True by done. apply rk_keep; [|done]. by apply IH1.
      - rewrite !decide_False by done. done. }
    rewrite elements_app. destruct (String.eqb_spec n p) as [->|]; [|exact Hk].
    apply rk_drop; [done|by intros _|]. done.
Qed.

Lemma add_rewritten_root more p : existsb (String.eqb "Extension") more = false → p ≠ "row" →
  intolerant p "Extension" = false →
  ∀ n at_ i ks, n ≠ p → well_formed (Elem n at_ i ks) →
  rewritten_root more true (add_extension p (Elem n at_ i ks)) (Elem n at_ i ks).
Proof.
  intros Hmore Hrow Hp n at_ i ks Hn [Hnd Hks]. cbn [add_extension rewritten_root].
  split; [by apply same_attributes_refl|]. apply String.eqb_neq in Hn. rewrite Hn. cbn [app].
  induction ks as [|k ks IHk]; [constructor|]. cbn [fold_right] in Hks. destruct Hks as [Hk Hks].
  specialize (IHk Hks). unfold elements in *. cbn [map]. rewrite !filter_cons.
  destruct k as [m at' i' ks'|s]; cbn [add_extension is_elem].
  - rewrite !decide_True by done. apply rk_keep; [|done].
    by apply (add_rewritten more p Hmore Hrow Hp (Elem m at' i' ks')).
  - rewrite !decide_False by done. done.
Qed.
