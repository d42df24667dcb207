(** What the structs have no field for, and which of them can fail. *)
From Verif Require Import Base Strconv Xml Doc Decode Schema Reflect SpecReflect ProofsReflect SpecView ProofsView.

(** ** What has no field *)

Lemma unkept_attr_idle E s loop fs a t vs : go_struct s = Some (Struct loop fs) → ¬ attr_kept s a →
  each_field (attr_field E a t) fs vs = Some vs.
Proof.
  intros Hs Hno. transitivity (each_field (λ _ v, Some v) fs vs); [|apply each_id].
  apply each_ext. intros f v Hf. unfold attr_field. destruct f as [b k]. cbn. destruct k; try done.
  destruct (b =s a) eqn:Hb; [|done]. apply String.eqb_eq in Hb as ->. destruct Hno. by exists loop, fs, b0, ptr.
Qed.

Lemma attrs_fold_app {A} (set : string → string → A → option A) l1 l2 a :
  attrs_fold set (l1 ++ l2) a = attrs_fold set l1 a ≫= attrs_fold set l2.
Proof. revert a. induction l1 as [|[n t] l1 IH]; intros a; [done|]. cbn. destruct (set n t a); [apply IH|done]. Qed.
Lemma kids_fold_app {A} (f : xml → A → option A) l1 l2 a :
  kids_fold f (l1 ++ l2) a = kids_fold f l1 a ≫= kids_fold f l2.
Proof. revert a. induction l1 as [|k l1 IH]; intros a; [done|]. cbn. destruct (f k a); [apply IH|done]. Qed.

Lemma unkept_attr E s st a n at1 t at2 inner ks : go_struct s = Some st → ¬ attr_kept s a →
  unmarshal_new E s (Elem n (at1 ++ (a, t) :: at2) inner ks) = unmarshal_new E s (Elem n (at1 ++ at2) inner ks).
Proof.
  intros Hs Hno. destruct st as [loop fs]. unfold unmarshal_new. f_equal.
  rewrite !(read_steps _ _ _ _ _ _ _ _ _ Hs), !attrs_fold_app.
  destruct (attrs_fold _ at1 _) as [vs|]; [|done].
  change (Some vs ≫= ?k) with (k vs). cbv beta. cbn [attrs_fold]. by rewrite (unkept_attr_idle E s loop).
Qed.

Lemma unkept_child_idle E s fs m at_ i cs vs : go_struct s = Some (Struct false fs) → ¬ child_kept s m →
  kid_step E false fs (Elem m at_ i cs) vs = Some vs.
Proof.
  intros Hs Hno. cbn [kid_step andb]. transitivity (each_field (λ _ v, Some v) fs vs); [|apply each_id].
  apply each_ext. intros f v Hf. destruct (takes f m) eqn:Ht; [|done].
  destruct Hno. exists false, fs, f. split; [done|]. split; [done|]. by apply takes_belongs.
Qed.

Lemma text_of_skip k1 m at_ i cs k2 : text_of (k1 ++ Elem m at_ i cs :: k2) = text_of (k1 ++ k2).
Proof. induction k1 as [|[? ? ? ?|t] k1 IH]; cbn in *; [done|done|by rewrite IH]. Qed.

Lemma unkept_child E s fs n at_ inner k1 m at' i cs k2 : go_struct s = Some (Struct false fs) → ¬ child_kept s m →
  unmarshal_new E s (Elem n at_ inner (k1 ++ Elem m at' i cs :: k2)) =
  unmarshal_new E s (Elem n at_ inner (k1 ++ k2)).
Proof.
  intros Hs Hno. unfold unmarshal_new. f_equal.
  rewrite !(read_steps _ _ _ _ _ _ _ _ _ Hs).
  destruct (attrs_fold _ at_ _) as [vs|]; [|done].
  change (Some vs ≫= ?k) with (k vs). cbv beta. rewrite !kids_fold_app.
  destruct (kids_fold _ k1 vs) as [vs1|]; [|done].
  change (Some vs1 ≫= ?k) with (k vs1). cbv beta. cbn [kids_fold].
  rewrite (unkept_child_idle E s) by done.
  destruct (kids_fold _ k2 vs1) as [vs2|]; [|done].
  change (Some vs2 ≫= ?k) with (k vs2). cbv beta.
  apply each_ext. intros f v _. unfold text_field. destruct (f_kind f); try done. by rewrite text_of_skip.
Qed.

(** ** What has one *)

Lemma each_at U fs vs vs' j f v : each_field U fs vs = Some vs' → length fs = length vs →
  fs !! j = Some f → vs !! j = Some v → ∃ v', U f v = Some v' ∧ vs' !! j = Some v'.
Proof.
  intros H Hl. apply each_some in H; [|done]. clear Hl. revert j.
  induction H as [|f0 v0 v1 fs vs vs' H0 H IH]; intros [|j] Hf Hv; try done; cbn in *.
  - simplify_eq. by exists v1.
  - by apply IH.
Qed.

Lemma texts_off a at_ : a ∉ at_.*1 → filter (λ p : string * string, p.1 = a) at_ = [].
Proof.
  induction at_ as [|[b t] at_ IH]; intros Ha; [done|]. cbn in Ha. apply not_elem_of_cons in Ha as [Hab Ha].
  rewrite filter_cons_False by (cbn; congruence). by apply IH.
Qed.

Lemma kept_attr E s loop fs a ptr n at_ t inner ks v :
  go_struct s = Some (Struct loop fs) → Field a (Attr KStr ptr) ∈ fs → a ∉ at_.*1 →
  unmarshal_new E s (Elem n ((a, t) :: at_) inner ks) = Some v →
  ∃ vs, v = VStruct s vs ∧ Forall2 (λ f w, f = Field a (Attr KStr ptr) → w = if ptr then VSome (VStr t) else VStr t) fs vs.
Proof.
  intros Hs Hf Ha Hv. unfold unmarshal_new in *.
  rewrite (read_fieldwise _ _ _ _ _ _ _ _ _ Hs) in Hv.
  destruct (existsb _ ks); [done|].
  destruct (each_field _ fs (zero s)) as [us|] eqn:H1; [|done].
  cbn in Hv. injection Hv as <-. exists us. split; [done|].
  assert (length fs = length (zero s)) as Hl.
  { pose proof (zero_fits _ _ Hs) as Hz. cbn in Hz. by apply Forall2_length in Hz. }
  assert (length us = length fs) as Hlu.
  { apply each_some in H1; [|done]. clear -H1. induction H1; cbn; congruence. }
  apply Forall2_same_length_lookup. split; [done|]. intros j f w Hj Hw ->.
  assert (zero s !! j = Some (zero_field (Field a (Attr KStr ptr)))) as Hz.
  { rewrite (zero_is _ _ Hs). cbn [s_fields]. by rewrite list_lookup_fmap, Hj. }
  destruct (each_at _ _ _ _ _ _ _ H1 Hl Hj Hz) as (w1 & Hw1 & Hu1).
  rewrite Hw in Hu1. injection Hu1 as <-.
  rewrite step_attr, filter_cons_True, (texts_off _ _ Ha) in Hw1 by done.
  cbn [ofold] in Hw1. unfold attr_field in Hw1. cbn in Hw1. rewrite String.eqb_refl in Hw1.
  destruct ptr; cbn in Hw1; by injection Hw1.
Qed.

Lemma kept_attr_matters E s loop fs a ptr n at_ t t' inner ks v :
  go_struct s = Some (Struct loop fs) → Field a (Attr KStr ptr) ∈ fs → a ∉ at_.*1 →
  unmarshal_new E s (Elem n ((a, t) :: at_) inner ks) = Some v →
  unmarshal_new E s (Elem n ((a, t') :: at_) inner ks) = Some v → t = t'.
Proof.
  intros Hs Hf Ha Hv Hv'.
  destruct (kept_attr _ _ _ _ _ _ _ _ _ _ _ _ Hs Hf Ha Hv) as (us & -> & H1).
  destruct (kept_attr _ _ _ _ _ _ _ _ _ _ _ _ Hs Hf Ha Hv') as (us' & [= <-] & H2).
  apply elem_of_list_lookup in Hf as [j Hj].
  destruct (Forall2_lookup_l _ _ _ _ _ H1 Hj) as (w & Hw & Hw1).
  pose proof (Forall2_lookup_lr _ _ _ _ _ _ H2 Hj Hw) as Hw2. cbv beta in Hw2.
  specialize (Hw1 eq_refl). specialize (Hw2 eq_refl). subst w. by destruct ptr; injection Hw2.
Qed.

(** ** Checking the table *)

Definition keeps_attr (s a : string) : bool :=
  match go_struct s with
  | Some (Struct _ fs) => existsb (λ f, match f_kind f with Attr _ _ => f_name f =s a | _ => false end) fs
  | None => false
  end.
Definition keeps_child (s m : string) : bool :=
  match go_struct s with Some (Struct _ fs) => existsb (λ f, takes f m) fs | None => false end.

Lemma keeps_attr_spec s a : keeps_attr s a = true ↔ attr_kept s a.
Proof.
  unfold keeps_attr, attr_kept. destruct (go_struct s) as [[loop fs]|]; [|split; [done|by intros (? & ? & ? & ? & ? & _)]].
  split.
  - intros H. apply existsb_exists in H as ([b k] & Hf & Hk). cbn in Hk. destruct k; try done.
    apply String.eqb_eq in Hk as ->. exists loop, fs, b0, ptr. split; [done|]. by apply elem_of_list_In.
  - intros (? & ? & b & ptr & [= <- <-] & Hf). apply existsb_exists. eexists. split; [by apply elem_of_list_In|].
    cbn. apply String.eqb_refl.
Qed.
Lemma keeps_child_spec s m : keeps_child s m = true ↔ child_kept s m.
Proof.
  unfold keeps_child, child_kept. destruct (go_struct s) as [[loop fs]|]; [|split; [done|by intros (? & ? & ? & ? & _)]].
  split.
  - intros H. apply existsb_exists in H as (f & Hf & Hk). exists loop, fs, f. split; [done|].
    split; [by apply elem_of_list_In|]. by apply takes_belongs.
  - intros (? & ? & f & [= <- <-] & Hf & Hb). apply existsb_exists. exists f. split; [by apply elem_of_list_In|].
    by apply takes_belongs in Hb.
Qed.

Definition pairs_of (ev : list string) (g : list string * list string → list string) : list (string * string) :=
  mjoin ((λ p, if existsb (String.eqb p.1) ev then pair p.1 <$> g p.2 else []) <$> pmml_declares).
Lemma pairs_spec ev g s a : (s, a) ∈ pairs_of ev g ↔ s ∈ ev ∧ ∃ d, (s, d) ∈ pmml_declares ∧ a ∈ g d.
Proof.
  unfold pairs_of. rewrite elem_of_list_join. setoid_rewrite elem_of_list_fmap. split.
  - intros (l & Hl & [s' d] & -> & Hd). cbn in Hl. destruct (existsb _ ev) eqn:He; [|by apply elem_of_nil in Hl].
    apply elem_of_list_fmap in Hl as (a' & [= -> ->] & Ha).
    apply existsb_exists in He as (x & Hx & ->%String.eqb_eq).
    split; [by apply elem_of_list_In|]. by exists d.
  - intros (Hs & d & Hd & Ha). eexists. split; [|exists (s, d); split; [reflexivity|done]]. cbn.
    assert (existsb (String.eqb s) ev = true) as ->.
    { apply existsb_exists. exists s. split; [by apply elem_of_list_In|apply String.eqb_refl]. }
    by apply elem_of_list_fmap; exists a.
Qed.

Definition same_pair (p q : string * string) : bool := (p.1 =s q.1) && (p.2 =s q.2).
Definition in_pairs (p : string * string) (l : list (string * string)) : bool := existsb (same_pair p) l.
Lemma in_pairs_spec p l : in_pairs p l = true ↔ p ∈ l.
Proof.
  unfold in_pairs. rewrite existsb_exists. split.
  - intros (q & Hq & [H1%String.eqb_eq H2%String.eqb_eq]%andb_prop). destruct p, q; cbn in *; subst. by apply elem_of_list_In.
  - intros Hp. exists p. split; [by apply elem_of_list_In|]. unfold same_pair. by rewrite !String.eqb_refl.
Qed.
(** The first list, without what is kept, has the same members as the second. *)
Definition agree (kept : string → string → bool) (all lost : list (string * string)) : bool :=
  forallb (λ p, Bool.eqb (negb (kept p.1 p.2)) (in_pairs p lost)) all && forallb (λ p, in_pairs p all) lost.
Lemma agree_spec kept all lost : agree kept all lost = true →
  ∀ s a, (s, a) ∈ lost ↔ (s, a) ∈ all ∧ kept s a = false.
Proof.
  intros [H1 H2]%andb_prop s a. rewrite forallb_forall in H1, H2. split.
  - intros Hl. assert ((s, a) ∈ all) as Ha.
    { apply in_pairs_spec, H2. by apply elem_of_list_In. }
    split; [done|]. apply elem_of_list_In, H1, eqb_prop in Ha. cbn in Ha.
    apply in_pairs_spec in Hl. rewrite Hl in Ha. by destruct (kept s a).
  - intros [Ha Hk]. apply elem_of_list_In, H1, eqb_prop in Ha. cbn in Ha. rewrite Hk in Ha. by apply in_pairs_spec.
Qed.

Lemma lost_attributes_exact s a :
  s ∈ evaluated ∧ declares_attr s a ∧ ¬ attr_kept s a ↔ (s, a) ∈ lost_attributes.
Proof.
  rewrite (agree_spec keeps_attr (pairs_of evaluated fst)) by (vm_compute; reflexivity).
  rewrite pairs_spec, <- keeps_attr_spec, not_true_iff_false. unfold declares_attr. split.
  - intros (He & (ats & els & Hd & Ha) & Hk). split; [|done]. split; [done|]. by exists (ats, els).
  - intros ((He & [ats els] & Hd & Ha) & Hk). split; [done|]. split; [|done]. by exists ats, els.
Qed.
Lemma lost_children_exact s m :
  s ∈ evaluated ∧ declares_child s m ∧ ¬ child_kept s m ↔ (s, m) ∈ lost_children.
Proof.
  rewrite (agree_spec keeps_child (pairs_of evaluated snd)) by (vm_compute; reflexivity).
  rewrite pairs_spec, <- keeps_child_spec, not_true_iff_false. unfold declares_child. split.
  - intros (He & (ats & els & Hd & Ha) & Hk). split; [|done]. split; [done|]. by exists (ats, els).
  - intros ((He & [ats els] & Hd & Ha) & Hk). split; [done|]. split; [|done]. by exists ats, els.
Qed.

(** ** Which structs can fail *)

Lemma free_readable E b t : checked b = false → ¬ unreadable E b t.
Proof.
  intros Hb Hu. destruct b as [| | | | | | |dflt]; try done.
  - by apply (Hu (VStr t)); constructor.
  - destruct (decide (t = "")) as [->|Ht]; [by apply (Hu (VStr dflt)); constructor|by apply (Hu (VStr t)); constructor].
Qed.
Lemma checked_unreadable E b : ext_parse_float E "x" = None → checked b = true → unreadable E b "x".
Proof. 
  intros HE Hb v Hv. assert (trim_space "x" = "x") as Ht by (by vm_compute).
  inversion Hv; subst; try discriminate; rewrite ?Ht in *; try congruence;
    match goal with H : _ = Some _ |- _ => vm_compute in H; discriminate end.
Qed.

Lemma malformed_can_fail E s x : malformed E s x → can_fail s.
Proof.
  induction 1.
  - destruct (checked b) eqn:Hb; [by eapply cf_attr|]. by destruct (free_readable E b t Hb).
  - destruct (checked b) eqn:Hb; [by eapply cf_text|]. by destruct (free_readable E b (text_of cs) Hb).
  - by eapply cf_loop.
  - by eapply cf_child.
Qed.

Definition nothing : string := "?".
Lemma nothing_taken s st f : go_struct s = Some st → f ∈ s_fields st → takes f nothing = false.
Proof.
  intros Hs Hf. apply (table_check (λ p, forallb (λ f, negb (takes f nothing)) (s_fields p.2))) in Hs.
  - cbn in Hs. rewrite forallb_forall in Hs. apply elem_of_list_In, Hs in Hf. by destruct (takes f nothing).
  - vm_compute. reflexivity.
Qed.

Lemma can_fail_malformed E s : ext_parse_float E "x" = None → can_fail s →
  ∀ n, ∃ at_ inner ks, malformed E s (Elem n at_ inner ks).
Proof.
  intros HE. induction 1 as [s loop fs a b ptr Hs Hf Hb|s loop fs a b Hs Hf Hb|s fs Hs|s loop fs f m s' Hs Hf Hc Hcf IH]; intros n.
  - exists [(a, "x")], "", []. eapply mf_attr; [done..| |by apply checked_unreadable]. by left.
  - exists [], "", [Elem a [] "" [Chars "x"]].
    apply (mf_text E s loop fs n [] "" _ a b [] "" [Chars "x"]); [done..|by left|].
    change (text_of [Chars "x"]) with "x". by apply checked_unreadable.
  - exists [], "", [Elem nothing [] "" []]. eapply mf_unknown; [done|by left|done|].
    intros f Hf Hb. apply takes_belongs in Hb. by rewrite (nothing_taken _ _ _ Hs Hf) in Hb.
  - destruct (IH m) as (at_ & inner & ks & Hm).
    exists [], "", [Elem m at_ inner ks]. by eapply mf_child; [..|left|reflexivity| |].
Qed.

Lemma can_fail_exact E s : ext_parse_float E "x" = None →
  can_fail s ↔ ∃ n at_ inner ks, malformed E s (Elem n at_ inner ks).
Proof.
  intros HE. split.
  - intros H. exists s. by apply can_fail_malformed.
  - intros (n & at_ & inner & ks & H). by eapply malformed_can_fail.
Qed.

(** A fixed point check: a set of structs closed under children, none of which
    fails by itself. *)
Definition field_free (l : list string) (f : field) : bool :=
  match f_kind f with
  | Attr b _ | SubBasic b => negb (checked b)
  | Sub _ s => existsb (String.eqb s) l
  | Group _ g => forallb (λ s, existsb (String.eqb s) l) (go_group g)
  | _ => true
  end.
Definition struct_free (l : list string) (s : string) : bool :=
  match go_struct s with
  | Some (Struct loop fs) => negb loop && forallb (field_free l) fs
  | None => true
  end.
Lemma free_never l s : forallb (struct_free l) l = true → s ∈ l → ¬ can_fail s.
Proof.
  intros Hl Hin Hcf. rewrite forallb_forall in Hl.
  induction Hcf as [s loop fs a b ptr Hs Hf Hb|s loop fs a b Hs Hf Hb|s fs Hs|s loop fs f m s' Hs Hf Hc Hcf IH];
    apply elem_of_list_In, Hl in Hin; unfold struct_free in Hin; rewrite Hs in Hin.
  - apply andb_prop in Hin as [_ Hin]. rewrite forallb_forall in Hin. apply elem_of_list_In, Hin in Hf.
    cbn in Hf. by rewrite Hb in Hf.
  - apply andb_prop in Hin as [_ Hin]. rewrite forallb_forall in Hin. apply elem_of_list_In, Hin in Hf.
    cbn in Hf. by rewrite Hb in Hf.
  - done.
  - apply andb_prop in Hin as [_ Hin]. rewrite forallb_forall in Hin. apply elem_of_list_In, Hin in Hf.
    apply IH. destruct Hc as [a q s0|a q g m Hm]; cbn in Hf.
    + apply existsb_exists in Hf as (x & Hx & ->%String.eqb_eq). by apply elem_of_list_In.
    + rewrite forallb_forall in Hf. apply elem_of_list_In, Hf in Hm.
      apply existsb_exists in Hm as (x & Hx & ->%String.eqb_eq). by apply elem_of_list_In.
Qed.

Definition free_structs : list string := Eval vm_compute in
  (fix iter n l := match n with
                   | O => l
                   | S n' => iter n' (filter (λ s, struct_free l s = true) l)
                   end) 9%nat (fst <$> go_structs).

Lemma unchecked_forall (b : string → bool) (P : string → Prop) : (∀ s, b s = true → P s) →
  forallb b unchecked_models = true → ∀ s, s ∈ unchecked_models → P s.
Proof. intros Hb H s Hs. rewrite forallb_forall in H. by apply Hb, H, elem_of_list_In. Qed.
Lemma mem_in l s : existsb (String.eqb s) l = true → s ∈ l.
Proof. intros (x & Hx & ->%String.eqb_eq)%existsb_exists. by apply elem_of_list_In. Qed.
Lemma unchecked_known s : s ∈ unchecked_models → ∃ st, go_struct s = Some st.
Proof.
  revert s. apply (unchecked_forall (λ s, match go_struct s with Some _ => true | None => false end));
    [|by vm_compute]. intros s. destruct (go_struct s); [by eexists|done].
Qed.
Lemma unchecked_group s : s ∈ unchecked_models → s ∈ go_group "ModelElement".
Proof.
  revert s. apply (unchecked_forall (λ s, existsb (String.eqb s) (go_group "ModelElement"))); [|by vm_compute].
  intros s. apply mem_in.
Qed.
Lemma unchecked_never s : s ∈ unchecked_models → ¬ can_fail s.
Proof.
  intros Hs. apply (free_never free_structs); [by vm_compute|]. revert s Hs.
  apply (unchecked_forall (λ s, existsb (String.eqb s) free_structs)); [|by vm_compute]. intros s. apply mem_in.
Qed.

(** ** The order of attributes *)

Lemma one_text a (l : list (string * string)) : NoDup l.*1 → ∀ t, (a, t) ∈ l →
  filter (λ p : string * string, p.1 = a) l = [(a, t)].
Proof.
  induction l as [|[b u] l IH]; intros Hnd t Hin; [by apply elem_of_nil in Hin|].
  cbn in Hnd. apply NoDup_cons in Hnd as [Hb Hnd]. apply elem_of_cons in Hin as [[= -> ->]|Hin].
  - rewrite filter_cons_True by done. by rewrite texts_off.
  - rewrite filter_cons_False; [by apply IH|]. cbn. intros ->. destruct Hb.
    apply elem_of_list_fmap. by exists (a, t).
Qed.
Lemma texts_perm a (l1 l2 : list (string * string)) : NoDup l1.*1 → l1 ≡ₚ l2 →
  filter (λ p, p.1 = a) l1 = filter (λ p : string * string, p.1 = a) l2.
Proof.
  intros Hnd Hp. destruct (decide (a ∈ l1.*1)) as [Ha|Ha].
  - apply elem_of_list_fmap in Ha as ([? t] & -> & Ha). cbn. rewrite (one_text s l1 Hnd t) by done.
    symmetry. apply one_text; [by rewrite <- Hp|by rewrite <- Hp].
  - rewrite !texts_off; [done| |done]. by rewrite <- Hp.
Qed.

Lemma attribute_order E s n at1 at2 inner ks : NoDup at1.*1 → at1 ≡ₚ at2 →
  unmarshal_new E s (Elem n at1 inner ks) = unmarshal_new E s (Elem n at2 inner ks).
Proof.
  intros Hnd Hp. unfold unmarshal_new. f_equal. destruct (go_struct s) as [[loop fs]|] eqn:Hs.
  - rewrite !(read_fieldwise _ _ _ _ _ _ _ _ _ Hs). destruct (existsb _ ks); [done|].
    apply each_ext. intros [a k] v Hf. destruct k.
    1: by rewrite !step_attr, (texts_perm a at1 at2).
    all: unfold field_step;
      rewrite !(ofold_idle (λ p : string * string, attr_field E p.1 p.2 _)) by (by intros [? ?] ?); done.
  - transitivity (@None (list value)); [|symmetry]; unfold read; fold read; by rewrite Hs.
Qed.
