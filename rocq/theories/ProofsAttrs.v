(** Proofs: the order of attributes, and vendor attributes, do not matter. *)
From Coq Require Import Ascii.
From Verif Require Import Base Strconv Doc Xml Decode SpecDecode Lib.

(** ** Agreement of two decodings *)

Definition agree {A} (t : bool) (o1 o2 : option A) : Prop :=
  (∀ d, o1 = Some d → o2 = Some d) ∧ (t = true → o1 = o2).

Lemma agree_refl {A} t (o : option A) : agree t o o.
Proof. by split. Qed.
Lemma agree_eq {A} t (o1 o2 : option A) : o1 = o2 → agree t o1 o2.
Proof. intros ->. apply agree_refl. Qed.
Lemma agree_bind {A B} t (o1 o2 : option A) (k1 k2 : A → option B) :
  agree t o1 o2 → (∀ a, agree t (k1 a) (k2 a)) → agree t (o1 ≫= k1) (o2 ≫= k2).
Proof.
  intros [H1 H2] H. split.
  - intros d Hd. apply bind_Some in Hd as (a & Ha & Hd). rewrite (H1 _ Ha). cbn. by apply H.
  - intros Ht. rewrite (H2 Ht). destruct o2; [by apply H|done].
Qed.
Lemma agree_fmap {A B} t (f : A → B) o1 o2 : agree t o1 o2 → agree t (f <$> o1) (f <$> o2).
Proof.
  intros [H1 H2]. split.
  - intros d Hd. apply fmap_Some in Hd as (a & Ha & ->). by rewrite (H1 _ Ha).
  - intros Ht. by rewrite (H2 Ht).
Qed.
(** ** Attributes *)

Definition commuting {A} (set : string → string → A → option A) : Prop :=
  ∀ n v n' v' a, n ≠ n' → (set n v a ≫= set n' v') = (set n' v' a ≫= set n v).
Definition ignores_vendor {A} (set : string → string → A → option A) : Prop :=
  ∀ n v a, own_attribute n = false → set n v a = Some a.

Lemma attrs_fold_cons {A} (set : string → string → A → option A) n v l a :
  attrs_fold set ((n, v) :: l) a = set n v a ≫= attrs_fold set l.
Proof. cbn. by destruct (set n v a). Qed.

Lemma attrs_fold_own {A} (set : string → string → A → option A) : ignores_vendor set →
  ∀ l a, attrs_fold set l a = attrs_fold set (filter (λ p, own_attribute p.1 = true) l) a.
Proof.
  intros Hi. induction l as [|[n v] l IH]; intros a; [done|].
  rewrite filter_cons. cbn [fst]. destruct (decide (own_attribute n = true)) as [Ho|Ho].
  - rewrite !attrs_fold_cons. destruct (set n v a); [cbn; apply IH|done].
  - rewrite attrs_fold_cons, Hi by (by destruct (own_attribute n)). cbn. apply IH.
Qed.

Lemma attrs_fold_perm {A} (set : string → string → A → option A) : commuting set →
  ∀ l1 l2, l1 ≡ₚ l2 → NoDup l1.*1 → ∀ a, attrs_fold set l1 a = attrs_fold set l2 a.
Proof.
  intros Hc l1 l2 Hp. induction Hp as [|[n v] l1 l2 Hp IH|[n' v'] [n v] l|l1 l2 l3 H12 IH1 H23 IH2]; intros Hnd a.
  - done.
  - rewrite !attrs_fold_cons. cbn in Hnd. apply NoDup_cons in Hnd as [_ Hnd].
    destruct (set n v a); [cbn; by apply IH|done].
  - cbn [fmap list_fmap fst] in Hnd. apply NoDup_cons in Hnd as [Hn _].
    assert (n ≠ n') by set_solver.
    rewrite !attrs_fold_cons.
    transitivity ((set n v a ≫= set n' v') ≫= attrs_fold set l).
    { destruct (set n v a); [|done]. cbn [mbind option_bind]. by rewrite attrs_fold_cons. }
    rewrite Hc by done.
    destruct (set n' v' a); [|done]. cbn [mbind option_bind]. by rewrite attrs_fold_cons.
  - rewrite IH1 by done. apply IH2. by rewrite <- H12.
Qed.

Lemma attrs_same {A} (set : string → string → A → option A) at1 at2 a :
  commuting set → ignores_vendor set → same_attributes at1 at2 →
  attrs_fold set at1 a = attrs_fold set at2 a.
Proof.
  intros Hc Hi [Hnd Hp]. rewrite (attrs_fold_own set Hi at1), (attrs_fold_own set Hi at2).
  by apply attrs_fold_perm.
Qed.

Lemma vendor_neq n k : own_attribute n = false → own_attribute k = true → (n =s k) = false.
Proof. intros H1 H2. apply String.eqb_neq. intros ->. congruence. Qed.


(* a vendor attribute is none of the names a setter knows *)
Ltac setter_vendor f :=
  intros n v a Hn; unfold f; repeat (rewrite (vendor_neq n _ Hn) by reflexivity);
  repeat match goal with x : (_ * _)%type |- _ => destruct x end;
  try destruct a; reflexivity.

(* two attributes of different names set different fields *)
Ltac setter_commutes f :=
  intros n v n' v' a Hne; unfold f;
  repeat match goal with x : (_ * _)%type |- _ => destruct x end;
  try destruct a;
  repeat match goal with
  | |- context [String.eqb ?m ?k] => is_var m;
      let H := fresh "Hn" in destruct (String.eqb m k) eqn:H;
      [apply String.eqb_eq in H; subst m|]; cbn -[att_float att_int att_bool att_uint]
  end; try congruence;
  repeat match goal with
  | |- context [att_float ?E ?x] => destruct (att_float E x); cbn -[att_float att_int att_bool att_uint]
  | |- context [att_int ?x] => destruct (att_int x); cbn -[att_float att_int att_bool att_uint]
  | |- context [att_uint ?x] => destruct (att_uint x); cbn -[att_float att_int att_bool att_uint]
  | |- context [att_bool ?x] => destruct (att_bool x); cbn -[att_float att_int att_bool att_uint]
  end; try reflexivity.

Definition well_behaved {A} (set : string → string → A → option A) : Prop :=
  commuting set ∧ ignores_vendor set.
Ltac setter f := split; [setter_commutes f|setter_vendor f].

Lemma ref_ok : well_behaved ref_attr. Proof. setter ref_attr. Qed.
Lemma const_ok : well_behaved const_attr. Proof. setter const_attr. Qed.
Lemma pair_ok : well_behaved pair_attr. Proof. setter pair_attr. Qed.
Lemma map_ok : well_behaved map_attr. Proof. setter map_attr. Qed.
Lemma apply_ok : well_behaved apply_attr. Proof. setter apply_attr. Qed.
Lemma field_ok : well_behaved field_attr. Proof. setter field_attr. Qed.
Lemma value_ok : well_behaved value_attr. Proof. setter value_attr. Qed.
Lemma data_ok : well_behaved data_attr. Proof. setter data_attr. Qed.
Lemma dict_ok : well_behaved dict_attr. Proof. setter dict_attr. Qed.
Lemma mfield_ok E : well_behaved (mfield_attr E). Proof. setter mfield_attr. Qed.
Lemma out_ok : well_behaved out_attr. Proof. setter out_attr. Qed.
Lemma target_ok E : well_behaved (target_attr E). Proof. setter target_attr. Qed.
Lemma vfield_ok E : well_behaved (vfield_attr E). Proof. setter vfield_attr. Qed.
Lemma verif_ok : well_behaved verif_attr. Proof. setter verif_attr. Qed.
Lemma simple_ok : well_behaved simple_attr. Proof. setter simple_attr. Qed.
Lemma set_ok : well_behaved set_attr. Proof. setter set_attr. Qed.
Lemma array_ok : well_behaved array_attr. Proof. setter array_attr. Qed.
Lemma compound_ok : well_behaved compound_attr. Proof. setter compound_attr. Qed.
Lemma dist_ok E : well_behaved (dist_attr E). Proof. setter dist_attr. Qed.
Lemma node_ok E : well_behaved (node_attr E).
Proof.
  split; [|setter_vendor node_attr].
  setter_commutes node_attr.
  all: repeat match goal with
    | |- context [String.eqb ?m ""] => destruct (String.eqb m ""); cbn
    | |- context [ext_parse_float ?E ?x] => destruct (ext_parse_float E x); cbn
    end; reflexivity.
Qed.
Lemma tree_ok E : well_behaved (tree_attr E). Proof. setter tree_attr. Qed.
Lemma predictor_ok E : well_behaved (pred_attr E). Proof. setter pred_attr. Qed.
Lemma table_ok E : well_behaved (table_attr E). Proof. setter table_attr. Qed.
Lemma regr_ok : well_behaved regr_attr. Proof. setter regr_attr. Qed.
Lemma mining_ok : well_behaved mining_attr. Proof. setter mining_attr. Qed.
Lemma segmentation_ok : well_behaved segmentation_attr. Proof. setter segmentation_attr. Qed.
Lemma segment_ok : well_behaved segment_attr. Proof. setter segment_attr. Qed.
Lemma pmml_ok : well_behaved pmml_attr. Proof. setter pmml_attr. Qed.
