(** Properties C90 - C93: every struct of package models. *)
From Verif Require Import Base Strconv Xml Doc Decode Schema Reflect GoExt SpecDecode
  SpecReflect ProofsReflect SpecView ProofsView ProofsViewTop ProofsLost.

(** *** C90: each field of each struct holds what its part of the element says *)
Theorem C90_fields : ∀ E s loop fs n at_ inner ks v,
  go_struct s = Some (Struct loop fs) → NoDup at_.*1 → Forall (λ f, single f ks) fs →
  unmarshal_new E s (Elem n at_ inner ks) = Some v ↔
  ∃ vs, v = VStruct s vs ∧
    (loop = true → ∀ k, k ∈ ks → elem_name k ≠ None → ∃ f, f ∈ fs ∧ belongs f k) ∧
    Forall2 (holds E (is_read E) at_ ks inner) fs vs.
Proof. intros. by apply struct_holds. Qed.
Print Assumptions C90_fields.

(** A RegressionTable of two predictors, one of them without a coefficient. *)
Definition rt_ks : list xml :=
  [Elem "NumericPredictor" [("name", "a"); ("coefficient", " 2 ")] "" []; Chars "  ";
   Elem "NumericPredictor" [("name", "b")] "" []].
Definition rt : xml := Elem "RegressionTable" [("targetCategory", "yes"); ("intercept", "3")] "" rt_ks.
Example C90_example : ∃ vs,
  go_struct "RegressionTable" ≠ None ∧
  unmarshal_new go_ext "RegressionTable" rt = Some (VStruct "RegressionTable" vs) ∧
  VNum (default fzero (ext_parse_float go_ext "3")) ∈ vs ∧ VStr "yes" ∈ vs ∧
  Forall (λ f, single f rt_ks) (default [] (s_fields <$> go_struct "RegressionTable")).
Proof.
  eexists. split; [by vm_compute|]. split; [vm_compute; reflexivity|].
  split; [apply elem_of_list_In; vm_compute; tauto|]. split; [apply elem_of_list_In; vm_compute; tauto|].
  unfold go_struct. cbn. repeat (constructor; [by vm_compute|]). constructor.
Qed.

Theorem C90_attribute_order : ∀ E s n at1 at2 inner ks,
  NoDup at1.*1 → at1 ≡ₚ at2 →
  unmarshal_new E s (Elem n at1 inner ks) = unmarshal_new E s (Elem n at2 inner ks).
Proof. intros. by apply attribute_order. Qed.
Print Assumptions C90_attribute_order.

Example C90_attribute_order_example :
  unmarshal_new go_ext "RegressionTable" rt =
  unmarshal_new go_ext "RegressionTable"
    (Elem "RegressionTable" [("intercept", "3"); ("targetCategory", "yes")] "" rt_ks) ∧
  is_Some (unmarshal_new go_ext "RegressionTable" rt).
Proof.
  split; [|vm_compute; by eexists]. apply C90_attribute_order; [|constructor].
  repeat constructor; cbn; set_solver.
Qed.

(** *** C91: what a struct has a field for is kept, the rest is dropped *)
Theorem C91_kept_attribute : ∀ E s loop fs a ptr n at_ t t' inner ks v,
  go_struct s = Some (Struct loop fs) → Field a (Attr KStr ptr) ∈ fs → a ∉ at_.*1 →
  unmarshal_new E s (Elem n ((a, t) :: at_) inner ks) = Some v →
  unmarshal_new E s (Elem n ((a, t') :: at_) inner ks) = Some v → t = t'.
Proof. intros. by eapply kept_attr_matters. Qed.
Print Assumptions C91_kept_attribute.

Example C91_kept_example :
  unmarshal_new go_ext "Segment" (Elem "Segment" [("id", "1")] "" []) ≠
  unmarshal_new go_ext "Segment" (Elem "Segment" [("id", "2")] "" []).
Proof. by vm_compute. Qed.

Theorem C91_unkept_attribute : ∀ E s st a n at1 t at2 inner ks,
  go_struct s = Some st → ¬ attr_kept s a →
  unmarshal_new E s (Elem n (at1 ++ (a, t) :: at2) inner ks) = unmarshal_new E s (Elem n (at1 ++ at2) inner ks).
Proof. intros. by eapply unkept_attr. Qed.
Print Assumptions C91_unkept_attribute.

Theorem C91_unkept_child : ∀ E s fs n at_ inner k1 m at' i cs k2,
  go_struct s = Some (Struct false fs) → ¬ child_kept s m →
  unmarshal_new E s (Elem n at_ inner (k1 ++ Elem m at' i cs :: k2)) =
  unmarshal_new E s (Elem n at_ inner (k1 ++ k2)).
Proof. intros. by eapply unkept_child. Qed.
Print Assumptions C91_unkept_child.

(** the complete list, for the structs the evaluator's documents are made of *)
Theorem C91_lost_attributes : ∀ s a,
  s ∈ evaluated ∧ declares_attr s a ∧ ¬ attr_kept s a ↔ (s, a) ∈ lost_attributes.
Proof. apply lost_attributes_exact. Qed.
Print Assumptions C91_lost_attributes.
Theorem C91_lost_children : ∀ s m,
  s ∈ evaluated ∧ declares_child s m ∧ ¬ child_kept s m ↔ (s, m) ∈ lost_children.
Proof. apply lost_children_exact. Qed.
Print Assumptions C91_lost_children.

Example C91_lost_example :
  ¬ attr_kept "Segment" "weight" ∧ attr_kept "Segment" "id" ∧
  ¬ child_kept "RegressionTable" "CategoricalPredictor" ∧ child_kept "RegressionTable" "NumericPredictor" ∧
  go_struct "RegressionTable" = Some (Struct false (default [] (s_fields <$> go_struct "RegressionTable"))).
Proof.
  split; [apply (C91_lost_attributes "Segment" "weight"); apply elem_of_list_In; cbn; tauto|].
  split; [by apply keeps_attr_spec|].
  split; [apply (C91_lost_children "RegressionTable" "CategoricalPredictor"); apply elem_of_list_In; cbn; tauto|].
  split; [by apply keeps_child_spec|]. by vm_compute.
Qed.

(** Not everything PMML declares is kept: the weight of a Segment is dropped,
    whatever it is. *)
Theorem C91_everything_kept_refuted : ∃ s a, s ∈ evaluated ∧ declares_attr s a ∧
  ∀ E n at1 at2 inner ks t t',
    unmarshal_new E s (Elem n (at1 ++ (a, t) :: at2) inner ks) =
    unmarshal_new E s (Elem n (at1 ++ (a, t') :: at2) inner ks).
Proof.
  exists "Segment", "weight".
  destruct (proj2 (C91_lost_attributes "Segment" "weight")) as (He & Hd & Hk);
    [apply elem_of_list_In; cbn; tauto|].
  split; [done|]. split; [done|]. intros E n at1 at2 inner ks t t'.
  destruct (go_struct "Segment") as [st|] eqn:Hs; [|by vm_compute in Hs].
  by rewrite !(C91_unkept_attribute E "Segment" st).
Qed.
Print Assumptions C91_everything_kept_refuted.

Example C91_refuted_example :
  let seg w := Elem "Segment" [("id", "1"); ("weight", w)] "" [Elem "True" [] "" []] in
  unmarshal_new go_ext "Segment" (seg "1") = unmarshal_new go_ext "Segment" (seg "none") ∧
  is_Some (unmarshal_new go_ext "Segment" (seg "1")).
Proof. split; vm_compute; [reflexivity|by eexists]. Qed.

(** *** C92: decoding fails exactly on the malformed elements *)
Theorem C92_fails : ∀ E s st n at_ inner ks, go_struct s = Some st →
  unmarshal_new E s (Elem n at_ inner ks) = None ↔ malformed E s (Elem n at_ inner ks).
Proof. intros. by eapply read_none. Qed.
Print Assumptions C92_fails.

Definition bad_rt : xml := Elem "RegressionTable" [] "" [Elem "NumericPredictor" [("coefficient", "x")] "" []].
Example C92_example :
  malformed go_ext "RegressionTable" bad_rt ∧ ¬ malformed go_ext "RegressionTable" rt.
Proof.
  destruct (go_struct "RegressionTable") as [st|] eqn:Hs; [|by vm_compute in Hs].
  unfold rt, bad_rt. split; [apply (C92_fails _ _ st); [done|by vm_compute]|].
  rewrite <- (C92_fails _ _ st) by done. by vm_compute.
Qed.

(** Which types can fail at all, given that "x" is no number. *)
Theorem C92_can_fail : ∀ E s st, go_struct s = Some st → ext_parse_float E "x" = None →
  can_fail s ↔ ∃ n at_ inner ks, unmarshal_new E s (Elem n at_ inner ks) = None.
Proof.
  intros E s st Hs HE. rewrite (can_fail_exact E s HE). split.
  - intros (n & at_ & inner & ks & H). exists n, at_, inner, ks. by apply (C92_fails E s st).
  - intros (n & at_ & inner & ks & H). exists n, at_, inner, ks. by apply (C92_fails E s st) in H.
Qed.
Print Assumptions C92_can_fail.

(** The model elements that decode whatever their contents. *)
Theorem C92_unchecked_models : ∀ E s n at_ inner ks, s ∈ unchecked_models →
  s ∈ go_group "ModelElement" ∧ is_Some (unmarshal_new E s (Elem n at_ inner ks)).
Proof.
  intros E s n at_ inner ks Hs.
  assert (∃ st, go_struct s = Some st) as [st Hst] by (by apply unchecked_known).
  split; [by apply unchecked_group|]. destruct (unmarshal_new _ _ _) eqn:Hu; [done|].
  apply (C92_fails E s st) in Hu; [|done]. apply malformed_can_fail in Hu. by apply unchecked_never in Hu.
Qed.
Print Assumptions C92_unchecked_models.

Example C92_can_fail_example :
  can_fail "TreeModel" ∧ ¬ can_fail "NeuralNetwork" ∧ ext_parse_float go_ext "x" = None.
Proof.
  split; [|split; [|by vm_compute]].
  - apply (can_fail_exact go_ext); [by vm_compute|]. exists "TreeModel", [], "", [Elem "Node" [("recordCount", "x")] "" []].
    destruct (go_struct "TreeModel") as [st|] eqn:Hs; [|by vm_compute in Hs].
    apply (C92_fails _ _ st); [done|by vm_compute].
  - apply unchecked_never. apply elem_of_list_In; cbn; tauto.
Qed.

(** *** C93: the evaluator's document is the decoded structs, projected *)
Theorem C93_view : ∀ E n at_ inner ks,
  decode E (go_unread E) (Elem n at_ inner ks) = see_pmml <$> unmarshal_new E "PMML" (Elem n at_ inner ks).
Proof. apply decode_view. Qed.
Print Assumptions C93_view.

(** A document with a tree, a model the evaluator does not know and an element it
    never reads; the same with a malformed number in the latter. *)
Definition seen_doc (t : string) : xml :=
  Elem "PMML" [("version", "4.2")] ""
    [Elem "Header" [] "" [];
     Elem "DataDictionary" [] "" [Elem "DataField" [("name", "x"); ("optype", "continuous"); ("dataType", "double")] "" []];
     Elem "NeuralNetwork" [("functionName", "regression")] "" [];
     Elem "TreeModel" [("functionName", "regression"); ("modelName", "m")] ""
       [Elem "MiningSchema" [] "" [Elem "MiningField" [("name", "x")] "" []];
        Elem "ModelStats" [] "" [Elem "UnivariateStats" [("field", "x")] ""
          [Elem "NumericInfo" [("mean", t)] "" []]];
        Elem "Node" [("score", "1")] "" [Elem "True" [] "" []]]].
Example C93_example :
  (∃ v, unmarshal_new go_ext "PMML" (seen_doc "1.5") = Some v ∧
     decode go_ext (go_unread go_ext) (seen_doc "1.5") = Some (see_pmml v)) ∧
  decode go_ext (go_unread go_ext) (seen_doc "none") = None.
Proof.
  split; [|by vm_compute].
  destruct (unmarshal_new go_ext "PMML" (seen_doc "1.5")) as [v|] eqn:Hv; [|by vm_compute in Hv].
  exists v. split; [done|]. unfold seen_doc in *. by rewrite C93_view, Hv.
Qed.
