(** Ways to write the same derived fields differently. *)
From Verif Require Import Base Strconv Value Doc SpecExpr.

(** An expression that cannot fail: fields under functions with the right number of
    arguments. *)
Fixpoint settled (e : expr) : bool :=
  match e with
  | XField _ _ => true
  | XApply fn _ _ args =>
      forallb settled args &&
      bool_decide (fn = "sum" ∨ (fn ∈ ["+"; "-"; "*"; "/"] ∧ length args = 2) ∨
        (fn ∈ ["isMissing"; "isNotMissing"] ∧ length args = 1) ∨ (fn = "if" ∧ length args = 3))
  | _ => false
  end.

(** An expression whose value, if any, is a float64. *)
Definition numeric (e : expr) : Prop :=
  match e with
  | XConst _ _ => True
  | XApply fn _ _ _ => fn ∈ ["sum"; "+"; "-"; "*"; "/"]
  | _ => False
  end.

(** Two ways to write one expression. *)
Inductive same_expr : expr → expr → Prop :=
| se_refl a : same_expr a a
| se_sym a b : same_expr a b → same_expr b a
| se_trans a b c : same_expr a b → same_expr b c → same_expr a c
| se_inside fn d m l1 l2 a b : same_expr a b →
    same_expr (XApply fn d m (l1 ++ a :: l2)) (XApply fn d m (l1 ++ b :: l2))
| se_swap fn d m a b : fn ∈ ["+"; "*"] → settled a = true →
    same_expr (XApply fn d m [a; b]) (XApply fn d m [b; a])
| se_flip d m d1 m1 d2 m2 c a b :
    same_expr (XApply "if" d m [XApply "isMissing" d1 m1 [c]; a; b])
              (XApply "if" d m [XApply "isNotMissing" d2 m2 [c]; b; a])
| se_either d m c a : settled c = true → same_expr (XApply "if" d m [c; a; a]) a
| se_rows pairs t1 t2 dflt dt oc mmt :
    NoDup ((λ rw, default "" (rw !! "input")) <$> concat t1) → Permutation (concat t1) (concat t2) →
    same_expr (XMap pairs t1 dflt dt oc mmt) (XMap pairs t2 dflt dt oc mmt).

(** References to [f] replaced by an expression. *)
Fixpoint inline (f : string) (x e : expr) : expr :=
  match e with
  | XField g _ => if decide (g = f) then x else e
  | XApply fn d m args => XApply fn d m (map (inline f x) args)
  | _ => e
  end.
(** The fields looked up in tables. *)
Fixpoint table_fields (e : expr) : list string :=
  match e with
  | XMap pairs _ _ _ _ _ => pairs.*1
  | XApply _ _ _ args => concat (map table_fields args)
  | _ => []
  end.
Definition with_expr (df : derived_field) (e : expr) : derived_field :=
  DerivedField (df_name df) (df_optype df) (df_datatype df) e.

(** Two ways to write one list of derived fields. *)
Inductive same_derivation : list derived_field → list derived_field → Prop :=
| sd_refl l : same_derivation l l
| sd_sym l1 l2 : same_derivation l1 l2 → same_derivation l2 l1
| sd_trans l1 l2 l3 : same_derivation l1 l2 → same_derivation l2 l3 → same_derivation l1 l3
| sd_expr l1 df e l2 : same_expr (df_expr df) e →
    same_derivation (l1 ++ df :: l2) (l1 ++ with_expr df e :: l2)
| sd_order l1 a b l2 :
    settled (df_expr a) = true → settled (df_expr b) = true → df_name a ≠ df_name b →
    df_name a ∉ expr_fields (df_expr b) → df_name b ∉ expr_fields (df_expr a) →
    same_derivation (l1 ++ a :: b :: l2) (l1 ++ b :: a :: l2)
| sd_inline l1 a l2 b l3 :
    df_optype a ≠ "continuous" ∨ numeric (df_expr a) →
    df_name a ∉ expr_fields (df_expr a) → df_name a ∉ df_name <$> l2 →
    (∀ f, f ∈ expr_fields (df_expr a) → f ∉ df_name <$> l2) →
    df_name a ∉ table_fields (df_expr b) →
    same_derivation (l1 ++ a :: l2 ++ b :: l3)
      (l1 ++ a :: l2 ++ with_expr b (inline (df_name a) (df_expr a) (df_expr b)) :: l3)
| sd_overwritten l1 a b l2 :
    settled (df_expr a) = true → settled (df_expr b) = true → df_name a = df_name b →
    df_name a ∉ expr_fields (df_expr b) →
    same_derivation (l1 ++ a :: b :: l2) (l1 ++ b :: l2).

(** Two documents whose local transformations are related by [L], those of regression
    models aside. *)
Definition tree_with_lt (t : tree_model) (lt : list derived_field) : tree_model :=
  TreeModel (tm_function t) (tm_strategy t) (tm_penalty t) (tm_notrue t) lt (tm_schema t) (tm_verification t) (tm_node t).
Definition header_with_lt (h : mining_header) (lt : list derived_field) : mining_header :=
  MiningHeader (mm_function h) (mm_method h) lt (mm_schema h) (mm_output h) (mm_targets h) (mm_verification h).
Inductive redefined (L : list derived_field → list derived_field → Prop) : doc_model → doc_model → Prop :=
| rd_tree t lt : L (tm_lt t) lt → redefined L (DTree t) (DTree (tree_with_lt t lt))
| rd_regr m : redefined L (DRegr m) (DRegr m)
| rd_other k : redefined L (DOther k) (DOther k)
| rd_mining h lt segs1 segs2 : L (mm_lt h) lt →
    Forall2 (λ s1 s2, Forall2 (redefined L) (sg_models s1) (sg_models s2)) segs1 segs2 →
    redefined L (DMining h segs1) (DMining (header_with_lt h lt) segs2).
