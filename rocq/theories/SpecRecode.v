(** Documents and rows in other units: fields whose numbers are replaced by numbers in
    the same order. *)
From Verif Require Import Base Strconv Value Doc Tree Model SpecModel SpecEquiv SpecCells ProofsWhole.

(** [R f x y]: the number [x] of the field [f] is written [y] in the new unit.  The new
    numbers are in the same order as the old ones (equal, smaller, or not comparable). *)
Definition same_order (F : list string) (R : string → f64 → f64 → Prop) : Prop :=
  ∀ f x y x' y', f ∈ F → R f x x' → R f y y' → SFcompare x y = SFcompare x' y'.

(** Predicates whose literals for the fields [F] have been converted. *)
Inductive recoded_pred (E : Ext) (F : list string) (R : string → f64 → f64 → Prop) : predicate → predicate → Prop :=
| rp_simple f op s1 s2 raw1 raw2 x y : f ∈ F →
    ext_parse_float E s1 = Some x → ext_parse_float E s2 = Some y → R f x y →
    recoded_pred E F R (PSimple f op s1 raw1) (PSimple f op s2 raw2)
| rp_other f op s raw : f ∉ F → recoded_pred E F R (PSimple f op s raw) (PSimple f op s raw)
| rp_compound b ps qs : Forall2 (recoded_pred E F R) ps qs → recoded_pred E F R (PCompound b ps) (PCompound b qs)
| rp_set f b vs : recoded_pred E F R (PSet f b vs) (PSet f b vs)
| rp_true : recoded_pred E F R PTrue PTrue
| rp_false : recoded_pred E F R PFalse PFalse
| rp_none : recoded_pred E F R PNone PNone.

(** Documents that agree except for such predicates. *)
Definition recoded (E : Ext) (F : list string) (R : string → f64 → f64 → Prop) : doc_model → doc_model → Prop :=
  rewritten (same_tree_but (λ _, same_nodes (recoded_pred E F R))).

(** Rows whose values of the fields [F] have been converted; missing values stay missing. *)
Definition recoded_rows (F : list string) (R : string → f64 → f64 → Prop) (m1 m2 : row) : Prop :=
  ∀ k, if decide (k ∈ F)
       then (m1 !! k = None ∧ m2 !! k = None) ∨
            ∃ x y, m1 !! k = Some (GF64 x) ∧ m2 !! k = Some (GF64 y) ∧ R k x y
       else m1 !! k = m2 !! k.

(** Fields a document only tests: it does not compute with them and never writes them. *)
Definition only_split (dd : list data_field) (d : doc_model) (F : list string) : Prop :=
  ∀ f, f ∈ F → f ∉ computed_from d ∧ f ∉ written_names dd d.
Definition all_double (dd : list data_field) (td : list derived_field) (F : list string) : Prop :=
  ∀ f, f ∈ F → field_types dd td !! f = Some "double" ∨ field_types dd td !! f = Some "float".
