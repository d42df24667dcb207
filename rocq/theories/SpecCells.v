(** The splits of a document: what its tests compare a field with. *)
From Verif Require Import Base Strconv Value Doc Tree Model SpecExpr SpecConstruct.

(** The literals the predicates of a document compare [f] with. *)
Fixpoint pred_literals (f : string) (p : predicate) : list string :=
  match p with
  | PSimple g _ v _ => if decide (g = f) then [v] else []
  | PCompound _ ps => concat (map (pred_literals f) ps)
  | _ => []
  end.
Fixpoint node_literals (f : string) (n : mnode) : list string :=
  match n with MNode _ _ _ _ _ ns p => pred_literals f p ++ concat (map (node_literals f) ns) end.
Fixpoint literals (f : string) (d : doc_model) : list string :=
  match d with
  | DTree t => node_literals f (tm_node t)
  | DMining _ segs => concat (map (λ s, match s with Segment _ _ ms => concat (map (literals f) ms) end) segs)
  | _ => []
  end.

(** The fields a document computes with: those of derived fields and predictors. *)
Definition derived_from (lt : list derived_field) : list string := concat (map (λ df, expr_fields (df_expr df)) lt).
Fixpoint computed_from (d : doc_model) : list string :=
  match d with
  | DTree t => derived_from (tm_lt t)
  | DRegr m => concat (map (λ t, map np_name (rt_predictors t)) (rm_tables m))
  | DMining h segs =>
      derived_from (mm_lt h) ++ concat (map (λ s, match s with Segment _ _ ms => concat (map computed_from ms) end) segs)
  | DOther _ => []
  end.

(** Two values of a field of type [dt] no literal tells apart: numbers with no literal
    between them (and equal to the same ones), strings that are not mentioned. *)
Inductive same_side (E : Ext) (lits : list string) : string → gov → gov → Prop :=
| side_float dt x y : dt ∈ ["double"; "float"] →
    (∀ s c, s ∈ lits → ext_parse_float E s = Some c →
       fltb x c = fltb y c ∧ feqb x c = feqb y c ∧ fltb c x = fltb c y) →
    same_side E lits dt (GF64 x) (GF64 y)
| side_int x y : (- 2 ^ 63 ≤ x < 2 ^ 63)%Z → (- 2 ^ 63 ≤ y < 2 ^ 63)%Z →
    (∀ s c, s ∈ lits → parse_int s = Some c → ((x < c)%Z ↔ (y < c)%Z) ∧ (x = c ↔ y = c)) →
    same_side E lits "integer" (GInt KInt64 x) (GInt KInt64 y)
| side_string s1 s2 : s1 ∉ lits → s2 ∉ lits → same_side E lits "string" (GStr s1) (GStr s2).

(** A field of which a document sees only the side: its tests compare it with literals
    that do not tell [v1] and [v2] apart, and nothing else uses it. *)
Definition unsplit (E : Ext) (dd : list data_field) (td : list derived_field) (d : doc_model) (f : string) (v1 v2 : gov) : Prop :=
  f ∉ computed_from d ∧ f ∉ map df_name (doc_locals d) ∧
  ∃ dt, field_types dd td !! f = Some dt ∧ same_side E (literals f d) dt v1 v2.
(** Two rows in the same cell of a document. *)
Definition same_cell (E : Ext) (dd : list data_field) (td : list derived_field) (d : doc_model) (m1 m2 : row) : Prop :=
  ∀ f, m1 !! f = m2 !! f ∨ ∃ v1 v2, m1 !! f = Some v1 ∧ m2 !! f = Some v2 ∧ unsplit E dd td d f v1 v2.
