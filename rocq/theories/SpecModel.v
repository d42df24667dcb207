(** Independent specification of whole models. *)
From Verif Require Import Base Strconv Value Doc Expr Pred Tree Regression Model SpecTree ProofsWhole.

(** ** The keys Evaluate may write (C29) *)

(** The keys a tree, a regression model or a summing mining model can return. *)
Definition tree_output_names (dd : list data_field) (t : tree_model) : list string :=
  if decide (tm_function t = "classification")
  then target_field (tm_schema t) :: map (λ v, "probability(" +:+ v +:+ ")") (tree_classes dd t)
  else ["score"].
Definition regr_output_names (m : regr_model) : list string :=
  map of_name (rm_output m) ++
  (if decide (rm_function m = "classification" ∧ length (rm_output m) ≠ 2 ∧
              Exists (λ t, rt_category t ∉ map of_value (rm_output m)) (rm_tables m)) then [""] else []).
Definition header_output_names (h : mining_header) : list string :=
  map of_name (mm_output h) ++ map tg_field (mm_targets h).

(** Every output key of the models of a document. *)
Definition output_names (dd : list data_field) (d : doc_model) : list string :=
  concat (map (tree_output_names dd) (doc_trees d)) ++
  concat (map regr_output_names (doc_regrs d)) ++
  concat (map header_output_names (doc_headers d)).

(** Names of local derived fields, fields with a replacement value, and - if the
    document has a model chain - output keys. *)
Definition written_names (dd : list data_field) (d : doc_model) : list string :=
  concat (map (λ t, map df_name (tm_lt t)) (doc_trees d)) ++
  concat (map (λ h, map df_name (mm_lt h)) (doc_headers d)) ++
  concat (map (λ h, map mf_name (filter (λ f, is_Some (mf_replacement f)) (mm_schema h))) (doc_headers d)) ++
  (if decide (Exists (λ h, mm_method h = "modelChain") (doc_headers d)) then output_names dd d else []).

(** ** Mining models (C44 - C51) *)

(** The replacement of a field: the last one declared for it. *)
Definition replacement_of (l : list mining_field) (k s : string) : Prop :=
  ∃ l1 f l2, l = l1 ++ f :: l2 ∧ mf_name f = k ∧ mf_replacement f = Some s ∧
    ∀ g, g ∈ l2 → mf_name g = k → mf_replacement g = None.

Definition missing (m : row) (k : string) : Prop := m !! k = None ∨ m !! k = Some GNil.

(** [m'] is [m] with the missing fields replaced. *)
Definition imputed (l : list mining_field) (m m' : row) : Prop :=
  ∀ k, (∀ s, replacement_of l k s → missing m k → m' !! k = Some (GStr s)) ∧
       (¬ missing m k → m' !! k = m !! k) ∧
       ((∀ f, f ∈ l → mf_name f = k → mf_replacement f = None) → m' !! k = m !! k).

(** A header without replacements. *)
Definition no_replacement (f : mining_field) : mining_field :=
  MiningField (mf_name f) (mf_usage f) None (mf_outliers f) (mf_invalid f).
Definition no_replacements (h : mining_header) : mining_header :=
  MiningHeader (mm_function h) (mm_method h) (mm_lt h) (map no_replacement (mm_schema h))
    (mm_output h) (mm_targets h) (mm_verification h).

(** [m2] is the row the segments start from. *)
Definition prepared (E : Ext) (h : mining_header) (m m2 : row) : Prop :=
  ∃ m1, imputed (mm_schema h) m m1 ∧ handle_input E (mm_lt h) (Some m1) = (Ok tt, Some m2).

(** Segment evaluators built one after the other: [segment_models td segs es]. *)
Inductive segment_models (E : Ext) (dd : list data_field)
    : list derived_field → list (segment doc_model) → list emodel → Prop :=
| sm_nil td : segment_models E dd td [] []
| sm_cons td s segs d e es td1 :
    sg_models s = [d] → new_model E dd td d = (Ok e, td1) →
    segment_models E dd td1 segs es → segment_models E dd td (s :: segs) (e :: es).

(** Segments evaluated in order on one row, all of them successful: their
    outputs and the row at the end; [tks] are the iteration orders. *)
Inductive seg_outputs (E : Ext) : list ticket → list emodel → row → list datarow → row → Prop :=
| so_nil m : seg_outputs E [] [] m [] m
| so_cons tk tks e es m out m1 outs m2 :
    (evaluate E tk e (Some m)).1 = (Ok out, Some m1) →
    seg_outputs E tks es m1 outs m2 → seg_outputs E (tk :: tks) (e :: es) m (out :: outs) m2.

(** The same for a chain: each segment sees the previous output [last]. *)
Inductive chain_outputs (E : Ext) : list ticket → list emodel → datarow → row → datarow → row → Prop :=
| co_nil last m : chain_outputs E [] [] last m last m
| co_cons tk tks e es last m m1 out m2 final m3 :
    (∀ k, m1 !! k = match dr_get last k with Some v => Some v | None => m !! k end) →
    (evaluate E tk e (Some m1)).1 = (Ok out, Some m2) →
    chain_outputs E tks es out m2 final m3 →
    chain_outputs E (tk :: tks) (e :: es) last m final m3.

(** What the segments contribute to the key [k]. *)
Definition contributions (E : Ext) (h : mining_header) (k : string) (outs : list datarow) : list f64 :=
  omap (λ out, v ← dr_get out (if decide (mm_function h = "classification") then k else "score");
               Some (val_float64 E v)) outs.
Definition rescale (t : target) (x : f64) : f64 :=
  let y := match tg_factor t with Some f => fmul x f | None => x end in
  match tg_constant t with Some c => fadd y c | None => y end.
Definition sum_total (E : Ext) (h : mining_header) (k : string) (outs : list datarow) : f64 :=
  foldl (λ x t, rescale t x) (foldl fadd fzero (contributions E h k outs))
        (filter (λ t, tg_field t = k) (mm_targets h)).
