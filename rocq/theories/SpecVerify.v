(** Specification vocabulary for Verify (C61 - C64). *)
From Verif Require Import Base Strconv Value Doc.

Definition doc_verification (d : doc_model) : option verification :=
  match d with
  | DTree t => tm_verification t
  | DMining h _ => mm_verification h
  | DRegr m => rm_verification m
  | DOther _ => None
  end.

(** A verification field describes the column [c] of the table. *)
Definition column (f : ver_field) (c : string) : Prop := vf_column f = "data:" +:+ c.
Definition well_prefixed (l : list ver_field) : Prop := ∀ f, f ∈ l → ∃ c, column f c.

(** Columns without a precision are inputs; a column with a precision is an
    output, and the last field declared for it names the output. *)
Definition input_column (l : list ver_field) (c : string) : Prop :=
  ∃ f, f ∈ l ∧ column f c ∧ vf_precision f = None.
Definition output_column (l : list ver_field) (c fld : string) : Prop :=
  ∃ l1 f l2, l = l1 ++ f :: l2 ∧ column f c ∧ is_Some (vf_precision f) ∧ vf_field f = fld ∧
    ∀ g, g ∈ l2 → column g c → vf_precision g = None.

(** The row given to Evaluate for a row of the table. *)
Definition verification_input (l : list ver_field) (vrow : gmap string string) (m : row) : Prop :=
  ∀ k v, m !! k = Some v ↔ input_column l k ∧ ∃ s, vrow !! k = Some s ∧ v = GStr s.

(** not (|expected - predicted| > 1e-5 * expected) *)
Definition within (expected predicted : f64) : Prop :=
  fltb (fmul f1em5 expected) (fabs (fsub expected predicted)) = false.

(** Every expected column of the row is produced, and [ok expected predicted]. *)
Definition row_checks (E : Ext) (ok : f64 → f64 → Prop) (l : list ver_field)
    (vrow : gmap string string) (out : datarow) : Prop :=
  ∀ k s fld, vrow !! k = Some s → output_column l k fld →
    ∃ pv, dr_get out fld = Some pv ∧ ok (val_float64 E (GStr s)) (val_float64 E pv).

(** Not a negative number (NaN included). *)
Definition not_negative (x : f64) : Prop := fltb x fzero = false.
(** A negative number whose tolerance does not underflow: all x <= -1e-300. *)
Definition clearly_negative (x : f64) : Prop := fltb (fmul f1em5 x) fzero = true.
