(** What Verify can tell apart (C155). *)
From Verif Require Import Base Strconv Value Doc SpecVerify.

(** Two results of Evaluate with the same values for the expected columns of a row of the
    verification table, or the same failure. *)
Definition seen_alike (l : list ver_field) (vrow : gmap string string) (o1 o2 : res datarow) : Prop :=
  match o1, o2 with
  | Ok a, Ok b => ∀ k s fld, vrow !! k = Some s → output_column l k fld → dr_get a fld = dr_get b fld
  | _, _ => o1 = o2
  end.
