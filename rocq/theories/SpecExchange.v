(** Members of ensembles exchanged for others that answer alike (C157). *)
From Verif Require Import Base Strconv Value Doc Expr Pred Tree Regression Model.

(** With every transformation dictionary with which NewModel accepts [d1], it accepts [d2], leaves
    the same dictionary behind, and the two evaluators give the same results, errors and rows. *)
Definition answers_for (E : Ext) (dd : list data_field) (d1 d2 : doc_model) : Prop :=
  ∀ td e1 td', new_model E dd td d1 = (Ok e1, td') →
  ∃ e2, new_model E dd td d2 = (Ok e2, td') ∧ ∀ tk r, (evaluate E tk e1 r).1 = (evaluate E tk e2 r).1.

(** [R] relates the members, at any depth, that were exchanged; the others are kept.  What a
    segment consists of besides its models may change as well. *)
Inductive exchanged (R : doc_model → doc_model → Prop) : doc_model → doc_model → Prop :=
| ex_here d1 d2 : R d1 d2 → exchanged R d1 d2
| ex_keep d : exchanged R d d
| ex_members h segs1 segs2 :
    Forall2 (λ s1 s2, Forall2 (exchanged R) (sg_models s1) (sg_models s2)) segs1 segs2 →
    exchanged R (DMining h segs1) (DMining h segs2).
