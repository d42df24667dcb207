(** Property C159: what the probabilities of boosted classifiers say. *)
From Coq Require Import Reals.
From Flocq Require Import IEEE754.BinarySingleNaN.
From Verif Require Import Base Strconv Value Doc Expr Pred Tree Regression Model Api Lib ProofsDoc ProofsWhole ProofsSim GoExt Samples
  FloatLib RealLib AccLib ForestLib SpecModel PropertiesAccuracy SpecBoosted ProofsBoosted PropertiesBoosted ProofsSign.

(** What is needed of math.Exp: except at NaN it is not negative, and it is at most 1 up to 0 and at
    least 1 from there. *)
Definition decent_exp (E : Ext) : Prop :=
  (∀ x, valid x → x ≠ S754_nan → number (ext_exp E x)) ∧
  (∀ x, valid x → fleb x fzero = true → fleb (ext_exp E x) fone = true) ∧
  (∀ x, valid x → fleb fzero x = true → fleb fone (ext_exp E x) = true).

Lemma exp_number E x : decent_exp E → valid x → x ≠ S754_nan → number (ext_exp E (fneg x)).
Proof. intros (Hn & _) Hx Hnan. apply Hn; [by apply fneg_valid|by destruct x]. Qed.
Lemma logistic_facts E x : decent_exp E → valid x → x ≠ S754_nan → valid (logistic E x) ∧ in_unit (logistic E x).
Proof.
  intros He Hx Hnan. pose proof (exp_number E x He Hx Hnan) as Ne.
  split; [|by apply logistic_unit]. apply fdiv_valid; [done|]. apply fadd_valid; [done|apply Ne].
Qed.

(** *** C159.  Both probabilities lie in [0,1]; the class with the larger one is told by the sign of
    the sum of the scores. *)
Theorem C159_sign : ∀ E dd td h xv pa pb ts d e td' calls tk m m2 ss,
  boosted_classifier h xv pa pb fzero ts d → pa ≠ pb → decent_exp E → new_model E dd td d = (Ok e, td') →
  prepared E h m m2 → scores E dd (td ++ mm_lt h) ts m2 ss → Forall valid ss → added ss ≠ S754_nan →
  ∃ out p q, (evaluate E tk (after E calls e) (Some m)).1.1 = Ok (Some out) ∧
    out !! pa = Some (GF64 p) ∧ out !! pb = Some (GF64 q) ∧ in_unit p ∧ in_unit q ∧
    (fleb fzero (added ss) = true → fleb q p = true) ∧ (fleb (added ss) fzero = true → fleb p q = true).
Proof.
  intros E dd td h xv pa pb ts d e td' calls tk m m2 ss Hb Hab He Hn Hp Hs Hv Hnan.
  pose proof (added_valid ss Hv) as Va. destruct (logistic_facts E (added ss) He Va Hnan) as [Vl Ul].
  destruct (zero_left _ Vl) as (Vp & Hr & Hl & Hq).
  destruct (C156_classifier E dd td h xv pa pb fzero ts d e td' calls tk m m2 ss Hb Hn Hp Hs) as (p & Hpe & ->).
  eexists _, p, _. split; [done|]. split; [by rewrite lookup_insert_ne, lookup_singleton|]. split; [by rewrite lookup_insert|].
  assert (in_unit p) as Up by (rewrite Hpe; unfold in_unit; by rewrite Hr, Hl).
  rewrite <- Hpe in Vp. split; [done|]. split; [by apply rest_unit|].
  set (half := fdiv fone (fadd fone fone)).
  assert (in_unit half) as Uh by by vm_compute. assert (valid half) as Vh by by vm_compute.
  assert (fsub fone half = half) as Hh by by vm_compute.
  pose proof (exp_number E _ He Va Hnan) as Ne. assert (number fone) as N1 by (split; by vm_compute).
  destruct He as (_ & H1 & H2).
  split; intros Hsg.
  - assert (fleb half p = true) as Hle. { rewrite Hpe, Hr. apply logistic_mono; [done..|]. apply H1; [by apply fneg_valid|]. by destruct (added ss) as [[]|[]| |[] ? ?]. }
    pose proof (rest_anti half p Vh Vp Uh Up Hle) as Hle'. rewrite Hh in Hle'.
    eapply fleb_trans; [| |exact Vp|exact Hle'|exact Hle]; [by apply fsub_valid|done].
  - assert (fleb p half = true) as Hle. { rewrite Hpe, Hl. apply logistic_mono; [done..|]. apply H2; [by apply fneg_valid|]. by destruct (added ss) as [[]|[]| |[] ? ?]. }
    pose proof (rest_anti p half Vp Vh Up Uh Hle) as Hle'. rewrite Hh in Hle'.
    eapply fleb_trans; [exact Vp| | |exact Hle|exact Hle']; [done|by apply fsub_valid].
Qed.
Print Assumptions C159_sign.

(** Where every tree scores at least as high, the first probability is at least as large, and the
    second at most, if math.Exp never falls. *)
Theorem C159_ordered : ∀ E dd td h xv pa pb ts d e td' calls calls' tk tk' m m' m2 m2' ss ss',
  boosted_classifier h xv pa pb fzero ts d → pa ≠ pb → decent_exp E → monotone (ext_exp E) → new_model E dd td d = (Ok e, td') →
  prepared E h m m2 → scores E dd (td ++ mm_lt h) ts m2 ss → prepared E h m' m2' → scores E dd (td ++ mm_lt h) ts m2' ss' →
  Forall2 (λ x y, valid x ∧ valid y ∧ fleb x y = true) ss ss' →
  is_finite_SF (added ss) = true → is_finite_SF (added ss') = true →
  ∃ out out' p p' q q',
    (evaluate E tk (after E calls e) (Some m)).1.1 = Ok (Some out) ∧ (evaluate E tk' (after E calls' e) (Some m')).1.1 = Ok (Some out') ∧
    out !! pa = Some (GF64 p) ∧ out' !! pa = Some (GF64 p') ∧ out !! pb = Some (GF64 q) ∧ out' !! pb = Some (GF64 q') ∧
    fleb p p' = true ∧ fleb q' q = true.
Proof.
  intros E dd td h xv pa pb ts d e td' calls calls' tk tk' m m' m2 m2' ss ss' Hb Hab He Hm0 Hn Hp Hs Hp' Hs' Hle F F'.
  assert (Forall valid ss ∧ Forall valid ss') as [Hv Hv'].
  { clear -Hle. induction Hle as [|? ? ? ? (? & ? & _) _ []]; split; by constructor. }
  pose proof (added_valid ss Hv) as Va. pose proof (added_valid ss' Hv') as Va'.
  destruct (logistic_facts E (added ss) He Va) as [Vl Ul]; [by intros Hx; rewrite Hx in F|].
  destruct (logistic_facts E (added ss') He Va') as [Vl' Ul']; [by intros Hx; rewrite Hx in F'|].
  destruct (zero_left _ Vl) as (Vp & Hr & Hl & Hq). destruct (zero_left _ Vl') as (Vp' & Hr' & Hl' & Hq').
  destruct (C156_classifier E dd td h xv pa pb fzero ts d e td' calls tk m m2 ss Hb Hn Hp Hs) as (p & Hpe & ->).
  destruct (C156_classifier E dd td h xv pa pb fzero ts d e td' calls' tk' m' m2' ss' Hb Hn Hp' Hs') as (p' & Hpe' & ->).
  eexists _, _, p, p', _, _. split; [done|]. split; [done|].
  split; [by rewrite lookup_insert_ne, lookup_singleton|]. split; [by rewrite lookup_insert_ne, lookup_singleton|].
  split; [by rewrite lookup_insert|]. split; [by rewrite lookup_insert|].
  assert (fleb (added ss) (added ss') = true) as Hsum.
  { apply fle_R; [done..|]. apply sum_mono; done || apply Rle_refl. }
  pose proof (C81_logistic_monotone E (proj1 He) Hm0 _ _ Va Va' Hsum) as Hm.
  rewrite Hpe, Hpe', Hq, Hq'. split; [by rewrite Hr', Hl|]. by apply rest_anti.
Qed.
Print Assumptions C159_ordered.

(** The classifier of xgboost.xml: one row in which the scores add up to more than 0, and one in which no
    tree scores higher and they add up to less. *)
Definition low_row : row := {["b" := GF64 (fl "0.6"); "c" := GF64 (fl "0.8")]}.
Example C159_example :
  decent_exp step_ext ∧ monotone (ext_exp step_ext) ∧
  prepared step_ext xgb_header low_row low_row ∧
  scores step_ext xgb_dd [] xgb_trees low_row [fl "-0.3"; fl "-0.19702125"; fl "-0.15952669"] ∧
  scores step_ext xgb_dd [] xgb_trees xgb_row [fl "0.3"; fl "0.049608637"; fl "0.041443404"] ∧
  Forall2 (λ x y, valid x ∧ valid y ∧ fleb x y = true) [fl "-0.3"; fl "-0.19702125"; fl "-0.15952669"]
    [fl "0.3"; fl "0.049608637"; fl "0.041443404"] ∧
  fleb (added [fl "-0.3"; fl "-0.19702125"; fl "-0.15952669"]) fzero = true ∧
  fleb fzero (added [fl "0.3"; fl "0.049608637"; fl "0.041443404"]) = true.
Proof.
  split.
  { destruct C81_example as (H1 & _ & _). split; [done|]. by split; intros [[]|[]| |[] ? ?]. }
  split; [apply C81_example|]. split.
  { apply plain_prepared. split; [done|]. intros f Hf. repeat (apply elem_of_cons in Hf as [->|Hf]; [done|]). by apply elem_of_nil in Hf. }
  split; [|split; [|split; [|split; by vm_compute]]].
  3: { repeat constructor; by vm_compute. }
  all: repeat (apply Forall2_cons; split; [|]); [..|constructor].
  all: match goal with |- ∃ e, new_model _ _ _ ?d = _ ∧ _ => exists (built step_ext xgb_dd d) end; split; [apply built_ok; by vm_compute|].
  all: intros tk; apply eval_ok; split; by vm_compute.
Qed.
