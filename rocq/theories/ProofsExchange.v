From Verif Require Import Base Strconv Value Doc Expr Pred Tree Regression Model Lib ProofsDoc ProofsWhole ProofsSim
  SpecEquiv ProofsEquiv ProofsPrune ProofsLabels SpecExchange.

Lemma exchanged_stands_in E dd d1 d2 : exchanged (answers_for E dd) d1 d2 → stands_in E dd dd d1 d2.
Proof.
  revert d2. induction d1 as [t|m|k|h segs IH] using doc_rect'; intros d2 Hx;
    inversion Hx as [? ? H|?|h' segs1 segs2 Hs]; subst; try exact H; try apply stands_in_refl.
  apply mining_stands_in. clear -IH Hs. induction Hs as [|s1 s2 l1 l2 Hm _ IHl]; [constructor|].
  inversion IH as [|? ? Hs1 Hl1]; subst. constructor; [|by apply IHl]. clear -Hs1 Hm.
  induction Hm as [|a b la lb Hab _ IHm]; [constructor|]. inversion Hs1; subst. constructor; auto.
Qed.

Lemma answers_for_trans E dd d1 d2 d3 : answers_for E dd d1 d2 → answers_for E dd d2 d3 → answers_for E dd d1 d3.
Proof.
  intros H12 H23 td e1 td' H1. destruct (H12 _ _ _ H1) as (e2 & H2 & He2). destruct (H23 _ _ _ H2) as (e3 & H3 & He3).
  exists e3. split; [done|]. intros tk r. by rewrite He2.
Qed.

Lemma exchanges_answer E dd d1 d2 : rtc (exchanged (answers_for E dd)) d1 d2 → answers_for E dd d1 d2.
Proof.
  induction 1 as [d|d1 d2 d3 H _ IH]; [exact (stands_in_refl E dd d)|].
  exact (answers_for_trans E dd _ _ _ (exchanged_stands_in E dd _ _ H) IH).
Qed.

Lemma exchanged_map (R R' : doc_model → doc_model → Prop) (flip : bool) d1 d2 :
  (∀ a b, R a b → if flip then R' b a else R' a b) →
  exchanged R d1 d2 → if flip then exchanged R' d2 d1 else exchanged R' d1 d2.
Proof.
  intros HR. revert d2. induction d1 as [t|m|k|h segs IH] using doc_rect'; intros d2 Hx;
    inversion Hx as [? ? H|?|h' segs1 segs2 Hs]; subst;
    try (by apply HR in H; destruct flip; apply ex_here); try (by destruct flip; apply ex_keep).
  assert (if flip then Forall2 (λ s1 s2, Forall2 (exchanged R') (sg_models s1) (sg_models s2)) segs2 segs
    else Forall2 (λ s1 s2, Forall2 (exchanged R') (sg_models s1) (sg_models s2)) segs segs2) as H;
    [|by destruct flip; apply ex_members].
  clear -IH Hs. induction Hs as [|s1 s2 l1 l2 Hm _ IHl]; [by destruct flip|].
  inversion IH as [|? ? Hs1 Hl1]; subst. specialize (IHl Hl1).
  assert (if flip then Forall2 (exchanged R') (sg_models s2) (sg_models s1) else Forall2 (exchanged R') (sg_models s1) (sg_models s2)) as Hm';
    [|by destruct flip; constructor].
  clear -Hs1 Hm. induction Hm as [|a b la lb Hab _ IHm]; [by destruct flip|]. inversion Hs1 as [|? ? Ha Hla]; subst.
  specialize (IHm Hla). apply Ha in Hab. by destruct flip; constructor.
Qed.
