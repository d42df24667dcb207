(** Exported boosted trees and forests (C156). *)
From Verif Require Import Base Strconv Value Doc Expr Pred Tree Regression Model Api Lib ProofsDoc ProofsWhole ProofsSim
  ProofsRange SpecModel ProofsMining PropertiesModel SpecBoosted.

Lemma plain_prepared E h m : plain_header h → prepared E h m m.
Proof.
  intros [Hlt Hs]. exists m. rewrite Hlt. split; [|done]. intros k. split; [|done].
  intros s (l1 & f & l2 & Hl & _ & Hf & _) _. rewrite (Hs f) in Hf; [done|]. rewrite Hl. apply elem_of_app. right. left.
Qed.

Lemma predictions_models E dd td segs ts m os : holds_trees segs ts → predictions E dd td ts m os →
  ∃ es, segment_models E dd td segs es ∧ length es = length segs ∧ length os = length segs ∧
    ∀ tks, length tks = length segs → seg_outputs E tks es m (Some <$> os) m.
Proof.
  intros Hs Ho. revert os Ho. induction Hs as [|s t segs ts Hs _ IH]; intros os Ho.
  - inversion Ho; subst. exists []. split; [constructor|]. split; [done|]. split; [done|]. intros [|] ?; [constructor|done].
  - inversion Ho as [|? o ? os' (e & He & Hev) Ho']; subst. destruct (IH os' Ho') as (es & Hes & Hl & Hlo & Hout).
    exists (e :: es). split; [by econstructor|]. split; [cbn; congruence|]. split; [cbn; congruence|].
    intros [|tk tks] Htks; [done|]. rewrite fmap_cons. econstructor; [apply Hev|]. apply Hout. cbn in Htks. congruence.
Qed.
Lemma scores_predictions E dd td ts m ss : scores E dd td ts m ss →
  predictions E dd td ts m ((λ s, {["score" := GF64 s]}) <$> ss).
Proof. intros H. unfold predictions. apply Forall2_fmap_r. exact H. Qed.

Lemma score_contributions E h k (ss : list f64) : mm_function h ≠ "classification" →
  contributions E h k (Some <$> ((λ s, {["score" := GF64 s]} : row) <$> ss)) = ss.
Proof.
  intros Hf. unfold contributions. rewrite decide_False by done. induction ss as [|s ss IH]; [done|].
  rewrite !fmap_cons. cbn [omap list_omap]. cbn [dr_get]. rewrite lookup_singleton. cbn. f_equal. exact IH.
Qed.

Lemma seg_tickets_length tk i n : length (seg_tickets tk i n) = n.
Proof. unfold seg_tickets. by rewrite map_length, seq_length. Qed.

Lemma sum_of_trees E dd td h segs ts m m2 ss e td' calls tk :
  new_model E dd td (DMining h segs) = (Ok e, td') → mm_method h = "sum" ∨ mm_method h = "" → mm_function h ≠ "classification" →
  prepared E h m m2 → holds_trees segs ts → scores E dd (td ++ mm_lt h) ts m2 ss →
  ∃ out, (evaluate E tk (after E calls e) (Some m)).1 = (Ok (Some out), Some m2) ∧
    ∀ k, out !! k = if decide (k ∈ header_output_names h)
      then Some (GF64 (foldl (λ x t, rescale t x) (added ss) (filter (λ t, tg_field t = k) (mm_targets h)))) else None.
Proof.
  intros Hn Hm Hf Hp Ht Hs. apply scores_predictions in Hs.
  destruct (predictions_models _ _ _ _ _ _ _ Ht Hs) as (es & Hes & _ & _ & Hout).
  destruct (C48_sum E dd td h segs e td' calls tk m m2 es _ m2 Hn Hm Hp Hes (Hout _ (seg_tickets_length _ _ _))) as (out & He & Ho).
  exists out. split; [done|]. intros k. rewrite Ho. unfold sum_total. by rewrite score_contributions.
Qed.

Lemma logistic_row E rm xv pa pb i c n j ca cb oa ob m x :
  rm_function rm = "classification" → rm_norm rm = "logit" →
  rm_tables rm = [RegrTable i ca [Predictor xv c n]; RegrTable j cb []] →
  rm_output rm = [oa; ob] ∨ rm_output rm = [ob; oa] →
  of_value oa = ca → of_value ob = cb → ca ≠ cb → of_name oa = pa → of_name ob = pb →
  m !! xv = Some (GF64 x) →
  regr_evaluate E rm (Some m) =
    Ok (Some (<[pb := GF64 (fsub fone (fadd i (logistic E x)))]> {[pa := GF64 (fadd i (logistic E x))]})).
Proof.
  intros Hf Hnorm Ht Ho Ha Hb Hab Hpa Hpb Hx. unfold regr_evaluate. rewrite Hf.
  assert (length (rm_output rm) = 2%nat) as -> by (by destruct Ho as [-> | ->]). simpl.
  unfold eval_binary. rewrite Ht. cbn [binary_tables rt_predictors length rt_intercept rt_category]. simpl Nat.ltb. cbv iota.
  cbn [binary_form np_name dr_get]. rewrite Hx, Hnorm. cbn [rbind binary_form normalize]. simpl (normalize E "logit" _). cbn [rbind].
  assert ((ca =s cb) = false) as H1 by (by apply String.eqb_neq). assert ((cb =s ca) = false) as H2 by (apply String.eqb_neq; congruence).
  destruct Ho as [-> | ->]; cbn [foldl]; rewrite Ha, Hb, !String.eqb_refl, ?H1, ?H2, Hpa, Hpb; done.
Qed.

Lemma boosted_run E dd td h1 xv pa pb i ts d e td' calls tk m m2 ss :
  boosted_classifier h1 xv pa pb i ts d → new_model E dd td d = (Ok e, td') →
  prepared E h1 m m2 → scores E dd (td ++ mm_lt h1) ts m2 ss →
  (evaluate E tk (after E calls e) (Some m)).1 =
    (Ok (Some (<[pb := GF64 (fsub fone (fadd i (logistic E (added ss))))]> {[pa := GF64 (fadd i (logistic E (added ss)))]})),
     Some (<[xv := GF64 (added ss)]> m2)).
Proof.
  intros Hd Hn Hp Hs. destruct Hd as [h2 s1 s2 segs rm c n j ca cb oa ob Hch Hs1 Hs2 Hpl Hm Hfn Hout Htg Hts Hrf Hrn Hrt Hro Ha Hb Hab Hpa Hpb].
  destruct (mining_parts E dd td h1 [s1; s2] e td' Hn) as (es & He & Hes & Hl).
  inversion Hes as [|? ? ? d1 e1 es1 td1 Hd1 Hn1 Hes1]; subst. rewrite Hs1 in Hd1. injection Hd1 as <-.
  inversion Hes1 as [|? ? ? d2 e2 es2 td2 Hd2 Hn2 Hes2]; subst. rewrite Hs2 in Hd2. injection Hd2 as <-.
  inversion Hes2; subst. cbn [new_model] in Hn2. injection Hn2 as <- <-.
  assert (td ++ mm_lt h1 = (td ++ mm_lt h1) ++ mm_lt h2) as Htd by (destruct Hpl as [-> _]; by rewrite app_nil_r).
  eapply (C47_chain E dd td h1 [s1; s2] _ td' calls tk m m2 _ _ _ Hn Hch Hp Hes).
  destruct (sum_of_trees E dd (td ++ mm_lt h1) h2 segs ts m2 m2 ss e1 td1 [] (5 :: 0 :: tk) Hn1 Hm) as (out & Hev & Hlook);
    [by rewrite Hfn|by apply plain_prepared|done|by rewrite <- Htd|]. cbn [after foldl] in Hev.
  assert (out = {[xv := GF64 (added ss)]}) as ->.
  { apply map_eq. intros k. rewrite Hlook. unfold header_output_names. rewrite Hout, Htg. cbn [map app filter list_filter foldl].
    destruct (decide (k = xv)) as [->|Hk].
    - rewrite decide_True by (by left). by rewrite lookup_singleton.
    - rewrite decide_False by (by rewrite elem_of_list_singleton). by rewrite lookup_singleton_ne. }
  cbn [seg_tickets length seq map]. eapply co_cons; [|exact Hev|].
  - intros k. cbn [dr_get]. by rewrite lookup_empty.
  - eapply (co_cons _ _ _ _ _ _ _ (<[xv := GF64 (added ss)]> m2)); [| |constructor].
    + intros k. cbn [dr_get]. destruct (decide (k = xv)) as [->|Hk]; [by rewrite lookup_insert, lookup_singleton|].
      by rewrite lookup_insert_ne, lookup_singleton_ne.
    + cbn [evaluate]. erewrite logistic_row; [done|done..|by rewrite lookup_insert].
Qed.
