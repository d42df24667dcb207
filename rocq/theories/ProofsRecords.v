(** Record counts enter predictions only through their proportions. *)
From Coq Require Import Reals Lra.
From Flocq Require Import Core.Core IEEE754.BinarySingleNaN.
From stdpp Require Import pmap.
From Verif Require Import Base Strconv Value Doc Expr Pred Tree Regression Model Lib FloatLib SpecPred ProofsPred
  SpecTree ProofsTree ProofsOutput ProofsEval ProofsDoc ProofsWhole ProofsSim
  SpecEssence ProofsEssence SpecEquiv ProofsEquiv RealLib AccLib ForestLib SpecRecords.
Local Open Scope R_scope.

(** ** The keys of a map are visited in an order that its values do not change *)
Lemma Pto_list_keys {A B} (f : A → B) (t : Pmap_raw A) : ∀ j acc acc', acc.*1 = acc'.*1 →
  (Pto_list_raw j t acc).*1 = (Pto_list_raw j (Pfmap_raw f t) acc').*1.
Proof.
  induction t as [|[x|] l IHl r IHr]; intros j acc acc' H; cbn [Pfmap_raw Pto_list_raw]; [done|..].
  - simpl. f_equal. apply IHl, IHr, H.
  - simpl. apply IHl, IHr, H.
Qed.
Lemma omap_keys {A B} (d : positive → option string) (l : list (positive * A)) (l' : list (positive * B)) : l.*1 = l'.*1 →
  (omap (λ '(i, x), (., x) <$> d i) l).*1 = (omap (λ '(i, x), (., x) <$> d i) l').*1.
Proof.
  revert l'. induction l as [|[i x] l IH]; intros [|[j y] l'] H; try done. injection H as -> H. simpl.
  destruct (d j); simpl; [|by apply IH]. f_equal. by apply IH.
Qed.
Lemma map_to_list_keys {A B} (f : A → B) (m : gmap string A) : (map_to_list (f <$> m)).*1 = (map_to_list m).*1.
Proof.
  destruct m as [[t Ht] Hm]. apply (omap_keys decode). symmetry. by apply Pto_list_keys.
Qed.
Lemma same_keys {A B} (m1 : gmap string A) (m2 : gmap string B) :
  (∀ i, is_Some (m1 !! i) ↔ is_Some (m2 !! i)) → (map_to_list m1).*1 = (map_to_list m2).*1.
Proof.
  intros H. rewrite <- (map_to_list_keys (λ _, ()) m1), <- (map_to_list_keys (λ _, ()) m2). do 2 f_equal.
  apply map_eq. intros i. rewrite !lookup_fmap. specialize (H i). destruct (m1 !! i), (m2 !! i); try done; destruct H as [H1 H2].
  - by destruct (H1 ltac:(by eexists)).
  - by destruct (H2 ltac:(by eexists)).
Qed.
Definition mrel {A B} (P : A → B → Prop) (m1 : gmap string A) (m2 : gmap string B) : Prop :=
  ∀ i, option_Forall2 P (m1 !! i) (m2 !! i).
Lemma map_range_rel {A B} (P : A → B → Prop) E t (m1 : gmap string A) (m2 : gmap string B) : mrel P m1 m2 →
  Forall2 (λ a b, a.1 = b.1 ∧ P a.2 b.2) (map_range E t m1) (map_range E t m2).
Proof.
  intros H. unfold map_range. rewrite (same_keys m1 m2).
  - induction (ext_order E t (map_to_list m2).*1) as [|k l IH]; [constructor|]. simpl.
    destruct (H k); simpl; [|done]. by constructor.
  - intros i. destruct (H i); split; intros []; eauto; done.
Qed.
Lemma mrel_empty {A B} (P : A → B → Prop) : mrel P ∅ ∅.
Proof. intros i. rewrite !lookup_empty. constructor. Qed.
Lemma mrel_insert {A B} (P : A → B → Prop) k a b (m1 : gmap string A) (m2 : gmap string B) :
  P a b → mrel P m1 m2 → mrel P (<[k := a]> m1) (<[k := b]> m2).
Proof.
  intros Hp H i. destruct (decide (k = i)) as [->|Hne]; [rewrite !lookup_insert; by constructor|].
  rewrite !lookup_insert_ne by done. apply H.
Qed.
Lemma mrel_default {A B} (P : A → B → Prop) a b k (m1 : gmap string A) (m2 : gmap string B) :
  P a b → mrel P m1 m2 → P (default a (m1 !! k)) (default b (m2 !! k)).
Proof. intros Hp H. by destruct (H k). Qed.

(** ** Whole numbers, and k times as many *)
Lemma of_Z_inj_R (x : f64) z : (0 <= z <= 2 ^ 53)%Z → whole x z → x ≠ S754_zero true → x = f64_of_Z z.
Proof.
  intros Hz (Vx & Fx & Rx & _) Hx. destruct (whole_of_Z z Hz) as (Vz & Fz & Rz & _).
  assert (f64_of_Z z ≠ S754_zero true) as Hz'.
  { destruct z as [|p|p]; [done| |lia]. intros Hb. rewrite Hb in Rz. change (0 = IZR (Z.pos p)) in Rz.
    assert (0 < IZR (Z.pos p)) by by apply IZR_lt. lra. }
  revert Fx Rx Hx Fz Rz Hz'. destruct (valid_b _ Vx) as [a ->], (valid_b _ Vz) as [b ->].
  rewrite !is_finite_SF_B2SF, !SF2R_B2SF. intros Fa Ra Ha Fb Rb Hb. f_equal.
  apply same_float; [done..|congruence|].
  assert (∀ c : b64, is_finite c = true → B2R c = IZR z → B2SF c ≠ S754_zero true → Bsign c = false) as Hs.
  { intros [[]|?| |[] m e He]; simpl; try done. intros _ Hr _.
    assert (0 <= IZR z) by (apply IZR_le; lia).
    pose proof (F2R_lt_0 radix2 (Float radix2 (- Z.pos m) e) eq_refl) as Hn. rewrite Hr in Hn. lra. }
  by rewrite (Hs a), (Hs b).
Qed.
Lemma of_Z_add a b : (0 <= a)%Z → (0 <= b)%Z → (a + b <= 2 ^ 53)%Z → fadd (f64_of_Z a) (f64_of_Z b) = f64_of_Z (a + b).
Proof.
  intros Ha Hb Hab. apply of_Z_inj_R; [lia|apply whole_add; [apply whole_of_Z; lia..|done]|].
  apply fadd_not_minus_zero; [apply of_Z_valid..|]. destruct a as [|p|p]; [done| |lia].
  intros H. destruct (whole_of_Z (Z.pos p)) as (_ & _ & R & _); [lia|]. rewrite H in R.
  assert (0 < IZR (Z.pos p)) by by apply IZR_lt. change (0 = IZR (Z.pos p)) in R. lra.
Qed.
Lemma of_Z_pos z : (0 < z <= 2 ^ 53)%Z → ∃ m e, f64_of_Z z = S754_finite false m e.
Proof.
  intros Hz. destruct (whole_of_Z z ltac:(lia)) as (V & F & R & _). assert (0 < IZR z) by (apply IZR_lt; lia).
  destruct (f64_of_Z z) as [s|s| |[] m e]; try done; [simpl in R; lra| |eauto].
  exfalso. assert (R64 (S754_finite true m e) < 0) as Hn by (apply F2R_lt_0; simpl; lia). lra.
Qed.
Lemma of_Z_div k a b : (1 <= k)%Z → (0 <= a)%Z → (0 <= b)%Z → (k * a <= 2 ^ 53)%Z → (k * b <= 2 ^ 53)%Z →
  fdiv (f64_of_Z a) (f64_of_Z b) = fdiv (f64_of_Z (k * a)) (f64_of_Z (k * b)).
Proof.
  intros Hk Ha Hb Hka Hkb. destruct (decide (b = 0%Z)) as [->|Hb0].
  { rewrite Z.mul_0_r. destruct (decide (a = 0%Z)) as [->|Ha0]; [by rewrite Z.mul_0_r|].
    destruct (of_Z_pos a) as (m & e & ->); [nia|]. destruct (of_Z_pos (k * a)) as (m' & e' & ->); [nia|]. done. }
  destruct (decide (a = 0%Z)) as [->|Ha0].
  { rewrite Z.mul_0_r. destruct (of_Z_pos b) as (m & e & ->); [nia|]. destruct (of_Z_pos (k * b)) as (m' & e' & ->); [nia|]. done. }
  assert (∀ x y : Z, (0 < x <= 2 ^ 53)%Z → (0 < y <= 2 ^ 53)%Z →
    valid (fdiv (f64_of_Z x) (f64_of_Z y)) ∧ fin (fdiv (f64_of_Z x) (f64_of_Z y)) ∧
    R64 (fdiv (f64_of_Z x) (f64_of_Z y)) = round64 (IZR x / IZR y) ∧
    ∀ c : b64, B2SF c = fdiv (f64_of_Z x) (f64_of_Z y) → Bsign c = false) as H.
  { intros x y Hx Hy. split; [apply fdiv_valid; apply of_Z_valid|].
    destruct (whole_of_Z x ltac:(lia)) as (Vx & Fx & Rx & _), (whole_of_Z y ltac:(lia)) as (Vy & Fy & Ry & _).
    destruct (of_Z_pos x Hx) as (mx & ex & Hmx), (of_Z_pos y Hy) as (my & ey & Hmy).
    assert (1 <= IZR x) by (apply IZR_le; lia). assert (IZR x <= IZR (2 ^ 53)) by (apply IZR_le; lia).
    assert (1 <= IZR y) by (apply IZR_le; lia).
    assert (0 <= IZR x / IZR y <= IZR (2 ^ 53)) as Hq.
    { split; [apply Rmult_le_pos; [lra|apply Rlt_le, Rinv_0_lt_compat; lra]|].
      apply (Rmult_le_reg_r (IZR y)); [lra|]. unfold Rdiv. rewrite Rmult_assoc, Rinv_l by lra. nra. }
    revert Fx Rx Fy Ry Hmx Hmy. destruct (valid_b _ Vx) as [bx ->], (valid_b _ Vy) as [by' ->].
    rewrite fdiv_B, !is_finite_SF_B2SF, !SF2R_B2SF. intros Fx Rx Fy Ry Hmx Hmy.
    pose proof (Bdiv_correct 53 1024 prec53 emax1024 mode_NE bx by') as HD. rewrite Rx, Ry in HD.
    pose proof (round_between (IZR x / IZR y) 0 (2 ^ 53) ltac:(lia) ltac:(lia) Hq) as Hr.
    rewrite Rlt_bool_true in HD by by apply below_overflow.
    destruct HD as (HR & HF & HS); [lra|]. rewrite HF. split; [done|]. split; [done|].
    intros c Hc. apply B2SF_inj in Hc as ->. rewrite HS.
    - destruct bx as [| | |sx ? ? ?], by' as [| | |sy ? ? ?]; try done. simpl in *. by injection Hmx as -> _ _; injection Hmy as -> _ _.
    - destruct (Bdiv mode_NE bx by'); done || (by rewrite Fx in HF). }
  destruct (H a b ltac:(nia) ltac:(nia)) as (V1 & F1 & R1 & S1).
  destruct (H (k * a)%Z (k * b)%Z ltac:(nia) ltac:(nia)) as (V2 & F2 & R2 & S2).
  assert (IZR (k * a) / IZR (k * b) = IZR a / IZR b) as Hq.
  { rewrite !mult_IZR. assert (1 <= IZR k) by (apply IZR_le; lia). assert (1 <= IZR b) by (apply IZR_le; lia). field. lra. }
  rewrite Hq, <- R1 in R2. clear H Hq R1.
  destruct (valid_b _ V1) as [u Hu], (valid_b _ V2) as [w Hw]. rewrite Hu, Hw in *.
  rewrite !is_finite_SF_B2SF, !SF2R_B2SF in *. f_equal. apply same_float; [done..| |].
  - by rewrite R2.
  - by rewrite (S1 u), (S2 w).
Qed.

Lemma times_zero k : times k fzero fzero.
Proof. exists 0%Z. by rewrite Z.mul_0_r. Qed.
Lemma times_R k x y : (1 <= k)%Z → times k x y → 0 <= R64 x.
Proof.
  intros Hk (z & Hz & -> & _). destruct (whole_of_Z z) as (_ & _ & -> & _); [nia|]. apply IZR_le. lia.
Qed.
Lemma times_add k x x' y y' : (1 <= k)%Z → times k x x' → times k y y' → IZR k * (R64 x + R64 y) <= IZR (2 ^ 53) →
  times k (fadd x y) (fadd x' y') ∧ R64 (fadd x y) = R64 x + R64 y.
Proof.
  intros Hk (a & Ha & -> & ->) (b & Hb & -> & ->).
  destruct (whole_of_Z a) as (_ & _ & -> & _); [nia|]. destruct (whole_of_Z b) as (_ & _ & -> & _); [nia|].
  rewrite <- plus_IZR, <- mult_IZR. intros Hle%le_IZR. rewrite of_Z_add by nia. rewrite of_Z_add by nia. split.
  - exists (a + b)%Z. split; [lia|]. split; [done|]. f_equal. lia.
  - destruct (whole_of_Z (a + b)) as (_ & _ & -> & _); [nia|done].
Qed.
Lemma times_div k x x' y y' : (1 <= k)%Z → times k x x' → times k y y' → fdiv x y = fdiv x' y'.
Proof. intros Hk (a & Ha & -> & ->) (b & Hb & -> & ->). apply of_Z_div; lia. Qed.

Lemma rsum_nonneg l : Forall (Rle 0) l → 0 <= rsum l.
Proof. unfold rsum. induction 1; simpl; lra. Qed.
Lemma rsum_app' a b : rsum (a ++ b) = rsum a + rsum b.
Proof. unfold rsum. induction a as [|x a IH]; cbn [app foldr]; [lra|rewrite IH; lra]. Qed.

Lemma times_sum k l l' : (1 <= k)%Z → Forall2 (times k) l l' → ∀ a a', times k a a' →
  IZR k * (R64 a + real_sum l) <= IZR (2 ^ 53) →
  times k (foldl fadd a l) (foldl fadd a' l') ∧ R64 (foldl fadd a l) = R64 a + real_sum l.
Proof.
  intros Hk Hl. assert (∀ l l', Forall2 (times k) l l' → 0 <= real_sum l) as Hpos.
  { clear -Hk. intros l l' H. apply rsum_nonneg. induction H; constructor; [by eapply times_R|done]. }
  assert (1 <= IZR k) as Hk' by by apply IZR_le.
  induction Hl as [|x x' l l' Hx Hl IH]; intros a a' Ha Hle.
  { cbn. split; [done|]. unfold real_sum, rsum. cbn. lra. }
  cbn [foldl]. specialize (Hpos l l' Hl). unfold real_sum, rsum in Hle, Hpos |- *. cbn [map foldr] in *.
  fold (rsum (map (λ x, R64 x) l)) in *. fold (real_sum l) in *.
  pose proof (times_R k a a' Hk Ha). pose proof (times_R k x x' Hk Hx).
  destruct (times_add k a a' x x' Hk Ha Hx) as [H1 H2]; [nra|].
  destruct (IH _ _ H1) as [H3 H4]; [rewrite H2; nra|]. split; [done|]. rewrite H4, H2. lra.
Qed.

(** ** Scores *)

(** the same answer, and k times as many records *)
Definition alike (a b : score) : Prop := sc_value a = sc_value b ∧ sc_conf a = sc_conf b ∧ sc_prob a = sc_prob b.
Definition scaled (k : Z) (a b : score) : Prop := alike a b ∧ times k (sc_count a) (sc_count b).
Definition scores_records (l : list score) : R := rsum (map (λ s, R64 (sc_count s)) l).

Inductive scaled_node (k : Z) : node → node → Prop :=
| scn id dc cs1 cs2 ds1 ds2 t s1 s2 :
    Forall2 (scaled_node k) cs1 cs2 → Forall2 (scaled k) ds1 ds2 → scaled k s1 s2 →
    scaled_node k (Node id dc cs1 ds1 t s1) (Node id dc cs2 ds2 t s2).
Fixpoint node_records (n : node) : R :=
  match n with
  | Node _ _ cs ds _ s => R64 (sc_count s) + scores_records ds + rsum (map node_records cs)
  end.

Lemma scaled_alike k l1 l2 : Forall2 (scaled k) l1 l2 → Forall2 alike l1 l2.
Proof. intros H. eapply Forall2_impl; [exact H|]. by intros a b []. Qed.
Lemma scores_records_pos k l1 l2 : (1 <= k)%Z → Forall2 (scaled k) l1 l2 → 0 <= scores_records l1.
Proof.
  intros Hk H. apply rsum_nonneg. induction H as [|a b l1 l2 [_ Ha] _ IH]; constructor; [by eapply times_R|done].
Qed.
Lemma node_records_pos k n1 : (1 <= k)%Z → ∀ n2, scaled_node k n1 n2 → 0 <= node_records n1.
Proof.
  intros Hk. induction n1 as [id dc cs1 ds1 t s1 IH] using node_rect'. intros n2 Hn.
  inversion Hn as [? ? ? cs2 ? ds2 ? ? s2 Hcs Hds Hs]; subst. cbn [node_records].
  pose proof (times_R k _ _ Hk (proj2 Hs)). pose proof (scores_records_pos k _ _ Hk Hds).
  assert (0 <= rsum (map node_records cs1)); [|lra]. apply rsum_nonneg. clear -IH Hcs.
  induction Hcs as [|a b l1 l2 Hab _ IHl]; constructor; apply Forall_cons in IH as [? ?]; [eauto|auto].
Qed.

(** what is related to [Ok] and [Ok] *)
Definition both {A B} (R : A → B → Prop) (x : res A) (y : res B) : Prop :=
  match x, y with
  | Ok a, Ok b => R a b
  | Err a, Err b => a = b
  | Panic a, Panic b => a = b
  | _, _ => False
  end.
Definition answers (P : list score → list score → Prop) (x y : list score * presult) : Prop :=
  P x.1 y.1 ∧ x.2 = y.2.
Notation alike_answers := (answers (Forall2 alike)).

Lemma both_bind {A B C D} (R : A → B → Prop) (S : C → D → Prop) x y (f : A → res C) (g : B → res D) :
  both R x y → (∀ a b, R a b → both S (f a) (g b)) → both S (rbind x f) (rbind y g).
Proof. destruct x, y; simpl; try done; [auto|by intros -> _..]. Qed.
Lemma both_rmap {A B C D} (R : C → D → Prop) (f : A → res C) (g : B → res D) l1 l2 :
  Forall2 (λ a b, both R (f a) (g b)) l1 l2 → both (Forall2 R) (rmap f l1) (rmap g l2).
Proof.
  induction 1 as [|a b l1 l2 Hab _ IH]; cbn [rmap]; [constructor|].
  eapply both_bind; [exact Hab|]. intros c d Hcd. eapply both_bind; [exact IH|]. intros cs ds Hcs. by constructor.
Qed.
Lemma both_rmapi {A B C D} (R : C → D → Prop) (f : nat → A → res C) (g : nat → B → res D) l1 l2 i :
  Forall2 (λ a b, ∀ i, both R (f i a) (g i b)) l1 l2 → both (Forall2 R) (rmapi f i l1) (rmapi g i l2).
Proof.
  intros H. revert i. induction H as [|a b l1 l2 Hab _ IH]; intros i; cbn [rmapi]; [constructor|].
  eapply both_bind; [apply Hab|]. intros c d Hcd. eapply both_bind; [apply IH|]. intros cs ds Hcs. by constructor.
Qed.
Lemma both_first_true {A B} P (f : A → res _) (g : B → res _) d1 d2 l1 l2 : answers P d1 d2 →
  Forall2 (λ a b, both (answers P) (f a) (g b)) l1 l2 → both (answers P) (first_true f d1 l1) (first_true g d2 l2).
Proof.
  intros Hd. induction 1 as [|a b l1 l2 Hab _ IH]; simpl; [done|]. eapply both_bind; [exact Hab|].
  intros [s v] [s' v'] [Hs Hv]. simpl in Hs, Hv. subst v'. by destruct v.
Qed.
Lemma both_first_known {A B} P (f : A → res _) (g : B → res _) d1 d2 l1 l2 : answers P d1 d2 → P [] [] →
  Forall2 (λ a b, both (answers P) (f a) (g b)) l1 l2 → both (answers P) (first_known f d1 l1) (first_known g d2 l2).
Proof.
  intros Hd H0. induction 1 as [|a b l1 l2 Hab _ IH]; simpl; [done|]. eapply both_bind; [exact Hab|].
  intros [s v] [s' v'] [Hs Hv]. simpl in Hs, Hv. subst v'. by destruct v.
Qed.
Lemma scan_related (P : list score → list score → Prop) rs1 rs2 : Forall2 (answers P) rs1 rs2 → ∀ a1 a2, a1.1 = a2.1 → P a1.2 a2.2 →
  (foldl scan_step a1 rs1).1 = (foldl scan_step a2 rs2).1 ∧ P (foldl scan_step a1 rs1).2 (foldl scan_step a2 rs2).2.
Proof.
  induction 1 as [|[s v] [s' v'] l1 l2 [Hs Hv] _ IH]; intros [u t] [u' t'] H1 H2; [done|]. simpl in *. subst v' u'.
  apply IH; by destruct v.
Qed.

Section scaled.
  Context (E : Ext) (cx : tctx) (r : datarow) (k : Z) (Hk : (1 <= k)%Z).

  Lemma output_dist_scaled n1 n2 : scaled_node k n1 n2 → Forall2 (scaled k) (output_dist cx n1) (output_dist cx n2).
  Proof.
    intros [id dc cs1 cs2 ds1 ds2 t s1 s2 Hcs Hds Hs]. rewrite !output_dist_values.
    rewrite <- (Forall2_length _ _ _ Hcs), <- (Forall2_length _ _ _ Hds). destruct (_ && _); [constructor|].
    destruct (Nat.ltb _ _); [done|]. destruct (negb _); [|by constructor].
    destruct Hs as [(Hv & Hc & Hp) Ht]. rewrite <- Hv. induction (target_values _ _) as [|v l IH]; [constructor|].
    rewrite !fmap_cons. constructor; [|done]. destruct (v =s _); [by split|]. split; [done|]. apply times_zero.
  Qed.

  Ltac start n1 n2 :=
    let id := fresh "id" in
    induction n1 as [id dc cs1 ds1 t s1 IH] using node_rect'; intros n2 Hn; pose proof (output_dist_scaled _ _ Hn) as Hout;
    inversion Hn as [? ? ? cs2 ? ds2 ? ? s2 Hcs Hds Hs]; subst.
  Lemma children_both {A B} (R : A → B → Prop) (f : node → res A) (g : node → res B) cs1 cs2 :
    Forall (λ c1, ∀ c2, scaled_node k c1 c2 → both R (f c1) (g c2)) cs1 → Forall2 (scaled_node k) cs1 cs2 →
    Forall2 (λ a b, both R (f a) (g b)) cs1 cs2.
  Proof.
    intros H1 H2. induction H2 as [|a b l1 l2 Hab _ IH]; [constructor|]. apply Forall_cons in H1 as [? ?].
    constructor; auto.
  Qed.

  Lemma eval_none_scaled n1 : ∀ n2, scaled_node k n1 n2 → both alike_answers (eval_none E cx r n1) (eval_none E cx r n2).
  Proof.
    start n1 n2. cbn [eval_none]. destruct (run_test _ _ _ _) as [[]| |]; simpl; try done; try (split; [constructor|done]).
    apply both_first_true; [split; [by eapply scaled_alike|done]|]. by apply children_both.
  Qed.
  Lemma eval_null_scaled n1 : ∀ n2, scaled_node k n1 n2 → both alike_answers (eval_null E cx r n1) (eval_null E cx r n2).
  Proof.
    start n1 n2. cbn [eval_null]. destruct (run_test _ _ _ _) as [[]| |]; simpl; try done; try (split; [constructor|done]).
    apply both_first_known; [split; [by eapply scaled_alike|done]|constructor|]. by apply children_both.
  Qed.
  Lemma eval_last_scaled n1 : ∀ n2, scaled_node k n1 n2 → both alike_answers (eval_last E cx r n1) (eval_last E cx r n2).
  Proof.
    start n1 n2. cbn [eval_last]. destruct (run_test _ _ _ _) as [v| |]; try done. cbn [rbind].
    assert (both alike_answers
      (rs <-! rmap (eval_last E cx r) cs1;
       let '(unknown, true_dist) := foldl scan_step (false, []) rs in
       if negb unknown && negb (Nat.eqb (length true_dist) 0) then Ok (true_dist, RT)
       else Ok (output_dist cx (Node id dc cs1 ds1 t s1), v))
      (rs <-! rmap (eval_last E cx r) cs2;
       let '(unknown, true_dist) := foldl scan_step (false, []) rs in
       if negb unknown && negb (Nat.eqb (length true_dist) 0) then Ok (true_dist, RT)
       else Ok (output_dist cx (Node id dc cs2 ds2 t s2), v))) as H;
      [|destruct v; [exact H|exact H|split; [constructor|done]]].
    eapply both_bind; [apply both_rmap, children_both; [exact IH|done]|]. intros rs1 rs2 Hrs.
    destruct (scan_related (Forall2 alike) rs1 rs2 Hrs (false, []) (false, []) eq_refl ltac:(constructor)) as [H1 H2].
    destruct (foldl _ _ rs1) as [u d1], (foldl _ _ rs2) as [u' d2]. simpl in H1, H2. subst u'.
    rewrite <- (Forall2_length _ _ _ H2). destruct (_ && _); [by split|]. split; [by eapply scaled_alike|done].
  Qed.
  Lemma eval_default_scaled n1 : ∀ n2, scaled_node k n1 n2 →
    both alike_answers (eval_default E cx r n1) (eval_default E cx r n2).
  Proof.
    start n1 n2. cbn [eval_default]. destruct (run_test _ _ _ _) as [v| |]; try done. cbn [rbind].
    match goal with |- both _ (match v with RT => ?x | _ => _ end) (match v with RT => ?y | _ => _ end) =>
      assert (both alike_answers x y) as H; [|destruct v; [exact H|exact H|split; [constructor|done]]] end.
    eapply both_bind; [apply both_rmap, children_both; [exact IH|done]|]. intros rs1 rs2 Hrs.
    assert (mrel (Forall2 alike) (foldl (λ m '(c, x), <[n_id c := x.1]> m) ∅ (zip cs1 rs1))
      (foldl (λ m '(c, x), <[n_id c := x.1]> m) ∅ (zip cs2 rs2))) as Hm.
    { generalize (mrel_empty (Forall2 alike)). generalize (∅ : gmap string (list score)) at 1 3 as m1.
      generalize (∅ : gmap string (list score)) as m2. clear -Hcs Hrs. revert rs1 rs2 Hrs.
      induction Hcs as [|a b l1 l2 Hab _ IH]; intros rs1 rs2 Hrs m2 m1 Hm; [done|].
      destruct Hrs as [|x y rs1 rs2 [Hx _] Hrs]; [done|]. cbn [zip zip_with foldl]. apply IH; [done|].
      destruct Hab. cbn [n_id]. by apply mrel_insert. }
    destruct (scan_related (Forall2 alike) rs1 rs2 Hrs (false, []) (false, []) eq_refl ltac:(constructor)) as [H1 H2].
    destruct (foldl scan_step _ rs1) as [u d1], (foldl scan_step _ rs2) as [u' d2]. simpl in H1, H2. subst u'.
    rewrite <- (Forall2_length _ _ _ H2). destruct (_ && _); [by split|]. destruct u; [|split; [by eapply scaled_alike|done]].
    destruct (Hm dc) as [x y Hxy|]; [|split; [constructor|done]]. split; [|done]. simpl.
    apply Forall2_fmap. eapply Forall2_impl; [exact Hxy|]. intros a b (Ha & Hb & Hc). unfold alike. simpl. by rewrite Ha, Hb, Hc.
  Qed.

  (** *** weightedConfidence *)
  Lemma collect_scaled cs1 cs2 : Forall2 (scaled_node k) cs1 cs2 → ∀ rs1 rs2 c1 c2 m1 m2 t1 t2,
    Forall2 alike_answers rs1 rs2 → mrel (times k) c1 c2 → mrel (Forall2 alike) m1 m2 → times k t1 t2 →
    IZR k * (R64 t1 + rsum (map node_records cs1)) <= IZR (2 ^ 53) →
    let x := foldl wc_collect (c1, m1, t1) (zip cs1 rs1) in
    let y := foldl wc_collect (c2, m2, t2) (zip cs2 rs2) in
    mrel (times k) x.1.1 y.1.1 ∧ mrel (Forall2 alike) x.1.2 y.1.2 ∧ times k x.2 y.2.
  Proof.
    assert (1 <= IZR k) as Hk' by by apply IZR_le.
    induction 1 as [|a b l1 l2 Hab Hl IH]; intros rs1 rs2 c1 c2 m1 m2 t1 t2 Hrs Hc Hm Ht Hle; [done|].
    destruct Hrs as [|[s v] [s' v'] rs1 rs2 [Hs Hv] Hrs]; [done|]. simpl in Hs, Hv. subst v'.
    cbn [zip zip_with foldl]. unfold rsum in Hle. cbn [map foldr] in Hle. fold (rsum (map node_records l1)) in Hle.
    assert (0 <= rsum (map node_records l1)) as Hpos.
    { apply rsum_nonneg. clear -Hl Hk. induction Hl; constructor; [by eapply node_records_pos|done]. }
    pose proof (times_R k _ _ Hk Ht).
    assert (R64 (sc_count (n_score a)) <= node_records a ∧ times k (sc_count (n_score a)) (sc_count (n_score b)) ∧ n_id a = n_id b)
      as (Ha1 & Ha2 & Ha3).
    { inversion Hab as [? ? ? ? ? ? ? ? ? Hcs Hds Hsc]; subst. cbn [node_records n_score n_id]. split; [|by destruct Hsc].
      pose proof (scores_records_pos k _ _ Hk Hds).
      assert (0 <= rsum (map node_records cs1)); [|lra].
      apply rsum_nonneg. clear -Hcs Hk. induction Hcs; constructor; [by eapply node_records_pos|done]. }
    pose proof (times_R k _ _ Hk Ha2).
    pose proof (node_records_pos k a Hk b Hab) as Hna.
    destruct v; cbn [wc_collect]; try (apply IH; [done..|nra]).
    all: rewrite <- Ha3; destruct (times_add k t1 t2 _ _ Hk Ht Ha2) as [H1 H2]; [nra|].
    all: apply IH; [done|by apply mrel_insert|by apply mrel_insert|done|rewrite H2; nra].
  Qed.
  Lemma wc_add_alike w a1 a2 s1 s2 : mrel alike a1 a2 → alike s1 s2 → mrel alike (wc_add w a1 s1) (wc_add w a2 s2).
  Proof.
    intros Hm (Hv & Hc & Hp). unfold wc_add. rewrite <- Hv.
    pose proof (mrel_default alike (Score (sc_value s1) fzero fzero fzero) (Score (sc_value s1) fzero fzero fzero)
      (sc_value s1) a1 a2 ltac:(done) Hm) as (Dv & Dc & Dp).
    apply mrel_insert; [|done]. unfold alike. simpl. by rewrite Dv, Dc, Dp, Hc, Hp.
  Qed.
  Lemma eval_weighted_scaled n1 : ∀ n2, scaled_node k n1 n2 → IZR k * node_records n1 <= IZR (2 ^ 53) → ∀ tk,
    both alike_answers (eval_weighted E cx r tk n1) (eval_weighted E cx r tk n2).
  Proof.
    assert (1 <= IZR k) as Hk' by by apply IZR_le.
    start n1 n2. intros Hle tk. cbn [eval_weighted]. destruct (run_test _ _ _ _) as [v| |]; try done. cbn [rbind].
    match goal with |- both _ (match v with RT => ?x | _ => _ end) (match v with RT => ?y | _ => _ end) =>
      assert (both alike_answers x y) as H; [|destruct v; [exact H|exact H|split; [by eapply scaled_alike|done]]] end.
    cbn [node_records] in Hle.
    pose proof (times_R k _ _ Hk (proj2 Hs)). pose proof (scores_records_pos k _ _ Hk Hds).
    assert (IZR k * rsum (map node_records cs1) <= IZR (2 ^ 53)) as Hle' by nra.
    eapply both_bind.
    { apply (both_rmapi alike_answers). clear -IH Hcs Hle' Hk Hk'.
      induction Hcs as [|a b l1 l2 Hab Hl IHl]; [constructor|]. apply Forall_cons in IH as [Ha IH].
      unfold rsum in Hle'. cbn [map foldr] in Hle'. fold (rsum (map node_records l1)) in Hle'.
      assert (0 <= rsum (map node_records l1)) as Hpos.
      { apply rsum_nonneg. clear -Hl Hk. induction Hl; constructor; [by eapply node_records_pos|done]. }
      pose proof (node_records_pos k a Hk b Hab).
      constructor; [|apply IHl; [done|nra]]. intros i. apply Ha; [done|nra]. }
    intros rs1 rs2 Hrs.
    destruct (scan_related (Forall2 alike) rs1 rs2 Hrs (false, []) (false, []) eq_refl ltac:(constructor)) as [H1 H2].
    destruct (foldl scan_step _ rs1) as [u d1], (foldl scan_step _ rs2) as [u' d2]. simpl in H1, H2. subst u'.
    destruct (collect_scaled cs1 cs2 Hcs rs1 rs2 ∅ ∅ ∅ ∅ fzero fzero Hrs (mrel_empty _) (mrel_empty _) (times_zero k)) as (Hc & Hm & Ht).
    { rewrite R64_zero. lra. }
    destruct (foldl wc_collect _ (zip cs1 rs1)) as [[c1 m1] t1], (foldl wc_collect _ (zip cs2 rs2)) as [[c2 m2] t2].
    simpl in Hc, Hm, Ht.
    rewrite <- (Forall2_length _ _ _ H2). destruct (_ && _); [by split|]. destruct u; [|split; [by eapply scaled_alike|done]].
    split; [|done]. cbn [fst].
    match goal with |- Forall2 _ (map_range E _ ?a).*2 (map_range E _ ?b).*2 => assert (mrel alike a b) as Hagg end.
    { pose proof (map_range_rel _ E (0%nat :: tk) m1 m2 Hm) as Hr. revert Hr.
      generalize (map_range E (0%nat :: tk) m1) as l1. generalize (map_range E (0%nat :: tk) m2) as l2.
      generalize (mrel_empty alike). generalize (∅ : gmap string score) at 1 3 as a1. generalize (∅ : gmap string score) as a2.
      intros a2 a1 Ha l2 l1 Hl. revert a1 a2 Ha.
      induction Hl as [|[i x] [j y] l1 l2 [Hi Hxy] _ IHl]; intros a1 a2 Ha; [done|]. simpl in Hi, Hxy. subst j. cbn [foldl].
      apply IHl. rewrite (times_div k _ (default fzero (c2 !! i)) t1 t2 Hk); [|apply mrel_default; [apply times_zero|done]|done].
      generalize (fdiv (default fzero (c2 !! i)) t2) as w. intros w. clear -Hxy Ha. revert a1 a2 Ha.
      induction Hxy as [|s s' l1 l2 Hs _ IHs]; intros a1 a2 Ha; [done|]. cbn [foldl]. apply IHs. by apply wc_add_alike. }
    pose proof (map_range_rel _ E (1%nat :: tk) _ _ Hagg) as Hr. apply Forall2_fmap. eapply Forall2_impl; [exact Hr|].
    by intros a b [_ ?].
  Qed.

  (** *** aggregateNodes *)
  Lemma children_records_pos cs1 cs2 : Forall2 (scaled_node k) cs1 cs2 → 0 <= rsum (map node_records cs1).
  Proof. intros H. apply rsum_nonneg. induction H; constructor; [by eapply node_records_pos|done]. Qed.
  Lemma output_dist_records n1 n2 : scaled_node k n1 n2 → NoDup (target_values (cx_dd cx) (cx_target cx)) →
    scores_records (output_dist cx n1) <= node_records n1.
  Proof.
    intros Hn Hnd. pose proof (node_records_pos k n1 Hk n2 Hn) as Hpos.
    destruct Hn as [id dc cs1 cs2 ds1 ds2 t s1 s2 Hcs Hds Hs]. rewrite output_dist_values. cbn [node_records] in *.
    pose proof (times_R k _ _ Hk (proj2 Hs)). pose proof (scores_records_pos k _ _ Hk Hds).
    pose proof (children_records_pos _ _ Hcs).
    destruct (_ && _); [done|]. destruct (Nat.ltb _ _); [lra|]. destruct (negb _).
    - assert (scores_records ((λ v, if v =s sc_value s1 then Score v fone fone (sc_count s1) else Score v fzero fzero fzero)
        <$> target_values (cx_dd cx) (cx_target cx)) <= R64 (sc_count s1)); [|lra].
      assert (∀ l : list string, sc_value s1 ∉ l → scores_records ((λ v, if v =s sc_value s1 then Score v fone fone (sc_count s1)
        else Score v fzero fzero fzero) <$> l) = 0) as Hz.
      { induction l as [|v l IH]; intros Hl; [done|]. apply not_elem_of_cons in Hl as [Hv Hl]. rewrite fmap_cons.
        apply not_eq_sym, String.eqb_neq in Hv as ->. unfold scores_records, rsum. cbn [map foldr sc_count].
        specialize (IH Hl). unfold scores_records, rsum in IH. rewrite IH, R64_zero. lra. }
      induction Hnd as [|v l Hv Hnd IH]; [done|]. rewrite fmap_cons. unfold scores_records, rsum. cbn [map foldr].
      destruct (String.eqb_spec v (sc_value s1)) as [->|Hne].
      + specialize (Hz l Hv). unfold scores_records, rsum in Hz. rewrite Hz. cbn [sc_count]. lra.
      + cbn [sc_count]. rewrite R64_zero. unfold scores_records, rsum in IH. lra.
    - unfold scores_records at 1, rsum at 1. cbn [map foldr]. lra.
  Qed.

  Definition msum (m : gmap string score) : R := rsum (map (λ p : string * score, R64 (sc_count p.2)) (map_to_list m)).
  Lemma msum_insert m i x : msum (<[i := x]> m) = msum m - R64 (sc_count (default (Score i fzero fzero fzero) (m !! i))) + R64 (sc_count x).
  Proof.
    unfold msum. assert (∀ m : gmap string score, m !! i = None → ∀ x,
      rsum (map (λ p : string * score, R64 (sc_count p.2)) (map_to_list (<[i := x]> m))) =
      R64 (sc_count x) + rsum (map (λ p : string * score, R64 (sc_count p.2)) (map_to_list m))) as Hf.
    { intros m' Hm' x'. rewrite (rsum_perm _ _ (Permutation_map _ (map_to_list_insert m' i x' Hm'))). done. }
    destruct (m !! i) as [o|] eqn:Ho.
    - rewrite <- (insert_delete_insert m i x), Hf by apply lookup_delete.
      rewrite <- (insert_delete m i o Ho) at 2. rewrite Hf by apply lookup_delete. simpl. lra.
    - rewrite Hf by done. simpl. change (R64 fzero) with 0. lra.
  Qed.
  Lemma msum_elem m1 m2 i : mrel (scaled k) m1 m2 → R64 (sc_count (default (Score i fzero fzero fzero) (m1 !! i))) <= msum m1.
  Proof.
    intros Hm. assert (∀ l : list (string * score), (∀ p, p ∈ l → 0 <= R64 (sc_count p.2)) →
      0 <= rsum (map (λ p : string * score, R64 (sc_count p.2)) l) ∧
      ∀ p, p ∈ l → R64 (sc_count p.2) <= rsum (map (λ p : string * score, R64 (sc_count p.2)) l)) as Hl.
    { unfold rsum. induction l as [|p l IH]; intros Hp; cbn [map foldr]; [split; [lra|]; by intros q ?%elem_of_nil|].
      destruct IH as [H1 H2]; [intros q Hq; apply Hp; set_solver|]. specialize (Hp p ltac:(set_solver)).
      split; [lra|]. intros q [->|Hq]%elem_of_cons; [lra|]. specialize (H2 q Hq). lra. }
    destruct (Hl (map_to_list m1)) as [H0 H1].
    { intros [j x] Hp%elem_of_map_to_list. pose proof (Hm j) as Hj. rewrite Hp in Hj. inversion Hj as [? ? [_ Ht]|]; subst.
      by eapply times_R. }
    destruct (m1 !! i) as [x|] eqn:Hx; simpl; [|exact H0]. apply (H1 (i, x)). by apply elem_of_map_to_list.
  Qed.

  Lemma an_add_scaled l1 l2 : Forall2 (scaled k) l1 l2 → ∀ a1 a2 t1 t2,
    mrel (scaled k) a1 a2 → times k t1 t2 → msum a1 = R64 t1 → IZR k * (R64 t1 + scores_records l1) <= IZR (2 ^ 53) →
    let x := foldl an_add (a1, t1) l1 in let y := foldl an_add (a2, t2) l2 in
    mrel (scaled k) x.1 y.1 ∧ times k x.2 y.2 ∧ msum x.1 = R64 t1 + scores_records l1.
  Proof.
    assert (1 <= IZR k) as Hk' by by apply IZR_le.
    induction 1 as [|s s' l1 l2 [(Hv & Hc & Hp) Hs] Hl IH]; intros a1 a2 t1 t2 Ha Ht Hsum Hle.
    { simpl. split; [done|]. split; [done|]. rewrite Hsum. unfold scores_records, rsum. simpl. lra. }
    cbn [foldl an_add]. rewrite <- Hv. unfold scores_records, rsum in Hle |- *. cbn [map foldr] in Hle |- *.
    fold (rsum (map (λ s, R64 (sc_count s)) l1)) in Hle |- *. fold (scores_records l1) in Hle |- *.
    pose proof (scores_records_pos k _ _ Hk Hl). pose proof (times_R k _ _ Hk Hs). pose proof (times_R k _ _ Hk Ht).
    pose proof (msum_elem a1 a2 (sc_value s) Ha) as Hel. pose proof (msum_insert a1 (sc_value s)) as Hins.
    pose proof (mrel_default (scaled k) (Score (sc_value s) fzero fzero fzero) (Score (sc_value s) fzero fzero fzero)
      (sc_value s) a1 a2 ltac:(split; [done|apply times_zero]) Ha) as [(Dv & Dc & Dp) Dt].
    set (d1 := default (Score (sc_value s) fzero fzero fzero) (a1 !! sc_value s)) in *.
    set (d2 := default (Score (sc_value s) fzero fzero fzero) (a2 !! sc_value s)) in *.
    pose proof (times_R k _ _ Hk Dt).
    destruct (times_add k _ _ _ _ Hk Dt Hs) as [A1 A2]; [nra|].
    destruct (times_add k _ _ _ _ Hk Ht Hs) as [A3 A4]; [nra|].
    edestruct (IH (<[sc_value s := Score (sc_value d1) (sc_conf d1) (sc_prob d1) (fadd (sc_count d1) (sc_count s))]> a1)
      (<[sc_value s := Score (sc_value d2) (sc_conf d2) (sc_prob d2) (fadd (sc_count d2) (sc_count s'))]> a2))
      as (I1 & I2 & I3); [| exact A3| | |split; [exact I1|split; [exact I2|rewrite I3, A4; lra]]].
    - apply mrel_insert; [|done]. split; [|done]. done.
    - rewrite Hins, A4. cbn [sc_count]. rewrite A2, Hsum. lra.
    - rewrite A4. nra.
  Qed.

  Lemma eval_aggregate_scaled n1 : NoDup (target_values (cx_dd cx) (cx_target cx)) → ∀ n2, scaled_node k n1 n2 →
    IZR k * node_records n1 <= IZR (2 ^ 53) → ∀ tk,
    both (answers (λ s s', Forall2 (scaled k) s s' ∧ scores_records s <= node_records n1))
      (eval_aggregate E cx r tk n1) (eval_aggregate E cx r tk n2).
  Proof.
    assert (1 <= IZR k) as Hk' by by apply IZR_le.
    intros Hnd. start n1 n2. intros Hle tk. cbn [eval_aggregate]. destruct (run_test _ _ _ _) as [v| |]; try done. cbn [rbind].
    pose proof (output_dist_records _ _ Hn Hnd) as Hor. set (W := node_records (Node id dc cs1 ds1 t s1)) in *.
    match goal with |- both ?R (match v with RT => ?x | _ => _ end) (match v with RT => ?y | _ => _ end) =>
      assert (both R x y) as H; [|destruct v; [exact H|exact H|split; done]] end.
    set (w := rsum (map node_records cs1)).
    pose proof (children_records_pos _ _ Hcs) as Hw0. fold w in Hw0.
    assert (w <= W) as HwW.
    { unfold W. cbn [node_records]. fold w. pose proof (times_R k _ _ Hk (proj2 Hs)). pose proof (scores_records_pos k _ _ Hk Hds). lra. }
    assert (IZR k * w <= IZR (2 ^ 53)) as Hle' by nra.
    eapply (both_bind (λ rs1 rs2, Forall2 (answers (λ s s', Forall2 (scaled k) s s' ∧ scores_records s <= w)) rs1 rs2 ∧
      scores_records (concat rs1.*1) <= w)).
    { generalize 1%nat as i. clear -IH Hcs Hle' Hk Hk' Hnd. subst w.
      induction Hcs as [|a b l1 l2 Hab Hl IHl]; intros i; cbn [rmapi].
      { split; [by apply Forall2_nil|]. unfold scores_records, rsum. simpl. lra. }
      apply Forall_cons in IH as [Ha IH].
      unfold rsum in Hle' |- *. cbn [map foldr] in Hle' |- *. fold (rsum (map node_records l1)) in Hle' |- *.
      pose proof (children_records_pos _ _ Hl) as Hpos. pose proof (node_records_pos k a Hk b Hab) as Hpa.
      eapply both_bind; [apply Ha; [done|nra]|]. intros x y Hxy.
      eapply both_bind; [apply IHl; [done|nra]|]. intros xs ys [H1 H2]. destruct Hxy as [[Hs Hsr] Hv]. split.
      - constructor; [split; [|done]; split; [done|lra]|]. eapply Forall2_impl; [exact H1|].
        intros c d [[? ?] ?]. split; [|done]. split; [done|lra].
      - rewrite fmap_cons. cbn [concat]. unfold scores_records in *. rewrite map_app, rsum_app'. lra. }
    intros rs1 rs2 [Hrs Hcat].
    destruct (scan_related _ rs1 rs2 Hrs (false, []) (false, []) eq_refl) as [H1 [H2 H3]].
    { split; [constructor|done]. }
    destruct (foldl scan_step _ rs1) as [u d1], (foldl scan_step _ rs2) as [u' d2]. simpl in H1, H2, H3. subst u'.
    rewrite <- (Forall2_length _ _ _ H2). destruct (_ && _); [split; [split; [done|simpl; lra]|done]|].
    destruct u; [|by split].
    assert (Forall2 (scaled k) (concat rs1.*1) (concat rs2.*1)) as Hall.
    { clear -Hrs. induction Hrs as [|x y l1 l2 [[Hx _] _] _ IH]; [constructor|]. rewrite !fmap_cons. cbn [concat]. by apply Forall2_app. }
    destruct (an_add_scaled _ _ Hall ∅ ∅ fzero fzero (mrel_empty _) (times_zero k)) as (Ha & Ht & Hsum).
    { done. } { rewrite R64_zero. nra. }
    destruct (foldl an_add _ (concat rs1.*1)) as [a1 t1], (foldl an_add _ (concat rs2.*1)) as [a2 t2]. simpl in Ha, Ht, Hsum.
    split; [|done]. cbn [fst]. split.
    - pose proof (map_range_rel _ E (0%nat :: tk) a1 a2 Ha) as Hr. apply Forall2_fmap. eapply Forall2_impl; [exact Hr|].
      intros [i x] [j y] [_ [(Hv & _) Hc]]. simpl in Hv, Hc. unfold scaled, alike. simpl.
      rewrite (times_div k _ _ _ _ Hk Hc Ht). done.
    - assert (∀ l : list (string * score), scores_records ((λ '(_, a), Score (sc_value a) (fdiv (sc_count a) t1)
         (fdiv (sc_count a) t1) (sc_count a)) <$> l) = rsum (map (λ p : string * score, R64 (sc_count p.2)) l)) as Hm.
      { unfold scores_records, rsum. induction l as [|[i x] l IHl]; [done|]. rewrite fmap_cons. cbn [map foldr]. by rewrite IHl. }
      rewrite Hm. rewrite (rsum_perm _ _ (Permutation_map _ (map_range_perm E (0%nat :: tk) a1))). fold (msum a1).
      rewrite Hsum. lra.
  Qed.

  Lemma node_evaluate_scaled st tk n1 n2 : scaled_node k n1 n2 → IZR k * node_records n1 <= IZR (2 ^ 53) →
    (st = "aggregateNodes" → NoDup (target_values (cx_dd cx) (cx_target cx))) →
    both alike_answers (node_evaluate E cx st r tk n1) (node_evaluate E cx st r tk n2).
  Proof.
    intros Hn Hle Hnd. unfold node_evaluate. destruct (_ =s _); [by apply eval_null_scaled|].
    destruct (String.eqb_spec st "aggregateNodes") as [->|_].
    { pose proof (eval_aggregate_scaled n1 (Hnd eq_refl) n2 Hn Hle tk) as H.
      destruct (eval_aggregate _ _ _ _ n1), (eval_aggregate _ _ _ _ n2); try done. destruct H as [[H _] ?].
      split; [by eapply scaled_alike|done]. }
    destruct (_ =s _); [by apply eval_weighted_scaled|]. destruct (_ =s _); [by apply eval_default_scaled|].
    destruct (_ =s _); [by apply eval_last_scaled|]. by apply eval_none_scaled.
  Qed.
End scaled.

(** ** Trees *)
Lemma pick_best_alike l1 l2 : Forall2 alike l1 l2 → alike (pick_best l1) (pick_best l2).
Proof.
  intros H. unfold pick_best. assert (alike (Score "" fzero fzero fzero) (Score "" fzero fzero fzero)) as H0 by done.
  revert H0. generalize (Score "" fzero fzero fzero) at 1 3 as b1. generalize (Score "" fzero fzero fzero) as b2.
  induction H as [|a b l1 l2 Hab _ IH]; intros b2 b1 Hb; [done|]. cbn [foldl]. apply IH.
  destruct Hab as (? & ? & Hp), Hb as (? & ? & Hp'). rewrite <- Hp, <- Hp'. by destruct (fltb _ _).
Qed.
Lemma out_step_alike l1 l2 : Forall2 alike l1 l2 → ∀ acc, foldl out_step acc l1 = foldl out_step acc l2.
Proof.
  induction 1 as [|a b l1 l2 (Hv & _ & Hp) _ IH]; intros [out keys]; [done|]. cbn [foldl]. unfold out_step at 2 4.
  rewrite <- Hv, <- Hp. apply IH.
Qed.

Lemma convert_scaled k ds1 ds2 : (1 <= k)%Z → Forall2 (more_dist k) ds1 ds2 →
  IZR k * real_sum (map sd_count ds1) <= IZR (2 ^ 53) →
  Forall2 (scaled k) (convert_dists ds1) (convert_dists ds2) ∧ scores_records (convert_dists ds1) = real_sum (map sd_count ds1).
Proof.
  intros Hk Hds Hle. split.
  - assert (times k (total_records ds1) (total_records ds2)) as Ht.
    { unfold total_records. rewrite !(foldl_sum_map sd_count).
      apply (times_sum k (map sd_count ds1) (map sd_count ds2) Hk); [|apply times_zero|rewrite R64_zero; lra].
      clear -Hds. induction Hds as [|a b l1 l2 (_ & _ & _ & H) _ IH]; by constructor. }
    unfold convert_dists. cbn zeta. revert Ht. generalize (total_records ds1) as t1, (total_records ds2) as t2.
    intros t1 t2 Ht. apply Forall2_fmap. eapply Forall2_impl; [exact Hds|]. intros a b (H1 & H2 & H3 & H4). unfold scaled, alike. simpl.
    by rewrite H1, H2, H3, (times_div k _ _ _ _ Hk H4 Ht).
  - unfold scores_records, real_sum, rsum. unfold convert_dists. cbn zeta. generalize (total_records ds1) as t1. intros t1.
    clear. induction ds1 as [|d l IH]; [done|]. rewrite fmap_cons. cbn [map foldr sc_count]. by rewrite IH.
Qed.

Lemma tree_records_eq id dc sc c ds ns p : tree_records (MNode id dc sc c ds ns p) =
  R64 c + real_sum (map sd_count ds) + rsum (map tree_records ns).
Proof.
  unfold tree_records at 1. cbn [doc_nodes map m_count m_dists]. unfold rsum at 1. cbn [foldr]. f_equal.
  match goal with |- _ = rsum ?l => fold (rsum (map (λ n, R64 (m_count n) + real_sum (map sd_count (m_dists n))) (concat (map doc_nodes ns)))) end.
  induction ns as [|n ns IH]; [done|]. cbn [map concat]. rewrite map_app, rsum_app', IH. done.
Qed.
Lemma tree_records_pos k m1 : (1 <= k)%Z → ∀ m2, more_records k m1 m2 → 0 <= tree_records m1.
Proof.
  intros Hk. induction m1 as [id dc sc c ds ns p IH] using mnode_rect'. intros m2 Hm. inversion Hm as [? ? ? ? c2 ? ds2 ? ns2 ? Hc Hds Hns]; subst.
  rewrite tree_records_eq. pose proof (times_R k _ _ Hk Hc).
  assert (0 <= real_sum (map sd_count ds)).
  { apply rsum_nonneg. clear -Hds Hk. induction Hds as [|a b l1 l2 (_ & _ & _ & H) _ IHd]; constructor; [by eapply times_R|done]. }
  assert (0 <= rsum (map tree_records ns)); [|lra].
  apply rsum_nonneg. clear -IH Hns. induction Hns as [|a b l1 l2 Hab _ IHl]; constructor; apply Forall_cons in IH as [? ?]; [eauto|auto].
Qed.

Lemma new_node_scaled E ft k m1 : (1 <= k)%Z → ∀ m2, more_records k m1 m2 → IZR k * tree_records m1 <= IZR (2 ^ 53) →
  both (λ n1 n2, scaled_node k n1 n2 ∧ node_records n1 = tree_records m1) (new_node E ft m1) (new_node E ft m2).
Proof.
  intros Hk. assert (1 <= IZR k) as Hk' by by apply IZR_le.
  induction m1 as [id dc sc c ds ns p IH] using mnode_rect'. intros m2 Hm Hle.
  inversion Hm as [? ? ? ? c2 ? ds2 ? ns2 ? Hc Hds Hns]; subst. rewrite tree_records_eq in Hle |- *.
  pose proof (times_R k _ _ Hk Hc).
  assert (0 <= real_sum (map sd_count ds)).
  { apply rsum_nonneg. clear -Hds Hk. induction Hds as [|a b l1 l2 (_ & _ & _ & H) _ IHd]; constructor; [by eapply times_R|done]. }
  assert (∀ l1 l2, Forall2 (more_records k) l1 l2 → 0 <= rsum (map tree_records l1)) as Hpos.
  { clear -Hk. intros l1 l2 Hl. apply rsum_nonneg. induction Hl; constructor; [by eapply tree_records_pos|done]. }
  pose proof (Hpos _ _ Hns) as Hns0.
  destruct (convert_scaled k ds ds2 Hk Hds) as [Hcv Hcs]; [nra|].
  cbn [new_node]. eapply (both_bind (λ cs1 cs2, Forall2 (scaled_node k) cs1 cs2 ∧ rsum (map node_records cs1) = rsum (map tree_records ns))).
  { assert (IZR k * rsum (map tree_records ns) <= IZR (2 ^ 53)) as Hle' by nra. clear -Hk Hk' IH Hns Hle' Hpos.
    induction Hns as [|a b l1 l2 Hab Hl IHl]; cbn [rmap]; [by split; [constructor|]|]. apply Forall_cons in IH as [Ha IH].
    unfold rsum in Hle' |- *. cbn [map foldr] in Hle' |- *. fold (rsum (map tree_records l1)) in Hle' |- *.
    pose proof (Hpos _ _ Hl). pose proof (tree_records_pos k a Hk b Hab).
    eapply both_bind; [apply Ha; [done|nra]|]. intros x y [Hx1 Hx2]. eapply both_bind; [apply IHl; [done|nra]|].
    intros xs ys [Hs1 Hs2]. split; [by constructor|]. cbn [map foldr]. rewrite Hx2. by f_equal. }
  intros cs1 cs2 [Hc1 Hc2]. destruct (compile_predicate E ft p) as [q| |]; simpl; [|done..].
  split; [constructor; [done|done|split; done]|]. rewrite Hcs, Hc2. done.
Qed.

Lemma proportions_stand_in E dd t1 t2 : same_proportions dd t1 t2 → stands_in E dd dd (DTree t1) (DTree t2).
Proof.
  intros (k & Hk & [t n (Hn & Hle & Hnd)]) td e1 td'. cbn [new_model]. unfold new_tree_model, tree_validate, with_node.
  cbn [et_model tm_function et_dd et_ft et_root et_outkeys et_target et_compiled].
  destruct (_ && _); [done|].
  unfold tree_compile. cbn [et_model tm_lt tm_schema tm_node et_dd et_target et_validated et_compiled et_outkeys et_root
    tm_function tm_strategy tm_penalty tm_notrue tm_verification].
  rewrite mf_defaults_target.
  pose proof (new_node_scaled E (field_types dd (td ++ tm_lt t)) k _ Hk _ Hn Hle) as Hnn.
  destruct (new_node E _ (tm_node t)) as [n1|x|p] eqn:H1; [|done..]. intros [= <- <-].
  destruct (new_node E _ n) as [n2|x|p]; [|done..]. destruct Hnn as [Hsc Hrec].
  eexists. split; [done|]. intros tk r. cbn [evaluate]. unfold tree_evaluate.
  cbn [et_validated et_compiled negb et_model tm_lt tm_strategy tm_schema et_root].
  destruct (handle_input E (tm_lt t) r) as [[u|x|p] r']; [|done..].
  unfold tree_ctx. cbn [et_ft et_dd et_target et_model tm_penalty tm_notrue].
  pose proof (node_evaluate_scaled E
    (Tctx (field_types dd (td ++ tm_lt t)) dd (target_field (tm_schema t)) (tm_penalty t) (tm_notrue t)) r' k Hk
    (tm_strategy t) tk n1 n2 Hsc ltac:(by rewrite Hrec) Hnd) as Hev.
  destruct (node_evaluate _ _ _ _ _ n1) as [[s v]| |], (node_evaluate _ _ _ _ _ n2) as [[s' v']| |]; try done;
    [|by simpl in Hev; subst..].
  destruct Hev as [Hs Hv]. simpl in Hs, Hv. subst v'. destruct v; try done.
  unfold tree_output. cbn [et_model tm_function et_target et_outkeys].
  destruct (_ =s "classification").
  { destruct (pick_best_alike _ _ Hs) as [-> _]. rewrite (out_step_alike _ _ Hs). by destruct (foldl _ _ _). }
  destruct (_ =s "regression"); [|done]. destruct Hs as [|a b l1 l2 [-> _] Hs]; done.
Qed.
