(** The sum of the class probabilities under weightedConfidence (property C125). *)
From Coq Require Import Reals Lra.
From Flocq Require Import Core.Core IEEE754.BinarySingleNaN Relative.
From Verif Require Import Base Strconv Value Doc Expr Pred Tree Regression Model Lib FloatLib SpecPred ProofsPred
  SpecExpr ProofsExpr SpecConstruct ProofsConstruct SpecTree ProofsTree ProofsOutput ProofsEval ProofsDoc
  ProofsSafe ProofsWhole ProofsClass ProofsAnswer SpecModel ProofsMining SpecRegr ProofsRegr ProofsValue ProofsSim ProofsHistory GoExt Samples RealLib
  AccLib ForestLib PropertiesTree PropertiesModel PropertiesRegr PropertiesSegments PropertiesAccuracy PropertiesForest PropertiesForestSum.
Local Open Scope R_scope.

(** ** Sums of reals *)
Lemma rsum_cons x l : rsum (x :: l) = x + rsum l.
Proof. done. Qed.

Lemma rsum_filter {A} (P : A → Prop) `{∀ a, Decision (P a)} (f : A → R) l :
  rsum (map f (filter P l)) = rsum (map (λ a, if decide (P a) then f a else 0) l).
Proof.
  induction l as [|a l IH]; [done|]. rewrite filter_cons. cbn [map]. rewrite rsum_cons, <- IH.
  destruct (decide (P a)); [done|lra].
Qed.

Lemma rsum_classes {A} (val : A → string) (f : A → R) l vs : NoDup vs → (∀ a, a ∈ l → val a ∈ vs) →
  rsum (map (λ v, rsum (map f (filter (λ a, val a = v) l))) vs) = rsum (map f l).
Proof.
  intros Hnd Hin.
  assert (map (λ v, rsum (map f (filter (λ a, val a = v) l))) vs =
          map (λ v, rsum (map (λ a, if decide (val a = v) then f a else 0) l)) vs) as ->.
  { apply map_ext. intros v. apply rsum_filter. }
  rewrite (rsum_swap (λ a v, if decide (val a = v) then f a else 0) l vs). f_equal.
  apply map_ext_in. intros a Ha. apply elem_of_list_In, Hin in Ha. clear -Hnd Ha.
  induction vs as [|v vs IH]; [by apply elem_of_nil in Ha|].
  apply NoDup_cons in Hnd as [Hv Hnd]. cbn [map]. rewrite rsum_cons.
  apply elem_of_cons in Ha as [Ha|Ha].
  - rewrite decide_True by done. rewrite rsum_zero; [lra|]. intros w Hw. rewrite decide_False; [done|].
    intros <-. by rewrite Ha in Hw.
  - rewrite decide_False by (by intros <-). rewrite IH by done. lra.
Qed.

Lemma rsum_near_in {A} (f g : A → R) (c w : R) l : (∀ v, v ∈ l → Rabs (f v - g v) <= c * g v + w) →
  Rabs (rsum (map f l) - rsum (map g l)) <= c * rsum (map g l) + INR (length l) * w.
Proof.
  induction l as [|v l IH]; intros H.
  - unfold rsum. simpl. rewrite Rminus_0_r, Rabs_R0. lra.
  - cbn [length]. rewrite S_INR. cbn [map]. rewrite !rsum_cons. specialize (IH ltac:(set_solver)).
    specialize (H v ltac:(set_solver)). set (a := rsum (map f l)) in *. set (b := rsum (map g l)) in *.
    replace (f v + a - (g v + b)) with ((f v - g v) + (a - b)) by ring.
    eapply Rle_trans; [apply Rabs_triang|]. lra.
Qed.

Lemma rsum_nonneg l : Forall (λ x, 0 <= x) l → 0 <= rsum l.
Proof. induction 1 as [|x l Hx _ IH]; [unfold rsum; simpl; lra|]. rewrite rsum_cons. lra. Qed.

Lemma rsum_elem x l : Forall (λ x, 0 <= x) l → x ∈ l → x <= rsum l.
Proof.
  induction 1 as [|y l Hy Hl IH]; intros Hx; [by apply elem_of_nil in Hx|]. rewrite rsum_cons.
  pose proof (rsum_nonneg l Hl). apply elem_of_cons in Hx as [->|Hx]; [lra|]. specialize (IH Hx). lra.
Qed.

Lemma rsum_concat {A} (f : A → R) (ll : list (list A)) : rsum (map f (concat ll)) = rsum (map (λ l, rsum (map f l)) ll).
Proof. induction ll as [|l ll IH]; [done|]. cbn [concat map]. rewrite map_app, rsum_app, rsum_cons, IH. done. Qed.

(** ** Scores whose probabilities add up to about one *)
Definition near (cs : list string) (b : R) (s : list score) : Prop :=
  NoDup (sc_value <$> s) ∧ Forall (λ x, valid (sc_prob x) ∧ fin (sc_prob x) ∧ 0 <= R64 (sc_prob x)) s ∧
  Forall (λ x, sc_value x ∈ cs) s ∧ Rabs (real_sum (sc_prob <$> s) - 1) <= b.

Lemma near_weaken cs b b' s : b <= b' → near cs b s → near cs b' s.
Proof. intros Hb (H1 & H2 & H3 & H4). repeat (split; [done|]). lra. Qed.

Lemma near_le cs b s x : near cs b s → x ∈ s → R64 (sc_prob x) <= 1 + b.
Proof.
  intros (_ & Hs & _ & Hb) Hx. apply (Rle_trans _ (real_sum (sc_prob <$> s))).
  - apply rsum_elem; [|apply elem_of_list_In, in_map, elem_of_list_In; by apply elem_of_list_fmap_1].
    rewrite Forall_forall in Hs. apply Forall_forall. intros y Hy. apply elem_of_list_In, in_map_iff in Hy as (p & <- & Hp).
    apply elem_of_list_In, elem_of_list_fmap in Hp as (z & -> & Hz). by apply Hs.
  - apply Rabs_le_inv in Hb. lra.
Qed.

(** a product of a probability and a weight *)
Lemma fmul_small x w : valid x → valid w → fin x → 0 <= R64 x <= 2 → in_unit w →
  fin (fmul x w) ∧ 0 <= R64 (fmul x w) <= 2.
Proof.
  intros Vx Vw Fx Hx Hw. apply (unit_R w Vw) in Hw as (Fw & Hw).
  revert Fx Fw Hx Hw. destruct (valid_b _ Vx) as [a ->]. destruct (valid_b _ Vw) as [b ->].
  rewrite fmul_B, !is_finite_SF_B2SF, !SF2R_B2SF. intros Fa Fb Ha Hb.
  pose proof (Bmult_correct 53 1024 prec53 emax1024 mode_NE a b) as HP.
  pose proof (round_between (B2R a * B2R b) 0 2 ltac:(lia) ltac:(lia) ltac:(split; nra)) as Hr.
  rewrite Rlt_bool_true in HP.
  - destruct HP as (-> & -> & _). rewrite Fa, Fb. done.
  - apply below_overflow. split; [apply Hr|]. eapply Rle_trans; [apply Hr|]. apply IZR_le. lia.
Qed.

Lemma form_small l : ∀ a k, valid a → fin a → 0 <= R64 a <= IZR k → (0 <= k)%Z →
  Forall (λ p : f64 * f64, valid p.1 ∧ valid p.2 ∧ fin p.1 ∧ 0 <= R64 p.1 <= 2 ∧ in_unit p.2) l →
  (k + 2 * Z.of_nat (length l) <= 2 ^ 53)%Z →
  fin (form a l) ∧ 0 <= R64 (form a l) <= IZR (k + 2 * Z.of_nat (length l)).
Proof.
  induction l as [|p l IH]; intros a k Va Fa Ha Hk Hl Hle.
  - cbn [form foldl length]. by rewrite Z.mul_0_r, Z.add_0_r.
  - apply Forall_cons in Hl as [(V1 & V2 & F1 & H1 & U2) Hl]. cbn [length] in Hle |- *. unfold form. cbn [foldl].
    fold (form (fadd a (fmul p.1 p.2)) l).
    destruct (fmul_small p.1 p.2) as [Fm Rm]; [done..|].
    destruct (fadd_small a (fmul p.1 p.2) (k + 2)) as [F R]; [done|by apply fmul_valid|done|done|apply Ha|apply Rm|lia|rewrite plus_IZR; lra|].
    replace (k + 2 * Z.of_nat (S (length l)))%Z with ((k + 2) + 2 * Z.of_nat (length l))%Z by lia.
    apply IH; [apply fadd_valid; [done|by apply fmul_valid]|done|done|lia|done|lia].
Qed.

(** each list has at most one score of a class *)
Lemma filter_class_length {A} (val : A → string) v (ll : list (list A)) :
  Forall (λ l, NoDup (val <$> l)) ll → (length (filter (λ a, val a = v) (concat ll)) <= length ll)%nat.
Proof.
  induction 1 as [|l ll Hl _ IH]; [done|]. cbn [concat length]. rewrite filter_app, app_length.
  assert (length (filter (λ a, val a = v) l) <= 1)%nat; [|lia]. clear -Hl.
  induction l as [|a l IH]; [cbn; lia|]. rewrite fmap_cons in Hl. apply NoDup_cons in Hl as [Ha Hl]. specialize (IH Hl).
  rewrite filter_cons. destruct (decide (val a = v)) as [<-|]; [|done].
  cbn [length]. apply le_n_S. match goal with |- (length ?k <= 0)%nat => assert (k = []) as ->; [|done] end.
  apply elem_of_nil_inv. intros x [Hx Hin]%elem_of_list_filter. apply Ha. apply elem_of_list_fmap. by exists x.
Qed.

(** ** One node *)

Lemma live_total (L : list (mnode * answer_t)) :
  Forall (λ p, ∃ z, whole (m_count p.1) z ∧ (0 < z)%Z) L → rsum (map (λ p, R64 (m_count p.1)) L) <= IZR (2 ^ 53) → L ≠ [] →
  ∃ T, whole (foldl (λ acc p, SFadd 53 1024 acc (m_count p.1)) (S754_zero false) L) T ∧ (0 < T <= 2 ^ 53)%Z ∧
    IZR T = rsum (map (λ p, R64 (m_count p.1)) L).
Proof.
  intros HL Hle Hne.
  assert (∃ zs, Forall2 whole (map (λ p, m_count p.1) L) zs ∧ Forall (λ z, (0 < z)%Z) zs ∧
    IZR (zsum zs) = rsum (map (λ p, R64 (m_count p.1)) L)) as (zs & Hzs & Hpos & HR).
  { clear Hle Hne. induction HL as [|p L (z & Hz & Hp) _ (zs & H1 & H2 & H3)];
      [exists []; split; [constructor|]; split; [constructor|done]|].
    exists (z :: zs). split; [by constructor|]. split; [by constructor|]. cbn [map foldr]. rewrite rsum_cons, plus_IZR, H3.
    destruct Hz as (_ & _ & -> & _). done. }
  exists (zsum zs). rewrite (foldl_sum_map (λ p : mnode * answer_t, m_count p.1)).
  assert (zsum zs <= 2 ^ 53)%Z as Hz by (apply le_IZR; rewrite HR; exact Hle).
  split; [apply (whole_sum _ _ Hzs fzero 0 whole_zero); lia|]. split; [|done]. split; [|done].
  destruct L as [|p L]; [done|]. destruct zs as [|z zs]; [by inversion Hzs|]. cbn [foldr].
  apply Forall_cons in Hpos as [Hp Hpos].
  assert (0 <= zsum zs)%Z; [|lia]. apply zsum_nonneg. eapply Forall_impl; [exact Hpos|]. intros x ?. simpl in *. lia.
Qed.

Definition step_error (n k : nat) (b : R) : R :=
  (1 + unit_roundoff) ^ (n + 2) * (1 + b) - 1 + INR k * (INR n * (1 + unit_roundoff) ^ n * tiny).

Lemma weighted_near cs n b m rs out : NoDup cs →
  length rs = length (m_nodes m) → (length (m_nodes m) <= n)%nat → (2 * Z.of_nat n <= 2 ^ 53)%Z → 0 <= b <= 1 →
  Forall (λ c, ∃ z, whole (m_count c) z ∧ (0 < z)%Z) (m_nodes m) → real_sum (m_count <$> m_nodes m) <= IZR (2 ^ 53) →
  (∀ i c y, m_nodes m !! i = Some c → rs !! i = Some y → y.2 ≠ RF → near cs b y.1) →
  (∃ y, y ∈ rs ∧ y.2 ≠ RF) → weighted_scores m rs out → near cs (step_error n (length cs) b) out.
Proof.
  intros Hcs Hl Hn Hn2 Hb Hc Hsum Hnear Hex Hw. unfold weighted_scores in Hw.
  set (live := filter (λ p : mnode * answer_t, p.2.2 ≠ RF) (zip (m_nodes m) rs)) in *. cbv zeta in Hw.
  assert (∀ p, p ∈ live → near cs b p.2.1 ∧ ∃ z, whole (m_count p.1) z ∧ (0 < z)%Z) as Hlive.
  { intros p [Hp Hin]%elem_of_list_filter. apply elem_of_list_lookup in Hin as [i Hi].
    apply lookup_zip_with_Some in Hi as (c & y & -> & Hi1 & Hi2). cbn [fst snd] in *. split; [by eapply Hnear|].
    rewrite Forall_lookup in Hc. by apply (Hc i). }
  assert (length live <= n)%nat as Hll.
  { etransitivity; [|exact Hn]. etransitivity; [apply filter_length|]. rewrite zip_with_length. lia. }
  assert (live ≠ []) as Hne.
  { destruct Hex as (y & [i Hi]%elem_of_list_lookup & Hy).
    destruct (lookup_lt_is_Some_2 (m_nodes m) i) as [c Hci]; [rewrite <- Hl; by eapply lookup_lt_Some|].
    assert ((c, y) ∈ live) as Hin; [|intros H; rewrite H in Hin; by apply elem_of_nil in Hin].
    apply elem_of_list_filter. split; [done|]. apply elem_of_list_lookup. exists i. apply lookup_zip_with_Some. by exists c, y. }
  destruct (live_total live) as (T & HT & HTb & HTR); [|clear Hw|done|].
  { apply Forall_forall. intros p Hp. by apply Hlive. }
  { eapply Rle_trans; [|exact Hsum]. unfold live, real_sum. clear -Hc Hl.
    revert rs Hl. induction Hc as [|c cs (z & Hz & Hp) Hc IH]; intros rs Hl.
    { unfold rsum. simpl. lra. }
    destruct rs as [|y rs]; [done|]. specialize (IH rs ltac:(by injection Hl)). rewrite fmap_cons. cbn [map].
    change (zip (c :: cs) (y :: rs)) with ((c, y) :: zip cs rs). rewrite filter_cons, rsum_cons.
    assert (0 <= R64 (m_count c)) by (destruct Hz as (_ & _ & -> & ?); by apply IZR_le).
    destruct (decide _); cbn [map]; [rewrite rsum_cons; cbn [fst]; lra|lra]. }
  set (total := foldl _ _ live) in *. destruct Hw as (l & Hperm & Hnd & Hout).
  assert (∀ p, p ∈ l → p ∈ live) as Hlin by (intros p; by rewrite Hperm).
  assert (length l <= n)%nat as Hln by by rewrite Hperm.
  assert (rsum (map (λ p, R64 (m_count p.1)) l) = IZR T) as HlT.
  { rewrite HTR. apply rsum_perm. by rewrite Hperm. }
  clearbody total live. clear Hperm Hll Hne HTR Hex Hnear Hc Hsum Hn.
  set (W := λ p : mnode * answer_t, (λ s, (SFdiv 53 1024 (m_count p.1) total, s)) <$> p.2.1) in *.
  assert (0 < IZR T) as HTp by (apply IZR_lt; lia). pose proof unit_pos as Hu.
  (* the weights *)
  assert (∀ p, p ∈ l → valid (fdiv (m_count p.1) total) ∧ in_unit (fdiv (m_count p.1) total) ∧
     0 <= R64 (m_count p.1) / IZR T ∧
     Rabs (R64 (fdiv (m_count p.1) total) - R64 (m_count p.1) / IZR T) <= unit_roundoff * (R64 (m_count p.1) / IZR T)) as Hwt.
  { intros p Hp. destruct (Hlive p (Hlin p Hp)) as (_ & z & Hz & Hzp).
    assert (z <= T)%Z as HzT.
    { apply le_IZR. rewrite <- HlT. destruct Hz as (_ & _ & <- & _). apply rsum_elem.
      - apply Forall_forall. intros x Hx. apply elem_of_list_In, in_map_iff in Hx as (q & <- & Hq). apply elem_of_list_In in Hq.
        destruct (Hlive q (Hlin q Hq)) as (_ & z' & (_ & _ & -> & ?) & _). by apply IZR_le.
      - by apply elem_of_list_In, (in_map (λ p, R64 (m_count p.1))), elem_of_list_In. }
    destruct (whole_share _ _ _ _ Hz HT HzT ltac:(lia)) as [H1 H2]. split; [done|]. split; [done|].
    pose proof Hz as (_ & _ & Rz & _). rewrite Rz. split.
    - apply Rmult_le_pos; [apply IZR_le; lia|]. apply Rlt_le, Rinv_0_lt_compat. done.
    - apply (share_error _ _ _ _ Hz HT); lia. }
  assert (∀ ws, ws ∈ concat (map W l) → ∃ p, p ∈ l ∧ ws.1 = fdiv (m_count p.1) total ∧ ws.2 ∈ p.2.1) as HW.
  { intros ws Hws. apply elem_of_list_In, in_concat in Hws as (k & Hk & Hws). apply in_map_iff in Hk as (p & <- & Hp).
    apply elem_of_list_In in Hws, Hp. apply elem_of_list_fmap in Hws as (s & -> & Hs). by exists p. }
  set (pairs := λ v, (λ ws : f64 * score, (sc_prob ws.2, ws.1)) <$> filter (λ ws : f64 * score, sc_value ws.2 = v) (concat (map W l))).
  assert (∀ v, Forall (λ p : f64 * f64, valid p.1 ∧ valid p.2 ∧ fin p.1 ∧ 0 <= R64 p.1 <= 2 ∧ in_unit p.2) (pairs v)) as Hpairs.
  { intros v. apply Forall_forall. intros q (ws & -> & [_ Hws]%elem_of_list_filter)%elem_of_list_fmap. cbn [fst snd].
    destruct (HW ws Hws) as (p & Hp & -> & Hs). destruct (Hwt p Hp) as (V & U & _).
    destruct (Hlive p (Hlin p Hp)) as (Hnr & _). pose proof (near_le _ _ _ _ Hnr Hs). destruct Hnr as (_ & Hf & _).
    rewrite Forall_forall in Hf. destruct (Hf _ Hs) as (H1 & H2 & H3). split; [done|]. split; [done|]. split; [done|]. split; [lra|done]. }
  assert (∀ v, length (pairs v) <= n)%nat as Hlen.
  { intros v. unfold pairs. rewrite fmap_length. etransitivity; [apply (filter_class_length (λ ws : f64 * score, sc_value ws.2))|by rewrite map_length].
    apply Forall_forall. intros k Hk. apply elem_of_list_In, in_map_iff in Hk as (p & <- & Hp). apply elem_of_list_In in Hp.
    unfold W. rewrite <- list_fmap_compose. by destruct (Hlive p (Hlin p Hp)) as ((? & _) & _). }
  assert (∀ v, foldl (λ acc ws, SFadd 53 1024 acc (SFmul 53 1024 (sc_prob ws.2) ws.1)) (S754_zero false)
        (filter (λ ws : f64 * score, sc_value ws.2 = v) (concat (map W l))) = form fzero (pairs v)) as Hform.
  { intros v. unfold form, pairs. generalize (filter (λ ws : f64 * score, sc_value ws.2 = v) (concat (map W l))). intros k.
    change (S754_zero false) with fzero. generalize fzero. induction k as [|x k IH]; intros a; [done|]. rewrite fmap_cons. cbn [foldl]. apply IH. }
  assert (∀ v, valid (form fzero (pairs v)) ∧ fin (form fzero (pairs v)) ∧ 0 <= R64 (form fzero (pairs v)) ∧
     Rabs (R64 (form fzero (pairs v)) - terms (pairs v)) <= ((1 + unit_roundoff) ^ S n - 1) * terms (pairs v) + INR n * (1 + unit_roundoff) ^ n * tiny) as Hval.
  { intros v. pose proof (Hpairs v) as Hp. pose proof (Hlen v) as Hk. generalize dependent (pairs v). intros k Hp Hk.
    destruct (form_small k fzero 0 eq_refl eq_refl) as [F R]; [rewrite R64_zero; lra|done|done|lia|].
    assert (Forall (λ p : f64 * f64, valid p.1 ∧ valid p.2) k) as Hv2 by (eapply Forall_impl; [exact Hp|]; intros ? (?&?&_); done).
    split; [by apply form_valid|]. split; [done|]. split; [apply R|].
    pose proof (form_error k fzero eq_refl Hv2 F) as He. rewrite R64_zero, Rabs_R0, Rmult_0_r, !Rplus_0_l in He.
    assert (abs_terms k = terms k) as Hat.
    { clear -Hp. unfold abs_terms, terms. induction Hp as [|q k (V1 & V2 & _ & Hq & Uq) _ IH]; [done|]. cbn [map]. rewrite !rsum_cons, IH. f_equal.
      apply (unit_R _ V2) in Uq as (_ & ? & _). apply Rabs_pos_eq, Rmult_le_pos; lra. }
    pose proof (abs_terms_pos k) as Hpos. rewrite Hat in He, Hpos.
    eapply Rle_trans; [exact He|]. apply Rplus_le_compat.
    - apply Rmult_le_compat_r; [done|]. apply Rplus_le_compat_r. apply Rle_pow; [lra|lia].
    - apply Rmult_le_compat_r; [apply Rlt_le, tiny_pos|].
      apply Rmult_le_compat; [apply pos_INR|pose proof (pow_u_ge1 (length k)); lra|by apply le_INR|apply Rle_pow; [lra|lia]]. }
  assert (∀ s, s ∈ out → sc_prob s = form fzero (pairs (sc_value s)) ∧ sc_value s ∈ cs) as Hs.
  { intros s (v & Hv & ->)%Hout. cbn [sc_prob sc_value]. split; [by rewrite <- Hform|].
    apply elem_of_list_fmap in Hv as (x & -> & Hx). apply elem_of_list_In, in_concat in Hx as (k & Hk & Hx).
    apply in_map_iff in Hk as (p & <- & Hp). apply elem_of_list_In in Hp, Hx.
    destruct (Hlive p (Hlin p Hp)) as ((_ & _ & Hv & _) & _). rewrite Forall_forall in Hv. by apply Hv. }
  assert (∀ ws, ws ∈ concat (map W l) → sc_value ws.2 ∈ sc_value <$> out) as Hall.
  { intros ws Hws. destruct (HW ws Hws) as (p & Hp & _ & Hin). apply elem_of_list_fmap.
    eexists. split; [|apply Hout; exists (sc_value ws.2); split; [|reflexivity]]; [done|].
    apply elem_of_list_fmap. exists ws.2. split; [done|]. apply elem_of_list_In, in_concat. exists p.2.1. split.
    - by apply (in_map (λ p : mnode * answer_t, p.2.1)), elem_of_list_In.
    - by apply elem_of_list_In. }
  split; [done|]. split; [|split].
  { apply Forall_forall. intros s Hin. destruct (Hs s Hin) as [-> _]. destruct (Hval (sc_value s)) as (? & ? & ? & _). done. }
  { apply Forall_forall. intros s Hin. by apply Hs. }
  (* the sum over the classes *)
  set (vs := sc_value <$> out) in *.
  assert (real_sum (sc_prob <$> out) = rsum (map (λ v, R64 (form fzero (pairs v))) vs)) as Hsum.
  { unfold real_sum, vs. f_equal. clear -Hs. induction out as [|s out IH]; [done|]. rewrite !fmap_cons. cbn [map].
    destruct (Hs s ltac:(set_solver)) as [-> _]. f_equal. apply IH. intros x Hx. apply Hs. set_solver. }
  rewrite Hsum. pose proof (rsum_near_in (λ v, R64 (form fzero (pairs v))) (λ v, terms (pairs v)) ((1 + unit_roundoff) ^ S n - 1)
    (INR n * (1 + unit_roundoff) ^ n * tiny) vs ltac:(intros v _; apply Hval)) as Hbig.
  assert (length vs <= length cs)%nat as Hvs.
  { apply submseteq_length, NoDup_submseteq; [done|]. intros v (s & -> & Hin)%elem_of_list_fmap. by apply Hs. }
  (* the sum over the children *)
  set (P := λ p : mnode * answer_t, real_sum (sc_prob <$> p.2.1)).
  assert (rsum (map (λ v, terms (pairs v)) vs) = rsum (map (λ p, R64 (fdiv (m_count p.1) total) * P p) l)) as Hswap.
  { transitivity (rsum (map (λ ws : f64 * score, R64 (sc_prob ws.2) * R64 ws.1) (concat (map W l)))).
    - rewrite <- (rsum_classes (λ ws : f64 * score, sc_value ws.2) _ _ vs Hnd Hall). f_equal. apply map_ext. intros v.
      unfold terms, pairs.
      assert (∀ k : list (f64 * score), map (λ p : f64 * f64, R64 p.1 * R64 p.2) ((λ ws : f64 * score, (sc_prob ws.2, ws.1)) <$> k) =
        map (λ ws : f64 * score, R64 (sc_prob ws.2) * R64 ws.1) k) as Hk.
      { induction k as [|x k IH]; [done|]. rewrite fmap_cons. cbn [map]. by rewrite IH. }
      by rewrite Hk.
    - rewrite rsum_concat, map_map. f_equal. apply map_ext. intros p. unfold W, P, real_sum. generalize p.2.1. intros k.
      induction k as [|s k IH]; [unfold rsum; simpl; lra|]. rewrite !fmap_cons. cbn [map]. rewrite !rsum_cons, Rmult_plus_distr_l.
      apply (f_equal2 Rplus); [apply Rmult_comm|exact IH]. }
  assert (Rabs (rsum (map (λ p, R64 (fdiv (m_count p.1) total) * P p) l) - 1) <= (1 + unit_roundoff) * (1 + b) - 1) as Hchild.
  { assert (rsum (map (λ p : mnode * answer_t, R64 (m_count p.1) / IZR T) l) = 1) as Hone.
    { rewrite (rsum_div (λ p : mnode * answer_t, R64 (m_count p.1))), HlT. field. lra. }
    pose proof (rsum_near_in (λ p, R64 (fdiv (m_count p.1) total) * P p) (λ p : mnode * answer_t, R64 (m_count p.1) / IZR T)
      ((1 + unit_roundoff) * (1 + b) - 1) 0 l) as H. rewrite Hone in H. rewrite Rmult_0_r, Rplus_0_r, Rmult_1_r in H. apply H.
    intros p Hp. destruct (Hwt p Hp) as (_ & _ & Hq & Hd). destruct (Hlive p (Hlin p Hp)) as ((_ & _ & _ & HP) & _).
    fold (P p) in HP. set (w := R64 (fdiv (m_count p.1) total)) in *. set (q := R64 (m_count p.1) / IZR T) in *. clearbody w q.
    set (x := P p) in *. clearbody x. set (u := unit_roundoff) in *. clearbody u. rewrite Rplus_0_r.
    replace (w * x - q) with ((w - q) * x + q * (x - 1)) by ring. eapply Rle_trans; [apply Rabs_triang|].
    rewrite !Rabs_mult, (Rabs_pos_eq q) by done.
    assert (Rabs x <= 1 + b). { replace x with (1 + (x - 1)) by ring. eapply Rle_trans; [apply Rabs_triang|]. rewrite Rabs_R1. lra. }
    assert (Rabs (w - q) * Rabs x <= (u * q) * (1 + b)) by (apply Rmult_le_compat; [apply Rabs_pos|apply Rabs_pos|done|done]).
    assert (q * Rabs (x - 1) <= q * b) by (apply Rmult_le_compat_l; done). nra. }
  rewrite <- Hswap in Hchild. unfold step_error. rewrite Nat.add_comm. cbn [plus Rpow_def.pow]. cbn [Rpow_def.pow] in Hbig.
  set (X := rsum (map (λ v, R64 (form fzero (pairs v))) vs)) in *. set (Y := rsum (map (λ v, terms (pairs v)) vs)) in *.
  set (e := INR n * (1 + unit_roundoff) ^ n * tiny) in *.
  assert (0 <= e) as He.
  { unfold e. apply Rmult_le_pos; [apply Rmult_le_pos; [apply pos_INR|pose proof (pow_u_ge1 n); lra]|apply Rlt_le, tiny_pos]. }
  assert (INR (length vs) * e <= INR (length cs) * e) as Hk by (apply Rmult_le_compat_r; [done|by apply le_INR]).
  pose proof (pow_u_ge1 n) as Hq. set (q := (1 + unit_roundoff) ^ n) in *. set (u := unit_roundoff) in *. clearbody X Y e q u.
  apply Rabs_le_inv in Hchild as Hc2. replace (X - 1) with ((X - Y) + (Y - 1)) by ring.
  eapply Rle_trans; [apply Rabs_triang|].
  assert (1 <= (1 + u) * q) as Hq2 by nra.
  assert (((1 + u) * q - 1) * Y <= ((1 + u) * q - 1) * ((1 + u) * (1 + b))) by (apply Rmult_le_compat_l; lra). nra.
Qed.

(** ** A tree *)
Fixpoint levels (m : mnode) : nat :=
  match m with MNode _ _ _ _ _ ns _ => foldr (λ c k, Nat.max (S (levels c)) k) 0%nat ns end.

Lemma levels_child m c : c ∈ m_nodes m → (S (levels c) <= levels m)%nat.
Proof.
  destruct m as [i dc sc cnt ds ns q]. cbn [m_nodes levels]. induction ns as [|x ns IH]; intros Hc; [by apply elem_of_nil in Hc|].
  cbn [foldr]. apply elem_of_cons in Hc as [->|Hc]; [lia|]. specialize (IH Hc). lia.
Qed.

Definition depth_error (n k d : nat) : R :=
  (1 + unit_roundoff) ^ ((n + 2) * d + 1) * (1 + INR (d * k * n) * tiny) - 1.

Lemma depth_error_mono n k d d' : (d <= d')%nat → depth_error n k d <= depth_error n k d'.
Proof.
  intros H. unfold depth_error. pose proof unit_pos. pose proof tiny_pos. apply Rplus_le_compat_r. apply Rmult_le_compat.
  - pose proof (pow_u_ge1 ((n + 2) * d + 1)). lra.
  - assert (0 <= INR (d * k * n) * tiny) by (apply Rmult_le_pos; [apply pos_INR|lra]). lra.
  - apply Rle_pow; [lra|]. nia.
  - apply Rplus_le_compat_l. apply Rmult_le_compat_r; [lra|]. apply le_INR. by apply Nat.mul_le_mono_r, Nat.mul_le_mono_r.
Qed.

Lemma depth_error_0 n k : depth_error n k 0 = unit_roundoff.
Proof. unfold depth_error. rewrite Nat.mul_0_r. cbn [plus Nat.mul INR]. rewrite pow_1. lra. Qed.

Lemma depth_error_pos n k d : 0 <= depth_error n k d.
Proof.
  apply (Rle_trans _ (depth_error n k 0)); [rewrite depth_error_0; pose proof unit_pos; lra|]. apply depth_error_mono. lia.
Qed.

Lemma depth_error_step n k d : step_error n k (depth_error n k d) <= depth_error n k (S d).
Proof.
  unfold step_error, depth_error. pose proof unit_pos as Hu. pose proof tiny_pos as Ht.
  replace ((n + 2) * S d + 1)%nat with ((n + 2) + ((n + 2) * d + 1))%nat by lia.
  replace (S d * k * n)%nat with (d * k * n + k * n)%nat by lia. rewrite (pow_add _ (n + 2) ((n + 2) * d + 1)), plus_INR, (mult_INR k n).
  set (e := INR (d * k * n) * tiny). assert (0 <= e) as He by (apply Rmult_le_pos; [apply pos_INR|lra]).
  assert ((1 + unit_roundoff) ^ n <= (1 + unit_roundoff) ^ (n + 2) * (1 + unit_roundoff) ^ ((n + 2) * d + 1)) as Hle.
  { rewrite <- pow_add. apply Rle_pow; [lra|lia]. }
  pose proof (pow_u_ge1 (n + 2)) as H1. pose proof (pow_u_ge1 ((n + 2) * d + 1)) as H2. pose proof (pow_u_ge1 n) as H3.
  set (a := (1 + unit_roundoff) ^ (n + 2)) in *. set (c := (1 + unit_roundoff) ^ ((n + 2) * d + 1)) in *.
  set (q := (1 + unit_roundoff) ^ n) in *. set (w := tiny) in *.
  assert (0 <= INR k * INR n * w) as Hk by (apply Rmult_le_pos; [apply Rmult_le_pos; apply pos_INR|lra]).
  replace ((INR (d * k * n) + INR k * INR n) * w) with (e + INR k * INR n * w) by (unfold e; ring).
  replace (INR k * (INR n * q * w)) with (q * (INR k * INR n * w)) by ring.
  set (z := INR k * INR n * w) in *. clearbody e a c q w z.
  assert (q * z <= a * c * z) as Hz by (apply Rmult_le_compat_r; done).
  replace (1 + (c * (1 + e) - 1)) with (c * (1 + e)) by ring.
  replace (a * c * (1 + (e + z)) - 1) with (a * (c * (1 + e)) - 1 + a * c * z) by ring. lra.
Qed.

Lemma depth_error_width n k d : depth_error n k (S d) <= / 2 → (2 * Z.of_nat n <= 2 ^ 53)%Z.
Proof.
  intros H. pose proof unit_pos as Hu. pose proof tiny_pos as Ht. unfold depth_error in H.
  pose proof (poly ((n + 2) * S d + 1) unit_roundoff Hu) as Hp.
  set (a := (1 + unit_roundoff) ^ ((n + 2) * S d + 1)) in *.
  assert (0 <= INR (S d * k * n) * tiny) as He by (apply Rmult_le_pos; [apply pos_INR|lra]).
  assert (a <= 1 + / 2). { set (e := INR (S d * k * n) * tiny) in *. clearbody e a. assert (0 <= a * e); [|lra]. apply Rmult_le_pos; [|done].
    assert (0 <= INR ((n + 2) * S d + 1) * unit_roundoff) by (apply Rmult_le_pos; [apply pos_INR|lra]). lra. }
  assert (INR n * unit_roundoff <= / 2) as Hn.
  { assert (INR n <= INR ((n + 2) * S d + 1)) by (apply le_INR; nia).
    assert (INR n * unit_roundoff <= INR ((n + 2) * S d + 1) * unit_roundoff) by (apply Rmult_le_compat_r; lra). lra. }
  assert (unit_roundoff * IZR (2 ^ 53) = 1) as Hone.
  { unfold unit_roundoff. change (IZR (2 ^ 53)) with (bpow radix2 53). rewrite Rmult_assoc, <- bpow_plus. change (bpow radix2 (-52 + 53)) with 2. lra. }
  apply le_IZR. rewrite mult_IZR, <- INR_IZR_INZ. assert (0 < IZR (2 ^ 53)) by (apply IZR_lt; lia).
  set (M := IZR (2 ^ 53)) in *. set (u := unit_roundoff) in *. clearbody M u. 
  apply (Rmult_le_reg_r u); [done|]. rewrite (Rmult_comm M). lra.
Qed.

(** The children of a node: different ids, whole positive record counts. *)
Definition weighed_node (n : nat) (m : mnode) : Prop :=
  (length (m_nodes m) <= n)%nat ∧ NoDup (m_id <$> m_nodes m) ∧
  Forall (λ c, ∃ z, whole (m_count c) z ∧ (0 < z)%Z) (m_nodes m) ∧ real_sum (m_count <$> m_nodes m) <= IZR (2 ^ 53).
Definition weighed_tree (n : nat) (t : tree_model) : Prop :=
  tm_function t = "classification" ∧ tm_strategy t = "weightedConfidence" ∧ tm_notrue t ≠ "returnNullPrediction" ∧
  everywhere_doc (λ m, m_pred m ≠ PNone) (tm_node t) ∧ everywhere_doc plain_counts (tm_node t) ∧
  all_records (tm_node t) <= IZR (2 ^ 53) ∧ everywhere_doc (weighed_node n) (tm_node t).

Lemma dist_near cs dd t m : few cs m → tm_notrue t ≠ "returnNullPrediction" → near cs unit_roundoff (node_dist dd t m).
Proof.
  intros Hf Hnt. pose proof (node_sums cs dd t m Hf) as ((Hg & zs & Hz & Hpos & Hle) & Hp & Hv).
  split; [apply Hp|]. split; [|split; [done|]].
  - eapply Forall_impl; [exact Hg|]. intros x [V U]. split; [done|]. apply (unit_R _ V) in U as (? & ? & _). done.
  - apply proportional_sum; [done|]. exists zs. split; [done|]. destruct Hf as (_ & Hmax & ((Hne & _) & _) & _). destruct Hpos as [He|Hpos].
    + exfalso. unfold node_dist, doc_dist in He. rewrite decide_False in He by (by intros [_ ?]). rewrite decide_True in He by done.
      apply Hne. destruct (m_dists m); [done|]. by rewrite fmap_cons in He.
    + split; [done|]. apply le_IZR. lra.
Qed.

Lemma weighted_answer_near cs n dd t truth : NoDup cs → tm_notrue t ≠ "returnNullPrediction" → ∀ m x,
  weighted_answer truth (node_dist dd t) m x → everywhere_doc (λ m, few cs m ∧ weighed_node n m) m →
  depth_error n (length cs) (levels m) <= / 2 → x.2 ≠ RF → near cs (depth_error n (length cs) (levels m)) x.1.
Proof.
  intros Hcs Hnt m x. unfold weighted_answer.
  assert (∀ m, few cs m → near cs (depth_error n (length cs) (levels m)) (node_dist dd t m)) as Hdist.
  { intros m0 Hf. apply (near_weaken _ unit_roundoff); [|by apply dist_near]. rewrite <- (depth_error_0 n (length cs)). apply depth_error_mono. lia. }
  assert (∀ m (rs : list answer_t),
    (∀ i c y, m_nodes m !! i = Some c → rs !! i = Some y → everywhere_doc (λ m, few cs m ∧ weighed_node n m) c →
       depth_error n (length cs) (levels c) <= / 2 → y.2 ≠ RF → near cs (depth_error n (length cs) (levels c)) y.1) →
    Forall (everywhere_doc (λ m, few cs m ∧ weighed_node n m)) (m_nodes m) → depth_error n (length cs) (levels m) <= / 2 →
    ∀ i c y, m_nodes m !! i = Some c → rs !! i = Some y → y.2 ≠ RF →
      ∃ d, levels m = S d ∧ near cs (depth_error n (length cs) d) y.1) as Hall.
  { intros m0 rs HI Hk He i c y Hc Hy Hr.
    pose proof (levels_child m0 c ltac:(by eapply elem_of_list_lookup_2)) as Hlv. destruct (levels m0) as [|d]; [lia|]. exists d. split; [done|].
    pose proof (depth_error_mono n (length cs) (levels c) d ltac:(lia)). pose proof (depth_error_mono n (length cs) d (S d) ltac:(lia)).
    apply (near_weaken _ (depth_error n (length cs) (levels c))); [done|].
    apply (HI i); [done|done| |lra|done]. rewrite Forall_lookup in Hk. by apply (Hk i). }
  induction 1 as [m s Ht Hs|m w rs x Ht Hw Hl Hrs IH Hex Hx|m w rs Ht Hw Hl Hrs IH Hno Hne|m w rs Ht Hw Hl Hrs IH Hno He];
    intros Hp Hle Hr; inversion Hp as [? [Hf Hwn] Hpk]; subst.
  - done.
  - pose proof (Hall m rs IH Hpk Hle) as Hq. destruct Hx as [Hx _]. destruct Hwn as (H1 & _ & H2 & H3).
    destruct Hex as (y & Hy & Hyr).
    assert (∃ d, levels m = S d) as [d Hd].
    { apply elem_of_list_lookup in Hy as [i Hi].
      destruct (lookup_lt_is_Some_2 (m_nodes m) i) as [c Hc]; [rewrite <- Hl; by eapply lookup_lt_Some|].
      destruct (Hq i c y Hc Hi ltac:(by rewrite Hyr)) as (d & Hd & _). by exists d. }
    rewrite Hd in Hle |- *. eapply near_weaken; [apply depth_error_step|].
    eapply weighted_near; [done|exact Hl|exact H1|by eapply depth_error_width| |done|done| | |exact Hx].
    + split; [apply depth_error_pos|]. pose proof (depth_error_mono n (length cs) d (S d) ltac:(lia)). lra.
    + intros i c z Hc Hz Hzr. destruct (Hq i c z Hc Hz Hzr) as (d' & Hd' & Hn). assert (d' = d) as -> by congruence. done.
    + exists y. split; [done|]. by rewrite Hyr.
  - cbn [fst]. pose proof (Hall m rs IH Hpk Hle) as Hq. unfold true_scores in *.
    destruct (last (filter _ rs)) as [y|] eqn:Hy; simpl in *; [|done].
    assert (y ∈ rs ∧ y.2 = RT) as [Hin HyT].
    { apply last_Some in Hy as [l Hl']. assert (y ∈ filter (λ x : answer_t, x.2 = RT) rs) as Hyf by (rewrite Hl'; set_solver).
      by apply elem_of_list_filter in Hyf as [? ?]. }
    apply elem_of_list_lookup in Hin as [i Hi].
    destruct (lookup_lt_is_Some_2 (m_nodes m) i) as [c Hc]; [rewrite <- Hl; by eapply lookup_lt_Some|].
    destruct (Hq i c y Hc Hi ltac:(by rewrite HyT)) as (d & -> & Hn). eapply near_weaken; [|exact Hn]. apply depth_error_mono. lia.
  - by apply Hdist.
Qed.
