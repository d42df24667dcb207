(** Evaluate on rows in memory does to their contents what [evaluate] does. *)
From Verif Require Import Base Strconv Value Doc Expr Pred Tree Regression Model Lib ProofsWhole Heap.

Definition live (h : heap) (p : mapref) : Prop := ∀ l, p = Some l → is_Some (h !! l).
(** every row stays, and only the row at [p] may have changed *)
Definition later (p : mapref) (h h' : heap) : Prop :=
  (∀ l, is_Some (h !! l) → is_Some (h' !! l)) ∧ ∀ l, is_Some (h !! l) → p ≠ Some l → h' !! l = h !! l.
Definition new_ref (h h' : heap) (q : mapref) : Prop := ∀ l, q = Some l → h !! l = None ∧ is_Some (h' !! l).

Lemma later_refl p h : later p h h.
Proof. by split. Qed.
Lemma later_trans p h1 h2 h3 : later p h1 h2 → later p h2 h3 → later p h1 h3.
Proof.
  intros [A B] [C D]. split; [auto|]. intros l Hl Hp. rewrite D; [by apply B|by apply A|done].
Qed.
Lemma later_live p h h' q : later p h h' → live h q → live h' q.
Proof. intros [A _] Hq l ->. apply A. by apply Hq. Qed.
Lemma later_new p h1 h2 h3 q : later p h1 h2 → new_ref h2 h3 q → new_ref h1 h3 q.
Proof.
  intros [A _] Hq l ->. destruct (Hq l eq_refl) as [H1 H2]. split; [|done].
  destruct (h1 !! l) eqn:Hl; [|done]. destruct (A l) as [x Hx]; [by rewrite Hl|]. by rewrite Hx in H1.
Qed.
Lemma new_later p h1 h2 h3 q : later p h2 h3 → new_ref h1 h2 q → new_ref h1 h3 q.
Proof. intros [A _] Hq l ->. destruct (Hq l eq_refl) as [H1 H2]. split; [done|by apply A]. Qed.
Lemma new_none h h' : new_ref h h' None.
Proof. by intros l. Qed.

(** ** writes *)
Lemma put_same h l k v : put h l k v !! l = <[k := v]> <$> h !! l.
Proof. apply lookup_alter. Qed.
Lemma put_other h l l' k v : l ≠ l' → put h l k v !! l' = h !! l'.
Proof. apply lookup_alter_ne. Qed.
Lemma put_some h l k v l' : is_Some (put h l k v !! l') ↔ is_Some (h !! l').
Proof.
  destruct (decide (l = l')) as [<-|Hn]; [rewrite put_same; by rewrite fmap_is_Some|by rewrite put_other].
Qed.
Lemma put_later h l k v : later (Some l) h (put h l k v).
Proof. split; [intros l'; by rewrite put_some|]. intros l' _ Hn. apply put_other. naive_solver. Qed.

Lemma store_spec h p k v : live h p →
  match dr_set (deref h p) k v with
  | Ok r => ∃ h', store h p k v = Ok h' ∧ deref h' p = r ∧ later p h h' ∧ live h' p
  | Err e => store h p k v = Err e
  | Panic x => store h p k v = Panic x
  end.
Proof.
  intros Hl. destruct p as [l|]; simpl; [|done]. destruct (Hl l eq_refl) as [m Hm]. unfold deref. simpl. rewrite Hm. simpl.
  eexists. split; [done|]. rewrite put_same, Hm. split; [done|]. split; [apply put_later|]. intros l' [= <-].
  rewrite put_same, Hm. by eexists.
Qed.

(** a fresh map *)
Lemma make_spec h l h1 : make_map h = (l, h1) → h !! l = None ∧ h1 = <[l := ∅]> h.
Proof.
  unfold make_map. intros [= <- <-]. split; [|done]. apply not_elem_of_dom, is_fresh.
Qed.
Lemma make_later p h l h1 : make_map h = (l, h1) → later p h h1.
Proof.
  intros [Hl ->]%make_spec. split.
  - intros l' Hl'. destruct (decide (l = l')) as [<-|Hn]; [by rewrite lookup_insert|by rewrite lookup_insert_ne].
  - intros l' [x Hx] _. rewrite lookup_insert_ne; [done|]. congruence.
Qed.

(** [l] is a map made since [h] with contents [m]; the row at [p] is [r]. *)
Definition made (p : mapref) (h : heap) (r : datarow) (l : nat) (h' : heap) (m : row) : Prop :=
  later p h h' ∧ h !! l = None ∧ h' !! l = Some m ∧ deref h' p = r.
Lemma made_make p h h1 l h2 : live h p → later p h h1 → make_map h1 = (l, h2) → made p h (deref h1 p) l h2 ∅.
Proof.
  intros Hp Hl Hm. pose proof (make_later p _ _ _ Hm) as Hl2. destruct (make_spec _ _ _ Hm) as [Hn ->].
  split; [by eapply later_trans|]. split.
  { destruct (h !! l) eqn:Hx; [|done]. destruct (proj1 Hl l) as [y Hy]; [by rewrite Hx|]. by rewrite Hy in Hn. }
  split; [apply lookup_insert|]. destruct p as [lp|]; [|done]. unfold deref. simpl.
  destruct (later_live _ _ _ _ Hl Hp lp eq_refl) as [y Hy]. rewrite lookup_insert_ne; [done|]. congruence.
Qed.
Lemma made_put p h r l h' m k v : live h p → made p h r l h' m → made p h r l (put h' l k v) (<[k := v]> m).
Proof.
  intros Hp (Hl & Hn & Hm & Hr). split; [|split; [done|split]].
  - destruct Hl as [A B]. split; [intros l' Hl'; rewrite put_some; by apply A|]. intros l' Hl' Hne.
    rewrite put_other; [by apply B|]. intros <-. rewrite Hn in Hl'. by destruct Hl'.
  - by rewrite put_same, Hm.
  - destruct p as [lp|]; [|done]. unfold deref in *. simpl in *. rewrite put_other; [done|]. intros ->.
    destruct (Hp lp eq_refl) as [y Hy]. congruence.
Qed.
Lemma made_later p h r l h' m : made p h r l h' m → later p h h'.
Proof. by intros (? & _). Qed.
Lemma made_new p h r l h' m : made p h r l h' m → new_ref h h' (Some l).
Proof. intros (_ & Hn & Hm & _) l' [= <-]. split; [done|]. rewrite Hm. by eexists. Qed.

(** ** the relation between the two *)
Definition agrees {M} (p : mapref) (h : heap) (x : outcome M) (y : hres M) : Prop :=
  let '(o, r, m) := x in let '(q, o', h', m') := y in
  m' = m ∧ later p h h' ∧ deref h' p = r ∧ new_ref h h' q ∧
  match o with
  | Ok out => o' = Ok tt ∧ deref h' q = out ∧ (out = None → q = None)
  | Err e => o' = Err e
  | Panic x => o' = Panic x
  end.

Lemma h_input_spec E lt p : ∀ h, live h p →
  let '(o, r) := handle_input E lt (deref h p) in let '(o', h') := h_input E lt p h in
  later p h h' ∧ deref h' p = r ∧
  match o with Ok _ => o' = Ok p | Err e => o' = Err e | Panic x => o' = Panic x end.
Proof.
  induction lt as [|df lt IH]; intros h Hp; simpl; [by split; [apply later_refl|]|].
  destruct (handle_expr E (df_expr df) (deref h p)) as [v|e|x]; [|by split; [apply later_refl|]..].
  pose proof (store_spec h p (df_name df) (if df_optype df =s "continuous" then GF64 (val_float64 E v) else v) Hp) as Hs.
  destruct (dr_set (deref h p) (df_name df) _) as [r|e|x].
  - destruct Hs as (h' & -> & <- & Hl & Hp'). specialize (IH h' Hp').
    destruct (handle_input E lt (deref h' p)) as [o r']. destruct (h_input E lt p h') as [o' h2].
    destruct IH as (H1 & H2 & H3). split; [by eapply later_trans|]. by split.
  - rewrite Hs. by split; [apply later_refl|].
  - rewrite Hs. by split; [apply later_refl|].
Qed.

Lemma h_tree_spec E tk t p h : live h p → agrees p h (tree_evaluate E tk t (deref h p)) (h_tree E tk t p h).
Proof.
  intros Hp. unfold tree_evaluate, h_tree.
  assert (∀ (o : res datarow) (o' : res unit) h1, later p h h1 →
    match o with Ok out => out = None ∧ o' = Ok tt | Err e => o' = Err e | Panic x => o' = Panic x end →
    agrees p h (o, deref h1 p, t) (None, o', h1, t)) as Hnil.
  { intros o o' h1 Hl Ho. split; [done|]. split; [done|]. split; [done|]. split; [apply new_none|].
    destruct o; [|done..]. by destruct Ho as [-> ->]. }
  destruct (negb (et_validated t)); [apply (Hnil (Err ENotValidated)); [apply later_refl|done]|].
  destruct (negb (et_compiled t)); [apply (Hnil (Err ENotCompiled)); [apply later_refl|done]|].
  pose proof (h_input_spec E (tm_lt (et_model t)) p h Hp) as Hi.
  destruct (handle_input E _ (deref h p)) as [o r]. destruct (h_input E _ p h) as [o' h1]. destruct Hi as (Hl & <- & Ho).
  destruct o as [[]|e|x]; rewrite Ho; [|by apply (Hnil (Err e))|by apply (Hnil (Panic x))].
  destruct (node_evaluate E (tree_ctx t) _ (deref h1 p) tk (et_root t)) as [[scores []]|e|x];
    [by apply (Hnil (Ok None))| |by apply (Hnil (Ok None))|by apply (Hnil (Err e))|by apply (Hnil (Panic x))].
  destruct (make_map h1) as [l h2] eqn:Hm. pose proof (made_make p h h1 l h2 Hp Hl Hm) as Hmade.
  assert (∀ h3 m keys, made p h (deref h1 p) l h3 m →
    agrees p h (Ok (Some m), deref h1 p, with_keys t keys) (Some l, Ok tt, h3, with_keys t keys)) as Hyes.
  { intros h3 m keys H. pose proof H as (H1 & H2 & H3 & H4). split; [done|]. split; [done|]. split; [done|].
    split; [by eapply made_new|]. split; [done|]. split; [exact H3|done]. }
  unfold tree_output. destruct (tm_function (et_model t) =s "classification").
  - assert (∀ h3 m keys, made p h (deref h1 p) l h3 m →
      let '(m', k1) := foldl out_step (m, keys) scores in let '(h4, k2) := foldl (h_out_step l) (h3, keys) scores in
      k1 = k2 ∧ made p h (deref h1 p) l h4 m') as Hfold.
    { induction scores as [|s scores IH]; intros h3 m keys H3; simpl; [done|].
      destruct (keys !! sc_value s) as [key|]; apply IH; by apply made_put. }
    specialize (Hfold _ _ (et_outkeys t) (made_put _ _ _ _ _ _ (et_target t) (GStr (sc_value (pick_best scores))) Hp Hmade)).
    rewrite insert_empty in Hfold.
    destruct (foldl out_step _ scores) as [m' k1]. destruct (foldl (h_out_step l) _ scores) as [h4 k2].
    destruct Hfold as [<- Hf]. by apply Hyes.
  - destruct (tm_function (et_model t) =s "regression"); [|by apply Hyes].
    assert (∀ (o : res datarow) (o2 : res unit),
      match o with Ok _ => False | Err e => o2 = Err e | Panic x => o2 = Panic x end →
      agrees p h (o, deref h1 p, with_keys t (et_outkeys t)) (None, o2, h2, with_keys t (et_outkeys t))) as Hno.
    { intros o o2 Hoo. destruct Hmade as (H1 & H2 & H3 & H4). split; [done|]. split; [done|]. split; [done|].
      split; [apply new_none|]. by destruct o. }
    destruct scores as [|s scores]; [by apply Hno|].
    destruct (ext_parse_float E (sc_value s)) as [f|]; [|by apply Hno].
    apply Hyes. rewrite <- insert_empty. by apply made_put.
Qed.

Definition agrees_regr (p : mapref) (h : heap) (o : res datarow) (y : mapref * res unit * heap) : Prop :=
  agrees p h (o, deref h p, tt) (y, tt).

Lemma h_regr_spec E m p h : live h p → agrees_regr p h (regr_evaluate E m (deref h p)) (h_regr E m p h).
Proof.
  intros Hp. unfold regr_evaluate, h_regr.
  assert (∀ h1 l m, made p h (deref h p) l h1 m → agrees_regr p h (Ok (Some m)) (Some l, Ok tt, h1)) as Hyes.
  { intros h1 l m' (H1 & H2 & H3 & H4). split; [done|]. split; [done|]. split; [done|]. split; [|split; [done|split; [exact H3|done]]].
    intros l' [= <-]. split; [done|]. rewrite H3. by eexists. }
  assert (∀ h1 l m q (o : res datarow) (o' : res unit), made p h (deref h p) l h1 m → (q = None ∨ q = Some l) →
    match o with Ok _ => False | Err e => o' = Err e | Panic x => o' = Panic x end →
    agrees_regr p h o (q, o', h1)) as Hno.
  { intros h1 l m' q o o' (H1 & H2 & H3 & H4) Hq Hoo. split; [done|]. split; [done|]. split; [done|].
    split; [|by destruct o]. intros l' ->. destruct Hq as [?|[= <-]]; [done|]. split; [done|]. rewrite H3. by eexists. }
  assert (∀ (h1 : heap) l m, made p h (deref h p) l h1 m → deref h1 p = deref h p) as Hrow by by intros h1 l m' (_ & _ & _ & ?).
  destruct (make_map h) as [l h1] eqn:Hm. pose proof (made_make p h h l h1 Hp (later_refl _ _) Hm) as Hmade.
  destruct (rm_function m =s "regression").
  { unfold eval_regression, h_regression. rewrite Hm.
    destruct (rm_tables m) as [|tbl [|]]; [by eapply Hno; [|right|]| |by eapply Hno; [|right|]].
    destruct (rm_output m) as [|o [|]]; [by eapply Hno; [|right|]| |by eapply Hno; [|right|]].
    rewrite (Hrow _ _ _ Hmade). destruct (linear_form E _ _ (deref h p)) as [y|e|x]; simpl; [|by eapply Hno; [|left|]..].
    destruct (normalize E (rm_norm m) y) as [pred|e|x]; simpl; [|by eapply Hno; [|right|]|by eapply Hno; [|left|]].
    apply Hyes. rewrite <- insert_empty. by apply made_put. }
  destruct ((rm_function m =s "classification") && Nat.eqb (length (rm_output m)) 2).
  { unfold eval_binary. revert Hmade. generalize (∅ : row) h1 fone. clear Hm.
    induction (rm_tables m) as [|t ts IH]; intros m0 h0 f H0; simpl; [by apply Hyes|].
    rewrite (Hrow _ _ _ H0). destruct (if Nat.ltb 0 (length (rt_predictors t)) then _ else _) as [pred|e|x]; simpl.
    - apply IH. clear IH. revert m0 h0 H0. induction (rm_output m) as [|o os IH]; intros m0 h0 H0; simpl; [done|].
      apply IH. destruct (rt_category t =s of_value o); [by apply made_put|done].
    - eapply Hno; [done| |done]. destruct e; auto.
    - eapply Hno; [done| |done]. by left. }
  destruct (rm_function m =s "classification").
  - unfold eval_multiclass, h_multiclass. rewrite Hm, (Hrow _ _ _ Hmade).
    destruct (rmap _ (rm_tables m)) as [ys|e|x]; simpl; [|by eapply Hno; [|left|]..].
    revert Hmade. generalize (∅ : row) h1. clear Hm h1. generalize (zip ((λ t, default "" (out_fields (rm_output m) !! rt_category t)) <$> rm_tables m) ys).
    intros ts. induction ts as [|[target y] ts IH]; intros m0 h0 H0; simpl; [by apply Hyes|].
    destruct (rm_norm m =s "softmax"); [apply IH; by apply made_put|].
    destruct (rm_norm m =s "simplemax"); [apply IH; by apply made_put|].
    eapply Hno; [done|by right|done].
  - split; [done|]. split; [apply later_refl|]. split; [done|]. split; [apply new_none|done].
Qed.

Lemma h_impute_spec E tk ds p h : live h p →
  match impute E tk ds (deref h p) with
  | Ok r => ∃ h', h_impute E tk ds p h = (Ok p, h') ∧ later p h h' ∧ deref h' p = r
  | Err e => h_impute E tk ds p h = (Err e, h)
  | Panic x => h_impute E tk ds p h = (Panic x, h)
  end.
Proof.
  intros Hp. unfold impute, h_impute.
  assert (∀ l (a : res datarow) (b : res heap),
    match a with Ok r => ∃ h', b = Ok h' ∧ later p h h' ∧ live h' p ∧ deref h' p = r | Err e => b = Err e | Panic x => b = Panic x end →
    match foldl impute_step a l with
    | Ok r => ∃ h', foldl (h_impute_step p) b l = Ok h' ∧ later p h h' ∧ live h' p ∧ deref h' p = r
    | Err e => foldl (h_impute_step p) b l = Err e | Panic x => foldl (h_impute_step p) b l = Panic x end) as H.
  { induction l as [|[k v] l IH]; intros a b Hab; [done|]. cbn [foldl]. apply IH. clear IH.
    destruct a as [r|e|x]; [|by subst b..]. destruct Hab as (h' & -> & Hl & Hp' & <-). simpl.
    assert (match dr_set (deref h' p) k v with
      | Ok r => ∃ h0, store h' p k v = Ok h0 ∧ later p h h0 ∧ live h0 p ∧ deref h0 p = r
      | Err e => store h' p k v = Err e | Panic x => store h' p k v = Panic x end) as Hst.
    { pose proof (store_spec h' p k v Hp') as Hs. destruct (dr_set (deref h' p) k v); [|done..].
      destruct Hs as (h0 & -> & Hd & Hl0 & Hp0). exists h0. split; [done|]. split; [by eapply later_trans|]. by split. }
    destruct (dr_get (deref h' p) k) as [x|]; [|done]. destruct (is_nil x); [done|]. exists h'. by split. }
  specialize (H (map_range E tk ds) (Ok (deref h p)) (Ok h)).
  destruct (foldl impute_step _ _) as [r|e|x].
  - destruct H as (h' & -> & Hl & _ & Hd); [exists h; split; [done|]; split; [apply later_refl|]; by split|]. by exists h'.
  - rewrite H; [done|]. exists h; split; [done|]; split; [apply later_refl|]; by split.
  - rewrite H; [done|]. exists h; split; [done|]; split; [apply later_refl|]; by split.
Qed.

Lemma h_copy_spec E tk last p h : live h p →
  match copy_into E tk (deref h last) (deref h p) with
  | Ok r => ∃ h', h_copy E tk last p h = Ok h' ∧ later p h h' ∧ deref h' p = r
  | Err e => h_copy E tk last p h = Err e
  | Panic x => h_copy E tk last p h = Panic x
  end.
Proof.
  intros Hp. unfold copy_into, h_copy. generalize (map_range E tk (default ∅ (deref h last))). intros l.
  assert (∀ l (a : res datarow) (b : res heap),
    match a with Ok r => ∃ h', b = Ok h' ∧ later p h h' ∧ live h' p ∧ deref h' p = r | Err e => b = Err e | Panic x => b = Panic x end →
    match foldl (λ acc '(k, v), r <-! acc; dr_set r k v) a l with
    | Ok r => ∃ h', foldl (λ acc '(k, v), h <-! acc; store h p k v) b l = Ok h' ∧ later p h h' ∧ live h' p ∧ deref h' p = r
    | Err e => foldl (λ acc '(k, v), h <-! acc; store h p k v) b l = Err e
    | Panic x => foldl (λ acc '(k, v), h <-! acc; store h p k v) b l = Panic x end) as H.
  { clear l. induction l as [|[k v] l IH]; intros a b Hab; [done|]. cbn [foldl]. apply IH. clear IH.
    destruct a as [r|e|x]; [|by subst b..]. destruct Hab as (h' & -> & Hl & Hp' & <-). simpl.
    pose proof (store_spec h' p k v Hp') as Hs. destruct (dr_set (deref h' p) k v); [|done..].
    destruct Hs as (h0 & -> & Hd & Hl0 & Hp0). exists h0. split; [done|]. split; [by eapply later_trans|]. by split. }
  specialize (H l (Ok (deref h p)) (Ok h)).
  destruct (foldl _ (Ok (deref h p)) l) as [r|e|x].
  - destruct H as (h' & -> & Hl & _ & Hd); [exists h; split; [done|]; split; [apply later_refl|]; by split|]. by exists h'.
  - rewrite H; [done|]. exists h; split; [done|]; split; [apply later_refl|]; by split.
  - rewrite H; [done|]. exists h; split; [done|]; split; [apply later_refl|]; by split.
Qed.

Section methods.
  Context {M : Type} (E : Ext) (tk : ticket) (p : mapref).
  Context (ev : nat → M → datarow → outcome M) (hev : nat → M → mapref → heap → hres M).

  (** a row returned from a call made after [h0] *)
  Lemma agrees_later {N} h0 h (x : outcome N) y : later p h0 h → agrees p h x y → agrees p h0 x y.
  Proof.
    destruct x as [[o r] m], y as [[[q o'] h'] m']. intros Hl (H1 & H2 & H3 & H4 & H5).
    split; [done|]. split; [by eapply later_trans|]. split; [done|]. split; [by eapply later_new|done].
  Qed.

  Lemma h_first_spec h sm : live h p →
    (∀ s, s ∈ sm → ∀ h', live h' p → agrees p h' (ev 0 s (deref h' p)) (hev 0 s p h')) →
    agrees p h (select_first (ev 0) sm (deref h p)) (h_first (hev 0) sm p h).
  Proof.
    intros Hp Hev. destruct sm as [|s sm]; simpl.
    { split; [done|]. split; [apply later_refl|]. split; [done|]. split; [apply new_none|done]. }
    specialize (Hev s ltac:(set_solver) h Hp). destruct (ev 0 s (deref h p)) as [[o r] s1].
    destruct (hev 0 s p h) as [[[q o'] h'] s2]. destruct Hev as (-> & H2 & H3 & H4 & H5).
    destruct o as [out|e|x].
    - destruct H5 as (-> & H6). split; [done|]. split; [done|]. split; [done|]. by split.
    - rewrite H5. split; [done|]. split; [done|]. split; [done|]. split; [apply new_none|done].
    - rewrite H5. split; [done|]. split; [done|]. split; [done|]. split; [apply new_none|done].
  Qed.

  Lemma h_links_spec h0 sm : ∀ i last h, live h p → later p h0 h → new_ref h0 h last → (deref h last = None → last = None) →
    (∀ s, s ∈ sm → ∀ i h', live h' p → agrees p h' (ev i s (deref h' p)) (hev i s p h')) →
    agrees p h0 (chain E tk ev i (deref h last) sm (deref h p)) (h_links E tk hev i last sm p h).
  Proof.
    induction sm as [|s sm IH]; intros i last h Hp Hl Hn Hz Hev.
    { simpl. split; [done|]. split; [done|]. split; [done|]. split; [done|]. split; [done|]. by split. }
    cbn [chain h_links]. pose proof (h_copy_spec E (0 :: i :: tk) last p h Hp) as Hc.
    destruct (copy_into E (0 :: i :: tk) (deref h last) (deref h p)) as [r1|e|x].
    2,3: rewrite Hc; split; [done|]; split; [done|]; split; [done|]; split; [apply new_none|done].
    destruct Hc as (h1 & -> & Hl1 & <-). pose proof (later_live _ _ _ _ Hl1 Hp) as Hp1.
    pose proof (Hev s ltac:(set_solver) i h1 Hp1) as Hs. destruct (ev i s (deref h1 p)) as [[o r] s1].
    destruct (hev i s p h1) as [[[q o'] h2] s2]. destruct Hs as (-> & H2 & <- & H4 & H5).
    assert (later p h0 h2) as Hl2 by (eapply later_trans; [done|]; by eapply later_trans).
    destruct o as [out|e|x].
    2,3: rewrite H5; split; [done|]; split; [done|]; split; [done|]; split; [apply new_none|done].
    destruct H5 as (-> & <- & H7).
    specialize (IH (S i) q h2 (later_live _ _ _ _ H2 Hp1) Hl2).
    assert (new_ref h0 h2 q) as Hn2 by (eapply (later_new p h0 h1); [|exact H4]; exact (later_trans _ _ _ _ Hl Hl1)).
    specialize (IH Hn2 H7 ltac:(intros s' Hs'; apply Hev; set_solver)).
    destruct (chain E tk ev (S i) (deref h2 q) sm (deref h2 p)) as [[o r] sm1].
    destruct (h_links E tk hev (S i) q sm p h2) as [[[q' o'] h3] sm2].
    destruct IH as (-> & ?). by split.
  Qed.

  Lemma h_chain_spec h sm : live h p →
    (∀ s, s ∈ sm → ∀ i h', live h' p → agrees p h' (ev i s (deref h' p)) (hev i s p h')) →
    agrees p h (chain E tk ev 0 (Some ∅) sm (deref h p)) (h_chain E tk hev sm p h).
  Proof.
    intros Hp Hev. unfold h_chain. destruct (make_map h) as [l h1] eqn:Hm.
    pose proof (made_make p h h l h1 Hp (later_refl _ _) Hm) as Hmade. pose proof Hmade as (H1 & H2 & H3 & H4).
    rewrite <- H4. change (Some ∅) with (Some (∅ : row)). rewrite <- H3. change (h1 !! l) with (deref h1 (Some l)).
    apply h_links_spec; [by eapply later_live|done|by eapply made_new| |done].
    unfold deref. simpl. rewrite H3. done.
  Qed.

  Lemma h_segments_spec b h0 sm : ∀ i scores h, live h p → later p h0 h →
    (∀ s, s ∈ sm → ∀ i h', live h' p → agrees p h' (ev i s (deref h' p)) (hev i s p h')) →
    let '(o, r, sm1) := sum_segments E tk b ev i scores sm (deref h p) in
    let '(o', h', sm2) := h_segments E tk b hev i scores sm p h in
    o' = o ∧ sm2 = sm1 ∧ later p h0 h' ∧ deref h' p = r.
  Proof.
    induction sm as [|s sm IH]; intros i scores h Hp Hl Hev; [done|]. cbn [sum_segments h_segments].
    pose proof (Hev s ltac:(set_solver) i h Hp) as Hs. destruct (ev i s (deref h p)) as [[o r] s1].
    destruct (hev i s p h) as [[[q o'] h1] s2]. destruct Hs as (-> & H2 & <- & H4 & H5).
    assert (later p h0 h1) as Hl1 by by eapply later_trans.
    destruct o as [out|e|x]; [|by rewrite H5..]. destruct H5 as (-> & <- & _).
    specialize (IH (S i) (score_add E (1 :: i :: tk) b (deref h1 q) scores) h1 (later_live _ _ _ _ H2 Hp) Hl1
      ltac:(intros s' Hs'; apply Hev; set_solver)).
    destruct (sum_segments E tk b ev (S i) _ sm (deref h1 p)) as [[o r] sm1].
    destruct (h_segments E tk b hev (S i) _ sm p h1) as [[o' h2] sm2]. by destruct IH as (-> & -> & ?).
  Qed.

  (** the row made by evaluateMultipleModelSum *)
  Lemma h_sum_spec hd h sm : live h p →
    (∀ s, s ∈ sm → ∀ i h', live h' p → agrees p h' (ev i s (deref h' p)) (hev i s p h')) →
    match sum_models E tk hd ev sm (deref h p) with
    | (Ok out, r, sm1) => ∃ l h', h_sum E tk hd hev sm p h = (Some l, Ok tt, h', sm1) ∧ made p h r l h' out
    | (Err e, r, sm1) => ∃ h', h_sum E tk hd hev sm p h = (None, Err e, h', sm1) ∧ later p h h' ∧ deref h' p = r
    | (Panic x, r, sm1) => ∃ h', h_sum E tk hd hev sm p h = (None, Panic x, h', sm1) ∧ later p h h' ∧ deref h' p = r
    end.
  Proof.
    intros Hp Hev. unfold sum_models, h_sum.
    pose proof (h_segments_spec (mm_function (em_hdr hd) =s "classification") h sm 0
      (score_init (em_outputs hd) (em_targets hd)) h Hp (later_refl _ _) Hev) as Hs.
    destruct (sum_segments _ _ _ _ _ _ _ _) as [[o r] sm1]. destruct (h_segments _ _ _ _ _ _ _ _ _) as [[o' h1] sm2].
    destruct Hs as (-> & -> & Hl & <-). destruct o as [scores|e|x]; [|by exists h1..].
    destruct (make_map h1) as [l h2] eqn:Hm. pose proof (made_make p h h1 l h2 Hp Hl Hm) as Hmade.
    exists l. eexists. split; [done|]. unfold score_out. revert Hmade. generalize (∅ : row) h2.
    generalize (map_range E (2 :: tk) (foldl rescale_step scores (em_targets hd))). clear -Hp.
    intros ks. induction ks as [|[k v] ks IH]; intros m h2 H2; simpl; [done|]. apply IH. by apply made_put.
  Qed.

  Lemma made_agrees {N} h r l h' m (sm : N) : made p h r l h' m → agrees p h (Ok (Some m), r, sm) (Some l, Ok tt, h', sm).
  Proof.
    intros H. pose proof H as (H1 & H2 & H3 & H4). split; [done|]. split; [done|]. split; [done|].
    split; [by eapply made_new|]. split; [done|]. split; [exact H3|done].
  Qed.

  Lemma h_method_spec hd h sm : live h p →
    (∀ s, s ∈ sm → ∀ i h', live h' p → agrees p h' (ev i s (deref h' p)) (hev i s p h')) →
    agrees p h (run_method E tk hd ev sm (deref h p)) (h_method E tk hd hev sm p h).
  Proof.
    intros Hp Hev. unfold run_method, h_method.
    pose proof (h_sum_spec hd h sm Hp Hev) as Hs.
    destruct (mm_method (em_hdr hd) =s "average").
    { unfold average_models, h_average. destruct (sum_models E tk hd ev sm (deref h p)) as [[[out|e|x] r] sm1].
      - destruct Hs as (l & h' & -> & Hm). cbn [wrap_row]. apply made_agrees. pose proof Hm as (_ & _ & H3 & _).
        unfold average_row, deref. simpl. rewrite H3. simpl.
        generalize (map_range E (3 :: tk) out). intros ks. clear H3. revert out h' Hm.
        induction ks as [|[k v] ks IH]; intros m h2 H2; simpl; [done|]. apply IH. by apply made_put.
      - destruct Hs as (h' & -> & Hl & <-). split; [done|]. split; [done|]. split; [done|]. split; [apply new_none|done].
      - destruct Hs as (h' & -> & Hl & <-). split; [done|]. split; [done|]. split; [done|]. split; [apply new_none|done]. }
    destruct (mm_method (em_hdr hd) =s "sum").
    { destruct (sum_models E tk hd ev sm (deref h p)) as [[[out|e|x] r] sm1].
      - destruct Hs as (l & h' & -> & Hm). cbn [wrap_row]. by apply made_agrees.
      - destruct Hs as (h' & -> & Hl & <-). split; [done|]. split; [done|]. split; [done|]. split; [apply new_none|done].
      - destruct Hs as (h' & -> & Hl & <-). split; [done|]. split; [done|]. split; [done|]. split; [apply new_none|done]. }
    destruct (mm_method (em_hdr hd) =s "modelChain"); [by apply h_chain_spec|].
    destruct (mm_method (em_hdr hd) =s "selectFirst"); [apply h_first_spec; [done|]; intros s Hs'; by apply Hev|].
    split; [done|]. split; [apply later_refl|]. split; [done|]. split; [apply new_none|done].
  Qed.
End methods.

Lemma h_evaluate_spec E e : ∀ tk p h, live h p → agrees p h (evaluate E tk e (deref h p)) (h_evaluate E tk e p h).
Proof.
  induction e as [t|x|hd sm IH] using emodel_rect'; intros tk p h Hp.
  - cbn [evaluate h_evaluate]. pose proof (h_tree_spec E tk t p h Hp) as H.
    destruct (tree_evaluate E tk t (deref h p)) as [[o r] t1]. destruct (h_tree E tk t p h) as [[[q o'] h1] t2].
    destruct H as (-> & H). by split.
  - cbn [evaluate h_evaluate]. pose proof (h_regr_spec E (er_model x) p h Hp) as H. unfold agrees_regr in H.
    destruct (h_regr E (er_model x) p h) as [[q o'] h1]. destruct H as (_ & H). by split.
  - cbn [evaluate h_evaluate].
    assert (∀ (o : res datarow) (o' : res unit) h1, later p h h1 →
      match o with Ok _ => False | Err e => o' = Err e | Panic x => o' = Panic x end →
      agrees p h (o, deref h1 p, EMining hd sm) (None, o', h1, EMining hd sm)) as Hno.
    { intros o o' h1 Hl Ho. split; [done|]. split; [done|]. split; [done|]. split; [apply new_none|by destruct o]. }
    destruct (negb (em_validated hd)); [apply (Hno (Err ENotValidated)); [apply later_refl|done]|].
    destruct (negb (em_compiled hd)); [apply (Hno (Err ENotCompiled)); [apply later_refl|done]|].
    pose proof (h_impute_spec E (4 :: tk) (em_defaults hd) p h Hp) as Hi.
    destruct (impute E (4 :: tk) (em_defaults hd) (deref h p)) as [r1|e|x].
    2:{ rewrite Hi. apply (Hno (Err e)); [apply later_refl|done]. }
    2:{ rewrite Hi. apply (Hno (Panic x)); [apply later_refl|done]. }
    destruct Hi as (h1 & -> & Hl1 & <-). pose proof (later_live _ _ _ _ Hl1 Hp) as Hp1.
    pose proof (h_input_spec E (mm_lt (em_hdr hd)) p h1 Hp1) as H.
    destruct (handle_input E _ (deref h1 p)) as [o r]. destruct (h_input E _ p h1) as [o' h2]. destruct H as (Hl2 & <- & Ho).
    assert (later p h h2) as Hl by by eapply later_trans.
    destruct o as [[]|e|x]; rewrite Ho; [|by apply (Hno (Err e))|by apply (Hno (Panic x))].
    pose proof (h_method_spec E tk p (λ i s r, evaluate E (5 :: i :: tk) s r) (λ i s p h, h_evaluate E (5 :: i :: tk) s p h) hd h2 sm
      (later_live _ _ _ _ Hl2 Hp1)) as Hm.
    assert (agrees p h2 (run_method E tk hd (λ i s r, evaluate E (5 :: i :: tk) s r) sm (deref h2 p))
      (h_method E tk hd (λ i s p h, h_evaluate E (5 :: i :: tk) s p h) sm p h2)) as H.
    { apply Hm. intros s Hs i h' Hp'. rewrite Forall_forall in IH. by apply IH. }
    apply (agrees_later p h h2 _ _ Hl) in H. clear Hm.
    destruct (run_method E tk hd _ sm (deref h2 p)) as [[o r] sm1]. destruct (h_method E tk hd _ sm p h2) as [[[q o''] h3] sm2].
    destruct H as (-> & H). by split.
Qed.
