(** Proofs about expressions and derived fields (input.go), and values. *)
From Verif Require Import Base Strconv Value Doc Expr Lib SpecExpr ProofsPred.

(** ** Unfolding equations for Apply *)

(** The loop of "sum". *)
Definition sum_loop (E : Ext) (r : datarow) : f64 → list expr → res value :=
  fix go s l :=
    match l with
    | [] => Ok (GF64 s)
    | a :: l' => v <-! handle_expr E a r; go (fadd s (val_float64 E v)) l'
    end.

Lemma handle_sum E d m args r :
  handle_expr E (XApply "sum" d m args) r = sum_loop E r fzero args.
Proof. reflexivity. Qed.

Lemma handle_arith E fn d m args r op :
  arith_meaning fn = Some op →
  handle_expr E (XApply fn d m args) r =
  match args with
  | [a; b] =>
      x <-! handle_expr E a r; y <-! handle_expr E b r;
      Ok (GF64 (op (val_float64 E x) (val_float64 E y)))
  | _ => Err (EArity fn (length args))
  end.
Proof.
  unfold arith_meaning. intros H.
  repeat case_str_in H; destruct args as [|a [|b [|c args]]]; reflexivity.
Qed.

Lemma sum_loop_ok E r s args vs :
  rmap (λ a, handle_expr E a r) args = Ok vs →
  sum_loop E r s args = Ok (GF64 (foldl (λ acc v, fadd acc (val_float64 E v)) s vs)).
Proof.
  revert s vs. induction args as [|a args IH]; intros s vs; simpl.
  - by intros [= <-].
  - intros (v & Hv & (vs' & Hvs & [= <-])%rbind_ok)%rbind_ok.
    rewrite Hv. simpl. by apply IH.
Qed.

Lemma sum_loop_fail E r s args :
  match rmap (λ a, handle_expr E a r) args with
  | Ok _ => True
  | Err e => sum_loop E r s args = Err e
  | Panic p => sum_loop E r s args = Panic p
  end.
Proof.
  revert s. induction args as [|a args IH]; intros s; simpl; [done|].
  destruct (handle_expr E a r) as [v| |]; simpl; try done.
  specialize (IH (fadd s (val_float64 E v))).
  destruct (rmap _ args); simpl; done.
Qed.

(** ** No panics, no lifecycle errors *)

Lemma handle_map_values_no_panic E a b c d r p : handle_map_values E a b c d r ≠ Panic p.
Proof.
  unfold handle_map_values. case_match; [done|]. case_match; [apply get_raw_value_no_panic|].
  by case_match.
Qed.

Lemma handle_expr_no_panic E e r p : handle_expr E e r ≠ Panic p.
Proof.
  revert p. induction e as [f m|dt v|fn d m args IH|a b c d e f|k] using expr_rect'; intros p.
  - done.
  - simpl. unfold handle_constant. repeat case_match; done.
  - destruct (decide (fn = "sum")) as [->|Hsum].
    { rewrite handle_sum. generalize fzero. induction IH as [|a args Ha _ IHa]; intros s; simpl; [done|].
      intros [H|(v & Hv & H)]%rbind_panic; [by apply Ha in H|by apply IHa in H]. }
    destruct (arith_meaning fn) as [op|] eqn:Har.
    { rewrite (handle_arith _ _ _ _ _ _ _ Har). destruct args as [|a [|b [|c args]]]; try done.
      apply Forall_cons in IH as [Ha IH]. apply Forall_cons in IH as [Hb _].
      intros [H|(v & Hv & H)]%rbind_panic; [by apply Ha in H|].
      apply rbind_panic in H as [H|(w & Hw & H)]; [by apply Hb in H|done]. }
    simpl. apply String.eqb_neq in Hsum as ->.
    assert (is_arith fn = false) as ->.
    { unfold arith_meaning in Har. unfold is_arith. 
      repeat case_str_in Har; repeat case_str; done. }
    repeat case_str; try done.
    + destruct args as [|a [|b args]]; try done. apply Forall_cons in IH as [Ha _].
      intros [H|(v & Hv & H)]%rbind_panic; [by apply Ha in H|done].
    + destruct args as [|a [|b args]]; try done. apply Forall_cons in IH as [Ha _].
      intros [H|(v & Hv & H)]%rbind_panic; [by apply Ha in H|done].
    + destruct args as [|c [|a [|b [|? args]]]]; try done.
      apply Forall_cons in IH as [Hc IH]. apply Forall_cons in IH as [Ha IH].
      apply Forall_cons in IH as [Hb _].
      intros [H|(v & Hv & H)]%rbind_panic; [by apply Hc in H|].
      destruct (val_bool v); [by apply Ha in H|by apply Hb in H].
  - simpl. apply handle_map_values_no_panic.
  - done.
Qed.

(** ** Locality *)

Lemma map_columns_local pairs r1 r2 :
  (∀ f, f ∈ pairs.*1 → dr_get r1 f = dr_get r2 f) →
  map_columns pairs r1 = map_columns pairs r2.
Proof.
  unfold map_columns. generalize (∅ : row).
  induction pairs as [|[f c] pairs IH]; intros cols H; simpl; [done|].
  rewrite (H f) by (simpl; set_solver). apply IH. intros f' Hf'. apply H. simpl. set_solver.
Qed.

Lemma handle_expr_local E e r1 r2 :
  (∀ f, f ∈ expr_fields e → dr_get r1 f = dr_get r2 f) →
  handle_expr E e r1 = handle_expr E e r2.
Proof.
  induction e as [f m|dt v|fn d m args IH|a b c d e f|k] using expr_rect'; intros H.
  - simpl. rewrite H; [done|]. simpl. set_solver.
  - done.
  - assert (Hargs : Forall (λ a, handle_expr E a r1 = handle_expr E a r2) args).
    { rewrite Forall_forall in IH |- *. intros a Ha. apply IH; [done|].
      intros f Hf. apply H. simpl. apply elem_of_concat_map. eauto. }
    clear IH H.
    simpl. destruct (fn =s "sum").
    { generalize fzero. induction Hargs as [|a args Ha _ IH]; intros s; [done|].
      rewrite Ha. destruct (handle_expr E a r2); simpl; try done. }
    destruct (is_arith fn).
    { destruct Hargs as [|a args Ha Hargs]; [done|].
      destruct Hargs as [|b args Hb Hargs]; [done|]. destruct args; [|done].
      by rewrite Ha, Hb. }
    destruct (fn =s "isMissing").
    { destruct Hargs as [|a args Ha Hargs]; [done|]. destruct args; [|done]. by rewrite Ha. }
    destruct (fn =s "isNotMissing").
    { destruct Hargs as [|a args Ha Hargs]; [done|]. destruct args; [|done]. by rewrite Ha. }
    destruct (fn =s "if"); [|done].
    destruct Hargs as [|c args Hc Hargs]; [done|].
    destruct Hargs as [|a args Ha Hargs]; [done|].
    destruct Hargs as [|b args Hb Hargs]; [done|]. destruct args; [|done].
    by rewrite Hc, Ha, Hb.
  - simpl. unfold handle_map_values. by rewrite (map_columns_local _ r1 r2).
  - done.
Qed.

(** ** MapValues *)

Lemma map_columns_other pairs r c :
  (∀ f, (f, c) ∉ pairs) → map_columns pairs r !! c = None.
Proof.
  unfold map_columns. intros H.
  assert (∀ cols : row, foldl (λ cols '(fld, col),
           match dr_get r fld with Some v => <[col := v]> cols | None => cols end) cols pairs !! c
           = cols !! c) as Hg; [|by rewrite Hg].
  induction pairs as [|[f c'] pairs IH]; intros cols; simpl; [done|].
  rewrite IH by set_solver.
  destruct (dr_get r f); [|done]. apply lookup_insert_ne. intros ->. apply (H f). set_solver.
Qed.

Lemma last_cons_default {A} (x : A) l : last (x :: l) = Some (default x (last l)).
Proof. revert x. induction l as [|y l IH]; intros x; [done|]. simpl in *. by rewrite IH. Qed.

Lemma map_columns_last pairs r c :
  map_columns pairs r !! c = last (omap (λ '(f, c'), if c' =s c then dr_get r f else None) pairs).
Proof.
  unfold map_columns.
  assert (∀ cols : row, foldl (λ cols '(fld, col),
           match dr_get r fld with Some v => <[col := v]> cols | None => cols end) cols pairs !! c
           = match last (omap (λ '(f, c'), if c' =s c then dr_get r f else None) pairs) with
             | Some v => Some v | None => cols !! c end) as Hg.
  { set (g := λ '(f, c'), if c' =s c then dr_get r f else None).
    induction pairs as [|[f c'] pairs IH]; intros cols; [done|].
    assert (omap g ((f, c') :: pairs) =
            match g (f, c') with Some y => y :: omap g pairs | None => omap g pairs end) as ->
      by done.
    cbn [foldl]. rewrite IH. simpl.
    destruct (String.eqb_spec c' c) as [->|Hc].
    - destruct (dr_get r f) as [v|]; [|done].
      rewrite last_cons_default. destruct (last (omap g pairs)); [done|].
      simpl. apply (lookup_insert (M := gmap string)).
    - destruct (dr_get r f) as [v|]; [|done]. f_equal/=. destruct (last _); [done|]. by apply (lookup_insert_ne (M := gmap string)). }
  rewrite Hg, lookup_empty. by destruct (last _).
Qed.

Lemma foldl_concat {A B} (f : A → B → A) (tables : list (list B)) a :
  foldl (λ a tbl, foldl f a tbl) a tables = foldl f a (concat tables).
Proof.
  revert a. induction tables as [|t tables IH]; intros a; simpl; [done|].
  by rewrite foldl_app, IH.
Qed.

Lemma map_table_steps E rows cols :
  let s := val_string E (default GNil (cols !! "data:input")) in
  let cols' := foldl (map_table_step E) cols rows in
  cols' !! "data:input" = cols !! "data:input" ∧
  cols' !! "data:output" =
    match last (filter (λ rw, default "" (rw !! "input") = s) rows) with
    | Some rw => Some (GStr (default "" (rw !! "output")))
    | None => cols !! "data:output"
    end.
Proof.
  revert cols. induction rows as [|rw rows IH]; intros cols; simpl; [done|].
  destruct (IH (map_table_step E cols rw)) as [IH1 IH2]. rewrite IH1, IH2. clear IH IH1 IH2.
  assert (Hin : map_table_step E cols rw !! "data:input" = cols !! "data:input").
  { unfold map_table_step. case_str; [|done]. by rewrite lookup_insert_ne. }
  rewrite Hin. split; [done|]. rewrite filter_cons. unfold map_table_step.
  destruct (String.eqb_spec (default "" (rw !! "input"))
              (val_string E (default GNil (cols !! "data:input")))) as [Heq|Hne].
  - rewrite decide_True by done. rewrite last_cons_default.
    destruct (last _); simpl; [done|]. by rewrite lookup_insert.
  - by rewrite decide_False.
Qed.

Lemma handle_map_spec E pairs tables dflt dt oc mmt r :
  (∀ f, (f, "data:output") ∉ pairs) →
  handle_expr E (XMap pairs tables dflt dt oc mmt) r =
  match map_match tables (val_string E (default GNil (map_input pairs r))) with
  | Some rw => Ok (GStr (default "" (rw !! "output")))
  | None =>
      match dflt with
      | Some d => get_raw_value E dt d
      | None => match map_input pairs r with Some v => Ok v | None => Err EMapValues end
      end
  end.
Proof.
  intros Hp. simpl. unfold handle_map_values. rewrite foldl_concat.
  destruct (map_table_steps E (concat tables) (map_columns pairs r)) as [H1 H2].
  rewrite H1, H2. rewrite (map_columns_other _ _ _ Hp).
  rewrite (map_columns_last pairs r "data:input").
  unfold map_match, map_input.
  match goal with
  | |- match (match ?a with _ => _ end) with _ => _ end = _ => by destruct a
  end.
Qed.

(** ** isMissing, isNotMissing, if *)

Lemma handle_isMissing E d m args r :
  handle_expr E (XApply "isMissing" d m args) r =
  match args with
  | [a] => x <-! handle_expr E a r; Ok (GBool (bool_decide (missing x)))
  | _ => Err (EArity "isMissing" (length args))
  end.
Proof.
  destruct args as [|a [|b args]]; try reflexivity.
  simpl. destruct (handle_expr E a r) as [x| |]; try done. by destruct x.
Qed.

Lemma handle_isNotMissing E d m args r :
  handle_expr E (XApply "isNotMissing" d m args) r =
  match args with
  | [a] => x <-! handle_expr E a r; Ok (GBool (negb (bool_decide (missing x))))
  | _ => Err (EArity "isNotMissing" (length args))
  end.
Proof.
  destruct args as [|a [|b args]]; try reflexivity.
  simpl. destruct (handle_expr E a r) as [x| |]; try done. by destruct x.
Qed.

Lemma handle_if E d m c a b r :
  handle_expr E (XApply "if" d m [c; a; b]) r =
  match handle_expr E c r with
  | Ok (GBool true) => handle_expr E a r
  | Ok _ => handle_expr E b r
  | Err e => Err e
  | Panic p => Panic p
  end.
Proof.
  simpl. destruct (handle_expr E c r) as [x| |]; simpl; try done.
  by destruct x as [|[]|?|?|?|? ?|? ?].
Qed.

(** ** Derived fields *)

Lemma handle_input_frame E lt m o r' k :
  handle_input E lt (Some m) = (o, r') → k ∉ map df_name lt →
  ∃ m', r' = Some m' ∧ m' !! k = m !! k.
Proof.
  revert m. induction lt as [|df lt IH]; intros m; simpl.
  - intros [= <- <-]. eauto.
  - intros H Hk. destruct (handle_expr E (df_expr df) (Some m)) as [v| |]; simplify_eq/=; eauto.
    apply IH in H as (m' & -> & Hm'); [|set_solver].
    exists m'. split; [done|]. rewrite Hm', lookup_insert_ne; set_solver.
Qed.

Lemma handle_input_dom E lt m o r' k :
  handle_input E lt (Some m) = (o, r') → is_Some (m !! k) →
  ∃ m', r' = Some m' ∧ is_Some (m' !! k).
Proof.
  revert m. induction lt as [|df lt IH]; intros m; simpl.
  - intros [= <- <-]. eauto.
  - intros H Hk. destruct (handle_expr E (df_expr df) (Some m)) as [v| |]; simplify_eq/=; eauto.
    eapply IH in H as (m' & -> & Hm'); [eauto|].
    rewrite lookup_insert_is_Some. destruct (decide (df_name df = k)); eauto.
Qed.

Lemma handle_input_app E l1 l2 r :
  handle_input E (l1 ++ l2) r =
  match handle_input E l1 r with
  | (Ok _, r') => handle_input E l2 r'
  | x => x
  end.
Proof.
  revert r. induction l1 as [|df l1 IH]; intros r; simpl; [done|].
  destruct (handle_expr E (df_expr df) r) as [v| |]; try done.
  destruct (dr_set r (df_name df) _) as [r'| |]; try done.
Qed.

Lemma handle_input_ok_some E lt m o r' :
  handle_input E lt (Some m) = (o, r') → ∃ m', r' = Some m'.
Proof.
  revert m. induction lt as [|df lt IH]; intros m; simpl; [naive_solver|].
  destruct (handle_expr E (df_expr df) (Some m)) as [v| |]; simpl; [|naive_solver..].
  intros H. by eapply IH.
Qed.

(** each derived field gets the value of its expression at its turn *)
Lemma handle_input_each E l1 df l2 m r' :
  handle_input E (l1 ++ df :: l2) (Some m) = (Ok tt, r') →
  ∃ mid v m', handle_input E l1 (Some m) = (Ok tt, Some mid) ∧
    handle_expr E (df_expr df) (Some mid) = Ok v ∧
    r' = Some m' ∧
    (df_name df ∉ map df_name l2 → m' !! df_name df = Some (stored E df v)).
Proof.
  rewrite handle_input_app.
  destruct (handle_input E l1 (Some m)) as [[[]| |] rmid] eqn:H1; [|done..].
  destruct (handle_input_ok_some _ _ _ _ _ H1) as [mid ->]. simpl.
  destruct (handle_expr E (df_expr df) (Some mid)) as [v| |] eqn:Hv; [|done..]. simpl.
  intros H2. destruct (handle_input_ok_some _ _ _ _ _ H2) as [m' ->].
  exists mid, v, m'. repeat split; try done. intros Hn.
  destruct (handle_input_frame _ _ _ _ _ (df_name df) H2 Hn) as (m'' & [= <-] & ->).
  by rewrite lookup_insert.
Qed.

(** in document order with single definitions, every defining equation holds in
    the final row *)
Lemma handle_input_solves E lt m r' :
  well_ordered lt → handle_input E lt (Some m) = (Ok tt, r') →
  ∃ m', r' = Some m' ∧
  ∀ df, df ∈ lt → ∃ v, handle_expr E (df_expr df) (Some m') = Ok v ∧
                       m' !! df_name df = Some (stored E df v).
Proof.
  revert m. induction lt as [|df lt IH]; intros m Hw H; simpl in *.
  - simplify_eq. eexists; split; [done|]. set_solver.
  - destruct Hw as (Hn1 & Hn2 & Hn3 & Hw).
    destruct (handle_expr E (df_expr df) (Some m)) as [v| |] eqn:Hv; [|done..].
    simpl in H. destruct (IH _ Hw H) as (m' & -> & Hall).
    exists m'. split; [done|]. intros df' [->|Hin]%elem_of_cons; [|by apply Hall].
    exists v. split.
    + rewrite <-Hv. apply handle_expr_local. intros f Hf. simpl.
      destruct (handle_input_frame _ _ _ _ _ f H (Hn3 f Hf)) as (? & [= <-] & ->).
      apply lookup_insert_ne. by intros <-.
    + destruct (handle_input_frame _ _ _ _ _ (df_name df) H Hn1) as (? & [= <-] & ->).
      by rewrite lookup_insert.
Qed.

(** ... and computing the derived fields again changes nothing *)
Lemma handle_input_fixed E lt m' :
  (∀ df, df ∈ lt → ∃ v, handle_expr E (df_expr df) (Some m') = Ok v ∧
                        m' !! df_name df = Some (stored E df v)) →
  handle_input E lt (Some m') = (Ok tt, Some m').
Proof.
  induction lt as [|df lt IH]; intros H; simpl; [done|].
  destruct (H df) as (v & Hv & Hm); [left|]. rewrite Hv. simpl.
  fold (stored E df v). rewrite insert_id by done. apply IH. intros df' Hdf'. apply H. by right.
Qed.

Lemma handle_input_idempotent E lt m r' :
  well_ordered lt → handle_input E lt (Some m) = (Ok tt, r') →
  handle_input E lt r' = (Ok tt, r').
Proof.
  intros Hw H. destruct (handle_input_solves _ _ _ _ Hw H) as (m' & -> & Hall).
  by apply handle_input_fixed.
Qed.

(** on a non-nil row HandleInput never panics *)
Lemma handle_input_no_panic E lt m p r' : handle_input E lt (Some m) ≠ (Panic p, r').
Proof.
  revert m. induction lt as [|df lt IH]; intros m; simpl; [done|].
  destruct (handle_expr E (df_expr df) (Some m)) as [v| |x] eqn:Hv; simpl; [|done|].
  - apply IH.
  - by apply handle_expr_no_panic in Hv.
Qed.

(** The outcome and the row of HandleInput when a derived field fails. *)
Lemma handle_input_fails E l1 df l2 r r1 e :
  handle_input E l1 r = (Ok tt, r1) →
  handle_expr E (df_expr df) r1 = Err e →
  handle_input E (l1 ++ df :: l2) r = (Err e, r1).
Proof. intros H1 H2. rewrite handle_input_app, H1. simpl. by rewrite H2. Qed.

(** conversely an error of HandleInput is the error of one of the expressions *)
Lemma handle_input_err_inv E lt m e r' :
  handle_input E lt (Some m) = (Err e, r') →
  ∃ l1 df l2, lt = l1 ++ df :: l2 ∧ handle_input E l1 (Some m) = (Ok tt, r') ∧
              handle_expr E (df_expr df) r' = Err e.
Proof.
  revert m. induction lt as [|df lt IH]; intros m; simpl; [done|].
  destruct (handle_expr E (df_expr df) (Some m)) as [v|x|x] eqn:Hv; simpl; [|intros [= -> <-]|done].
  - intros (l1 & df' & l2 & -> & H1 & H2)%IH.
    exists (df :: l1), df', l2. split; [done|]. simpl. rewrite Hv. simpl. done.
  - exists [], df, lt. done.
Qed.

Lemma sum_first_error E d m l1 a l2 r vs e :
  Forall2 (λ a v, handle_expr E a r = Ok v) l1 vs →
  handle_expr E a r = Err e →
  handle_expr E (XApply "sum" d m (l1 ++ a :: l2)) r = Err e.
Proof.
  intros H He. rewrite handle_sum. generalize fzero.
  induction H as [|x v l1 vs Hx _ IH]; intros s; simpl.
  - by rewrite He.
  - rewrite Hx. simpl. apply IH.
Qed.

Lemma missing_complement E d m d' m' args r :
  (∃ b, handle_expr E (XApply "isMissing" d m args) r = Ok (GBool b) ∧
        handle_expr E (XApply "isNotMissing" d' m' args) r = Ok (GBool (negb b))) ∨
  (∃ e e', handle_expr E (XApply "isMissing" d m args) r = Err e ∧
           handle_expr E (XApply "isNotMissing" d' m' args) r = Err e').
Proof.
  rewrite handle_isMissing, handle_isNotMissing.
  destruct args as [|a [|b args]]; [right; eauto| |right; eauto].
  destruct (handle_expr E a r) as [v|e|p] eqn:Hv; simpl.
  - left. eauto.
  - right. eauto.
  - by apply handle_expr_no_panic in Hv.
Qed.
