(** The loops over Go maps whose result does not depend on the iteration order:
    each is equal to an order-free function of its arguments. *)
From Verif Require Import Base Strconv Value Doc Expr Pred Tree Regression Model Lib.

Lemma list_to_map_range {A} E t (m : gmap string A) :
  list_to_map (map_range E t m) = m.
Proof.
  rewrite <-(list_to_map_to_list m) at 2.
  apply list_to_map_proper; [apply map_range_nodup|apply map_range_perm].
Qed.

(** a loop that only writes the key it visits *)
Lemma foldl_insert_union {A B} (h : string → A → option B) (l : list (string * A))
    (m0 : gmap string B) :
  NoDup l.*1 →
  foldl (λ m '(k, v), match h k v with Some y => <[k := y]> m | None => m end) m0 l
  = map_imap h (list_to_map l : gmap string A) ∪ m0.
Proof.
  revert m0. induction l as [|[k v] l IH]; intros m0 Hnd; simpl.
  - apply map_eq. intros i.
    rewrite lookup_union, map_lookup_imap, lookup_empty. simpl. by destruct (m0 !! i).
  - apply NoDup_cons in Hnd as [Hk Hnd]. rewrite IH by done. apply map_eq. intros i.
    rewrite !lookup_union, !map_lookup_imap.
    destruct (decide (i = k)) as [->|Hne].
    + rewrite lookup_insert. rewrite (proj1 (not_elem_of_list_to_map l k)) by done. simpl.
      destruct (h k v); simpl.
      * rewrite lookup_insert. by destruct (m0 !! k).
      * done.
    + rewrite lookup_insert_ne by done.
      destruct (h k v); [rewrite lookup_insert_ne by done|]; done.
Qed.

Lemma foldl_range {A B} E t (h : string → A → option B) (m : gmap string A) (m0 : gmap string B) :
  foldl (λ m '(k, v), match h k v with Some y => <[k := y]> m | None => m end) m0 (map_range E t m)
  = map_imap h m ∪ m0.
Proof. rewrite foldl_insert_union by apply map_range_nodup. by rewrite list_to_map_range. Qed.

Lemma foldl_range_all {A B} E t (h : string → A → B) (m : gmap string A) (m0 : gmap string B) :
  foldl (λ m '(k, v), <[k := h k v]> m) m0 (map_range E t m)
  = map_imap (λ k v, Some (h k v)) m ∪ m0.
Proof. apply (foldl_range E t (λ k v, Some (h k v))). Qed.

(** ** Imputation *)

Definition fill (d m : row) : row :=
  merge (λ a b, match b with
                | None | Some GNil => match a with Some x => Some x | None => b end
                | _ => b
                end) d m.

Lemma fill_lookup d m k :
  fill d m !! k =
  match m !! k with
  | Some GNil => Some (default GNil (d !! k))
  | Some v => Some v
  | None => d !! k
  end.
Proof.
  unfold fill. rewrite lookup_merge. unfold diag_None.
  destruct (d !! k), (m !! k) as [[]|]; done.
Qed.

Lemma impute_list m l :
  NoDup l.*1 → foldl impute_step (Ok (Some m)) l = Ok (Some (fill (list_to_map l) m)).
Proof.
  revert m. induction l as [|[k v] l IH]; intros m Hnd;
    cbn [foldl]; rewrite ?list_to_map_nil, ?list_to_map_cons.
  - do 2 f_equal. apply map_eq. intros i. rewrite fill_lookup, lookup_empty.
    destruct (m !! i) as [[]|]; done.
  - apply NoDup_cons in Hnd as [Hk Hnd].
    assert (∃ m', impute_step (Ok (Some m)) (k, v) = Ok (Some m') ∧
                  m' !! k = fill {[k := v]} m !! k ∧ ∀ i, i ≠ k → m' !! i = m !! i)
      as (m' & -> & Hm1 & Hm2).
    { unfold impute_step. simpl. rewrite fill_lookup, lookup_singleton.
      destruct (m !! k) as [x|] eqn:Hmk.
      - destruct (is_nil x) eqn:Hx.
        + eexists. split; [done|]. destruct x; try done. rewrite lookup_insert. split; [done|].
          intros i Hi. by rewrite lookup_insert_ne.
        + eexists. split; [done|]. split; [|done]. by destruct x.
      - eexists. split; [done|]. rewrite lookup_insert. split; [done|].
        intros i Hi. by rewrite lookup_insert_ne. }
    rewrite IH by done. do 2 f_equal. apply map_eq. intros i. rewrite !fill_lookup.
    destruct (decide (i = k)) as [->|Hne].
    + rewrite Hm1, fill_lookup, lookup_insert, lookup_singleton.
      rewrite (proj1 (not_elem_of_list_to_map l k)) by done.
      destruct (m !! k) as [[]|]; simpl; try done; by destruct v.
    + rewrite Hm2, lookup_insert_ne by done. done.
Qed.

Lemma impute_some E tk d m : impute E tk d (Some m) = Ok (Some (fill d m)).
Proof. unfold impute. rewrite impute_list by apply map_range_nodup. by rewrite list_to_map_range. Qed.

Lemma foldl_impute_panic l p : foldl impute_step (Panic p) l = Panic p.
Proof. by induction l. Qed.

Lemma impute_none E tk d :
  impute E tk d None = if decide (d = ∅) then Ok None else Panic PNilMapWrite.
Proof.
  unfold impute. case_decide as Hd.
  - subst. by rewrite map_range_empty.
  - destruct (map_range E tk d) as [|[k v] l] eqn:Hl.
    + destruct Hd. apply map_empty. intros k. apply eq_None_not_Some. intros [v Hv].
      apply (map_range_elem E tk) in Hv. rewrite Hl in Hv. set_solver.
    + simpl. apply foldl_impute_panic.
Qed.

(** ** Copying a segment's output *)

Lemma copy_list m l :
  NoDup l.*1 →
  foldl (λ acc '(k, v), r <-! acc; dr_set r k v) (Ok (Some m)) l
  = Ok (Some ((list_to_map l : row) ∪ m)).
Proof.
  revert m. induction l as [|[k v] l IH]; intros m Hnd; simpl.
  - by rewrite (left_id_L ∅ _).
  - apply NoDup_cons in Hnd as [Hk Hnd]. rewrite IH by done. do 2 f_equal.
    rewrite <-insert_union_l. rewrite <-insert_union_r; [done|].
    by apply not_elem_of_list_to_map.
Qed.

Lemma copy_into_some E tk last m :
  copy_into E tk last (Some m) = Ok (Some (default ∅ last ∪ m)).
Proof. unfold copy_into. rewrite copy_list by apply map_range_nodup. by rewrite list_to_map_range. Qed.

Lemma foldl_copy_panic (l : list (string * gov)) p :
  foldl (λ acc '(k, v), r <-! acc; dr_set r k v) (Panic p) l = Panic p.
Proof. induction l as [|[]]; done. Qed.

Lemma copy_into_none E tk last :
  copy_into E tk last None = if decide (default ∅ last = ∅) then Ok None else Panic PNilMapWrite.
Proof.
  unfold copy_into. case_decide as Hd.
  - by rewrite Hd, map_range_empty.
  - destruct (map_range E tk (default ∅ last)) as [|[k v] l] eqn:Hl.
    + destruct Hd. apply map_empty. intros k. apply eq_None_not_Some. intros [v Hv].
      apply (map_range_elem E tk) in Hv. rewrite Hl in Hv. set_solver.
    + simpl. apply foldl_copy_panic.
Qed.

(** ** Scores of sum and average *)

(** what one segment adds to the running score of key [k] *)
Definition contribution (E : Ext) (classification : bool) (segout : datarow) (k : string)
    (v : f64) : f64 :=
  match dr_get segout (if classification then k else "score") with
  | Some x => fadd v (val_float64 E x)
  | None => v
  end.

Lemma score_add_eq E tk cl out sm :
  score_add E tk cl out sm = map_imap (λ k v, Some (contribution E cl out k v)) sm.
Proof.
  unfold score_add.
  pose proof (foldl_range E tk (λ k v, match dr_get out (if cl then k else "score") with
    | Some x => Some (fadd v (val_float64 E x)) | None => None end) sm sm) as H.
  etrans; [|etrans; [exact H|]].
  - clear H. generalize sm at 1 3. induction (map_range E tk sm) as [|[k v] l IH]; intros m; simpl; [done|].
    rewrite IH. by destruct (dr_get out _).
  - apply map_eq. intros i. rewrite lookup_union, !map_lookup_imap.
    unfold contribution. destruct (sm !! i); simpl; [|done]. by destruct (dr_get out _).
Qed.

Lemma score_add_lookup E tk cl out sm k :
  score_add E tk cl out sm !! k = contribution E cl out k <$> sm !! k.
Proof. rewrite score_add_eq, map_lookup_imap. by destruct (sm !! k). Qed.

Lemma score_out_eq E tk m : score_out E tk m = GF64 <$> m.
Proof.
  unfold score_out. rewrite (foldl_range_all E tk (λ _ v, GF64 v)).
  apply map_eq. intros i. rewrite lookup_union, map_lookup_imap, lookup_fmap, lookup_empty.
  by destruct (m !! i).
Qed.

Lemma average_row_eq E tk n out :
  average_row E tk n out = (λ v, GF64 (fdiv (val_float64 E v) (f64_of_Z (Z.of_nat n)))) <$> out.
Proof.
  unfold average_row.
  rewrite (foldl_range_all E tk (λ _ v, GF64 (fdiv (val_float64 E v) (f64_of_Z (Z.of_nat n))))).
  apply map_eq. intros i. rewrite lookup_union, map_lookup_imap, lookup_fmap.
  by destruct (out !! i).
Qed.

(** ** Verification inputs *)

Lemma ver_input_eq E tk ins vrow :
  ver_input E tk ins vrow =
  map_imap (λ k v, match ins !! k with Some _ => Some (GStr v) | None => None end) vrow.
Proof.
  unfold ver_input.
  pose proof (foldl_range E tk
    (λ k v, match ins !! k with Some _ => Some (GStr v) | None => None end) vrow ∅) as H.
  etrans; [|etrans; [exact H|]].
  - clear H. generalize (∅ : row).
    induction (map_range E tk vrow) as [|[k v] l IH]; intros m; simpl; [done|].
    rewrite IH. by destruct (ins !! k).
  - apply map_eq. intros i. rewrite lookup_union, map_lookup_imap, lookup_empty.
    by destruct (vrow !! i ≫= _).
Qed.

(** ** Checking a verification row *)

Definition ver_entry_ok (E : Ext) (outs : gmap string string) (output : datarow)
    (k s : string) : Prop :=
  ∀ fld, outs !! k = Some fld →
  ∃ pv, dr_get output fld = Some pv ∧
        ver_mismatch (val_float64 E (GStr s)) (val_float64 E pv) = false.

Lemma foldl_ver_err E outs output l e : foldl (ver_check_step E outs output) (Err e) l = Err e.
Proof. by induction l. Qed.

Lemma ver_check_list E outs output l :
  foldl (ver_check_step E outs output) (Ok tt) l = Ok tt ↔
  ∀ k s, (k, s) ∈ l → ver_entry_ok E outs output k s.
Proof.
  induction l as [|[k s] l IH]; cbn [foldl].
  - split; [|done]. intros _ k s H. by apply elem_of_nil in H.
  - unfold ver_check_step at 2. simpl.
    destruct (outs !! k) as [fld|] eqn:Ho.
    + destruct (dr_get output fld) as [pv|] eqn:Hp.
      * destruct (ver_mismatch _ _) eqn:Hm.
        -- rewrite foldl_ver_err. split; [done|]. intros H.
           destruct (H k s ltac:(left) fld Ho) as (pv' & Hp' & Hm'). simplify_eq. simpl in Hm'. congruence.
        -- rewrite IH. split.
           ++ intros H k' s' [[= -> ->]|Hin]%elem_of_cons; [|by apply H].
              intros fld' Hf. simplify_eq. eauto.
           ++ intros H k' s' Hin. apply H. by right.
      * rewrite foldl_ver_err. split; [done|]. intros H.
        destruct (H k s ltac:(left) fld Ho) as (pv' & Hp' & Hm'). simplify_eq.
    + rewrite IH. split.
      * intros H k' s' [[= -> ->]|Hin]%elem_of_cons; [|by apply H].
        intros fld' Hf. simplify_eq.
      * intros H k' s' Hin. apply H. by right.
Qed.

Lemma ver_check_range E tk outs output vrow :
  foldl (ver_check_step E outs output) (Ok tt) (map_range E tk vrow) = Ok tt ↔
  ∀ k s, vrow !! k = Some s → ver_entry_ok E outs output k s.
Proof. rewrite ver_check_list. by setoid_rewrite map_range_elem. Qed.

Lemma ver_check_no_panic E outs output l p :
  foldl (ver_check_step E outs output) (Ok tt) l ≠ Panic p.
Proof.
  induction l as [|[k s] l IH]; cbn [foldl]; [done|]. unfold ver_check_step at 2. simpl.
  destruct (outs !! k); [|done]. destruct (dr_get output _); [|by rewrite foldl_ver_err].
  destruct (ver_mismatch _ _); [by rewrite foldl_ver_err|done].
Qed.
