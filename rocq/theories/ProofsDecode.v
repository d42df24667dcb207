(** Proofs about reading documents: printing integers, the round trip. *)
From stdpp Require Import pretty.
From Coq Require Import Ascii.
From Verif Require Import Base Strconv Doc Xml Decode SpecDecode Lib.

(** ** Integers *)

Lemma digit_of_pretty x : (x < 10)%N → digit_of (pretty_N_char x) = Some (Z.of_N x).
Proof.
  intros H.
  destruct x as [|p]; [done|].
  do 4 (destruct p as [p|p|]; try (by vm_compute); try (exfalso; lia)).
Qed.

Lemma digits_pretty x s : digits_val 0 (pretty_N_go x s) = digits_val (Z.of_N x) s.
Proof.
  revert s. induction (N.lt_wf_0 x) as [x _ IH]; intros s.
  destruct (decide (0 < x)%N) as [Hx|Hx].
  - rewrite pretty_N_go_step by done.
    rewrite IH by (apply N.div_lt; lia).
    cbn [digits_val]. rewrite digit_of_pretty by (apply N.mod_lt; lia).
    f_equal. rewrite N2Z.inj_mod, N2Z.inj_div by lia.
    change (Z.of_N 10) with 10%Z.
    pose proof (Z_div_mod_eq_full (Z.of_N x) 10). lia.
  - assert (x = 0%N) as -> by lia. by rewrite pretty_N_go_0.
Qed.

Lemma digits_pretty_N (x : N) : digits_val 0 (pretty x) = Some (Z.of_N x).
Proof.
  unfold pretty, pretty_N. case_decide as Hx.
  - subst. by vm_compute.
  - by rewrite digits_pretty.
Qed.

Lemma digits_head c s z : digits_val 0 (String.String c s) = Some z →
  Ascii.eqb c "-" = false ∧ Ascii.eqb c "+" = false ∧ is_space c = false.
Proof.
  cbn [digits_val]. intros H. destruct (digit_of c) eqn:Hd; [|done].
  repeat split.
  - destruct (Ascii.eqb_spec c "-"); [subst; by vm_compute in Hd|done].
  - destruct (Ascii.eqb_spec c "+"); [subst; by vm_compute in Hd|done].
  - unfold digit_of in Hd. unfold is_space.
    destruct (_ && _) eqn:Hb in Hd; [|done].
    apply andb_true_iff in Hb as [H1 H2]. apply Z.leb_le in H1, H2.
    apply orb_false_iff. split; [apply Nat.eqb_neq; lia|].
    apply andb_false_iff. right. apply Nat.leb_gt. lia.
Qed.

Lemma pretty_N_nonempty (x : N) : pretty x ≠ "".
Proof.
  intros H. pose proof (digits_pretty_N x) as Hd. rewrite H in Hd.
  assert (x = 0%N) as -> by (cbn in Hd; injection Hd as Hd; lia).
  by vm_compute in H.
Qed.

Lemma signed_pretty (z : Z) : signed_val (pretty z) = Some z.
Proof.
  destruct z as [|p|p].
  - by vm_compute.
  - change (pretty (Z.pos p)) with (pretty (N.pos p)).
    pose proof (digits_pretty_N (N.pos p)) as Hd.
    pose proof (pretty_N_nonempty (N.pos p)).
    destruct (pretty (N.pos p)) as [|c s]; [done|].
    destruct (digits_head _ _ _ Hd) as (H1 & H2 & _).
    unfold signed_val. rewrite H1, H2. exact Hd.
  - change (pretty (Z.neg p)) with (String.String "-" (pretty (N.pos p))).
    unfold signed_val. cbn [Ascii.eqb Bool.eqb].
    pose proof (pretty_N_nonempty (N.pos p)).
    pose proof (digits_pretty_N (N.pos p)) as Hd.
    destruct (pretty (N.pos p)) as [|c s]; [done|]. rewrite Hd. done.
Qed.

Lemma parse_pretty (z : Z) : (- 2 ^ 63 <= z < 2 ^ 63)%Z → parse_int (pretty z) = Some z.
Proof.
  intros [H1 H2]. unfold parse_int. rewrite signed_pretty.
  apply Z.leb_le in H1. apply Z.ltb_lt in H2. by rewrite H1, H2.
Qed.

Lemma parse_pretty_out (z : Z) : ¬ (- 2 ^ 63 <= z < 2 ^ 63)%Z → parse_int (pretty z) = None.
Proof.
  intros H. unfold parse_int. rewrite signed_pretty.
  destruct (- 2 ^ 63 <=? z)%Z eqn:H1; [|done]. destruct (z <? 2 ^ 63)%Z eqn:H2; [|done].
  apply Z.leb_le in H1. apply Z.ltb_lt in H2. tauto.
Qed.

(** *** Trimming leaves digits alone *)

Fixpoint solid (s : string) : bool :=
  match s with
  | EmptyString => true
  | String.String c s' => negb (is_space c) && solid s'
  end.


Lemma rev_string_rev s acc t : rev_string t (rev_string acc s) = rev_string (s +:+ t) acc.
Proof.
  revert acc t. induction s as [|c s IH]; intros acc t; [done|].
  cbn [rev_string]. rewrite IH. done.
Qed.

Lemma rev_string_twice s : rev_string "" (rev_string "" s) = s.
Proof.
  rewrite rev_string_rev. cbn [rev_string].
  induction s as [|c s IH]; [done|]. change (String.String c s +:+ "") with (String.String c (s +:+ "")).
  by rewrite IH.
Qed.

Lemma solid_rev s acc : solid (rev_string acc s) = solid acc && solid s.
Proof.
  revert acc. induction s as [|c s IH]; intros acc; cbn [rev_string solid].
  - by rewrite andb_true_r.
  - rewrite IH. cbn [solid]. destruct (solid acc), (solid s), (is_space c); done.
Qed.

Lemma drop_solid s : solid s = true → drop_spaces s = s.
Proof.
  destruct s as [|c s]; [done|]. cbn [solid drop_spaces].
  intros H. apply andb_true_iff in H as [H _]. apply negb_true_iff in H. by rewrite H.
Qed.

Lemma trim_solid s : solid s = true → trim_space s = s.
Proof.
  intros H. unfold trim_space. rewrite (drop_solid s) by done.
  rewrite drop_solid by (by rewrite solid_rev, H). apply rev_string_twice.
Qed.

Lemma digits_solid s : ∀ acc z, digits_val acc s = Some z → solid s = true.
Proof.
  induction s as [|c s IH]; intros acc z H; [done|].
  cbn [digits_val] in H. destruct (digit_of c) eqn:Hd; [|done].
  cbn [solid]. rewrite (IH _ _ H), andb_true_r. apply negb_true_iff.
  assert (digits_val 0 (String.String c "") = Some (10 * 0 + z0)%Z) as H2.
  { cbn [digits_val]. by rewrite Hd. }
  by apply digits_head in H2 as (_ & _ & ?).
Qed.

Lemma pretty_solid (z : Z) : solid (pretty z) = true.
Proof.
  destruct z as [|p|p].
  - by vm_compute.
  - change (pretty (Z.pos p)) with (pretty (N.pos p)).
    eapply digits_solid, digits_pretty_N.
  - change (pretty (Z.neg p)) with (String.String "-" (pretty (N.pos p))).
    cbn [solid]. erewrite digits_solid by apply digits_pretty_N. done.
Qed.

Lemma pretty_nonempty (z : Z) : (pretty z =s "") = false.
Proof.
  apply String.eqb_neq. intros H. pose proof (signed_pretty z) as Hs. by rewrite H in Hs.
Qed.

Lemma att_int_pretty (z : Z) : (- 2 ^ 63 <= z < 2 ^ 63)%Z → att_int (pretty z) = Some z.
Proof.
  intros H. unfold att_int. rewrite pretty_nonempty, trim_solid by apply pretty_solid.
  by apply parse_pretty.
Qed.

Lemma att_uint_pretty (n : nat) : (Z.of_nat n < 2 ^ 64)%Z →
  att_uint (pretty (Z.of_nat n)) = Some (Z.of_nat n).
Proof.
  intros H. unfold att_uint. rewrite pretty_nonempty, trim_solid by apply pretty_solid.
  unfold parse_uint. pose proof (pretty_nonempty (Z.of_nat n)) as Hne.
  assert (digits_val 0 (pretty (Z.of_nat n)) = Some (Z.of_nat n)) as Hd.
  { destruct n as [|n]; [by vm_compute|].
    change (pretty (Z.of_nat (S n))) with (pretty (N.pos (Pos.of_succ_nat n))).
    by rewrite digits_pretty_N. }
  apply Z.ltb_lt in H.
  destruct (pretty (Z.of_nat n)) as [|c s]; [done|]. rewrite Hd. cbn [mbind option_bind].
  by rewrite H.
Qed.

(** ** Folding over written children *)

Lemma kids_fold_app {A} (f : xml → A → option A) l1 l2 a :
  kids_fold f (l1 ++ l2) a = match kids_fold f l1 a with Some a' => kids_fold f l2 a' | None => None end.
Proof.
  revert a. induction l1 as [|k l1 IH]; intros a; [done|].
  cbn [kids_fold app]. destruct (f k a); [apply IH|done].
Qed.

(** children written one by one, each appended to the list [get a] *)
Lemma kids_fold_map {A B} (f : xml → A → option A) (w : B → xml) (add : A → B → A) l a :
  (∀ x a, x ∈ l → f (w x) a = Some (add a x)) → kids_fold f (w <$> l) a = Some (foldl add a l).
Proof.
  revert a. induction l as [|x l IH]; intros a H; [done|].
  cbn [kids_fold fmap list_fmap foldl]. rewrite H by left.
  apply IH. intros y b Hy. apply H. by right.
Qed.

Lemma foldl_snoc {A} (acc l : list A) : foldl (λ a x, a ++ [x]) acc l = acc ++ l.
Proof.
  revert acc. induction l as [|x l IH]; intros acc; cbn [foldl]; [by rewrite app_nil_r|].
  by rewrite IH, <- app_assoc.
Qed.

Lemma fold_right_Forall {A} (Q : A → Prop) l : fold_right (λ a P, Q a ∧ P) True l ↔ Forall Q l.
Proof.
  induction l as [|a l IH]; cbn [fold_right]; [split; constructor|].
  rewrite Forall_cons, IH. done.
Qed.

(** ** Tables *)

Lemma dec_row_list l r :
  dec_row ((λ nv, text_elem nv.1 [] nv.2) <$> l) r = foldl (λ m nv, <[nv.1 := nv.2]> m) r l.
Proof.
  unfold dec_row. revert r. induction l as [|[n v] l IH]; intros r; [done|].
  cbn [fmap list_fmap foldl text_elem text_of fst snd]. rewrite IH.
  assert (v +:+ "" = v) as ->; [|done].
  clear. induction v as [|c v IH]; [done|]. change (String.String c (v +:+ "") = String.String c v).
  by rewrite IH.
Qed.

Lemma foldl_insert_disjoint (l : list (string * string)) (m : gmap string string) :
  NoDup l.*1 → foldl (λ m nv, <[nv.1 := nv.2]> m) m l = list_to_map l ∪ m.
Proof.
  revert m. induction l as [|[n v] l IH]; intros m Hnd.
  - cbn. by rewrite (left_id_L ∅ (∪)).
  - cbn [foldl list_to_map foldr fst snd]. cbn [fmap list_fmap fst] in Hnd. apply NoDup_cons in Hnd as [Hn Hnd].
    rewrite IH by done. change (list_to_map ((n, v) :: l)) with (<[n := v]> (list_to_map l : gmap string string)).
    rewrite <- insert_union_l. symmetry. rewrite insert_union_r; [done|].
    by apply not_elem_of_list_to_map_1.
Qed.

Lemma dec_wr_row r : match wr_row r with Elem _ _ _ cs => dec_row cs ∅ | Chars _ => ∅ end = r.
Proof.
  cbn [wr_row]. rewrite dec_row_list, foldl_insert_disjoint by apply NoDup_fst_map_to_list.
  rewrite list_to_map_to_list. by rewrite (right_id_L ∅ (∪)).
Qed.

Lemma dec_wr_table t acc : match wr_table t with Elem _ _ _ ks => dec_table ks acc | Chars _ => None end
  = Some (acc ++ t).
Proof.
  cbn [wr_table]. unfold dec_table. rewrite (kids_fold_map _ _ (λ a x, a ++ [x])).
  - by rewrite foldl_snoc.
  - intros r a _. pose proof (dec_wr_row r) as H. cbn [wr_row] in *. rewrite H. done.
Qed.

(** ** Expressions *)

Lemma dec_wr_map ps ts d dt oc mmt E U :
  dec_expr E U (wr_expr (XMap ps ts d dt oc mmt)) = Some (Some (XMap ps ts d dt oc mmt)).
Proof.
  cbn [wr_expr dec_expr]. change (Some (dec_map ?a ?k)) with (Some (dec_map a k)).
  cbn -[dec_map kids_fold]. f_equal. unfold dec_map.
  assert (attrs_fold map_attr (("outputColumn", oc) :: ("dataType", dt) :: opt_att "defaultValue" d ++
            opt_att "mapMissingTo" mmt) (MapValues [] [] None "" "" None)
          = Some (MapValues [] [] d dt oc mmt)) as ->.
  { destruct d, mmt; done. }
  cbn [mbind option_bind]. rewrite kids_fold_app.
  rewrite (kids_fold_map _ _ (λ m p, MapValues (mv_pairs m ++ [p]) (mv_tables m) (mv_dflt m) (mv_dt m) (mv_outcol m) (mv_mmt m))).
  2:{ intros [f c] [] _. done. }
  assert (∀ l m, foldl (λ m p, MapValues (mv_pairs m ++ [p]) (mv_tables m) (mv_dflt m) (mv_dt m) (mv_outcol m) (mv_mmt m)) m l
            = MapValues (mv_pairs m ++ l) (mv_tables m) (mv_dflt m) (mv_dt m) (mv_outcol m) (mv_mmt m)) as ->.
  { clear. induction l as [|p l IH]; intros m; cbn [foldl].
    - destruct m. cbn. by rewrite app_nil_r.
    - rewrite IH. cbn. by rewrite <- app_assoc. }
  cbn [mv_pairs mv_tables mv_dflt mv_dt mv_outcol mv_mmt app].
  rewrite (kids_fold_map _ _ (λ m t, MapValues (mv_pairs m) (mv_tables m ++ [t]) (mv_dflt m) (mv_dt m) (mv_outcol m) (mv_mmt m))).
  2:{ intros t [] _. pose proof (dec_wr_table t []) as H. cbn [wr_table] in *.
      cbn -[dec_table]. rewrite H. done. }
  assert (∀ l m, foldl (λ m t, MapValues (mv_pairs m) (mv_tables m ++ [t]) (mv_dflt m) (mv_dt m) (mv_outcol m) (mv_mmt m)) m l
            = MapValues (mv_pairs m) (mv_tables m ++ l) (mv_dflt m) (mv_dt m) (mv_outcol m) (mv_mmt m)) as ->.
  { clear. induction l as [|p l IH]; intros m; cbn [foldl].
    - destruct m. cbn. by rewrite app_nil_r.
    - rewrite IH. cbn. by rewrite <- app_assoc. }
  done.
Qed.

Section RoundTrip.
  Context (E : Ext) (U : unread) (F : f64 → string).
  Local Notation prints := (prints F (ext_parse_float E)).
  Local Notation oprints := (oprints F (ext_parse_float E)).

  Lemma att_float_prints f : prints f → att_float E (F f) = Some f.
  Proof.
    intros (H1 & H2 & H3). unfold att_float. apply String.eqb_neq in H1. by rewrite H1, H2.
  Qed.

  Lemma other_expr_names k : other_expr k = true →
    (k =s "FieldRef") = false ∧ (k =s "Constant") = false ∧ (k =s "MapValues") = false ∧
    (k =s "Apply") = false ∧ (k =s "Extension") = false ∧ (k =s "Value") = false ∧ k ≠ "".
  Proof.
    unfold other_expr. intros H.
    repeat (apply orb_true_iff in H as [H|H]); apply String.eqb_eq in H; subst; done.
  Qed.

  (* the name a written expression has *)
  Lemma wr_expr_name e : ok_expr U other_expr e →
    ∃ n at_ i ks, wr_expr e = Elem n at_ i ks ∧ (n =s "Extension") = false ∧ (n =s "Value") = false.
  Proof.
    destruct e; intros H; cbn [wr_expr text_elem]; repeat eexists; try done.
    all: cbn [ok_expr] in H; destruct H as [H _]; apply other_expr_names in H; tauto.
  Qed.

  Lemma dec_wr_expr e : ok_expr U other_expr e → dec_expr E U (wr_expr e) = Some (Some e).
  Proof.
    induction e as [f mmt|dt v|fn d mmt args IH|ps ts d dt oc mmt|k] using expr_rect'; intros Hok.
    - by destruct mmt.
    - cbn [ok_expr] in Hok. cbn. unfold plain in Hok. by rewrite Hok.
    - cbn [ok_expr] in Hok. apply fold_right_Forall in Hok.
      cbn -[kids_fold attrs_fold].
      assert (attrs_fold apply_attr (("function", fn) :: opt_att "defaultValue" d ++ opt_att "mapMissingTo" mmt)
                (None, "", None) = Some (d, fn, mmt)) as ->.
      { destruct d, mmt; done. }
      cbn [mbind option_bind]. 
      change (map wr_expr args) with (wr_expr <$> args).
      rewrite (kids_fold_map _ _ (λ a x, a ++ [x])).
      2:{ intros e a He. rewrite Forall_forall in IH, Hok. specialize (IH e He (Hok e He)).
          destruct (wr_expr_name e (Hok e He)) as (n & at_ & i & ks & Hw & Hn & _).
          rewrite Hw in IH |- *. rewrite Hn, IH. done. }
      by rewrite foldl_snoc.
    - apply dec_wr_map.
    - cbn [ok_expr] in Hok. destruct Hok as [H1 H2].
      destruct (other_expr_names k H1) as (N1 & N2 & N3 & N4 & _).
      cbn [wr_expr dec_expr]. rewrite N1, N2, N3, N4, H1. unfold check. by rewrite H2.
  Qed.

  Lemma dec_wr_field d : ok_field U other_expr d →
    match wr_field d with Elem _ at_ _ ks => dec_field E U at_ ks | Chars _ => None end = Some d.
  Proof.
    destruct d as [nm op dt e]. unfold ok_field, wr_field. cbn [df_name df_optype df_datatype df_expr].
    intros Hok. unfold dec_field.
    change (attrs_fold field_attr [("name", nm); ("optype", op); ("dataType", dt)]
              (DerivedField "" "" "" (XOther ""))) with (Some (DerivedField nm op dt (XOther ""))).
    cbn [mbind option_bind].
    destruct Hok as [->|Hok]; [done|].
    assert (kids_fold (field_kid E U) [wr_expr e] (DerivedField nm op dt (XOther "")) = Some (DerivedField nm op dt e)) as Hk.
    { cbn [kids_fold field_kid]. pose proof (dec_wr_expr e Hok) as He.
      destruct (wr_expr_name e Hok) as (n & at_ & i & ks & Hw & Hn & Hn2).
      rewrite Hw in He |- *. rewrite Hn, Hn2, He. done. }
    destruct e; try exact Hk.
    destruct Hok as [Hk1 _]. pose proof (other_expr_names _ Hk1) as (_ & _ & _ & _ & _ & _ & Hne).
    destruct k; [done|exact Hk].
  Qed.

  Lemma dec_wr_local l acc : Forall (ok_field U other_expr) l →
    dec_local E U (wr_field <$> l) acc = Some (acc ++ l).
  Proof.
    intros Hok. unfold dec_local. rewrite (kids_fold_map _ _ (λ a x, a ++ [x])).
    - by rewrite foldl_snoc.
    - intros d a Hd. rewrite Forall_forall in Hok. pose proof (dec_wr_field d (Hok d Hd)) as H.
      unfold wr_field in *. by rewrite H.
  Qed.

  Lemma dec_wr_tdict l acc : Forall (ok_field U other_expr) l →
    dec_tdict E U (wr_field <$> l) acc = Some (acc ++ l).
  Proof.
    intros Hok. unfold dec_tdict. rewrite (kids_fold_map _ _ (λ a x, a ++ [x])).
    - by rewrite foldl_snoc.
    - intros d a Hd. rewrite Forall_forall in Hok. pose proof (dec_wr_field d (Hok d Hd)) as H.
      unfold wr_field in *. by rewrite H.
  Qed.

  (** ** Dictionaries, schemas, outputs, targets *)

  Lemma dec_wr_data_field d :
    match wr_data_field d with Elem _ at_ _ ks => dec_data_field U at_ ks | Chars _ => None end = Some d.
  Proof.
    destruct d as [nm dt vs]. unfold wr_data_field, dec_data_field. cbn [dd_name dd_datatype dd_values].
    change (attrs_fold data_attr [("name", nm); ("dataType", dt)] (DataField "" "" []))
      with (Some (DataField nm dt [])).
    cbn [mbind option_bind].
    rewrite (kids_fold_map _ _ (λ d v, DataField (dd_name d) (dd_datatype d) (dd_values d ++ [v]))).
    2:{ by intros v [] _. }
    assert (∀ l d, foldl (λ d v, DataField (dd_name d) (dd_datatype d) (dd_values d ++ [v])) d l =
               DataField (dd_name d) (dd_datatype d) (dd_values d ++ l)) as ->; [|done].
    clear. induction l as [|v l IH]; intros d; cbn [foldl].
    - destruct d. cbn. by rewrite app_nil_r.
    - rewrite IH. cbn. by rewrite <- app_assoc.
  Qed.

  Lemma dec_wr_dict dd n acc : (Z.of_nat n < 2 ^ 64)%Z →
    dec_dict U [("numberOfFields", pretty (Z.of_nat n))] (wr_data_field <$> dd) acc = Some (acc ++ dd).
  Proof.
    intros Hn. unfold dec_dict.
    assert (attrs_fold dict_attr [("numberOfFields", pretty (Z.of_nat n))] acc = Some acc) as ->.
    { cbn [attrs_fold dict_attr String.eqb Ascii.eqb Bool.eqb]. by rewrite att_uint_pretty. }
    cbn [mbind option_bind]. rewrite (kids_fold_map _ _ (λ a x, a ++ [x])).
    - by rewrite foldl_snoc.
    - intros d a _. pose proof (dec_wr_data_field d) as H. unfold wr_data_field in *.
      cbn -[dec_data_field]. by rewrite H.
  Qed.

  Lemma dec_list_map {A} name dec (w : A → xml) l acc :
    (∀ x, x ∈ l → ∃ at_ i ks, w x = Elem name at_ i ks ∧ dec at_ ks = Some x) →
    dec_list name dec (w <$> l) acc = Some (acc ++ l).
  Proof.
    intros H. unfold dec_list. rewrite (kids_fold_map _ _ (λ a x, a ++ [x])).
    - by rewrite foldl_snoc.
    - intros x a Hx. destruct (H x Hx) as (at_ & i & ks & -> & Hd).
      rewrite String.eqb_refl, Hd. done.
  Qed.

  Lemma dec_wr_schema l acc : dec_schema E (wr_mfield <$> l) acc = Some (acc ++ l).
  Proof.
    apply dec_list_map. intros [nm us rp ou iv] _. unfold wr_mfield. repeat eexists.
    by destruct rp.
  Qed.

  Lemma dec_wr_output l acc : dec_output (wr_out <$> l) acc = Some (acc ++ l).
  Proof. apply dec_list_map. intros [nm ft vl] _. unfold wr_out. by repeat eexists. Qed.

  Lemma dec_wr_targets l acc : Forall (ok_target F (ext_parse_float E)) l →
    dec_targets E U (wr_target F <$> l) acc = Some (acc ++ l).
  Proof.
    intros Hok. apply dec_list_map. intros [fl fa co] Ht. unfold wr_target. repeat eexists.
    rewrite Forall_forall in Hok. destruct (Hok _ Ht) as [H1 H2].
    unfold dec_target. cbn [tg_field tg_constant tg_factor] in *.
    destruct fa as [a|], co as [c|]; cbn -[att_float]; cbn [oprints] in *;
      repeat (rewrite att_float_prints by done; cbn -[att_float]); done.
  Qed.

  Lemma dec_wr_verif o : ok_verif F (ext_parse_float E) o →
    ∀ A (f : xml → A → option A) (set : option verification → A → A) a,
      (∀ at_ i ks, f (Elem "ModelVerification" at_ i ks) a =
         match dec_verif E at_ ks None with Some v => Some (set v a) | None => None end) →
      kids_fold f (wr_verif F o) a = Some (match o with Some _ => set o a | None => a end).
  Proof.
    intros Hok A f set a Hf. destruct o as [[fs rs]|]; [|done].
    cbn [wr_verif kids_fold vr_fields vr_rows]. rewrite Hf.
    assert (dec_verif E [] [Elem "VerificationFields" [] "" (wr_vfield F <$> fs); wr_table rs] None
            = Some (Some (Verification fs rs))) as ->; [|done].
    unfold dec_verif. cbn [attrs_fold mbind option_bind default].
    cbn [kids_fold verif_kid String.eqb Ascii.eqb Bool.eqb].
    rewrite dec_list_map.
    2:{ intros [fl co pr] Hx. unfold wr_vfield. repeat eexists.
        cbn [ok_verif vr_fields] in Hok. rewrite Forall_forall in Hok. pose proof (Hok _ Hx) as Hp.
        cbn [vf_precision vf_field vf_column] in *. destruct pr as [p|]; [|done].
        unfold dec_vfield. cbn -[att_float]. by rewrite att_float_prints. }
    cbn [app mbind option_bind]. pose proof (dec_wr_table rs []) as H. unfold wr_table in *.
    cbn [verif_kid String.eqb Ascii.eqb Bool.eqb]. by rewrite H.
  Qed.

  (** ** Predicates and trees *)

  Lemma wr_pred_name p : ok_pred p → ∃ n at_ i ks, wr_pred p = Elem n at_ i ks ∧
    n ∈ ["True"; "False"; "SimplePredicate"; "SimpleSetPredicate"; "CompoundPredicate"].
  Proof.
    destruct p; intros H; [..|by destruct H]; cbn [wr_pred]; (repeat eexists); set_solver.
  Qed.

  Lemma pred_name_not n m : n ∈ ["True"; "False"; "SimplePredicate"; "SimpleSetPredicate"; "CompoundPredicate"] →
    m ∉ ["True"; "False"; "SimplePredicate"; "SimpleSetPredicate"; "CompoundPredicate"] → (n =s m) = false.
  Proof. intros H1 H2. apply String.eqb_neq. intros ->. done. Qed.

  Lemma dec_wr_pred p : ok_pred p → dec_pred (wr_pred p) = Some (Some p).
  Proof.
    induction p as [| |f op v raw|b ps IH|b f l|] using predicate_rect'; intros Hok; try done.
    - cbn [ok_pred] in Hok. subst. done.
    - cbn [ok_pred] in Hok. apply fold_right_Forall in Hok. cbn -[kids_fold].
      change (map wr_pred ps) with (wr_pred <$> ps).
      rewrite (kids_fold_map _ _ (λ a x, a ++ [x])); [by rewrite foldl_snoc|].
      intros q a Hq. rewrite Forall_forall in IH, Hok. specialize (IH q Hq (Hok q Hq)).
      destruct (wr_pred_name q (Hok q Hq)) as (n & at_ & i & ks & Hw & Hn).
      rewrite Hw in IH |- *. rewrite (pred_name_not n "Extension" Hn) by set_solver. rewrite IH. done.
    - cbn [ok_pred] in Hok. destruct Hok as (s & -> & Hs).
      cbn. unfold plain in Hs. by rewrite Hs.
  Qed.

  Lemma dec_wr_dist d : ok_dist F (ext_parse_float E) d →
    match wr_dist F d with Elem _ at_ _ _ => dec_dist E at_ | Chars _ => None end = Some d.
  Proof.
    destruct d as [vl ct cf pr]. intros (H1 & H2 & H3). cbn [sd_count sd_conf sd_prob] in *.
    unfold wr_dist, dec_dist. cbn [sd_value sd_count sd_conf sd_prob].
    destruct cf as [c|], pr as [p|]; cbn -[att_float]; cbn [SpecDecode.oprints] in *;
      repeat (rewrite att_float_prints by done; cbn -[att_float]); done.
  Qed.

  Lemma dec_wr_node m : ok_node F (ext_parse_float E) m → dec_node E (wr_node F m) zero_mnode = Some m.
  Proof.
    induction m as [id dc sc ct ds ns p IH] using mnode_rect'. cbn [ok_node].
    intros (Hct & Hds & Hp & Hns). apply fold_right_Forall in Hns.
    cbn [wr_node dec_node].
    assert (attrs_fold (node_attr E) [("id", id); ("score", sc); ("recordCount", F ct); ("defaultChild", dc)] zero_mnode
            = Some (MNode id dc sc ct [] [] PNone)) as ->.
    { unfold zero_mnode. destruct Hct as (H1 & _ & H3). apply String.eqb_neq in H1.
      cbn [attrs_fold node_attr String.eqb Ascii.eqb Bool.eqb]. rewrite H1, H3. done. }
    cbn [mbind option_bind]. rewrite kids_fold_app.
    match goal with |- context [kids_fold ?f] => set (g := f) end.
    assert (kids_fold g (match p with PNone => [] | _ => [wr_pred p] end) (MNode id dc sc ct [] [] PNone)
            = Some (MNode id dc sc ct [] [] p)) as ->.
    { destruct Hp as [->|Hp]; [done|].
      assert (kids_fold g [wr_pred p] (MNode id dc sc ct [] [] PNone) = Some (MNode id dc sc ct [] [] p)) as Hk.
      { pose proof (dec_wr_pred p Hp) as Hd. destruct (wr_pred_name p Hp) as (n & at_ & i & ks & Hw & Hn).
        rewrite Hw in Hd |- *. cbn [kids_fold]. unfold g at 1.
        rewrite (pred_name_not n "Extension" Hn) by set_solver.
        rewrite (pred_name_not n "Node" Hn) by set_solver.
        rewrite (pred_name_not n "ScoreDistribution" Hn) by set_solver.
        rewrite (pred_name_not n "Partition" Hn) by set_solver. by rewrite Hd. }
      destruct p; try exact Hk. }
    rewrite kids_fold_app.
    assert (∀ l m0, Forall (ok_dist F (ext_parse_float E)) l →
       kids_fold g (wr_dist F <$> l) (MNode id dc sc ct m0 [] p) = Some (MNode id dc sc ct (m0 ++ l) [] p)) as Hd.
    { clear -g. induction l as [|d l IHl]; intros m0 H; [by rewrite app_nil_r|].
      apply Forall_cons in H as [H1 H2]. pose proof (dec_wr_dist d H1) as Hd.
      cbn [fmap list_fmap kids_fold].
      assert (g (wr_dist F d) (MNode id dc sc ct m0 [] p) = Some (MNode id dc sc ct (m0 ++ [d]) [] p)) as ->.
      { unfold g. unfold wr_dist in *. cbn [String.eqb Ascii.eqb Bool.eqb]. by rewrite Hd. }
      rewrite (IHl _ H2), <- app_assoc. done. }
    rewrite Hd by done. cbn [app].
    change (map (wr_node F) ns) with (wr_node F <$> ns).
    assert (∀ l m0, Forall (λ n, dec_node E (wr_node F n) zero_mnode = Some n) l →
       kids_fold g (wr_node F <$> l) (MNode id dc sc ct ds m0 p) = Some (MNode id dc sc ct ds (m0 ++ l) p)) as Hn.
    { clear -g. induction l as [|n l IHl]; intros m0 H; [by rewrite app_nil_r|].
      apply Forall_cons in H as [H1 H2]. cbn [fmap list_fmap kids_fold].
      assert (g (wr_node F n) (MNode id dc sc ct ds m0 p) = Some (MNode id dc sc ct ds (m0 ++ [n]) p)) as ->.
      { unfold g. destruct n. cbn [wr_node] in *. cbn [String.eqb Ascii.eqb Bool.eqb].
        rewrite H1. done. }
      rewrite (IHl _ H2), <- app_assoc. done. }
    rewrite Hn; [done|]. rewrite Forall_forall in *. auto.
  Qed.

  Lemma dec_wr_tree m : ok_tree F (ext_parse_float E) U other_expr m →
    match wr_tree F m with Elem _ at_ _ ks => dec_tree E U at_ ks | Chars _ => None end = Some m.
  Proof.
    destruct m as [fn st pe nt lt sc vr nd]. intros (H1 & H2 & H3 & H4).
    cbn [tm_function tm_strategy tm_penalty tm_notrue tm_lt tm_schema tm_verification tm_node] in *.
    unfold wr_tree, dec_tree. cbn [tm_function tm_strategy tm_penalty tm_notrue tm_lt tm_schema tm_verification tm_node].
    assert (attrs_fold (tree_attr E) [("functionName", fn); ("missingValueStrategy", st);
        ("missingValuePenalty", F pe); ("noTrueChildStrategy", nt)] zero_tree
        = Some (TreeModel fn st pe nt [] [] None zero_mnode)) as ->.
    { unfold zero_tree. cbn [attrs_fold tree_attr String.eqb Ascii.eqb Bool.eqb].
      by rewrite att_float_prints. }
    cbn [mbind option_bind]. rewrite kids_fold_app.
    assert (kids_fold (tree_kid E U) [Elem "MiningSchema" [] "" (wr_mfield <$> sc);
        Elem "LocalTransformations" [] "" (wr_field <$> lt); wr_node F nd]
        (TreeModel fn st pe nt [] [] None zero_mnode) = Some (TreeModel fn st pe nt lt sc None nd)) as ->.
    { cbn [kids_fold tree_kid String.eqb Ascii.eqb Bool.eqb]. rewrite dec_wr_schema. cbn [app mbind option_bind].
      cbn [tree_kid String.eqb Ascii.eqb Bool.eqb]. rewrite dec_wr_local by done. cbn [app mbind option_bind].
      pose proof (dec_wr_node nd H3) as Hn. destruct nd. cbn [wr_node tree_kid] in *.
      cbn [tree_kid String.eqb Ascii.eqb Bool.eqb]. by rewrite Hn. }
    rewrite (dec_wr_verif vr H4 _ _ (λ v m, TreeModel (tm_function m) (tm_strategy m) (tm_penalty m) (tm_notrue m)
        (tm_lt m) (tm_schema m) v (tm_node m))).
    - by destruct vr.
    - intros. cbn [tree_kid String.eqb Ascii.eqb Bool.eqb]. by destruct (dec_verif _ _ _ _).
  Qed.

  (** ** Regression *)

  Lemma dec_wr_regr_table t : ok_table F (ext_parse_float E) t →
    match wr_regr_table F t with Elem _ at_ _ ks => dec_regr_table E at_ ks | Chars _ => None end = Some t.
  Proof.
    destruct t as [ic tc ps]. intros [H1 H2]. cbn [rt_intercept rt_predictors] in *.
    unfold wr_regr_table, dec_regr_table. cbn [rt_intercept rt_category rt_predictors].
    assert (attrs_fold (table_attr E) [("intercept", F ic); ("targetCategory", tc)] (RegrTable fzero "" [])
            = Some (RegrTable ic tc [])) as ->.
    { cbn [attrs_fold table_attr String.eqb Ascii.eqb Bool.eqb]. by rewrite att_float_prints. }
    cbn [mbind option_bind].
    assert (∀ l m0, Forall (ok_predictor F (ext_parse_float E)) l →
       kids_fold (table_kid E) (wr_predictor F <$> l) (RegrTable ic tc m0) = Some (RegrTable ic tc (m0 ++ l))) as Hd.
    { clear. induction l as [|d l IHl]; intros m0 H; [by rewrite app_nil_r|].
      apply Forall_cons in H as [H1 H2]. cbn [fmap list_fmap kids_fold].
      assert (table_kid E (wr_predictor F d) (RegrTable ic tc m0) = Some (RegrTable ic tc (m0 ++ [d]))) as ->.
      { destruct d as [nm co ex], H1 as [Hc He]. cbn [np_coeff np_exponent] in *. unfold wr_predictor.
        cbn [table_kid np_name np_coeff np_exponent String.eqb Ascii.eqb Bool.eqb attrs_fold pred_attr].
        rewrite att_int_pretty by done. cbn [mbind option_bind pred_attr String.eqb Ascii.eqb Bool.eqb].
        by rewrite att_float_prints. }
      rewrite (IHl _ H2), <- app_assoc. done. }
    rewrite Hd by done. done.
  Qed.

  Lemma dec_wr_regr m : ok_regr F (ext_parse_float E) U other_expr m →
    match wr_regr F m with Elem _ at_ _ ks => dec_regr E U at_ ks | Chars _ => None end = Some m.
  Proof.
    destruct m as [fn nm lt sc ts os vr]. intros (H1 & H2 & H3).
    cbn [rm_function rm_norm rm_lt rm_schema rm_tables rm_output rm_verification] in *.
    unfold wr_regr, dec_regr. cbn [rm_function rm_norm rm_lt rm_schema rm_tables rm_output rm_verification].
    change (attrs_fold regr_attr [("functionName", fn); ("normalizationMethod", nm)] (RegrModel "" "" [] [] [] [] None))
      with (Some (RegrModel fn nm [] [] [] [] None)).
    cbn [mbind option_bind]. rewrite kids_fold_app.
    assert (kids_fold (regr_kid E U) [Elem "MiningSchema" [] "" (wr_mfield <$> sc);
        Elem "Output" [] "" (wr_out <$> os); Elem "LocalTransformations" [] "" (wr_field <$> lt)]
        (RegrModel fn nm [] [] [] [] None) = Some (RegrModel fn nm lt sc [] os None)) as ->.
    { cbn [kids_fold regr_kid String.eqb Ascii.eqb Bool.eqb]. rewrite dec_wr_schema. cbn [app mbind option_bind].
      cbn [regr_kid String.eqb Ascii.eqb Bool.eqb]. rewrite dec_wr_output. cbn [app mbind option_bind].
      cbn [regr_kid String.eqb Ascii.eqb Bool.eqb]. rewrite dec_wr_local by done. done. }
    rewrite kids_fold_app.
    assert (∀ l m0, Forall (ok_table F (ext_parse_float E)) l →
       kids_fold (regr_kid E U) (wr_regr_table F <$> l) (RegrModel fn nm lt sc m0 os None)
         = Some (RegrModel fn nm lt sc (m0 ++ l) os None)) as Hd.
    { clear. induction l as [|d l IHl]; intros m0 H; [by rewrite app_nil_r|].
      apply Forall_cons in H as [H1 H2]. cbn [fmap list_fmap kids_fold].
      assert (regr_kid E U (wr_regr_table F d) (RegrModel fn nm lt sc m0 os None)
              = Some (RegrModel fn nm lt sc (m0 ++ [d]) os None)) as ->.
      { pose proof (dec_wr_regr_table d H1) as Hd. unfold wr_regr_table in *.
        cbn [regr_kid String.eqb Ascii.eqb Bool.eqb]. by rewrite Hd. }
      rewrite (IHl _ H2), <- app_assoc. done. }
    rewrite Hd by done. cbn [app].
    rewrite (dec_wr_verif vr H3 _ _ (λ v m, RegrModel (rm_function m) (rm_norm m) (rm_lt m) (rm_schema m)
        (rm_tables m) (rm_output m) v)).
    - by destruct vr.
    - intros. cbn [regr_kid String.eqb Ascii.eqb Bool.eqb]. by destruct (dec_verif _ _ _ _).
  Qed.

  (** ** Models *)

  Lemma other_model_names k : other_model k = true →
    (k =s "TreeModel") = false ∧ (k =s "RegressionModel") = false ∧ (k =s "MiningModel") = false ∧
    (∀ at_ i ks, dec_pred (Elem k at_ i ks) = None) ∧
    (k =s "Header") = false ∧ (k =s "MiningBuildTask") = false ∧ (k =s "DataDictionary") = false ∧
    (k =s "TransformationDictionary") = false.
  Proof.
    unfold other_model. intros H.
    repeat (apply orb_true_iff in H as [H|H]); apply String.eqb_eq in H; subst; done.
  Qed.

  Lemma wr_model_name d : ok_model F (ext_parse_float E) U other_expr other_model d →
    ∃ n at_ i ks, wr_model F d = Elem n at_ i ks ∧ dec_pred (Elem n at_ i ks) = None ∧
      (n =s "Header") = false ∧ (n =s "MiningBuildTask") = false ∧ (n =s "DataDictionary") = false ∧
      (n =s "TransformationDictionary") = false.
  Proof.
    destruct d; intros H; cbn [wr_model]; unfold wr_tree, wr_regr; repeat eexists; try done.
    all: cbn [ok_model] in H; destruct H as [H _];
      destruct (other_model_names _ H) as (? & ? & ? & Hp & ? & ? & ? & ?); first [done|apply Hp].
  Qed.

  Definition seg_step (c : xml) (sg : segment doc_model) : option (segment doc_model) :=
    match c with
    | Chars _ => Some sg
    | Elem _ _ _ _ =>
        match dec_pred c with
        | Some (Some p) => Some (Segment (sg_id sg) (sg_preds sg ++ [p]) (sg_models sg))
        | Some None => None
        | None =>
            match dec_model E U c with
            | Some (Some d) => Some (Segment (sg_id sg) (sg_preds sg) (sg_models sg ++ [d]))
            | _ => None
            end
        end
    end.

  Definition segs_step (s : xml) (l : list (segment doc_model)) : option (list (segment doc_model)) :=
    match s with
    | Chars _ => Some l
    | Elem m' sat _ sks =>
        if m' =s "Segment" then
          id ← attrs_fold segment_attr sat "";
          sg ← kids_fold seg_step sks (Segment id [] []);
          Some (l ++ [sg])
        else Some l
    end.

  Definition mining_step (k : xml) (acc : mining_header * list (segment doc_model))
      : option (mining_header * list (segment doc_model)) :=
    match k with
    | Chars _ => Some acc
    | Elem m kat _ kks =>
        if m =s "Segmentation" then
          h1 ← attrs_fold segmentation_attr kat acc.1;
          segs1 ← kids_fold segs_step kks acc.2;
          Some (h1, segs1)
        else h1 ← mining_kid E U m kat kks acc.1; Some (h1, acc.2)
    end.

  Lemma dec_model_mining at_ i ks : dec_model E U (Elem "MiningModel" at_ i ks) =
    Some (h ← attrs_fold mining_attr at_ zero_header;
          hs ← kids_fold mining_step ks (h, []); Some (DMining hs.1 hs.2)).
  Proof. reflexivity. Qed.

  Lemma dec_wr_segment s l :
    Forall ok_pred (sg_preds s) →
    Forall (λ m, ok_model F (ext_parse_float E) U other_expr other_model m ∧
                 dec_model E U (wr_model F m) = Some (Some m)) (sg_models s) →
    segs_step (match s with
               | Segment id ps ms => Elem "Segment" [("id", id)] "" ((wr_pred <$> ps) ++ map (wr_model F) ms)
               end) l = Some (l ++ [s]).
  Proof.
    destruct s as [id ps ms]. cbn [sg_preds sg_models]. intros Hps Hms.
    cbn [segs_step String.eqb Ascii.eqb Bool.eqb attrs_fold segment_attr mbind option_bind].
    rewrite kids_fold_app.
    assert (∀ l m0, Forall ok_pred l →
       kids_fold seg_step (wr_pred <$> l) (Segment id m0 []) = Some (Segment id (m0 ++ l) [])) as Hp.
    { clear. induction l as [|p l IHl]; intros m0 H; [by rewrite app_nil_r|].
      apply Forall_cons in H as [H1 H2]. cbn [fmap list_fmap kids_fold].
      assert (seg_step (wr_pred p) (Segment id m0 []) = Some (Segment id (m0 ++ [p]) [])) as ->.
      { pose proof (dec_wr_pred p H1) as Hd. destruct (wr_pred_name p H1) as (n & at_ & i & ks & Hw & _).
        rewrite Hw in Hd |- *. cbn [seg_step]. by rewrite Hd. }
      rewrite (IHl _ H2), <- app_assoc. done. }
    rewrite Hp by done. cbn [app].
    change (map (wr_model F) ms) with (wr_model F <$> ms).
    assert (∀ l m0, Forall (λ m, ok_model F (ext_parse_float E) U other_expr other_model m ∧
                 dec_model E U (wr_model F m) = Some (Some m)) l →
       kids_fold seg_step (wr_model F <$> l) (Segment id ps m0) = Some (Segment id ps (m0 ++ l))) as Hm.
    { clear. induction l as [|m l IHl]; intros m0 H; [by rewrite app_nil_r|].
      apply Forall_cons in H as [[H0 H1] H2]. cbn [fmap list_fmap kids_fold].
      assert (seg_step (wr_model F m) (Segment id ps m0) = Some (Segment id ps (m0 ++ [m]))) as ->.
      { destruct (wr_model_name m H0) as (n & at_ & i & ks & Hw & Hn & _).
        rewrite Hw in H1 |- *. cbn [seg_step]. by rewrite Hn, H1. }
      rewrite (IHl _ H2), <- app_assoc. done. }
    rewrite Hm by done. done.
  Qed.

  Lemma dec_wr_model d : ok_model F (ext_parse_float E) U other_expr other_model d →
    dec_model E U (wr_model F d) = Some (Some d).
  Proof.
    induction d as [t|r|k|h segs IH] using doc_rect'; intros Hok.
    - cbn [ok_model wr_model] in *. pose proof (dec_wr_tree t Hok) as H. unfold wr_tree in *.
      cbn [dec_model String.eqb Ascii.eqb Bool.eqb]. by rewrite H.
    - cbn [ok_model wr_model] in *. pose proof (dec_wr_regr r Hok) as H. unfold wr_regr in *.
      cbn [dec_model String.eqb Ascii.eqb Bool.eqb]. by rewrite H.
    - cbn [ok_model wr_model] in *. destruct Hok as [H1 H2].
      destruct (other_model_names k H1) as (N1 & N2 & N3 & _).
      cbn [dec_model]. rewrite N1, N2, N3, H1. unfold check. by rewrite H2.
    - cbn [ok_model wr_model] in *. destruct Hok as (H1 & H2 & H3 & H4).
      destruct h as [fn me lt sc os ts vr].
      cbn [mm_function mm_method mm_lt mm_schema mm_output mm_targets mm_verification] in *.
      rewrite dec_model_mining.
      change (attrs_fold mining_attr [("functionName", fn)] zero_header)
        with (Some (MiningHeader fn "" [] [] [] [] None)).
      cbn [mbind option_bind]. rewrite kids_fold_app.
      match goal with |- context [kids_fold mining_step ?l (_, [])] =>
        assert (kids_fold mining_step l (MiningHeader fn "" [] [] [] [] None, [])
                = Some (MiningHeader fn me lt sc os ts None, segs)) as -> end.
      { do 4 (cbn [kids_fold mining_step mining_kid String.eqb Ascii.eqb Bool.eqb fst snd];
              first [rewrite dec_wr_schema | rewrite dec_wr_output | rewrite dec_wr_targets by done
                    | rewrite dec_wr_local by done]; cbn [app mbind option_bind]).
        cbn [mining_step mining_kid String.eqb Ascii.eqb Bool.eqb fst snd].
        change (attrs_fold segmentation_attr [("multipleModelMethod", me)] (MiningHeader fn "" lt sc os ts None))
          with (Some (MiningHeader fn me lt sc os ts None)).
        cbn [mbind option_bind].
        rewrite (kids_fold_map _ _ (λ a x, a ++ [x])); [by rewrite foldl_snoc|].
        intros s a Hs. apply fold_right_Forall in H4. rewrite Forall_forall in H4, IH.
        destruct (H4 s Hs) as [Hps Hms]. specialize (IH s Hs). apply fold_right_Forall in Hms.
        apply dec_wr_segment; [done|]. rewrite Forall_forall in *. auto. }
      rewrite (dec_wr_verif vr H3 _ _ (λ v a, (MiningHeader (mm_function a.1) (mm_method a.1) (mm_lt a.1) (mm_schema a.1)
        (mm_output a.1) (mm_targets a.1) v, a.2))).
      + by destruct vr.
      + intros. cbn [mining_step mining_kid String.eqb Ascii.eqb Bool.eqb fst snd]. by destruct (dec_verif _ _ _ _).
  Qed.

  Lemma decode_wr version dd td ms :
    writable F (ext_parse_float E) U other_expr other_model dd td ms →
    decode E U (wr_pmml F version dd td ms) = Some (Pmml version dd td ms).
  Proof.
    intros (H1 & H2 & H3 & H4). unfold wr_pmml, decode.
    change (attrs_fold pmml_attr [("version", version)] (Pmml "" [] [] [])) with (Some (Pmml version [] [] [])).
    cbn [mbind option_bind]. rewrite kids_fold_app.
    cbn [kids_fold pmml_kid String.eqb Ascii.eqb Bool.eqb orb]. unfold check. rewrite H1.
    cbn [mbind option_bind pmml_kid String.eqb Ascii.eqb Bool.eqb orb].
    rewrite dec_wr_dict by done. cbn [app mbind option_bind].
    cbn [pmml_kid String.eqb Ascii.eqb Bool.eqb orb]. rewrite dec_wr_tdict by done. cbn [app mbind option_bind].
    assert (∀ l m0, Forall (ok_model F (ext_parse_float E) U other_expr other_model) l →
       kids_fold (pmml_kid E U) (wr_model F <$> l) (Pmml version dd td m0) = Some (Pmml version dd td (m0 ++ l))) as Hm.
    { clear. induction l as [|m l IHl]; intros m0 H; [by rewrite app_nil_r|].
      apply Forall_cons in H as [H1 H2]. cbn [fmap list_fmap kids_fold].
      assert (pmml_kid E U (wr_model F m) (Pmml version dd td m0) = Some (Pmml version dd td (m0 ++ [m]))) as ->.
      { pose proof (dec_wr_model m H1) as Hd.
        destruct (wr_model_name m H1) as (n & at_ & i & ks & Hw & _ & N1 & N2 & N3 & N4).
        rewrite Hw in Hd |- *. cbn [pmml_kid]. by rewrite N1, N2, N3, N4, Hd. }
      rewrite (IHl _ H2), <- app_assoc. done. }
    rewrite Hm by done. done.
  Qed.
End RoundTrip.
