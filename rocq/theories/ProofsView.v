(** The hand-written decoder of Decode.v against the generated table. *)
From Verif Require Import Base Strconv Xml Doc Decode Schema Reflect SpecReflect ProofsReflect SpecView.

(** ** Folding through a projection *)

Lemma ofold_view {O A B} (I : B → Prop) (view : B → A) (h : O → A → option A) (g : O → B → option B) l :
  (∀ o b, o ∈ l → I b → h o (view b) = view <$> g o b) →
  (∀ o b b', o ∈ l → I b → g o b = Some b' → I b') →
  ∀ b, I b → ofold h l (view b) = view <$> ofold g l b.
Proof.
  induction l as [|o l IH]; intros H1 H2 b Hb; [done|]. cbn.
  rewrite H1 by (by try left). destruct (g o b) as [b'|] eqn:Hg; cbn; [|done].
  apply IH.
  - intros o' c Ho. apply H1. by right.
  - intros o' c c' Ho. apply H2. by right.
  - eapply H2; [by left|done..].
Qed.

Definition kid_step (E : Ext) (loop : bool) (fs : list field) (k : xml) (vs : list value)
    : option (list value) :=
  match k with
  | Chars _ => Some vs
  | Elem m _ _ cs =>
      if loop && negb (existsb (λ f, takes f m) fs) then None
      else each_field (λ f v, if takes f m then child_field E (read E k) m cs f v else Some v) fs vs
  end.

Lemma read_steps E s loop fs n at_ inner ks vs : go_struct s = Some (Struct loop fs) →
  read E (Elem n at_ inner ks) s vs =
  vs1 ← attrs_fold (λ n t, each_field (attr_field E n t) fs) at_ vs;
  vs2 ← kids_fold (kid_step E loop fs) ks vs1;
  each_field (text_field ks inner) fs vs2.
Proof.
  intros H. transitivity (match go_struct s with
    | Some (Struct loop fs) =>
        vs1 ← attrs_fold (λ n t, each_field (attr_field E n t) fs) at_ vs;
        vs2 ← kids_fold (kid_step E loop fs) ks vs1;
        each_field (text_field ks inner) fs vs2
    | None => None
    end); [reflexivity|by rewrite H].
Qed.

Lemma attr_kept_fits E fs n t vs vs' : Forall2 fits fs vs →
  each_field (attr_field E n t) fs vs = Some vs' → Forall2 fits fs vs'.
Proof.
  intros H. apply (each_ok fits (λ f, bad_attr E f (n, t)) (attr_field E n t) fs vs); [|done].
  intros f v _ Hf. by apply (attr_field_ok E f (n, t) v).
Qed.

Lemma kid_kept_fits E loop fs k vs vs' : Forall2 fits fs vs →
  kid_step E loop fs k vs = Some vs' → Forall2 fits fs vs'.
Proof.
  intros H. destruct k as [m at_ i cs|t]; [|by intros [= <-]].
  cbn [kid_step]. destruct (loop && _); [done|].
  apply (each_ok fits (λ f, bad_child E f (Elem m at_ i cs)) (λ f v, child_step E f (Elem m at_ i cs) v) fs vs); [|done].
  intros f v _ Hf. apply child_step_ok; [apply all_good|done].
Qed.

Lemma attrs_kept_fits E fs at_ : ∀ vs vs', Forall2 fits fs vs →
  attrs_fold (λ n t, each_field (attr_field E n t) fs) at_ vs = Some vs' → Forall2 fits fs vs'.
Proof.
  induction at_ as [|[n t] at_ IH]; intros vs vs' H; cbn; [by intros [= <-]|].
  destruct (each_field _ fs vs) as [vs1|] eqn:He; [|done]. apply IH. by eapply attr_kept_fits.
Qed.

Lemma kids_kept_fits E loop fs ks : ∀ vs vs', Forall2 fits fs vs →
  kids_fold (kid_step E loop fs) ks vs = Some vs' → Forall2 fits fs vs'.
Proof.
  induction ks as [|k ks IH]; intros vs vs' H; cbn; [by intros [= <-]|].
  destruct (kid_step E loop fs k vs) as [vs1|] eqn:He; [|done]. apply IH. by eapply kid_kept_fits.
Qed.

Definition no_text (fs : list field) : bool :=
  forallb (λ f, match f_kind f with CharData | InnerXml => false | _ => true end) fs.

Lemma text_none ks inner fs vs : no_text fs = true → each_field (text_field ks inner) fs vs = Some vs.
Proof.
  intros H. transitivity (each_field (λ _ v, Some v) fs vs); [|apply each_id]. apply each_ext. intros f v Hf.
  unfold no_text in H. rewrite forallb_forall in H. apply elem_of_list_In in Hf. specialize (H f Hf).
  unfold text_field. by destruct (f_kind f).
Qed.

Lemma view_read E s loop fs {A} (view : list value → A) hattr hkid n at_ inner ks vs :
  go_struct s = Some (Struct loop fs) → no_text fs = true →
  (∀ n t vs, Forall2 fits fs vs → hattr n t (view vs) = view <$> each_field (attr_field E n t) fs vs) →
  (∀ k vs, k ∈ ks → Forall2 fits fs vs → hkid k (view vs) = view <$> kid_step E loop fs k vs) →
  Forall2 fits fs vs →
  (a ← attrs_fold hattr at_ (view vs); kids_fold hkid ks a) = view <$> read E (Elem n at_ inner ks) s vs.
Proof.
  intros Hs Hno H1 H2 Hf. rewrite (read_steps _ _ _ _ _ _ _ _ _ Hs).
  rewrite !attrs_ofold.
  rewrite (ofold_view (Forall2 fits fs) view _ (λ p, each_field (attr_field E p.1 p.2) fs)); [|..|done].
  2:{ intros [a t] b _ Hb. by apply H1. }
  2:{ intros [a t] b b' _. apply attr_kept_fits. }
  destruct (ofold _ at_ vs) as [vs1|] eqn:Ha; [|done].
  assert (Forall2 fits fs vs1) as Hf1.
  { rewrite <- (attrs_ofold (λ n t, each_field (attr_field E n t) fs)) in Ha. by eapply attrs_kept_fits. }
  change (view <$> Some vs1) with (Some (view vs1)).
  change (Some (view vs1) ≫= ?k) with (k (view vs1)). change (Some vs1 ≫= ?k) with (k vs1). cbv beta.
  rewrite !kids_ofold.
  rewrite (ofold_view (Forall2 fits fs) view _ (kid_step E loop fs)); [|..|done].
  2:{ intros k b Hk Hb. by apply H2. }
  2:{ intros k b b' _. apply kid_kept_fits. }
  destruct (ofold _ ks vs1) as [vs2|]; [|done]. cbn. by rewrite text_none.
Qed.

Lemma attrs_idle {A} at_ (a : A) : attrs_fold (λ _ _ a, Some a) at_ a = Some a.
Proof. induction at_ as [|[n t] at_ IH]; [done|]. cbn. apply IH. Qed.
Lemma kids_idle {A} ks (a : A) : kids_fold (λ _ a, Some a) ks a = Some a.
Proof. induction ks as [|k ks IH]; [done|]. cbn. apply IH. Qed.

Lemma view_kids E s loop fs {A} (view : list value → A) hkid n at_ inner ks vs :
  go_struct s = Some (Struct loop fs) → no_text fs = true →
  (∀ n t vs, Forall2 fits fs vs → Some (view vs) = view <$> each_field (attr_field E n t) fs vs) →
  (∀ k vs, k ∈ ks → Forall2 fits fs vs → hkid k (view vs) = view <$> kid_step E loop fs k vs) →
  Forall2 fits fs vs →
  kids_fold hkid ks (view vs) = view <$> read E (Elem n at_ inner ks) s vs.
Proof.
  intros Hs Hno H1 H2 Hf.
  rewrite <- (view_read E s loop fs view (λ _ _ a, Some a) hkid); [|done..].
  by rewrite attrs_idle.
Qed.

Lemma view_attrs E s loop fs {A} (view : list value → A) hattr n at_ inner ks vs :
  go_struct s = Some (Struct loop fs) → no_text fs = true →
  (∀ n t vs, Forall2 fits fs vs → hattr n t (view vs) = view <$> each_field (attr_field E n t) fs vs) →
  (∀ k vs, k ∈ ks → Forall2 fits fs vs → Some (view vs) = view <$> kid_step E loop fs k vs) →
  Forall2 fits fs vs →
  attrs_fold hattr at_ (view vs) = view <$> read E (Elem n at_ inner ks) s vs.
Proof.
  intros Hs Hno H1 H2 Hf.
  rewrite <- (view_read E s loop fs view hattr (λ _ a, Some a)); [|done..].
  destruct (attrs_fold hattr at_ (view vs)); [|done]. cbn. by rewrite kids_idle.
Qed.

Lemma new_fits E s st n at_ inner ks vs : go_struct s = Some st →
  read E (Elem n at_ inner ks) s (zero s) = Some vs → Forall2 fits (s_fields st) vs.
Proof.
  intros Hs. destruct (all_good E (Elem n at_ inner ks) s st (zero s) ltac:(done) Hs (zero_fits _ _ Hs)) as [_ G].
  apply G.
Qed.

(** success does not depend on what the struct holds *)
Lemma read_outcome E s st n at_ inner ks vs vs' : go_struct s = Some st →
  Forall2 fits (s_fields st) vs → Forall2 fits (s_fields st) vs' →
  (λ _, tt) <$> read E (Elem n at_ inner ks) s vs = (λ _, tt) <$> read E (Elem n at_ inner ks) s vs'.
Proof.
  intros Hs H H'.
  destruct (all_good E (Elem n at_ inner ks) s st vs ltac:(done) Hs H) as [G _].
  destruct (all_good E (Elem n at_ inner ks) s st vs' ltac:(done) Hs H') as [G' _].
  destruct (read E _ s vs) eqn:R, (read E _ s vs') eqn:R'; try done.
  - assert (malformed E s (Elem n at_ inner ks)) as M by (by apply G'). by apply G in M.
  - assert (malformed E s (Elem n at_ inner ks)) as M by (by apply G). by apply G' in M.
Qed.

Lemma check_read E s st n at_ inner ks vs : go_struct s = Some st → Forall2 fits (s_fields st) vs →
  check (go_unread E s (Elem n at_ inner ks)) = (λ _, tt) <$> read E (Elem n at_ inner ks) s vs.
Proof.
  intros Hs H. rewrite (read_outcome E s st n at_ inner ks vs (zero s)); [|done..|by apply zero_fits].
  unfold go_unread, unmarshal_new. destruct (read E _ s (zero s)) eqn:R.
  - rewrite bool_decide_eq_true_2 by (eexists; done). done.
  - rewrite bool_decide_eq_false_2 by (intros [? [=]]). done.
Qed.

(** ** Case analysis on names *)

Ltac lits := repeat match goal with
  | |- context[String.eqb ?a ?b] =>
      let r := eval vm_compute in (String.eqb a b) in
      match r with
      | true => change (String.eqb a b) with true
      | false => change (String.eqb a b) with false
      end
  end; cbv beta iota.

Ltac orient n := repeat match goal with
  | |- context[String.eqb n ?c] => lazymatch c with n => fail | _ => rewrite (String.eqb_sym n c) end
  end.

(** [vs] of a concrete struct, field by field *)
Ltac spread H := repeat match type of H with
  | Forall2 _ [] _ => apply Forall2_nil_inv_l in H; subst
  | Forall2 _ (_ :: _) _ =>
      let v := fresh "v" in let Hv := fresh "Hv" in let vs := fresh "vs" in
      apply Forall2_cons_inv_l in H as (v & vs & Hv & H & ->);
      lazymatch type of Hv with
      | fits (Field _ (Attr _ _)) _ => clear Hv
      | fits (Field _ (Sub Opt _)) _ => idtac
      | _ => inversion Hv; subst; clear Hv
      end
  end.

Lemma go_struct_fields s st : go_struct s = Some st → fields s = s_fields st.
Proof. intros H. unfold fields. by rewrite H. Qed.

Ltac known s := let H := fresh "Hs" in
  let st := eval vm_compute in (go_struct s) in
  assert (go_struct s = st) as H by (vm_compute; reflexivity).

(** a child that nothing reads: Extension and the other structs of strings *)
Fixpoint strings_only (bound : nat) (s : string) : bool :=
  match bound, go_struct s with
  | S b, Some (Struct false fs) =>
      forallb (λ f, match f_kind f with
                    | Attr KStr _ | CharData | InnerXml => true
                    | Sub _ s' => strings_only b s'
                    | _ => false
                    end) fs
  | _, _ => false
  end.

Lemma strings_read bound : ∀ s E n at_ inner ks, strings_only bound s = true →
  ¬ malformed E s (Elem n at_ inner ks).
Proof.
  induction bound as [|b IH]; intros s E n at_ inner ks H Hm; [done|].
  cbn [strings_only] in H.
  inversion Hm as [? ? fs ? ? ? ? a k ptr t Hs Hf Hp Hu|? ? fs ? ? ? ? a k at' i' cs Hs Hf Hk Hu
                  |? fs ? ? ? ? k Hs Hk He Hno|? ? fs ? ? ? ? f k m s' Hs Hf Hk He Hc Hmk]; subst;
    rewrite Hs in H; try (destruct loop; [done|]); try done;
    rewrite forallb_forall in H; apply elem_of_list_In in Hf; specialize (H _ Hf); cbn in H.
  - destruct k; try done. apply (Hu (VStr t)). constructor.
  - done.
  - inversion Hc; subst; cbn in H; [|done]. destruct k as [? ? ? ?|]; [|done]. by eapply IH.
Qed.

Lemma strings_some s st E n at_ inner ks vs : strings_only 3 s = true → go_struct s = Some st →
  Forall2 fits (s_fields st) vs → ∃ w, read E (Elem n at_ inner ks) s vs = Some w.
Proof.
  intros H Hs Hf. destruct (read E _ s vs) as [w|] eqn:R; [by exists w|].
  apply (all_good E (Elem n at_ inner ks) s st vs) in R; [|done..]. by apply (strings_read 3) in R.
Qed.

Lemma zero_extension E n at_ inner ks :
  ∃ w, read E (Elem n at_ inner ks) "Extension" (zero "Extension") = Some w.
Proof.
  known "Extension". eapply strings_some; [vm_compute; reflexivity|done|]. by apply zero_fits.
Qed.

Definition in_group (m g : string) : bool := existsb (String.eqb m) (go_group g).

Ltac lits2 := lits; repeat match goal with
  | |- context[in_group ?m ?g] =>
      let r := eval vm_compute in (in_group m g) in
      match r with
      | true => change (in_group m g) with true
      | false => change (in_group m g) with false
      end
  end; cbv beta iota.

Ltac split_names n tac := orient n; repeat match goal with
  | |- context[String.eqb ?c n] =>
      destruct (String.eqb_spec c n) as [<-|]; [lits2; solve [tac]|]
  end; cbv beta iota.

Ltac open_kid := cbv [kid_step existsb each_field child_field]; cbv [takes f_kind f_name];
  repeat match goal with |- context[existsb (String.eqb ?m) (go_group ?g)] =>
    change (existsb (String.eqb m) (go_group g)) with (in_group m g) end;
  cbv [andb negb orb].

Ltac open_attr := cbv [each_field attr_field f_kind f_name read_basic].

(** Extension *)
Ltac ext := match goal with
  | |- context[read ?E (Elem ?n ?at_ ?i ?cs) "Extension" (zero "Extension")] =>
      destruct (zero_extension E n at_ i cs) as [? ->]; reflexivity
  end.

Global Arguments get : simpl never.
Global Arguments fields : simpl never.

Ltac steps := cbn [fmap option_fmap option_map mbind option_bind].
(** the numbers in the way *)
Ltac nums := repeat match goal with
  | |- context[att_float ?E ?t] => destruct (att_float E t)
  | |- context[att_int ?t] => destruct (att_int t)
  | |- context[att_uint ?t] => destruct (att_uint t)
  | |- context[att_bool ?t] => destruct (att_bool t)
  | |- context[ext_parse_float ?E ?t] => destruct (ext_parse_float E t)
  | |- context[String.eqb ?t ""] => is_var t; destruct (String.eqb t "")
  end.
Ltac fin L := nums; steps; rewrite ?L; reflexivity.

Ltac by_attrs L u := let m := fresh "m" in let t := fresh "t" in let vs := fresh "vs" in let Hf := fresh "Hf" in
  intros m t vs Hf; cbn [s_fields] in Hf; spread Hf; open_attr; rewrite L; u;
  split_names m ltac:(idtac; fin L); fin L.

Ltac by_kids L u tac := let m := fresh "m" in let at' := fresh "at'" in let i := fresh "i" in
  let cs := fresh "cs" in let vs := fresh "vs" in let Hf := fresh "Hf" in
  intros [m at' i cs|?] vs ? Hf; [|reflexivity]; cbn [s_fields] in Hf; spread Hf; open_kid; rewrite L; u;
  split_names m ltac:(idtac; first [
    match goal with
    | |- context[read ?E (Elem ?n ?at_ ?i ?cs) "Extension" (zero "Extension")] =>
        destruct (zero_extension E n at_ i cs) as [? ->]; steps; rewrite ?L; reflexivity
    end | tac]);
  steps; rewrite ?L; reflexivity.

(** one more element of a slice *)
Ltac more L Z := rewrite Z; match goal with |- context[read ?E ?x ?s ?v] => destruct (read E x s v) end;
  steps; [rewrite ?L; cbn [items]; rewrite ?map_app; reflexivity|reflexivity].

(** FieldColumnPair *)
Lemma see_pair_is a b c : see_pair [a; b; c] = (str b, str a).
Proof. reflexivity. Qed.
Global Arguments see_pair : simpl never.

Lemma pair_read E n at_ inner ks vs : Forall2 fits (fields "FieldColumnPair") vs →
  attrs_fold pair_attr at_ (see_pair vs) = see_pair <$> read E (Elem n at_ inner ks) "FieldColumnPair" vs.
Proof.
  known "FieldColumnPair". rewrite (go_struct_fields _ _ Hs). intros Hf.
  apply (view_attrs E _ _ _ see_pair pair_attr n at_ inner ks vs Hs); [done| | |exact Hf]; clear vs Hf.
  - by_attrs see_pair_is ltac:(cbv [pair_attr]).
  - by_kids see_pair_is idtac fail.
Qed.

Lemma fields_zero s : Forall2 fits (fields s) (zero s) ∨ go_struct s = None.
Proof.
  destruct (go_struct s) as [st|] eqn:H; [left|by right]. rewrite (go_struct_fields _ _ H). by apply zero_fits.
Qed.

Ltac from_zero L := rewrite <- L; [reflexivity|];
  match goal with |- Forall2 fits (fields ?s) _ => destruct (fields_zero s) as [?|?]; [assumption|discriminate] end.

Lemma pair_new E n at_ inner ks :
  attrs_fold pair_attr at_ ("", "") =
  see_pair <$> read E (Elem n at_ inner ks) "FieldColumnPair" (zero "FieldColumnPair").
Proof. from_zero pair_read. Qed.

(** InlineTable *)
Lemma see_table_is a : see_table [a] = map row (items a).
Proof. reflexivity. Qed.
Global Arguments see_table : simpl never.

Lemma table_read E n at_ inner ks vs : Forall2 fits (fields "InlineTable") vs →
  dec_table ks (see_table vs) = see_table <$> read E (Elem n at_ inner ks) "InlineTable" vs.
Proof.
  known "InlineTable". rewrite (go_struct_fields _ _ Hs). intros Hf. unfold dec_table.
  apply (view_kids E _ _ _ see_table _ n at_ inner ks vs Hs); [done| | |exact Hf]; clear vs Hf.
  - by_attrs see_table_is idtac.
  - intros [m at' i cs|?] vs ? Hf; [|reflexivity]; cbn [s_fields] in Hf; spread Hf; open_kid.
    rewrite see_table_is. split_names m ltac:(idtac; steps; rewrite see_table_is; cbn [items]; rewrite map_app; reflexivity).
    reflexivity.
Qed.
Lemma table_new E n at_ inner ks :
  dec_table ks [] = see_table <$> read E (Elem n at_ inner ks) "InlineTable" (zero "InlineTable").
Proof. from_zero table_read. Qed.

(** MapValues *)
Definition see_mv (vs : list value) : map_values :=
  MapValues (map (λ v, see_pair (inside v)) (items (get "MapValues" "FieldColumnPair" vs)))
       (map (λ v, see_table (inside v)) (items (get "MapValues" "InlineTable" vs)))
       (opt str (get "MapValues" "defaultValue" vs)) (str (get "MapValues" "dataType" vs))
       (str (get "MapValues" "outputColumn" vs)) (opt str (get "MapValues" "mapMissingTo" vs)).
Lemma see_mv_is a b c d e f g : see_mv [a; b; c; d; e; f; g] =
  MapValues (map (λ v, see_pair (inside v)) (items f)) (map (λ v, see_table (inside v)) (items g))
    (opt str b) (str e) (str d) (opt str c).
Proof. reflexivity. Qed.
Global Arguments see_mv : simpl never.

Lemma map_read E n at_ inner ks vs : Forall2 fits (fields "MapValues") vs →
  (m ← attrs_fold map_attr at_ (see_mv vs); kids_fold map_kid ks m) =
  see_mv <$> read E (Elem n at_ inner ks) "MapValues" vs.
Proof.
  known "MapValues". rewrite (go_struct_fields _ _ Hs). intros Hf.
  apply (view_read E _ _ _ see_mv _ _ n at_ inner ks vs Hs); [done| | |exact Hf]; clear vs Hf.
  - by_attrs see_mv_is ltac:(cbv [map_attr]).
  - by_kids see_mv_is ltac:(cbv [map_kid]) ltac:(idtac; first
      [more see_mv_is (pair_new E "FieldColumnPair" at' i cs)|more see_mv_is (table_new E "InlineTable" at' i cs)]).
Qed.

Lemma map_new E n at_ inner ks :
  dec_map at_ ks = see_map <$> read E (Elem n at_ inner ks) "MapValues" (zero "MapValues").
Proof.
  unfold dec_map.
  transitivity ((λ m', XMap (mv_pairs m') (mv_tables m') (mv_dflt m') (mv_dt m') (mv_outcol m') (mv_mmt m')) <$>
     (see_mv <$> read E (Elem n at_ inner ks) "MapValues" (zero "MapValues"))).
  - rewrite <- map_read by (by destruct (fields_zero "MapValues")).
    change (see_mv (zero "MapValues")) with (MapValues [] [] None "" "" None).
    destruct (attrs_fold map_attr _ _); [|done]. cbn. by destruct (kids_fold map_kid ks m).
  - by destruct (read E _ _ _).
Qed.

(** two folds side by side *)
Lemma attrs_left {A B} (h : string → string → A → option A) at_ a (b : B) :
  attrs_fold (λ n t p, (λ x, (x, p.2)) <$> h n t p.1) at_ (a, b) = (λ x, (x, b)) <$> attrs_fold h at_ a.
Proof.
  revert a. induction at_ as [|[n t] at_ IH]; intros a; [done|]. cbn. destruct (h n t a); [apply IH|done].
Qed.
Lemma kids_right {A B} (h : xml → B → option B) ks (a : A) b :
  kids_fold (λ k p, (λ y, (p.1, y)) <$> h k p.2) ks (a, b) = (λ y, (a, y)) <$> kids_fold h ks b.
Proof.
  revert b. induction ks as [|k ks IH]; intros b; [done|]. cbn. destruct (h k b); [apply IH|done].
Qed.
Lemma two_folds {A B C} (c : A → B → C) h1 h2 at_ ks a b :
  (x ← attrs_fold h1 at_ a; y ← kids_fold h2 ks b; Some (c x y)) =
  (λ p, c p.1 p.2) <$>
    (p ← attrs_fold (λ n t p, (λ x, (x, p.2)) <$> h1 n t p.1) at_ (a, b);
     kids_fold (λ k p, (λ y, (p.1, y)) <$> h2 k p.2) ks p).
Proof.
  rewrite attrs_left. destruct (attrs_fold h1 at_ a) as [x|]; [|done]. cbn.
  rewrite kids_right. by destruct (kids_fold h2 ks b).
Qed.

(** ** Expressions *)

Definition see_exprs (v : value) : list expr :=
  map (λ u, match u with VSome e => see_expr e | _ => XOther "" end) (items v).

Definition see_apply (vs : list value) : (option string * string * option string) * list expr :=
  ((opt str (get "Apply" "defaultValue" vs), str (get "Apply" "function" vs),
    opt str (get "Apply" "mapMissingTo" vs)), see_exprs (get "Apply" "Expression" vs)).
Lemma see_apply_is a b c d e f : see_apply [a; b; c; d; e; f] = ((opt str a, str b, opt str d), see_exprs f).
Proof. reflexivity. Qed.
Global Arguments see_apply : simpl never.

Definition see_ref (vs : list value) : string * option string :=
  (str (get "FieldRef" "field" vs), opt str (get "FieldRef" "mapMissingTo" vs)).
Lemma see_ref_is a b c : see_ref [a; b; c] = (str a, opt str b).
Proof. reflexivity. Qed.
Global Arguments see_ref : simpl never.

Lemma ref_read E n at_ inner ks vs : Forall2 fits (fields "FieldRef") vs →
  attrs_fold ref_attr at_ (see_ref vs) = see_ref <$> read E (Elem n at_ inner ks) "FieldRef" vs.
Proof.
  known "FieldRef". rewrite (go_struct_fields _ _ Hs). intros Hf.
  apply (view_attrs E _ _ _ see_ref ref_attr n at_ inner ks vs Hs); [done| | |exact Hf]; clear vs Hf.
  - by_attrs see_ref_is ltac:(cbv [ref_attr]).
  - by_kids see_ref_is idtac fail.
Qed.
Lemma ref_new E n at_ inner ks :
  attrs_fold ref_attr at_ ("", None) = see_ref <$> read E (Elem n at_ inner ks) "FieldRef" (zero "FieldRef").
Proof. from_zero ref_read. Qed.

Lemma const_new E n at_ inner ks :
  attrs_fold const_attr at_ "" =
  (λ vs, str (get "Constant" "dataType" vs)) <$> read E (Elem n at_ inner ks) "Constant" (zero "Constant") ∧
  ∀ vs, read E (Elem n at_ inner ks) "Constant" (zero "Constant") = Some vs → str (get "Constant" "" vs) = inner.
Proof.
  known "Constant". rewrite (read_steps _ _ _ _ _ _ _ _ _ Hs).
  set (fs := [Field "dataType" (Attr KStr false); Field "" InnerXml]) in *.
  assert (∀ vs, kids_fold (kid_step E false fs) ks vs = Some vs) as Hk.
  { intros vs. clear. induction ks as [|k ks IH]; [done|]. cbn [kids_fold].
    replace (kid_step E false fs k vs) with (Some vs); [apply IH|].
    destruct k as [m ? ? ?|]; [|done]. destruct vs as [|? [|? ?]]; done. }
  assert (Forall2 fits fs (zero "Constant")) as Hz.
  { destruct (fields_zero "Constant") as [Hz|Hz]; [exact Hz|done]. }
  assert (attrs_fold const_attr at_ "" =
    (λ vs, str (get "Constant" "dataType" vs)) <$> attrs_fold (λ n t, each_field (attr_field E n t) fs) at_ (zero "Constant")) as ->.
  { rewrite !attrs_ofold.
    refine (ofold_view (Forall2 fits fs) (λ vs, str (get "Constant" "dataType" vs)) (λ p, const_attr p.1 p.2)
      (λ p, each_field (attr_field E p.1 p.2) fs) at_ _ _ (zero "Constant") Hz).
    - intros [m t] vs _ Hf. subst fs. spread Hf. cbn [fst snd]. open_attr. cbv [const_attr].
      split_names m ltac:(idtac; reflexivity). reflexivity.
    - intros [m t] vs vs' _. apply attr_kept_fits. }
  destruct (attrs_fold _ at_ (zero "Constant")) as [vs|] eqn:Hv; cbn; [|done].
  rewrite Hk. cbn. assert (Forall2 fits fs vs) as Hf by (by eapply attrs_kept_fits).
  subst fs. spread Hf. cbn. split; [done|]. by intros vs [= <-].
Qed.

Definition as_expr (n : string) (vs : list value) : expr := see_expr (VStruct n vs).

Lemma dec_expr_name E U n at_ inner ks : in_group n "Expression" = false → dec_expr E U (Elem n at_ inner ks) = None.
Proof.
  unfold in_group. change (go_group "Expression") with
    ["Aggregate"; "Apply"; "Constant"; "Discretize"; "FieldRef"; "Lag"; "MapValues"; "NormContinuous"; "NormDiscrete"; "TextIndex"].
  cbv [existsb]. intros H. repeat (apply orb_false_elim in H as [? H]).
  cbn [dec_expr]. unfold other_expr.
  repeat match goal with H : (n =s _) = false |- _ => rewrite H; clear H end. done.
Qed.

Lemma expr_group n : in_group n "Expression" = true →
  n = "FieldRef" ∨ n = "Constant" ∨ n = "MapValues" ∨ n = "Apply" ∨ other_expr n = true.
Proof.
  unfold in_group. change (go_group "Expression") with
    ["Aggregate"; "Apply"; "Constant"; "Discretize"; "FieldRef"; "Lag"; "MapValues"; "NormContinuous"; "NormDiscrete"; "TextIndex"].
  cbv [existsb]. intros H. repeat (apply orb_prop in H as [H|H]; [apply String.eqb_eq in H as ->; tauto|]). done.
Qed.

Lemma other_struct n : other_expr n = true → ∃ st, go_struct n = Some st.
Proof.
  unfold other_expr. intros H.
  repeat (apply orb_prop in H as [H|H]); apply String.eqb_eq in H as ->; eexists; vm_compute; reflexivity.
Qed.

Lemma as_other n vs : other_expr n = true → as_expr n vs = XOther n.
Proof.
  unfold other_expr. intros H.
  repeat (apply orb_prop in H as [H|H]); apply String.eqb_eq in H as ->; reflexivity.
Qed.

Lemma dec_other E U n at_ inner ks : other_expr n = true →
  dec_expr E U (Elem n at_ inner ks) = Some (_ ← check (U n (Elem n at_ inner ks)); Some (XOther n)).
Proof.
  intros H. pose proof H as H'. unfold other_expr in H'.
  repeat (apply orb_prop in H' as [H'|H']); apply String.eqb_eq in H' as ->; reflexivity.
Qed.

Lemma expr_new E : ∀ n at_ inner ks, in_group n "Expression" = true →
  dec_expr E (go_unread E) (Elem n at_ inner ks) =
  Some (as_expr n <$> read E (Elem n at_ inner ks) n (zero n)).
Proof.
  enough (∀ x, match x with
               | Elem n at_ inner ks => in_group n "Expression" = true →
                   dec_expr E (go_unread E) x = Some (as_expr n <$> read E x n (zero n))
               | Chars _ => True
               end) as Hx by (intros n at_ inner ks; apply (Hx (Elem n at_ inner ks))).
  induction x as [n at_ inner ks IH|t] using xml_rect'; [|done].
  intros Hn. destruct (expr_group n Hn) as [->|[->|[->|[->|Ho]]]].
  - change (dec_expr E (go_unread E) (Elem "FieldRef" at_ inner ks)) with
      (Some (a ← attrs_fold ref_attr at_ ("", None); Some (XField a.1 a.2))).
    rewrite (ref_new E "FieldRef" at_ inner ks). by destruct (read E _ _ _).
  - change (dec_expr E (go_unread E) (Elem "Constant" at_ inner ks)) with
      (Some (dt ← attrs_fold const_attr at_ ""; Some (XConst dt inner))).
    destruct (const_new E "Constant" at_ inner ks) as [-> Hi].
    destruct (read E _ _ _) as [vs|]; [|done]. cbn. by rewrite <- (Hi vs eq_refl).
  - change (dec_expr E (go_unread E) (Elem "MapValues" at_ inner ks)) with (Some (dec_map at_ ks)).
    by rewrite (map_new E "MapValues" at_ inner ks).
  - change (dec_expr E (go_unread E) (Elem "Apply" at_ inner ks)) with
      (Some (a ← attrs_fold apply_attr at_ (None, "", None);
              args ← kids_fold
                (λ k acc,
                   match k with
                   | Chars _ => Some acc
                   | Elem m _ _ _ =>
                       if m =s "Extension" then Some acc
                       else match dec_expr E (go_unread E) k with
                            | Some (Some e) => Some (acc ++ [e])
                            | _ => None
                            end
                   end) ks [];
              Some (XApply a.1.2 a.1.1 a.2 args))).
    f_equal. rewrite (two_folds (λ a args, XApply a.1.2 a.1.1 a.2 args)).
    transitivity ((λ p : (option string * string * option string) * list expr,
                     XApply p.1.1.2 p.1.1.1 p.1.2 p.2) <$>
                  (see_apply <$> read E (Elem "Apply" at_ inner ks) "Apply" (zero "Apply"))).
    2:{ destruct (read E _ _ _) as [vs|] eqn:R; [|done]. cbn.
        known "Apply". pose proof (new_fits _ _ _ _ _ _ _ _ Hs R) as Hf. cbn [s_fields] in Hf. spread Hf. reflexivity. }
    f_equal. known "Apply".
    change (None, "", None, []) with (see_apply (zero "Apply")).
    eapply (view_read E _ _ _ see_apply); [exact Hs|done| | |by apply (zero_fits _ _ Hs)].
    + by_attrs see_apply_is ltac:(cbv [apply_attr fst snd]).
    + intros [m at' i cs|?] vs Hk Hf; [|cbn; by destruct (see_apply vs)]. cbn [s_fields] in Hf. spread Hf. open_kid.
      rewrite see_apply_is. cbv [fst snd].
      split_names m ltac:(idtac; destruct (zero_extension E "Extension" at' i cs) as [? ->]; steps; rewrite ?see_apply_is; reflexivity).
      destruct (in_group m "Expression") eqn:Hg.
      * rewrite Forall_forall in IH. rewrite (IH _ Hk Hg). destruct (read E _ _ _); steps; [|done].
        rewrite see_apply_is. unfold see_exprs. cbn [items]. by rewrite map_app.
      * rewrite dec_expr_name by done. done.
  - rewrite dec_other by done. destruct (other_struct n Ho) as [st Hst].
    rewrite (check_read E n st n at_ inner ks (zero n)); [|done|by apply zero_fits].
    destruct (read E _ _ _); [|done]. steps. by rewrite as_other.
Qed.

Lemma expr_any E n at_ inner ks :
  dec_expr E (go_unread E) (Elem n at_ inner ks) =
  if in_group n "Expression" then Some (as_expr n <$> read E (Elem n at_ inner ks) n (zero n)) else None.
Proof. destruct (in_group n "Expression") eqn:H; [by apply expr_new|by apply dec_expr_name]. Qed.

Global Arguments as_expr : simpl never.

Ltac fit := first [assumption|match goal with
  | H : go_struct ?s = Some ?st, H' : Forall2 fits (s_fields ?st) ?l |- Forall2 fits (fields ?s) ?l =>
      rewrite (go_struct_fields _ _ H); exact H'
  | |- Forall2 fits (fields ?s) (zero ?s) => destruct (fields_zero s) as [?|?]; [assumption|discriminate]
  end].

(** structs of strings below another struct *)
Definition see_value (vs : list value) : string := str (get "Value" "value" vs).
Lemma see_value_is a b c d : see_value [a; b; c; d] = str c.
Proof. reflexivity. Qed.
Global Arguments see_value : simpl never.
Lemma value_read E n at_ inner ks vs : Forall2 fits (fields "Value") vs →
  attrs_fold value_attr at_ (see_value vs) = see_value <$> read E (Elem n at_ inner ks) "Value" vs.
Proof.
  known "Value". rewrite (go_struct_fields _ _ Hs). intros Hf.
  apply (view_attrs E _ _ _ see_value value_attr n at_ inner ks vs Hs); [done| | |exact Hf]; clear vs Hf.
  - by_attrs see_value_is ltac:(cbv [value_attr]).
  - by_kids see_value_is idtac fail.
Qed.
Lemma value_new E n at_ inner ks :
  attrs_fold value_attr at_ "" = see_value <$> read E (Elem n at_ inner ks) "Value" (zero "Value").
Proof. from_zero value_read. Qed.

(** ** DerivedField *)
Lemma see_derived_is a b c d e f g : see_derived [a; b; c; d; e; f; g] =
  DerivedField (str c) (str d) (str a) (match g with VSome e => see_expr e | _ => XOther "" end).
Proof. reflexivity. Qed.
Global Arguments see_derived : simpl never.

Lemma strings_new E s st n at_ inner ks : strings_only 3 s = true → go_struct s = Some st →
  ∃ w, read E (Elem n at_ inner ks) s (zero s) = Some w.
Proof. intros H Hs. eapply strings_some; [done|done|by apply zero_fits]. Qed.

(** an element of a struct that nothing can go wrong with and nothing looks at *)
Ltac skip L := match goal with
  | |- context[read ?E (Elem ?n ?at_ ?i ?cs) ?s (zero ?s)] =>
      let st := eval vm_compute in (go_struct s) in
      match st with Some ?st =>
        destruct (strings_new E s st n at_ i cs ltac:(vm_compute; reflexivity) ltac:(vm_compute; reflexivity)) as [? ->];
        steps; rewrite ?L; reflexivity
      end
  end.

Lemma derived_read E n at_ inner ks vs : Forall2 fits (fields "DerivedField") vs →
  (d ← attrs_fold field_attr at_ (see_derived vs); kids_fold (field_kid E (go_unread E)) ks d) =
  see_derived <$> read E (Elem n at_ inner ks) "DerivedField" vs.
Proof.
  known "DerivedField". rewrite (go_struct_fields _ _ Hs). intros Hf.
  apply (view_read E _ _ _ see_derived _ _ n at_ inner ks vs Hs); [done| | |exact Hf]; clear vs Hf.
  - by_attrs see_derived_is ltac:(cbv [field_attr]).
  - intros [m at' i cs|?] vs Hk Hf; [|reflexivity].
    cbn [s_fields] in Hf. spread Hf. open_kid. rewrite see_derived_is. cbv [field_kid orb].
    split_names m ltac:(idtac; skip see_derived_is).
    rewrite expr_any. destruct (in_group m "Expression"); [|done].
    destruct (read E _ _ _); steps; [|done]. by rewrite see_derived_is.
Qed.
Lemma derived_new E n at_ inner ks :
  dec_field E (go_unread E) at_ ks =
  see_derived <$> read E (Elem n at_ inner ks) "DerivedField" (zero "DerivedField").
Proof. unfold dec_field. from_zero derived_read. Qed.

Lemma see_local_is a b : see_local [a; b] = map (λ v, see_derived (inside v)) (items a).
Proof. reflexivity. Qed.
Global Arguments see_local : simpl never.
Lemma local_read E n at_ inner ks vs : Forall2 fits (fields "LocalTransformations") vs →
  dec_local E (go_unread E) ks (see_local vs) =
  see_local <$> read E (Elem n at_ inner ks) "LocalTransformations" vs.
Proof.
  known "LocalTransformations". rewrite (go_struct_fields _ _ Hs). intros Hf. unfold dec_local.
  apply (view_kids E _ _ _ see_local _ n at_ inner ks vs Hs); [done| | |exact Hf]; clear vs Hf.
  - by_attrs see_local_is idtac.
  - by_kids see_local_is idtac ltac:(idtac; more see_local_is (derived_new E "DerivedField" at' i cs)).
Qed.

Lemma see_tdict_is a b c : see_tdict [a; b; c] = map (λ v, see_derived (inside v)) (items b).
Proof. reflexivity. Qed.
Global Arguments see_tdict : simpl never.

(** an element that is read and dropped *)
Ltac drop L := match goal with
  | |- context[read ?E (Elem ?n ?at_ ?i ?cs) ?s ?v] =>
      let st := eval vm_compute in (go_struct s) in
      match st with Some ?st =>
        rewrite (check_read E s st n at_ i cs v); [|vm_compute; reflexivity|
          first [by apply zero_fits; vm_compute; reflexivity|
            let X := fresh in assert (go_struct s = Some st) as X by (vm_compute; reflexivity); congruence]];
        destruct (read E (Elem n at_ i cs) s v); steps; rewrite ?L; reflexivity
      end
  end.

Lemma tdict_read E n at_ inner ks vs : Forall2 fits (fields "TransformationDictionary") vs →
  dec_tdict E (go_unread E) ks (see_tdict vs) =
  see_tdict <$> read E (Elem n at_ inner ks) "TransformationDictionary" vs.
Proof.
  known "TransformationDictionary". rewrite (go_struct_fields _ _ Hs). intros Hf. unfold dec_tdict.
  apply (view_kids E _ _ _ see_tdict _ n at_ inner ks vs Hs); [done| | |exact Hf]; clear vs Hf.
  - by_attrs see_tdict_is idtac.
  - by_kids see_tdict_is idtac
      ltac:(idtac; first [more see_tdict_is (derived_new E "DerivedField" at' i cs)|drop see_tdict_is]).
Qed.

(** ** Data dictionary *)
Lemma see_data_is a b c d e f g h i : see_data [a; b; c; d; e; f; g; h; i] =
  DataField (str d) (str a) (map (λ v, see_value (inside v)) (items i)).
Proof. reflexivity. Qed.
Global Arguments see_data : simpl never.
Lemma data_read E n at_ inner ks vs : Forall2 fits (fields "DataField") vs →
  (d ← attrs_fold data_attr at_ (see_data vs); kids_fold (data_kid (go_unread E)) ks d) =
  see_data <$> read E (Elem n at_ inner ks) "DataField" vs.
Proof.
  known "DataField". rewrite (go_struct_fields _ _ Hs). intros Hf.
  apply (view_read E _ _ _ see_data _ _ n at_ inner ks vs Hs); [done| | |exact Hf]; clear vs Hf.
  - by_attrs see_data_is ltac:(cbv [data_attr]).
  - intros [m at' i cs|?] vs Hk Hf; [|reflexivity].
    cbn [s_fields] in Hf. spread Hf. open_kid. rewrite see_data_is. cbv [data_kid].
    split_names m ltac:(idtac; first [more see_data_is (value_new E "Value" at' i cs)|drop see_data_is|skip see_data_is]).
    steps. by rewrite see_data_is.
Qed.
Lemma data_new E n at_ inner ks :
  dec_data_field (go_unread E) at_ ks =
  see_data <$> read E (Elem n at_ inner ks) "DataField" (zero "DataField").
Proof. unfold dec_data_field. from_zero data_read. Qed.

Lemma see_dict_is a b c d : see_dict [a; b; c; d] = map (λ v, see_data (inside v)) (items b).
Proof. reflexivity. Qed.
Global Arguments see_dict : simpl never.
Lemma dict_read E n at_ inner ks vs : Forall2 fits (fields "DataDictionary") vs →
  dec_dict (go_unread E) at_ ks (see_dict vs) = see_dict <$> read E (Elem n at_ inner ks) "DataDictionary" vs.
Proof.
  known "DataDictionary". rewrite (go_struct_fields _ _ Hs). intros Hf. unfold dec_dict.
  apply (view_read E _ _ _ see_dict _ _ n at_ inner ks vs Hs); [done| | |exact Hf]; clear vs Hf.
  - by_attrs see_dict_is ltac:(cbv [dict_attr]).
  - by_kids see_dict_is ltac:(cbv [dict_kid])
      ltac:(idtac; first [more see_dict_is (data_new E "DataField" at' i cs)|drop see_dict_is]).
Qed.

(** ** Schema, output, targets, verification *)
Lemma see_mfield_is a b c d e f g h i j k : see_mfield [a; b; c; d; e; f; g; h; i; j; k] =
  MiningField (str g) (str j) (opt str e) (str i) (str c).
Proof. reflexivity. Qed.
Global Arguments see_mfield : simpl never.
Lemma mfield_read E n at_ inner ks vs : Forall2 fits (fields "MiningField") vs →
  attrs_fold (mfield_attr E) at_ (see_mfield vs) = see_mfield <$> read E (Elem n at_ inner ks) "MiningField" vs.
Proof.
  known "MiningField". rewrite (go_struct_fields _ _ Hs). intros Hf.
  apply (view_attrs E _ _ _ see_mfield _ n at_ inner ks vs Hs); [done| | |exact Hf]; clear vs Hf.
  - by_attrs see_mfield_is ltac:(cbv [mfield_attr orb]).
  - by_kids see_mfield_is idtac fail.
Qed.
Lemma mfield_new E n at_ inner ks :
  dec_mfield E at_ ks = see_mfield <$> read E (Elem n at_ inner ks) "MiningField" (zero "MiningField").
Proof. unfold dec_mfield. from_zero mfield_read. Qed.

Lemma see_schema_is a b : see_schema [a; b] = map (λ v, see_mfield (inside v)) (items b).
Proof. reflexivity. Qed.
Global Arguments see_schema : simpl never.
Lemma schema_read E n at_ inner ks vs : Forall2 fits (fields "MiningSchema") vs →
  dec_schema E ks (see_schema vs) = see_schema <$> read E (Elem n at_ inner ks) "MiningSchema" vs.
Proof.
  known "MiningSchema". rewrite (go_struct_fields _ _ Hs). intros Hf. unfold dec_schema, dec_list.
  apply (view_kids E _ _ _ see_schema _ n at_ inner ks vs Hs); [done| | |exact Hf]; clear vs Hf.
  - by_attrs see_schema_is idtac.
  - by_kids see_schema_is idtac ltac:(idtac; more see_schema_is (mfield_new E "MiningField" at' i cs)).
Qed.

Lemma see_ofield_is a b c d e f g h i j k l m o p : see_ofield [a; b; c; d; e; f; g; h; i; j; k; l; m; o; p] =
  OutputField (str f) (str d) (str o).
Proof. reflexivity. Qed.
Global Arguments see_ofield : simpl never.
Lemma ofield_read E n at_ inner ks vs : Forall2 fits (fields "OutputField") vs →
  attrs_fold out_attr at_ (see_ofield vs) = see_ofield <$> read E (Elem n at_ inner ks) "OutputField" vs.
Proof.
  known "OutputField". rewrite (go_struct_fields _ _ Hs). intros Hf.
  apply (view_attrs E _ _ _ see_ofield _ n at_ inner ks vs Hs); [done| | |exact Hf]; clear vs Hf.
  - by_attrs see_ofield_is ltac:(cbv [out_attr orb]).
  - by_kids see_ofield_is idtac fail.
Qed.
Lemma ofield_new E n at_ inner ks :
  dec_out_field at_ ks = see_ofield <$> read E (Elem n at_ inner ks) "OutputField" (zero "OutputField").
Proof. unfold dec_out_field. from_zero ofield_read. Qed.

Lemma see_output_is a b : see_output [a; b] = map (λ v, see_ofield (inside v)) (items b).
Proof. reflexivity. Qed.
Global Arguments see_output : simpl never.
Lemma output_read E n at_ inner ks vs : Forall2 fits (fields "Output") vs →
  dec_output ks (see_output vs) = see_output <$> read E (Elem n at_ inner ks) "Output" vs.
Proof.
  known "Output". rewrite (go_struct_fields _ _ Hs). intros Hf. unfold dec_output, dec_list.
  apply (view_kids E _ _ _ see_output _ n at_ inner ks vs Hs); [done| | |exact Hf]; clear vs Hf.
  - by_attrs see_output_is idtac.
  - by_kids see_output_is idtac ltac:(idtac; more see_output_is (ofield_new E "OutputField" at' i cs)).
Qed.

Lemma see_target_is a b c d e f g h i : see_target [a; b; c; d; e; f; g; h; i] =
  Target (str b) (opt num g) (opt num f).
Proof. reflexivity. Qed.
Global Arguments see_target : simpl never.
Lemma target_read E n at_ inner ks vs : Forall2 fits (fields "Target") vs →
  (t ← attrs_fold (target_attr E) at_ (see_target vs);
   kids_fold (λ k t, match k with
                    | Elem n _ _ _ => if n =s "TargetValue" then _ ← check (go_unread E n k); Some t else Some t
                    | Chars _ => Some t
                    end) ks t) = see_target <$> read E (Elem n at_ inner ks) "Target" vs.
Proof.
  known "Target". rewrite (go_struct_fields _ _ Hs). intros Hf.
  apply (view_read E _ _ _ see_target _ _ n at_ inner ks vs Hs); [done| | |exact Hf]; clear vs Hf.
  - by_attrs see_target_is ltac:(cbv [target_attr orb]).
  - by_kids see_target_is idtac ltac:(idtac; drop see_target_is).
Qed.
Lemma target_new E n at_ inner ks :
  dec_target E (go_unread E) at_ ks = see_target <$> read E (Elem n at_ inner ks) "Target" (zero "Target").
Proof. unfold dec_target. from_zero target_read. Qed.

Lemma see_targets_is a b : see_targets [a; b] = map (λ v, see_target (inside v)) (items b).
Proof. reflexivity. Qed.
Global Arguments see_targets : simpl never.
Lemma targets_read E n at_ inner ks vs : Forall2 fits (fields "Targets") vs →
  dec_targets E (go_unread E) ks (see_targets vs) = see_targets <$> read E (Elem n at_ inner ks) "Targets" vs.
Proof.
  known "Targets". rewrite (go_struct_fields _ _ Hs). intros Hf. unfold dec_targets, dec_list.
  apply (view_kids E _ _ _ see_targets _ n at_ inner ks vs Hs); [done| | |exact Hf]; clear vs Hf.
  - by_attrs see_targets_is idtac.
  - by_kids see_targets_is idtac ltac:(idtac; more see_targets_is (target_new E "Target" at' i cs)).
Qed.

Lemma see_vfield_is a b c d e : see_vfield [a; b; c; d; e] = VerField (str a) (str b) (opt num c).
Proof. reflexivity. Qed.
Global Arguments see_vfield : simpl never.
Lemma vfield_read E n at_ inner ks vs : Forall2 fits (fields "VerificationField") vs →
  attrs_fold (vfield_attr E) at_ (see_vfield vs) = see_vfield <$> read E (Elem n at_ inner ks) "VerificationField" vs.
Proof.
  known "VerificationField". rewrite (go_struct_fields _ _ Hs). intros Hf.
  apply (view_attrs E _ _ _ see_vfield _ n at_ inner ks vs Hs); [done| | |exact Hf]; clear vs Hf.
  - by_attrs see_vfield_is ltac:(cbv [vfield_attr orb]).
  - by_kids see_vfield_is idtac fail.
Qed.
Lemma vfield_new E n at_ inner ks :
  dec_vfield E at_ ks = see_vfield <$> read E (Elem n at_ inner ks) "VerificationField" (zero "VerificationField").
Proof. unfold dec_vfield. from_zero vfield_read. Qed.

Lemma see_vfields_is a b : see_vfields [a; b] = map (λ v, see_vfield (inside v)) (items b).
Proof. reflexivity. Qed.
Global Arguments see_vfields : simpl never.
Lemma vfields_read E n at_ inner ks vs : Forall2 fits (fields "VerificationFields") vs →
  dec_list "VerificationField" (dec_vfield E) ks (see_vfields vs) =
  see_vfields <$> read E (Elem n at_ inner ks) "VerificationFields" vs.
Proof.
  known "VerificationFields". rewrite (go_struct_fields _ _ Hs). intros Hf. unfold dec_list.
  apply (view_kids E _ _ _ see_vfields _ n at_ inner ks vs Hs); [done| | |exact Hf]; clear vs Hf.
  - by_attrs see_vfields_is idtac.
  - by_kids see_vfields_is idtac ltac:(idtac; more see_vfields_is (vfield_new E "VerificationField" at' i cs)).
Qed.

(** the pointer in question *)
Ltac pointer := try match goal with
  | H : fits (Field ?a (Sub Opt _)) _ |- context[Elem ?a _ _ _] => inversion H; subst; clear H
  end.
Ltac on s tac := match goal with |- context[read _ (Elem s _ _ _) s _] => tac end.

(** one struct inside another, decoded in place *)
Ltac place L R := match goal with
  | |- context[read ?E (Elem ?n ?at_ ?i ?cs) ?s ?v] =>
      rewrite (R E n at_ i cs v) by fit; destruct (read E (Elem n at_ i cs) s v); steps; rewrite ?L; reflexivity
  end.

Lemma see_verif_is a b c d e : see_verif [a; b; c; d; e] =
  Verification (see_vfields (inside e)) (see_table (inside d)).
Proof. reflexivity. Qed.
Global Arguments see_verif : simpl never.
Lemma verif_read E n at_ inner ks vs : Forall2 fits (fields "ModelVerification") vs →
  (m ← attrs_fold verif_attr at_ (see_verif vs); kids_fold (verif_kid E) ks m) =
  see_verif <$> read E (Elem n at_ inner ks) "ModelVerification" vs.
Proof.
  known "ModelVerification". rewrite (go_struct_fields _ _ Hs). intros Hf.
  apply (view_read E _ _ _ see_verif _ _ n at_ inner ks vs Hs); [done| | |exact Hf]; clear vs Hf.
  - by_attrs see_verif_is ltac:(cbv [verif_attr orb]).
  - by_kids see_verif_is ltac:(cbv [verif_kid inside])
      ltac:(idtac; first [place see_verif_is table_read|place see_verif_is vfields_read]).
Qed.
Lemma verif_in E n at_ inner ks vs : Forall2 fits (fields "ModelVerification") vs →
  dec_verif E at_ ks (Some (see_verif vs)) =
  (λ w, Some (see_verif w)) <$> read E (Elem n at_ inner ks) "ModelVerification" vs.
Proof.
  intros Hf. unfold dec_verif. change (default (Verification [] []) (Some (see_verif vs))) with (see_verif vs).
  transitivity (Some <$> (m ← attrs_fold verif_attr at_ (see_verif vs); kids_fold (verif_kid E) ks m)).
  - destruct (attrs_fold verif_attr at_ (see_verif vs)) as [m|]; [|done]. steps. by destruct (kids_fold _ ks m).
  - rewrite (verif_read E n at_ inner ks vs Hf). by destruct (read E _ _ _).
Qed.
Lemma verif_new E n at_ inner ks :
  dec_verif E at_ ks None =
  (λ w, Some (see_verif w)) <$> read E (Elem n at_ inner ks) "ModelVerification" (zero "ModelVerification").
Proof. from_zero verif_in. Qed.
