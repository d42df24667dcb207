(** Decoding field by field. *)
From Verif Require Import Base Strconv Xml Decode Schema Reflect SpecReflect.

Global Arguments go_struct : simpl never.
Global Arguments go_group : simpl never.
Global Arguments zero : simpl never.
Global Arguments existsb : simpl never.

(** ** The table *)

(** no struct reads two fields from one name *)
Definition child_names (f : field) : list string :=
  match f_kind f with
  | Sub _ _ | SubBasic _ | Rows => [f_name f]
  | Group _ g => go_group g
  | _ => []
  end.
Definition attr_names (f : field) : list string :=
  match f_kind f with Attr _ _ => [f_name f] | _ => [] end.

Fixpoint distinctb (l : list string) : bool :=
  match l with [] => true | a :: l' => negb (existsb (String.eqb a) l') && distinctb l' end.

Lemma distinctb_NoDup l : distinctb l = true → NoDup l.
Proof.
  induction l as [|a l IH]; intros H; [constructor|].
  cbn in H. apply andb_prop in H as [H1 H2]. constructor; [|by apply IH].
  intros Hin. apply negb_true_iff in H1. apply not_true_iff_false in H1. apply H1.
  apply existsb_exists. exists a. split; [by apply elem_of_list_In|apply String.eqb_refl].
Qed.

Lemma table_check (P : string * struct → bool) s st :
  forallb P go_structs = true → go_struct s = Some st → P (s, st) = true.
Proof.
  intros HT H. unfold go_struct in H.
  destruct (List.find _ go_structs) as [[s' st']|] eqn:Hf; [|done].
  cbn in H. simplify_eq. apply find_some in Hf as [Hin Heq]. cbn in Heq. apply String.eqb_eq in Heq as ->.
  rewrite forallb_forall in HT. by apply HT.
Qed.

Lemma names_distinct s st : go_struct s = Some st →
  NoDup (concat (child_names <$> s_fields st)) ∧ NoDup (concat (attr_names <$> s_fields st)).
Proof.
  intros H.
  apply (table_check (λ p, distinctb (concat (child_names <$> s_fields p.2)) &&
                           distinctb (concat (attr_names <$> s_fields p.2)))) in H.
  - apply andb_prop in H as [H1 H2]. split; by apply distinctb_NoDup.
  - vm_compute. reflexivity.
Qed.

(** values of a field's type *)
Inductive fits : field → value → Prop :=
| ft_attr a b v : fits (Field a (Attr b false)) v
| ft_nil a b : fits (Field a (Attr b true)) VNil
| ft_ptr a b v : fits (Field a (Attr b true)) (VSome v)
| ft_text a v : fits (Field a CharData) v
| ft_inner a v : fits (Field a InnerXml) v
| ft_one a s st l : go_struct s = Some st → Forall2 fits (s_fields st) l →
    fits (Field a (Sub One s)) (VStruct s l)
| ft_opt a s st l : go_struct s = Some st → Forall2 fits (s_fields st) l →
    fits (Field a (Sub Opt s)) (VSome (VStruct s l))
| ft_opt_nil a s st : go_struct s = Some st → fits (Field a (Sub Opt s)) VNil
| ft_many a s st l : go_struct s = Some st → fits (Field a (Sub Many s)) (VList l)
| ft_basic a b v : fits (Field a (SubBasic b)) v
| ft_rows a l : fits (Field a Rows) (VList l)
| ft_group_one a g v : Forall (λ m, is_Some (go_struct m)) (go_group g) → fits (Field a (Group false g)) v
| ft_group_many a g l : Forall (λ m, is_Some (go_struct m)) (go_group g) →
    fits (Field a (Group true g)) (VList l).

Fixpoint fitsb (v : value) (f : field) {struct v} : bool :=
  match f_kind f, v with
  | Attr _ false, _ => true
  | Attr _ true, (VNil | VSome _) => true
  | (CharData | InnerXml | SubBasic _), _ => true
  | Sub One s, VStruct s' l =>
      (s =s s') && match go_struct s with
                   | Some st => (fix go l fs := match l, fs with
                                  | [], [] => true
                                  | v :: l', f :: fs' => fitsb v f && go l' fs'
                                  | _, _ => false
                                  end) l (s_fields st)
                   | None => false
                   end
  | Sub Opt s, VNil => match go_struct s with Some _ => true | None => false end
  | Sub Many s, VList _ => match go_struct s with Some _ => true | None => false end
  | Rows, VList _ => true
  | Group false g, _ => forallb (λ m, match go_struct m with Some _ => true | None => false end) (go_group g)
  | Group true g, VList _ =>
      forallb (λ m, match go_struct m with Some _ => true | None => false end) (go_group g)
  | _, _ => false
  end.

Section ValueInd.
  Context (P : value → Prop).
  Context (H0 : ∀ v, match v with VStruct _ _ => True | _ => P v end)
          (HS : ∀ s l, Forall P l → P (VStruct s l)).
  Fixpoint value_rect' (v : value) : P v :=
    match v with
    | VStruct s l => HS s l ((fix go l : Forall P l :=
            match l with
            | [] => Forall_nil_2 P
            | q :: l' => Forall_cons_2 P q l' (value_rect' q) (go l')
            end) l)
    | VStr s => H0 (VStr s) | VNum f => H0 (VNum f) | VInt z => H0 (VInt z) | VBool b => H0 (VBool b)
    | VNil => H0 VNil | VSome w => H0 (VSome w) | VList l => H0 (VList l) | VRow r => H0 (VRow r)
    end.
End ValueInd.

Lemma groups_known g :
  forallb (λ m, match go_struct m with Some _ => true | None => false end) g = true →
  Forall (λ m, is_Some (go_struct m)) g.
Proof.
  intros H. apply Forall_forall. intros m Hm. rewrite forallb_forall in H.
  apply elem_of_list_In in Hm. apply H in Hm. by destruct (go_struct m).
Qed.

Lemma fitsb_fits : ∀ v f, fitsb v f = true → fits f v.
Proof.
  intros v. apply (value_rect' (λ v, ∀ f, fitsb v f = true → fits f v)); clear v.
  - intros v. destruct v; try exact I;
      intros [a k] H;
      (destruct k as [b0 []| | |[] s'|b0| |[] g]; cbn in H; try discriminate; try (by constructor);
       first [constructor; by apply groups_known
             |destruct (go_struct s') as [st|] eqn:Hs; [exact (ft_opt_nil a s' st Hs)|done]
             |destruct (go_struct s') as [st|] eqn:Hs; [exact (ft_many a s' st _ Hs)|done]]).
  - intros s l IH [a k] H.
    destruct k as [b []| | |[] s'|b| |[] g]; cbn in H; try discriminate; try (by constructor).
    + apply andb_prop in H as [Hs H]. apply String.eqb_eq in Hs as ->.
      destruct (go_struct s) as [st|] eqn:Hst; [|done].
      apply (ft_one a s st); [done|]. revert H. generalize (s_fields st) as fs. clear Hst st.
      induction l as [|v l IHl]; intros [|f fs] H; try done; try (by constructor).
      apply Forall_cons in IH as [IH1 IH2]. apply andb_prop in H as [Hv H].
      constructor; [by apply IH1|by apply IHl].
    + constructor. by apply groups_known.
Qed.

Fixpoint all_fit (l : list value) (fs : list field) : bool :=
  match l, fs with
  | [], [] => true
  | v :: l', f :: fs' => fitsb v f && all_fit l' fs'
  | _, _ => false
  end.

Lemma zero_fits s st : go_struct s = Some st → Forall2 fits (s_fields st) (zero s).
Proof.
  intros H. apply (table_check (λ p, all_fit (zero p.1) (s_fields p.2))) in H.
  - cbn [fst snd] in H. revert H. generalize (zero s) as l, (s_fields st) as fs.
    induction l as [|v l IH]; intros [|f fs] H; try done; try (by constructor).
    apply andb_prop in H as [H1 H2]. constructor; [by apply fitsb_fits|by apply IH].
  - vm_compute. reflexivity.
Qed.

(** ** Field by field *)

Lemma each_compose (U W : field → value → option value) fs : ∀ vs,
  (vs1 ← each_field U fs vs; each_field W fs vs1) =
  each_field (λ f v, v1 ← U f v; W f v1) fs vs.
Proof.
  induction fs as [|f fs IH]; intros [|v vs]; try done.
  cbn. destruct (U f v) as [v'|] eqn:Hv; cbn; [|done].
  destruct (each_field U fs vs) as [vs1|] eqn:He; cbn.
  - rewrite <- IH, He. cbn. done.
  - rewrite <- IH, He. cbn. by destruct (W f v').
Qed.

Lemma each_id fs vs : each_field (λ _ v, Some v) fs vs = Some vs.
Proof. revert vs. induction fs as [|f fs IH]; intros [|v vs]; try done. cbn. by rewrite IH. Qed.

Lemma each_ext (U W : field → value → option value) fs vs :
  (∀ f v, f ∈ fs → U f v = W f v) → each_field U fs vs = each_field W fs vs.
Proof.
  intros H. revert vs. induction fs as [|f fs IH]; intros [|v vs]; try done.
  cbn. rewrite H by left. destruct (W f v); [|done]. rewrite IH; [done|].
  intros g w Hg. apply H. by right.
Qed.

(** the option fold, once for attributes and children *)
Fixpoint ofold {O A} (step : O → A → option A) (l : list O) (a : A) : option A :=
  match l with
  | [] => Some a
  | o :: l' => match step o a with Some a' => ofold step l' a' | None => None end
  end.

Lemma attrs_ofold {A} (set : string → string → A → option A) l a :
  attrs_fold set l a = ofold (λ p, set p.1 p.2) l a.
Proof. revert a. induction l as [|[n t] l IH]; intros a; [done|]. cbn. destruct (set n t a); [apply IH|done]. Qed.

Lemma kids_ofold {A} (f : xml → A → option A) l a : kids_fold f l a = ofold f l a.
Proof. revert a. induction l as [|k l IH]; intros a; [done|]. cbn. destruct (f k a); [apply IH|done]. Qed.

Lemma ofold_each {O} (U : O → field → value → option value) fs : ∀ l vs,
  ofold (λ o, each_field (U o) fs) l vs = each_field (λ f, ofold (λ o, U o f) l) fs vs.
Proof.
  induction l as [|o l IH]; intros vs; cbn.
  - by rewrite each_id.
  - transitivity (vs1 ← each_field (U o) fs vs; ofold (λ o, each_field (U o) fs) l vs1).
    { by destruct (each_field (U o) fs vs). }
    transitivity (vs1 ← each_field (U o) fs vs; each_field (λ f, ofold (λ o, U o f) l) fs vs1).
    { destruct (each_field (U o) fs vs); [apply IH|done]. }
    rewrite each_compose. apply each_ext. intros f v _. by destruct (U o f v).
Qed.

Lemma ofold_guard {O A} (bad : O → bool) (step : O → A → option A) l : ∀ a,
  ofold (λ o a, if bad o then None else step o a) l a =
  if existsb bad l then None else ofold step l a.
Proof.
  induction l as [|o l IH]; intros a; [done|].
  change (existsb bad (o :: l)) with (bad o || existsb bad l). cbn.
  destruct (bad o); cbn; [done|]. destruct (step o a); [apply IH|by destruct (existsb bad l)].
Qed.

Lemma ofold_ext {O A} (s1 s2 : O → A → option A) l a :
  (∀ o a, o ∈ l → s1 o a = s2 o a) → ofold s1 l a = ofold s2 l a.
Proof.
  revert a. induction l as [|o l IH]; intros a H; [done|]. cbn.
  rewrite H by left. destruct (s2 o a); [|done]. apply IH. intros o' a' Ho. apply H. by right.
Qed.

Lemma ofold_filter {O A} (P : O → Prop) `{∀ o, Decision (P o)} (step : O → A → option A) l : ∀ a,
  (∀ o a, o ∈ l → ¬ P o → step o a = Some a) →
  ofold step l a = ofold step (filter P l) a.
Proof.
  induction l as [|o l IH]; intros a H'; [done|].
  rewrite filter_cons. cbn. destruct (decide (P o)) as [Hp|Hp]; cbn.
  - destruct (step o a); [|done]. apply IH. intros o' a' Ho. apply H'. by right.
  - rewrite H'; [|by left|done]. apply IH. intros o' a' Ho. apply H'. by right.
Qed.

Definition unknown_child (loop : bool) (fs : list field) (k : xml) : bool :=
  match k with Elem m _ _ _ => loop && negb (existsb (λ f, takes f m) fs) | Chars _ => false end.

Definition child_step (E : Ext) (f : field) (k : xml) (v : value) : option value :=
  match k with
  | Elem m _ _ cs => if takes f m then child_field E (read E k) m cs f v else Some v
  | Chars _ => Some v
  end.

Definition field_step (E : Ext) (at_ : list (string * string)) (ks : list xml) (inner : string)
    (f : field) (v : value) : option value :=
  v1 ← ofold (λ p, attr_field E p.1 p.2 f) at_ v;
  v2 ← ofold (child_step E f) ks v1;
  text_field ks inner f v2.

Lemma read_fieldwise E n at_ inner ks s cur loop fs :
  go_struct s = Some (Struct loop fs) →
  read E (Elem n at_ inner ks) s cur =
  if existsb (unknown_child loop fs) ks then None
  else each_field (field_step E at_ ks inner) fs cur.
Proof.
  intros Hs. cbn [read]. rewrite Hs. rewrite attrs_ofold.
  rewrite (ofold_each (λ p, attr_field E p.1 p.2)).
  set (A := each_field (λ f, ofold (λ p, attr_field E p.1 p.2 f) at_) fs cur).
  transitivity (vs1 ← A; vs2 ← (if existsb (unknown_child loop fs) ks then None
                              else each_field (λ f, ofold (child_step E f) ks) fs vs1);
                each_field (text_field ks inner) fs vs2).
  - destruct A as [vs1|]; [|done]. cbn. rewrite kids_ofold.
    rewrite <- (ofold_each (λ k f, child_step E f k)).
    rewrite <- ofold_guard.
    f_equal. apply ofold_ext. intros k vs _. destruct k as [m at' i' cs|t].
    + cbn. by destruct (loop && _).
    + cbn. symmetry. apply each_id.
  - destruct (existsb _ ks); [by destruct A|].
    unfold A. clear A.
    transitivity (vs1 ← each_field (λ f, ofold (λ p, attr_field E p.1 p.2 f) at_) fs cur;
                  each_field (λ f v, v2 ← ofold (child_step E f) ks v; text_field ks inner f v2) fs vs1).
    { destruct (each_field _ fs cur); [|done]. cbn. by rewrite each_compose. }
    by rewrite each_compose.
Qed.

Global Arguments read : simpl never.

Lemma each_some U fs vs vs' : length fs = length vs →
  each_field U fs vs = Some vs' ↔ Forall3 (λ f v v', U f v = Some v') fs vs vs'.
Proof.
  revert vs vs'. induction fs as [|f fs IH]; intros [|v vs] vs' Hl; try done.
  - cbn. split; [intros [= <-]; constructor|by inversion 1].
  - cbn. split.
    + destruct (U f v) eqn:Hv; [|done]. destruct (each_field U fs vs) eqn:He; [|done].
      intros [= <-]. constructor; [done|]. apply IH; [by simplify_eq/=|done].
    + inversion 1 as [|? ? ? ? ? ? Hu Hr]; subst. rewrite Hu. apply IH in Hr; [|by simplify_eq/=]. by rewrite Hr.
Qed.

Lemma each_none U fs vs : length fs = length vs →
  each_field U fs vs = None ↔ ∃ f v, (f, v) ∈ zip fs vs ∧ U f v = None.
Proof.
  revert vs. induction fs as [|f fs IH]; intros [|v vs] Hl; try done.
  - split; [done|]. intros (f & v & H & _). by apply elem_of_nil in H.
  - cbn. split.
    + destruct (U f v) eqn:Hv; [|intros _; exists f, v; split; [left|done]].
      destruct (each_field U fs vs) eqn:He; [done|]. intros _.
      apply IH in He as (g & w & Hin & Hn); [|by simplify_eq/=]. exists g, w. split; [by right|done].
    + intros (g & w & Hin & Hn). apply elem_of_cons in Hin as [[= -> ->]|Hin]; [by rewrite Hn|].
      destruct (U f v); [|done].
      assert (each_field U fs vs = None) as ->; [|done].
      apply IH; [by simplify_eq/=|]. by exists g, w.
Qed.

(** ** Zero values *)

Definition zero_field (f : field) : value :=
  match f_kind f with
  | Attr b ptr => if ptr : bool then VNil else zero_of b
  | CharData | InnerXml => VStr ""
  | Sub One s => VStruct s (zero s)
  | Sub Opt _ => VNil
  | Sub Many _ => VList []
  | SubBasic b => zero_of b
  | Rows => VList []
  | Group true _ => VList []
  | Group false _ => VNil
  end.

Fixpoint same_zero (v w : value) {struct v} : bool :=
  match v, w with
  | VStr a, VStr b => a =s b
  | VNum (S754_zero false), VNum (S754_zero false) => true
  | VInt a, VInt b => (a =? b)%Z
  | VBool a, VBool b => Bool.eqb a b
  | VNil, VNil => true
  | VList [], VList [] => true
  | VStruct s l, VStruct s' l' =>
      (s =s s') && (fix go l l' := match l, l' with
                    | [], [] => true
                    | a :: m, b :: m' => same_zero a b && go m m'
                    | _, _ => false
                    end) l l'
  | _, _ => false
  end.

Lemma same_zero_eq : ∀ v w, same_zero v w = true → v = w.
Proof.
  intros v. apply (value_rect' (λ v, ∀ w, same_zero v w = true → v = w)); clear v.
  - intros v. destruct v as [a|f|z|b| |v|l|r|s l]; try exact I; intros [a'|f'|z'|b'| |v'|l'|r'|s' l'] H;
      cbn in H; try discriminate; try done.
    + by apply String.eqb_eq in H as ->.
    + by destruct f as [[]| | |].
    + destruct f as [[]| | |]; try done. by destruct f' as [[]| | |].
    + by destruct f as [[]| | |].
    + by destruct f as [[]| | |].
    + by destruct f as [[]| | |].
    + by destruct f as [[]| | |].
    + by destruct f as [[]| | |].
    + by destruct f as [[]| | |].
    + by destruct f as [[]| | |].
    + by apply Z.eqb_eq in H as ->.
    + by apply Bool.eqb_prop in H as ->.
    + by destruct l.
    + by destruct l.
    + by destruct l.
    + by destruct l.
    + by destruct l.
    + by destruct l.
    + destruct l; [|done]. by destruct l'.
    + by destruct l.
    + by destruct l.
  - intros s l IH [a'|f'|z'|b'| |v'|l'|r'|s' l'] H; try done.
    cbn in H. apply andb_prop in H as [Hs H]. apply String.eqb_eq in Hs as ->. f_equal.
    revert l' H. induction l as [|v l IHl]; intros [|w l'] H; try done.
    apply Forall_cons in IH as [IH1 IH2]. apply andb_prop in H as [H1 H2].
    f_equal; [by apply IH1|by apply IHl].
Qed.

Lemma zero_is s st : go_struct s = Some st → zero s = zero_field <$> s_fields st.
Proof.
  intros H.
  assert (same_zero (VStruct s (zero s)) (VStruct s (zero_field <$> s_fields st)) = true) as Hz.
  { apply (table_check (λ p, same_zero (VStruct p.1 (zero p.1)) (VStruct p.1 (zero_field <$> s_fields p.2)))) in H;
      [done|vm_compute; reflexivity]. }
  apply same_zero_eq in Hz. by injection Hz.
Qed.

(** ** One field *)

Lemma read_denotes E b t v : read_basic E b t (zero_of b) = Some v ↔ denotes E b t v.
Proof.
  destruct (decide (t = "")) as [->|Ht].
  - split.
    + destruct b; cbn; intros H; simplify_eq; try constructor; discriminate.
    + inversion 1; subst; cbn; try done; congruence.
  - assert ((t =s "") = false) as Hf by (by apply String.eqb_neq).
    split.
    + destruct b; unfold read_basic, att_float, att_int, att_uint, att_bool; rewrite ?Hf; intros H.
      * simplify_eq. constructor.
      * destruct (ext_parse_float E _) eqn:He; cbn in H; simplify_eq. by constructor.
      * destruct (parse_int _) eqn:He; cbn in H; simplify_eq. by constructor.
      * destruct (parse_uint _) eqn:He; cbn in H; simplify_eq. by constructor.
      * destruct (parse_bool _) eqn:He; cbn in H; simplify_eq. by constructor.
      * destruct (t =s "yes") eqn:Hy; [apply String.eqb_eq in Hy as ->; simplify_eq; constructor|].
        destruct (t =s "no") eqn:Hn; [apply String.eqb_eq in Hn as ->; simplify_eq; constructor|done].
      * destruct (ext_parse_float E _) eqn:He; cbn in H; simplify_eq. by constructor.
      * simplify_eq. by constructor.
    + inversion 1; subst; unfold read_basic, att_float, att_int, att_uint, att_bool; rewrite ?Hf; try done.
      all: match goal with H : _ = Some _ |- _ => by rewrite H end.
Qed.

Lemma read_basic_none E b t cur : read_basic E b t cur = None ↔ unreadable E b t.
Proof.
  assert (read_basic E b t cur = None ↔ read_basic E b t (zero_of b) = None) as ->.
  { destruct b; try reflexivity; unfold read_basic; (destruct (t =s ""); [split; discriminate|reflexivity]). }
  split.
  - intros H v Hd. apply read_denotes in Hd. congruence.
  - intros H. destruct (read_basic E b t (zero_of b)) eqn:Hr; [|done]. apply read_denotes in Hr. by apply H in Hr.
Qed.

Lemma takes_belongs f m at_ i cs : takes f m = true ↔ belongs f (Elem m at_ i cs).
Proof.
  unfold takes, belongs. cbn. destruct (f_kind f); try done; try by rewrite String.eqb_eq.
  rewrite existsb_exists. split.
  - intros (x & Hx & Heq). apply String.eqb_eq in Heq as ->. by apply elem_of_list_In.
  - intros H. exists m. split; [by apply elem_of_list_In|apply String.eqb_refl].
Qed.

Lemma child_step_off E f k v : ¬ belongs f k → child_step E f k v = Some v.
Proof.
  intros H. destruct k as [m at_ i cs|t]; [|done]. cbn. destruct (takes f m) eqn:Ht; [|done].
  by apply (takes_belongs f m at_ i cs) in Ht.
Qed.

Lemma child_step_on E f k v : belongs f k →
  child_step E f k v =
  match elem_name k with Some m => child_field E (read E k) m (content k) f v | None => None end.
Proof.
  intros H. destruct k as [m at_ i cs|t]; [|done]. cbn. by apply takes_belongs in H as ->.
Qed.

Lemma ofold_idle {O A} (step : O → A → option A) l a : (∀ o a, step o a = Some a) → ofold step l a = Some a.
Proof. intros H. induction l as [|o l IH]; [done|]. cbn. by rewrite H. Qed.

(** the three stages of a field do not meet *)
Lemma step_attr E at_ ks inner a b ptr v :
  field_step E at_ ks inner (Field a (Attr b ptr)) v =
  ofold (λ p, attr_field E p.1 p.2 (Field a (Attr b ptr))) (filter (λ p, p.1 = a) at_) v.
Proof.
  unfold field_step. rewrite (ofold_filter (λ p, p.1 = a)).
  2:{ intros [n t] w _ Hn. cbn in *. destruct (a =s n) eqn:Ha; [|done]. by apply String.eqb_eq in Ha as ->. }
  destruct (ofold _ _ v) as [v1|]; [|done]. cbn.
  assert (ofold (child_step E (Field a (Attr b ptr))) ks v1 = Some v1) as ->; [|done].
  apply ofold_idle. intros [m at' i' cs|t] w; done.
Qed.

Lemma step_kids E at_ ks inner f v : (∀ b ptr, f_kind f ≠ Attr b ptr) → f_kind f ≠ CharData → f_kind f ≠ InnerXml →
  field_step E at_ ks inner f v = ofold (child_step E f) (filter (belongs f) ks) v.
Proof.
  intros H1 H2 H3. unfold field_step.
  assert (ofold (λ p, attr_field E p.1 p.2 f) at_ v = Some v) as ->.
  { apply ofold_idle. intros [n t] w. cbn. unfold attr_field. destruct (f_kind f); try done. by destruct (H1 b ptr). }
  cbn. rewrite (ofold_filter (belongs f)) by (intros; by apply child_step_off).
  destruct (ofold _ _ v); [|done]. cbn. unfold text_field. by destruct (f_kind f).
Qed.

Lemma step_text E at_ ks inner a v : field_step E at_ ks inner (Field a CharData) v = Some (VStr (text_of ks)).
Proof.
  unfold field_step.
  assert (ofold (λ p, attr_field E p.1 p.2 (Field a CharData)) at_ v = Some v) as ->.
  { by apply ofold_idle. }
  cbn. assert (ofold (child_step E (Field a CharData)) ks v = Some v) as ->; [|done].
  apply ofold_idle. intros [m at' i' cs|t] w; done.
Qed.

Lemma step_inner E at_ ks inner a v : field_step E at_ ks inner (Field a InnerXml) v = Some (VStr inner).
Proof.
  unfold field_step.
  assert (ofold (λ p, attr_field E p.1 p.2 (Field a InnerXml)) at_ v = Some v) as ->.
  { by apply ofold_idle. }
  cbn. assert (ofold (child_step E (Field a InnerXml)) ks v = Some v) as ->; [|done].
  apply ofold_idle. intros [m at' i' cs|t] w; done.
Qed.

Definition is_read (E : Ext) (s : string) (k : xml) (v : value) : Prop := unmarshal_new E s k = Some v.

Lemma short_list {A} (l : list A) : length l ≤ 1 → l = [] ∨ ∃ x, l = [x].
Proof. destruct l as [|x [|y l]]; cbn; [by left|by right; exists x|lia]. Qed.

Lemma texts_short a (at_ : list (string * string)) : NoDup at_.*1 →
  filter (λ p, p.1 = a) at_ = [] ∨ ∃ t, filter (λ p, p.1 = a) at_ = [(a, t)].
Proof.
  induction at_ as [|[n t] at_ IH]; intros Hnd; [by left|].
  rewrite fmap_cons in Hnd. apply NoDup_cons in Hnd as [Hn Hnd]. rewrite filter_cons.
  destruct (decide _) as [Heq|Hne]; [|by apply IH]. cbn in Heq. subst n. right. exists t.
  destruct (IH Hnd) as [->|[t' H]]; [done|].
  assert ((a, t') ∈ filter (λ p, p.1 = a) at_) as Hin by (rewrite H; left).
  apply elem_of_list_filter in Hin as [_ Hin]. destruct Hn. by apply (elem_of_list_fmap_1 fst) in Hin.
Qed.

(** appending children *)
Lemma ofold_append {O} (step : O → value → option value) (R : O → value → Prop) l :
  (∀ o acc v, o ∈ l → step o (VList acc) = Some v ↔ ∃ w, R o w ∧ v = VList (acc ++ [w])) →
  ∀ acc v, ofold step l (VList acc) = Some v ↔ ∃ ws, Forall2 R l ws ∧ v = VList (acc ++ ws).
Proof.
  intros Hs. induction l as [|o l IH]; intros acc v; cbn.
  - split.
    + intros [= <-]. exists []. by rewrite app_nil_r.
    + intros (ws & Hws & ->). inversion Hws; subst. by rewrite app_nil_r.
  - assert (∀ acc v, ofold step l (VList acc) = Some v ↔ ∃ ws, Forall2 R l ws ∧ v = VList (acc ++ ws)) as IH'.
    { apply IH. intros o' acc' v' Ho. apply Hs. by right. }
    split.
    + destruct (step o (VList acc)) as [a'|] eqn:Ho; [|done].
      apply Hs in Ho as (w & Hw & ->); [|left]. intros H. apply IH' in H as (ws & Hws & ->).
      exists (w :: ws). split; [by constructor|]. by rewrite <- app_assoc.
    + intros (ws & Hws & ->). inversion Hws as [|? w ? ws' Hw Hws']; subst.
      assert (step o (VList acc) = Some (VList (acc ++ [w]))) as ->.
      { apply Hs; [left|]. by exists w. }
      apply IH'. exists ws'. split; [done|]. by rewrite <- app_assoc.
Qed.

Lemma elem_of_belongs f (ks : list xml) k : k ∈ filter (belongs f) ks → belongs f k.
Proof. intros H. by apply elem_of_list_filter in H as [H _]. Qed.

Lemma field_holds E at_ ks inner f v :
  NoDup at_.*1 → single f ks →
  field_step E at_ ks inner f (zero_field f) = Some v ↔ holds E (is_read E) at_ ks inner f v.
Proof.
  intros Hnd Hsg. destruct f as [a [b ptr| | |q s|b| |q g]].
  - rewrite step_attr. unfold texts in *.
    destruct (texts_short a at_ Hnd) as [Hf|[t Hf]]; rewrite Hf.
    + assert (texts a at_ = []) as Ht by (unfold texts; by rewrite Hf).
      destruct ptr; cbn; split; intros H; try (simplify_eq; by constructor);
        inversion H; subst; congruence.
    + assert (texts a at_ = [t]) as Ht by (unfold texts; by rewrite Hf).
      cbn. unfold attr_field. cbn. rewrite String.eqb_refl.
      change (zero_basic b) with (zero_of b).
      destruct ptr; cbn.
      * split.
        -- destruct (read_basic E b t (zero_of b)) eqn:Hr; cbn; [|done]. intros [= <-].
           apply read_denotes in Hr. by apply (hd_ptr _ _ _ _ _ a b t).
        -- inversion 1; subst; [|congruence].
           match goal with H1 : texts a at_ = [?t'], H2 : denotes _ _ ?t' _ |- _ =>
             rewrite Ht in H1; simplify_eq; apply read_denotes in H2; by rewrite H2 end.
      * split.
        -- destruct (read_basic E b t (zero_of b)) eqn:Hr; cbn; [|done]. intros [= <-].
           apply read_denotes in Hr. by apply (hd_attr _ _ _ _ _ a b t).
        -- inversion 1; subst; [|congruence].
           match goal with H1 : texts a at_ = [?t'], H2 : denotes _ _ ?t' _ |- _ =>
             rewrite Ht in H1; simplify_eq; apply read_denotes in H2; by rewrite H2 end.
  - rewrite step_text. split; [intros [= <-]; constructor|by inversion 1].
  - rewrite step_inner. split; [intros [= <-]; constructor|by inversion 1].
  - rewrite step_kids by done. destruct q.
    + cbn in Hsg. destruct (short_list _ Hsg) as [Hf|[k Hf]]; rewrite Hf; cbn.
      * split; [intros [= <-]; by constructor|inversion 1; subst; [congruence|done]].
      * assert (belongs (Field a (Sub One s)) k) as Hb by (apply elem_of_belongs with ks; rewrite Hf; left).
        rewrite child_step_on by done. destruct k as [m at' i' cs|t]; [|done]. cbn.
        split.
        -- destruct (read E _ s (zero s)) as [w|] eqn:Hr; cbn; [|done]. intros [= <-].
           apply (hd_one _ _ _ _ _ a s (Elem m at' i' cs)); [done|]. unfold is_read, unmarshal_new. by rewrite Hr.
        -- inversion 1; subst; [|congruence].
           match goal with H1 : filter _ ks = [?k'], H2 : is_read _ _ ?k' _ |- _ =>
             rewrite Hf in H1; simplify_eq; unfold is_read, unmarshal_new in H2;
             destruct (read E _ s (zero s)); cbn in *; by simplify_eq end.
    + cbn in Hsg. destruct (short_list _ Hsg) as [Hf|[k Hf]]; rewrite Hf; cbn.
      * split; [intros [= <-]; by constructor|inversion 1; subst; [congruence|done]].
      * assert (belongs (Field a (Sub Opt s)) k) as Hb by (apply elem_of_belongs with ks; rewrite Hf; left).
        rewrite child_step_on by done. destruct k as [m at' i' cs|t]; [|done]. cbn.
        split.
        -- destruct (read E _ s (zero s)) as [w|] eqn:Hr; cbn; [|done]. intros [= <-].
           apply (hd_opt _ _ _ _ _ a s (Elem m at' i' cs)); [done|]. unfold is_read, unmarshal_new. by rewrite Hr.
        -- inversion 1; subst; [|congruence].
           match goal with H1 : filter _ ks = [?k'], H2 : is_read _ _ ?k' _ |- _ =>
             rewrite Hf in H1; simplify_eq; unfold is_read, unmarshal_new in H2;
             destruct (read E _ s (zero s)); cbn in *; by simplify_eq end.
    + cbn [zero_field f_kind]. rewrite (ofold_append _ (is_read E s)).
      * cbn. split; [intros (ws & Hws & ->); by constructor|]. inversion 1; subst. by eexists.
      * intros k acc w Hk. apply elem_of_belongs in Hk. rewrite child_step_on by done.
        destruct k as [m at' i' cs|t]; [|done]. cbn. unfold is_read, unmarshal_new.
        destruct (read E _ s (zero s)) as [x|]; cbn; [|naive_solver].
        split; [intros [= <-]; by eexists|]. intros (y & [= <-] & ->). done.
  - rewrite step_kids by done. cbn in Hsg. destruct (short_list _ Hsg) as [Hf|[k Hf]]; rewrite Hf; cbn.
    + split; [intros [= <-]; by constructor|inversion 1; subst; [congruence|done]].
    + assert (belongs (Field a (SubBasic b)) k) as Hb by (apply elem_of_belongs with ks; rewrite Hf; left).
      rewrite child_step_on by done. destruct k as [m at' i' cs|t]; [|done]. cbn.
      split.
      * destruct (read_basic E b _ (zero_of b)) eqn:Hr; cbn; [|done]. intros [= <-]. apply read_denotes in Hr.
        by apply (hd_basic _ _ _ _ _ a b (Elem m at' i' cs)).
      * inversion 1; subst; [|congruence].
        match goal with H1 : filter _ ks = [?k'], H2 : denotes _ _ _ _ |- _ =>
          rewrite Hf in H1; simplify_eq; apply read_denotes in H2; cbn in H2; by rewrite H2 end.
  - rewrite step_kids by done. cbn [zero_field f_kind].
    rewrite (ofold_append _ (λ k w, w = VRow (dec_row (content k) ∅))).
    + cbn. split.
      * intros (ws & Hws & ->). assert (ws = (λ k, VRow (dec_row (content k) ∅)) <$> filter (belongs (Field a Rows)) ks) as ->.
        { induction Hws; [done|]. rewrite fmap_cons. by f_equal. }
        constructor.
      * inversion 1; subst. eexists. split; [|done]. clear. apply Forall2_fmap_r.
        apply Forall_Forall2_diag. by apply Forall_true.
    + intros k acc w Hk. apply elem_of_belongs in Hk. rewrite child_step_on by done.
      destruct k as [m at' i' cs|t]; [|done]. cbn. naive_solver.
  - rewrite step_kids by done. destruct q. all: cycle 1.
    + cbn in Hsg. destruct (short_list _ Hsg) as [Hf|[k Hf]]; rewrite Hf; cbn.
      * split; [intros [= <-]; by constructor|inversion 1; subst; [congruence|done]].
      * assert (belongs (Field a (Group false g)) k) as Hb by (apply elem_of_belongs with ks; rewrite Hf; left).
        rewrite child_step_on by done. destruct k as [m at' i' cs|t]; [|done]. cbn.
        split.
        -- destruct (read E _ m (zero m)) as [w|] eqn:Hr; cbn; [|done]. intros [= <-].
           apply (hd_group_one _ _ _ _ _ a g (Elem m at' i' cs) m); [done|done|]. unfold is_read, unmarshal_new. by rewrite Hr.
        -- inversion 1; subst; [|congruence].
           match goal with H1 : filter _ ks = [?k'], H2 : is_read _ _ ?k' _ |- _ =>
             rewrite Hf in H1; simplify_eq; unfold is_read, unmarshal_new in H2; cbn in *; simplify_eq end.
           destruct (read E _ _ _); cbn in *; by simplify_eq.
    + cbn [zero_field f_kind]. rewrite (ofold_append _ (λ k v, ∃ m w, elem_name k = Some m ∧ is_read E m k w ∧ v = VSome w)).
      * cbn. split; [intros (ws & Hws & ->); by constructor|]. inversion 1; subst. by eexists.
      * intros k acc w Hk. apply elem_of_belongs in Hk. rewrite child_step_on by done.
        destruct k as [m at' i' cs|t]; [|done]. cbn. unfold is_read, unmarshal_new.
        destruct (read E _ m (zero m)) as [x|] eqn:Hr; cbn.
        -- split.
           ++ intros [= <-]. eexists. split; [|done]. exists m, (VStruct m x). by rewrite Hr.
           ++ intros (y & (m' & w' & [= <-] & Hw & ->) & ->). rewrite Hr in Hw. cbn in Hw. by simplify_eq.
        -- split; [done|]. intros (y & (m' & w' & [= <-] & Hw & ->) & ->). by rewrite Hr in Hw.
Qed.

(** ** One struct *)

Lemma unknown_none (loop : bool) fs ks :
  existsb (unknown_child loop fs) ks = false ↔
  (loop = true → ∀ k, k ∈ ks → elem_name k ≠ None → ∃ f, f ∈ fs ∧ belongs f k).
Proof.
  rewrite <- not_true_iff_false, existsb_exists. split.
  - intros H -> k Hk He. destruct k as [m at_ i cs|t]; [|done].
    destruct (existsb (λ f, takes f m) fs) eqn:Hx.
    + apply existsb_exists in Hx as (f & Hf & Ht). exists f. apply elem_of_list_In in Hf.
      split; [done|]. by apply (takes_belongs f m at_ i cs).
    + destruct H. exists (Elem m at_ i cs). split; [by apply elem_of_list_In|]. cbn. by rewrite Hx.
  - intros H (k & Hk & Hu). destruct k as [m at_ i cs|t]; [|done]. cbn in Hu.
    apply andb_prop in Hu as [-> Hu]. apply elem_of_list_In in Hk.
    destruct (H eq_refl _ Hk ltac:(done)) as (f & Hf & Hb).
    apply negb_true_iff in Hu. apply not_true_iff_false in Hu. apply Hu. apply existsb_exists.
    exists f. split; [by apply elem_of_list_In|]. by apply takes_belongs in Hb.
Qed.

Lemma each_zero E at_ ks inner fs vs :
  NoDup at_.*1 → Forall (λ f, single f ks) fs →
  each_field (field_step E at_ ks inner) fs (zero_field <$> fs) = Some vs ↔
  Forall2 (holds E (is_read E) at_ ks inner) fs vs.
Proof.
  intros Hnd Hs. rewrite each_some by (by rewrite fmap_length).
  revert vs. induction Hs as [|f fs Hf Hs IH]; intros vs.
  - split; inversion 1; constructor.
  - rewrite fmap_cons. split.
    + inversion 1 as [|? ? ? ? ? ? H1 H2]; subst. constructor; [by apply field_holds|by apply IH].
    + inversion 1 as [|? ? ? ? H1 H2]; subst. constructor; [by apply field_holds|by apply IH].
Qed.

Lemma struct_holds E s loop fs n at_ inner ks v :
  go_struct s = Some (Struct loop fs) → NoDup at_.*1 → Forall (λ f, single f ks) fs →
  unmarshal_new E s (Elem n at_ inner ks) = Some v ↔
  ∃ vs, v = VStruct s vs ∧
        (loop = true → ∀ k, k ∈ ks → elem_name k ≠ None → ∃ f, f ∈ fs ∧ belongs f k) ∧
        Forall2 (holds E (is_read E) at_ ks inner) fs vs.
Proof.
  intros Hs Hnd Hsg. unfold unmarshal_new. rewrite (read_fieldwise _ _ _ _ _ _ _ _ _ Hs).
  rewrite (zero_is _ _ Hs). cbn [s_fields]. split.
  - destruct (existsb _ ks) eqn:Hx; [done|]. destruct (each_field _ _ _) as [vs|] eqn:He; [|done].
    intros [= <-]. exists vs. split; [done|]. split; [by apply unknown_none|]. by apply each_zero in He.
  - intros (vs & -> & Hx & H). apply unknown_none in Hx as ->. apply each_zero in H; [|done..]. by rewrite H.
Qed.

(** ** Failure *)

Lemma ofold_none {O A} (I : A → Prop) (B : O → Prop) (step : O → A → option A) l :
  (∀ o a a', o ∈ l → I a → step o a = Some a' → I a') →
  (∀ o a, o ∈ l → I a → step o a = None ↔ B o) →
  ∀ a, I a → (ofold step l a = None ↔ ∃ o, o ∈ l ∧ B o) ∧ (∀ a', ofold step l a = Some a' → I a').
Proof.
  intros H1 H2. induction l as [|o l IH]; intros a Ha; cbn.
  - split; [|by intros a' [= <-]]. split; [done|]. intros (o & Ho & _). by apply elem_of_nil in Ho.
  - destruct (step o a) as [a'|] eqn:Hs.
    + assert (I a') as Ha' by (eapply H1; [left|..]; done).
      destruct (IH) with (a := a') as [IH1 IH2]; [..|done|].
      { intros o' b b' Ho. apply H1. by right. }
      { intros o' b Ho. apply H2. by right. }
      split; [|done]. rewrite IH1. split.
      * intros (o' & Ho & Hb). exists o'. split; [by right|done].
      * intros (o' & Ho & Hb). apply elem_of_cons in Ho as [->|Ho]; [|by exists o'].
        apply (H2 o a) in Hb; [congruence|left|done].
    + split; [|done]. split; [|done]. intros _. exists o. split; [left|]. by apply (H2 o a); [left|..].
Qed.

Lemma attr_step_ok E a b ptr n t v v' : fits (Field a (Attr b ptr)) v →
  attr_field E n t (Field a (Attr b ptr)) v = Some v' → fits (Field a (Attr b ptr)) v'.
Proof.
  intros Hf H. unfold attr_field in H. cbn in H. destruct (a =s n); [|by simplify_eq].
  destruct ptr; [|constructor]. destruct (read_basic _ _ _ _); cbn in H; simplify_eq. constructor.
Qed.

Lemma attr_step_none E a b ptr n t v :
  attr_field E n t (Field a (Attr b ptr)) v = None ↔ n = a ∧ unreadable E b t.
Proof.
  unfold attr_field. cbn. destruct (a =s n) eqn:Ha.
  - apply String.eqb_eq in Ha as ->. destruct ptr.
    + rewrite fmap_None, read_basic_none. naive_solver.
    + rewrite read_basic_none. naive_solver.
  - apply String.eqb_neq in Ha. naive_solver.
Qed.

(** the children a field cannot digest *)
Definition bad_child (E : Ext) (f : field) (k : xml) : Prop :=
  (∃ a b, f = Field a (SubBasic b) ∧ elem_name k = Some a ∧ unreadable E b (text_of (content k))) ∨
  (∃ m s, elem_name k = Some m ∧ child_type f m s ∧ malformed E s k).

Definition good (E : Ext) (x : xml) : Prop :=
  ∀ s st cur, elem_name x ≠ None → go_struct s = Some st → Forall2 fits (s_fields st) cur →
  (read E x s cur = None ↔ malformed E s x) ∧
  (∀ vs, read E x s cur = Some vs → Forall2 fits (s_fields st) vs).

Lemma child_step_ok E f k v : good E k → fits f v →
  (child_step E f k v = None ↔ bad_child E f k) ∧
  (∀ v', child_step E f k v = Some v' → fits f v').
Proof.
  intros Hg Hf.
  destruct k as [m at_ i cs|t].
  2:{ split; [|by intros v' [= <-]]. split; [done|].
      intros [(a & b & _ & H & _)|(m & s & H & _)]; discriminate. }
  destruct (takes f m) eqn:Ht.
  2:{ assert (¬ belongs f (Elem m at_ i cs)) as Hb by (intros Hb; apply takes_belongs in Hb; congruence).
      rewrite child_step_off by done. split; [|by intros v' [= <-]]. split; [done|].
      intros [(a & b & -> & [= ->] & _)|(m' & s & [= ->] & Hc & _)].
      - by destruct Hb.
      - inversion Hc; subst; by destruct Hb. }
  assert (belongs f (Elem m at_ i cs)) as Hb by (by apply takes_belongs).
  rewrite child_step_on by done. cbn [elem_name content].
  set (k := Elem m at_ i cs) in *.
  assert (elem_name k ≠ None) as He by done.
  destruct Hf; try done; unfold belongs in Hb; cbn in Hb; subst.
  - (* One *)
    destruct (Hg s st l He H H0) as [G1 G2]. unfold child_field. cbn.
    destruct (read E k s l) as [w|] eqn:Hr; cbn; split; try done.
    + split; [done|]. intros [(a' & b & ? & _)|(m' & s' & [= <-] & Hc & Hm)]; [done|].
      inversion Hc; subst. by apply G1 in Hm.
    + intros v' [= <-]. apply (ft_one _ _ st); [done|]. by apply G2.
    + split; [|done]. intros _. right. exists a, s. split; [done|]. split; [constructor|]. by apply G1.
  - (* Opt, allocated *)
    destruct (Hg s st l He H H0) as [G1 G2]. unfold child_field. cbn.
    destruct (read E k s l) as [w|] eqn:Hr; cbn; split; try done.
    + split; [done|]. intros [(a' & b & ? & _)|(m' & s' & [= <-] & Hc & Hm)]; [done|].
      inversion Hc; subst. by apply G1 in Hm.
    + intros v' [= <-]. apply (ft_opt _ _ st); [done|]. by apply G2.
    + split; [|done]. intros _. right. exists a, s. split; [done|]. split; [constructor|]. by apply G1.
  - (* Opt, nil *)
    destruct (Hg s st (zero s) He H (zero_fits _ _ H)) as [G1 G2]. unfold child_field. cbn.
    destruct (read E k s (zero s)) as [w|] eqn:Hr; cbn; split; try done.
    + split; [done|]. intros [(a' & b & ? & _)|(m' & s' & [= <-] & Hc & Hm)]; [done|].
      inversion Hc; subst. by apply G1 in Hm.
    + intros v' [= <-]. apply (ft_opt _ _ st); [done|]. by apply G2.
    + split; [|done]. intros _. right. exists a, s. split; [done|]. split; [constructor|]. by apply G1.
  - (* Many *)
    destruct (Hg s st (zero s) He H (zero_fits _ _ H)) as [G1 G2]. unfold child_field. cbn.
    destruct (read E k s (zero s)) as [w|] eqn:Hr; cbn; split; try done.
    + split; [done|]. intros [(a' & b & ? & _)|(m' & s' & [= <-] & Hc & Hm)]; [done|].
      inversion Hc; subst. by apply G1 in Hm.
    + intros v' [= <-]. by apply (ft_many _ _ st).
    + split; [|done]. intros _. right. exists a, s. split; [done|]. split; [constructor|]. by apply G1.
  - (* basic *)
    unfold child_field. cbn. rewrite read_basic_none. split; [|constructor]. split.
    + intros Hu. left. by exists a, b.
    + intros [(a' & b' & [= <- <-] & _ & Hu)|(m' & s' & [= <-] & Hc & Hm)]; [done|]. inversion Hc.
  - (* rows *)
    unfold child_field. cbn. split; [|intros v' [= <-]; constructor]. split; [done|].
    intros [(a' & b & ? & _)|(m' & s' & [= <-] & Hc & Hm)]; [done|]. inversion Hc.
  - (* group *)
    rewrite Forall_forall in H. destruct (H m Hb) as [st Hst].
    destruct (Hg m st (zero m) He Hst (zero_fits _ _ Hst)) as [G1 G2]. unfold child_field. cbn.
    destruct (read E k m (zero m)) as [w|] eqn:Hr; cbn; split; try done.
    + split; [done|]. intros [(a' & b & ? & _)|(m' & s' & [= <-] & Hc & Hm)]; [done|].
      inversion Hc; subst. by apply G1 in Hm.
    + intros v' [= <-]. constructor. by apply Forall_forall.
    + split; [|done]. intros _. right. exists m, m. split; [done|]. split; [by constructor|]. by apply G1.
  - rewrite Forall_forall in H. destruct (H m Hb) as [st Hst].
    destruct (Hg m st (zero m) He Hst (zero_fits _ _ Hst)) as [G1 G2]. unfold child_field. cbn.
    destruct (read E k m (zero m)) as [w|] eqn:Hr; cbn; split; try done.
    + split; [done|]. intros [(a' & b & ? & _)|(m' & s' & [= <-] & Hc & Hm)]; [done|].
      inversion Hc; subst. by apply G1 in Hm.
    + intros v' [= <-]. constructor. by apply Forall_forall.
    + split; [|done]. intros _. right. exists m, m. split; [done|]. split; [by constructor|]. by apply G1.
Qed.

Definition bad_attr (E : Ext) (f : field) (p : string * string) : Prop :=
  ∃ b ptr, f_kind f = Attr b ptr ∧ p.1 = f_name f ∧ unreadable E b p.2.

Lemma attr_field_ok E f p v : fits f v →
  (attr_field E p.1 p.2 f v = None ↔ bad_attr E f p) ∧
  (∀ v', attr_field E p.1 p.2 f v = Some v' → fits f v').
Proof.
  intros Hf. destruct f as [a [b ptr| | |q s|b| |q g]].
  1:{ split; [|intros v'; by apply attr_step_ok]. rewrite attr_step_none. unfold bad_attr. cbn. split.
      - intros [-> Hu]. by exists b, ptr.
      - intros (b' & ptr' & [= <- <-] & -> & Hu). done. }
  all: unfold attr_field; cbn; split; [|by intros v' [= <-]]; split; [done|];
    intros (b' & ptr' & H & _); discriminate.
Qed.

Lemma text_field_ok ks inner f v : fits f v → ∃ v', text_field ks inner f v = Some v' ∧ fits f v'.
Proof. intros Hf. destruct Hf; unfold text_field; cbn; eexists; (split; [done|by econstructor]). Qed.

Lemma field_step_ok E at_ ks inner f v : Forall (good E) ks → fits f v →
  (field_step E at_ ks inner f v = None ↔
   (∃ p, p ∈ at_ ∧ bad_attr E f p) ∨ (∃ k, k ∈ ks ∧ bad_child E f k)) ∧
  (∀ v', field_step E at_ ks inner f v = Some v' → fits f v').
Proof.
  intros Hg Hf. rewrite Forall_forall in Hg. unfold field_step.
  destruct (ofold_none (fits f) (bad_attr E f) (λ p, attr_field E p.1 p.2 f) at_) with (a := v) as [A1 A2].
  { intros p a a' _ Ha. by apply attr_field_ok. }
  { intros p a _ Ha. by apply attr_field_ok. }
  { done. }
  destruct (ofold _ at_ v) as [v1|] eqn:H1.
  2:{ split; [|done]. split; [|done]. intros _. left. by apply A1. }
  specialize (A2 v1 eq_refl).
  destruct (ofold_none (fits f) (bad_child E f) (child_step E f) ks) with (a := v1) as [C1 C2].
  { intros k a a' Hk Ha. apply child_step_ok; [by apply Hg|done]. }
  { intros k a Hk Ha. apply child_step_ok; [by apply Hg|done]. }
  { done. }
  assert (¬ ∃ p, p ∈ at_ ∧ bad_attr E f p) as HA by (intros H; by apply A1 in H).
  change (Some v1 ≫= ?k) with (k v1). cbv beta.
  destruct (ofold (child_step E f) ks v1) as [v2|] eqn:H2.
  2:{ split; [|done]. split; [|done]. intros _. right. by apply C1. }
  specialize (C2 v2 eq_refl).
  assert (¬ ∃ k, k ∈ ks ∧ bad_child E f k) as HC by (intros H; by apply C1 in H).
  destruct (text_field_ok ks inner f v2 C2) as (v3 & H3 & F3).
  change (Some v2 ≫= ?k) with (k v2). cbv beta. rewrite H3. split.
  - split; [done|]. by intros [?|?].
  - by intros v' [= <-].
Qed.

Lemma each_ok (I : field → value → Prop) (B : field → Prop) (U : field → value → option value) fs :
  ∀ cur, (∀ f v, f ∈ fs → I f v → (U f v = None ↔ B f) ∧ (∀ v', U f v = Some v' → I f v')) →
  Forall2 I fs cur →
  (each_field U fs cur = None ↔ ∃ f, f ∈ fs ∧ B f) ∧
  (∀ vs, each_field U fs cur = Some vs → Forall2 I fs vs).
Proof.
  intros cur H. induction 1 as [|f v fs vs Hv Hvs IH].
  - split; [|intros vs [= <-]; constructor]. split; [done|]. intros (f & Hf & _). by apply elem_of_nil in Hf.
  - destruct (H f v) as [H1 H2]; [left|done|]. destruct IH as [I1 I2].
    { intros g w Hg. apply H. by right. }
    cbn [each_field]. destruct (U f v) as [v'|] eqn:Hu.
    + destruct (each_field U fs vs) as [vs'|] eqn:He.
      * split; [|intros ? [= <-]; constructor; [by apply H2|by apply I2]]. split; [done|].
        intros (g & Hg & Hb). apply elem_of_cons in Hg as [->|Hg].
        -- by apply H1 in Hb.
        -- assert (∃ g, g ∈ fs ∧ B g) as X by eauto. by apply I1 in X.
      * split; [|done]. split; [|done]. intros _. destruct I1 as [I1 _]. destruct (I1 eq_refl) as (g & Hg & Hb).
        exists g. split; [by right|done].
    + split; [|done]. split; [|done]. intros _. exists f. split; [left|]. by apply H1.
Qed.

Lemma all_good E x : good E x.
Proof.
  induction x as [n at_ inner ks IH|t] using xml_rect'; [|by intros s st cur H].
  intros s [loop fs] cur _ Hs Hcur. cbn [s_fields] in *.
  rewrite (read_fieldwise _ _ _ _ _ _ _ _ _ Hs).
  destruct (each_ok fits (λ f, (∃ p, p ∈ at_ ∧ bad_attr E f p) ∨ (∃ k, k ∈ ks ∧ bad_child E f k))
              (field_step E at_ ks inner) fs cur) as [E1 E2]; [|done|].
  { intros f v _ Hf. by apply field_step_ok. }
  assert (malformed E s (Elem n at_ inner ks) ↔
          existsb (unknown_child loop fs) ks = true ∨
          ∃ f, f ∈ fs ∧ ((∃ p, p ∈ at_ ∧ bad_attr E f p) ∨ (∃ k, k ∈ ks ∧ bad_child E f k))) as Hm.
  { split.
    - inversion 1 as [? ? fs' ? ? ? ? a b ptr t Hs' Hf Hp Hu| ? ? fs' ? ? ? ? a b at' i' cs Hs' Hf Hk Hu
                     | ? fs' ? ? ? ? k Hs' Hk He Hno | ? ? fs' ? ? ? ? f k m s' Hs' Hf Hk He Hc Hmk];
        subst; rewrite Hs in Hs'; simplify_eq.
      + right. exists (Field a (Attr b ptr)). split; [done|]. left. exists (a, t). split; [done|]. by exists b, ptr.
      + right. exists (Field a (SubBasic b)). split; [done|]. right. eexists. split; [done|]. left. by exists a, b.
      + left. apply existsb_exists. exists k. split; [by apply elem_of_list_In|].
        destruct k as [m at' i' cs|]; [|done]. cbn. apply negb_true_iff, not_true_iff_false.
        intros (f & Hf & Ht)%existsb_exists. apply elem_of_list_In in Hf. apply (Hno f Hf). by apply takes_belongs.
      + right. exists f. split; [done|]. right. exists k. split; [done|]. right. by exists m, s'.
    - intros [Hx|(f & Hf & [(p & Hp & b & ptr & Hk & Hn & Hu)|(k & Hk & [(a & b & -> & He & Hu)|(m & s' & He & Hc & Hmk)])])].
      + apply existsb_exists in Hx as (k & Hk & Hx). apply elem_of_list_In in Hk.
        destruct k as [m at' i' cs|]; [|done]. cbn in Hx. apply andb_prop in Hx as [-> Hx].
        apply (mf_unknown E s fs n at_ inner ks (Elem m at' i' cs)); try done.
        intros f Hf Hb. apply takes_belongs in Hb. apply negb_true_iff, not_true_iff_false in Hx.
        apply Hx. apply existsb_exists. exists f. split; [by apply elem_of_list_In|done].
      + destruct f as [a kd], p as [a' t]. cbn in *. subst. by eapply mf_attr.
      + destruct k as [m at' i' cs|]; [|done]. cbn in He. simplify_eq. by eapply mf_text.
      + by eapply mf_child. }
  rewrite Hm. destruct (existsb _ ks).
  - split; [|done]. split; [by left|done].
  - split; [|done]. rewrite E1. split; [by right|]. by intros [?|?].
Qed.

Lemma read_none E s st n at_ inner ks : go_struct s = Some st →
  unmarshal_new E s (Elem n at_ inner ks) = None ↔ malformed E s (Elem n at_ inner ks).
Proof.
  intros Hs. unfold unmarshal_new. rewrite fmap_None.
  by apply (all_good E (Elem n at_ inner ks) s st (zero s)); [|done|apply zero_fits].
Qed.
