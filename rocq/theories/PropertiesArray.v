(** Properties C84 - C86: typed arrays. *)
From Coq Require Import Ascii.
From stdpp Require Import pretty.
From Verif Require Import Base Strconv Xml Array Lib GoExt SpecPred ProofsPred ProofsDecode.

(** *** C84: accessors and their history *)

(** the elements of an array text *)
Definition elements {A} (words : string → option (list string)) (raw : string)
    (reads : string → A → Prop) (l : list A) : Prop :=
  ∃ ws, words raw = Some ws ∧ Forall2 reads ws l.

Lemma parse_words_spec {A} (parse : string → option A) ws l :
  parse_words parse ws = inl l ↔ Forall2 (λ w x, parse w = Some x) ws l.
Proof.
  revert l. induction ws as [|w ws IH]; intros l; simpl.
  - split; [intros [= <-]; constructor|]. intros H%Forall2_nil_inv_l. by subst.
  - destruct (parse w) as [x|] eqn:Hw.
    + destruct (parse_words parse ws) as [l'|e] eqn:Hp.
      * split; [intros [= <-]; constructor; [done|]; by apply IH|].
        intros (x' & l2 & Hx & H2 & ->)%Forall2_cons_inv_l. apply IH in H2. congruence.
      * split; [done|]. intros (x' & l2 & Hx & H2 & ->)%Forall2_cons_inv_l. apply IH in H2. congruence.
    + split; [done|]. intros (x' & l2 & Hx & H2 & ->)%Forall2_cons_inv_l. congruence.
Qed.

(** what the caches may hold *)
Definition consistent (E : Ext) (words : string → option (list string)) (a : array) : Prop :=
  (∀ l, ar_s a = Some l → words (ar_raw a) = Some l) ∧
  (∀ l, ar_i a = Some l → elements words (ar_raw a) (λ w z, parse_int w = Some z) l) ∧
  (∀ l, ar_f a = Some l → elements words (ar_raw a) (λ w z, ext_parse_float E w = Some z) l).

Lemma access_consistent E words c a : consistent E words a →
  consistent E words (access E words c a) ∧ ar_type (access E words c a) = ar_type a ∧
  ar_raw (access E words c a) = ar_raw a ∧ ar_n (access E words c a) = ar_n a.
Proof.
  intros Hc. pose proof (conj Hc (conj (eq_refl (ar_type a)) (conj (eq_refl (ar_raw a)) (eq_refl (ar_n a))))) as Hid. pose proof Hc as (H1 & H2 & H3). destruct c; simpl; unfold arr_strings, arr_ints, arr_floats;
    destruct (negb _); simpl; try exact Hid.
  - destruct (ar_s a) eqn:Hs; simpl; [exact Hid|].
    destruct (words (ar_raw a)) eqn:Hw; simpl; (split; [|done]); (split; [|done]); simpl; naive_solver.
  - destruct (ar_i a) eqn:Hs; simpl; [exact Hid|].
    destruct (words (ar_raw a)) as [ws|] eqn:Hw; simpl; [|exact Hid].
    destruct (parse_words parse_int ws) as [l|e] eqn:Hp; simpl; [|exact Hid].
    split; [|done]. split; [simpl; rewrite Hw; exact H1|]. split; [|exact (proj2 (proj2 Hc))]. simpl. intros ? [= <-]. exists ws. split; [done|]. by apply parse_words_spec.
  - destruct (ar_f a) eqn:Hs; simpl; [exact Hid|].
    destruct (words (ar_raw a)) as [ws|] eqn:Hw; simpl; [|exact Hid].
    destruct (parse_words (ext_parse_float E) ws) as [l|e] eqn:Hp; simpl; [|exact Hid].
    split; [|done]. split; [simpl; rewrite Hw; exact H1|]. split; [exact (proj1 (proj2 Hc))|]. simpl. intros ? [= <-]. exists ws. split; [done|]. by apply parse_words_spec.
Qed.

Lemma accesses_consistent E words cs : ∀ a, consistent E words a →
  consistent E words (accesses E words cs a) ∧ ar_type (accesses E words cs a) = ar_type a ∧
  ar_raw (accesses E words cs a) = ar_raw a ∧ ar_n (accesses E words cs a) = ar_n a.
Proof.
  induction cs as [|c cs IH]; intros a Ha; [done|]. simpl.
  destruct (access_consistent E words c a Ha) as (H & Ht & Hr & Hn).
  destruct (IH _ H) as (G & Gt & Gr & Gn). split; [done|]. split; [congruence|]. split; congruence.
Qed.

Definition fresh (a : array) : Prop := ar_s a = None ∧ ar_i a = None ∧ ar_f a = None.
Lemma fresh_consistent E words a : fresh a → consistent E words a.
Proof. intros (H1 & H2 & H3). unfold consistent. rewrite H1, H2, H3. done. Qed.

Lemma dec_array_fresh at_ raw a : dec_array at_ raw = Some a → fresh a ∧ ar_raw a = raw.
Proof.
  unfold dec_array.
  assert (∀ l b, fresh b → ar_raw b = raw → attrs_fold (λ n v a,
    if n =s "n" then z ← att_int v; Some (Array_ (Some z) (ar_type a) (ar_raw a) None None None)
    else if n =s "type" then Some (Array_ (ar_n a) v (ar_raw a) None None None)
    else Some a) l b = Some a → fresh a ∧ ar_raw a = raw) as H; [|by apply H].
  induction l as [|[n v] l IH]; intros b Hb Hr; simpl; [by intros [= <-]|].
  destruct (n =s "n"); simpl; [destruct (att_int v); simpl; [|done]; by apply IH|].
  destruct (n =s "type"); simpl; by apply IH.
Qed.

(** Whatever accessors were called before, in whatever order: an accessor
    succeeds exactly when the array has its type and the text is a list of such
    elements, and returns these elements. *)
Theorem C84_accessors : ∀ E words at_ raw a0 cs,
  dec_array at_ raw = Some a0 → let a := accesses E words cs a0 in
  (∀ l, (arr_strings words a).1 = inl l ↔ ar_type a0 = "string" ∧ words raw = Some l) ∧
  (∀ l, (arr_ints words a).1 = inl l ↔
     ar_type a0 = "int" ∧ elements words raw integer_text l) ∧
  (∀ l, (arr_floats E words a).1 = inl l ↔
     ar_type a0 = "real" ∧ elements words raw (λ w x, ext_parse_float E w = Some x) l).
Proof.
  intros E words at_ raw a0 cs Hd a. destruct (dec_array_fresh _ _ _ Hd) as [Hf Hr].
  destruct (accesses_consistent E words cs a0) as ((H1 & H2 & H3) & Ht & Hr2 & _); [by apply fresh_consistent|].
  fold a in H1, H2, H3, Ht, Hr2. rewrite Hr in Hr2. rewrite Hr2 in H1, H2, H3. rewrite <- Ht.
  assert (∀ (A : Type) (p : string → option A) ws l1 l2,
    Forall2 (λ w x, p w = Some x) ws l1 → Forall2 (λ w x, p w = Some x) ws l2 → l1 = l2) as Hfun.
  { intros A p ws l1 l2 G1 G2. apply parse_words_spec in G1. apply parse_words_spec in G2. congruence. }
  assert (∀ l, elements words raw integer_text l ↔ elements words raw (λ w z, parse_int w = Some z) l) as Htext.
  { intros l. unfold elements. split; intros (ws & Hw & H); exists ws; (split; [done|]);
      (eapply Forall2_impl; [exact H|]); intros w z; apply parse_int_text. }
  unfold arr_strings, arr_ints, arr_floats. split; [|split]; intros l; rewrite ?Htext.
  - destruct (String.eqb_spec (ar_type a) "string") as [->|Hn]; simpl; [|naive_solver].
    destruct (ar_s a) as [l'|] eqn:Hs; simpl.
    + rewrite (H1 l' eq_refl). naive_solver.
    + rewrite Hr2. destruct (words raw); simpl; naive_solver.
  - destruct (String.eqb_spec (ar_type a) "int") as [->|Hn]; simpl; [|naive_solver].
    destruct (ar_i a) as [l'|] eqn:Hs; simpl.
    + destruct (H2 l' eq_refl) as (ws & Hw & H). split.
      * intros [= <-]. split; [done|]. by exists ws.
      * intros (_ & ws' & Hw' & H'). rewrite Hw in Hw'. injection Hw' as <-. by rewrite (Hfun _ _ _ _ _ H H').
    + rewrite Hr2. destruct (words raw) as [ws|] eqn:Hw; simpl.
      2:{ split; [done|]. intros (_ & ws' & Hw' & _). congruence. }
      pose proof (parse_words_spec parse_int ws l) as Hp. destruct (parse_words parse_int ws) as [l'|e] eqn:Hpw; simpl; (split; [|]).
      * intros [= ->]. split; [done|]. exists ws. split; [done|by apply Hp].
      * intros (_ & ws' & Hw' & H'). rewrite Hw in Hw'. injection Hw' as <-. apply Hp in H'. congruence.
      * done.
      * intros (_ & ws' & Hw' & H'). rewrite Hw in Hw'. injection Hw' as <-. apply Hp in H'. congruence.
  - destruct (String.eqb_spec (ar_type a) "real") as [->|Hn]; simpl; [|naive_solver].
    destruct (ar_f a) as [l'|] eqn:Hs; simpl.
    + destruct (H3 l' eq_refl) as (ws & Hw & H). split.
      * intros [= <-]. split; [done|]. by exists ws.
      * intros (_ & ws' & Hw' & H'). rewrite Hw in Hw'. injection Hw' as <-. by rewrite (Hfun _ _ _ _ _ H H').
    + rewrite Hr2. destruct (words raw) as [ws|] eqn:Hw; simpl.
      2:{ split; [done|]. intros (_ & ws' & Hw' & _). congruence. }
      pose proof (parse_words_spec (ext_parse_float E) ws l) as Hp. destruct (parse_words (ext_parse_float E) ws) as [l'|e] eqn:Hpw; simpl; (split; [|]).
      * intros [= ->]. split; [done|]. exists ws. split; [done|by apply Hp].
      * intros (_ & ws' & Hw' & H'). rewrite Hw in Hw'. injection Hw' as <-. apply Hp in H'. congruence.
      * done.
      * intros (_ & ws' & Hw' & H'). rewrite Hw in Hw'. injection Hw' as <-. apply Hp in H'. congruence.
Qed.
Print Assumptions C84_accessors.

(** Failures are also the same every time, and name the first bad element. *)
Theorem C84_errors : ∀ E words at_ raw a0 cs,
  dec_array at_ raw = Some a0 → let a := accesses E words cs a0 in
  (arr_strings words a).1 = (arr_strings words a0).1 ∧ (arr_ints words a).1 = (arr_ints words a0).1 ∧
  (arr_floats E words a).1 = (arr_floats E words a0).1 ∧
  (∀ ws1 w ws2, ar_type a0 = "int" → words raw = Some (ws1 ++ w :: ws2) → Forall (λ v, ∃ z, integer_text v z) ws1 →
     (∀ z, ¬ integer_text w z) → (arr_ints words a).1 = inr (BadNumber w)).
Proof.
  intros E words at_ raw a0 cs Hd a. destruct (dec_array_fresh _ _ _ Hd) as [(F1 & F2 & F3) Hr].
  destruct (accesses_consistent E words cs a0) as ((H1 & H2 & H3) & Ht & Hr2 & _); [by apply fresh_consistent|].
  fold a in H1, H2, H3, Ht, Hr2.
  assert ((arr_ints words a).1 = (arr_ints words a0).1) as Hi.
  { unfold arr_ints. rewrite Ht, F2. destruct (negb _); [done|]. rewrite Hr2 in *. destruct (ar_i a) as [l|] eqn:Hs.
    - destruct (H2 l eq_refl) as (ws & -> & Hp%parse_words_spec). by rewrite Hp.
    - destruct (words (ar_raw a0)) as [ws|]; [|done]. by destruct (parse_words parse_int ws). }
  split; [|split; [done|split]].
  - unfold arr_strings. rewrite Ht, F1. destruct (negb _); [done|]. rewrite Hr2 in *. destruct (ar_s a) as [l|] eqn:Hs.
    + by rewrite (H1 l eq_refl).
    + by destruct (words (ar_raw a0)).
  - unfold arr_floats. rewrite Ht, F3. destruct (negb _); [done|]. rewrite Hr2 in *. destruct (ar_f a) as [l|] eqn:Hs.
    + destruct (H3 l eq_refl) as (ws & -> & Hp%parse_words_spec). by rewrite Hp.
    + destruct (words (ar_raw a0)) as [ws|]; [|done]. by destruct (parse_words (ext_parse_float E) ws).
  - intros ws1 w ws2 Hty Hw Hok Hbad. rewrite Hi. unfold arr_ints. rewrite Hty, F2, Hr, Hw. simpl.
    assert (parse_words parse_int (ws1 ++ w :: ws2) = inr (BadNumber w)) as ->; [|done].
    assert (parse_int w = None) as Hw0.
    { destruct (parse_int w) as [z|] eqn:Hz; [|done]. by apply parse_int_text, Hbad in Hz. }
    clear -Hok Hw0. induction Hok as [|v ws1 [z Hz%parse_int_text] Hok IH]; simpl; [by rewrite Hw0|]. by rewrite Hz, IH.
Qed.
Print Assumptions C84_errors.

(** words separated by single blanks, no quoting *)
Fixpoint blank_split (cur : string) (s : string) : list string :=
  match s with
  | EmptyString => [cur]
  | String.String c s' => if Ascii.eqb c " "%char then cur :: blank_split "" s' else blank_split (cur +:+ String.String c "") s'
  end.
Definition blank_words (s : string) : option (list string) := Some (blank_split "" s).
Example C84_example :
  dec_array [("n", "3"); ("type", "int")] "10 -2 7" = Some (Array_ (Some 3%Z) "int" "10 -2 7" None None None) ∧
  (arr_ints blank_words (accesses go_ext blank_words [Strings; Int64s; Float64s; Int64s]
     (Array_ (Some 3%Z) "int" "10 -2 7" None None None))).1 = inl [10; -2; 7]%Z.
Proof. split; by vm_compute. Qed.

(** *** C85: the declared length *)
Theorem C85_length_refuted : ∃ words at_ raw a n l,
  dec_array at_ raw = Some a ∧ ar_n a = Some n ∧ (arr_ints words a).1 = inl l ∧ Z.of_nat (length l) ≠ n.
Proof.
  exists blank_words, [("n", "3"); ("type", "int")], "10 -2". eexists _, 3%Z, [10; -2]%Z.
  split; [by vm_compute|]. split; [done|]. split; by vm_compute.
Qed.
Print Assumptions C85_length_refuted.

(** The declared length has no influence at all. *)
Theorem C85_length_ignored : ∀ E words n n' ty raw s i f,
  let a := Array_ n ty raw s i f in let b := Array_ n' ty raw s i f in
  (arr_strings words a).1 = (arr_strings words b).1 ∧ (arr_ints words a).1 = (arr_ints words b).1 ∧
  (arr_floats E words a).1 = (arr_floats E words b).1.
Proof.
  intros E words n n' ty raw s i f a b. unfold a, b, arr_strings, arr_ints, arr_floats. simpl.
  split; [|split].
  - destruct (negb _), s; try done. by destruct (words raw).
  - destruct (negb _), i; try done. destruct (words raw) as [ws|]; [|done]. by destruct (parse_words parse_int ws).
  - destruct (negb _), f; try done. destruct (words raw) as [ws|]; [|done]. by destruct (parse_words (ext_parse_float E) ws).
Qed.
Print Assumptions C85_length_ignored.

(** *** C86: integers written into an array are read back *)
Theorem C86_integers_survive : ∀ E words n zs raw cs,
  words raw = Some (map pretty zs) → Forall (λ z, (- 2 ^ 63 <= z < 2 ^ 63)%Z) zs →
  (arr_ints words (accesses E words cs (Array_ n "int" raw None None None))).1 = inl zs.
Proof.
  intros E words n zs raw cs Hw Hz.
  assert (consistent E words (Array_ n "int" raw None None None)) as Hc by by apply fresh_consistent.
  destruct (accesses_consistent E words cs _ Hc) as ((_ & H2 & _) & Ht & Hr & _). simpl in Ht, Hr.
  set (a := accesses E words cs _) in *. rewrite Hr in H2.
  assert (parse_words parse_int (map pretty zs) = inl zs) as Hp.
  { clear -Hz. induction Hz as [|z zs Hz _ IH]; [done|]. cbn [map parse_words]. by rewrite parse_pretty, IH. }
  unfold arr_ints. rewrite Ht. simpl. destruct (ar_i a) as [l|] eqn:Hi.
  - destruct (H2 l eq_refl) as (ws & Hw' & Hf%parse_words_spec). rewrite Hw in Hw'. injection Hw' as <-. simpl. congruence.
  - by rewrite Hr, Hw, Hp.
Qed.
Print Assumptions C86_integers_survive.
Example C86_example : blank_words "10 -2 7" = Some (map pretty [10; -2; 7]%Z).
Proof. by vm_compute. Qed.
