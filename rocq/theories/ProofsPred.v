(** Proofs about predicates (tree.go:415-439, 516-674). *)
From Coq Require Import Ascii.
From Verif Require Import Base Strconv Value Doc Expr Pred Tree Regression Model Lib SpecPred.

Ltac case_str :=
  match goal with
  | |- context [String.eqb ?a ?b] => destruct (String.eqb_spec a b); subst; simplify_eq
  end.
Ltac case_str_in H :=
  match type of H with
  | context [String.eqb ?a ?b] => destruct (String.eqb_spec a b); subst; simplify_eq
  end.

(** ** Literals *)

Lemma parse_bool_some s :
  is_Some (parse_bool s) ↔
  s ∈ ["1"; "t"; "T"; "true"; "TRUE"; "True"; "0"; "f"; "F"; "false"; "FALSE"; "False"].
Proof.
  unfold parse_bool. rewrite !elem_of_cons, elem_of_nil. split.
  - repeat (case_str; [tauto|]). simpl. intros [? ?]; done.
  - intros H. repeat (destruct H as [->|H]; [vm_compute; by eauto|]). done.
Qed.

Lemma get_raw_value_ok E dt s v :
  get_raw_value E dt s = Ok v ↔
  (dt = "boolean" ∧ ∃ b, parse_bool s = Some b ∧ v = GBool b) ∨
  ((dt = "double" ∨ dt = "float") ∧ ∃ f, ext_parse_float E s = Some f ∧ v = GF64 f) ∨
  (dt = "integer" ∧ ∃ z, parse_int s = Some z ∧ v = GInt KInt64 z) ∨
  (dt = "string" ∧ v = GStr s).
Proof.
  unfold get_raw_value. split.
  - repeat case_str; intros H.
    + destruct (parse_bool s); naive_solver.
    + destruct (ext_parse_float E s); naive_solver.
    + destruct (ext_parse_float E s); naive_solver.
    + destruct (parse_int s); naive_solver.
    + naive_solver.
    + done.
  - intros [(-> & b & Hb & ->)|[([-> | ->] & f & Hf & ->)|[(-> & z & Hz & ->)|(-> & ->)]]];
      simpl; rewrite ?Hb, ?Hf, ?Hz; done.
Qed.

(** *** Numerals *)

Lemma digits_app s : ∀ acc t, digits_val acc (s +:+ t) = (a ← digits_val acc s; digits_val a t).
Proof.
  induction s as [|c s IH]; intros acc t; [done|].
  change (String.String c s +:+ t) with (String.String c (s +:+ t)). cbn [digits_val].
  destruct (digit_of c); [apply IH|done].
Qed.

Lemma digit_char d : (d < 10)%nat → digit_of (Ascii.ascii_of_nat (48 + d)) = Some (Z.of_nat d).
Proof. intros H. do 10 (destruct d as [|d]; [done|]). lia. Qed.

Lemma char_digit c z : digit_of c = Some z → ∃ d, (d < 10)%nat ∧ z = Z.of_nat d ∧ c = Ascii.ascii_of_nat (48 + d).
Proof.
  unfold digit_of. destruct (_ && _) eqn:H; [|done]. intros [= <-].
  apply andb_true_iff in H as [H1%Z.leb_le H2%Z.leb_le].
  exists (Ascii.nat_of_ascii c - 48)%nat. repeat split; [lia..|].
  rewrite <-(Ascii.ascii_nat_embedding c) at 1. f_equal. lia.
Qed.

Lemma numeral_digits s z : numeral s z → digits_val 0 s = Some z.
Proof.
  induction 1 as [d Hd|s z d _ IH Hd].
  - cbn [digits_val]. rewrite digit_char by done. done.
  - rewrite digits_app, IH. cbn [mbind option_bind digits_val]. by rewrite digit_char.
Qed.

Lemma app_empty s : s +:+ "" = s.
Proof. induction s as [|c s IH]; [done|]. change (String.String c s +:+ "") with (String.String c (s +:+ "")). by rewrite IH. Qed.

Lemma app_one p c s : p +:+ String.String c s = (p +:+ String.String c "") +:+ s.
Proof.
  induction p as [|d p IH]; [done|].
  change (String.String d p +:+ ?t) with (String.String d (p +:+ t)).
  change (String.String d ?u +:+ s) with (String.String d (u +:+ s)). by rewrite IH.
Qed.

Lemma digits_numeral s : ∀ p acc z, numeral p acc → digits_val acc s = Some z → numeral (p +:+ s) z.
Proof.
  induction s as [|c s IH]; intros p acc z Hp H; cbn [digits_val] in H.
  - injection H as <-. by rewrite app_empty.
  - destruct (digit_of c) as [x|] eqn:Hc; [|done].
    apply char_digit in Hc as (d & Hd & -> & ->).
    rewrite app_one.
    apply (IH _ (10 * acc + Z.of_nat d)%Z); [by constructor|done].
Qed.

Lemma digits_numeral0 c s z : digits_val 0 (String.String c s) = Some z → numeral (String.String c s) z.
Proof.
  cbn [digits_val]. destruct (digit_of c) as [x|] eqn:Hc; [|done].
  apply char_digit in Hc as (d & Hd & -> & ->). intros H.
  change (String.String ?c s) with (String.String c "" +:+ s).
  apply (digits_numeral s _ (Z.of_nat d)); [by constructor|done].
Qed.

Lemma numeral_cons s z : numeral s z → ∃ c t, s = String.String c t ∧ c ≠ "-"%char ∧ c ≠ "+"%char.
Proof.
  intros H. apply numeral_digits in H as H2. destruct s as [|c t].
  - exfalso. inversion H as [|[] ? ? ? ? Hs]; simpl in *; done.
  - exists c, t. split; [done|]. cbn [digits_val] in H2.
    split; intros ->; by vm_compute in H2.
Qed.

Lemma parse_int_text s z : parse_int s = Some z ↔ integer_text s z.
Proof.
  unfold parse_int, integer_text. split.
  - destruct (signed_val s) as [y|] eqn:Hs; [|done].
    destruct (_ && _) eqn:Hr; [|done]. intros [= ->].
    apply andb_true_iff in Hr as [H1%Z.leb_le H2%Z.ltb_lt]. split; [lia|].
    unfold signed_val in Hs. destruct s as [|c s]; [done|].
    destruct (Ascii.eqb_spec c "-") as [->|_]; [|destruct (Ascii.eqb_spec c "+") as [->|_]].
    + right. exists s. right. split; [done|]. destruct s as [|c s]; [done|].
      destruct (digits_val 0 (String.String c s)) as [y|] eqn:Hd; [|done]. injection Hs as <-.
      rewrite Z.opp_involutive. by apply digits_numeral0.
    + right. exists s. left. split; [done|]. destruct s as [|c s]; [done|]. by apply digits_numeral0.
    + left. by apply digits_numeral0.
  - intros [Hr Hs].
    assert (signed_val s = Some z) as ->.
    { destruct Hs as [H|(t & [[-> H]|[-> H]])].
      - destruct (numeral_cons _ _ H) as (c & t & -> & H1 & H2). unfold signed_val.
        rewrite (proj2 (Ascii.eqb_neq c "-") H1), (proj2 (Ascii.eqb_neq c "+") H2). by apply numeral_digits.
      - destruct (numeral_cons _ _ H) as (c & u & -> & _). apply numeral_digits in H. exact H.
      - destruct (numeral_cons _ _ H) as (c & u & -> & _). apply numeral_digits in H.
        change (signed_val ("-" +:+ String.String c u)) with (Z.opp <$> digits_val 0 (String.String c u)).
        rewrite H. simpl. f_equal. lia. }
    destruct (Z.leb_spec (- 2 ^ 63) z); [|lia]. destruct (Z.ltb_spec z (2 ^ 63)); [done|lia].
Qed.

Lemma get_raw_value_no_panic E dt s p : get_raw_value E dt s ≠ Panic p.
Proof. unfold get_raw_value. repeat case_str; repeat case_match; done. Qed.

Lemma literal_ok_raw E dt s : literal_ok E dt s ↔ ∃ v, get_raw_value E dt s = Ok v.
Proof.
  unfold literal_ok. rewrite <-parse_bool_some. setoid_rewrite <-parse_int_text. setoid_rewrite get_raw_value_ok.
  unfold is_Some. naive_solver.
Qed.

Lemma raw_not_nil E dt s v : get_raw_value E dt s = Ok v → is_nil v = false.
Proof. rewrite get_raw_value_ok. naive_solver. Qed.

(** ** Floats *)

Lemma SFcompare_opp a b :
  SFcompare b a = match SFcompare a b with Some c => Some (CompOpp c) | None => None end.
Proof.
  destruct a as [[]|[]| |[] ma ea], b as [[]|[]| |[] mb eb]; simpl; try done.
  - rewrite (Z.compare_antisym ea eb).
    destruct (ea ?= eb)%Z; simpl; try done.
    change (Pos.compare_cont Eq mb ma) with (mb ?= ma)%positive.
    change (Pos.compare_cont Eq ma mb) with (ma ?= mb)%positive.
    by rewrite (Pos.compare_antisym ma mb).
  - rewrite (Z.compare_antisym ea eb).
    destruct (ea ?= eb)%Z; simpl; try done.
    change (Pos.compare_cont Eq mb ma) with (mb ?= ma)%positive.
    change (Pos.compare_cont Eq ma mb) with (ma ?= mb)%positive.
    by rewrite (Pos.compare_antisym ma mb).
Qed.

Lemma SFcompare_none a b : SFcompare a b = None ↔ a = S754_nan ∨ b = S754_nan.
Proof.
  destruct a as [[]|[]| |[] ma ea], b as [[]|[]| |[] mb eb]; simpl;
    try (split; [done|naive_solver]); try naive_solver;
    destruct (ea ?= eb)%Z; split; naive_solver.
Qed.

Lemma fltb_spec a b : fltb a b = true ↔ SFcompare a b = Some Lt.
Proof. unfold fltb, SFltb. destruct (SFcompare a b) as [[]|]; naive_solver. Qed.
Lemma fleb_spec a b : fleb a b = true ↔ SFcompare a b = Some Lt ∨ SFcompare a b = Some Eq.
Proof. unfold fleb, SFleb. destruct (SFcompare a b) as [[]|]; naive_solver. Qed.
Lemma feqb_spec a b : feqb a b = true ↔ SFcompare a b = Some Eq.
Proof. unfold feqb, SFeqb. destruct (SFcompare a b) as [[]|]; naive_solver. Qed.

(** ** Simple predicates *)

Lemma gov_eqb_literal E dt lit raw v :
  get_raw_value E dt lit = Ok raw → gov_eqb v raw = same_as_literal E dt v lit.
Proof.
  rewrite get_raw_value_ok.
  intros [(-> & b & Hb & ->)|[(Hdt & f & Hf & ->)|[(-> & z & Hz & ->)|(-> & ->)]]].
  - destruct v as [|x|x|x|x|[] x|]; simpl; try done. rewrite Hb.
    destruct (Bool.eqb_spec x b); symmetry; [apply bool_decide_eq_true|apply bool_decide_eq_false]; congruence.
  - assert (Hfd : (dt =s "double") || (dt =s "float") = true)
      by (destruct Hdt; subst; done).
    assert (Hob : (dt =s "boolean") = false ∧ (dt =s "integer") = false ∧ (dt =s "string") = false)
      by (destruct Hdt; subst; done).
    destruct Hob as (Hb1 & Hb2 & Hb3).
    destruct v as [|x|x|x|x|[] x|]; simpl; rewrite ?Hb1, ?Hb2, ?Hb3, ?Hfd, ?Hf; simpl; try done.
    destruct (feqb x f) eqn:Hx.
    + apply feqb_spec in Hx. symmetry. by apply bool_decide_eq_true.
    + symmetry. apply bool_decide_eq_false. intros Hc%feqb_spec. congruence.
  - destruct v as [|x|x|x|x|[] x|]; simpl; try done. rewrite Hz.
    destruct (Z.eqb_spec x z); symmetry; [apply bool_decide_eq_true|apply bool_decide_eq_false]; congruence.
  - destruct v as [|x|x|x|x|[] x|]; simpl; try done.
    destruct (String.eqb_spec x lit); symmetry; [by apply bool_decide_eq_true|by apply bool_decide_eq_false].
Qed.

Lemma ordering_literal E cmpf cmpz op dt v lit raw :
  get_raw_value E dt lit = Ok raw →
  (∀ a b, cmpf a b = order_holds op (SFcompare a b)) →
  (∀ a b, cmpz a b = order_holds op (Some (a ?= b)%Z)) →
  ordering E cmpf cmpz dt v raw = Ok (of_bool (order_holds op (compare_literal E dt v lit))).
Proof.
  rewrite get_raw_value_ok. unfold ordering, compare_literal. intros H Hf Hz.
  destruct H as [(-> & b & Hb & ->)|[([-> | ->] & f & Hpf & ->)|[(-> & z & Hpz & ->)|(-> & ->)]]];
    simpl; rewrite ?Hpf, ?Hpz, ?Hf, ?Hz; done.
Qed.

Lemma eval_simple_meaning E ft f op dt lit raw r :
  ft !! f = Some dt → get_raw_value E dt lit = Ok raw →
  eval_simple E ft f op raw r = Ok (simple_meaning E dt op lit (dr_get r f)).
Proof.
  intros Hft Hraw. unfold eval_simple, simple_meaning.
  rewrite Hft, (raw_not_nil _ _ _ _ Hraw).
  destruct (dr_get r f) as [v|]; [|by case_str].
  destruct (String.eqb_spec op "isNotMissing"); [done|].
  destruct (String.eqb_spec op "equal"); [by erewrite gov_eqb_literal|].
  destruct (String.eqb_spec op "notEqual"); [by erewrite gov_eqb_literal|].
  destruct (String.eqb_spec op "greaterOrEqual") as [->|].
  { apply ordering_literal; [done| |].
    - intros a b. unfold fleb, SFleb. rewrite (SFcompare_opp a b).
      by destruct (SFcompare a b) as [[]|].
    - intros a b. unfold Z.leb. rewrite (Z.compare_antisym a b). by destruct (a ?= b)%Z. }
  destruct (String.eqb_spec op "greaterThan") as [->|].
  { apply ordering_literal; [done| |].
    - intros a b. unfold fltb, SFltb. rewrite (SFcompare_opp a b).
      by destruct (SFcompare a b) as [[]|].
    - intros a b. unfold Z.ltb. rewrite (Z.compare_antisym a b). by destruct (a ?= b)%Z. }
  destruct (String.eqb_spec op "lessOrEqual") as [->|].
  { apply ordering_literal; [done| |].
    - intros a b. unfold fleb, SFleb. by destruct (SFcompare a b) as [[]|].
    - intros a b. unfold Z.leb. by destruct (a ?= b)%Z. }
  destruct (String.eqb_spec op "lessThan") as [->|].
  { apply ordering_literal; [done| |].
    - intros a b. unfold fltb, SFltb. by destruct (SFcompare a b) as [[]|].
    - intros a b. unfold Z.ltb. by destruct (a ?= b)%Z. }
  do 2 f_equal. symmetry. unfold order_holds.
  repeat match goal with H : op ≠ _ |- _ => apply String.eqb_neq in H; rewrite H; clear H end.
  by destruct (compare_literal E dt v lit) as [[]|].
Qed.

Lemma compile_simple_inv E ft f op lit raw0 p :
  compile_predicate E ft (PSimple f op lit raw0) = Ok p ↔
  ∃ dt raw, ft !! f = Some dt ∧ get_raw_value E dt lit = Ok raw ∧ p = PSimple f op lit raw.
Proof.
  simpl. destruct (ft !! f) as [dt|]; [|naive_solver].
  rewrite rbind_ok. naive_solver.
Qed.

Lemma compiled_simple_meaning E ft f op lit raw0 p r :
  compile_predicate E ft (PSimple f op lit raw0) = Ok p →
  ∃ dt, ft !! f = Some dt ∧ run_test E ft p r = Ok (simple_meaning E dt op lit (dr_get r f)).
Proof.
  intros (dt & raw & Hft & Hraw & ->)%compile_simple_inv. exists dt.
  split; [done|]. by apply eval_simple_meaning.
Qed.

(** ** Compound predicates *)

Definition count_res (x : presult) (l : list presult) : nat := length (filter (λ v, v = x) l).

Lemma count_res_cons x v l :
  count_res x (v :: l) = (if decide (v = x) then S (count_res x l) else count_res x l).
Proof. unfold count_res. rewrite filter_cons. by destruct (decide (v = x)). Qed.

Lemma count_res_pos x l : 0 < count_res x l ↔ x ∈ l.
Proof.
  induction l as [|v l IH]; simpl.
  - unfold count_res; simpl. split; [lia|]. intros H; by apply elem_of_nil in H.
  - rewrite count_res_cons, elem_of_cons. destruct (decide (v = x)); [subst; split; [by left|lia]|].
    rewrite IH. naive_solver.
Qed.

Lemma count_res_total l :
  count_res RT l + count_res RU l + count_res RF l = length l.
Proof.
  induction l as [|v l IH]; simpl; [done|].
  rewrite !count_res_cons. destruct v; simpl; repeat case_decide; simplify_eq; lia.
Qed.

Lemma compound_loop_plain ev bop n ps vs tc uc :
  bop ≠ "surrogate" → Forall2 (λ p v, ev p = Ok v) ps vs →
  compound_loop ev bop n ps tc uc =
  Ok (compound_result bop (tc + count_res RT vs) (uc + count_res RU vs) n).
Proof.
  intros Hb H. revert tc uc.
  induction H as [|p v ps vs Hp _ IH]; intros tc uc; simpl.
  - unfold count_res; simpl. by rewrite !Nat.add_0_r.
  - rewrite Hp; simpl. apply String.eqb_neq in Hb as Hb'. rewrite Hb'; simpl.
    rewrite !count_res_cons. destruct v; rewrite IH; repeat case_decide; simplify_eq;
      do 2 f_equal; lia.
Qed.

Lemma compound_loop_surrogate ev n ps vs tc uc :
  Forall2 (λ p v, ev p = Ok v) ps vs →
  compound_loop ev "surrogate" n ps tc uc = Ok (tv_surrogate vs).
Proof.
  intros H. revert tc uc.
  induction H as [|p v ps vs Hp _ IH]; intros tc uc; simpl; [done|].
  rewrite Hp; simpl. unfold tv_surrogate. rewrite filter_cons.
  destruct v; simpl; repeat case_decide; done || (by rewrite IH).
Qed.

Lemma compound_result_spec bop vs :
  bop ≠ "surrogate" →
  compound_result bop (count_res RT vs) (count_res RU vs) (length vs) = tv_compound bop vs.
Proof.
  intros Hb. unfold compound_result, tv_compound.
  pose proof (count_res_total vs) as Htot.
  pose proof (count_res_pos RT vs) as HT.
  pose proof (count_res_pos RU vs) as HU.
  pose proof (count_res_pos RF vs) as HF.
  case_str; [|case_str; [|case_str]].
  - unfold tv_and. destruct (decide (RF ∈ vs)) as [HF'|HF'].
    + apply HF in HF'.
      destruct (Nat.ltb_spec 0 (count_res RU vs)); simpl.
      * destruct (Nat.eqb_spec (count_res RU vs + count_res RT vs) (length vs)); [lia|].
        destruct (Nat.eqb_spec (count_res RT vs) (length vs)); [lia|done].
      * destruct (Nat.eqb_spec (count_res RT vs) (length vs)); [lia|done].
    + rewrite <-HF in HF'. destruct (decide (RU ∈ vs)) as [HU'|HU']; rewrite <-HU in HU';
        (destruct (Nat.ltb_spec 0 (count_res RU vs)); [|try lia]); try lia; simpl.
      * destruct (Nat.eqb_spec (count_res RU vs + count_res RT vs) (length vs)); [done|lia].
      * destruct (Nat.eqb_spec (count_res RT vs) (length vs)); [done|lia].
  - unfold tv_or. destruct (decide (RT ∈ vs)) as [HT'|HT']; rewrite <-HT in HT';
      (destruct (Nat.ltb_spec 0 (count_res RT vs)); [done || lia|done || lia || idtac]).
    destruct (decide (RU ∈ vs)) as [HU'|HU']; rewrite <-HU in HU';
      (destruct (Nat.ltb_spec 0 (count_res RU vs)); done || lia).
  - unfold tv_xor. destruct (decide (RU ∈ vs)) as [HU'|HU']; rewrite <-HU in HU';
      (destruct (Nat.ltb_spec 0 (count_res RU vs)); done || lia).
  - destruct (String.eqb_spec bop "surrogate"); done.
Qed.

Lemma compound_loop_spec ev bop ps vs :
  Forall2 (λ p v, ev p = Ok v) ps vs →
  compound_loop ev bop (length ps) ps 0 0 = Ok (tv_compound bop vs).
Proof.
  intros H. destruct (decide (bop = "surrogate")) as [->|Hb].
  - by apply compound_loop_surrogate.
  - erewrite compound_loop_plain by done. simpl.
    rewrite (Forall2_length _ _ _ H). by rewrite compound_result_spec.
Qed.

(** ** Whole predicates *)

Definition const_pred (p : predicate) : Prop :=
  match p with PTrue | PFalse | PNone => True | _ => False end.

Lemma no_const_compound b ps :
  no_const_operand (PCompound b ps) ↔ Forall (λ q, ¬ const_pred q ∧ no_const_operand q) ps.
Proof.
  simpl. induction ps as [|q ps IH]; [split; auto|].
  rewrite Forall_cons, <-IH. destruct q; simpl; naive_solver.
Qed.

Lemma eval_operand_meaning E ft r p p' :
  compile_predicate E ft p = Ok p' → ¬ const_pred p → no_const_operand p →
  eval_operand E ft r p' = Ok (pred_meaning E ft r p).
Proof.
  revert p'. induction p as [| |f op v raw|b ps IH|b f a|] using predicate_rect';
    intros p' Hc Hn Hnc; try (simpl in Hn; tauto).
  - apply compile_simple_inv in Hc as (dt & raw' & Hft & Hraw & ->).
    simpl. rewrite Hft. by apply eval_simple_meaning.
  - simpl in Hc. apply rbind_ok in Hc as (ps' & Hps & [= <-]).
    apply rmap_ok in Hps. cbn [eval_operand pred_meaning].
    apply compound_loop_spec.
    apply no_const_compound in Hnc.
    clear Hn. induction Hps as [|q q' ps ps' Hq _ IHps]; [constructor|].
    apply Forall_cons in IH as [IHq IH]. apply Forall_cons in Hnc as [[Hnq1 Hnq2] Hnc].
    simpl. constructor; [by apply IHq|]. by apply IHps.
  - simpl in Hc. injection Hc as <-. done.
Qed.

Lemma run_test_meaning E ft r p p' :
  compile_predicate E ft p = Ok p' → p ≠ PNone → no_const_operand p →
  run_test E ft p' r = Ok (pred_meaning E ft r p).
Proof.
  intros Hc Hn Hnc. destruct p as [| |f op v raw|b ps|b f a|]; simpl in Hc; simplify_eq/=; try done.
  - destruct (ft !! f) as [dt|] eqn:Hft; [|done].
    apply rbind_ok in Hc as (raw' & Hraw & [= <-]). simpl. by apply eval_simple_meaning.
  - pose proof (eval_operand_meaning E ft r (PCompound b ps) p') as H.
    simpl in H. specialize (H Hc). 
    apply rbind_ok in Hc as (ps' & Hps & [= <-]). simpl in *.
    unfold eval_compound. rewrite H; [done|tauto|done].
Qed.

(** ** No panics *)

Lemma compound_loop_total ev bop n ps tc uc :
  Forall (λ p, ∃ v, ev p = Ok v) ps → ∃ v, compound_loop ev bop n ps tc uc = Ok v.
Proof.
  intros H. revert tc uc. induction H as [|p ps [v Hv] _ IH]; intros tc uc; simpl; [eauto|].
  rewrite Hv; simpl. destruct (_ && _); [eauto|]. destruct v; eauto.
Qed.

Lemma eval_operand_total E ft r p p' :
  compile_predicate E ft p = Ok p' → ∃ v, eval_operand E ft r p' = Ok v.
Proof.
  revert p'. induction p as [| |f op v raw|b ps IH|b f a|] using predicate_rect';
    intros p' Hc; try (simpl in Hc; injection Hc as <-; simpl; by eauto).
  - apply compile_simple_inv in Hc as (dt & raw' & Hft & Hraw & ->). simpl.
    rewrite (eval_simple_meaning _ _ _ _ dt v); eauto.
  - simpl in Hc. apply rbind_ok in Hc as (ps' & Hps & [= <-]). apply rmap_ok in Hps.
    cbn [eval_operand]. apply compound_loop_total.
    clear -Hps IH. induction Hps as [|q q' ps ps' Hq _ IHps]; [constructor|].
    apply Forall_cons in IH as [IHq IH]. constructor; eauto.
Qed.

Lemma run_test_total E ft r p p' :
  compile_predicate E ft p = Ok p' → p ≠ PNone → ∃ v, run_test E ft p' r = Ok v.
Proof.
  intros Hc Hn. pose proof (eval_operand_total E ft r _ _ Hc) as [v Hv].
  destruct p as [| |f op v0 raw|b ps|b f a|]; simpl in Hc; simplify_eq/=; eauto.
  - destruct (ft !! f); [|done]. apply rbind_ok in Hc as (raw' & Hraw & [= <-]). eauto.
  - apply rbind_ok in Hc as (ps' & Hps & [= <-]). eauto.
Qed.

(** ** Which predicates compile *)

Lemma compile_predicate_no_panic E ft p x : compile_predicate E ft p ≠ Panic x.
Proof.
  revert x. induction p as [| |f op v raw|b ps IH|b f a|] using predicate_rect';
    intros x; simpl; try done.
  - destruct (ft !! f); [|done]. intros [H|(? & ? & ?)]%rbind_panic; [|done].
    by apply get_raw_value_no_panic in H.
  - intros [H|(? & ? & ?)]%rbind_panic; [|done].
    apply rmap_panic in H as (q & Hq & H). rewrite Forall_forall in IH. by eapply IH.
Qed.

Lemma compile_predicate_ok_iff E ft p :
  (∃ p', compile_predicate E ft p = Ok p') ↔
  ∀ f lit, (f, lit) ∈ pred_simples p → ∃ dt, ft !! f = Some dt ∧ literal_ok E dt lit.
Proof.
  induction p as [| |f op v raw|b ps IH|b f a|] using predicate_rect'; simpl;
    try (split; [intros _ ? ? H; by apply elem_of_nil in H | by eauto]).
  - split.
    + intros [p' Hp] f' lit' Hin. apply elem_of_list_singleton in Hin. simplify_eq.
      destruct (ft !! f) as [dt|]; [|done]. apply rbind_ok in Hp as (raw' & Hraw & _).
      exists dt. split; [done|]. apply literal_ok_raw. eauto.
    + intros H. destruct (H f v) as (dt & -> & [raw' Hraw]%literal_ok_raw); [by left|].
      rewrite Hraw. simpl. eauto.
  - split.
    + intros [p' Hp] f lit Hin. apply rbind_ok in Hp as (ps' & Hps & _).
      apply rmap_ok in Hps. apply elem_of_concat_map in Hin as (q & Hq & Hin).
      rewrite Forall_forall in IH. apply (IH q Hq); [|done].
      apply elem_of_list_lookup in Hq as [i Hi].
      destruct (Forall2_lookup_l _ _ _ _ _ Hps Hi) as (q' & _ & ?). eauto.
    + intros H. assert (∃ ps', rmap (compile_predicate E ft) ps = Ok ps') as [ps' ->]; [|simpl; eauto].
      clear b. induction IH as [|q ps IHq _ IHps]; simpl; [eauto|].
      destruct (proj2 IHq) as [q' ->].
      { intros f lit Hin. apply H. simpl. apply elem_of_app. by left. }
      destruct IHps as [ps' ->].
      { intros f lit Hin. apply H. simpl. apply elem_of_app. by right. }
      simpl. eauto.
Qed.

(** ** Locality *)

Lemma eval_simple_local E ft f op raw r1 r2 :
  dr_get r1 f = dr_get r2 f → eval_simple E ft f op raw r1 = eval_simple E ft f op raw r2.
Proof. intros H. unfold eval_simple. by rewrite H. Qed.

Lemma compound_loop_ext ev1 ev2 bop n ps tc uc :
  Forall (λ p, ev1 p = ev2 p) ps →
  compound_loop ev1 bop n ps tc uc = compound_loop ev2 bop n ps tc uc.
Proof.
  intros H. revert tc uc. induction H as [|p ps Hp _ IH]; intros tc uc; simpl; [done|].
  rewrite Hp. destruct (ev2 p) as [v| |]; simpl; try done.
  destruct (_ && _); [done|]. destruct v; apply IH.
Qed.

Lemma eval_operand_local E ft r1 r2 p :
  (∀ f, f ∈ pred_fields p → dr_get r1 f = dr_get r2 f) →
  eval_operand E ft r1 p = eval_operand E ft r2 p.
Proof.
  induction p as [| |f op v raw|b ps IH|b f a|] using predicate_rect'; simpl; intros H; try done.
  - apply eval_simple_local, H. set_solver.
  - apply compound_loop_ext. rewrite Forall_forall in IH |- *. intros q Hq.
    apply IH; [done|]. intros f Hf. apply H. apply elem_of_concat_map. eauto.
Qed.

Lemma run_test_local E ft r1 r2 p :
  (∀ f, f ∈ pred_fields p → dr_get r1 f = dr_get r2 f) →
  run_test E ft p r1 = run_test E ft p r2.
Proof.
  intros H. pose proof (eval_operand_local E ft r1 r2 p H) as H'.
  destruct p; simpl in *; done.
Qed.

(** ** Property-level lemmas *)

Lemma of_bool_if b : of_bool b = if b then RT else RF.
Proof. done. Qed.

Lemma order_op_cases op : op ∈ order_ops →
  op = "lessThan" ∨ op = "lessOrEqual" ∨ op = "greaterThan" ∨ op = "greaterOrEqual".
Proof. unfold order_ops. set_solver. Qed.

Lemma simple_meaning_order E dt op lit v :
  op ∈ order_ops →
  simple_meaning E dt op lit (Some v) = of_bool (order_holds op (compare_literal E dt v lit)).
Proof. intros [-> |[-> |[-> | ->]]]%order_op_cases; done. Qed.

Lemma numeric_order E ft f op lit raw0 p r v dt x :
  compile_predicate E ft (PSimple f op lit raw0) = Ok p →
  ft !! f = Some dt → dt = "double" ∨ dt = "float" →
  ext_parse_float E lit = Some x → dr_get r f = Some v → op ∈ order_ops →
  run_test E ft p r = Ok (if order_holds op (SFcompare (val_float64 E v) x) then RT else RF).
Proof.
  intros Hc Hft Hdt Hx Hv Hop.
  destruct (compiled_simple_meaning _ _ _ _ _ _ _ r Hc) as (dt' & Hft' & ->).
  simplify_eq. rewrite Hv, simple_meaning_order by done.
  unfold compare_literal. destruct Hdt as [-> | ->]; simpl; by rewrite Hx.
Qed.

Lemma integer_order E ft f op lit raw0 p r v z :
  compile_predicate E ft (PSimple f op lit raw0) = Ok p →
  ft !! f = Some "integer" →
  integer_text lit z → dr_get r f = Some v → op ∈ order_ops →
  run_test E ft p r = Ok (if order_holds op (Some (val_int64 v ?= z)%Z) then RT else RF).
Proof.
  intros Hc Hft Hx%parse_int_text Hv Hop.
  destruct (compiled_simple_meaning _ _ _ _ _ _ _ r Hc) as (dt' & Hft' & ->).
  simplify_eq. rewrite Hv, simple_meaning_order by done.
  unfold compare_literal. simpl. by rewrite Hx.
Qed.

Lemma of_bool_not_u b : of_bool b ≠ RU.
Proof. by destruct b. Qed.

Lemma simple_meaning_unknown E dt op lit ov :
  simple_meaning E dt op lit ov = RU ↔ ov = None ∧ op ≠ "isMissing".
Proof.
  unfold simple_meaning. destruct ov as [v|].
  - split; [|naive_solver]. repeat case_str; try done; intros H; by apply of_bool_not_u in H.
  - case_str; naive_solver.
Qed.

Lemma simple_unknown_iff E ft f op lit raw0 p r :
  compile_predicate E ft (PSimple f op lit raw0) = Ok p →
  run_test E ft p r = Ok RU ↔ dr_get r f = None ∧ op ≠ "isMissing".
Proof.
  intros Hc. destruct (compiled_simple_meaning _ _ _ _ _ _ _ r Hc) as (dt & _ & ->).
  rewrite <-(simple_meaning_unknown E dt op lit). split; [by intros [= ->]|by intros ->].
Qed.

Lemma isMissing_iff E ft f lit raw0 p r :
  compile_predicate E ft (PSimple f "isMissing" lit raw0) = Ok p →
  run_test E ft p r = Ok (match dr_get r f with None => RT | Some _ => RF end).
Proof.
  intros Hc. destruct (compiled_simple_meaning _ _ _ _ _ _ _ r Hc) as (dt & _ & ->).
  unfold simple_meaning. destruct (dr_get r f) as [v|]; simpl; [|done].
  by destruct (compare_literal E dt v lit) as [[]|].
Qed.

Lemma isNotMissing_iff E ft f lit raw0 p r :
  compile_predicate E ft (PSimple f "isNotMissing" lit raw0) = Ok p →
  run_test E ft p r = Ok (match dr_get r f with None => RU | Some _ => RT end).
Proof.
  intros Hc. destruct (compiled_simple_meaning _ _ _ _ _ _ _ r Hc) as (dt & _ & ->).
  unfold simple_meaning. by destruct (dr_get r f).
Qed.

Definition neg3 (v : presult) : presult := match v with RT => RF | RF => RT | RU => RU end.

Lemma equal_notEqual E ft f lit raw1 raw2 p q r :
  compile_predicate E ft (PSimple f "equal" lit raw1) = Ok p →
  compile_predicate E ft (PSimple f "notEqual" lit raw2) = Ok q →
  ∃ v, run_test E ft p r = Ok v ∧ run_test E ft q r = Ok (neg3 v) ∧
       (v = RU ↔ dr_get r f = None).
Proof.
  intros Hp Hq.
  destruct (compiled_simple_meaning _ _ _ _ _ _ _ r Hp) as (dt & Hdt & ->).
  destruct (compiled_simple_meaning _ _ _ _ _ _ _ r Hq) as (dt' & Hdt' & ->). simplify_eq.
  eexists; split; [done|]. unfold simple_meaning.
  destruct (dr_get r f) as [v|]; simpl; [|naive_solver].
  by destruct (same_as_literal E dt v lit).
Qed.

(** The comparison of a numeric input with a numeric literal. *)
Lemma numeric_literal_compare E ft dt f op lit raw0 p :
  compile_predicate E ft (PSimple f op lit raw0) = Ok p →
  ft !! f = Some dt → dt ∈ ["double"; "float"; "integer"] →
  (∃ x, (dt = "double" ∨ dt = "float") ∧ ext_parse_float E lit = Some x) ∨
  (∃ z, dt = "integer" ∧ parse_int lit = Some z).
Proof.
  intros (dt' & raw & Hft & Hraw & ->)%compile_simple_inv Hft' Hdt. simplify_eq.
  apply get_raw_value_ok in Hraw. set_unfold. naive_solver.
Qed.

(** [not_nan]: the input is comparable with the literal of a numeric field. *)
Lemma splits E ft dt f lit raw1 raw2 op1 op2 p q r v :
  compile_predicate E ft (PSimple f op1 lit raw1) = Ok p →
  compile_predicate E ft (PSimple f op2 lit raw2) = Ok q →
  (op1 = "lessOrEqual" ∧ op2 = "greaterThan") ∨ (op1 = "lessThan" ∧ op2 = "greaterOrEqual") →
  ft !! f = Some dt → dt ∈ ["double"; "float"; "integer"] →
  dr_get r f = Some v →
  ((run_test E ft p r = Ok RT ∧ run_test E ft q r = Ok RF) ∨
   (run_test E ft p r = Ok RF ∧ run_test E ft q r = Ok RT)) ∨
  (dt ≠ "integer" ∧ (val_float64 E v = S754_nan ∨ ext_parse_float E lit = Some S754_nan) ∧
   run_test E ft p r = Ok RF ∧ run_test E ft q r = Ok RF).
Proof.
  intros Hp Hq Hops Hft Hdt Hv.
  destruct (compiled_simple_meaning _ _ _ _ _ _ _ r Hp) as (dt1 & Hdt1 & ->).
  destruct (compiled_simple_meaning _ _ _ _ _ _ _ r Hq) as (dt2 & Hdt2 & ->). simplify_eq.
  rewrite Hv.
  rewrite !simple_meaning_order by (unfold order_ops; set_solver).
  destruct (compare_literal E dt v lit) as [c|] eqn:Hcl.
  - left. destruct Hops as [[-> ->]|[-> ->]]; destruct c; simpl; naive_solver.
  - right. destruct (numeric_literal_compare _ _ _ _ _ _ _ _ Hp Hft Hdt)
      as [(x & Hdt' & Hx)|(z & -> & Hz)]; unfold compare_literal in Hcl.
    + assert (SFcompare (val_float64 E v) x = None) as Hn.
      { destruct Hdt' as [-> | ->]; simpl in Hcl; by rewrite Hx in Hcl. }
      apply SFcompare_none in Hn. rewrite Hx. naive_solver.
    + simpl in Hcl. by rewrite Hz in Hcl.
Qed.

Lemma set_always_false E ft b f a r :
  compile_predicate E ft (PSet b f a) = Ok (PSet b f a) ∧ run_test E ft (PSet b f a) r = Ok RF.
Proof. done. Qed.

(** Constants inside a compound predicate count as unknown. *)
Lemma compound_const_unknown E ft r b ps ps' :
  compile_predicate E ft (PCompound b ps) = Ok ps' →
  Forall no_const_operand ps →
  run_test E ft ps' r =
  Ok (tv_compound b ((λ q, match q with PTrue | PFalse | PNone => RU
                           | _ => pred_meaning E ft r q end) <$> ps)).
Proof.
  intros Hc Hn. simpl in Hc. apply rbind_ok in Hc as (qs & Hqs & [= <-]).
  apply rmap_ok in Hqs. simpl. unfold eval_compound.
  apply compound_loop_spec.
  induction Hqs as [|q q' ps ps' Hq _ IH]; [constructor|].
  apply Forall_cons in Hn as [Hnq Hn]. rewrite fmap_cons. constructor; [|by apply IH].
  pose proof (eval_operand_meaning E ft r q q' Hq) as H.
  destruct q; try (apply H; [simpl; tauto|done]); simpl in Hq; by simplify_eq/=.
Qed.
