(** Lemmas about Verify. *)
From Verif Require Import Base FloatLib Strconv Value Doc Expr Pred Tree Regression Model Api Lib
  ProofsConstruct ProofsRange ProofsEval ProofsDoc ProofsWhole ProofsSim ProofsHistory SpecVerify.

(** ** the verification table of an evaluator *)
Lemma evaluate_verification E tk e r : verification_of (evaluate E tk e r).2 = verification_of e.
Proof.
  destruct e as [t|h sm|x]; simpl; [| |done].
  - destruct (tree_evaluate E tk t r) as [[o r'] t'] eqn:H. simpl. unfold tree_evaluate in H.
    repeat case_match; by simplify_eq.
  - repeat case_match; done.
Qed.
Lemma after_verification E calls e : verification_of (after E calls e) = verification_of e.
Proof.
  unfold after. revert e. induction calls as [|c calls IH]; intros e; [done|]. simpl.
  rewrite IH. apply evaluate_verification.
Qed.
Lemma new_model_verification E dd td d e td' :
  new_model E dd td d = (Ok e, td') → verification_of e = doc_verification d.
Proof.
  destruct d as [t|h segs|m|k].
  - intros (te & -> & _ & H)%new_model_tree_inv. destruct H as (_ & _ & _ & _ & Hm & _). simpl. by rewrite Hm.
  - intros (sm & -> & _ & _)%new_model_mining_inv. simpl. unfold header_of. by destruct (_ =s _).
  - by intros [= <- <-].
  - done.
Qed.

(** ** columns *)
Lemma prefix_data s : String.prefix "data:" s = true ↔ ∃ c, s = "data:" +:+ c.
Proof.
  split.
  - intros H. exists (String.substring 5 (String.length s - 5) s).
    do 5 (destruct s as [|? s]; [done|]; cbn [String.prefix] in H; case_match; [|done]). subst. simpl.
    replace (String.length s - 0) with (String.length s) by lia.
    assert (∀ s, String.substring 0 (String.length s) s = s) as ->; [|done].
    clear. induction s as [|a s IH]; simpl; congruence.
  - intros [c ->]. simpl. by destruct c.
Qed.
Lemma substring_data c : String.substring 5 (String.length ("data:" +:+ c) - 5) ("data:" +:+ c) = c.
Proof.
  simpl. replace (String.length c - 0) with (String.length c) by lia.
  induction c as [|a s IH]; simpl; congruence.
Qed.
Lemma column_inj f c c' : column f c → column f c' → c = c'.
Proof. unfold column. intros -> H. by simplify_eq/=. Qed.

Lemma ver_maps_err l x : foldl ver_maps_step (Err x) l = Err x.
Proof. by induction l. Qed.

Lemma ver_maps_ok l :
  well_prefixed l →
  ∃ ins outs, ver_maps l = Ok (ins, outs) ∧
    (∀ c, is_Some (ins !! c) ↔ input_column l c) ∧ (∀ c fld, outs !! c = Some fld ↔ output_column l c fld).
Proof.
  unfold ver_maps. induction l as [|f l IH] using rev_ind; intros Hw.
  - exists ∅, ∅. split; [done|]. split.
    + intros c. rewrite lookup_empty. split; [by intros [? ?]|]. by intros (f & ?%elem_of_nil & _).
    + intros c fld. rewrite lookup_empty. split; [done|]. by intros (l1 & f & l2 & ? & _); destruct l1.
  - destruct IH as (ins & outs & Hm & Hi & Ho). { intros g Hg. apply Hw. set_solver. }
    destruct (Hw f) as [c Hc]; [set_solver|].
    rewrite foldl_app, Hm. cbn [foldl]. unfold ver_maps_step at 1. cbn [rbind].
    assert (String.prefix "data:" (vf_column f) = true) as -> by (apply prefix_data; by exists c). cbn [negb].
    unfold column in Hc. rewrite Hc, substring_data.
    destruct (vf_precision f) as [pr|] eqn:Hp.
    + exists ins, (<[c := vf_field f]> outs). split; [done|]. split.
      * intros c'. rewrite Hi. split; intros (g & Hg & Hgc & Hgp).
        -- exists g. set_solver.
        -- apply elem_of_app in Hg as [Hg| ->%elem_of_list_singleton]; [by exists g|congruence].
      * intros c' fld. destruct (decide (c = c')) as [<-|Hne].
        -- rewrite lookup_insert. split.
           ++ intros [= <-]. exists l, f, []. repeat split; [done|by rewrite Hp|]. by intros g ?%elem_of_nil.
           ++ intros (l1 & g & l2 & Heq & Hg & Hs & <- & Hl).
              destruct l2 as [|g' l2' IHl2] using rev_ind.
              { apply app_inj_tail in Heq as [_ ->]. done. }
              rewrite app_comm_cons, app_assoc in Heq. apply app_inj_tail in Heq as [_ ->].
              rewrite Hl in Hp; [done| |done]. set_solver.
        -- rewrite lookup_insert_ne, Ho by done. split.
           ++ intros (l1 & g & l2 & -> & Hg & Hs & <- & Hl). exists l1, g, (l2 ++ [f]).
              rewrite <- app_assoc. repeat split; try done. intros g' [?| ->%elem_of_list_singleton]%elem_of_app Hc'; [auto|].
              destruct Hne. by eapply column_inj.
           ++ intros (l1 & g & l2 & Heq & Hg & Hs & <- & Hl).
              destruct l2 as [|g' l2' IHl2] using rev_ind.
              { apply app_inj_tail in Heq as [_ <-]. destruct Hne. by eapply column_inj. }
              rewrite app_comm_cons, app_assoc in Heq. apply app_inj_tail in Heq as [-> ->].
              exists l1, g, l2'. repeat split; try done. intros g'' ? ?. apply Hl; [set_solver|done].
    + exists (<[c := vf_field f]> ins), outs. split; [done|]. split.
      * intros c'. rewrite lookup_insert_is_Some', Hi. split.
        -- intros [<-|(g & Hg & Hgc & Hgp)]; [exists f|exists g]; set_solver.
        -- intros (g & Hg & Hgc & Hgp). apply elem_of_app in Hg as [Hg| ->%elem_of_list_singleton].
           ++ right. by exists g.
           ++ left. by eapply column_inj.
      * intros c' fld. rewrite Ho. split.
        -- intros (l1 & g & l2 & -> & Hg & Hs & <- & Hl). exists l1, g, (l2 ++ [f]).
           rewrite <- app_assoc. repeat split; try done. intros g' [?| ->%elem_of_list_singleton]%elem_of_app Hc'; auto.
        -- intros (l1 & g & l2 & Heq & Hg & Hs & <- & Hl).
           destruct l2 as [|g' l2' IHl2] using rev_ind.
           { apply app_inj_tail in Heq as [_ <-]. rewrite Hp in Hs. by destruct Hs. }
           rewrite app_comm_cons, app_assoc in Heq. apply app_inj_tail in Heq as [-> ->].
           exists l1, g, l2'. repeat split; try done. intros g'' ? ?. apply Hl; [set_solver|done].
Qed.
Lemma ver_maps_bad l : ¬ well_prefixed l → ∃ f, f ∈ l ∧ ver_maps l = Err (EVerPrefix (vf_column f)).
Proof.
  unfold ver_maps. generalize (∅ : gmap string string) at 2. generalize (∅ : gmap string string).
  induction l as [|f l IH]; intros ins outs Hw.
  { destruct Hw. by intros f ?%elem_of_nil. }
  cbn [foldl]. unfold ver_maps_step at 2. cbn [rbind].
  destruct (String.prefix "data:" (vf_column f)) eqn:Hp; cbn [negb].
  - assert (¬ well_prefixed l) as Hw'.
    { intros H. apply Hw. intros g [->|?]%elem_of_cons; [by apply prefix_data|auto]. }
    destruct (vf_precision f).
    + edestruct IH as (g & Hg & ->); [done|]. exists g. split; [set_solver|done].
    + edestruct IH as (g & Hg & ->); [done|]. exists g. split; [set_solver|done].
  - rewrite ver_maps_err. exists f. split; [set_solver|done].
Qed.
Lemma well_prefixed_dec l : well_prefixed l ∨ ¬ well_prefixed l.
Proof.
  induction l as [|f l [IH|IH]].
  - left. by intros f ?%elem_of_nil.
  - destruct (String.prefix "data:" (vf_column f)) eqn:Hp.
    + left. intros g [->|?]%elem_of_cons; [by apply prefix_data|auto].
    + right. intros H. destruct (H f) as [c Hc]; [set_solver|].
      assert (String.prefix "data:" (vf_column f) = true) by (apply prefix_data; by exists c). congruence.
  - right. intros H. apply IH. intros g Hg. apply H. set_solver.
Qed.

(** ** the rows *)
Lemma ver_input_spec E tk l ins vrow :
  (∀ c, is_Some (ins !! c) ↔ input_column l c) → verification_input l vrow (ver_input E tk ins vrow).
Proof.
  intros Hi k v. rewrite ver_input_eq, map_lookup_imap. rewrite <- Hi. split.
  - intros H. destruct (vrow !! k) as [s|]; [|done]. simpl in H. destruct (ins !! k) eqn:Hk; [|done].
    injection H as <-. split; [done|]. by exists s.
  - intros ([x Hx] & s & -> & ->). simpl. by rewrite Hx.
Qed.
Lemma verification_input_fun l vrow m m' :
  verification_input l vrow m → verification_input l vrow m' → m = m'.
Proof.
  intros H H'. apply map_eq. intros k. apply option_eq. intros v. by rewrite (H k v), (H' k v).
Qed.

Lemma ver_check_spec E tk l outs output vrow :
  (∀ c fld, outs !! c = Some fld ↔ output_column l c fld) →
  foldl (ver_check_step E outs output) (Ok tt) (map_range E tk vrow) = Ok tt ↔ row_checks E within l vrow output.
Proof.
  intros Ho. rewrite ver_check_range. unfold row_checks, ver_entry_ok.
  split; intros H k s.
  - intros fld Hk Hf. by apply (H k s Hk), Ho.
  - intros Hk fld Hf. apply (H k s fld Hk). by apply Ho.
Qed.

Section Rows.
  Context (E : Ext) (dd : list data_field) (td : list derived_field) (d : doc_model) (e : emodel) (td' : list derived_field).
  Context (Hn : new_model E dd td d = (Ok e, td')).
  Context (tk : ticket) (l : list ver_field) (ins outs : gmap string string).
  Context (Hi : ∀ c, is_Some (ins !! c) ↔ input_column l c) (Ho : ∀ c fld, outs !! c = Some fld ↔ output_column l c fld).

  Definition row_passes (ok : f64 → f64 → Prop) (i : nat) (vrow : gmap string string) : Prop :=
    ∃ m out r', verification_input l vrow m ∧
      (evaluate E (2 :: i :: tk) e (Some m)).1 = (Ok out, r') ∧ row_checks E ok l vrow out.

  Lemma ver_rows_iff i rows calls :
    (ver_rows E tk ins outs i rows (after E calls e)).1 = Ok tt ↔
    ∀ j vrow, rows !! j = Some vrow → row_passes within (i + j) vrow.
  Proof using Hn Hi Ho.
    revert i calls. induction rows as [|v rows IH]; intros i calls; [done|]. cbn [ver_rows].
    pose proof (history_independent E dd td d e td' calls (2 :: i :: tk) (Some (ver_input E (0 :: i :: tk) ins v)) Hn) as Hh.
    pose proof (ver_input_spec E (0 :: i :: tk) l ins v Hi) as Hin.
    set (m := ver_input E (0 :: i :: tk) ins v) in *.
    destruct (evaluate E (2 :: i :: tk) (after E calls e) (Some m)) as [[o r'] e'] eqn:He. simpl in Hh.
    assert (e' = after E (calls ++ [(2 :: i :: tk, Some m)]) e) as Hafter.
    { rewrite after_app. unfold after at 1. simpl. by rewrite He. }
    assert (row_passes within i v → ∃ out, o = Ok out ∧ row_checks E within l v out) as Hrow.
    { intros (m' & out & r2 & Hm' & He2 & Hc). rewrite (verification_input_fun _ _ _ _ Hm' Hin) in He2.
      rewrite <- Hh in He2. injection He2 as -> _. by exists out. }
    destruct o as [out|x|p].
    - destruct (foldl (ver_check_step E outs out) (Ok tt) (map_range E (1 :: i :: tk) v)) as [[]|x|p] eqn:Hck.
      + apply (ver_check_spec E _ l outs out v Ho) in Hck. rewrite Hafter, IH. split.
        * intros H [|j] vrow Hj; simpl in Hj.
          -- simplify_eq. rewrite Nat.add_0_r. exists m, out, r'. done.
          -- replace (i + S j) with (S i + j) by lia. by apply H.
        * intros H j vrow Hj. replace (S i + j) with (i + S j) by lia. by apply (H (S j)).
      + simpl. split; [done|]. intros H. specialize (H 0 v eq_refl). rewrite Nat.add_0_r in H.
        destruct (Hrow H) as (out' & [= <-] & Hc).
        apply (ver_check_spec E (1 :: i :: tk) l outs out v Ho) in Hc. congruence.
      + by apply ver_check_no_panic in Hck.
    - simpl. split; [done|]. intros H. specialize (H 0 v eq_refl). rewrite Nat.add_0_r in H.
      by destruct (Hrow H) as (out' & ? & _).
    - simpl. split; [done|]. intros H. specialize (H 0 v eq_refl). rewrite Nat.add_0_r in H.
      by destruct (Hrow H) as (out' & ? & _).
  Qed.
End Rows.

Lemma verify_iff E dd td d e td' calls tk :
  new_model E dd td d = (Ok e, td') →
  (model_verify E tk (after E calls e)).1 = Ok tt ↔
  match doc_verification d with
  | None => True
  | Some v => well_prefixed (vr_fields v) ∧
      ∀ i vrow, vr_rows v !! i = Some vrow → row_passes E e tk (vr_fields v) within i vrow
  end.
Proof.
  intros Hn. unfold model_verify, verify_model. rewrite after_verification, (new_model_verification _ _ _ _ _ _ Hn).
  destruct (doc_verification d) as [v|]; [|done]. destruct (well_prefixed_dec (vr_fields v)) as [Hw|Hw].
  - destruct (ver_maps_ok _ Hw) as (ins & outs & -> & Hi & Ho). rewrite (ver_rows_iff E dd td d e td' Hn tk (vr_fields v)) by done.
    simpl. naive_solver.
  - destruct (ver_maps_bad _ Hw) as (f & _ & ->). simpl. naive_solver.
Qed.

(** ** floats *)
Lemma within_nan x : within x S754_nan.
Proof.
  unfold within. assert (fsub x S754_nan = S754_nan) as -> by (by destruct x).
  by destruct (fmul f1em5 x) as [[]|[]| |[] ? ?].
Qed.

Lemma fltb_nan x : fltb x S754_nan = false.
Proof. by destruct x as [[]|[]| |[] ? ?]. Qed.

Lemma within_self x : not_negative x → within x x.
Proof.
  unfold not_negative, within. intros H.
  assert (x = S754_nan ∨ x ≠ S754_nan) as [->|Hnan] by (destruct x; auto); [done|].
  assert (x = S754_infinity false ∨ ∀ s, x ≠ S754_infinity s) as [->|Hinf]; [|done|].
  { destruct x as [s|s| |s m e]; try (by right). left. by destruct s. }
  destruct (fsub_self x Hnan Hinf) as [s ->]. simpl.
  destruct x as [s'|s'| |s' m e]; [by destruct s'|by destruct (Hinf s')|done|].
  destruct s'; [done|].
  assert (signed false (fmul f1em5 (S754_finite false m e))) as Hs by (apply fmul_pos_signed; right; right; eauto).
  by apply not_lt_zero_signed.
Qed.

(** a negative tolerance accepts nothing but NaN *)
Lemma within_negative x p :
  clearly_negative x → within x p → p = S754_nan ∨ x = S754_infinity true ∧ p = S754_infinity true.
Proof.
  unfold clearly_negative, within. intros Hx Hp.
  assert (fsub x p = S754_nan) as Hs.
  { destruct (fsub x p) as [s|s| |s m e]; [| |done|];
      destruct (fmul f1em5 x) as [[]|[]| |[] ? ?]; simpl in *; done. }
  apply fsub_nan in Hs as [-> |[-> |(s & -> & ->)]]; [done|by left|]. right. by destruct s.
Qed.

(** ** panics *)
Lemma verify_panics E dd td d e td' calls tk p :
  new_model E dd td d = (Ok e, td') → (model_verify E tk (after E calls e)).1 = Panic p →
  ∃ v i vrow m, doc_verification d = Some v ∧ vr_rows v !! i = Some vrow ∧
    verification_input (vr_fields v) vrow m ∧ (evaluate E (2 :: i :: tk) e (Some m)).1.1 = Panic p.
Proof.
  intros Hn. unfold model_verify, verify_model. rewrite after_verification, (new_model_verification _ _ _ _ _ _ Hn).
  destruct (doc_verification d) as [v|]; [|done]. destruct (well_prefixed_dec (vr_fields v)) as [Hw|Hw].
  2:{ destruct (ver_maps_bad _ Hw) as (f & _ & ->). done. }
  destruct (ver_maps_ok _ Hw) as (ins & outs & -> & Hi & _). intros H. exists v.
  assert (∀ rows calls i, (ver_rows E tk ins outs i rows (after E calls e)).1 = Panic p →
    ∃ j vrow m, rows !! j = Some vrow ∧ verification_input (vr_fields v) vrow m ∧
    (evaluate E (2 :: (i + j) :: tk) e (Some m)).1.1 = Panic p) as Hgen.
  2:{ destruct (Hgen _ _ _ H) as (j & vrow & m & ? & ? & ?). by exists j, vrow, m. }
  clear H. intros rows. induction rows as [|w rows IH]; intros calls' i; [done|]. clear calls. rename calls' into calls.
  cbn [ver_rows].
  pose proof (history_independent E dd td d e td' calls (2 :: i :: tk) (Some (ver_input E (0 :: i :: tk) ins w)) Hn) as Hh.
  pose proof (ver_input_spec E (0 :: i :: tk) (vr_fields v) ins w Hi) as Hin.
  set (m := ver_input E (0 :: i :: tk) ins w) in *.
  destruct (evaluate E (2 :: i :: tk) (after E calls e) (Some m)) as [[o r'] e'] eqn:He. simpl in Hh.
  assert (e' = after E (calls ++ [(2 :: i :: tk, Some m)]) e) as ->.
  { rewrite after_app. unfold after at 1. simpl. by rewrite He. }
  destruct o as [out|x|q]; [|done|].
  - destruct (foldl _ _ _) as [u|x|q] eqn:Hck; [|done|by apply ver_check_no_panic in Hck].
    intros H. destruct (IH _ _ H) as (j & vrow & m' & Hj & Hm & Hp). exists (S j), vrow, m'.
    split; [done|]. split; [done|]. by replace (i + S j) with (S i + j) by lia.
  - intros [= ->]. exists 0, w, m. split; [done|]. split; [done|]. rewrite Nat.add_0_r. by rewrite <- Hh.
Qed.
