(** Lemmas on the benchmark program (property C138). *)
From Coq Require Import Ascii.
From Verif Require Import Base Doc Pred Tree Model Lib ProofsWhole ProofsSim Xml Decode Perf SpecPerf.

Notation chars := list_ascii_of_string.
Lemma chars_app a b : chars (String.append a b) = chars a ++ chars b.
Proof.
  induction a as [|c a IH]; [done|]. change (String.append (String c a) b) with (String c (String.append a b)).
  simpl. by rewrite IH.
Qed.
Lemma chars_inj a b : chars a = chars b → a = b.
Proof. intros H. by rewrite <- (string_of_list_ascii_of_string a), H, string_of_list_ascii_of_string. Qed.
Lemma chars_of l : chars (string_of_list_ascii l) = l.
Proof. apply list_ascii_of_string_of_list_ascii. Qed.

(** ** path.Ext *)
Lemma ext_of_spec l : ∀ acc, ext_of acc l = "" ∨
  ∃ l1 l2, l = l1 ++ dot :: l2 ∧ chars (ext_of acc l) = dot :: rev l1 ++ chars acc.
Proof.
  induction l as [|c l IH]; intros acc; [by left|]. cbn [ext_of].
  destruct (decide (c = slash)); [by left|]. destruct (decide (c = dot)) as [->|].
  - right. exists [], l. done.
  - destruct (IH (String c acc)) as [H|(l1 & l2 & -> & H)]; [by left|right].
    exists (c :: l1), l2. split; [done|]. rewrite H. simpl. by rewrite <- app_assoc.
Qed.

Lemma ext_xml p : path_ext p = ".xml" ↔ ∃ q, p = String.append q ".xml".
Proof.
  unfold path_ext. split.
  - intros H. destruct (ext_of_spec (rev (chars p)) "") as [He|(l1 & l2 & Hr & He)]; [congruence|].
    rewrite H in He. simpl in He. injection He as He. rewrite app_nil_r in He.
    exists (string_of_list_ascii (rev l2)). apply chars_inj. rewrite chars_app, chars_of.
    rewrite <- (rev_involutive (chars p)), Hr, rev_app_distr. simpl. rewrite <- app_assoc. by rewrite <- He.
  - intros [q ->]. rewrite chars_app, rev_app_distr. simpl. done.
Qed.

(** ** path.Base *)
Lemma to_slash_prefix l : slash ∉ to_slash l ∧ (to_slash l = l ∨ ∃ l', l = to_slash l ++ slash :: l').
Proof.
  induction l as [|c l [IH1 IH2]]; [split; [apply not_elem_of_nil|by left]|]. cbn [to_slash].
  destruct (decide (c = slash)) as [->|Hc]; [split; [apply not_elem_of_nil|right; by exists l]|].
  split; [by apply not_elem_of_cons|]. destruct IH2 as [->|[l' H]]; [by left|right].
  exists l'. simpl. by rewrite <- H.
Qed.
Lemma to_slash_app l1 l2 : slash ∉ l1 → to_slash (l1 ++ slash :: l2) = l1.
Proof.
  induction l1 as [|c l1 IH]; simpl; [done|]. intros [Hc Hl]%not_elem_of_cons.
  rewrite decide_False by done. by rewrite IH.
Qed.
Lemma to_slash_all l : slash ∉ l → to_slash l = l.
Proof.
  induction l as [|c l IH]; simpl; [done|]. intros [Hc Hl]%not_elem_of_cons.
  rewrite decide_False by done. by rewrite IH.
Qed.

Lemma not_in_rev (c : ascii) l : c ∉ l → c ∉ rev l.
Proof. intros H Hc. apply H. by rewrite elem_of_list_In, in_rev, <- elem_of_list_In. Qed.

Lemma base_named p b : named p b → b ≠ "" → path_base p = b.
Proof.
  intros [Hb Hp] Hne. unfold path_base.
  assert (Hr : ∃ l', rev (chars p) = rev (chars b) ++ l' ∧ to_slash (rev (chars p)) = rev (chars b)).
  { destruct Hp as [->|[d ->]].
    - exists []. rewrite app_nil_r. split; [done|]. by apply to_slash_all, not_in_rev.
    - exists (slash :: rev (chars d)). rewrite chars_app, rev_app_distr. simpl. rewrite <- app_assoc.
      split; [done|]. by apply to_slash_app, not_in_rev. }
  destruct Hr as (l' & Hr & Ht).
  assert (Hd : drop_slashes (rev (chars p)) = rev (chars p)).
  { rewrite Hr. destruct (rev (chars b)) as [|c l] eqn:Hl; simpl.
    - exfalso. apply Hne, chars_inj. rewrite <- (rev_involutive (chars b)), Hl. done.
    - rewrite decide_False; [done|]. intros ->. apply Hb. rewrite <- (rev_involutive (chars b)), Hl.
      simpl. apply elem_of_app. right. by left. }
  destruct (chars p) as [|c l] eqn:Hcp.
  { exfalso. simpl in Ht. apply Hne, chars_inj. by rewrite <- (rev_involutive (chars b)), <- Ht. }
  rewrite Hd, Ht. destruct (rev (chars b)) as [|c' l''] eqn:Hl.
  - exfalso. apply Hne, chars_inj. rewrite <- (rev_involutive (chars b)), Hl. done.
  - rewrite <- Hl, rev_involutive. apply string_of_list_ascii_of_string.
Qed.

Lemma named_some p : ∃ b, named p b.
Proof.
  destruct (to_slash_prefix (rev (chars p))) as [Hn Hp].
  exists (string_of_list_ascii (rev (to_slash (rev (chars p))))). split.
  - rewrite chars_of. by apply not_in_rev.
  - destruct Hp as [Hp|[l' Hp]].
    + left. rewrite Hp, rev_involutive. by rewrite string_of_list_ascii_of_string.
    + right. exists (string_of_list_ascii (rev l')). apply chars_inj. rewrite chars_app, chars_of. simpl. rewrite chars_of.
      rewrite <- (rev_involutive (chars p)) at 1. rewrite Hp at 1. rewrite rev_app_distr. simpl. by rewrite <- app_assoc.
Qed.

Lemma xml_named p b : (∃ q, p = String.append q ".xml") → named p b → ∃ a, b = String.append a ".xml".
Proof.
  intros [q Hq] [Hb Hp]. destruct Hp as [<-|[d Hd]]; [by exists q|].
  assert (H : chars q ++ chars ".xml" = chars d ++ slash :: chars b).
  { rewrite <- chars_app, <- Hq, Hd, chars_app. done. }
  rewrite cons_middle, app_assoc in H. apply app_eq_inv in H as [(k & H1 & H2)|(k & H1 & H2)].
  - exists (string_of_list_ascii k). apply chars_inj. by rewrite chars_app, chars_of.
  - destruct k as [|x k _] using rev_ind; [exists ""; by apply chars_inj|]. exfalso.
    rewrite app_assoc in H1. apply app_inj_tail in H1 as [_ <-].
    assert (slash ∈ chars ".xml") as Hs. { rewrite H2. apply elem_of_app. left. apply elem_of_app. right. by left. }
    revert Hs. vm_compute. intros Hs. repeat (apply elem_of_cons in Hs as [Hs|Hs]; [done|]). by apply elem_of_nil in Hs.
Qed.

(** ** The names of the files *)
Lemma append_inj a b s : String.append a s = String.append b s → a = b.
Proof. intros H. apply chars_inj. apply (f_equal chars) in H. rewrite !chars_app in H. by apply app_inv_tail in H. Qed.

Lemma trim_append a s : s ≠ "" → trim_suffix (String.append a s) s = a.
Proof.
  intros Hs. induction a as [|c a IH].
  - change (String.append "" s) with s. destruct s as [|c s]; [done|]. cbn [trim_suffix]. by rewrite String.eqb_refl.
  - change (String.append (String c a) s) with (String c (String.append a s)). cbn [trim_suffix].
    destruct (String.eqb_spec (String c (String.append a s)) s) as [H|_].
    + exfalso. apply (f_equal (length ∘ chars)) in H. simpl in H. rewrite chars_app, app_length in H. lia.
    + by rewrite IH.
Qed.

Definition key (p : string) : string := trim_suffix (path_base p) (path_ext p).
Notation ends p := (∃ q, p = String.append q ".xml").

Lemma key_named p b : ends p → named p b → b = String.append (key p) ".xml".
Proof.
  intros Hp Hb. destruct (xml_named p b Hp Hb) as [a ->].
  unfold key. rewrite (proj2 (ext_xml p) Hp). rewrite (base_named p _ Hb).
  - by rewrite trim_append.
  - intros H. apply (f_equal (length ∘ chars)) in H. simpl in H. rewrite chars_app, app_length in H. simpl in H. lia.
Qed.

Lemma key_same p q : ends p → ends q → key p = key q ↔ same_name p q.
Proof.
  intros Hp Hq. split.
  - intros Hk. destruct (named_some p) as [b Hb], (named_some q) as [c Hc]. exists b. split; [done|].
    pose proof (key_named p b Hp Hb) as H1. pose proof (key_named q c Hq Hc) as H2. rewrite Hk, <- H2 in H1. by subst.
  - intros (b & Hb & Hc). pose proof (key_named p b Hp Hb) as H1. pose proof (key_named q b Hq Hc) as H2.
    rewrite H1 in H2. by apply append_inj in H2.
Qed.

(** ** Walk *)
Lemma last_named_snoc vs v f : last_named (vs ++ [v]) f ↔
  (xml_file v ∧ vi_path v = f) ∨ (last_named vs f ∧ (xml_file v → ¬ same_name (vi_path v) f)).
Proof.
  split.
  - intros (l1 & w & l2 & Heq & Hw & Hf & Hl). destruct l2 as [|x l2 _] using rev_ind.
    + apply app_inj_tail in Heq as [_ ->]. by left.
    + rewrite app_comm_cons, app_assoc in Heq. apply app_inj_tail in Heq as [-> ->]. right. split.
      * exists l1, w, l2. do 3 (split; [done|]). intros v' Hv'. apply Hl. apply elem_of_app. by left.
      * apply Hl. apply elem_of_app. right. by left.
  - intros [[Hv Hf]|[(l1 & w & l2 & -> & Hw & Hf & Hl) Hn]].
    + exists vs, v, []. do 3 (split; [done|]). by intros v' ?%elem_of_nil.
    + exists l1, w, (l2 ++ [v]). split; [by rewrite <- app_assoc|]. do 2 (split; [done|]).
      intros v' [Hv'|Hv']%elem_of_app; [by apply Hl|]. by apply elem_of_list_singleton in Hv' as ->.
Qed.

Lemma last_named_ends vs f : last_named vs f → ends f.
Proof. by intros (l1 & v & l2 & _ & [_ Hq] & <- & _). Qed.

Lemma walk_app vs ws m : walk (vs ++ ws) m = walk vs m ≫= walk ws.
Proof.
  revert m. induction vs as [|v vs IH]; intros m; [done|]. simpl. destruct (vi_failed v); [done|].
  destruct (vi_dir v); [done|]. by destruct (_ =s _).
Qed.

Lemma walk_failed vs : ∀ m, is_Some (walk vs m) ↔ Forall (λ v, vi_failed v = false) vs.
Proof.
  induction vs as [|v vs IH]; intros m; [by split; [constructor|eexists]|]. simpl. rewrite Forall_cons.
  destruct (vi_failed v). { split; [by intros []|by intros []]. }
  destruct (vi_dir v); [|destruct (_ =s _)]; rewrite IH; naive_solver.
Qed.

Lemma walk_found vs : ∀ m, walk vs ∅ = Some m → ∀ k f, m !! k = Some f ↔ last_named vs f ∧ key f = k.
Proof.
  induction vs as [|v vs IH] using rev_ind; intros m.
  { intros [= <-] k f. rewrite lookup_empty. split; [done|]. by intros [([] & ? & ? & ? & _) _]. }
  rewrite walk_app. destruct (walk vs ∅) as [m0|] eqn:H0; [|done]. simpl. specialize (IH m0 eq_refl).
  destruct (vi_failed v); [done|].
  assert (Hskip : ¬ xml_file v → Some m0 = Some m → ∀ k f, m !! k = Some f ↔ last_named (vs ++ [v]) f ∧ key f = k).
  { intros Hx [= ->] k f. rewrite IH, last_named_snoc. naive_solver. }
  destruct (vi_dir v) eqn:Hd; [apply Hskip; intros [? _]; congruence|].
  destruct (String.eqb_spec (path_ext (vi_path v)) ".xml") as [He|He].
  2: { apply Hskip. by intros [_ Hx%ext_xml]. }
  intros [= <-] k f. fold (key (vi_path v)). apply ext_xml in He as Hq.
  assert (Hx : xml_file v) by done. rewrite last_named_snoc.
  destruct (decide (key (vi_path v) = k)) as [<-|Hk].
  - rewrite lookup_insert. split.
    + intros [= <-]. split; [by left|done].
    + intros [[[_ <-]|[Hl Hn]] Hk]; [done|]. exfalso. apply Hn; [done|].
      apply key_same; [done|by eapply last_named_ends|done].
  - rewrite lookup_insert_ne, IH by done. split.
    + intros [Hl <-]. split; [|done]. right. split; [done|]. intros _ Hs. apply Hk.
      apply key_same; [done|by eapply last_named_ends|done].
    + intros [[[_ <-]|[Hl _]] Hk2]; [by destruct Hk|done].
Qed.

(** ** The rows *)
Lemma bench_row_random S k : random_row (su_rand S) k (bench_row S k).
Proof.
  eexists. split; [done|]. split.
  - intros f. rewrite !lookup_insert_is_Some', lookup_empty, is_Some_alt. rewrite !elem_of_cons, elem_of_nil. naive_solver.
  - intros i f. do 6 (destruct i as [|i]; [intros [= <-]; rewrite ?lookup_insert, 1?Nat.add_comm;
      repeat (rewrite lookup_insert_ne by done); rewrite ?lookup_insert; do 3 f_equal; lia|]). done.
Qed.

Lemma random_row_unique rand k r1 r2 : random_row rand k r1 → random_row rand k r2 → r1 = r2.
Proof.
  intros (m1 & -> & Hd1 & Hv1) (m2 & -> & Hd2 & Hv2). f_equal. apply map_eq. intros f.
  destruct (m1 !! f) as [v|] eqn:H1.
  - assert (Hf : is_Some (m1 !! f)) by eauto. apply Hd1, elem_of_list_lookup in Hf as [i Hi].
    rewrite (Hv1 _ _ Hi) in H1. by rewrite (Hv2 _ _ Hi).
  - destruct (m2 !! f) as [v|] eqn:H2; [|done]. exfalso.
    assert (Hf : is_Some (m2 !! f)) by eauto. apply Hd2, Hd1 in Hf as [? ?]. congruence.
Qed.

(** ** The loops *)
Section loops.
  Context (E : Ext) (U : unread) (S : surroundings).

  Lemma bench_loop_ok f tk dd td d e td' n : new_model E dd td d = (Ok e, td') → ∀ k calls,
    bench_loop E S f tk k (after E calls e) n = None ↔
    ∀ j, j < n → is_ok (evaluate E ((n - 1 - j) :: tk) e (bench_row S (6 * j + k))).1.1 = true.
  Proof.
    intros He. induction n as [|n IH]; intros k calls; [split; [lia|done]|].
    cbn [bench_loop].
    assert (Hh : (evaluate E (n :: tk) (after E calls e) (bench_row S k)).1 = (evaluate E (n :: tk) e (bench_row S k)).1)
      by by eapply history_independent.
    specialize (IH (6 + k) (calls ++ [(n :: tk, bench_row S k)])).
    unfold after in IH. rewrite foldl_app in IH. fold (after E calls e) in IH. cbn [foldl fst snd] in IH.
    destruct (evaluate E (n :: tk) (after E calls e) (bench_row S k)) as [[o r'] e']. cbn [fst snd] in *.
    split.
    - intros H j Hj. destruct j as [|j].
      + replace (Datatypes.S n - 1 - 0) with n by lia. change (6 * 0 + k) with k. rewrite <- Hh. simpl. by destruct o.
      + destruct o; [|done..]. replace (Datatypes.S n - 1 - Datatypes.S j) with (n - 1 - j) by lia.
        replace (6 * Datatypes.S j + k) with (6 * j + (6 + k)) by lia. apply IH; [done|lia].
    - intros H. pose proof (H 0 ltac:(lia)) as H0. replace (Datatypes.S n - 1 - 0) with n in H0 by lia.
      change (6 * 0 + k) with k in H0. rewrite <- Hh in H0. simpl in H0. destruct o; [|done..].
      apply IH. intros j Hj. replace (n - 1 - j) with (Datatypes.S n - 1 - Datatypes.S j) by lia.
      replace (6 * j + (6 + k)) with (6 * Datatypes.S j + k) by lia. apply H. lia.
  Qed.

  Lemma bench_file_ok n tk k f : bench_file E U S n tk k f = None ↔
    ∃ e, loads E U S f e ∧
      ∀ j, j < n → is_ok (evaluate E ((n - 1 - j) :: tk) e (bench_row S (6 * j + k))).1.1 = true.
  Proof.
    unfold bench_file, loads. destruct (su_open S f) eqn:Hopen.
    2: { split; [done|intros (e' & (Ho & x' & doc' & m' & ms' & td2 & Hx & Hd' & Hm' & Hn') & _); congruence]. }
    destruct (su_xml S f) as [x|] eqn:Hxml.
    2: { split; [done|intros (e' & (Ho & x' & doc' & m' & ms' & td2 & Hx & Hd' & Hm' & Hn') & _); congruence]. }
    simpl. destruct (decode E U x) as [doc|] eqn:Hd.
    2: { split; [done|intros (e' & (Ho & x' & doc' & m' & ms' & td2 & Hx & Hd' & Hm' & Hn') & _); congruence]. }
    destruct (pm_models doc) as [|m ms] eqn:Hm.
    { split; [done|intros (e' & (Ho & x' & doc' & m' & ms' & td2 & Hx & Hd' & Hm' & Hn') & _); congruence]. }
    destruct (new_model E (pm_dd doc) (pm_td doc) m) as [[e|y|y] td'] eqn:Hn; simpl.
    2-3: split; [done|intros (e' & (Ho & x' & doc' & m' & ms' & td2 & Hx & Hd' & Hm' & Hn') & _); congruence].
    pose proof (bench_loop_ok f tk _ _ _ _ _ n Hn k []) as Hl. change (after E [] e) with e in Hl. rewrite Hl. split.
    - intros H. exists e. split; [|done]. split; [done|]. by exists x, doc, m, ms, td'.
    - intros (e' & (_ & x' & doc' & m' & ms' & td2 & Hx' & Hd' & Hm' & Hn') & Hok). assert (e' = e) as -> by congruence. apply Hok.
  Qed.

  Lemma bench_files_ok n fs : ∀ i k, (bench_files E U S n i k fs).2 = None ↔
    ∀ j f, fs !! j = Some f → bench_file E U S n [i + j; 1] (6 * n * j + k) f = None.
  Proof.
    induction fs as [|f fs IH]; intros i k; [done|]. cbn [bench_files].
    destruct (bench_file E U S n [i; 1] k f) as [d|] eqn:Hf.
    { split; [done|]. intros H. specialize (H 0 f eq_refl). rewrite Nat.add_0_r, Nat.mul_0_r in H. simpl in H. congruence. }
    specialize (IH (1 + i) (6 * n + k)). destruct (bench_files E U S n (1 + i) (6 * n + k) fs) as [out d]. simpl in IH |- *.
    rewrite IH. split.
    - intros H [|j] g Hg; simpl in Hg; [injection Hg as <-|].
      + by rewrite Nat.add_0_r, Nat.mul_0_r.
      + specialize (H j g Hg). rewrite <- H. f_equal; [f_equal; lia|lia].
    - intros H j g Hg. specialize (H (Datatypes.S j) g Hg). rewrite <- H. f_equal; [f_equal; lia|lia].
  Qed.

  Lemma bench_files_out n fs : ∀ i k, ∃ l, fs = (bench_files E U S n i k fs).1 ++ l ∧
    ((bench_files E U S n i k fs).2 = None ↔ l = []).
  Proof.
    induction fs as [|f fs IH]; intros i k; [by exists []|]. cbn [bench_files].
    destruct (bench_file E U S n [i; 1] k f) as [d|]; [by exists (f :: fs)|].
    destruct (IH (1 + i) (6 * n + k)) as (l & Hl & Hd). exists l.
    destruct (bench_files E U S n (1 + i) (6 * n + k) fs) as [out d]. simpl in *. split; [by rewrite <- Hl|done].
  Qed.

  (** what comes after the file that ended the run does not matter *)
  Lemma bench_file_local S' n tk k f :
    su_rand S' = su_rand S → su_open S' f = su_open S f → su_xml S' f = su_xml S f →
    bench_file E U S' n tk k f = bench_file E U S n tk k f.
  Proof.
    intros Hr Ho Hx. unfold bench_file. rewrite Ho, Hx.
    assert (Hl : ∀ n k e, bench_loop E S' f tk k e n = bench_loop E S f tk k e n).
    { clear -Hr. intros n. induction n as [|n IH]; intros k e; [done|]. cbn [bench_loop].
      unfold bench_row. rewrite Hr. destruct (evaluate _ _ _ _) as [[[]?]?]; [|done..]. apply IH. }
    destruct (negb _); [done|]. destruct (x ← _; _); [|done]. destruct (pm_models _); [done|].
    destruct (new_model _ _ _ _).1; [apply Hl|done..].
  Qed.
  Lemma bench_files_stop n fs : ∀ i k out d, bench_files E U S n i k fs = (out, Some d) →
    ∃ g rest, fs = out ++ g :: rest ∧ ∀ S', su_rand S' = su_rand S →
      (∀ f, f ∈ g :: out → su_open S' f = su_open S f ∧ su_xml S' f = su_xml S f) →
      bench_files E U S' n i k fs = (out, Some d).
  Proof.
    induction fs as [|f fs IH]; intros i k out d; [done|]. cbn [bench_files].
    destruct (bench_file E U S n [i; 1] k f) as [d'|] eqn:Hf.
    - intros [= <- <-]. exists f, fs. split; [done|]. intros S' Hr Hag.
      destruct (Hag f ltac:(by left)). by rewrite (bench_file_local S'), Hf.
    - destruct (bench_files E U S n (1 + i) (6 * n + k) fs) as [out' d'] eqn:Hb. intros [= <- ->].
      destruct (IH _ _ _ _ Hb) as (g & rest & -> & Hst). exists g, rest. split; [done|]. intros S' Hr Hag.
      destruct (Hag f ltac:(right; by left)). rewrite (bench_file_local S'), Hf by done.
      rewrite (Hst S' Hr); [done|]. intros h Hh. apply Hag. set_solver.
  Qed.
End loops.
