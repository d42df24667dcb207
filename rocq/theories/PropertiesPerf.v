(** Property C138: the benchmark program. *)
From Coq Require Import Ascii.
From Verif Require Import Base Strconv Value Doc Expr Pred Tree Regression Model Lib GoExt Samples
  Xml Decode SpecDecode PropertiesDecode Perf SpecPerf ProofsPerf.

Lemma map_seconds E files f vs : walk vs ∅ = Some files →
  f ∈ (map_range E [0] files).*2 ↔ last_named vs f.
Proof.
  intros Hw. rewrite elem_of_list_fmap. split.
  - intros ([k g] & -> & Hin). apply map_range_elem in Hin. by apply (walk_found _ _ Hw) in Hin as [? _].
  - intros Hl. exists (key f, f). split; [done|]. apply map_range_elem. by apply (walk_found _ _ Hw).
Qed.
Lemma map_seconds_nodup E files vs : walk vs ∅ = Some files → NoDup (map_range E [0] files).*2.
Proof.
  intros Hw. assert (Hk : Forall (λ x, key x.2 = x.1) (map_range E [0] files)).
  { apply Forall_forall. intros [k f] Hin. apply map_range_elem in Hin. by apply (walk_found _ _ Hw) in Hin as [_ ?]. }
  pose proof (map_range_nodup E [0] files) as Hn. revert Hk Hn. generalize (map_range E [0] files).
  intros l. induction 1 as [|[k f] l Hk Hl IH]; intros Hn; [constructor|]. simpl in *.
  apply NoDup_cons in Hn as [Hn1 Hn2]. constructor; [|by apply IH]. intros Hf. apply Hn1.
  apply elem_of_list_fmap in Hf as ([k' f'] & -> & Hin). apply elem_of_list_fmap. exists (k', f'). split; [|done].
  rewrite Forall_forall in Hl. specialize (Hl _ Hin). simpl in *. congruence.
Qed.

(** *** C138.  If the program runs to its end, it has measured, each once, the files ending
    in .xml, the last one if several have the same name. *)
Theorem C138_measures : ∀ E U S n out,
  bench E U S n = (out, None) → NoDup out ∧ ∀ f, f ∈ out ↔ last_named (su_walk S) f.
Proof.
  intros E U S n out. unfold bench. destruct (negb _); [done|]. destruct (walk _ _) as [files|] eqn:Hw; [|done].
  intros Hb. destruct (bench_files_out E U S n (map_range E [0] files).*2 0 0) as (l & Hl & Hn).
  rewrite Hb in Hl, Hn. simpl in *. rewrite (proj1 Hn eq_refl), app_nil_r in Hl. rewrite <- Hl. split.
  - by eapply map_seconds_nodup.
  - intros f. by apply map_seconds.
Qed.
Print Assumptions C138_measures.

(** So files of different names are all measured. *)
Theorem C138_every_file : ∀ E U S n out,
  bench E U S n = (out, None) →
  (∀ i j v w, su_walk S !! i = Some v → su_walk S !! j = Some w → xml_file v → xml_file w →
     same_name (vi_path v) (vi_path w) → i = j) →
  ∀ f, f ∈ out ↔ ∃ v, v ∈ su_walk S ∧ xml_file v ∧ vi_path v = f.
Proof.
  intros E U S n out Hb Hd f. rewrite (proj2 (C138_measures _ _ _ _ _ Hb)). split.
  - intros (l1 & v & l2 & Hw & Hx & Hf & _). exists v. rewrite Hw. split; [|done]. apply elem_of_app. right. by left.
  - intros (v & Hin & Hx & Hf). apply elem_of_list_lookup in Hin as [i Hi].
    destruct (elem_of_list_split_length _ _ _ Hi) as (l1 & l2 & Hw & Hlen).
    exists l1, v, l2. do 3 (split; [done|]). intros v' Hv' Hx' Hs.
    apply elem_of_list_lookup in Hv' as [j Hj].
    enough (1 + i + j = i) by lia. apply (Hd _ _ v' v); [|done..|by subst].
    rewrite Hw, lookup_app_r by lia. replace (1 + i + j - length l1) with (Datatypes.S j) by lia. done.
Qed.
Print Assumptions C138_every_file.

(** Of the files of one name no more than one is, even if the program does not reach its end. *)
Theorem C138_one_per_name : ∀ E U S n f g,
  f ∈ (bench E U S n).1 → g ∈ (bench E U S n).1 → same_name f g → f = g.
Proof.
  intros E U S n f g. unfold bench. destruct (negb _); [by intros ?%elem_of_nil|].
  destruct (walk _ _) as [files|] eqn:Hw; [|by intros ?%elem_of_nil].
  destruct (bench_files_out E U S n (map_range E [0] files).*2 0 0) as (l & Hl & _).
  intros Hf Hg Hs.
  assert (Hin : ∀ h, h ∈ (bench_files E U S n 0 0 (map_range E [0] files).*2).1 → files !! key h = Some h).
  { intros h Hh. apply (walk_found _ _ Hw). split; [|done]. eapply map_seconds; [exact Hw|].
    rewrite Hl. apply elem_of_app. by left. }
  apply Hin in Hf, Hg. pose proof (walk_found _ _ Hw) as Hwf.
  apply Hwf in Hf as Hf'. apply Hwf in Hg as Hg'. destruct Hf' as [Hf' _], Hg' as [Hg' _].
  apply key_same in Hs; [|by eapply last_named_ends..]. congruence.
Qed.
Print Assumptions C138_one_per_name.

(** It runs to its end if every such file can be read, has a first model that NewModel takes,
    and this model accepts every row of random numbers. *)
Theorem C138_finishes : ∀ E U S n,
  su_profile S = true → Forall (λ v, vi_failed v = false) (su_walk S) →
  (∀ f, last_named (su_walk S) f → ∃ e, loads E U S f e ∧
     ∀ tk k r, random_row (su_rand S) k r → is_ok (evaluate E tk e r).1.1 = true) →
  (bench E U S n).2 = None.
Proof.
  intros E U S n Hp Hv Hf. unfold bench. rewrite Hp. simpl.
  destruct (walk _ _) as [files|] eqn:Hw.
  2: { apply (walk_failed _ ∅) in Hv as [m Hm]. congruence. }
  apply bench_files_ok. intros j f Hj. apply bench_file_ok.
  destruct (Hf f) as (e & He & Hok). { eapply map_seconds; [exact Hw|]. by eapply elem_of_list_lookup_2. }
  exists e. split; [done|]. intros. by eapply Hok, bench_row_random.
Qed.
Print Assumptions C138_finishes.

(** If it does, then every measured file was one of these, and each row, of six numbers not
    used before, was answered as by an evaluator that has just been built. *)
Theorem C138_finished : ∀ E U S n out,
  bench E U S n = (out, None) →
  su_profile S = true ∧ Forall (λ v, vi_failed v = false) (su_walk S) ∧
  ∀ i f, out !! i = Some f → ∃ e, loads E U S f e ∧
    ∀ j r, j < n → random_row (su_rand S) (6 * (n * i + j)) r →
      is_ok (evaluate E [n - 1 - j; i; 1] e r).1.1 = true.
Proof.
  intros E U S n out. unfold bench. destruct (su_profile S); [|done]. simpl.
  destruct (walk _ _) as [files|] eqn:Hw; [|done]. intros Hb. split; [done|].
  split; [apply (walk_failed _ ∅); by rewrite Hw|].
  destruct (bench_files_out E U S n (map_range E [0] files).*2 0 0) as (l & Hl & Hn).
  pose proof (proj1 (bench_files_ok E U S n (map_range E [0] files).*2 0 0)) as Hok.
  rewrite Hb in Hl, Hn, Hok. simpl in Hl, Hn, Hok. rewrite (proj1 Hn eq_refl), app_nil_r in Hl. rewrite Hl in Hok.
  intros i f Hi. specialize (Hok eq_refl i f Hi). apply bench_file_ok in Hok as (e & He & Hr).
  exists e. split; [done|]. intros j r Hj Hrow. specialize (Hr j Hj).
  rewrite (random_row_unique _ _ _ _ Hrow (bench_row_random S _)). rewrite <- Hr. do 5 f_equal. lia.
Qed.
Print Assumptions C138_finished.

(** If it does not, one of the files ended the run: it was not measured, and what is in the
    files that had not been measured by then is of no importance. *)
Theorem C138_stops : ∀ E U S n out d,
  bench E U S n = (out, Some d) → su_profile S = true → Forall (λ v, vi_failed v = false) (su_walk S) →
  NoDup out ∧ (∀ f, f ∈ out → last_named (su_walk S) f) ∧
  ∃ f, last_named (su_walk S) f ∧ f ∉ out ∧
    ∀ S', su_profile S' = true → su_walk S' = su_walk S → su_rand S' = su_rand S →
      (∀ g, g ∈ f :: out → su_open S' g = su_open S g ∧ su_xml S' g = su_xml S g) →
      bench E U S' n = (out, Some d).
Proof.
  intros E U S n out d Hb Hp Hv. revert Hb. unfold bench. rewrite Hp. simpl.
  destruct (walk _ _) as [files|] eqn:Hw.
  2: { apply (walk_failed _ ∅) in Hv as [m Hm]. congruence. }
  intros Hb. destruct (bench_files_stop E U S n _ 0 0 _ _ Hb) as (f & l & Hl & Hst).
  pose proof (map_seconds_nodup E _ _ Hw) as Hnd.
  assert (Hin : ∀ f, f ∈ (map_range E [0] files).*2 → last_named (su_walk S) f).
  { intros g Hg. by eapply map_seconds. }
  rewrite Hl in Hnd, Hin. apply NoDup_app in Hnd as (Hnd & Hdis & _). split; [done|]. split.
  - intros g Hg. apply Hin, elem_of_app. by left.
  - exists f. split; [apply Hin, elem_of_app; right; by left|].
    split; [intros Hf; apply (Hdis f Hf); by left|].
    intros S' Hp' Hw' Hr Hag. rewrite Hp', Hw'. simpl. rewrite Hw. by apply Hst.
Qed.
Print Assumptions C138_stops.

(** Two directories with a model of the same name, and a text beside them. *)
Definition fraud (f : string) : xml :=
  wr_pmml print_sample "4.3" [DataField f "double" []; DataField "fraud" "double" []] []
    [DTree (TreeModel "regression" "none" fone "returnLastPrediction" [] [MF f "active"] None
       (MNode "1" "" "1" (fl "1") [] [MNode "2" "" "0" (fl "1") [] [] (SP f "lessThan" "0.5")] PTrue))].
Definition slope (f : string) : xml :=
  wr_pmml print_sample "4.3" [DataField f "double" []; DataField "fraud" "double" []] []
    [DRegr (RegrModel "regression" "softmax" [] [MF f "active"] [RegrTable (fl "10") "" [Predictor f (fl "2") 1]]
       [OutputField "fraud" "" ""] None)].
Definition folder (third : xml) : surroundings := {|
  su_profile := true;
  su_walk := [Visit "perf" false true; Visit "perf/a" false true; Visit "perf/a/fraud_0.3.xml" false false;
              Visit "perf/b" false true; Visit "perf/b/fraud_0.3.xml" false false;
              Visit "perf/notes.txt" false false; Visit "perf/slope.xml" false false; Visit "perf/xml" false false];
  su_open := λ _, true;
  su_xml := λ f, if f =s "perf/slope.xml" then Some third else Some (fraud "amount");
  su_rand := λ k, if Nat.odd k then fl "0.25" else fl "0.75" |}.
Example C138_example :
  let r := bench go_ext (λ _ _, true) (folder (slope "amount")) 3 in
  r.2 = None ∧ r.1 ≡ₚ ["perf/b/fraud_0.3.xml"; "perf/slope.xml"] ∧
  (∃ x, (bench go_ext (λ _ _, true) (folder (slope "age")) 3).2 = Some (DEvaluate "perf/slope.xml" x)) ∧
  (bench go_ext (λ _ _, true) (folder (wr_pmml print_sample "4.3" [] [] [])) 3).2 = Some (DNoModel "perf/slope.xml").
Proof.
  split; [by vm_compute|]. split; [by vm_compute|]. split; [|by vm_compute].
  exists (EMissingTerm "age"). by vm_compute.
Qed.
