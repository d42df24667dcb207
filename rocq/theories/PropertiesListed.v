(** Property C134: the order of declarations. *)
From Verif Require Import Base Strconv Value Doc Expr Pred Tree Regression Model Lib ProofsEval ProofsEquiv ProofsWhole ProofsSim ProofsVerify GoExt Samples
  PropertiesTree PropertiesEquiv SpecListed ProofsListed.

(** *** C134.  Mining fields, output fields and targets may be listed in any order. *)
Theorem C134_order : ∀ E dd td d1 d2 e1 td' calls1 calls2,
  reordered d1 d2 → new_model E dd td d1 = (Ok e1, td') →
  ∃ e2, new_model E dd td d2 = (Ok e2, td') ∧
    ∀ tk r, (evaluate E tk (after E calls1 e1) r).1 = (evaluate E tk (after E calls2 e2) r).1.
Proof.
  intros E dd td d1 d2 e1 td' calls1 calls2 Hd H1.
  destruct (reordered_stands_in E dd d1 d2 Hd _ _ _ H1) as (e2 & H2 & He). exists e2. split; [done|]. intros tk r.
  by rewrite (history_independent _ _ _ _ _ _ _ _ _ H1), (history_independent _ _ _ _ _ _ _ _ _ H2).
Qed.
Print Assumptions C134_order.

Lemma same_schema_sym s1 s2 : same_schema s1 s2 → same_schema s2 s1.
Proof.
  intros (Hp & Hn & Ho). split; [done|]. split; [by rewrite <- Hp|].
  intros f g Hf Hg. apply Ho; by rewrite Hp.
Qed.
Lemma reordered_sym d1 d2 : reordered d1 d2 → reordered d2 d1.
Proof.
  revert d2. induction d1 as [t|m|k|h segs IH] using doc_rect'; intros d2 Hr; inversion Hr as
    [fn st pen notrue lt s1 s2 v n Hs|fn norm lt s1 s2 ts o1 o2 v Hs Ho| |fn me lt s1 s2 o1 o2 t1 t2 v sg1 segs2 Hs Ho Ht Hsegs]; subst.
  - constructor. by apply same_schema_sym.
  - destruct Ho as [Hp Hn]. constructor; [done|]. split; [done|by rewrite <- Hp].
  - constructor.
  - destruct Ht as [Hp Hn]. constructor; [by apply same_schema_sym|done|split; [done|by rewrite <- Hp]|].
    clear -IH Hsegs. induction Hsegs as [|a b l1 l2 Hs _ IHl]; [constructor|].
    apply Forall_cons in IH as [IH1 IH]. constructor; [|by apply IHl].
    clear -IH1 Hs. induction Hs as [|a' b' la lb Hab _ IHa]; [constructor|].
    apply Forall_cons in IH1 as [H1 IH1]. constructor; [by apply H1|by apply IHa].
Qed.

Theorem C134_accepted : ∀ E dd td d1 d2, reordered d1 d2 →
  (∃ e td', new_model E dd td d1 = (Ok e, td')) ↔ (∃ e td', new_model E dd td d2 = (Ok e, td')).
Proof.
  intros E dd td d1 d2 H. split; intros (e & td' & Hn).
  - destruct (reordered_stands_in E dd d1 d2 H _ _ _ Hn) as (e2 & H2 & _). eauto.
  - destruct (reordered_stands_in E dd d2 d1 (reordered_sym _ _ H) _ _ _ Hn) as (e2 & H2 & _). eauto.
Qed.
Print Assumptions C134_accepted.

Lemma one_target_count l : length (filter (λ f, mf_usage f = "target") l) ≤ 1 → one_target l.
Proof.
  intros Hl f g Hf Hg Hu Hw.
  assert (Hf' : f ∈ filter (λ f, mf_usage f = "target") l) by by apply elem_of_list_filter.
  assert (Hg' : g ∈ filter (λ f, mf_usage f = "target") l) by by apply elem_of_list_filter.
  destruct (filter (λ f, mf_usage f = "target") l) as [|a [|b l']]; [by apply elem_of_nil in Hf'| |simpl in Hl; lia].
  apply elem_of_list_singleton in Hf' as ->. by apply elem_of_list_singleton in Hg' as ->.
Qed.

(** An ensemble with everything listed backwards. *)
Definition ordered_doc (s : list mining_field → list mining_field) (o : list output_field → list output_field)
    (t : list target → list target) : doc_model :=
  DMining (MiningHeader "regression" "sum" []
      (s [MiningField "area" "active" (Some "40") "" ""; MiningField "rooms" "active" (Some "2") "" ""; MF "price" "target"])
      (o [OF "price" "" ""; OF "rent" "" ""]) (t [Target "price" (Some (fl "2")) None; Target "rent" (Some (fl "0.5")) (Some (fl "1"))]) None)
    [seg (DTree price_tree)].
Example C134_example :
  reordered (ordered_doc id id id) (ordered_doc reverse reverse reverse) ∧
  dumped (run go_ext price_dd (ordered_doc id id id) (Some ∅)) =
    dumped (Some (Ok (Some {["price" := GF64 (fl "101"); "rent" := GF64 (fl "26.25")]}), None)) ∧
  dumped (run go_ext price_dd (ordered_doc reverse reverse reverse) (Some ∅)) =
  dumped (run go_ext price_dd (ordered_doc id id id) (Some ∅)).
Proof.
  split; [|by vm_compute]. unfold ordered_doc. constructor.
  - split; [symmetry; apply reverse_Permutation|]. split.
    + cbn. repeat constructor; set_solver.
    + apply one_target_count, Nat.leb_le. by vm_compute.
  - symmetry. apply reverse_Permutation.
  - split; [symmetry; apply reverse_Permutation|]. cbn. repeat constructor; set_solver.
  - constructor; [|constructor]. constructor; [|constructor]. constructor. split; [done|]. split.
    + cbn. repeat constructor; set_solver.
    + apply one_target_count, Nat.leb_le. by vm_compute.
Qed.

(** Verify reads the verification fields by column. *)
Lemma ver_step_prefixed f c ins outs : vf_column f = "data:" +:+ c →
  ver_maps_step (Ok (ins, outs)) f =
  match vf_precision f with
  | None => Ok (<[c := vf_field f]> ins, outs)
  | Some _ => Ok (ins, <[c := vf_field f]> outs)
  end.
Proof.
  intros Hc. unfold ver_maps_step. cbn [rbind].
  assert (String.prefix "data:" (vf_column f) = true) as -> by (apply prefix_data; by exists c). cbn [negb].
  by rewrite Hc, substring_data.
Qed.
Lemma ver_maps_perm l1 l2 acc : Permutation l1 l2 → NoDup (vf_column <$> l1) →
  (∀ f, f ∈ l1 → ∃ c, vf_column f = "data:" +:+ c) →
  (∃ x, acc = Ok x) → foldl ver_maps_step acc l1 = foldl ver_maps_step acc l2.
Proof.
  intros Hp. revert acc. induction Hp as [|x l1 l2 Hp IH|x y l|l1 l2 l3 H1 IH1 H2 IH2]; intros acc Hd Hc [[i o] ->].
  - done.
  - cbn [foldl]. rewrite fmap_cons in Hd. apply NoDup_cons in Hd as [_ Hd].
    apply IH; [done|intros f Hf; apply Hc; by right|].
    destruct (Hc x) as [c Hx]; [by left|]. rewrite (ver_step_prefixed _ _ _ _ Hx). destruct (vf_precision x); eauto.
  - cbn [foldl]. destruct (Hc x) as [cx Hx]; [by right; left|]. destruct (Hc y) as [cy Hy]; [by left|].
    rewrite !fmap_cons in Hd. apply NoDup_cons in Hd as [Hd _].
    assert (cx ≠ cy). { intros ->. apply Hd. rewrite Hx, Hy. left. }
    f_equal. rewrite (ver_step_prefixed _ _ _ _ Hx), (ver_step_prefixed _ _ _ _ Hy).
    destruct (vf_precision x) eqn:Px, (vf_precision y) eqn:Py;
      rewrite ?(ver_step_prefixed _ _ _ _ Hx), ?(ver_step_prefixed _ _ _ _ Hy), ?Px, ?Py; try done;
      by rewrite insert_commute.
  - rewrite IH1; [|done|done|eauto]. apply IH2; [by rewrite <- H1|intros f Hf; apply Hc; by rewrite H1|eauto].
Qed.

Theorem C134_verification : ∀ E tk e fields1 fields2 rows,
  Permutation fields1 fields2 → NoDup (vf_column <$> fields1) →
  (∀ f, f ∈ fields1 → ∃ c, vf_column f = "data:" +:+ c) →
  verify_model E tk e (Some (Verification fields1 rows)) = verify_model E tk e (Some (Verification fields2 rows)).
Proof.
  intros E tk e fields1 fields2 rows Hp Hd Hc. unfold verify_model, ver_maps. cbn [vr_fields vr_rows].
  rewrite (ver_maps_perm fields1 fields2); eauto.
Qed.
Print Assumptions C134_verification.

Example C134_verification_example :
  let fields := [VerField "area" "data:area" None; VerField "score" "data:expected" (Some (fl "1E-6"))] in
  let rows := [{["area" := "40"; "expected" := "50.5"]}] in
  NoDup (vf_column <$> fields) ∧
  (verify_model go_ext [] (built go_ext price_dd (DTree price_tree)) (Some (Verification fields rows))).1 = Ok tt ∧
  (verify_model go_ext [] (built go_ext price_dd (DTree price_tree)) (Some (Verification (reverse fields) rows))).1 = Ok tt.
Proof. split; [cbn; repeat constructor; set_solver|by vm_compute]. Qed.

(** ** Where it fails *)

(** The tables of a binary classification cannot be swapped: a table without predictors
    gets what the tables before it left over. *)
Theorem C134_tables_refuted : ∃ E dd m t1 t2 r e1 e2 td1 td2,
  let with_tables ts := RegrModel (rm_function m) (rm_norm m) (rm_lt m) (rm_schema m) ts (rm_output m) (rm_verification m) in
  rt_category t1 ≠ rt_category t2 ∧
  new_model E dd [] (DRegr (with_tables [t1; t2])) = (Ok e1, td1) ∧
  new_model E dd [] (DRegr (with_tables [t2; t1])) = (Ok e2, td2) ∧
  (evaluate E [] e1 r).1.1 ≠ (evaluate E [] e2 r).1.1.
Proof.
  exists go_ext, price_dd, logit_model, (RegrTable (fl "0.5") "yes" [Predictor "area" (fl "0.25") 1]), (RegrTable (fl "0") "no" []),
    (Some {["area" := GF64 (fl "2")]}).
  destruct (told_apart go_ext price_dd
    (DRegr (RegrModel "classification" "logit" [] [MF "area" "active"; MF "ok" "target"]
      [RegrTable (fl "0.5") "yes" [Predictor "area" (fl "0.25") 1]; RegrTable (fl "0") "no" []]
      [OF "p_yes" "probability" "yes"; OF "p_no" "probability" "no"] None))
    (DRegr (RegrModel "classification" "logit" [] [MF "area" "active"; MF "ok" "target"]
      [RegrTable (fl "0") "no" []; RegrTable (fl "0.5") "yes" [Predictor "area" (fl "0.25") 1]]
      [OF "p_yes" "probability" "yes"; OF "p_no" "probability" "no"] None))
    (Some {["area" := GF64 (fl "2")]})) as (e1 & e2 & td1 & td2 & H1 & H2 & H3); [done|done|by vm_compute|].
  exists e1, e2, td1, td2. split; [done|]. split; [exact H1|]. split; [exact H2|]. exact H3.
Qed.
Print Assumptions C134_tables_refuted.

(** A mining field listed twice: the later entry counts. *)
Theorem C134_twice_refuted : ∃ E dd h1 h2 segs r e1 e2 td1 td2,
  Permutation (mm_schema h1) (mm_schema h2) ∧
  h2 = MiningHeader (mm_function h1) (mm_method h1) (mm_lt h1) (mm_schema h2) (mm_output h1) (mm_targets h1) (mm_verification h1) ∧
  new_model E dd [] (DMining h1 segs) = (Ok e1, td1) ∧ new_model E dd [] (DMining h2 segs) = (Ok e2, td2) ∧
  (evaluate E [] e1 r).1.1 ≠ (evaluate E [] e2 r).1.1.
Proof.
  set (f v := MiningField "area" "active" (Some v) "" "").
  set (h s := MiningHeader "regression" "sum" [] s [OF "price" "" ""] [] None).
  exists go_ext, price_dd, (h [f "40"; f "80"]), (h [f "80"; f "40"]), [seg (DTree price_tree)], (Some ∅).
  destruct (told_apart go_ext price_dd (DMining (h [f "40"; f "80"]) [seg (DTree price_tree)])
    (DMining (h [f "80"; f "40"]) [seg (DTree price_tree)]) (Some ∅)) as (e1 & e2 & td1 & td2 & H); [by vm_compute..|].
  exists e1, e2, td1, td2. split; [apply perm_swap|]. split; [done|]. exact H.
Qed.
Print Assumptions C134_twice_refuted.
