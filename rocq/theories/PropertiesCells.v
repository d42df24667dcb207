(** Property C116: a prediction changes only where a split is crossed. *)
From Verif Require Import Base Strconv Value Doc Expr Pred Tree Regression Model Lib GoExt Samples
  SpecExpr SpecConstruct ProofsWhole ProofsSim SpecCells ProofsCells.

(** *** C116: rows on the same sides of all splits get the same prediction *)

Theorem C116_cells : ∀ E dd td d e td' calls1 calls2 tk m1 m2,
  new_model E dd td d = (Ok e, td') → same_cell E dd td d m1 m2 →
  (evaluate E tk (after E calls1 e) (Some m1)).1.1 = (evaluate E tk (after E calls2 e) (Some m2)).1.1.
Proof.
  intros. rewrite !(history_independent _ _ _ _ _ _ _ _ _ H). by eapply same_cell_run.
Qed.
Print Assumptions C116_cells.

(** The rest of the row is left the same, too. *)
Theorem C116_row : ∀ E dd td d e td' calls1 calls2 tk m1 m2 f,
  new_model E dd td d = (Ok e, td') → same_cell E dd td d m1 m2 → m1 !! f = m2 !! f →
  dr_get (evaluate E tk (after E calls1 e) (Some m1)).1.2 f = dr_get (evaluate E tk (after E calls2 e) (Some m2)).1.2 f.
Proof.
  intros ??????????? f H Hm Hf. rewrite !(history_independent _ _ _ _ _ _ _ _ _ H). by eapply same_cell_run.
Qed.
Print Assumptions C116_row.

(** Moving one number without meeting a split changes nothing. *)
Theorem C116_between : ∀ E dd td d e td' calls1 calls2 tk m f dt x y,
  new_model E dd td d = (Ok e, td') → field_types dd td !! f = Some dt → dt ∈ ["double"; "float"] →
  f ∉ computed_from d → f ∉ map df_name (doc_locals d) → fltb x y = true →
  (∀ s c, s ∈ literals f d → ext_parse_float E s = Some c → ¬ (fleb x c = true ∧ fleb c y = true)) →
  (evaluate E tk (after E calls1 e) (Some (<[f := GF64 x]> m))).1.1 =
  (evaluate E tk (after E calls2 e) (Some (<[f := GF64 y]> m))).1.1.
Proof.
  intros E dd td d e td' calls1 calls2 tk m f dt x y Hn Hf Hdt H1 H2 Hxy Hl. eapply C116_cells; [done|].
  intros g. destruct (decide (f = g)) as [<-|Hg]; [|by rewrite !lookup_insert_ne by done; left].
  right. rewrite !lookup_insert. do 2 eexists. split; [done|]. split; [done|]. split; [done|]. split; [done|].
  exists dt. split; [done|]. by apply between_side.
Qed.
Print Assumptions C116_between.

(** Nor does moving one whole number. *)
Theorem C116_between_integers : ∀ E dd td d e td' calls1 calls2 tk m f x y,
  new_model E dd td d = (Ok e, td') → field_types dd td !! f = Some "integer" →
  f ∉ computed_from d → f ∉ map df_name (doc_locals d) → (- 2 ^ 63 ≤ x)%Z → (x < y)%Z → (y < 2 ^ 63)%Z →
  (∀ s c, s ∈ literals f d → parse_int s = Some c → ¬ (x ≤ c ≤ y)%Z) →
  (evaluate E tk (after E calls1 e) (Some (<[f := GInt KInt64 x]> m))).1.1 =
  (evaluate E tk (after E calls2 e) (Some (<[f := GInt KInt64 y]> m))).1.1.
Proof.
  intros E dd td d e td' calls1 calls2 tk m f x y Hn Hf H1 H2 Hx Hxy Hy Hl. eapply C116_cells; [done|].
  intros g. destruct (decide (f = g)) as [<-|Hg]; [|by rewrite !lookup_insert_ne by done; left].
  right. rewrite !lookup_insert. do 2 eexists. split; [done|]. split; [done|]. split; [done|]. split; [done|].
  exists "integer". split; [done|]. by apply between_int_side.
Qed.
Print Assumptions C116_between_integers.

(** Categories no test mentions are all treated alike. *)
Theorem C116_unseen : ∀ E dd td d e td' calls1 calls2 tk m f s1 s2,
  new_model E dd td d = (Ok e, td') → field_types dd td !! f = Some "string" →
  f ∉ computed_from d → f ∉ map df_name (doc_locals d) → s1 ∉ literals f d → s2 ∉ literals f d →
  (evaluate E tk (after E calls1 e) (Some (<[f := GStr s1]> m))).1.1 =
  (evaluate E tk (after E calls2 e) (Some (<[f := GStr s2]> m))).1.1.
Proof.
  intros E dd td d e td' calls1 calls2 tk m f s1 s2 Hn Hf H1 H2 Hs1 Hs2. eapply C116_cells; [done|].
  intros g. destruct (decide (f = g)) as [<-|Hg]; [|by rewrite !lookup_insert_ne by done; left].
  right. rewrite !lookup_insert. do 2 eexists. split; [done|]. split; [done|]. split; [done|]. split; [done|].
  exists "string". split; [done|]. by constructor.
Qed.
Print Assumptions C116_unseen.

(** a humid day with an outlook nobody heard of, under golf; [kmh] feeds a derived field
    and is kept *)
Example C116_example :
  same_cell go_ext golf_dd [] (golf "defaultChild")
    {["outlook" := GStr "snow"; "humidity" := GF64 (fl "80"); "kmh" := GF64 (fl "10")]}
    {["outlook" := GStr "fog"; "humidity" := GF64 (fl "95.5"); "kmh" := GF64 (fl "10")]} ∧
  is_ok (new_model go_ext golf_dd [] (golf "defaultChild")).1 = true ∧
  dumped (run go_ext golf_dd (golf "defaultChild")
    (Some {["outlook" := GStr "snow"; "humidity" := GF64 (fl "80"); "kmh" := GF64 (fl "10")]})) =
  dumped (run go_ext golf_dd (golf "defaultChild")
    (Some {["outlook" := GStr "fog"; "humidity" := GF64 (fl "95.5"); "kmh" := GF64 (fl "10")]})).
Proof.
  split; [|split; by vm_compute]. intros f.
  destruct (decide (f = "outlook")) as [->|H1].
  { right. do 2 eexists. split; [done|]. split; [done|].
    split; [simpl; set_solver|]. split; [simpl; set_solver|]. exists "string". split; [done|]. constructor; simpl; set_solver. }
  destruct (decide (f = "humidity")) as [->|H2].
  { right. do 2 eexists. split; [done|]. split; [done|].
    split; [simpl; set_solver|]. split; [simpl; set_solver|]. exists "double". split; [done|].
    apply between_side; [set_solver|by vm_compute|].
    intros s c Hs. assert (s = "75") as -> by (simpl in Hs; set_solver). intros Hc [Hle _].
    assert (match ext_parse_float go_ext "75" with Some c => fleb (fl "80") c | None => false end = false) as Hf by by vm_compute.
    rewrite Hc in Hf. congruence. }
  left. by rewrite !lookup_insert_ne by done.
Qed.

(** Out of a cell the prediction does change, and a field a derived field is computed
    from has its splits elsewhere. *)
Theorem C116_computed_fields_split_elsewhere : ∃ E dd d e td' m x y,
  new_model E dd [] d = (Ok e, td') ∧ literals "kmh" d = [] ∧ fltb x y = true ∧
  (evaluate E [] e (Some (<["kmh" := GF64 x]> m))).1.1 ≠ (evaluate E [] e (Some (<["kmh" := GF64 y]> m))).1.1.
Proof.
  exists go_ext, golf_dd, (golf "none"). eexists (built _ _ _), _, {["outlook" := GStr "rain"]}, (fl "10"), (fl "30").
  split; [by rewrite built_ok; [|by vm_compute]|]. split; [done|]. split; [by vm_compute|].
  rewrite (run_out go_ext golf_dd (golf "none") (Some (<["kmh" := GF64 (fl "10")]> {["outlook" := GStr "rain"]})) (Some {["play" := GStr "yes";
    "probability(no)" := GF64 (S754_finite false 8006399337547548 (-55));
    "probability(yes)" := GF64 (S754_finite false 7005599420354105 (-53))]})) by by vm_compute.
  rewrite (run_out go_ext golf_dd (golf "none") (Some (<["kmh" := GF64 (fl "30")]> {["outlook" := GStr "rain"]})) (Some {["play" := GStr "yes";
    "probability(no)" := GF64 (S754_finite false 6433713753386423 (-54));
    "probability(yes)" := GF64 (S754_finite false 5790342378047781 (-53))]})) by by vm_compute.
  by intros [=].
Qed.
Print Assumptions C116_computed_fields_split_elsewhere.
