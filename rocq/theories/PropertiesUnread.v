(** C143: derived fields that nothing reads can be left out. *)
From Verif Require Import Base Strconv Value Doc Expr Pred Tree Regression Model SpecPred SpecExpr SpecEquiv
  ProofsWhole ProofsSim SpecDerive ProofsDerive SpecUnread ProofsUnread GoExt Samples.

(** What is answered is answered alike; the caller's row differs in the names left out only. *)
Theorem C143_left_out : ∀ E dd td G d1 d2 e1 td1 calls1 calls2,
  redefined (dropped G (λ _, True)) d1 d2 → (∀ f, f ∈ consulted d1 → f ∉ G) →
  new_model E dd td d1 = (Ok e1, td1) →
  ∃ e2 td2, new_model E dd td d2 = (Ok e2, td2) ∧
    ∀ tk r out r1, (evaluate E tk (after E calls1 e1) r).1 = (Ok out, r1) →
      ∃ r2, (evaluate E tk (after E calls2 e2) r).1 = (Ok out, r2) ∧
        ∀ k, k ∉ G → dr_get r1 k = dr_get r2 k.
Proof.
  intros E dd td G d1 d2 e1 td1 calls1 calls2 Hd Hf H1.
  pose proof (redefined_dropped E dd G (λ _, True) false ltac:(done) d1 d2 Hd Hf td td (types_off_refl G td)) as [_ H].
  rewrite H1 in H. destruct (new_model E dd td d2) as [[e2|x|p] td2] eqn:H2; simpl in H; try done.
  exists e2, td2. split; [done|]. intros tk r out r1 He.
  rewrite (history_independent _ _ _ _ _ _ _ _ _ H1) in He. rewrite (history_independent _ _ _ _ _ _ _ _ _ H2).
  specialize (H tk r r). rewrite He in H. destruct (evaluate E tk e2 r).1 as [o2 r2].
  destruct H as [[Ho Hr]|[_ Ho]]; [by destruct r| |by destruct (Ho out)].
  simpl in Ho. subst o2. exists r2. split; [done|]. intros k. by apply (off_get G false).
Qed.
Print Assumptions C143_left_out.

(** If what is left out cannot fail, errors and panics stay the same too. *)
Theorem C143_harmless : ∀ E dd td G d1 d2 e1 td1 calls1 calls2,
  redefined (dropped G (λ e, settled e = true)) d1 d2 → (∀ f, f ∈ consulted d1 → f ∉ G) →
  new_model E dd td d1 = (Ok e1, td1) →
  ∃ e2 td2, new_model E dd td d2 = (Ok e2, td2) ∧
    ∀ tk m, (evaluate E tk (after E calls1 e1) (Some m)).1.1 = (evaluate E tk (after E calls2 e2) (Some m)).1.1 ∧
      ∀ k, k ∉ G → dr_get (evaluate E tk (after E calls1 e1) (Some m)).1.2 k =
                   dr_get (evaluate E tk (after E calls2 e2) (Some m)).1.2 k.
Proof.
  intros E dd td G d1 d2 e1 td1 calls1 calls2 Hd Hf H1.
  pose proof (redefined_dropped E dd G (λ e, settled e = true) true (λ e r He _, settled_ok E r e He)
    d1 d2 Hd Hf td td (types_off_refl G td)) as [_ H].
  rewrite H1 in H. destruct (new_model E dd td d2) as [[e2|x|p] td2] eqn:H2; simpl in H; try done.
  exists e2, td2. split; [done|]. intros tk m.
  rewrite (history_independent _ _ _ _ _ _ _ _ _ H1), (history_independent _ _ _ _ _ _ _ _ _ H2).
  destruct (H tk (Some m) (Some m)) as [[Ho Hr]|[Hx _]]; [done| |done].
  split; [done|]. intros k. by apply (off_get G true).
Qed.
Print Assumptions C143_harmless.

(** Both documents are accepted, or both are refused for the same reason. *)
Theorem C143_accepted : ∀ E dd td G d1 d2,
  redefined (dropped G (λ _, True)) d1 d2 → (∀ f, f ∈ consulted d1 → f ∉ G) →
  is_ok (new_model E dd td d1).1 = is_ok (new_model E dd td d2).1 ∧
  (∀ x, (new_model E dd td d1).1 = Err x ↔ (new_model E dd td d2).1 = Err x).
Proof.
  intros E dd td G d1 d2 Hd Hf.
  pose proof (redefined_dropped E dd G (λ _, True) false ltac:(done) d1 d2 Hd Hf td td (types_off_refl G td)) as [_ H].
  destruct (new_model E dd td d1) as [[e1|x1|p1] ?], (new_model E dd td d2) as [[e2|x2|p2] ?]; simpl in *; try done.
  by subst.
Qed.
Print Assumptions C143_accepted.

(** An ensemble that derives two fields nothing but each other reads, and in which a
    member derives a third one. *)
Definition noted_tree (lt : list derived_field) : tree_model := tree_with_lt price_tree lt.
Definition noted (lt lt' : list derived_field) : doc_model :=
  mining "regression" "sum" lt [OF "price" "" ""] [] [DTree (noted_tree lt'); DTree price_tree].
Definition note_a : derived_field := DF "a" "double" (XA "+" [XF "area"; XF "yard"]).
Definition note_b : derived_field := DF "b" "double" (XA "*" [XF "a"; XF "a"]).
Definition note_c : derived_field := DF "c" "string" (XF "b").
Definition keep_rooms : derived_field := DF "size" "double" (XA "*" [XF "area"; XF "rooms"]).

Example C143_example :
  redefined (dropped ["a"; "b"; "c"] (λ e, settled e = true)) (noted [note_a; keep_rooms; note_b] [note_c]) (noted [keep_rooms] []) ∧
  (∀ f, f ∈ consulted (noted [note_a; keep_rooms; note_b] [note_c]) → f ∉ ["a"; "b"; "c"]) ∧
  is_ok (new_model go_ext price_dd [] (noted [note_a; keep_rooms; note_b] [note_c])).1 = true ∧
  let r : datarow := Some {["area" := GF64 (fl "50"); "rooms" := GInt KInt64 3; "yard" := GF64 (fl "7")]} in
  dumped (run go_ext price_dd (noted [note_a; keep_rooms; note_b] [note_c]) r) =
    dumped (run go_ext price_dd (noted [keep_rooms] []) r) ∧
  dumped (run go_ext price_dd (noted [keep_rooms] []) r) = Some (Ok (dump (Some {["price" := GF64 (fl "101")]}))) ∧
  dumped_row (run go_ext price_dd (noted [keep_rooms] []) r) = Some (dump (Some
    {["area" := GF64 (fl "50"); "rooms" := GInt KInt64 3; "yard" := GF64 (fl "7"); "size" := GF64 (fl "150")]})).
Proof.
  split.
  { apply (rd_mining _ (MiningHeader "regression" "sum" [note_a; keep_rooms; note_b] [] [OF "price" "" ""] [] None) [keep_rooms]
      (map seg [DTree (noted_tree [note_c]); DTree price_tree]) (map seg [DTree (noted_tree []); DTree price_tree])).
    - apply dp_drop; [set_solver|done|]. apply dp_keep; [simpl; set_solver|]. apply dp_drop; [set_solver|done|]. constructor.
    - constructor; [|constructor; [|constructor]]; (constructor; [|constructor]); [|apply (rd_tree _ price_tree []); constructor]. apply (rd_tree _ (noted_tree [note_c]) []). apply dp_drop; [set_solver|done|]. constructor. }
  split; [simpl; set_solver|]. by vm_compute.
Qed.

(** A derived field nothing reads is still computed: it can fail the whole prediction, and
    it cannot be stored in a nil row. *)
Theorem C143_still_computed : ∃ E dd G d1 d2 e1 e2 m out x p td1 td2,
  redefined (dropped G (λ _, True)) d1 d2 ∧ (∀ f, f ∈ consulted d1 → f ∉ G) ∧
  new_model E dd [] d1 = (Ok e1, td1) ∧ new_model E dd [] d2 = (Ok e2, td2) ∧
  (evaluate E [] e1 (Some m)).1.1 = Err x ∧ (evaluate E [] e2 (Some m)).1.1 = Ok (Some out) ∧
  (evaluate E [] e1 None).1.1 = Panic p ∧ (evaluate E [] e2 None).1.1 = Ok (Some out).
Proof.
  set (t := TreeModel "regression" "none" fone "" [DF "x" "double" (XF "area"); DF "y" "double" (XA "pow" [])] [] None (MNode "1" "" "5" (fl "1") [] [] PTrue)).
  exists go_ext, price_dd, ["x"; "y"], (DTree t), (DTree (tree_with_lt t [])),
    (built go_ext price_dd (DTree t)), (built go_ext price_dd (DTree (tree_with_lt t []))),
    ∅, {["score" := GF64 (fl "5")]}, (EApplyFunction "pow"), PNilMapWrite. do 2 eexists.
  split. { constructor. apply dp_drop; [set_solver|done|]. apply dp_drop; [set_solver|done|]. constructor. }
  split; [simpl; set_solver|]. split; [by rewrite built_ok; [|by vm_compute]|]. split; [by rewrite built_ok; [|by vm_compute]|].
  split; [apply run_err; by vm_compute|]. split; [apply run_out; by vm_compute|].
  split; [apply run_panic; by vm_compute|]. apply run_out; by vm_compute.
Qed.
Print Assumptions C143_still_computed.
