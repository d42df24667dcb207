(** Property C139: data types of the same kind. *)
From Verif Require Import Base Strconv Value Doc Expr Pred Tree Regression Model Lib ProofsConstruct ProofsWhole ProofsSim
  GoExt Samples SpecConstruct SpecTree SpecEquiv SpecDerive SpecEarlier SpecKinds ProofsKinds.

(** *** C139.  A document may declare its fields [float] or [double] as it likes, and name any
    type it likes where the type is none the evaluator knows: NewModel accepts or rejects it
    with the same error, and the evaluators answer alike.  This covers data fields, derived
    fields of the dictionary and of every model, and the defaults of MapValues. *)
Theorem C139_same_kind : ∀ E dd1 dd2 td1 td2 d1 d2,
  Forall2 retyped_data dd1 dd2 → Forall2 retyped_derived td1 td2 → retyped d1 d2 →
  same_outcome E (new_model E dd1 td1 d1).1 (new_model E dd2 td2 d2).1.
Proof.
  intros E dd1 dd2 td1 td2 d1 d2 Hdd Htd Hd. pose proof (model_kinds E dd1 dd2 Hdd d1 d2 Hd td1 td2 Htd) as Ha.
  destruct (new_model E dd1 td1 d1) as [[e1|x|x] t1] eqn:H1, (new_model E dd2 td2 d2) as [[e2|y|y] t2] eqn:H2; try done.
  intros calls1 calls2 tk r.
  rewrite (history_independent _ _ _ _ _ _ _ _ _ H1), (history_independent _ _ _ _ _ _ _ _ _ H2). by apply Ha.
Qed.
Print Assumptions C139_same_kind.

(** An ensemble with a derived field that has a mapped default, and a tree that derives what
    it tests: all four declarations in the other type. *)
Definition kinds_dd (ty other : string) : list data_field :=
  [DataField "area" ty []; DataField "rooms" "integer" []; DataField "price" other []].
Definition kinds_map (ty : string) : derived_field :=
  DF "size" ty (XMap [("place", "data:input")] [[{["input" := "north"; "output" := "4"]}]] (Some "2.5") ty "" None).
Definition kinds_tree : tree_model :=
  TreeModel "regression" "none" fone "returnLastPrediction" [DF "half" "double" (XA "/" [XF "area"; XF "size"])]
    [MF "area" "active"; MF "price" "target"] None
    (MNode "1" "" "100" (fl "2") [ScoreDistribution "100" (fl "1") None None]
       [MNode "2" "" "50" (fl "1") [ScoreDistribution "50.5" (fl "1") None None] [] (SP "half" "lessThan" "20.5");
        MNode "3" "" "200" (fl "1") [ScoreDistribution "200" (fl "1") None None] [] (SP "area" "greaterOrEqual" "60")] PTrue).
Definition kinds_doc (ty : string) (t : tree_model) : doc_model :=
  mining "regression" "sum" [kinds_map ty] [OF "price" "" ""] [] [DTree t].
Definition kinds_other : tree_model := tree_with_lt kinds_tree [DF "half" "float" (XA "/" [XF "area"; XF "size"])].
Example C139_example :
  Forall2 retyped_data (kinds_dd "double" "date") (kinds_dd "float" "time") ∧
  retyped (kinds_doc "double" kinds_tree) (kinds_doc "float" kinds_other) ∧
  map (λ a, dumped (run go_ext (kinds_dd "double" "date") (kinds_doc "double" kinds_tree) (Some {["area" := GF64 (fl a)]})))
    ["50"; "70"] = [Some (Ok (Some [("price", GF64 (fl "50.5"))])); Some (Ok (Some [("price", GF64 (fl "200"))]))] ∧
  map (λ a, dumped (run go_ext (kinds_dd "float" "time") (kinds_doc "float" kinds_other) (Some {["area" := GF64 (fl a)]})))
    ["50"; "70"] = [Some (Ok (Some [("price", GF64 (fl "50.5"))])); Some (Ok (Some [("price", GF64 (fl "200"))]))].
Proof.
  assert (same_kind "double" "float") as Hk by (right; left; unfold real_types; set_solver).
  assert (same_kind "date" "time") as Ht.
  { right. right. unfold known_types. rewrite !not_elem_of_cons. pose proof (not_elem_of_nil (A := string)). naive_solver. }
  split; [|split; [|split; by vm_compute]].
  { constructor; [by split|]. constructor; [by split; [|split; [|left]]|]. by constructor; [split|constructor]. }
  unfold kinds_doc, mining.
  apply (rd_mining _ (MiningHeader "regression" "sum" [kinds_map "double"] [] [OF "price" "" ""] [] None) [kinds_map "float"]).
  { constructor; [|constructor]. split; [done|]. split; [done|]. split; [done|]. by constructor. }
  constructor; [|constructor]. constructor; [|constructor]. apply rd_tree.
  constructor; [|constructor]. split; [done|]. split; [done|]. split; [done|]. repeat constructor.
Qed.

(** No other types can be exchanged: for any two of different kinds, a tree with one test
    tells them apart at construction. *)
Theorem C139_no_other : ∀ a b, ¬ same_kind a b →
  ∃ dd d, ∀ E, ext_parse_float E "x" = None →
    ¬ same_outcome E (new_model E (DataField "f" a [] :: dd) [] d).1 (new_model E (DataField "f" b [] :: dd) [] d).1.
Proof.
  intros a b Hk. exists [], (DTree (TreeModel "regression" "none" fone "" [] [] None (price_leaf "1" "5" "f" "equal" "x"))).
  intros E Hx Hs.
  pose (one ty := (new_model E [DataField "f" ty []] []
    (DTree (TreeModel "regression" "none" fone "" [] [] None (price_leaf "1" "5" "f" "equal" "x")))).1).
  change (same_outcome E (one a) (one b)) in Hs.
  assert (Hg : ∀ ty, match get_raw_value E ty "x" with Ok _ => is_ok (one ty) = true | Err e => one ty = Err e | Panic p => one ty = Panic p end).
  { intros ty. unfold one. cbn [new_model]. unfold new_tree_model, tree_validate, tree_compile. 
    cbn [tm_function et_model et_dd et_target et_validated et_compiled et_outkeys et_root tm_lt tm_schema tm_node]. simpl (_ && _). cbv iota beta.
    cbn [tm_function et_model et_dd et_target et_validated et_compiled et_outkeys et_root tm_lt tm_schema tm_node].
    unfold price_leaf. cbn [new_node rmap rbind compile_predicate SP]. unfold field_types. cbn [foldl app dd_name dd_datatype]. rewrite lookup_insert.
    by destruct (get_raw_value E ty "x"). }
  pose proof (Hg a) as Ga. pose proof (Hg b) as Gb. clear Hg. apply Hk.
  assert (Hout : ∀ ty, (ty = "boolean" ∧ get_raw_value E ty "x" = Err (EParseBool "x")) ∨
    (ty ∈ real_types ∧ get_raw_value E ty "x" = Err (EParseFloat "x")) ∨
    (ty = "integer" ∧ get_raw_value E ty "x" = Err (EParseInt "x")) ∨
    (ty = "string" ∧ get_raw_value E ty "x" = Ok (GStr "x")) ∨
    (ty ∉ known_types ∧ get_raw_value E ty "x" = Err EInvalidDataType)).
  { intros ty. unfold real_types, known_types, get_raw_value. rewrite Hx.
    destruct (String.eqb_spec ty "boolean") as [->|H1]; [by left|right].
    destruct (String.eqb_spec ty "double") as [->|H2]; [left; split; [right; left|done]|].
    destruct (String.eqb_spec ty "float") as [->|H3]; [left; split; [left|done]|right].
    destruct (String.eqb_spec ty "integer") as [->|H4]; [by left|right].
    destruct (String.eqb_spec ty "string") as [->|H5]; [by left|right]. split; [|done].
    rewrite !not_elem_of_cons. repeat (split; [done|]). apply not_elem_of_nil. }
  unfold same_kind. clear Hk Hx. clearbody one.
  destruct (Hout a) as [[Ra Ha]|[[Ra Ha]|[[Ra Ha]|[[Ra Ha]|[Ra Ha]]]]], (Hout b) as [[Rb Hb]|[[Rb Hb]|[[Rb Hb]|[[Rb Hb]|[Rb Hb]]]]];
    first [by left; congruence | by right; left | by right; right | idtac];
    rewrite Ha in Ga; rewrite Hb in Gb; exfalso; revert Hs Ga Gb;
    generalize (one a), (one b); clear; intros o1 o2; destruct o1, o2; simpl; congruence.
Qed.
Print Assumptions C139_no_other.

(** Constants are not covered above for a reason: those of type [double] are the only ones
    there are, a constant that is declared [float] is an error. *)
Theorem C139_constant : ∀ E dd td t e td' n op ty dt v calls tk r,
  new_model E dd td (DTree t) = (Ok e, td') → tm_lt t = [DerivedField n op ty (XConst dt v)] → dt ≠ "double" →
  (evaluate E tk (after E calls e) (Some r)).1.1 = Err (EConstType dt).
Proof.
  intros E dd td t e td' n op ty dt v calls tk r H1 Hlt Hdt.
  rewrite (history_independent _ _ _ _ _ _ _ _ _ H1). revert H1. cbn [new_model]. unfold new_tree_model, tree_validate.
  cbn [et_model tm_function et_dd et_ft et_root et_outkeys et_target et_compiled]. destruct (_ && _); [done|].
  unfold tree_compile. cbn [et_model tm_lt tm_schema tm_node et_dd et_target et_validated et_compiled et_outkeys et_root
      tm_function tm_strategy tm_penalty tm_notrue tm_verification].
  destruct (new_node E _ (tm_node t)) as [nd| |]; [|done..]. intros [= <- <-]. cbn [evaluate]. unfold tree_evaluate.
  cbn [et_validated et_compiled negb et_model tm_lt tm_strategy tm_schema et_root]. rewrite Hlt. cbn [handle_input df_expr handle_expr].
  unfold handle_constant. by rewrite (proj2 (String.eqb_neq _ _)) by done.
Qed.
Print Assumptions C139_constant.

Example C139_constant_example :
  let t ty := DTree (TreeModel "regression" "none" fone "" [DF "x" "double" (XConst ty "2.5")] [MF "price" "target"] None
    (MNode "1" "" "5" (fl "1") [SD "5" "1"] [] (SP "x" "lessThan" "3"))) in
  dumped (run go_ext price_dd (t "double") (Some ∅)) = Some (Ok (Some [("score", GF64 (fl "5"))])) ∧
  dumped (run go_ext price_dd (t "float") (Some ∅)) = Some (Err (EConstType "float")).
Proof. split; by vm_compute. Qed.
