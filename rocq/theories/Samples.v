(** Sample documents for the examples beside the theorems. *)
From Verif Require Import Base Strconv Value Doc Expr Pred Tree Regression Model GoExt.

Definition XF (f : string) : expr := XField f None.
Definition XA (fn : string) (args : list expr) : expr := XApply fn None None args.
Definition SP (f op v : string) : predicate := PSimple f op v GNil.
Definition MF (n u : string) : mining_field := MiningField n u None "" "".
Definition SD (v c : string) : score_distribution := ScoreDistribution v (fl c) None None.
Definition DF (n dt : string) (e : expr) : derived_field := DerivedField n "continuous" dt e.

(** the golf tree: outlook and humidity decide, wind is a derived field *)
Definition golf_dd : list data_field :=
  [DataField "outlook" "string" []; DataField "humidity" "double" [];
   DataField "kmh" "double" []; DataField "play" "string" ["yes"; "no"]].
Definition golf_lt : list derived_field := [DF "wind" "double" (XA "/" [XF "kmh"; XConst "double" "3.6"])].
Definition golf_root : mnode :=
  MNode "1" "2" "yes" (fl "14") [SD "yes" "9"; SD "no" "5"]
    [MNode "2" "4" "yes" (fl "5") [SD "yes" "2"; SD "no" "3"]
       [MNode "4" "" "yes" (fl "2") [SD "yes" "2"; SD "no" "0"] [] (SP "humidity" "lessOrEqual" "75");
        MNode "5" "" "no" (fl "3") [SD "yes" "0"; SD "no" "3"] [] (SP "humidity" "greaterThan" "75")]
       (SP "outlook" "equal" "sunny");
     MNode "3" "" "yes" (fl "9") [SD "yes" "7"; SD "no" "2"] []
       (PCompound "or" [SP "outlook" "equal" "overcast"; SP "wind" "lessThan" "5"])]
    PTrue.
Definition golf_tree (st : string) (penalty : string) : tree_model :=
  TreeModel "classification" st (fl penalty) "returnLastPrediction" golf_lt
    [MF "outlook" "active"; MF "humidity" "active"; MF "kmh" "active"; MF "play" "target"]
    None golf_root.
Definition golf (st : string) : doc_model := DTree (golf_tree st "0.5").

(** evaluate a fresh evaluator; the example tickets are [[]] *)
Definition run (E : Ext) (dd : list data_field) (d : doc_model) (r : datarow) : option (res datarow * datarow) :=
  match new_model E dd [] d with
  | (Ok e, _) => Some (evaluate E [] e r).1
  | _ => None
  end.
Definition dumped (o : option (res datarow * datarow)) : option (res (option (list (string * gov)))) :=
  match o with
  | Some (Ok out, _) => Some (Ok (dump out))
  | Some (Err e, _) => Some (Err e)
  | Some (Panic p, _) => Some (Panic p)
  | None => None
  end.
Definition dumped_row (o : option (res datarow * datarow)) : option (option (list (string * gov))) :=
  match o with Some (_, r) => Some (dump r) | None => None end.

(** a regression tree *)
Definition price_dd : list data_field :=
  [DataField "area" "double" []; DataField "rooms" "integer" []; DataField "price" "double" []].
Definition price_leaf (id score f op v : string) : mnode :=
  MNode id "" score (fl "1") [] [] (SP f op v).
Definition price_tree : tree_model :=
  TreeModel "regression" "none" fone "returnLastPrediction" [] [MF "area" "active"; MF "price" "target"] None
    (MNode "1" "" "100" (fl "2") [ScoreDistribution "100" (fl "1") None None]
       [MNode "2" "" "50" (fl "1") [ScoreDistribution "50.5" (fl "1") None None] [] (SP "area" "lessThan" "60");
        MNode "3" "" "200" (fl "1") [ScoreDistribution "200" (fl "1") None None] [] (SP "area" "greaterOrEqual" "60")]
       PTrue).

(** a regression model *)
Definition lin_model : regr_model :=
  RegrModel "regression" "none" [] [MF "area" "active"; MF "price" "target"]
    [RegrTable (fl "10") "" [Predictor "area" (fl "2") 1; Predictor "rooms" (fl "5") 1]]
    [OutputField "price" "" ""] None.

Definition OF (n f v : string) : output_field := OutputField n f v.
Definition logit_model : regr_model :=
  RegrModel "classification" "logit" [] [MF "area" "active"; MF "ok" "target"]
    [RegrTable (fl "0.5") "yes" [Predictor "area" (fl "0.25") 1]; RegrTable (fl "0") "no" []]
    [OF "p_yes" "probability" "yes"; OF "p_no" "probability" "no"] None.

(** a mining model *)
Definition seg (d : doc_model) : segment doc_model := Segment "" [PTrue] [d].
Definition mining (fn method : string) (lt : list derived_field) (outs : list output_field)
    (tgts : list target) (ds : list doc_model) : doc_model :=
  DMining (MiningHeader fn method lt [] outs tgts None) (map seg ds).

(** the evaluator NewModel returns for a document, for concrete documents *)
Definition built (E : Ext) (dd : list data_field) (d : doc_model) : emodel :=
  match new_model E dd [] d with (Ok e, _) => e | _ => ERegr (ERegr_ lin_model) end.
Lemma built_ok E dd d :
  is_ok (new_model E dd [] d).1 = true →
  new_model E dd [] d = (Ok (built E dd d), (new_model E dd [] d).2).
Proof. unfold built. by destruct (new_model E dd [] d) as [[e| |] td']. Qed.
Lemma run_out E dd d r out :
  is_ok (new_model E dd [] d).1 = true → dumped (run E dd d r) = Some (Ok (dump out)) →
  (evaluate E [] (built E dd d) r).1.1 = Ok out.
Proof.
  unfold run, built. destruct (new_model E dd [] d) as [[e| |] td'] eqn:Hn; try done. intros _.
  destruct (evaluate E [] e r).1 as [[o|x|x] r2]; simpl; try done.
  intros [= Hd]. f_equal. by apply dump_inj.
Qed.
Lemma run_err E dd d r x :
  is_ok (new_model E dd [] d).1 = true → dumped (run E dd d r) = Some (Err x) →
  (evaluate E [] (built E dd d) r).1.1 = Err x.
Proof.
  unfold run, built. destruct (new_model E dd [] d) as [[e| |] td'] eqn:Hn; try done. intros _.
  destruct (evaluate E [] e r).1 as [[o|y|y] r2]; simpl; congruence.
Qed.
Lemma run_panic E dd d r x :
  is_ok (new_model E dd [] d).1 = true → dumped (run E dd d r) = Some (Panic x) →
  (evaluate E [] (built E dd d) r).1.1 = Panic x.
Proof.
  unfold run, built. destruct (new_model E dd [] d) as [[e| |] td'] eqn:Hn; try done. intros _.
  destruct (evaluate E [] e r).1 as [[o|y|y] r2]; simpl; congruence.
Qed.
Lemma run_row E dd d r r2 :
  is_ok (new_model E dd [] d).1 = true → dumped_row (run E dd d r) = Some (dump r2) →
  (evaluate E [] (built E dd d) r).1.2 = r2.
Proof.
  unfold run, built. destruct (new_model E dd [] d) as [[e| |] td'] eqn:Hn; try done. intros _.
  destruct (evaluate E [] e r).1 as [o r']; simpl. intros [= Hd]. by apply dump_inj.
Qed.
Lemma eval_ok E tk e m out m2 :
  match (evaluate E tk e (Some m)).1 with
  | (Ok o, r) => dump o = dump out ∧ dump r = dump (Some m2)
  | _ => False
  end → (evaluate E tk e (Some m)).1 = (Ok out, Some m2).
Proof.
  destruct (evaluate E tk e (Some m)).1 as [[o| |] r]; try done. intros [H1 H2].
  by rewrite (dump_inj _ _ H1), (dump_inj _ _ H2).
Qed.
Lemma eval_out E tk e r out :
  match (evaluate E tk e r).1.1 with Ok o => dump o = dump out | _ => False end →
  (evaluate E tk e r).1.1 = Ok out.
Proof. destruct (evaluate E tk e r).1.1; try done. intros H. by rewrite (dump_inj _ _ H). Qed.
