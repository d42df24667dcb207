(** Evaluate with rows in memory.  A DataRow is a Go map, that is a reference: the
    caller, the evaluator and its segments pass the same map around, write to it and
    return it.  Here every DataRow is a reference into a heap, as in the code; the
    functions of Expr.v, Tree.v, Regression.v and Model.v work on the contents instead.
    Simplifications: maps that are no DataRow (scoreMap, outKeys, outFields) are values
    as in those files, they never leave the function or evaluator that made them;
    node.evaluate (tree.go:81) and HandleExpression (input.go:163) only read the row and
    are given its contents. *)
From Verif Require Import Base Strconv Value Doc Expr Pred Tree Regression Model.

(** A DataRow, input.go:214: nil or a reference. *)
Definition mapref : Type := option nat.
Notation heap := (gmap nat row).

Definition deref (h : heap) (p : mapref) : datarow := l ← p; h !! l.

(** make(DataRow); nothing is ever freed, so the reference has not been used before. *)
Definition make_map (h : heap) : nat * heap :=
  let l := fresh (dom h) in (l, <[l := ∅]> h).

(** m[k] = v; writing to a nil map panics. *)
Definition put (h : heap) (l : nat) (k : string) (v : value) : heap := alter <[k := v]> l h.
Definition store (h : heap) (p : mapref) (k : string) (v : value) : res heap :=
  match p with Some l => Ok (put h l k v) | None => Panic PNilMapWrite end.

(** HandleInput, input.go:184-205: returns the row it was given. *)
Fixpoint h_input (E : Ext) (lt : list derived_field) (p : mapref) (h : heap) : res mapref * heap :=
  match lt with
  | [] => (Ok p, h)
  | df :: lt' =>
      match handle_expr E (df_expr df) (deref h p) with
      | Ok v =>
          let v' := if df_optype df =s "continuous" then GF64 (val_float64 E v) else v in
          match store h p (df_name df) v' with
          | Ok h' => h_input E lt' p h'
          | Err e => (Err e, h)
          | Panic x => (Panic x, h)
          end
      | Err e => (Err e, h)
      | Panic x => (Panic x, h)
      end
  end.

(** What Evaluate returns (the row and the error), the heap and the evaluator(s)
    afterwards. *)
Definition hres (M : Type) : Type := mapref * res unit * heap * M.

(** The loop tree.go:736-744. *)
Definition h_out_step (l : nat) (acc : heap * gmap string string) (s : score) : heap * gmap string string :=
  let '(h, keys) := acc in
  match keys !! sc_value s with
  | Some key => (put h l key (GF64 (sc_prob s)), keys)
  | None => (put h l (prob_key (sc_value s)) (GF64 (sc_prob s)), <[sc_value s := prob_key (sc_value s)]> keys)
  end.

Definition with_keys (t : etree) (keys : gmap string string) : etree :=
  ETree_ (et_validated t) (et_compiled t) (et_dd t) (et_model t) (et_ft t) (et_root t) keys (et_target t).

(** TreeModel.Evaluate, tree.go:712-758. *)
Definition h_tree (E : Ext) (tk : ticket) (t : etree) (p : mapref) (h : heap) : hres etree :=
  if negb (et_validated t) then (None, Err ENotValidated, h, t)
  else if negb (et_compiled t) then (None, Err ENotCompiled, h, t)
  else
    match h_input E (tm_lt (et_model t)) p h with
    | (Ok q, h1) =>
        match node_evaluate E (tree_ctx t) (tm_strategy (et_model t)) (deref h1 q) tk (et_root t) with
        | Ok (scores, RT) =>
            let '(l, h2) := make_map h1 in
            if tm_function (et_model t) =s "classification" then
              let '(h3, keys) := foldl (h_out_step l)
                (put h2 l (et_target t) (GStr (sc_value (pick_best scores))), et_outkeys t) scores in
              (Some l, Ok tt, h3, with_keys t keys)
            else if tm_function (et_model t) =s "regression" then
              match scores with
              | [] => (None, Panic PIndex, h2, with_keys t (et_outkeys t))
              | s :: _ =>
                  match ext_parse_float E (sc_value s) with
                  | Some f => (Some l, Ok tt, put h2 l "score" (GF64 f), with_keys t (et_outkeys t))
                  | None => (None, Err (EParseFloat (sc_value s)), h2, with_keys t (et_outkeys t))
                  end
              end
            else (Some l, Ok tt, h2, with_keys t (et_outkeys t))
        | Ok _ => (None, Ok tt, h1, t)
        | Err e => (None, Err e, h1, t)
        | Panic x => (None, Panic x, h1, t)
        end
    | (Err e, h1) => (None, Err e, h1, t)
    | (Panic x, h1) => (None, Panic x, h1, t)
    end.

(** EvaluateRegression, regression.go:92-123: out is made first and returned beside
    every error but a missing term. *)
Definition h_regression (E : Ext) (m : regr_model) (p : mapref) (h : heap) : mapref * res unit * heap :=
  let '(l, h1) := make_map h in
  match rm_tables m with
  | [tbl] =>
      match rm_output m with
      | [o] =>
          match linear_form E (rt_intercept tbl) (rt_predictors tbl) (deref h1 p) with
          | Ok y =>
              match normalize E (rm_norm m) y with
              | Ok pred => (Some l, Ok tt, put h1 l (of_name o) (GF64 pred))
              | Err e => (Some l, Err e, h1)
              | Panic x => (None, Panic x, h1)
              end
          | Err e => (None, Err e, h1)
          | Panic x => (None, Panic x, h1)
          end
      | os => (Some l, Err (EOutputCount (length os)), h1)
      end
  | ts => (Some l, Err (ETableCount (length ts)), h1)
  end.

(** EvaluateBinaryClassification, regression.go:125-159. *)
Fixpoint h_binary (E : Ext) (m : regr_model) (p : mapref) (final : f64) (l : nat)
    (ts : list regr_table) (h : heap) : mapref * res unit * heap :=
  match ts with
  | [] => (Some l, Ok tt, h)
  | t :: ts' =>
      match (if Nat.ltb 0 (length (rt_predictors t))
             then binary_form E (rm_norm m) (rt_intercept t) (rt_predictors t) (deref h p)
             else Ok final) with
      | Ok pred =>
          h_binary E m p (fsub final pred) l ts'
            (foldl (λ h o, if rt_category t =s of_value o then put h l (of_name o) (GF64 pred) else h) h (rm_output m))
      | Err e => (match e with EMissingTerm _ => None | _ => Some l end, Err e, h)
      | Panic x => (None, Panic x, h)
      end
  end.

(** The loop regression.go:186-203. *)
Fixpoint h_multi (E : Ext) (method : string) (ys : list f64) (l : nat)
    (ts : list (string * f64)) (h : heap) : mapref * res unit * heap :=
  match ts with
  | [] => (Some l, Ok tt, h)
  | (target, y) :: ts' =>
      if method =s "softmax" then
        h_multi E method ys l ts' (put h l target (GF64 (fdiv (ext_exp E y) (fsum (ext_exp E <$> ys)))))
      else if method =s "simplemax" then
        h_multi E method ys l ts' (put h l target (GF64 (fdiv y (fsum ys))))
      else (Some l, Err (ENormalization method), h)
  end.

(** EvaluateMulticlassClassification, regression.go:161-205. *)
Definition h_multiclass (E : Ext) (m : regr_model) (p : mapref) (h : heap) : mapref * res unit * heap :=
  let '(l, h1) := make_map h in
  let targets := (λ t, default "" (out_fields (rm_output m) !! rt_category t)) <$> rm_tables m in
  match rmap (λ t, linear_form E (rt_intercept t) (rt_predictors t) (deref h1 p)) (rm_tables m) with
  | Ok ys => h_multi E (rm_norm m) ys l (zip targets ys) h1
  | Err e => (None, Err e, h1)
  | Panic x => (None, Panic x, h1)
  end.

(** RegressionModel.Evaluate, regression.go:81-90. *)
Definition h_regr (E : Ext) (m : regr_model) (p : mapref) (h : heap) : mapref * res unit * heap :=
  if rm_function m =s "regression" then h_regression E m p h
  else if (rm_function m =s "classification") && Nat.eqb (length (rm_output m)) 2
  then let '(l, h1) := make_map h in h_binary E m p fone l (rm_tables m) h1
  else if rm_function m =s "classification" then h_multiclass E m p h
  else (None, Err (ERegressionFunction (rm_function m)), h).

(** imputeMissingValues, mining.go:213-222: returns the row it was given. *)
Definition h_impute_step (p : mapref) (acc : res heap) (x : string * value) : res heap :=
  h <-! acc;
  match dr_get (deref h p) x.1 with
  | Some v => if is_nil v then store h p x.1 x.2 else Ok h
  | None => store h p x.1 x.2
  end.
Definition h_impute (E : Ext) (tk : ticket) (defaults : row) (p : mapref) (h : heap) : res mapref * heap :=
  match foldl (h_impute_step p) (Ok h) (map_range E tk defaults) with
  | Ok h1 => (Ok p, h1)
  | Err e => (Err e, h)
  | Panic x => (Panic x, h)   (* the first write panics *)
  end.

(** evaluateMultipleModelSelectFirst, mining.go:119-130. *)
Definition h_first {M} (ev : M → mapref → heap → hres M) (sm : list M) (p : mapref) (h : heap) : hres (list M) :=
  match sm with
  | [] => (None, Err ENoSegments, h, [])
  | s :: sm' =>
      match ev s p h with
      | (q, Ok _, h1, s') => (q, Ok tt, h1, s' :: sm')
      | (_, o, h1, s') => (None, o, h1, s' :: sm')
      end
  end.

(** evaluateMultipleModelChain, mining.go:132-149. *)
Definition h_copy (E : Ext) (tk : ticket) (last p : mapref) (h : heap) : res heap :=
  foldl (λ acc '(k, v), h <-! acc; store h p k v) (Ok h) (map_range E tk (default ∅ (deref h last))).
Definition h_links {M} (E : Ext) (tk : ticket) (ev : nat → M → mapref → heap → hres M)
    : nat → mapref → list M → mapref → heap → hres (list M) :=
  fix go i last sm p h :=
    match sm with
    | [] => (last, Ok tt, h, [])
    | s :: sm' =>
        match h_copy E (0 :: i :: tk) last p h with
        | Ok h1 =>
            match ev i s p h1 with
            | (q, Ok _, h2, s') =>
                match go (S i) q sm' p h2 with (q', o, h3, sm'') => (q', o, h3, s' :: sm'') end
            | (_, o, h2, s') => (None, o, h2, s' :: sm')
            end
        | Err e => (None, Err e, h, s :: sm')
        | Panic x => (None, Panic x, h, s :: sm')   (* the first write panics *)
        end
    end.
Definition h_chain {M} (E : Ext) (tk : ticket) (ev : nat → M → mapref → heap → hres M)
    (sm : list M) (p : mapref) (h : heap) : hres (list M) :=
  let '(l, h1) := make_map h in h_links E tk ev 0 (Some l) sm p h1.

(** The segment loop mining.go:162-181. *)
Definition h_segments {M} (E : Ext) (tk : ticket) (classification : bool)
    (ev : nat → M → mapref → heap → hres M)
    : nat → gmap string f64 → list M → mapref → heap → res (gmap string f64) * heap * list M :=
  fix go i scores sm p h :=
    match sm with
    | [] => (Ok scores, h, [])
    | s :: sm' =>
        match ev i s p h with
        | (q, Ok _, h1, s') =>
            match go (S i) (score_add E (1 :: i :: tk) classification (deref h1 q) scores) sm' p h1 with
            | (o, h2, sm'') => (o, h2, s' :: sm'')
            end
        | (_, Err e, h1, s') => (Err e, h1, s' :: sm')
        | (_, Panic x, h1, s') => (Panic x, h1, s' :: sm')
        end
    end.

(** evaluateMultipleModelSum, mining.go:151-198. *)
Definition h_sum {M} (E : Ext) (tk : ticket) (hd : emining) (ev : nat → M → mapref → heap → hres M)
    (sm : list M) (p : mapref) (h : heap) : hres (list M) :=
  match h_segments E tk (mm_function (em_hdr hd) =s "classification") ev 0
          (score_init (em_outputs hd) (em_targets hd)) sm p h with
  | (Ok scores, h1, sm1) =>
      let '(l, h2) := make_map h1 in
      (Some l, Ok tt,
       foldl (λ h '(k, v), put h l k (GF64 v)) h2 (map_range E (2 :: tk) (foldl rescale_step scores (em_targets hd))), sm1)
  | (Err e, h1, sm1) => (None, Err e, h1, sm1)
  | (Panic x, h1, sm1) => (None, Panic x, h1, sm1)
  end.

(** evaluateMultipleModelAverage, mining.go:200-211. *)
Definition h_average {M} (E : Ext) (tk : ticket) (hd : emining) (ev : nat → M → mapref → heap → hres M)
    (sm : list M) (p : mapref) (h : heap) : hres (list M) :=
  match h_sum E tk hd ev sm p h with
  | (Some l, Ok _, h1, sm1) =>
      (Some l, Ok tt,
       foldl (λ h '(k, v), put h l k (GF64 (fdiv (val_float64 E v) (f64_of_Z (Z.of_nat (length (em_segs hd)))))))
             h1 (map_range E (3 :: tk) (default ∅ (deref h1 (Some l)))), sm1)
  | (None, Ok _, h1, sm1) => (None, Ok tt, h1, sm1)   (* not reached *)
  | (_, o, h1, sm1) => (None, o, h1, sm1)
  end.

(** The switch at mining.go:245-256. *)
Definition h_method {M} (E : Ext) (tk : ticket) (hd : emining) (ev : nat → M → mapref → heap → hres M)
    (sm : list M) (p : mapref) (h : heap) : hres (list M) :=
  let method := mm_method (em_hdr hd) in
  if method =s "average" then h_average E tk hd ev sm p h
  else if method =s "sum" then h_sum E tk hd ev sm p h
  else if method =s "modelChain" then h_chain E tk ev sm p h
  else if method =s "selectFirst" then h_first (ev 0) sm p h
  else (None, Err (EMultipleModelMethod method), h, sm).

(** Model.Evaluate: tree.go:712, mining.go:224-257, regression.go:81. *)
Fixpoint h_evaluate (E : Ext) (tk : ticket) (e : emodel) (p : mapref) (h : heap) {struct e} : hres emodel :=
  match e with
  | ETree t => match h_tree E tk t p h with (q, o, h1, t') => (q, o, h1, ETree t') end
  | ERegr x => match h_regr E (er_model x) p h with (q, o, h1) => (q, o, h1, e) end
  | EMining hd sm =>
      if negb (em_validated hd) then (None, Err ENotValidated, h, e)
      else if negb (em_compiled hd) then (None, Err ENotCompiled, h, e)
      else
        match h_impute E (4 :: tk) (em_defaults hd) p h with
        | (Ok p1, h1) =>
            match h_input E (mm_lt (em_hdr hd)) p1 h1 with
            | (Ok p2, h2) =>
                match h_method E tk hd (λ i s p h, h_evaluate E (5 :: i :: tk) s p h) sm p2 h2 with
                | (q, o, h3, sm') => (q, o, h3, EMining hd sm')
                end
            | (Err x, h2) => (None, Err x, h2, e)
            | (Panic x, h2) => (None, Panic x, h2, e)
            end
        | (Err x, h1) => (None, Err x, h1, e)
        | (Panic x, h1) => (None, Panic x, h1, e)
        end
  end.
