(** evaluation/tree.go: compiled trees, the six missing value strategies, and
    TreeModel. *)
From Verif Require Import Base Strconv Value Doc Expr Pred.

(** scoreDist, tree.go:27-32. *)
Record score : Type := Score {
  sc_value : string; sc_conf : f64; sc_prob : f64; sc_count : f64 }.

(** node, tree.go:34-44.  The closure [test] is the compiled predicate; the
    pointer [m] to the TreeModel is the context [tctx] below. *)
Inductive node : Type :=
| Node (id default_child : string) (children : list node) (dists : list score)
       (test : predicate) (sc : score).

Definition n_id (n : node) : string := match n with Node i _ _ _ _ _ => i end.
Definition n_default (n : node) : string := match n with Node _ d _ _ _ _ => d end.
Definition n_children (n : node) : list node := match n with Node _ _ c _ _ _ => c end.
Definition n_dists (n : node) : list score := match n with Node _ _ _ s _ _ => s end.
Definition n_test (n : node) : predicate := match n with Node _ _ _ _ t _ => t end.
Definition n_score (n : node) : score := match n with Node _ _ _ _ _ s => s end.

(** The fields of the TreeModel a node reads through n.m: tree.go:82, 101, 111,
    112, 214, 500. *)
Record tctx : Type := Tctx {
  cx_ft : fieldtypes; cx_dd : list data_field; cx_target : string;
  cx_penalty : f64; cx_notrue : string }.

(** pickBest, tree.go:69-79. *)
Definition pick_best (l : list score) : score :=
  foldl (λ best s, if fltb (sc_prob best) (sc_prob s) then s else best)
        (Score "" fzero fzero fzero) l.

(** outputScoreDist, tree.go:100-128. *)
Definition output_dist (cx : tctx) (n : node) : list score :=
  match n with
  | Node _ _ children dists _ sc =>
      if negb (Nat.eqb (length children) 0) && (cx_notrue cx =s "returnNullPrediction") then []
      else if Nat.ltb 0 (length dists) then dists
      else if negb (cx_target cx =s "") then
        foldl (λ acc fld,
                 if dd_name fld =s cx_target cx then
                   foldl (λ acc v,
                            acc ++ [if v =s sc_value sc
                                    then Score v fone fone (sc_count sc)
                                    else Score v fzero fzero fzero])
                         acc (dd_values fld)
                 else acc)
              [] (cx_dd cx)
      else [sc]
  end.

(** evaluateMissingValueStrategyNone, tree.go:130-146. *)
Definition first_true {A} (f : A → res (list score * presult))
    (dflt : list score * presult) : list A → res (list score * presult) :=
  fix go l := match l with
    | [] => Ok dflt
    | c :: l' =>
        '(s, cr) <-! f c;
        match cr with RT => Ok (s, RT) | _ => go l' end
    end.

Fixpoint eval_none (E : Ext) (cx : tctx) (r : datarow) (n : node) {struct n}
    : res (list score * presult) :=
  match n with
  | Node _ _ children _ test _ =>
      result <-! run_test E (cx_ft cx) test r;
      match result with
      | RF | RU => Ok ([], RF)
      | RT => first_true (eval_none E cx r) (output_dist cx n, result) children
      end
  end.

(** evaluateMissingValueStrategyLastPrediction, tree.go:148-175.  The loop over
    the children runs to its end, so the model evaluates all of them first and
    then folds; [unknownValues] and [trueDist] are the accumulators. *)
Definition scan_step (acc : bool * list score) (x : list score * presult)
    : bool * list score :=
  let '(unknown, true_dist) := acc in
  let '(s, cr) := x in
  match cr with
  | RU => (true, true_dist)
  | RT => (unknown, s)
  | RF => (unknown, true_dist)
  end.

Fixpoint eval_last (E : Ext) (cx : tctx) (r : datarow) (n : node) {struct n}
    : res (list score * presult) :=
  match n with
  | Node _ _ children _ test _ =>
      result <-! run_test E (cx_ft cx) test r;
      match result with
      | RF => Ok ([], RF)
      | _ =>
          rs <-! rmap (eval_last E cx r) children;
          let '(unknown, true_dist) := foldl scan_step (false, []) rs in
          if negb unknown && negb (Nat.eqb (length true_dist) 0) then Ok (true_dist, RT)
          else Ok (output_dist cx n, result)
      end
  end.

(** evaluateMissingValueStrategyDefaultChild, tree.go:177-223. *)
Definition adjust (penalty : f64) (s : score) : score :=
  Score (sc_value s) (fmul (sc_conf s) penalty) (fmul (sc_prob s) penalty) (sc_count s).

Fixpoint eval_default (E : Ext) (cx : tctx) (r : datarow) (n : node) {struct n}
    : res (list score * presult) :=
  match n with
  | Node _ default_child children _ test _ =>
      result <-! run_test E (cx_ft cx) test r;
      match result with
      | RF => Ok ([], RF)
      | _ =>
          rs <-! rmap (eval_default E cx r) children;
          let child_scores : gmap string (list score) :=
            foldl (λ m '(c, x), <[n_id c := x.1]> m) ∅ (zip children rs) in
          let '(unknown, true_dist) := foldl scan_step (false, []) rs in
          if negb unknown && negb (Nat.eqb (length true_dist) 0) then Ok (true_dist, RT)
          else if unknown then
            match child_scores !! default_child with
            | None => Ok ([], RU)
            | Some ds => Ok (adjust (cx_penalty cx) <$> ds, RT)
            end
          else Ok (output_dist cx n, result)
      end
  end.

(** evaluateMissingValueStrategyNullPrediction, tree.go:225-249. *)
Definition first_known {A} (f : A → res (list score * presult))
    (dflt : list score * presult) : list A → res (list score * presult) :=
  fix go l := match l with
    | [] => Ok dflt
    | c :: l' =>
        '(s, cr) <-! f c;
        match cr with RT => Ok (s, RT) | RU => Ok ([], RU) | RF => go l' end
    end.

Fixpoint eval_null (E : Ext) (cx : tctx) (r : datarow) (n : node) {struct n}
    : res (list score * presult) :=
  match n with
  | Node _ _ children _ test _ =>
      result <-! run_test E (cx_ft cx) test r;
      match result with
      | RF => Ok ([], RF)
      | RU => Ok ([], RU)
      | RT => first_known (eval_null E cx r) (output_dist cx n, result) children
      end
  end.

(** evaluateMissingValueStrategyWeightedConfidence, tree.go:251-312. *)

(** one child in the loop 264-278: the maps childRecordCounts and childScores
    and totalRecordCount *)
Definition wc_collect (acc : gmap string f64 * gmap string (list score) * f64)
    (x : node * (list score * presult))
    : gmap string f64 * gmap string (list score) * f64 :=
  let '(counts, scores, total) := acc in
  let '(c, (s, cr)) := x in
  match cr with
  | RF => acc
  | _ => (<[n_id c := sc_count (n_score c)]> counts, <[n_id c := s]> scores,
          fadd total (sc_count (n_score c)))
  end.

(** one score in the loop 288-300 *)
Definition wc_add (weight : f64) (agg : gmap string score) (s : score) : gmap string score :=
  let a := default (Score (sc_value s) fzero fzero fzero) (agg !! sc_value s) in
  <[sc_value s := Score (sc_value a)
                        (fadd (sc_conf a) (fmul (sc_conf s) weight))
                        (fadd (sc_prob a) (fmul (sc_prob s) weight))
                        (fadd (sc_count a) (sc_count s))]> agg.

Fixpoint eval_weighted (E : Ext) (cx : tctx) (r : datarow) (t : ticket) (n : node) {struct n}
    : res (list score * presult) :=
  match n with
  | Node _ _ children dists test _ =>
      result <-! run_test E (cx_ft cx) test r;
      match result with
      | RF => Ok (dists, RF)
      | _ =>
          rs <-! rmapi (λ i c, eval_weighted E cx r (i :: t) c) 2 children;
          let '(unknown, true_dist) := foldl scan_step (false, []) rs in
          let '(counts, scores, total) := foldl wc_collect (∅, ∅, fzero) (zip children rs) in
          if negb unknown && Nat.ltb 0 (length true_dist) then Ok (true_dist, result)
          else if unknown then
            let agg : gmap string score :=
              foldl (λ agg '(nid, ss),
                       foldl (wc_add (fdiv (default fzero (counts !! nid)) total)) agg ss)
                    ∅ (map_range E (0 :: t) scores) in
            Ok ((map_range E (1 :: t) agg).*2, RT)
          else Ok (output_dist cx n, result)
      end
  end.

(** evaluateMissingValueStrategyAggregateNodes, tree.go:314-367. *)

(** one score in the loop 344-354: aggScoreMap and recordCount *)
Definition an_add (acc : gmap string score * f64) (s : score) : gmap string score * f64 :=
  let '(agg, total) := acc in
  let a := default (Score (sc_value s) fzero fzero fzero) (agg !! sc_value s) in
  (<[sc_value s := Score (sc_value a) (sc_conf a) (sc_prob a)
                         (fadd (sc_count a) (sc_count s))]> agg,
   fadd total (sc_count s)).

Fixpoint eval_aggregate (E : Ext) (cx : tctx) (r : datarow) (t : ticket) (n : node) {struct n}
    : res (list score * presult) :=
  match n with
  | Node _ _ children _ test _ =>
      result <-! run_test E (cx_ft cx) test r;
      match result with
      | RF => Ok (output_dist cx n, RF)
      | _ =>
          rs <-! rmapi (λ i c, eval_aggregate E cx r (i :: t) c) 1 children;
          let child_scores := concat rs.*1 in
          let '(unknown, true_dist) := foldl scan_step (false, []) rs in
          if negb unknown && negb (Nat.eqb (length true_dist) 0) then Ok (true_dist, result)
          else if unknown then
            let '(agg, total) := foldl an_add (∅, fzero) child_scores in
            Ok ((λ '(_, a), Score (sc_value a) (fdiv (sc_count a) total)
                                  (fdiv (sc_count a) total) (sc_count a))
                  <$> map_range E (0 :: t) agg, RT)
          else Ok (output_dist cx n, result)
      end
  end.

(** node.evaluate, tree.go:81-96; strategy names simpleTypes.go:369-374. *)
Definition node_evaluate (E : Ext) (cx : tctx) (strategy : string) (r : datarow)
    (t : ticket) (n : node) : res (list score * presult) :=
  if strategy =s "nullPrediction" then eval_null E cx r n
  else if strategy =s "aggregateNodes" then eval_aggregate E cx r t n
  else if strategy =s "weightedConfidence" then eval_weighted E cx r t n
  else if strategy =s "defaultChild" then eval_default E cx r n
  else if strategy =s "lastPrediction" then eval_last E cx r n
  else eval_none E cx r n.

(** The score distribution part of newNode, tree.go:453-476. *)
Definition total_records (l : list score_distribution) : f64 :=
  foldl (λ acc sc, fadd acc (sd_count sc)) fzero l.

Definition convert_dists (l : list score_distribution) : list score :=
  let total := total_records l in
  (λ sc, Score (sd_value sc)
               (default (fdiv (sd_count sc) total) (sd_conf sc))
               (default (fdiv (sd_count sc) total) (sd_prob sc))
               (sd_count sc)) <$> l.

(** newNode, tree.go:441-513: children first, then the node's own predicate. *)
Fixpoint new_node (E : Ext) (ft : fieldtypes) (m : mnode) {struct m} : res node :=
  match m with
  | MNode id dc sc count dists nodes pred =>
      children <-! rmap (new_node E ft) nodes;
      test <-! compile_predicate E ft pred;
      Ok (Node id dc children (convert_dists dists) test (Score sc fzero fzero count))
  end.

(** The node after another newNode on the document it was built from,
    tree.go:474-487: children first, then the node's own predicate. *)
Fixpoint touch_node (E : Ext) (ft : fieldtypes) (n : node) : bool * node :=
  match n with
  | Node id dc cs ds t sc =>
      match touch_list (touch_node E ft) cs with
      | (true, cs') => let '(ok, t') := touch_pred E ft t in (ok, Node id dc cs' ds t' sc)
      | (false, cs') => (false, Node id dc cs' ds t sc)
      end
  end.

(** TreeModel, tree.go:9-23.  [et_td] is not stored: the shared dictionary is
    threaded through Compile, and Evaluate does not read it. *)
Record etree : Type := ETree_ {
  et_validated : bool; et_compiled : bool;
  et_dd : list data_field; et_model : tree_model;
  et_ft : fieldtypes; et_root : node;
  et_outkeys : gmap string string; et_target : string }.

(** m.root before Compile: the zero node. *)
Definition zero_node : node := Node "" "" [] [] PNone (Score "" fzero fzero fzero).

(** Validate's defaults for a mining field, tree.go:396-406. *)
Definition mf_defaults (f : mining_field) : mining_field :=
  MiningField (mf_name f)
    (if mf_usage f =s "" then "active" else mf_usage f) (mf_replacement f)
    (if mf_outliers f =s "" then "asIs" else mf_outliers f)
    (if mf_invalid f =s "" then "returnInvalid" else mf_invalid f).

(** TreeModel.Validate, tree.go:389-413; the document is updated in place. *)
Definition tree_validate (t : etree) : res unit * etree :=
  let m := et_model t in
  if negb (tm_function m =s "classification") && negb (tm_function m =s "regression")
  then (Err (EMiningFunction (tm_function m)), t)
  else (Ok tt,
        ETree_ true (et_compiled t) (et_dd t)
          (TreeModel (tm_function m) (tm_strategy m) (tm_penalty m) (tm_notrue m) (tm_lt m)
                     (mf_defaults <$> tm_schema m) (tm_verification m) (tm_node m))
          (et_ft t) (et_root t) (et_outkeys t) (et_target t)).

(** The target field: the last mining field with usage "target", tree.go:677-681
    and mining.go:75-78. *)
Definition target_of (old : string) (l : list mining_field) : string :=
  foldl (λ acc f, if mf_usage f =s "target" then mf_name f else acc) old l.

(** m.fieldTypes, tree.go:683-695 and mining.go:85-97, from the data dictionary
    and the (already extended) transformation dictionary. *)
Definition field_types (dd : list data_field) (td : list derived_field) : fieldtypes :=
  foldl (λ ft df, <[df_name df := df_datatype df]> ft)
        (foldl (λ ft df, <[dd_name df := dd_datatype df]> ft) ∅ dd) td.

(** TreeModel.Compile, tree.go:676-706; also returns the transformation
    dictionary as extended at 689-691.  When compilation fails, the tests of the
    nodes built before are left with the literals cached so far. *)
Definition tree_compile (E : Ext) (td : list derived_field) (t : etree)
    : res unit * etree * list derived_field :=
  let m := et_model t in
  let td' := td ++ tm_lt m in
  let ft := field_types (et_dd t) td' in
  let target := target_of (et_target t) (tm_schema m) in
  match new_node E ft (tm_node m) with
  | Ok root => (Ok tt, ETree_ (et_validated t) true (et_dd t) m ft root (et_outkeys t) target, td')
  | Err e => (Err e, ETree_ (et_validated t) (et_compiled t) (et_dd t) m ft
                            (touch_node E ft (et_root t)).2 (et_outkeys t) target, td')
  | Panic p => (Panic p, t, td')
  end.

(** NewTreeModel, tree.go:369-387. *)
Definition new_tree_model (E : Ext) (dd : list data_field) (td : list derived_field)
    (m : tree_model) : res etree * list derived_field :=
  match tree_validate (ETree_ false false dd m ∅ zero_node ∅ "") with
  | (Ok _, t1) =>
      match tree_compile E td t1 with
      | (Ok _, t2, td') => (Ok t2, td')
      | (Err e, _, td') => (Err e, td')
      | (Panic p, _, td') => (Panic p, td')
      end
  | (Err e, _) => (Err e, td)
  | (Panic p, _) => (Panic p, td)
  end.

Definition tree_ctx (t : etree) : tctx :=
  Tctx (et_ft t) (et_dd t) (et_target t) (tm_penalty (et_model t)) (tm_notrue (et_model t)).

(** the key cached at tree.go:737-741 *)
Definition prob_key (v : string) : string := "probability(" +:+ v +:+ ")".

(** The loop tree.go:736-744: the output row and the key cache. *)
Definition out_step (acc : row * gmap string string) (s : score)
    : row * gmap string string :=
  let '(out, keys) := acc in
  match keys !! sc_value s with
  | Some key => (<[key := GF64 (sc_prob s)]> out, keys)
  | None => (<[prob_key (sc_value s) := GF64 (sc_prob s)]> out,
             <[sc_value s := prob_key (sc_value s)]> keys)
  end.

(** TreeModel.Evaluate after HandleInput, tree.go:728-757.  [Ok None] is the
    "return nil, nil" at the end. *)
Definition tree_output (E : Ext) (t : etree) (scores : list score)
    : res datarow * gmap string string :=
  let m := et_model t in
  if tm_function m =s "classification" then
    let best := pick_best scores in
    let '(out, keys) :=
      foldl out_step ({[et_target t := GStr (sc_value best)]}, et_outkeys t) scores in
    (Ok (Some out), keys)
  else if tm_function m =s "regression" then
    (match scores with
     | [] => Panic PIndex
     | s :: _ =>
         match ext_parse_float E (sc_value s) with
         | Some f => Ok (Some {["score" := GF64 f]})
         | None => Err (EParseFloat (sc_value s))
         end
     end, et_outkeys t)
  else (Ok (Some ∅), et_outkeys t).

(** TreeModel.Evaluate, tree.go:712-758: outcome, the caller's row afterwards,
    the evaluator afterwards (only outKeys changes). *)
Definition tree_evaluate (E : Ext) (tk : ticket) (t : etree) (r : datarow)
    : res datarow * datarow * etree :=
  if negb (et_validated t) then (Err ENotValidated, r, t)
  else if negb (et_compiled t) then (Err ENotCompiled, r, t)
  else
    match handle_input E (tm_lt (et_model t)) r with
    | (Ok _, r') =>
        match node_evaluate E (tree_ctx t) (tm_strategy (et_model t)) r' tk (et_root t) with
        | Ok (scores, RT) =>
            let '(o, keys) := tree_output E t scores in
            (o, r', ETree_ (et_validated t) (et_compiled t) (et_dd t) (et_model t) (et_ft t)
                           (et_root t) keys (et_target t))
        | Ok _ => (Ok None, r', t)
        | Err e => (Err e, r', t)
        | Panic p => (Panic p, r', t)
        end
    | (Err e, r') => (Err e, r', t)
    | (Panic p, r') => (Panic p, r', t)
    end.
