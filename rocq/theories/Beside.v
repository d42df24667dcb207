(** Evaluate as a goroutine that may run beside NewModel calls.  Of the memory that
    NewModel writes (Build.v), Evaluate reads the RawPredicateValue of the simple
    predicates it tests (tree.go:522, through the pointer captured at tree.go:497-505)
    and Segmentation.MultipleModelMethod (mining.go:245); it writes none of it.
    Simplifications: as in Build.v, accesses are atomic and the values read are those
    NewModel left in the evaluator; the reads at tree.go:539-603 repeat the one at 522
    and are not counted again.  The key caches are in Race.v: no NewModel reaches them. *)
From Verif Require Import Base Strconv Value Doc Expr Pred Tree Regression Model Race Build.

(** evaluateSimplePredicate, tree.go:516-609. *)
Definition simple_reads (E : Ext) (ft : fieldtypes) (x : place) (f op : string) (raw : gov) (r : datarow)
    : bprog (res presult) :=
  match ft !! f with
  | None => BRet (Ok RF)
  | Some _ => BTouch false x (BRet (eval_simple E ft f op raw r))
  end.

(** The loop of evaluateCompoundPredicate, tree.go:621-641. *)
Definition compound_reads (ev : nat → predicate → bprog (res presult)) (bop : string) (n : nat)
    : nat → list predicate → nat → nat → bprog (res presult) :=
  fix loop i l tc uc :=
    match l with
    | [] => BRet (Ok (compound_result bop tc uc n))
    | p :: l' => bbind (ev i p) (λ o,
        match o with
        | Ok v =>
            if (bop =s "surrogate") && negb (match v with RU => true | _ => false end)
            then BRet (Ok v)
            else match v with
                 | RT => loop (S i) l' (S tc) uc
                 | RU => loop (S i) l' tc (S uc)
                 | RF => loop (S i) l' tc uc
                 end
        | _ => BRet o
        end)
    end.

(** tree.go:622-630. *)
Fixpoint operand_reads (E : Ext) (ft : fieldtypes) (x : list nat → place) (r : datarow) (q : list nat) (p : predicate)
    {struct p} : bprog (res presult) :=
  match p with
  | PSimple f op _ raw => simple_reads E ft (x q) f op raw r
  | PCompound b ps => compound_reads (λ i, operand_reads E ft x r (q ++ [i])) b (length ps) 0 ps 0 0
  | PSet _ _ _ => BRet (Ok eval_set)
  | PTrue | PFalse | PNone => BRet (Ok RU)
  end.

(** node.test, tree.go:493-510. *)
Definition test_reads (E : Ext) (ft : fieldtypes) (x : list nat → place) (r : datarow) (p : predicate)
    : bprog (res presult) :=
  match p with
  | PSimple _ _ _ _ | PCompound _ _ => operand_reads E ft x r [] p
  | _ => BRet (run_test E ft p r)
  end.

Definition scored : Type := res (list score * presult).

(** The loops over the children that may stop early, tree.go:137-143 and 236-246:
    [stop] is what a child's result makes the loop return. *)
Definition until_reads (f : nat → node → bprog scored) (stop : list score → presult → option (list score * presult))
    (dflt : list score * presult) : nat → list node → bprog scored :=
  fix go i l :=
    match l with
    | [] => BRet (Ok dflt)
    | c :: l' => bbind (f i c) (λ o,
        match o with
        | Ok (s, v) => match stop s v with Some a => BRet (Ok a) | None => go (S i) l' end
        | _ => BRet o
        end)
    end.

(** evaluateMissingValueStrategyNone, tree.go:130-146. *)
Fixpoint none_reads (E : Ext) (cx : tctx) (x : list nat → list nat → place) (r : datarow) (k : list nat) (n : node)
    {struct n} : bprog scored :=
  match n with
  | Node _ _ children _ test _ => bbind (test_reads E (cx_ft cx) (x k) r test) (λ o,
      match o with
      | Ok RT => until_reads (λ i, none_reads E cx x r (k ++ [i]))
                   (λ s v, match v with RT => Some (s, RT) | _ => None end) (output_dist cx n, RT) 0 children
      | Ok _ => BRet (Ok ([], RF))
      | Err e => BRet (Err e)
      | Panic e => BRet (Panic e)
      end)
  end.

(** evaluateMissingValueStrategyNullPrediction, tree.go:225-249. *)
Fixpoint null_reads (E : Ext) (cx : tctx) (x : list nat → list nat → place) (r : datarow) (k : list nat) (n : node)
    {struct n} : bprog scored :=
  match n with
  | Node _ _ children _ test _ => bbind (test_reads E (cx_ft cx) (x k) r test) (λ o,
      match o with
      | Ok RT => until_reads (λ i, null_reads E cx x r (k ++ [i]))
                   (λ s v, match v with RT => Some (s, RT) | RU => Some ([], RU) | RF => None end)
                   (output_dist cx n, RT) 0 children
      | Ok v => BRet (Ok ([], v))
      | Err e => BRet (Err e)
      | Panic e => BRet (Panic e)
      end)
  end.

(** The other strategies evaluate every child before they decide: tree.go:148-175,
    177-223, 251-312 and 314-367.  What they then compute from the children's results
    reads nothing shared; [whole] is [eval_last], [eval_default], [eval_weighted] or
    [eval_aggregate] for the node. *)
Fixpoint every_reads (E : Ext) (cx : tctx) (x : list nat → list nat → place) (r : datarow) (st : string) (base : nat)
    (t : ticket) (k : list nat) (n : node) {struct n} : bprog scored :=
  match n with
  | Node _ _ children _ test _ => bbind (test_reads E (cx_ft cx) (x k) r test) (λ o,
      match o with
      | Ok RF | Err _ | Panic _ => BRet (node_evaluate E cx st r t n)
      | Ok _ =>
          bbind (each_steps (λ i, every_reads E cx x r st base (base + i :: t) (k ++ [i])) 0 children)
            (λ _, BRet (node_evaluate E cx st r t n))
      end)
  end.

(** node.evaluate, tree.go:81-96. *)
Definition node_reads (E : Ext) (cx : tctx) (st : string) (x : list nat → list nat → place) (r : datarow)
    (t : ticket) (n : node) : bprog scored :=
  if st =s "nullPrediction" then null_reads E cx x r [] n
  else if st =s "aggregateNodes" then every_reads E cx x r st 1 t [] n
  else if st =s "weightedConfidence" then every_reads E cx x r st 2 t [] n
  else if (st =s "defaultChild") || (st =s "lastPrediction") then every_reads E cx x r st 0 t [] n
  else none_reads E cx x r [] n.

(** TreeModel.Evaluate, tree.go:712-758. *)
Definition tree_reads (E : Ext) (tk : ticket) (x : list nat → list nat → place) (t : etree) (r : datarow) : bprog reply :=
  if negb (et_validated t) then BRet (Err ENotValidated, r)
  else if negb (et_compiled t) then BRet (Err ENotCompiled, r)
  else
    match handle_input E (tm_lt (et_model t)) r with
    | (Ok _, r') =>
        bbind (node_reads E (tree_ctx t) (tm_strategy (et_model t)) x r' tk (et_root t)) (λ o, BRet (
          match o with
          | Ok (scores, RT) => (tree_output E t scores).1
          | Ok _ => Ok None
          | Err e => Err e
          | Panic e => Panic e
          end, r'))
    | (Err e, r') => BRet (Err e, r')
    | (Panic e, r') => BRet (Panic e, r')
    end.

(** evaluateMultipleModelChain, mining.go:132-149. *)
Definition chain_reads {M} (E : Ext) (tk : ticket) (ev : nat → M → datarow → bprog reply)
    : nat → datarow → list M → datarow → bprog reply :=
  fix go i last sm r :=
    match sm with
    | [] => BRet (Ok last, r)
    | s :: sm' =>
        match copy_into E (0 :: i :: tk) last r with
        | Ok r1 =>
            bbind (ev i s r1) (λ '(o, r2),
              match o with
              | Ok out => go (S i) out sm' r2
              | _ => BRet (o, r2)
              end)
        | Err e => BRet (Err e, r)
        | Panic e => BRet (Panic e, r)
        end
    end.

(** The loop of evaluateMultipleModelSum, mining.go:162-181. *)
Definition sum_reads {M} (E : Ext) (tk : ticket) (classification : bool) (ev : nat → M → datarow → bprog reply)
    : nat → gmap string f64 → list M → datarow → bprog (res (gmap string f64) * datarow) :=
  fix go i scores sm r :=
    match sm with
    | [] => BRet (Ok scores, r)
    | s :: sm' =>
        bbind (ev i s r) (λ '(o, r1),
          match o with
          | Ok out => go (S i) (score_add E (1 :: i :: tk) classification out scores) sm' r1
          | Err e => BRet (Err e, r1)
          | Panic e => BRet (Panic e, r1)
          end)
    end.

(** evaluateMultipleModelSum, mining.go:151-198. *)
Definition total_reads {M} (E : Ext) (tk : ticket) (h : emining) (ev : nat → M → datarow → bprog reply)
    (sm : list M) (r : datarow) : bprog (res row * datarow) :=
  bbind (sum_reads E tk (mm_function (em_hdr h) =s "classification") ev 0
           (score_init (em_outputs h) (em_targets h)) sm r)
    (λ '(o, r1),
      BRet (scores <-! o; Ok (score_out E (2 :: tk) (foldl rescale_step scores (em_targets h))), r1)).

(** The switch mining.go:245-256, with 200-211 and 119-130 in place. *)
Definition method_reads {M} (E : Ext) (tk : ticket) (h : emining) (ev : nat → M → datarow → bprog reply)
    (sm : list M) (r : datarow) : bprog reply :=
  let method := mm_method (em_hdr h) in
  if method =s "average" then
    bbind (total_reads E tk h ev sm r)
      (λ '(o, r1), BRet (out <-! o; Ok (Some (average_row E (3 :: tk) (length (em_segs h)) out)), r1))
  else if method =s "sum" then
    bbind (total_reads E tk h ev sm r) (λ '(o, r1), BRet (out <-! o; Ok (Some out), r1))
  else if method =s "modelChain" then chain_reads E tk ev 0 (Some ∅) sm r
  else if method =s "selectFirst" then
    match sm with [] => BRet (Err ENoSegments, r) | s :: _ => ev 0 s r end
  else BRet (Err (EMultipleModelMethod method), r).

(** Model.Evaluate, tree.go:712, mining.go:224-257, regression.go:81, on an evaluator
    of document [d]. *)
Fixpoint evaluate_reads (E : Ext) (d : nat) (tk : ticket) (p : list nat) (e : emodel) (r : datarow) {struct e}
    : bprog reply :=
  match e with
  | ETree t => tree_reads E tk (AtLiteral d p) t r
  | ERegr x => BRet (regr_evaluate E (er_model x) r, r)
  | EMining h sm =>
      if negb (em_validated h) then BRet (Err ENotValidated, r)
      else if negb (em_compiled h) then BRet (Err ENotCompiled, r)
      else
        match impute E (4 :: tk) (em_defaults h) r with
        | Ok r1 =>
            match handle_input E (mm_lt (em_hdr h)) r1 with
            | (Ok _, r2) =>
                BTouch false (AtMethod d p)
                  (method_reads E tk h (λ i s r, evaluate_reads E d (5 :: i :: tk) (p ++ [i]) s r) sm r2)
            | (Err x, r2) => BRet (Err x, r2)
            | (Panic x, r2) => BRet (Panic x, r2)
            end
        | Err x => BRet (Err x, r)
        | Panic x => BRet (Panic x, r)
        end
  end.

(** ** Goroutines *)

(** m.Evaluate(r) on an evaluator of a numbered document, or NewModel(dd, td, d). *)
Inductive task : Type :=
| Evaluating (n : nat) (e : emodel) (tk : ticket) (r : datarow)
| Building (n : nat) (d : doc_model).

Definition task_steps (E : Ext) (dd : list data_field) (a : task) : bprog (reply + res emodel) :=
  match a with
  | Evaluating n e tk r => bbind (evaluate_reads E n tk [] e r) (λ o, BRet (inl o))
  | Building n d => bbind (build_steps E dd n [] d) (λ o, BRet (inr o))
  end.

Definition tasks_race_free (E : Ext) (dd : list data_field) (td : list derived_field) (l : list task) : Prop :=
  ∀ tr td' ths, bexec td (task_steps E dd <$> l) tr td' ths → ¬ bracy tr.
