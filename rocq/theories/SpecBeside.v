(** Which simple predicates an evaluation tests, in terms of the results of tests,
    nodes and segments. *)
From Verif Require Import Base Strconv Value Doc Expr Pred Tree Regression Model.

(** Testing [p] tests a simple predicate on a known field: the predicate itself, or an
    operand that is reached.  A surrogate stops at the first operand that is not
    unknown, the other compounds reach every operand. *)
Inductive asks (E : Ext) (ft : fieldtypes) (r : datarow) : predicate → Prop :=
| asks_simple f op v raw : is_Some (ft !! f) → asks E ft r (PSimple f op v raw)
| asks_operand b before p after :
    Forall (λ q, ∃ v, eval_operand E ft r q = Ok v ∧ (b = "surrogate" → v = RU)) before →
    asks E ft r p → asks E ft r (PCompound b (before ++ p :: after)).

Definition exhaustive (st : string) : Prop :=
  st = "aggregateNodes" ∨ st = "weightedConfidence" ∨ st = "defaultChild" ∨ st = "lastPrediction".

(** a node whose test gave [v] looks at its children *)
Definition enters (st : string) (v : presult) : Prop := v = RT ∨ v = RU ∧ exhaustive st.
(** after a child that gave [v] the next child is looked at *)
Definition moves_on (st : string) (v : presult) : Prop :=
  if decide (st = "nullPrediction") then v = RF else exhaustive st ∨ v ≠ RT.

Inductive node_asks (E : Ext) (cx : tctx) (st : string) (r : datarow) : node → Prop :=
| node_asks_test n : asks E (cx_ft cx) r (n_test n) → node_asks E cx st r n
| node_asks_child n v before c after :
    n_children n = before ++ c :: after →
    run_test E (cx_ft cx) (n_test n) r = Ok v → enters st v →
    Forall (λ c', ∃ t s v', node_evaluate E cx st r t c' = Ok (s, v') ∧ moves_on st v') before →
    node_asks E cx st r c → node_asks E cx st r n.

(** [fed E tk chain sm r i last r']: segment [i] is reached with the row [r'], the
    reply of the segment before it being [last]. *)
Inductive fed (E : Ext) (tk : ticket) (chained : bool) (sm : list emodel) (r : datarow) : nat → datarow → datarow → Prop :=
| fed_first : fed E tk chained sm r 0 (Some ∅) r
| fed_next i last r1 r2 s out r3 :
    fed E tk chained sm r i last r1 → sm !! i = Some s →
    (if chained then copy_into E (0 :: i :: tk) last r1 = Ok r2 else r2 = r1) →
    (evaluate E (5 :: i :: tk) s r2).1 = (Ok out, r3) →
    fed E tk chained sm r (S i) out r3.

(** Evaluate tests a simple predicate of some tree. *)
Inductive model_asks (E : Ext) : ticket → emodel → datarow → Prop :=
| asks_tree tk t r r' :
    et_validated t = true → et_compiled t = true → handle_input E (tm_lt (et_model t)) r = (Ok tt, r') →
    node_asks E (tree_ctx t) (tm_strategy (et_model t)) r' (et_root t) → model_asks E tk (ETree t) r
| asks_segment tk h sm r r1 r2 i s last r3 r4 :
    em_validated h = true → em_compiled h = true → impute E (4 :: tk) (em_defaults h) r = Ok r1 →
    handle_input E (mm_lt (em_hdr h)) r1 = (Ok tt, r2) →
    sm !! i = Some s → fed E tk (mm_method (em_hdr h) =s "modelChain") sm r2 i last r3 →
    (if mm_method (em_hdr h) =s "modelChain" then copy_into E (0 :: i :: tk) last r3 = Ok r4 else r4 = r3) →
    (mm_method (em_hdr h) = "selectFirst" → i = 0) →
    mm_method (em_hdr h) ∈ ["average"; "sum"; "modelChain"; "selectFirst"] →
    model_asks E (5 :: i :: tk) s r4 → model_asks E tk (EMining h sm) r.
