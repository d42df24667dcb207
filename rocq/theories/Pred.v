(** evaluation/tree.go: predicates. *)
From Verif Require Import Base Strconv Value Doc.

(** predicateResult, tree.go:50-56. *)
Inductive presult : Type := RU | RT | RF.
Global Instance presult_eq_dec : EqDecision presult.
Proof. solve_decision. Defined.

Notation fieldtypes := (gmap string string) (only parsing).

(** p.RawPredicateValue.(float64) and .(int64), tree.go:549-602. *)
Definition as_f64 (v : gov) : res f64 :=
  match v with GF64 f => Ok f | _ => Panic PTypeAssert end.
Definition as_i64 (v : gov) : res Z :=
  match v with GInt KInt64 z => Ok z | _ => Panic PTypeAssert end.

Definition of_bool (b : bool) : presult := if b then RT else RF.

(** One ordering operator, e.g. tree.go:546-560: [cmpf]/[cmpz] compare the
    input (left) with the literal (right). *)
Definition ordering (E : Ext) (cmpf : f64 → f64 → bool) (cmpz : Z → Z → bool)
    (dt : string) (v : value) (raw : gov) : res presult :=
  if (dt =s "double") || (dt =s "float") then
    x <-! as_f64 raw; Ok (of_bool (cmpf (val_float64 E v) x))
  else if dt =s "integer" then
    x <-! as_i64 raw; Ok (of_bool (cmpz (val_int64 v) x))
  else Ok RF.

(** evaluateSimplePredicate, tree.go:516-609. *)
Definition eval_simple (E : Ext) (ft : fieldtypes) (field op : string) (raw : gov)
    (r : datarow) : res presult :=
  match ft !! field with
  | None => Ok RF
  | Some dt =>
      if is_nil raw then Ok RF else
      match dr_get r field with
      | None => Ok (if op =s "isMissing" then RT else RU)
      | Some v =>
          if op =s "isNotMissing" then Ok RT
          else if op =s "equal" then Ok (of_bool (gov_eqb v raw))
          else if op =s "notEqual" then Ok (of_bool (negb (gov_eqb v raw)))
          else if op =s "greaterOrEqual" then
            ordering E (λ a b, fleb b a) (λ a b, (b <=? a)%Z) dt v raw
          else if op =s "greaterThan" then
            ordering E (λ a b, fltb b a) (λ a b, (b <? a)%Z) dt v raw
          else if op =s "lessOrEqual" then
            ordering E fleb Z.leb dt v raw
          else if op =s "lessThan" then
            ordering E fltb Z.ltb dt v raw
          else Ok RF
      end
  end.

(** evaluateSimpleSetPredicate, tree.go:611-613. *)
Definition eval_set : presult := RF.

(** The final switch of evaluateCompoundPredicate, tree.go:643-673; [tc], [uc]
    are trueCount and unknownCount, [n] is len(p.Predicates). *)
Definition compound_result (bop : string) (tc uc n : nat) : presult :=
  if bop =s "and" then
    if Nat.ltb 0 uc && Nat.eqb (uc + tc) n then RU
    else if Nat.eqb tc n then RT else RF
  else if bop =s "or" then
    if Nat.ltb 0 tc then RT else if Nat.ltb 0 uc then RU else RF
  else if bop =s "xor" then
    if Nat.ltb 0 uc then RU else if Nat.odd tc then RT else RF
  else if bop =s "surrogate" then RU
  else RF.

(** The loop of evaluateCompoundPredicate, tree.go:621-641, followed by the
    final switch; [ev] evaluates one operand, [n] is len(p.Predicates). *)
Definition compound_loop (ev : predicate → res presult) (bop : string) (n : nat)
    : list predicate → nat → nat → res presult :=
  fix loop l tc uc :=
    match l with
    | [] => Ok (compound_result bop tc uc n)
    | p :: l' =>
        v <-! ev p;
        if (bop =s "surrogate") && negb (match v with RU => true | _ => false end)
        then Ok v
        else match v with
             | RT => loop l' (S tc) uc
             | RU => loop l' tc (S uc)
             | RF => loop l' tc uc
             end
    end.

(** One operand of a compound predicate, tree.go:622-630, the recursive call of
    evaluateCompoundPredicate included.  The type switch has no case for True,
    False or nil, so these operands leave [val] at u. *)
Fixpoint eval_operand (E : Ext) (ft : fieldtypes) (r : datarow) (p : predicate)
    {struct p} : res presult :=
  match p with
  | PSimple f op _ raw => eval_simple E ft f op raw r
  | PCompound b qs => compound_loop (eval_operand E ft r) b (length qs) qs 0 0
  | PSet _ _ _ => Ok eval_set
  | PTrue | PFalse | PNone => Ok RU
  end.

(** evaluateCompoundPredicate, tree.go:615-674. *)
Definition eval_compound (E : Ext) (ft : fieldtypes) (bop : string) (ps : list predicate)
    (r : datarow) : res presult :=
  compound_loop (eval_operand E ft r) bop (length ps) ps 0 0.

(** node.test as built in newNode, tree.go:493-510; a nil predicate leaves the
    func value nil, and calling it panics. *)
Definition run_test (E : Ext) (ft : fieldtypes) (p : predicate) (r : datarow) : res presult :=
  match p with
  | PTrue => Ok RT
  | PFalse => Ok RF
  | PSimple f op _ raw => eval_simple E ft f op raw r
  | PCompound b ps => eval_compound E ft b ps r
  | PSet _ _ _ => Ok RF
  | PNone => Panic PNilFunc
  end.

(** compilePredicate, tree.go:415-439: fills in RawPredicateValue. *)
Fixpoint compile_predicate (E : Ext) (ft : fieldtypes) (p : predicate) : res predicate :=
  match p with
  | PSimple f op v _ =>
      match ft !! f with
      | None => Err (EUnknownField f)
      | Some dt => raw <-! get_raw_value E dt v; Ok (PSimple f op v raw)
      end
  | PCompound b ps =>
      ps' <-! rmap (compile_predicate E ft) ps;
      Ok (PCompound b ps')
  | _ => Ok p
  end.

(** compilePredicate writes RawPredicateValue into the predicate of the document
    (tree.go:428), which every evaluator built from the document shares
    (tree.go:491-505 capture the pointer).  [touch_pred] is the predicate after
    another compilePredicate with the field types [ft], with whether that
    succeeded; after a failure the remaining operands are as they were. *)
Definition touch_list {A} (f : A → bool * A) : list A → bool * list A :=
  fix go l :=
    match l with
    | [] => (true, [])
    | a :: l' =>
        match f a with
        | (true, a') => let '(ok, l2) := go l' in (ok, a' :: l2)
        | (false, a') => (false, a' :: l')
        end
    end.

Fixpoint touch_pred (E : Ext) (ft : fieldtypes) (p : predicate) : bool * predicate :=
  match p with
  | PSimple f op v raw =>
      match ft !! f with
      | None => (false, p)
      | Some dt =>
          match get_raw_value E dt v with
          | Ok x => (true, PSimple f op v x)
          | _ => (false, p)
          end
      end
  | PCompound b ps => let '(ok, ps') := touch_list (touch_pred E ft) ps in (ok, PCompound b ps')
  | _ => (true, p)
  end.
