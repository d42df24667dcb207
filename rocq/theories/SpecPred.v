(** Independent specification of predicates: three-valued logic and the meaning
    of a simple predicate, as PMML describes them. *)
From Verif Require Import Base Strconv Value Doc Pred.

(** ** Three-valued connectives on lists of operand values *)
Definition tv_and (l : list presult) : presult :=
  if decide (RF ∈ l) then RF else if decide (RU ∈ l) then RU else RT.
Definition tv_or (l : list presult) : presult :=
  if decide (RT ∈ l) then RT else if decide (RU ∈ l) then RU else RF.
Definition tv_xor (l : list presult) : presult :=
  if decide (RU ∈ l) then RU
  else if Nat.odd (length (filter (λ v, v = RT) l)) then RT else RF.
Definition tv_surrogate (l : list presult) : presult :=
  default RU (head (filter (λ v, v ≠ RU) l)).

(** booleanOperator; an unknown operator name is false (unless it stops earlier) *)
Definition tv_compound (bop : string) (l : list presult) : presult :=
  if bop =s "and" then tv_and l
  else if bop =s "or" then tv_or l
  else if bop =s "xor" then tv_xor l
  else if bop =s "surrogate" then tv_surrogate l
  else RF.

(** ** Simple predicates *)
Definition order_ops : list string :=
  ["lessThan"; "lessOrEqual"; "greaterThan"; "greaterOrEqual"].

(** Whether an ordering operator holds, given how the input compares with the
    literal ([None]: not comparable, NaN). *)
Definition order_holds (op : string) (c : option comparison) : bool :=
  match c with
  | Some Lt => (op =s "lessThan") || (op =s "lessOrEqual")
  | Some Eq => (op =s "lessOrEqual") || (op =s "greaterOrEqual")
  | Some Gt => (op =s "greaterThan") || (op =s "greaterOrEqual")
  | None => false
  end.

(** The input is equal to the literal: it has the Go type that represents the
    data type, and the same value. *)
Definition same_as_literal (E : Ext) (dt : string) (v : value) (lit : string) : bool :=
  match v with
  | GBool b => (dt =s "boolean") && bool_decide (parse_bool lit = Some b)
  | GF64 x => ((dt =s "double") || (dt =s "float")) &&
              match ext_parse_float E lit with
              | Some y => bool_decide (SFcompare x y = Some Eq)
              | None => false
              end
  | GInt KInt64 z => (dt =s "integer") && bool_decide (parse_int lit = Some z)
  | GStr s => (dt =s "string") && bool_decide (s = lit)
  | _ => false
  end.

(** How the input compares with the literal under data type [dt]. *)
Definition compare_literal (E : Ext) (dt : string) (v : value) (lit : string)
    : option comparison :=
  if (dt =s "double") || (dt =s "float") then
    match ext_parse_float E lit with
    | Some y => SFcompare (val_float64 E v) y
    | None => None
    end
  else if dt =s "integer" then
    match parse_int lit with Some y => Some (val_int64 v ?= y)%Z | None => None end
  else None.

(** The three-valued meaning of "field op lit" with the field's value [ov]. *)
Definition simple_meaning (E : Ext) (dt op lit : string) (ov : option value) : presult :=
  match ov with
  | None => if op =s "isMissing" then RT else RU
  | Some v =>
      if op =s "isNotMissing" then RT
      else if op =s "equal" then of_bool (same_as_literal E dt v lit)
      else if op =s "notEqual" then of_bool (negb (same_as_literal E dt v lit))
      else of_bool (order_holds op (compare_literal E dt v lit))
  end.

(** ** Whole predicates *)

(** The meaning of a predicate of the document. *)
Fixpoint pred_meaning (E : Ext) (ft : fieldtypes) (r : datarow) (p : predicate) : presult :=
  match p with
  | PTrue => RT
  | PFalse => RF
  | PSimple f op lit _ =>
      match ft !! f with
      | Some dt => simple_meaning E dt op lit (dr_get r f)
      | None => RF
      end
  | PCompound b ps => tv_compound b (pred_meaning E ft r <$> ps)
  | PSet _ _ _ => RF
  | PNone => RU
  end.

(** No True, False or absent operand inside a compound predicate. *)
Fixpoint no_const_operand (p : predicate) : Prop :=
  match p with
  | PCompound _ ps =>
      (fix go l := match l with
         | [] => True
         | q :: l' => match q with PTrue | PFalse | PNone => False | _ => no_const_operand q end
                      ∧ go l'
         end) ps
  | _ => True
  end.

(** The fields a predicate mentions. *)
Fixpoint pred_fields (p : predicate) : list string :=
  match p with
  | PSimple f _ _ _ => [f]
  | PCompound _ ps => concat (map pred_fields ps)
  | PSet _ f _ => [f]
  | _ => []
  end.

(** The simple predicates of a predicate, as (field, literal). *)
Fixpoint pred_simples (p : predicate) : list (string * string) :=
  match p with
  | PSimple f _ lit _ => [(f, lit)]
  | PCompound _ ps => concat (map pred_simples ps)
  | _ => []
  end.

(** The decimal numerals and what they denote, digit by digit. *)
Inductive numeral : string → Z → Prop :=
  | numeral_digit d : (d < 10)%nat → numeral (String.String (Ascii.ascii_of_nat (48 + d)) "") (Z.of_nat d)
  | numeral_more s z d : numeral s z → (d < 10)%nat →
      numeral (s +:+ String.String (Ascii.ascii_of_nat (48 + d)) "") (10 * z + Z.of_nat d).

(** The text of a 64-bit integer: an optional sign and a numeral. *)
Definition integer_text (s : string) (z : Z) : Prop :=
  (- 9223372036854775808 <= z <= 9223372036854775807)%Z ∧
  (numeral s z ∨ ∃ t, (s = "+" +:+ t ∧ numeral t z) ∨ (s = "-" +:+ t ∧ numeral t (- z))).

(** A literal of the given data type. *)
Definition literal_ok (E : Ext) (dt lit : string) : Prop :=
  (dt = "boolean" ∧ lit ∈ ["1"; "t"; "T"; "true"; "TRUE"; "True";
                            "0"; "f"; "F"; "false"; "FALSE"; "False"]) ∨
  ((dt = "double" ∨ dt = "float") ∧ is_Some (ext_parse_float E lit)) ∨
  (dt = "integer" ∧ ∃ z, integer_text lit z) ∨
  dt = "string".

(** PMML membership, for C12. *)
Definition set_meaning (E : Ext) (bop : string) (arr : list string) (ov : option value)
    : presult :=
  match ov with
  | None => RU
  | Some v =>
      if bop =s "isIn" then of_bool (bool_decide (val_string E v ∈ arr))
      else of_bool (negb (bool_decide (val_string E v ∈ arr)))
  end.
