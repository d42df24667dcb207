(** evaluation/input.go: expressions and derived fields. *)
From Verif Require Import Base Strconv Value Doc.

(** handleConstantExpression, input.go:11-21. *)
Definition handle_constant (E : Ext) (dt v : string) : res value :=
  if dt =s "double" then
    match ext_parse_float E v with Some f => Ok (GF64 f) | None => Err (EParseFloat v) end
  else Err (EConstType dt).

(** handleMapValuesExpression, input.go:126-164.  [columns] is the local map. *)
Definition map_columns (pairs : list (string * string)) (r : datarow) : row :=
  foldl (λ cols '(fld, col),
           match dr_get r fld with Some v => <[col := v]> cols | None => cols end)
        ∅ pairs.

(** columns[c].String() of a possibly absent column: the zero Value is nil;
    row["input"] of an absent key is "". *)
Definition map_table_step (E : Ext) (cols : row) (rw : gmap string string) : row :=
  if default "" (rw !! "input") =s val_string E (default GNil (cols !! "data:input"))
  then <["data:output" := GStr (default "" (rw !! "output"))]> cols
  else cols.

Definition handle_map_values (E : Ext) (pairs : list (string * string))
    (tables : list (list (gmap string string))) (dflt : option string) (dt : string)
    (r : datarow) : res value :=
  let cols := foldl (λ cols tbl, foldl (map_table_step E) cols tbl)
                    (map_columns pairs r) tables in
  match cols !! "data:output" with
  | Some v => Ok v
  | None =>
      match dflt with
      | Some d => get_raw_value E dt d
      | None =>
          match cols !! "data:input" with
          | Some v => Ok v
          | None => Err EMapValues
          end
      end
  end.

(** The four binary functions, input.go:48-59. *)
Definition arith (fn : string) (a b : f64) : f64 :=
  if fn =s "*" then fmul a b
  else if fn =s "+" then fadd a b
  else if fn =s "-" then fsub a b
  else fdiv a b.

Definition is_arith (fn : string) : bool :=
  (fn =s "*") || (fn =s "+") || (fn =s "-") || (fn =s "/").

(** HandleExpression, input.go:166-184, with handleApplyExpression, 23-107, and
    isMissing, 109-124, in place.  An absent field reads as the zero Value. *)
Fixpoint handle_expr (E : Ext) (e : expr) (r : datarow) {struct e} : res value :=
  match e with
  | XField f _ => Ok (default GNil (dr_get r f))
  | XConst dt v => handle_constant E dt v
  | XMap pairs tables dflt dt _ _ => handle_map_values E pairs tables dflt dt r
  | XOther _ => Err ETransformation
  | XApply fn _ _ args =>
      if fn =s "sum" then
        (fix go (s : f64) (l : list expr) {struct l} : res value :=
           match l with
           | [] => Ok (GF64 s)
           | a :: l' => v <-! handle_expr E a r; go (fadd s (val_float64 E v)) l'
           end) fzero args
      else if is_arith fn then
        match args with
        | [a; b] =>
            x <-! handle_expr E a r;
            y <-! handle_expr E b r;
            Ok (GF64 (arith fn (val_float64 E x) (val_float64 E y)))
        | _ => Err (EArity fn (length args))
        end
      else if fn =s "isMissing" then
        match args with
        | [a] => x <-! handle_expr E a r; Ok (GBool (is_nil x))
        | _ => Err (EArity fn (length args))
        end
      else if fn =s "isNotMissing" then
        match args with
        | [a] => x <-! handle_expr E a r; Ok (GBool (negb (is_nil x)))
        | _ => Err (EArity fn (length args))
        end
      else if fn =s "if" then
        match args with
        | [c; a; b] =>
            x <-! handle_expr E c r;
            if val_bool x then handle_expr E a r else handle_expr E b r
        | _ => Err (EArity fn (length args))
        end
      else Err (EApplyFunction fn)
  end.

(** HandleInput, input.go:186-206 (validate, 208-214, does nothing).  Returns
    the outcome and the row as the caller sees it afterwards: the map is
    updated in place, also when a later field fails. *)
Fixpoint handle_input (E : Ext) (lt : list derived_field) (r : datarow)
    : res unit * datarow :=
  match lt with
  | [] => (Ok tt, r)
  | df :: lt' =>
      match handle_expr E (df_expr df) r with
      | Ok v =>
          let v' := if df_optype df =s "continuous" then GF64 (val_float64 E v) else v in
          match dr_set r (df_name df) v' with
          | Ok r' => handle_input E lt' r'
          | Err e => (Err e, r)
          | Panic p => (Panic p, r)
          end
      | Err e => (Err e, r)
      | Panic p => (Panic p, r)
      end
  end.
