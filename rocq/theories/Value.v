(** evaluation/miningschema.go: the conversions of Value, and getRawValue. *)
From Verif Require Import Base Strconv.
From stdpp Require Import pretty.
Local Open Scope Z_scope.

(** int64(x): reduction to two's complement 64 bits. *)
Definition wrap64 (z : Z) : Z := (z + 2 ^ 63) mod 2 ^ 64 - 2 ^ 63.

(** Value.Int64, miningschema.go:65-99: the ten integer kinds are converted,
    everything else (floats, strings, bools, nil, others) is 0. *)
Definition val_int64 (v : value) : Z :=
  match v with
  | GInt _ z => wrap64 z
  | _ => 0
  end.

(** Value.Float64, miningschema.go:36-54. *)
Definition val_float64 (E : Ext) (v : value) : f64 :=
  match v with
  | GF64 f => f
  | GF32 f => f32_to_f64 f
  | GStr s => match ext_parse_float E s with Some f => f | None => fzero end
  | _ => f64_of_Z (val_int64 v)
  end.

(** Value.Float32, miningschema.go:24-34. *)
Definition val_float32 (v : value) : f32 :=
  match v with
  | GF32 f => f
  | GF64 f => f64_to_f32 f
  | _ => f32_of_Z (val_int64 v)
  end.

(** Value.Bool, miningschema.go:56-63. *)
Definition val_bool (v : value) : bool :=
  match v with GBool b => b | _ => false end.

(** Value.String, miningschema.go:101-111.  Sprintf("%v") is spelled out for
    nil, bools and integers and external for the rest. *)
Definition val_string (E : Ext) (v : value) : string :=
  match v with
  | GStr s => s
  | GOther _ (Some s) => s
  | GNil => "<nil>"
  | GBool true => "true"
  | GBool false => "false"
  | GInt _ z => pretty z
  | _ => ext_fmt E v
  end.

Definition intkind_eqb (a b : intkind) : bool :=
  match a, b with
  | KInt, KInt | KInt64, KInt64 | KInt32, KInt32 | KInt16, KInt16 | KInt8, KInt8
  | KUint, KUint | KUint8, KUint8 | KUint16, KUint16 | KUint32, KUint32
  | KUint64, KUint64 => true
  | _, _ => false
  end.

(** Go's == on two interface{} values, used at tree.go:539,543: same dynamic
    type and equal contents; floats compare by IEEE equality.  Simplification:
    two values of other types are compared by tag; the literal side is never
    one of those (see getRawValue). *)
Definition gov_eqb (a b : gov) : bool :=
  match a, b with
  | GNil, GNil => true
  | GBool x, GBool y => Bool.eqb x y
  | GF64 x, GF64 y => feqb x y
  | GF32 x, GF32 y => feqb x y
  | GStr x, GStr y => x =s y
  | GInt k x, GInt l y => intkind_eqb k l && (x =? y)
  | GOther x _, GOther y _ => Nat.eqb x y
  | _, _ => false
  end.

(** v.Raw() == nil *)
Definition is_nil (v : value) : bool :=
  match v with GNil => true | _ => false end.

(** getRawValue, evaluation.go:86-101; data type names simpleTypes.go:163-177. *)
Definition get_raw_value (E : Ext) (dt : string) (s : string) : res gov :=
  if dt =s "boolean" then
    match parse_bool s with Some b => Ok (GBool b) | None => Err (EParseBool s) end
  else if dt =s "double" then
    match ext_parse_float E s with Some f => Ok (GF64 f) | None => Err (EParseFloat s) end
  else if dt =s "float" then
    match ext_parse_float E s with Some f => Ok (GF64 f) | None => Err (EParseFloat s) end
  else if dt =s "integer" then
    match parse_int s with Some z => Ok (GInt KInt64 z) | None => Err (EParseInt s) end
  else if dt =s "string" then Ok (GStr s)
  else Err EInvalidDataType.
