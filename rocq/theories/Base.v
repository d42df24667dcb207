(** Basic vocabulary of the model: results, panics, Go floats, Go interface
    values, rows, and everything that lives outside the repository ([Ext]). *)
From stdpp Require Export base strings gmap list.
From Coq Require Export ZArith Floats.SpecFloat.
From stdpp Require Import pretty.

(** ** Results *)

(** The causes of the [error] values built in evaluation/*.go.  Simplification:
    the texts are dropped, the cause and its discriminating argument kept.
    error.go:5-9; evaluation.go:28,42,72,77,100; input.go:20,38,64,77,90,106,163,
    183; tree.go:392,420; mining.go:57,62,101,129,255; regression.go:45,49,54,
    78,89,96,101,109,137,178,201; strconv errors of ParseFloat/ParseInt/ParseBool. *)
Inductive err : Type :=
| ENotValidated
| ENotCompiled
| EInvalidModelType (k : string)
| EMiningFunction (f : string)
| EMultipleModelMethod (m : string)
| EOutputFeature (f : string)
| ESegmentSize (n : nat)
| ENoSegments
| EUnknownField (f : string)
| EInvalidDataType
| EParseFloat (s : string)
| EParseInt (s : string)
| EParseBool (s : string)
| EConstType (t : string)
| EArity (f : string) (n : nat)
| EApplyFunction (f : string)
| ETransformation
| EMapValues
| EVerPrefix (c : string)
| EVerMissing (f : string)
| EVerMismatch (k : string)
| ETableCount (n : nat)
| EOutputCount (n : nat)
| EMissingTerm (x : string)
| ENormalization (m : string)
| ERegressionFunction (f : string).

(** Run-time panics the Go code can raise. *)
Inductive panic : Type :=
| PNilMapWrite   (* assignment to entry in nil map *)
| PNilFunc       (* call of a nil func value *)
| PIndex         (* index out of range *)
| PTypeAssert.   (* failed x.(T) without the comma-ok form *)

(** What a Go call that returns (A, error) can do. *)
Inductive res (A : Type) : Type :=
| Ok (a : A)
| Err (e : err)
| Panic (p : panic).
Arguments Ok {A} a.
Arguments Err {A} e.
Arguments Panic {A} p.

(** Sequencing: errors and panics stop the caller ("if err != nil return"). *)
Definition rbind {A B} (x : res A) (k : A → res B) : res B :=
  match x with Ok a => k a | Err e => Err e | Panic p => Panic p end.

Notation "x <-! e ; k" := (rbind e (λ x, k))
  (at level 100, e at next level, k at level 200, right associativity).
Notation "' p <-! e ; k" := (rbind e (λ p, k))
  (at level 100, p strict pattern, e at next level, k at level 200, right associativity).

(** whether a call returned without an error or a panic *)
Definition is_ok {A} (x : res A) : bool := match x with Ok _ => true | _ => false end.

(** A loop over a slice whose body may fail, collecting the results. *)
Definition rmap {A B} (f : A → res B) : list A → res (list B) :=
  fix go l := match l with
    | [] => Ok []
    | a :: l' => b <-! f a; bs <-! go l'; Ok (b :: bs)
    end.

(** The same with the loop index. *)
Definition rmapi {A B} (f : nat → A → res B) : nat → list A → res (list B) :=
  fix go i l := match l with
    | [] => Ok []
    | a :: l' => b <-! f i a; bs <-! go (S i) l'; Ok (b :: bs)
    end.

(** ** Strings *)
Notation "a =s b" := (String.eqb a b) (at level 70, no associativity).

(** ** Floats: Go's float64 and float32.  Simplification: a single NaN. *)
Definition f64 : Type := spec_float.
Definition f32 : Type := spec_float.

Definition fadd : f64 → f64 → f64 := SFadd 53 1024.
Definition fsub : f64 → f64 → f64 := SFsub 53 1024.
Definition fmul : f64 → f64 → f64 := SFmul 53 1024.
Definition fdiv : f64 → f64 → f64 := SFdiv 53 1024.
Definition fneg : f64 → f64 := SFopp.
Definition fabs : f64 → f64 := SFabs.
(** Go's ==, <, <= on floats; [a > b] is [fltb b a], [a >= b] is [fleb b a]. *)
Definition feqb : f64 → f64 → bool := SFeqb.
Definition fltb : f64 → f64 → bool := SFltb.
Definition fleb : f64 → f64 → bool := SFleb.

Definition fzero : f64 := S754_zero false.
(** float64(z) for an integer z: rounded to nearest even. *)
Definition f64_of_Z (z : Z) : f64 := binary_normalize 53 1024 z 0 false.
Definition f32_of_Z (z : Z) : f32 := binary_normalize 24 128 z 0 false.
Definition fone : f64 := f64_of_Z 1.
(** the constants 0.5, 1e-5 and 1/math.Pi after conversion to float64 *)
Definition fhalf : f64 := S754_finite false 4503599627370496 (-53).
Definition f1em5 : f64 := S754_finite false 5902958103587057 (-69).
Definition finvpi : f64 := S754_finite false 5734161139222659 (-54).

(** float32(x) and float64(x) between the two float types. *)
Definition f64_to_f32 (x : f64) : f32 :=
  match x with
  | S754_finite s m e => binary_normalize 24 128 (cond_Zopp s (Zpos m)) e s
  | _ => x
  end.
Definition f32_to_f64 (x : f32) : f64 :=
  match x with
  | S754_finite s m e => binary_normalize 53 1024 (cond_Zopp s (Zpos m)) e s
  | _ => x
  end.

(** ** Go values *)

Inductive intkind := KInt | KInt64 | KInt32 | KInt16 | KInt8
                   | KUint | KUint8 | KUint16 | KUint32 | KUint64.

(** The dynamic content of an interface{} (miningschema.go:12-14, Value.val).
    [GInt k z] is a Go integer of kind k; int and uint are 64 bits wide.
    [GOther tag s] is a value of any other type; [s] is the result of its
    String method, if it has one (miningschema.go:8-10). *)
Inductive gov : Type :=
| GNil
| GBool (b : bool)
| GF64 (f : f64)
| GF32 (f : f32)
| GStr (s : string)
| GInt (k : intkind) (z : Z)
| GOther (tag : nat) (str : option string).

(** evaluation.Value, miningschema.go:12-22: a wrapper of one interface{};
    NewValue and Raw are the identity here. *)
Notation value := gov (only parsing).

(** DataRow, miningschema.go:113.  [None] is the nil map. *)
Notation row := (gmap string gov) (only parsing).
Definition datarow : Type := option row.

(** r[k] in the comma-ok form; a nil map has no entries. *)
Definition dr_get (r : datarow) (k : string) : option value :=
  match r with Some m => m !! k | None => None end.

(** r[k] = v; writing to a nil map panics. *)
Definition dr_set (r : datarow) (k : string) (v : value) : res datarow :=
  match r with Some m => Ok (Some (<[k := v]> m)) | None => Panic PNilMapWrite end.

(** ** Outside the repository *)

(** Identifies one execution of one "range over a map" statement. *)
Definition ticket : Type := list nat.

Record Ext : Type := {
  (** strconv.ParseFloat(s, 64); None is a non-nil error (syntax or range) *)
  ext_parse_float : string → option f64;
  (** ParseFloat("") is a syntax error *)
  ext_parse_float_empty : ext_parse_float "" = None;
  (** math.Exp, math.Atan *)
  ext_exp : f64 → f64;
  ext_atan : f64 → f64;
  (** fmt.Sprintf("%v", x) for floats and other types *)
  ext_fmt : gov → string;
  (** the order in which a range statement visits the keys of a map *)
  ext_order : ticket → list string → list string;
  ext_order_perm : ∀ t l, Permutation (ext_order t l) l
}.

(** "for k, v := range m": the entries in the order chosen by the runtime. *)
Definition map_range {A} (E : Ext) (t : ticket) (m : gmap string A) : list (string * A) :=
  omap (λ k, v ← m !! k; Some (k, v)) (ext_order E t (map_to_list m).*1).
