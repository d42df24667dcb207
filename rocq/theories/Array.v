(** models/complexTypes.go: typed arrays.  shellwords.Parse (a dependency) is the
    parameter [words]: None is a non-nil error, which it returns together with a
    nil slice; an empty list is a slice that is not nil. *)
From Verif Require Import Base Strconv Xml.

(** ArrayType, complexTypes.go:32-41; a nil slice is None. *)
Record array : Type := Array_ {
  ar_n : option Z; ar_type : string; ar_raw : string;
  ar_s : option (list string); ar_i : option (list Z); ar_f : option (list f64) }.

Inductive array_error : Type := NotThisType | BadWords | BadNumber (w : string).
Notation ares A := (A + array_error)%type.

(** Strings, complexTypes.go:43-55 *)
Definition arr_strings (words : string → option (list string)) (a : array)
    : ares (list string) * array :=
  if negb (ar_type a =s "string") then (inr NotThisType, a)
  else match ar_s a with
       | Some l => (inl l, a)
       | None =>
           match words (ar_raw a) with
           | Some l => (inl l, Array_ (ar_n a) (ar_type a) (ar_raw a) (Some l) (ar_i a) (ar_f a))
           | None => (inr BadWords, Array_ (ar_n a) (ar_type a) (ar_raw a) None (ar_i a) (ar_f a))
           end
       end.

(** The loops complexTypes.go:73-80 and 103-110: stop at the first error. *)
Fixpoint parse_words {A} (parse : string → option A) (ws : list string) : ares (list A) :=
  match ws with
  | [] => inl []
  | w :: ws' =>
      match parse w with
      | None => inr (BadNumber w)
      | Some x => match parse_words parse ws' with inl l => inl (x :: l) | inr e => inr e end
      end
  end.

(** Int64s, complexTypes.go:57-85 *)
Definition arr_ints (words : string → option (list string)) (a : array) : ares (list Z) * array :=
  if negb (ar_type a =s "int") then (inr NotThisType, a)
  else match ar_i a with
       | Some l => (inl l, a)
       | None =>
           match words (ar_raw a) with
           | None => (inr BadWords, a)
           | Some ws =>
               match parse_words parse_int ws with
               | inr e => (inr e, a)
               | inl l => (inl l, Array_ (ar_n a) (ar_type a) (ar_raw a) (ar_s a) (Some l) (ar_f a))
               end
           end
       end.

(** Float64s, complexTypes.go:87-115 *)
Definition arr_floats (E : Ext) (words : string → option (list string)) (a : array)
    : ares (list f64) * array :=
  if negb (ar_type a =s "real") then (inr NotThisType, a)
  else match ar_f a with
       | Some l => (inl l, a)
       | None =>
           match words (ar_raw a) with
           | None => (inr BadWords, a)
           | Some ws =>
               match parse_words (ext_parse_float E) ws with
               | inr e => (inr e, a)
               | inl l => (inl l, Array_ (ar_n a) (ar_type a) (ar_raw a) (ar_s a) (ar_i a) (Some l))
               end
           end
       end.

(** A caller's use of one array: any accessors in any order. *)
Inductive accessor : Type := Strings | Int64s | Float64s.
Definition access (E : Ext) (words : string → option (list string)) (c : accessor) (a : array) : array :=
  match c with
  | Strings => (arr_strings words a).2
  | Int64s => (arr_ints words a).2
  | Float64s => (arr_floats E words a).2
  end.
Definition accesses (E : Ext) (words : string → option (list string)) (cs : list accessor) (a : array) : array :=
  foldl (λ a c, access E words c a) a cs.

(** Decoding: attributes n and type, the raw text between the tags
    (complexTypes.go:33-36). *)
Definition dec_array (at_ : list (string * string)) (raw : string) : option array :=
  attrs_fold (λ n v a,
    if n =s "n" then z ← att_int v; Some (Array_ (Some z) (ar_type a) (ar_raw a) None None None)
    else if n =s "type" then Some (Array_ (ar_n a) v (ar_raw a) None None None)
    else Some a) at_ (Array_ None "" raw None None None).
