(** The parts of package strconv the evaluator uses with integers and bools.
    ParseFloat is external ([ext_parse_float]); a concrete decimal parser for
    running examples is in GoExt.v. *)
From Coq Require Import Ascii.
From Verif Require Import Base.
Local Open Scope Z_scope.

Definition digit_of (c : Ascii.ascii) : option Z :=
  let n := Z.of_nat (Ascii.nat_of_ascii c) in
  if (48 <=? n) && (n <=? 57) then Some (n - 48) else None.

(** the decimal value of a string of digits, most significant first *)
Fixpoint digits_val (acc : Z) (s : string) : option Z :=
  match s with
  | EmptyString => Some acc
  | String.String c s' =>
      match digit_of c with
      | Some d => digits_val (10 * acc + d) s'
      | None => None
      end
  end.

(** An optional sign followed by at least one digit. *)
Definition signed_val (s : string) : option Z :=
  match s with
  | EmptyString => None
  | String.String c s' =>
      if Ascii.eqb c "-"%char then
        match s' with EmptyString => None | _ => Z.opp <$> digits_val 0 s' end
      else if Ascii.eqb c "+"%char then
        match s' with EmptyString => None | _ => digits_val 0 s' end
      else digits_val 0 s
  end.

(** strconv.ParseInt(s, 10, 64), called at evaluation.go:95.
    None is a non-nil error (syntax or range). *)
Definition parse_int (s : string) : option Z :=
  match signed_val s with
  | Some z => if (- 2 ^ 63 <=? z) && (z <? 2 ^ 63) then Some z else None
  | None => None
  end.

(** strconv.ParseBool, called at evaluation.go:89. *)
Definition parse_bool (s : string) : option bool :=
  if (s =s "1") || (s =s "t") || (s =s "T") || (s =s "true") || (s =s "TRUE") || (s =s "True")
  then Some true
  else if (s =s "0") || (s =s "f") || (s =s "F") || (s =s "false") || (s =s "FALSE") || (s =s "False")
  then Some false
  else None.
