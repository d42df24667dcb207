(** Decimal numerals: how numbers are written in documents and data files, and what
    they denote as real numbers. *)
From Coq Require Import Ascii Reals.
From stdpp Require Import pretty.
From Flocq Require Import Core.Core IEEE754.BinarySingleNaN.
From Verif Require Import Base Value RealLib.
Local Open Scope R_scope.

Fixpoint digit_text (l : list nat) : string :=
  match l with [] => "" | d :: l' => String.String (ascii_of_nat (48 + d)) (digit_text l') end.
Definition digits_number (l : list nat) : Z := foldl (λ v d, (10 * v + Z.of_nat d)%Z) 0%Z l.

(** an optional sign (true: minus), digits, optionally a point and digits, optionally an
    exponent (true: written with a capital E) *)
Record decimal := Decimal {
  de_sign : option bool; de_int : list nat; de_frac : option (list nat); de_exp : option (bool * Z) }.
Definition de_digits (n : decimal) : list nat := de_int n ++ default [] (de_frac n).
Definition decimal_ok (n : decimal) : Prop := de_digits n ≠ [] ∧ Forall (λ d, (d < 10)%nat) (de_digits n).
Definition decimal_text (n : decimal) : string :=
  (match de_sign n with None => "" | Some true => "-" | Some false => "+" end) +:+
  digit_text (de_int n) +:+
  (match de_frac n with None => "" | Some l => "." +:+ digit_text l end) +:+
  (match de_exp n with None => "" | Some (true, k) => "E" +:+ pretty k | Some (false, k) => "e" +:+ pretty k end).

Definition ten (k : Z) : R := bpow (Build_radix 10 eq_refl) k.
Definition decimal_value (n : decimal) : R :=
  IZR (match de_sign n with Some true => - digits_number (de_digits n) | _ => digits_number (de_digits n) end)
  * ten (match de_exp n with Some (_, k) => k | None => 0 end - Z.of_nat (length (default [] (de_frac n)))).

(** strconv.ParseFloat reads decimal numerals correctly rounded (to nearest, ties to
    even), as its documentation promises. *)
Definition correctly_rounds (E : Ext) : Prop := ∀ n, decimal_ok n → Rabs (decimal_value n) <= ten 308 →
  ∃ x, ext_parse_float E (decimal_text n) = Some x ∧ valid x ∧ is_finite_SF x = true ∧
    SF2R radix2 x = round64 (decimal_value n).

(** numbers of at most fifteen significant digits, not too small or large for float64 *)
Definition fifteen_digits (x : R) : Prop := ∃ m k, (Z.abs m < 10 ^ 15)%Z ∧ x = IZR m * ten k.
Definition ordinary (x : R) : Prop := x = 0 ∨ ten (-307) <= Rabs x <= ten 308.

(** what an order operator says of two real numbers *)
Definition real_order (op : string) (x y : R) : Prop :=
  (op = "lessThan" ∧ x < y) ∨ (op = "lessOrEqual" ∧ x <= y) ∨
  (op = "greaterThan" ∧ x > y) ∨ (op = "greaterOrEqual" ∧ x >= y).

(** A row that holds a decimal: its text, or the float64 read from it. *)
Definition holds_decimal (E : Ext) (v : gov) (n : decimal) : Prop :=
  v = GStr (decimal_text n) ∨ ∃ x, ext_parse_float E (decimal_text n) = Some x ∧ v = GF64 x.
