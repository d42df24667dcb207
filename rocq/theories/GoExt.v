(** A concrete [Ext] for running examples.  [go_parse_float] follows the decimal
    grammar of strconv.ParseFloat (sign, digits with one point, exponent,
    inf/infinity/nan in any case; no hexadecimal) with correct rounding;
    exp and atan are approximations.  Nothing in the theorems depends on it. *)
From Coq Require Import Ascii.
From Verif Require Import Base Strconv.
Local Open Scope Z_scope.

Definition lower (c : ascii) : ascii :=
  let n := nat_of_ascii c in
  if Nat.leb 65 n && Nat.leb n 90 then ascii_of_nat (n + 32) else c.

Fixpoint lower_string (s : string) : string :=
  match s with EmptyString => EmptyString | String.String c s' => String.String (lower c) (lower_string s') end.

(** digits: (mantissa so far, digits after the point, seen a digit, seen the point) *)
Fixpoint read_mantissa (m : Z) (frac : Z) (sawdigit sawdot : bool) (s : string)
    : Z * Z * bool * string :=
  match s with
  | EmptyString => (m, frac, sawdigit, s)
  | String.String c s' =>
      match digit_of c with
      | Some d => read_mantissa (10 * m + d) (if sawdot then frac + 1 else frac) true sawdot s'
      | None =>
          if Ascii.eqb c "."%char then
            if sawdot then (m, frac, sawdigit, s) else read_mantissa m frac sawdigit true s'
          else (m, frac, sawdigit, s)
      end
  end.

Definition exponent_of (s : string) : option Z :=
  match s with
  | EmptyString => Some 0
  | String.String c s' => if Ascii.eqb (lower c) "e"%char then signed_val s' else None
  end.

(** m * 10^e rounded to nearest even *)
Definition decimal_f64 (neg : bool) (m e : Z) : f64 :=
  match m with
  | Z0 => S754_zero neg
  | Zpos p =>
      if 0 <=? e then binary_normalize 53 1024 (cond_Zopp neg (Zpos p * 10 ^ e)) 0 neg
      else match 10 ^ (- e) with
           | Zpos q => SFdiv 53 1024 (S754_finite neg p 0) (S754_finite false q 0)
           | _ => S754_nan
           end
  | Zneg _ => S754_nan
  end.

Definition parse_unsigned (neg : bool) (s : string) : option f64 :=
  let l := lower_string s in
  if (l =s "inf") || (l =s "infinity") then Some (S754_infinity neg)
  else
    let '(m, frac, sawdigit, rest) := read_mantissa 0 0 false false s in
    if negb sawdigit then None
    else match exponent_of rest with
         | None => None
         | Some e =>
             match decimal_f64 neg m (e - frac) with
             | S754_infinity _ => None
             | f => Some f
             end
         end.

Definition go_parse_float (s : string) : option f64 :=
  match s with
  | EmptyString => None
  | String.String c s' =>
      if lower_string s =s "nan" then Some S754_nan
      else if Ascii.eqb c "-"%char then parse_unsigned true s'
      else if Ascii.eqb c "+"%char then parse_unsigned false s'
      else parse_unsigned false s
  end.

(** exp by (taylor(x / 1024))^1024 *)
Fixpoint taylor (n : nat) (x : f64) (acc : f64) : f64 :=
  match n with
  | O => acc
  | S n' => taylor n' x (fadd fone (fmul acc (fdiv x (f64_of_Z (Z.of_nat n)))))
  end.
Fixpoint square_n (n : nat) (x : f64) : f64 :=
  match n with O => x | S n' => square_n n' (fmul x x) end.
Definition go_exp (x : f64) : f64 :=
  match x with
  | S754_nan => S754_nan
  | S754_infinity true => fzero
  | S754_infinity false => x
  | _ => square_n 10 (taylor 12 (fdiv x (f64_of_Z 1024)) fone)
  end.
Definition go_atan (x : f64) : f64 := x.

Definition go_ext_with (order : ticket → list string → list string)
    (H : ∀ t l, Permutation (order t l) l) : Ext :=
  {| ext_parse_float := go_parse_float;
     ext_parse_float_empty := eq_refl;
     ext_exp := go_exp; ext_atan := go_atan;
     ext_fmt := λ _, "%v";
     ext_order := order; ext_order_perm := H |}.

Lemma id_perm : ∀ (t : ticket) (l : list string), Permutation l l.
Proof. intros; reflexivity. Qed.
Lemma rev_perm : ∀ (t : ticket) (l : list string), Permutation (rev l) l.
Proof. intros. symmetry. apply Permutation_rev. Qed.

(** ranges in the model's own key order, and in the reverse order *)
Definition go_ext : Ext := go_ext_with (λ _ l, l) id_perm.
Definition go_ext_rev : Ext := go_ext_with (λ _ l, rev l) rev_perm.

(** float literals for examples *)
Definition fl (s : string) : f64 := default S754_nan (go_parse_float s).

(** The entries of a row, for stating what an example computes. *)
Definition dump (r : datarow) : option (list (string * gov)) := map_to_list <$> r.

Lemma dump_inj a b : dump a = dump b → a = b.
Proof.
  destruct a as [a|], b as [b|]; simpl; try done. intros [= H]. f_equal.
  apply map_to_list_inj. by rewrite H.
Qed.
