(** XML elements as encoding/xml delivers them to package models.
    Outside the repository: the tokenizer.  Simplifications: names are local
    names (the struct tags of elements.go name no namespace and the hand-written
    loops look at Name.Local only); comments, directives and processing
    instructions are dropped (every loop of elements.go ignores them). *)
From Verif Require Import Base Strconv.
From Coq Require Import Ascii.

(** [inner] is the raw text between the tags, what ",innerxml" stores. *)
Inductive xml : Type :=
| Elem (name : string) (attrs : list (string * string)) (inner : string) (kids : list xml)
| Chars (s : string).

(** strings.TrimSpace, applied by encoding/xml to numbers and bools.
    Simplification: ASCII white space only. *)
Definition is_space (c : Ascii.ascii) : bool :=
  let n := Ascii.nat_of_ascii c in
  Nat.eqb n 32 || (Nat.leb 9 n && Nat.leb n 13).

Fixpoint drop_spaces (s : string) : string :=
  match s with
  | String.String c s' => if is_space c then drop_spaces s' else s
  | EmptyString => s
  end.

Fixpoint rev_string (acc s : string) : string :=
  match s with
  | String.String c s' => rev_string (String.String c acc) s'
  | EmptyString => acc
  end.

Definition trim_space (s : string) : string :=
  rev_string "" (drop_spaces (rev_string "" (drop_spaces s))).

(** strconv.ParseUint(s, 10, 64) *)
Definition parse_uint (s : string) : option Z :=
  match s with
  | EmptyString => None
  | _ => z ← digits_val 0 s; if (z <? 2 ^ 64)%Z then Some z else None
  end.

(** How encoding/xml stores an attribute in a field of basic kind: empty text
    is the zero value, anything else goes through strconv; None is an error.
    A pointer field is allocated first. *)
Definition att_float (E : Ext) (s : string) : option f64 :=
  if s =s "" then Some fzero else ext_parse_float E (trim_space s).
Definition att_int (s : string) : option Z :=
  if s =s "" then Some 0%Z else parse_int (trim_space s).
Definition att_uint (s : string) : option Z :=
  if s =s "" then Some 0%Z else parse_uint (trim_space s).
Definition att_bool (s : string) : option bool :=
  if s =s "" then Some false else parse_bool (trim_space s).

(** All attributes in document order (a repeated attribute overwrites). *)
Definition attrs_fold {A} (set : string → string → A → option A)
    : list (string * string) → A → option A :=
  fix go l a := match l with
    | [] => Some a
    | (n, v) :: l' => match set n v a with Some a' => go l' a' | None => None end
    end.

(** All children in document order. *)
Definition kids_fold {A} (f : xml → A → option A) : list xml → A → option A :=
  fix go l a := match l with
    | [] => Some a
    | k :: l' => match f k a with Some a' => go l' a' | None => None end
    end.

(** The character data directly inside an element: how encoding/xml fills a
    string (nested elements are skipped). *)
Fixpoint text_of (ks : list xml) : string :=
  match ks with
  | [] => ""
  | Chars s :: ks' => s +:+ text_of ks'
  | Elem _ _ _ _ :: ks' => text_of ks'
  end.

(** Induction on elements. *)
Section XmlInd.
  Context (P : xml → Prop).
  Context (HE : ∀ n at_ i ks, Forall P ks → P (Elem n at_ i ks)) (HC : ∀ s, P (Chars s)).
  Fixpoint xml_rect' (x : xml) : P x :=
    match x with
    | Chars s => HC s
    | Elem n at_ i ks => HE n at_ i ks
        ((fix go l : Forall P l :=
            match l with
            | [] => Forall_nil_2 P
            | q :: l' => Forall_cons_2 P q l' (xml_rect' q) (go l')
            end) ks)
    end.
End XmlInd.
