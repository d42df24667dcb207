(** How encoding/xml and the UnmarshalXML methods of package models fill any
    struct of the package (xml.Unmarshal(data, &x), Decoder.DecodeElement): a
    decoder that interprets the table of Schema.v.  None is a non-nil error.

    Decode.v is written by hand and keeps what the evaluator reads; this file
    covers every struct and keeps everything.

    Outside the repository, from the documentation and source of encoding/xml:
    attributes first, then the children in document order, then the collected
    text; a field is found by its name; what no field matches is skipped; a slice
    is extended, a nil pointer allocated, any other field decoded on top of what
    it holds.  Simplification: the depth limit of encoding/xml (10000 nested
    elements) is not modelled. *)
From Verif Require Import Base Strconv Xml Decode Schema.

(** Go values of the struct fields.  A struct carries the name of its type, as
    the dynamic type of an interface does. *)
Inductive value : Type :=
| VStr (s : string) | VNum (f : f64) | VInt (z : Z) | VBool (b : bool)
| VNil | VSome (v : value)              (* pointers and interfaces *)
| VList (l : list value)
| VRow (r : gmap string string)         (* models.Row, elements.go:5969 *)
| VStruct (s : string) (fs : list value).

Definition go_struct (s : string) : option struct :=
  snd <$> List.find (λ p, p.1 =s s) go_structs.

Definition go_group (g : string) : list string :=
  default [] (snd <$> List.find (λ p, p.1 =s g) go_groups).

(** ** Zero values *)

(** defaults.SetDefaults runs in the UnmarshalXML methods only; the only default
    tag of a type with such a method is Apply.InvalidValueTreatment
    (elements.go:340). *)
Definition zero_basic (b : basic) : value :=
  match b with
  | KStr => VStr ""
  | KFloat | KRawFloat => VNum fzero
  | KInt | KUint => VInt 0
  | KBool | KYesNo => VBool false
  | KKeep d => VStr d
  end.

(** A struct inside a struct is zero field by field; Go forbids such nesting to be
    cyclic, and in the table it is never deeper than the bound below
    ([zero_fits] in ProofsReflect.v). *)
Fixpoint zero_fields (bound : nat) (s : string) : list value :=
  match bound with
  | O => []
  | S bound' =>
      (λ f, match f_kind f with
            | Attr b ptr => if ptr : bool then VNil else zero_basic b
            | CharData | InnerXml => VStr ""
            | Sub One s' => VStruct s' (zero_fields bound' s')
            | Sub Opt _ => VNil
            | Sub Many _ => VList []
            | SubBasic b => zero_basic b
            | Rows => VList []
            | Group true _ => VList []
            | Group false _ => VNil
            end) <$> default [] (s_fields <$> go_struct s)
  end.

Definition zero (s : string) : list value := zero_fields 8 s.

(** ** Basic values *)

(** A text stored over the value [cur] (copyValue of encoding/xml; the cases of
    ChildParent, Node and Apply are elements.go:919-926, 3357-3366, 360-363). *)
Definition read_basic (E : Ext) (b : basic) (t : string) (cur : value) : option value :=
  match b with
  | KStr => Some (VStr t)
  | KFloat => VNum <$> att_float E t
  | KInt => VInt <$> att_int t
  | KUint => VInt <$> att_uint t
  | KBool => VBool <$> att_bool t
  | KYesNo => if t =s "yes" then Some (VBool true)
              else if t =s "no" then Some (VBool false) else None
  | KRawFloat => if t =s "" then Some cur else VNum <$> ext_parse_float E t
  | KKeep _ => if t =s "" then Some cur else Some (VStr t)
  end.

(** ** Attributes *)

(** One attribute, offered to one field. *)
Definition attr_field (E : Ext) (n t : string) (f : field) (v : value) : option value :=
  match f_kind f with
  | Attr b ptr =>
      if f_name f =s n then
        if ptr then VSome <$> read_basic E b t (match v with VSome w => w | _ => zero_basic b end)
        else read_basic E b t v
      else Some v
  | _ => Some v
  end.

(** All fields of a struct. *)
Definition each_field (upd : field → value → option value) : list field → list value → option (list value) :=
  fix go fs vs := match fs, vs with
    | f :: fs', v :: vs' => match upd f v with
                            | Some v' => match go fs' vs' with Some vs2 => Some (v' :: vs2) | None => None end
                            | None => None
                            end
    | _, _ => Some vs
    end.

(** ** Children *)

(** Does the field take child elements of this name?  The names in the table are
    distinct within each struct ([names_distinct] in ProofsReflect.v), so at most
    one field does. *)
Definition takes (f : field) (m : string) : bool :=
  match f_kind f with
  | Sub _ _ | SubBasic _ | Rows => f_name f =s m
  | Group _ g => existsb (String.eqb m) (go_group g)
  | _ => false
  end.

(** What is collected while reading and stored at the end. *)
Definition text_field (ks : list xml) (inner : string) (f : field) (v : value) : option value :=
  match f_kind f with
  | CharData => Some (VStr (text_of ks))
  | InnerXml => Some (VStr inner)
  | _ => Some v
  end.

(** One child element [m] with children [cs], offered to a field that takes it;
    [rd s old] decodes it into a struct of type [s] holding [old]. *)
Definition child_field (E : Ext) (rd : string → list value → option (list value))
    (m : string) (cs : list xml) (f : field) (v : value) : option value :=
  match f_kind f, v with
  | Sub One s, VStruct _ old => w ← rd s old; Some (VStruct s w)
  | Sub Opt s, VNil => w ← rd s (zero s); Some (VSome (VStruct s w))
  | Sub Opt s, VSome (VStruct _ old) => w ← rd s old; Some (VSome (VStruct s w))
  | Sub Many s, VList l => w ← rd s (zero s); Some (VList (l ++ [VStruct s w]))
  | SubBasic b, _ => read_basic E b (text_of cs) v
  | Rows, VList l => Some (VList (l ++ [VRow (dec_row cs ∅)]))
  | Group false _, _ => w ← rd m (zero m); Some (VSome (VStruct m w))
  | Group true _, VList l => w ← rd m (zero m); Some (VList (l ++ [VSome (VStruct m w)]))
  | _, _ => None   (* not a value of the field's type *)
  end.

(** [read E x s cur]: the element [x] decoded into a struct of type [s] whose
    fields hold [cur].  The loops (s_loop) fail on an element they do not know:
    TokenLoop.v. *)
Fixpoint read (E : Ext) (x : xml) (s : string) (cur : list value) {struct x} : option (list value) :=
  match x, go_struct s with
  | Elem _ at_ inner ks, Some (Struct loop fs) =>
      vs1 ← attrs_fold (λ n t, each_field (attr_field E n t) fs) at_ cur;
      vs2 ← kids_fold
        (λ k vs,
           match k with
           | Chars _ => Some vs
           | Elem m _ _ cs =>
               if loop && negb (existsb (λ f, takes f m) fs) then None
               else each_field (λ f v, if takes f m then child_field E (read E k) m cs f v
                                       else Some v) fs vs
           end) ks vs1;
      each_field (text_field ks inner) fs vs2
  | _, _ => None
  end.

(** var v models.S; xml.Unmarshal(data, &v) *)
Definition unmarshal_new (E : Ext) (s : string) (x : xml) : option value :=
  VStruct s <$> read E x s (zero s).

(** What Decode.v needs to know of the structs it does not keep. *)
Definition go_unread (E : Ext) : unread := λ s x, bool_decide (is_Some (unmarshal_new E s x)).
