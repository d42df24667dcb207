(** What a caller does with rows and evaluators: a program of assignments to variables
    that hold rows (property C126). *)
From Verif Require Import Base Strconv Value Doc Expr Pred Tree Regression Model Heap.

Inductive action :=
  | ANew (x : string)                               (** x = DataRow{} *)
  | AShare (x y : string)                           (** x = y *)
  | ASet (x k : string) (v : value)                 (** x[k] = v *)
  | ADelete (x k : string)                          (** delete(x, k) *)
  | AEval (x : string) (i : nat) (y : string) (tk : ticket).  (** x, err = evaluators[i].Evaluate(y) *)

Definition mentions (a : action) (z : string) : Prop :=
  match a with
  | ANew x | ASet x _ _ | ADelete x _ => x = z
  | AShare x y | AEval x _ y _ => x = z ∨ y = z
  end.

Record session := Session { in_memory : heap; vars : gmap string mapref; evaluators : list emodel }.

(** An unset variable is a nil row. *)
Definition var (s : session) (x : string) : mapref := default None (vars s !! x).
Definition contents (s : session) (x : string) : datarow := deref (in_memory s) (var s x).
Definition assign (s : session) (x : string) (q : mapref) : session :=
  Session (in_memory s) (<[x := q]> (vars s)) (evaluators s).
Definition with_memory (s : session) (h : heap) : session := Session h (vars s) (evaluators s).

(** One statement.  A panic (x[k] = v for a nil row) is recovered and the program
    goes on; Evaluate assigns its row also when it reports an error. *)
Definition act (E : Ext) (s : session) (a : action) : session :=
  match a with
  | ANew x => let '(l, h) := make_map (in_memory s) in assign (with_memory s h) x (Some l)
  | AShare x y => assign s x (var s y)
  | ASet x k v => match store (in_memory s) (var s x) k v with Ok h => with_memory s h | _ => s end
  | ADelete x k => match var s x with Some l => with_memory s (alter (delete k) l (in_memory s)) | None => s end
  | AEval x i y tk =>
      match evaluators s !! i with
      | Some e =>
          let '(q, o, h, e') := h_evaluate E tk e (var s y) (in_memory s) in
          let s' := Session h (vars s) (<[i := e']> (evaluators s)) in
          match o with Panic _ => s' | _ => assign s' x q end
      | None => s
      end
  end.
Definition acts (E : Ext) (s : session) (l : list action) : session := foldl (act E) s l.

(** The error (or panic) of evaluators[i].Evaluate(y). *)
Definition reports (E : Ext) (s : session) (i : nat) (y : string) (tk : ticket) : option (res unit) :=
  e ← evaluators s !! i; Some (h_evaluate E tk e (var s y) (in_memory s)).1.1.2.

(** The program starts without rows, with evaluators of some documents. *)
Definition start (evs : list emodel) : session := Session ∅ ∅ evs.
Definition from_documents (E : Ext) (evs : list emodel) : Prop :=
  Forall (λ e, ∃ dd td d td', new_model E dd td d = (Ok e, td')) evs.
