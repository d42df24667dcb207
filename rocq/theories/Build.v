(** NewModel as the goroutine that runs it: every access to memory that some
    NewModel call writes and another call may reach becomes one step, and the steps
    of several goroutines interleave.  That memory is
    - the list td.DerivedFields, appended to at tree.go:690 and mining.go:92;
    - the mining fields of a tree, written back at tree.go:408;
    - Segmentation.MultipleModelMethod, set at mining.go:51 when it is empty;
    - RawPredicateValue of a simple predicate, set at tree.go:428.
    Everything else of the document and the dictionaries is only read, and the new
    evaluator is not known to other goroutines.
    Simplifications: each access is atomic, a list is read as a whole, and the place
    an element of td.DerivedFields is stored in is not modelled apart from the list.
    Of the last three kinds of memory only the accesses are modelled, not the values:
    the defaults are the same whoever fills them in first, and NewModel never reads a
    RawPredicateValue. *)
From Verif Require Import Base Strconv Value Doc Expr Pred Tree Regression Model.

(** A document is named by a number, a model in it by the segment indices leading to
    it, a predicate by those of its node and of its place in the node's predicate. *)
Inductive place : Type :=
| AtDerived
| AtField (d : nat) (p : list nat) (i : nat)
| AtMethod (d : nat) (p : list nat)
| AtLiteral (d : nat) (p n q : list nat).
#[export] Instance place_eq_dec : EqDecision place.
Proof. solve_decision. Defined.

Inductive bprog (A : Type) : Type :=
| BRet (a : A)
| BRead (k : list derived_field → bprog A)
| BWrite (td : list derived_field) (k : bprog A)
| BTouch (w : bool) (x : place) (k : bprog A).
Arguments BRet {A} a.
Arguments BRead {A} k.
Arguments BWrite {A} td k.
Arguments BTouch {A} w x k.

Fixpoint bbind {A B} (m : bprog A) (f : A → bprog B) : bprog B :=
  match m with
  | BRet a => f a
  | BRead k => BRead (λ td, bbind (k td) f)
  | BWrite td k => BWrite td (bbind k f)
  | BTouch w x k => BTouch w x (bbind k f)
  end.

(** A loop that stops at the first error, with the loop index. *)
Definition each_steps {A B} (f : nat → A → bprog (res B)) : nat → list A → bprog (res (list B)) :=
  fix go i l :=
    match l with
    | [] => BRet (Ok [])
    | a :: l' => bbind (f i a) (λ o,
        match o with
        | Ok b => bbind (go (S i) l') (λ o', BRet (bs <-! o'; Ok (b :: bs)))
        | Err e => BRet (Err e)
        | Panic x => BRet (Panic x)
        end)
    end.

(** compilePredicate, tree.go:415-439. *)
Fixpoint pred_steps (E : Ext) (ft : fieldtypes) (x : list nat → place) (q : list nat) (p : predicate)
    : bprog (res predicate) :=
  match p with
  | PSimple f op v _ =>
      match ft !! f with
      | None => BRet (Err (EUnknownField f))
      | Some dt =>
          match get_raw_value E dt v with
          | Ok raw => BTouch true (x q) (BRet (Ok (PSimple f op v raw)))
          | Err e => BRet (Err e)
          | Panic e => BRet (Panic e)
          end
      end
  | PCompound b ps =>
      bbind (each_steps (λ i, pred_steps E ft x (q ++ [i])) 0 ps)
        (λ o, BRet (ps' <-! o; Ok (PCompound b ps')))
  | _ => BRet (Ok p)
  end.

(** newNode, tree.go:441-513. *)
Fixpoint node_steps (E : Ext) (ft : fieldtypes) (x : list nat → list nat → place) (n : list nat) (m : mnode)
    {struct m} : bprog (res node) :=
  match m with
  | MNode id dc sc count dists nodes pred =>
      bbind (each_steps (λ i, node_steps E ft x (n ++ [i])) 0 nodes) (λ o,
        match o with
        | Ok children =>
            bbind (pred_steps E ft (x n) [] pred) (λ o', BRet (
              test <-! o';
              Ok (Node id dc children (convert_dists dists) test (Score sc fzero fzero count))))
        | Err e => BRet (Err e)
        | Panic e => BRet (Panic e)
        end)
  end.

(** The loop tree.go:395-409 (each field read, then written back) and the reads at
    tree.go:677-681. *)
Fixpoint schema_steps {A} (d : nat) (p : list nat) (i : nat) (l : list mining_field) (k : bprog A) : bprog A :=
  match l with
  | [] => k
  | _ :: l' => BTouch false (AtField d p i) (BTouch true (AtField d p i) (schema_steps d p (S i) l' k))
  end.
Fixpoint target_steps {A} (d : nat) (p : list nat) (i : nat) (l : list mining_field) (k : bprog A) : bprog A :=
  match l with
  | [] => k
  | _ :: l' => BTouch false (AtField d p i) (target_steps d p (S i) l' k)
  end.

(** The loops tree.go:689-691 and mining.go:91-93. *)
Fixpoint append_steps {A} (lt : list derived_field) (k : bprog A) : bprog A :=
  match lt with
  | [] => k
  | tf :: lt' => BRead (λ td, BWrite (td ++ [tf]) (append_steps lt' k))
  end.

(** NewTreeModel, tree.go:369-387. *)
Definition tree_steps (E : Ext) (dd : list data_field) (d : nat) (p : list nat) (m : tree_model) : bprog (res etree) :=
  match tree_validate (ETree_ false false dd m ∅ zero_node ∅ "") with
  | (Ok _, t1) =>
      schema_steps d p 0 (tm_schema m) (target_steps d p 0 (tm_schema m) (append_steps (tm_lt m) (BRead (λ td,
        let ft := field_types dd td in
        bbind (node_steps E ft (AtLiteral d p) [] (tm_node m)) (λ o, BRet (
          root <-! o;
          Ok (ETree_ (et_validated t1) true dd (et_model t1) ft root (et_outkeys t1)
                     (target_of (et_target t1) (tm_schema (et_model t1))))))))))
  | (Err e, _) => BRet (Err e)
  | (Panic e, _) => BRet (Panic e)
  end.

(** The loop mining.go:99-112. *)
Definition segment_steps (nm : nat → doc_model → bprog (res emodel))
    : nat → list (segment doc_model) → bprog (res (list emodel)) :=
  each_steps (λ i s,
    match sg_models s with
    | [d] => nm i d
    | l => BRet (Err (ESegmentSize (length l)))
    end).

(** NewModel, evaluation.go:19-30, with NewMiningModel, mining.go:26-43, and
    NewRegressionModel, regression.go:20-27, in place. *)
Fixpoint build_steps (E : Ext) (dd : list data_field) (n : nat) (p : list nat) (d : doc_model) {struct d}
    : bprog (res emodel) :=
  match d with
  | DTree t => bbind (tree_steps E dd n p t) (λ o, BRet (e <-! o; Ok (ETree e)))
  | DMining h segs =>
      BTouch false (AtMethod n p)
        ((if mm_method h =s "" then BTouch true (AtMethod n p) else id)
          match mining_validate (mining_fresh dd h segs) with
          | (Ok _, m1) =>
              append_steps (mm_lt h) (BRead (λ td,
                bbind (segment_steps (λ i d, build_steps E dd n (p ++ [i]) d) 0 segs) (λ o, BRet (
                  sm <-! o;
                  Ok (EMining (EMining_ (em_validated m1) true dd (em_hdr m1) segs
                                (default_values (mm_schema h)) (field_types dd td)
                                (target_of "" (mm_schema h)) (mm_output h) (mm_targets h) [length sm]) sm)))))
          | (Err e, _) => BRet (Err e)
          | (Panic e, _) => BRet (Panic e)
          end)
  | DRegr r => BRet (Ok (ERegr (ERegr_ r)))
  | DOther k => BRet (Err (EInvalidModelType k))
  end.

(** ** Goroutines *)

Record baccess : Type := BAccess { b_by : nat; b_place : place; b_write : bool }.

(** One step of goroutine [i]; the state is td.DerivedFields. *)
Inductive bstep {A} : list derived_field → list (bprog A) → baccess → list derived_field → list (bprog A) → Prop :=
| bstep_read td ths i k :
    ths !! i = Some (BRead k) → bstep td ths (BAccess i AtDerived false) td (<[i := k td]> ths)
| bstep_write td ths i td' k :
    ths !! i = Some (BWrite td' k) → bstep td ths (BAccess i AtDerived true) td' (<[i := k]> ths)
| bstep_touch td ths i w x k :
    ths !! i = Some (BTouch w x k) → bstep td ths (BAccess i x w) td (<[i := k]> ths).

Inductive bexec {A} : list derived_field → list (bprog A) → list baccess → list derived_field → list (bprog A) → Prop :=
| bexec_nil td ths : bexec td ths [] td ths
| bexec_cons td ths a td1 ths1 tr td2 ths2 :
    bstep td ths a td1 ths1 → bexec td1 ths1 tr td2 ths2 → bexec td ths (a :: tr) td2 ths2.

(** Nothing in NewModel orders the accesses of two goroutines: two accesses of the
    same memory race as soon as one of them writes. *)
Definition bracy (tr : list baccess) : Prop :=
  ∃ a b, a ∈ tr ∧ b ∈ tr ∧ b_by a ≠ b_by b ∧ b_place a = b_place b ∧ b_write a = true.

(** go NewModel(dd, td, d) for each of the numbered documents *)
Definition builders (E : Ext) (dd : list data_field) (ds : list (nat * doc_model)) : list (bprog (res emodel)) :=
  (λ x, build_steps E dd x.1 [] x.2) <$> ds.

Definition build_race_free (E : Ext) (dd : list data_field) (td : list derived_field) (ds : list (nat * doc_model)) : Prop :=
  ∀ tr td' ths, bexec td (builders E dd ds) tr td' ths → ¬ bracy tr.
