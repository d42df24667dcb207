(** Evaluate as the goroutine that runs it: every access to a key cache
    ([m.outKeys], tree.go:21) becomes one step, and steps of several goroutines
    interleave.  The caches are the only memory shared between two Evaluate calls
    that is ever written: everything else either belongs to the call (its row, its
    locals) or is only read.  Simplification: each access is atomic, so an
    interleaving that Go would abort ("concurrent map writes") carries on here. *)
From Verif Require Import Base Strconv Value Doc Expr Pred Tree Regression Model.

(** ** Programs *)

(** A cache is named by the path of segment indices leading to its tree; [Get]
    is the read at tree.go:737, [Put] the write at tree.go:740. *)
Inductive prog (A : Type) : Type :=
| Ret (a : A)
| Get (p : list nat) (v : string) (k : option string → prog A)
| Put (p : list nat) (v key : string) (k : prog A).
Arguments Ret {A} a.
Arguments Get {A} p v k.
Arguments Put {A} p v key k.

Fixpoint pbind {A B} (m : prog A) (f : A → prog B) : prog B :=
  match m with
  | Ret a => f a
  | Get p v k => Get p v (λ c, pbind (k c) f)
  | Put p v key k => Put p v key (pbind k f)
  end.

(** The loop tree.go:736-744. *)
Definition out_steps (p : list nat) : row → list score → prog row :=
  fix go out scores :=
    match scores with
    | [] => Ret out
    | s :: scores' =>
        Get p (sc_value s) (λ c,
          match c with
          | Some key => go (<[key := GF64 (sc_prob s)]> out) scores'
          | None => Put p (sc_value s) (prob_key (sc_value s))
                        (go (<[prob_key (sc_value s) := GF64 (sc_prob s)]> out) scores')
          end)
    end.

(** What Evaluate returns and the caller's row afterwards. *)
Definition reply : Type := res datarow * datarow.

(** TreeModel.Evaluate, tree.go:712-758. *)
Definition tree_steps (E : Ext) (tk : ticket) (p : list nat) (t : etree) (r : datarow) : prog reply :=
  if negb (et_validated t) then Ret (Err ENotValidated, r)
  else if negb (et_compiled t) then Ret (Err ENotCompiled, r)
  else
    match handle_input E (tm_lt (et_model t)) r with
    | (Ok _, r') =>
        match node_evaluate E (tree_ctx t) (tm_strategy (et_model t)) r' tk (et_root t) with
        | Ok (scores, RT) =>
            if tm_function (et_model t) =s "classification" then
              pbind (out_steps p {[et_target t := GStr (sc_value (pick_best scores))]} scores)
                    (λ out, Ret (Ok (Some out), r'))
            else Ret ((tree_output E t scores).1, r')
        | Ok _ => Ret (Ok None, r')
        | Err e => Ret (Err e, r')
        | Panic x => Ret (Panic x, r')
        end
    | (Err e, r') => Ret (Err e, r')
    | (Panic x, r') => Ret (Panic x, r')
    end.

(** evaluateMultipleModelChain, mining.go:132-149. *)
Definition chain_steps {M} (E : Ext) (tk : ticket) (ev : nat → M → datarow → prog reply)
    : nat → datarow → list M → datarow → prog reply :=
  fix go i last sm r :=
    match sm with
    | [] => Ret (Ok last, r)
    | s :: sm' =>
        match copy_into E (0 :: i :: tk) last r with
        | Ok r1 =>
            pbind (ev i s r1) (λ '(o, r2),
              match o with
              | Ok out => go (S i) out sm' r2
              | _ => Ret (o, r2)
              end)
        | Err e => Ret (Err e, r)
        | Panic x => Ret (Panic x, r)
        end
    end.

(** The loop of evaluateMultipleModelSum, mining.go:162-181. *)
Definition sum_steps {M} (E : Ext) (tk : ticket) (classification : bool)
    (ev : nat → M → datarow → prog reply)
    : nat → gmap string f64 → list M → datarow → prog (res (gmap string f64) * datarow) :=
  fix go i scores sm r :=
    match sm with
    | [] => Ret (Ok scores, r)
    | s :: sm' =>
        pbind (ev i s r) (λ '(o, r1),
          match o with
          | Ok out => go (S i) (score_add E (1 :: i :: tk) classification out scores) sm' r1
          | Err e => Ret (Err e, r1)
          | Panic x => Ret (Panic x, r1)
          end)
    end.

(** evaluateMultipleModelSum, mining.go:151-198. *)
Definition total_steps {M} (E : Ext) (tk : ticket) (h : emining)
    (ev : nat → M → datarow → prog reply) (sm : list M) (r : datarow) : prog (res row * datarow) :=
  pbind (sum_steps E tk (mm_function (em_hdr h) =s "classification") ev 0
           (score_init (em_outputs h) (em_targets h)) sm r)
    (λ '(o, r1),
      Ret (match o with
           | Ok scores => Ok (score_out E (2 :: tk) (foldl rescale_step scores (em_targets h)))
           | Err e => Err e
           | Panic x => Panic x
           end, r1)).

(** The switch mining.go:245-256, with evaluateMultipleModelAverage, 200-211, and
    evaluateMultipleModelSelectFirst, 119-130, in place. *)
Definition method_steps {M} (E : Ext) (tk : ticket) (h : emining)
    (ev : nat → M → datarow → prog reply) (sm : list M) (r : datarow) : prog reply :=
  let method := mm_method (em_hdr h) in
  if method =s "average" then
    pbind (total_steps E tk h ev sm r)
      (λ '(o, r1), Ret (out <-! o; Ok (Some (average_row E (3 :: tk) (length (em_segs h)) out)), r1))
  else if method =s "sum" then
    pbind (total_steps E tk h ev sm r) (λ '(o, r1), Ret (out <-! o; Ok (Some out), r1))
  else if method =s "modelChain" then chain_steps E tk ev 0 (Some ∅) sm r
  else if method =s "selectFirst" then
    match sm with [] => Ret (Err ENoSegments, r) | s :: _ => ev 0 s r end
  else Ret (Err (EMultipleModelMethod method), r).

(** Model.Evaluate: tree.go:712, mining.go:224-257, regression.go:81. *)
Fixpoint evaluate_steps (E : Ext) (tk : ticket) (p : list nat) (e : emodel) (r : datarow) {struct e}
    : prog reply :=
  match e with
  | ETree t => tree_steps E tk p t r
  | ERegr x => Ret (regr_evaluate E (er_model x) r, r)
  | EMining h sm =>
      if negb (em_validated h) then Ret (Err ENotValidated, r)
      else if negb (em_compiled h) then Ret (Err ENotCompiled, r)
      else
        match impute E (4 :: tk) (em_defaults h) r with
        | Ok r1 =>
            match handle_input E (mm_lt (em_hdr h)) r1 with
            | (Ok _, r2) =>
                method_steps E tk h (λ i s r, evaluate_steps E (5 :: i :: tk) (p ++ [i]) s r) sm r2
            | (Err x, r2) => Ret (Err x, r2)
            | (Panic x, r2) => Ret (Panic x, r2)
            end
        | Err x => Ret (Err x, r)
        | Panic x => Ret (Panic x, r)
        end
  end.

(** ** Goroutines *)

(** The caches: what is stored under a class value in the cache at a path. *)
Definition store : Type := list nat → string → option string.

Definition store_put (σ : store) (p : list nat) (v key : string) : store :=
  λ q w, if decide ((q, w) = (p, v)) then Some key else σ q w.

(** The caches of an evaluator. *)
Fixpoint caches (e : emodel) (p : list nat) (v : string) : option string :=
  match e with
  | ETree t => match p with [] => et_outkeys t !! v | _ :: _ => None end
  | ERegr _ => None
  | EMining _ sm =>
      match p with
      | [] => None
      | i :: q =>
          (fix go l i := match l with
             | [] => None
             | s :: l' => match i with O => caches s q v | S j => go l' j end
             end) sm i
      end
  end.

(** One access: which goroutine, which cache, read or write. *)
Record access : Type := Access { a_by : nat; a_cache : list nat; a_write : bool }.

(** One step of goroutine [i]. *)
Inductive step {A} : store → list (prog A) → access → store → list (prog A) → Prop :=
| step_get σ ths i p v k :
    ths !! i = Some (Get p v k) →
    step σ ths (Access i p false) σ (<[i := k (σ p v)]> ths)
| step_put σ ths i p v key k :
    ths !! i = Some (Put p v key k) →
    step σ ths (Access i p true) (store_put σ p v key) (<[i := k]> ths).

(** Any interleaving, with the accesses it makes. *)
Inductive exec {A} : store → list (prog A) → list access → store → list (prog A) → Prop :=
| exec_nil σ ths : exec σ ths [] σ ths
| exec_cons σ ths a σ1 ths1 tr σ2 ths2 :
    step σ ths a σ1 ths1 → exec σ1 ths1 tr σ2 ths2 → exec σ ths (a :: tr) σ2 ths2.

(** A data race in the sense of the Go memory model: nothing in Evaluate orders
    the accesses of two goroutines, so two accesses of the same map by different
    goroutines race as soon as one of them writes. *)
Definition racy (tr : list access) : Prop :=
  ∃ a b, a ∈ tr ∧ b ∈ tr ∧ a_by a ≠ a_by b ∧ a_cache a = a_cache b ∧ a_write a = true.

(** go m.Evaluate(r) for each of the calls, on one evaluator *)
Definition goroutines (E : Ext) (e : emodel) (calls : list (ticket * datarow)) : list (prog reply) :=
  (λ c, evaluate_steps E c.1 [] e c.2) <$> calls.

Definition race_free (E : Ext) (e : emodel) (calls : list (ticket * datarow)) : Prop :=
  ∀ tr σ ths, exec (caches e) (goroutines E e calls) tr σ ths → ¬ racy tr.
