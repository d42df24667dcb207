(** Goroutines that each make a series of Evaluate calls, on evaluators of their
    own or shared ones.  The steps of a call are those of Race.v; the caches of
    the [j]-th evaluator are named by the paths that begin with [j]. *)
From Verif Require Import Base Strconv Value Doc Expr Pred Tree Regression Model Race.

(** One call: which evaluator, the map orders of the call, its row. *)
Record job : Type := Job { j_model : nat; j_ticket : ticket; j_row : datarow }.

(** for _, j := range jobs { replies = append(replies, models[j.model].Evaluate(j.row)) } *)
Fixpoint worker_steps (E : Ext) (es : list emodel) (jobs : list job) : prog (list reply) :=
  match jobs with
  | [] => Ret []
  | j :: jobs' =>
      match es !! j_model j with
      | Some e =>
          pbind (evaluate_steps E (j_ticket j) [j_model j] e (j_row j)) (λ a,
            pbind (worker_steps E es jobs') (λ l, Ret (a :: l)))
      | None => worker_steps E es jobs'
      end
  end.

Definition all_caches (es : list emodel) : store := λ p v,
  match p with
  | j :: q => match es !! j with Some e => caches e q v | None => None end
  | [] => None
  end.

Definition workers (E : Ext) (es : list emodel) (work : list (list job)) : list (prog (list reply)) :=
  worker_steps E es <$> work.

(** What a worker gets when it is alone and every call is made on its evaluator as
    it is now. *)
Definition alone (E : Ext) (es : list emodel) (jobs : list job) : list reply :=
  omap (λ j, (λ e, (evaluate E (j_ticket j) e (j_row j)).1) <$> es !! j_model j) jobs.
