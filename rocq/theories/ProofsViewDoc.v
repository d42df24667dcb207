(** The hand-written decoder against the table: predicates, trees, models. *)
From Verif Require Import Base Strconv Xml Doc Decode Schema Reflect SpecReflect ProofsReflect SpecView ProofsView.

(** ** Predicates *)

Lemma array_any E n at_ inner ks vs : Forall2 fits (fields "Array") vs →
  attrs_fold array_attr at_ tt = (λ _, tt) <$> read E (Elem n at_ inner ks) "Array" vs ∧
  ∀ w, read E (Elem n at_ inner ks) "Array" vs = Some w → str (get "Array" "" w) = inner.
Proof.
  known "Array". rewrite (go_struct_fields _ _ Hs), (read_steps _ _ _ _ _ _ _ _ _ Hs). cbn [s_fields]. intros Hz.
  set (fs := [Field "n" (Attr KInt true); Field "type" (Attr KStr false); Field "" InnerXml]) in *.
  assert (∀ vs, kids_fold (kid_step E false fs) ks vs = Some vs) as Hk.
  { intros us. clear. induction ks as [|k ks IH]; [done|]. cbn [kids_fold].
    replace (kid_step E false fs k us) with (Some us); [apply IH|].
    destruct k as [m ? ? ?|]; [|done]. destruct us as [|? [|? [|? ?]]]; done. }
  assert (attrs_fold array_attr at_ tt =
    (λ _, tt) <$> attrs_fold (λ n t, each_field (attr_field E n t) fs) at_ vs) as ->.
  { rewrite !attrs_ofold.
    refine (ofold_view (Forall2 fits fs) (λ _, tt) (λ p, array_attr p.1 p.2)
      (λ p, each_field (attr_field E p.1 p.2) fs) at_ _ _ vs Hz).
    - intros [m t] us _ Hf. subst fs. spread Hf. cbn [fst snd]. open_attr. cbv [array_attr].
      split_names m ltac:(idtac; nums; reflexivity). reflexivity.
    - intros [m t] us us' _. apply attr_kept_fits. }
  destruct (attrs_fold _ at_ vs) as [us|] eqn:Hv; cbn; [|done].
  rewrite Hk. cbn. assert (Forall2 fits fs us) as Hf by (by eapply attrs_kept_fits).
  subst fs. spread Hf. cbn. split; [done|]. by intros w [= <-].
Qed.

Definition see_simple (vs : list value) : string * string * string :=
  (str (get "SimplePredicate" "field" vs), str (get "SimplePredicate" "operator" vs),
   str (get "SimplePredicate" "value" vs)).
Lemma see_simple_is a b c d : see_simple [a; b; c; d] = (str a, str b, str c).
Proof. reflexivity. Qed.
Global Arguments see_simple : simpl never.
Lemma simple_read E n at_ inner ks vs : Forall2 fits (fields "SimplePredicate") vs →
  attrs_fold simple_attr at_ (see_simple vs) = see_simple <$> read E (Elem n at_ inner ks) "SimplePredicate" vs.
Proof.
  known "SimplePredicate". rewrite (go_struct_fields _ _ Hs). intros Hf.
  apply (view_attrs E _ _ _ see_simple _ n at_ inner ks vs Hs); [done| | |exact Hf]; clear vs Hf.
  - by_attrs see_simple_is ltac:(cbv [simple_attr]).
  - by_kids see_simple_is idtac fail.
Qed.
Lemma simple_new E n at_ inner ks :
  attrs_fold simple_attr at_ ("", "", "") =
  see_simple <$> read E (Elem n at_ inner ks) "SimplePredicate" (zero "SimplePredicate").
Proof. from_zero simple_read. Qed.

Definition see_set (vs : list value) : (string * string) * list string :=
  ((str (get "SimpleSetPredicate" "booleanOperator" vs), str (get "SimpleSetPredicate" "field" vs)),
   [str (get "Array" "" (inside (get "SimpleSetPredicate" "Array" vs)))]).
Lemma see_set_is a b c d : see_set [a; b; c; d] = ((str a, str b), [str (get "Array" "" (inside c))]).
Proof. reflexivity. Qed.
Global Arguments see_set : simpl never.
Lemma set_read E n at_ inner ks vs : Forall2 fits (fields "SimpleSetPredicate") vs →
  (p ← attrs_fold (λ n t p, (λ x, (x, p.2)) <$> set_attr n t p.1) at_ (see_set vs);
   kids_fold (λ k p, (λ y, (p.1, y)) <$> set_kid k p.2) ks p) =
  see_set <$> read E (Elem n at_ inner ks) "SimpleSetPredicate" vs.
Proof.
  known "SimpleSetPredicate". rewrite (go_struct_fields _ _ Hs). intros Hf.
  apply (view_read E _ _ _ see_set _ _ n at_ inner ks vs Hs); [done| | |exact Hf]; clear vs Hf.
  - by_attrs see_set_is ltac:(cbv [set_attr fst snd]).
  - intros [m at' i cs|?] vs Hk Hf; [|reflexivity].
    cbn [s_fields] in Hf. spread Hf. open_kid. rewrite see_set_is. cbv [set_kid fst snd].
    split_names m ltac:(idtac; first [skip see_set_is|
      destruct (array_any E "Array" at' i cs l) as [-> Ha]; [fit|];
      destruct (read E _ _ _) as [w|] eqn:R; steps; [rewrite see_set_is; cbn [inside]; by rewrite (Ha w eq_refl)|done]]).
    steps. by rewrite see_set_is.
Qed.

Definition as_pred (n : string) (vs : list value) : predicate := see_pred (VStruct n vs).
Definition see_preds (v : value) : list predicate :=
  map (λ u, match u with VSome p => see_pred p | _ => PNone end) (items v).

Definition see_compound (vs : list value) : string * list predicate :=
  (str (get "CompoundPredicate" "booleanOperator" vs), see_preds (get "CompoundPredicate" "Predicate" vs)).
Lemma see_compound_is a b c : see_compound [a; b; c] = (str a, see_preds c).
Proof. reflexivity. Qed.
Global Arguments see_compound : simpl never.

Lemma pred_group n : in_group n "Predicate" = true →
  n = "CompoundPredicate" ∨ n = "False" ∨ n = "SimplePredicate" ∨ n = "SimpleSetPredicate" ∨ n = "True".
Proof.
  unfold in_group. change (go_group "Predicate") with
    ["CompoundPredicate"; "False"; "SimplePredicate"; "SimpleSetPredicate"; "True"].
  cbv [existsb]. intros H. repeat (apply orb_prop in H as [H|H]; [apply String.eqb_eq in H as ->; tauto|]). done.
Qed.

Lemma dec_pred_name n at_ inner ks : in_group n "Predicate" = false → dec_pred (Elem n at_ inner ks) = None.
Proof.
  unfold in_group. change (go_group "Predicate") with
    ["CompoundPredicate"; "False"; "SimplePredicate"; "SimpleSetPredicate"; "True"].
  cbv [existsb]. intros H. repeat (apply orb_false_elim in H as [? H]).
  cbn [dec_pred]. repeat match goal with H : (n =s _) = false |- _ => rewrite H; clear H end. done.
Qed.

Lemma pred_new E : ∀ n at_ inner ks, in_group n "Predicate" = true →
  dec_pred (Elem n at_ inner ks) = Some (as_pred n <$> read E (Elem n at_ inner ks) n (zero n)).
Proof.
  enough (∀ x, match x with
               | Elem n at_ inner ks => in_group n "Predicate" = true →
                   dec_pred x = Some (as_pred n <$> read E x n (zero n))
               | Chars _ => True
               end) as Hx by (intros n at_ inner ks; apply (Hx (Elem n at_ inner ks))).
  induction x as [n at_ inner ks IH|t] using xml_rect'; [|done].
  intros Hn. destruct (pred_group n Hn) as [->|[->|[->|[->| ->]]]].
  - change (dec_pred (Elem "CompoundPredicate" at_ inner ks)) with
      (Some (b ← attrs_fold compound_attr at_ "";
              ps ← kids_fold
                (λ k acc,
                   match k with
                   | Chars _ => Some acc
                   | Elem m _ _ _ =>
                       if m =s "Extension" then Some acc
                       else match dec_pred k with
                            | Some (Some p) => Some (acc ++ [p])
                            | _ => None
                            end
                   end) ks [];
              Some (PCompound b ps))).
    f_equal. rewrite (two_folds PCompound).
    transitivity ((λ p : string * list predicate, PCompound p.1 p.2) <$>
                  (see_compound <$> read E (Elem "CompoundPredicate" at_ inner ks) "CompoundPredicate" (zero "CompoundPredicate"))).
    2:{ destruct (read E _ _ _) as [vs|] eqn:R; [|done]. steps.
        known "CompoundPredicate". pose proof (new_fits _ _ _ _ _ _ _ _ Hs R) as Hf. cbn [s_fields] in Hf. spread Hf. reflexivity. }
    f_equal. known "CompoundPredicate".
    refine (view_read E _ _ _ see_compound _ _ _ _ _ _ (zero "CompoundPredicate") Hs eq_refl _ _ (zero_fits _ _ Hs)).
    + by_attrs see_compound_is ltac:(cbv [compound_attr fst snd]).
    + intros [m at' i cs|?] vs Hk Hf; [|cbn; by destruct (see_compound vs)]. cbn [s_fields] in Hf. spread Hf. open_kid.
      rewrite see_compound_is. cbv [fst snd].
      split_names m ltac:(idtac; skip see_compound_is).
      destruct (in_group m "Predicate") eqn:Hg.
      * rewrite Forall_forall in IH. rewrite (IH _ Hk Hg). destruct (read E _ _ _); steps; [|done].
        rewrite see_compound_is. unfold see_preds. cbn [items]. by rewrite map_app.
      * rewrite dec_pred_name by done. done.
  - known "False". destruct (strings_new E "False" _ "False" at_ inner ks eq_refl Hs) as [w ->]. done.
  - change (dec_pred (Elem "SimplePredicate" at_ inner ks)) with
      (Some (a ← attrs_fold simple_attr at_ ("", "", ""); Some (PSimple a.1.1 a.1.2 a.2 GNil))).
    rewrite (simple_new E "SimplePredicate" at_ inner ks). by destruct (read E _ _ _).
  - change (dec_pred (Elem "SimpleSetPredicate" at_ inner ks)) with
      (Some (a ← attrs_fold set_attr at_ ("", "");
             l ← kids_fold set_kid ks [""]; Some (PSet a.1 a.2 l))).
    f_equal. rewrite (two_folds (λ a l, PSet a.1 a.2 l)).
    change ("", "", [""]) with (see_set (zero "SimpleSetPredicate")).
    rewrite (set_read E "SimpleSetPredicate" at_ inner ks) by fit. by destruct (read E _ _ _).
  - known "True". destruct (strings_new E "True" _ "True" at_ inner ks eq_refl Hs) as [w ->]. done.
Qed.

Lemma pred_any E n at_ inner ks :
  dec_pred (Elem n at_ inner ks) =
  if in_group n "Predicate" then Some (as_pred n <$> read E (Elem n at_ inner ks) n (zero n)) else None.
Proof. destruct (in_group n "Predicate") eqn:H; [by apply pred_new|by apply dec_pred_name]. Qed.
Global Arguments as_pred : simpl never.

(** ** Trees *)

Lemma see_dist_is a b c d e : see_dist [a; b; c; d; e] =
  ScoreDistribution (str d) (num c) (opt num a) (opt num b).
Proof. reflexivity. Qed.
Global Arguments see_dist : simpl never.
Lemma dist_read E n at_ inner ks vs : Forall2 fits (fields "ScoreDistribution") vs →
  attrs_fold (dist_attr E) at_ (see_dist vs) = see_dist <$> read E (Elem n at_ inner ks) "ScoreDistribution" vs.
Proof.
  known "ScoreDistribution". rewrite (go_struct_fields _ _ Hs). intros Hf.
  apply (view_attrs E _ _ _ see_dist _ n at_ inner ks vs Hs); [done| | |exact Hf]; clear vs Hf.
  - by_attrs see_dist_is ltac:(cbv [dist_attr]).
  - by_kids see_dist_is idtac fail.
Qed.
Lemma dist_new E n at_ inner ks :
  dec_dist E at_ = see_dist <$> read E (Elem n at_ inner ks) "ScoreDistribution" (zero "ScoreDistribution").
Proof. unfold dec_dist. from_zero dist_read. Qed.

Definition as_node (vs : list value) : mnode := see_node (VStruct "Node" vs).
Lemma as_node_is a b c d e f g h i j : as_node [a; b; c; d; e; f; g; h; i; j] =
  MNode (str b) (str a) (str d) (num c) (map (λ v, see_dist (inside v)) (items h))
    (map see_node (items f)) (match j with VSome p => see_pred p | _ => PNone end).
Proof. destruct f; reflexivity. Qed.
Global Arguments as_node : simpl never.

Lemma embedded_group m : in_group m "EmbeddedModel" = (("DecisionTree" =s m) || ("Regression" =s m)).
Proof.
  unfold in_group. change (go_group "EmbeddedModel") with ["DecisionTree"; "Regression"]. cbv [existsb].
  rewrite orb_false_r, (String.eqb_sym m "DecisionTree"), (String.eqb_sym m "Regression"). done.
Qed.

Lemma node_read E : ∀ x vs, elem_name x ≠ None → Forall2 fits (fields "Node") vs →
  dec_node E x (as_node vs) = as_node <$> read E x "Node" vs.
Proof.
  induction x as [n at_ inner ks IH|t] using xml_rect'; [|done]. intros vs _.
  known "Node". rewrite (go_struct_fields _ _ Hs). intros Hf. cbn [dec_node].
  apply (view_read E _ _ _ as_node _ _ n at_ inner ks vs Hs); [done| | |exact Hf]; clear vs Hf.
  - by_attrs as_node_is ltac:(cbv [node_attr]).
  - intros [m at' i cs|?] vs Hk Hf; [|reflexivity].
    cbn [s_fields] in Hf. spread Hf; open_kid; rewrite as_node_is, (pred_any E); rewrite !embedded_group; cbv [orb];
    split_names m ltac:(idtac; pointer; first [skip as_node_is|more as_node_is (dist_new E "ScoreDistribution" at' i cs)|
      rewrite Forall_forall in IH;
      change (MNode "" "" "" fzero [] [] PNone) with (as_node (zero "Node"));
      change zero_mnode with (as_node (zero "Node"));
      rewrite (IH _ Hk) by first [done|fit];
      destruct (read E _ _ _); steps; [rewrite as_node_is; cbn [items]; by rewrite map_app|reflexivity]|
      match goal with |- context[read E (Elem ?n ?a ?i ?c) ?s ?v] =>
        let st := eval vm_compute in (go_struct s) in
        match st with Some ?st =>
          destruct (strings_some s st E n a i c v) as [? ->]; [vm_compute; reflexivity..|
            let X := fresh in assert (go_struct s = Some st) as X by (vm_compute; reflexivity); congruence|];
          steps; rewrite ?as_node_is; reflexivity
        end
      end]);
    (destruct (in_group m "Predicate"); [|reflexivity]);
    (destruct (read E _ _ _); steps; [by rewrite as_node_is|reflexivity]).
Qed.

(** an element whose content is read and dropped *)
Lemma outcome_bind {A B C} (o1 : option A) (o2 : option B) (m : C) :
  (λ _, tt) <$> o1 = (λ _, tt) <$> o2 → (_ ← o1; Some m) = (λ _, m) <$> o2.
Proof. destruct o1, o2; cbn; congruence. Qed.

Lemma output_drop E n at_ inner ks vs {C} (m : C) : Forall2 fits (fields "Output") vs →
  (_ ← dec_output ks []; Some m) = (λ _, m) <$> read E (Elem n at_ inner ks) "Output" vs.
Proof.
  known "Output". intros Hf. apply outcome_bind.
  change (@nil output_field) with (see_output (zero "Output")).
  rewrite (output_read E n at_ inner ks) by fit.
  rewrite (go_struct_fields _ _ Hs) in Hf.
  rewrite (read_outcome E "Output" _ n at_ inner ks vs (zero "Output") Hs Hf (zero_fits _ _ Hs)).
  by destruct (read E _ _ _).
Qed.
Lemma targets_drop E n at_ inner ks vs {C} (m : C) : Forall2 fits (fields "Targets") vs →
  (_ ← dec_targets E (go_unread E) ks []; Some m) = (λ _, m) <$> read E (Elem n at_ inner ks) "Targets" vs.
Proof.
  known "Targets". intros Hf. apply outcome_bind.
  change (@nil target) with (see_targets (zero "Targets")).
  rewrite (targets_read E n at_ inner ks) by fit.
  rewrite (go_struct_fields _ _ Hs) in Hf.
  rewrite (read_outcome E "Targets" _ n at_ inner ks vs (zero "Targets") Hs Hf (zero_fits _ _ Hs)).
  by destruct (read E _ _ _).
Qed.

Ltac dropped L R := match goal with
  | |- context[read ?E (Elem ?n ?at_ ?i ?cs) ?s ?v] =>
      rewrite (R E n at_ i cs v) by fit; destruct (read E (Elem n at_ i cs) s v); steps; rewrite ?L; reflexivity
  end.

Lemma see_verif_opt_some n w : see_verif_opt (VSome (VStruct n w)) = Some (see_verif w).
Proof. reflexivity. Qed.
Lemma see_verif_opt_nil : see_verif_opt VNil = None.
Proof. reflexivity. Qed.
Global Arguments see_verif_opt : simpl never.

Ltac verified L := rewrite ?see_verif_opt_some, ?see_verif_opt_nil; match goal with
  | |- context[read ?E (Elem ?n ?at_ ?i ?cs) "ModelVerification" ?v] =>
      first [rewrite (verif_new E n at_ i cs)|rewrite (verif_in E n at_ i cs v) by fit];
      destruct (read E (Elem n at_ i cs) _ v); steps; rewrite ?L, ?see_verif_opt_some; reflexivity
  end.

Lemma see_tree_is a b c d e f g h i j k l m n o p q :
  see_tree [a; b; c; d; e; f; g; h; i; j; k; l; m; n; o; p; q] =
  TreeModel (str b) (str e) (num d) (str g) (see_local (inside j)) (see_schema (inside k))
    (see_verif_opt n) (see_node o).
Proof. reflexivity. Qed.
Global Arguments see_tree : simpl never.

Lemma inside_struct n vs : inside (VStruct n vs) = vs.
Proof. reflexivity. Qed.

Lemma tree_read E n at_ inner ks vs : Forall2 fits (fields "TreeModel") vs →
  (m ← attrs_fold (tree_attr E) at_ (see_tree vs); kids_fold (tree_kid E (go_unread E)) ks m) =
  see_tree <$> read E (Elem n at_ inner ks) "TreeModel" vs.
Proof.
  known "TreeModel". rewrite (go_struct_fields _ _ Hs). intros Hf.
  apply (view_read E _ _ _ see_tree _ _ n at_ inner ks vs Hs); [done| | |exact Hf]; clear vs Hf.
  - by_attrs see_tree_is ltac:(cbv [tree_attr]).
  - intros [m at' i cs|?] vs Hk Hf; [|reflexivity].
    cbn [s_fields] in Hf. spread Hf; open_kid; rewrite see_tree_is, !inside_struct; cbv [tree_kid orb];
    split_names m ltac:(idtac; pointer; first
      [on "Extension" ltac:(idtac; skip see_tree_is)|
       on "LocalTransformations" ltac:(idtac; place see_tree_is local_read)|
       on "MiningSchema" ltac:(idtac; place see_tree_is schema_read)|
       on "ModelVerification" ltac:(idtac; verified see_tree_is)|
       on "Output" ltac:(idtac; dropped see_tree_is output_drop)|
       on "Targets" ltac:(idtac; dropped see_tree_is targets_drop)|
       on "ModelExplanation" ltac:(idtac; drop see_tree_is)|
       on "ModelStats" ltac:(idtac; drop see_tree_is)|
       match goal with |- context[see_node (VStruct "Node" ?l)] =>
         change (see_node (VStruct "Node" l)) with (as_node l);
         rewrite (node_read E (Elem "Node" at' i cs) l) by first [done|fit];
         destruct (read E _ _ _); steps; rewrite ?see_tree_is; reflexivity end]);
    steps; rewrite see_tree_is; reflexivity.
Qed.
Lemma tree_new E n at_ inner ks :
  dec_tree E (go_unread E) at_ ks = see_tree <$> read E (Elem n at_ inner ks) "TreeModel" (zero "TreeModel").
Proof. unfold dec_tree. from_zero tree_read. Qed.

(** ** Regression *)

Lemma see_predictor_is a b c d : see_predictor [a; b; c; d] = Predictor (str a) (num b) (int c).
Proof. reflexivity. Qed.
Global Arguments see_predictor : simpl never.
Lemma predictor_read E n at_ inner ks vs : Forall2 fits (fields "NumericPredictor") vs →
  attrs_fold (pred_attr E) at_ (see_predictor vs) =
  see_predictor <$> read E (Elem n at_ inner ks) "NumericPredictor" vs.
Proof.
  known "NumericPredictor". rewrite (go_struct_fields _ _ Hs). intros Hf.
  apply (view_attrs E _ _ _ see_predictor _ n at_ inner ks vs Hs); [done| | |exact Hf]; clear vs Hf.
  - by_attrs see_predictor_is ltac:(cbv [pred_attr]).
  - by_kids see_predictor_is idtac fail.
Qed.
Lemma predictor_new E n at_ inner ks :
  attrs_fold (pred_attr E) at_ (Predictor "" fzero 0) =
  see_predictor <$> read E (Elem n at_ inner ks) "NumericPredictor" (zero "NumericPredictor").
Proof. from_zero predictor_read. Qed.

Lemma see_rtable_is a b c d : see_rtable [a; b; c; d] =
  RegrTable (num a) (str b) (map (λ v, see_predictor (inside v)) (items c)).
Proof. reflexivity. Qed.
Global Arguments see_rtable : simpl never.
Lemma rtable_read E n at_ inner ks vs : Forall2 fits (fields "RegressionTable") vs →
  (t ← attrs_fold (table_attr E) at_ (see_rtable vs); kids_fold (table_kid E) ks t) =
  see_rtable <$> read E (Elem n at_ inner ks) "RegressionTable" vs.
Proof.
  known "RegressionTable". rewrite (go_struct_fields _ _ Hs). intros Hf.
  apply (view_read E _ _ _ see_rtable _ _ n at_ inner ks vs Hs); [done| | |exact Hf]; clear vs Hf.
  - by_attrs see_rtable_is ltac:(cbv [table_attr]).
  - by_kids see_rtable_is ltac:(cbv [table_kid])
      ltac:(idtac; more see_rtable_is (predictor_new E "NumericPredictor" at' i cs)).
Qed.
Lemma rtable_new E n at_ inner ks :
  dec_regr_table E at_ ks = see_rtable <$> read E (Elem n at_ inner ks) "RegressionTable" (zero "RegressionTable").
Proof. unfold dec_regr_table. from_zero rtable_read. Qed.

Lemma see_regr_is a b c d e f g h i j k l m n :
  see_regr [a; b; c; d; e; f; g; h; i; j; k; l; m; n] =
  RegrModel (str b) (str e) (see_local (inside f)) (see_schema (inside g))
    (map (λ v, see_rtable (inside v)) (items h)) (see_output (inside l)) (see_verif_opt k).
Proof. reflexivity. Qed.
Global Arguments see_regr : simpl never.

Lemma regr_read E n at_ inner ks vs : Forall2 fits (fields "RegressionModel") vs →
  (m ← attrs_fold regr_attr at_ (see_regr vs); kids_fold (regr_kid E (go_unread E)) ks m) =
  see_regr <$> read E (Elem n at_ inner ks) "RegressionModel" vs.
Proof.
  known "RegressionModel". rewrite (go_struct_fields _ _ Hs). intros Hf.
  apply (view_read E _ _ _ see_regr _ _ n at_ inner ks vs Hs); [done| | |exact Hf]; clear vs Hf.
  - by_attrs see_regr_is ltac:(cbv [regr_attr]).
  - intros [m at' i cs|?] vs Hk Hf; [|reflexivity].
    cbn [s_fields] in Hf. spread Hf; open_kid; rewrite see_regr_is, !inside_struct; cbv [regr_kid orb];
    split_names m ltac:(idtac; pointer; first
      [on "Extension" ltac:(idtac; skip see_regr_is)|
       on "LocalTransformations" ltac:(idtac; place see_regr_is local_read)|
       on "MiningSchema" ltac:(idtac; place see_regr_is schema_read)|
       on "RegressionTable" ltac:(idtac; more see_regr_is (rtable_new E "RegressionTable" at' i cs))|
       on "ModelVerification" ltac:(idtac; verified see_regr_is)|
       on "Output" ltac:(idtac; place see_regr_is output_read)|
       on "Targets" ltac:(idtac; dropped see_regr_is targets_drop)|
       on "ModelExplanation" ltac:(idtac; drop see_regr_is)|
       on "ModelStats" ltac:(idtac; drop see_regr_is)]);
    steps; rewrite see_regr_is; reflexivity.
Qed.
Lemma regr_new E n at_ inner ks :
  dec_regr E (go_unread E) at_ ks = see_regr <$> read E (Elem n at_ inner ks) "RegressionModel" (zero "RegressionModel").
Proof. unfold dec_regr. from_zero regr_read. Qed.
