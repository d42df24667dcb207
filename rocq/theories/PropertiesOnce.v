(** Property C150: derived fields declared by the members or by the ensemble. *)
From Verif Require Import Base Strconv Value Doc Expr Pred Tree Regression Model Lib ProofsWhole ProofsSim GoExt Samples
  SpecExpr SpecConstruct SpecModel SpecDerive ProofsDerive PropertiesModel PropertiesEquiv SpecOnce ProofsOnce.

(** *** C150.  Documents that differ in where derived fields are declared answer alike:
    every row gets the same answer and is left the same. *)
Theorem C150_answers : ∀ E dd td d d' e td' calls1 calls2,
  declared_above dd d d' → new_model E dd td d = (Ok e, td') →
  ∃ e' td2, new_model E dd td d' = (Ok e', td2) ∧
    ∀ tk r, (evaluate E tk (after E calls1 e) r).1 = (evaluate E tk (after E calls2 e') r).1.
Proof.
  intros E dd td d d' e td' calls1 calls2 Hd H1. pose proof (declared_good E dd d d' Hd td td (λ _, eq_refl)) as H.
  unfold as_good in H. rewrite H1 in H. destruct (new_model E dd td d') as [[e'|x|p] td2] eqn:H2; simpl in H; try done.
  exists e', td2. split; [done|]. intros tk r. destruct H as [_ H].
  by rewrite (history_independent _ _ _ _ _ _ _ _ _ H1), (history_independent _ _ _ _ _ _ _ _ _ H2).
Qed.
Print Assumptions C150_answers.

(** If one of them is rejected then so is the other, with the same error. *)
Theorem C150_rejected : ∀ E dd td d d' x,
  declared_above dd d d' → ((new_model E dd td d).1 = Err x ↔ (new_model E dd td d').1 = Err x).
Proof.
  intros E dd td d d' x Hd. pose proof (declared_good E dd d d' Hd td td (λ _, eq_refl)) as H. unfold as_good in H.
  destruct (new_model E dd td d) as [[e|y|p] td1], (new_model E dd td d') as [[e'|y'|p'] td2]; simpl in *; try done. by rewrite H.
Qed.
Print Assumptions C150_rejected.

(** A forest whose trees all begin with the same derived fields is the forest that
    declares them once. *)
Definition forest (h : mining_header) (ts : list (string * list predicate * tree_model)) : doc_model :=
  DMining h ((λ x, Segment x.1.1 x.1.2 [DTree x.2]) <$> ts).
Definition without (l : list derived_field) (x : string * list predicate * tree_model) : string * list predicate * tree_model :=
  (x.1, tree_with_lt x.2 (drop (length l) (tm_lt x.2))).
Theorem C150_forest : ∀ E dd td h l ts e td' calls1 calls2,
  new_model E dd td (forest h ts) = (Ok e, td') → ts ≠ [] → well_ordered l → mm_method h ≠ "modelChain" →
  Forall (λ x, l `prefix_of` tm_lt x.2 ∧ ∀ f, f ∈ map df_name (drop (length l) (tm_lt x.2)) → ¬ involves l f) ts →
  ∃ e' td2, new_model E dd td (forest (header_with_lt h (mm_lt h ++ l)) (without l <$> ts)) = (Ok e', td2) ∧
    ∀ tk r, (evaluate E tk (after E calls1 e) r).1 = (evaluate E tk (after E calls2 e') r).1.
Proof.
  intros E dd td h l ts e td' calls1 calls2 He Hne Hw Hm Hts. eapply C150_answers; [|exact He].
  destruct ts as [|[[i ps] t] ts]; [done|]. apply Forall_cons in Hts as [[[rest Hrest] Ht] Hts].
  assert (∀ x, l `prefix_of` tm_lt x.2 → hands_over l (DTree x.2) (DTree (without l x).2)) as Hh.
  { intros x [k Hk]. constructor. simpl. rewrite Hk. by rewrite drop_app. }
  eapply da_trans; [apply (da_first _ h l i ps (DTree t) (DTree (without l (i, ps, t)).2)); apply (Hh (i, ps, t)); by exists rest|].
  apply (da_again _ (header_with_lt h (mm_lt h ++ l)) (mm_lt h) l); [done|done|].
  assert (∀ x, (∀ f, f ∈ map df_name (drop (length l) (tm_lt x.2)) → ¬ involves l f) →
    ∀ f, f ∈ written_names dd (DTree (without l x).2) → ¬ involves l f) as Hwr.
  { intros x Hx f. unfold written_names. cbn [doc_trees doc_headers map concat]. rewrite decide_False by by inversion 1.
    rewrite !app_nil_r. apply Hx. }
  constructor.
  - simpl. constructor; [|constructor]. split; [by left|]. split; [by apply (Hwr (i, ps, t))|done].
  - clear -Hts Hh Hwr Hm. induction Hts as [|x ts [Hp Hx] _ IH]; constructor; [|done].
    simpl. constructor; [|constructor]. split; [right; by apply Hh|]. split; [by apply Hwr|done].
Qed.
Print Assumptions C150_forest.

(** Two golf trees, each with its conversion of the wind, or one conversion for both. *)
Definition golf_header : mining_header :=
  MiningHeader "classification" "average" [] [] [OF "probability(yes)" "probability" "yes"; OF "probability(no)" "probability" "no"] [] None.
Definition golf_pair : list (string * list predicate * tree_model) :=
  [("1", [PTrue], golf_tree "none" "1"); ("2", [PTrue], golf_tree "lastPrediction" "1")].
Definition breezy : datarow := Some {["outlook" := GStr "rain"; "kmh" := GF64 (fl "3.6")]}.
Lemma golf_lt_ordered : well_ordered golf_lt.
Proof. simpl. split_and!; try done; set_solver. Qed.
Example C150_example :
  well_ordered golf_lt ∧
  Forall (λ x, golf_lt `prefix_of` tm_lt x.2 ∧ ∀ f, f ∈ map df_name (drop (length golf_lt) (tm_lt x.2)) → ¬ involves golf_lt f) golf_pair ∧
  map (λ d, (dumped (run go_ext golf_dd d breezy), doc_locals d))
    [forest golf_header golf_pair; forest (header_with_lt golf_header golf_lt) (without golf_lt <$> golf_pair)] =
  map (λ l, (dumped (run go_ext golf_dd (forest golf_header golf_pair) breezy), l)) [golf_lt ++ golf_lt; golf_lt] ∧
  dumped (run go_ext golf_dd (forest golf_header golf_pair) breezy) ≠ None.
Proof.
  split; [apply golf_lt_ordered|]. split; [|by vm_compute].
  apply Forall_cons. split; [|apply Forall_cons; split; [|apply Forall_nil; done]];
    (split; [exists []; reflexivity|by intros f ?%elem_of_nil]).
Qed.

(** What a later member alone declares may not be declared by the ensemble: the members
    before it would see it. *)
Theorem C150_later_member : ∃ E dd h l s d d' r e1 e2 td1 td2,
  hands_over l d d' ∧ well_ordered l ∧
  new_model E dd [] (DMining h [s; Segment "2" [PTrue] [d]]) = (Ok e1, td1) ∧
  new_model E dd [] (DMining (header_with_lt h (mm_lt h ++ l)) [s; Segment "2" [PTrue] [d']]) = (Ok e2, td2) ∧
  (evaluate E [] e1 r).1.1 ≠ (evaluate E [] e2 r).1.1.
Proof.
  exists go_ext, (golf_dd ++ [DataField "wind" "double" []]), golf_header, golf_lt, (Segment "1" [PTrue] [DTree (tree_with_lt (golf_tree "none" "1") [])]),
    (DTree (golf_tree "none" "1")), (DTree (tree_with_lt (golf_tree "none" "1") [])), breezy.
  destruct (told_apart go_ext (golf_dd ++ [DataField "wind" "double" []])
    (DMining golf_header [Segment "1" [PTrue] [DTree (tree_with_lt (golf_tree "none" "1") [])]; Segment "2" [PTrue] [DTree (golf_tree "none" "1")]])
    (DMining (header_with_lt golf_header (mm_lt golf_header ++ golf_lt))
       [Segment "1" [PTrue] [DTree (tree_with_lt (golf_tree "none" "1") [])]; Segment "2" [PTrue] [DTree (tree_with_lt (golf_tree "none" "1") [])]])
    breezy) as (e1 & e2 & td1 & td2 & H1 & H2 & H3); [by vm_compute..|].
  exists e1, e2, td1, td2. split; [by apply (ho_tree golf_lt (golf_tree "none" "1") [])|].
  split; [apply golf_lt_ordered|]. exact (conj H1 (conj H2 H3)).
Qed.
Print Assumptions C150_later_member.

(** Nor may a field that is computed from itself: each member changes it once more. *)
Definition doubling : list derived_field := [DF "kmh" "double" (XA "*" [XF "kmh"; XConst "double" "2"])].
Definition speed_tree : tree_model :=
  TreeModel "regression" "none" fone "returnLastPrediction" doubling [MF "kmh" "active"] None
    (MNode "1" "" "0" fone [] [MNode "2" "" "1" fone [] [] (SP "kmh" "greaterThan" "30")] PTrue).
Definition fast_header : mining_header := MiningHeader "regression" "sum" [] [] [OF "n" "" ""] [] None.
Definition fast_pair : list (string * list predicate * tree_model) := [("1", [PTrue], speed_tree); ("2", [PTrue], speed_tree)].
Theorem C150_computed_from_itself : ∃ E dd h l ts r e1 e2 td1 td2,
  Forall (λ x, tm_lt x.2 = l) ts ∧ mm_method h = "sum" ∧ NoDup (map df_name l) ∧
  new_model E dd [] (forest h ts) = (Ok e1, td1) ∧
  new_model E dd [] (forest (header_with_lt h (mm_lt h ++ l)) (without l <$> ts)) = (Ok e2, td2) ∧
  (evaluate E [] e1 r).1.1 ≠ (evaluate E [] e2 r).1.1.
Proof.
  exists go_ext, golf_dd, fast_header, doubling, fast_pair, (Some {["kmh" := GF64 (fl "10")]}).
  destruct (told_apart go_ext golf_dd (forest fast_header fast_pair)
    (forest (header_with_lt fast_header (mm_lt fast_header ++ doubling)) (without doubling <$> fast_pair)) (Some {["kmh" := GF64 (fl "10")]}))
    as (e1 & e2 & td1 & td2 & H1 & H2 & H3); [by vm_compute..|].
  exists e1, e2, td1, td2. split; [by repeat (apply Forall_cons; split; [reflexivity|]); apply Forall_nil|]. split; [reflexivity|]. split; [by apply NoDup_singleton|]. exact (conj H1 (conj H2 H3)).
Qed.
Print Assumptions C150_computed_from_itself.
