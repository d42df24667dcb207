(** Property C137: documents built earlier with the same transformation dictionary. *)
From Verif Require Import Base Strconv Value Doc Expr Pred Tree Regression Model Lib ProofsConstruct ProofsWhole ProofsSim
  GoExt Samples SpecConstruct SpecTree SpecEquiv PropertiesConstruct ProofsSegments SpecEarlier ProofsEarlier.

(** *** C137.  All that NewModel takes from the transformation dictionary it is given are the
    data types of the fields that the document's trees test and do not derive themselves. *)
Theorem C137_types : ∀ E dd td1 td2 d,
  (∀ f, f ∈ tested d → type_given dd td1 f = type_given dd td2 f) →
  same_outcome E (new_model E dd td1 d).1 (new_model E dd td2 d).1.
Proof.
  intros E dd td1 td2 d Hf. pose proof (model_alike E dd d td1 td2) as Ha. feed specialize Ha.
  { intros f. rewrite !type_given_types. apply Hf. }
  destruct (new_model E dd td1 d) as [[e1|x|x] t1] eqn:H1, (new_model E dd td2 d) as [[e2|y|y] t2] eqn:H2; try done.
  intros calls1 calls2 tk r.
  rewrite (history_independent _ _ _ _ _ _ _ _ _ H1), (history_independent _ _ _ _ _ _ _ _ _ H2). by apply Ha.
Qed.
Print Assumptions C137_types.

Lemma left_by_more E builds : ∀ td, ∃ l, left_by E td builds = td ++ l ∧
  ∀ x, x ∈ l → ∃ b, b ∈ builds ∧ x ∈ doc_locals b.2.
Proof.
  induction builds as [|[dd d] builds IH]; intros td.
  { exists []. split; [by rewrite app_nil_r|]. by intros x ?%elem_of_nil. }
  change (left_by E td ((dd, d) :: builds)) with (left_by E (new_model E dd td d).2 builds).
  destruct (new_model E dd td d) as [o td'] eqn:Hn. cbn [snd]. destruct (new_model_td_prefix _ _ _ _ _ _ Hn) as (l1 & l2 & -> & Hl).
  destruct (IH (td ++ l1)) as (l & Heq & Hx). exists (l1 ++ l). split; [by rewrite Heq, app_assoc|].
  intros x [H|H]%elem_of_app.
  - exists (dd, d). split; [by left|]. simpl. rewrite Hl. apply elem_of_app. by left.
  - destruct (Hx x H) as (b & Hb & Hxb). exists b. split; [by right|done].
Qed.

(** So a document is accepted or rejected, and predicts, as if no other document had been
    built before with this dictionary, unless one of them derives a field that it tests.
    The earlier documents need not have been accepted. *)
Theorem C137_other_documents : ∀ E dd td builds d,
  (∀ f b x, f ∈ tested d → b ∈ builds → x ∈ doc_locals b.2 → df_name x ≠ f) →
  same_outcome E (new_model E dd td d).1 (new_model E dd (left_by E td builds) d).1.
Proof.
  intros E dd td builds d Hb. apply C137_types. intros f Hf.
  destruct (left_by_more E builds td) as (l & -> & Hl). unfold type_given. rewrite filter_app.
  assert (filter (λ x, df_name x = f) l = []) as ->; [|by rewrite app_nil_r].
  destruct (filter _ l) as [|x l'] eqn:Hx; [done|]. exfalso.
  assert (x ∈ filter (λ x, df_name x = f) l) as [Hn Hxl]%elem_of_list_filter by (rewrite Hx; by left).
  destruct (Hl x Hxl) as (b & Hin & Hloc). by eapply Hb.
Qed.
Print Assumptions C137_other_documents.

(** The same document built again behaves as the first time, if its trees test no field that
    is derived in it by another model. *)
Theorem C137_again : ∀ E dd td d n,
  (∀ f x, f ∈ tested d → x ∈ doc_locals d → df_name x ≠ f) →
  same_outcome E (new_model E dd td d).1 (new_model E dd (left_by E td (repeat (dd, d) n)) d).1.
Proof.
  intros E dd td d n Hf. apply C137_other_documents. intros f b x Ht Hb Hx.
  apply elem_of_list_In, repeat_spec in Hb as ->. by eapply Hf.
Qed.
Print Assumptions C137_again.

(** A tree that derives what it tests, after a document in which a string has that name and
    another one that was rejected. *)
Definition shouting : doc_model :=
  DTree (TreeModel "regression" "none" fone "" [DF "wind" "string" (XF "rooms")] [] None
    (price_leaf "1" "5" "area" "lessThan" "3")).
Example C137_example :
  let builds := [(price_dd, shouting); (golf_dd, bad_tree "classification" "wind" "five")] in
  map df_datatype (left_by go_ext [] builds) = ["string"; "double"] ∧
  map (λ b, is_ok (new_model go_ext b.1 [] b.2).1) builds = [true; false] ∧
  tested (golf "none") = ["outlook"; "humidity"; "humidity"; "outlook"] ∧
  (∀ f b x, f ∈ tested (golf "none") → b ∈ builds → x ∈ doc_locals b.2 → df_name x ≠ f) ∧
  is_ok (new_model go_ext golf_dd (left_by go_ext [] builds) (golf "none")).1 = true ∧
  is_ok (new_model go_ext golf_dd [] (golf "none")).1 = true.
Proof.
  split; [by vm_compute|]. split; [by vm_compute|]. split; [by vm_compute|].
  split; [|split; by vm_compute].
  intros f b x Hf Hb Hx.
  assert (f ∈ ["outlook"; "humidity"; "humidity"; "outlook"]) as Hf'. { revert Hf. by vm_compute. }
  assert (df_name x = "wind") as ->.
  { apply elem_of_cons in Hb as [->|[->|[]%elem_of_nil]%elem_of_cons];
      simpl in Hx; by apply elem_of_list_singleton in Hx as ->. }
  intros <-. set_solver.
Qed.

(** A derived field of the earlier document that has the name of a field tested by the later
    one gives it its type: the later model predicts something else, or is rejected. *)
Definition naming (ty : string) : doc_model :=
  DTree (TreeModel "regression" "none" fone "" [DF "area" ty (XF "rooms")] [] None
    (price_leaf "1" "5" "rooms" "lessThan" "3")).
Lemma answers_apart E dd td1 td2 d r :
  let ask td := match new_model E dd td d with (Ok e, _) => dumped (Some (evaluate E [] e r).1) | _ => None end in
  ask td1 ≠ None → ask td2 ≠ None → ask td1 ≠ ask td2 →
  ∃ e1 e2, (new_model E dd td1 d).1 = Ok e1 ∧ (new_model E dd td2 d).1 = Ok e2 ∧
    (evaluate E [] e1 r).1.1 ≠ (evaluate E [] e2 r).1.1.
Proof.
  simpl. destruct (new_model E dd td1 d) as [[e1| |] t1], (new_model E dd td2 d) as [[e2| |] t2]; try done.
  intros _ _ Hne. exists e1, e2. split; [done|]. split; [done|]. intros Heq. apply Hne.
  destruct (evaluate E [] e1 r).1 as [o1 r1], (evaluate E [] e2 r).1 as [o2 r2]. simpl in *. by rewrite Heq.
Qed.
Theorem C137_same_name : ∃ E dd d d1 d2 r e1 e2 x,
  is_ok (new_model E dd [] d1).1 = true ∧ is_ok (new_model E dd [] d2).1 = true ∧
  (new_model E dd [] d).1 = Ok e1 ∧ (new_model E dd (left_by E [] [(dd, d1)]) d).1 = Ok e2 ∧
  (evaluate E [] e1 r).1.1 ≠ (evaluate E [] e2 r).1.1 ∧
  (new_model E dd (left_by E [] [(dd, d2)]) d).1 = Err x.
Proof.
  destruct (answers_apart go_ext price_dd [] (left_by go_ext [] [(price_dd, naming "string")]) (DTree price_tree)
    (Some {["area" := GF64 (fl "58")]})) as (e1 & e2 & H1 & H2 & Hne); [by vm_compute..|].
  exists go_ext, price_dd, (DTree price_tree), (naming "string"), (naming "boolean"), (Some {["area" := GF64 (fl "58")]}), e1, e2, (EParseBool "60").
  split; [by vm_compute|]. split; [by vm_compute|]. split; [done|]. split; [done|]. split; [done|].
  by vm_compute.
Qed.
Print Assumptions C137_same_name.
