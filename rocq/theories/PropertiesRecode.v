(** Property theorem about units (C120). *)
From Verif Require Import Base Strconv Value Doc Expr Pred Tree Regression Model Lib SpecModel
  SpecEquiv SpecCells ProofsWhole ProofsSim SpecRecode ProofsRecode GoExt Samples.

(** *** C120: trees look only at the order of numbers *)
Theorem C120_units : ∀ E dd td F R d1 d2 e1 td' m1 m2,
  same_order F R → all_double dd td F → only_split dd d1 F →
  recoded E F R d1 d2 → recoded_rows F R m1 m2 →
  new_model E dd td d1 = (Ok e1, td') →
  ∃ e2, new_model E dd td d2 = (Ok e2, td') ∧
  ∀ calls1 calls2 tk,
    (evaluate E tk (after E calls1 e1) (Some m1)).1.1 = (evaluate E tk (after E calls2 e2) (Some m2)).1.1 ∧
    ∀ f, f ∉ F →
      dr_get (evaluate E tk (after E calls1 e1) (Some m1)).1.2 f = dr_get (evaluate E tk (after E calls2 e2) (Some m2)).1.2 f.
Proof.
  intros E dd td F R d1 d2 e1 td' m1 m2 HR Hty Ho Hd Hm Hn.
  destruct (recoded_stands E dd F R HR d1 d2 Hd td e1 td' Hty Ho Hn) as (e2 & Hn2 & H). exists e2. split; [done|].
  intros calls1 calls2 tk.
  rewrite (history_independent E dd td d1 e1 td' calls1 tk (Some m1) Hn), (history_independent E dd td d2 e2 td' calls2 tk (Some m2) Hn2).
  destruct (H tk (Some m1) (Some m2)) as [H1 (q1 & q2 & H2 & H3 & H4)]; [by exists m1, m2|].
  split; [done|]. intros f Hf. rewrite H2, H3. simpl. by eapply rec_other.
Qed.
Print Assumptions C120_units.

(** humidity in percent and as a fraction, in an ensemble whose second tree is a
    regression on the same field *)
Definition golf_frac (st : string) : doc_model :=
  DTree (with_node (golf_tree st "0.5")
    (MNode "1" "2" "yes" (fl "14") [SD "yes" "9"; SD "no" "5"]
      [MNode "2" "4" "yes" (fl "5") [SD "yes" "2"; SD "no" "3"]
         [MNode "4" "" "yes" (fl "2") [SD "yes" "2"; SD "no" "0"] [] (SP "humidity" "lessOrEqual" "0.75");
          MNode "5" "" "no" (fl "3") [SD "yes" "0"; SD "no" "3"] [] (SP "humidity" "greaterThan" "0.75")]
         (SP "outlook" "equal" "sunny");
       MNode "3" "" "yes" (fl "9") [SD "yes" "7"; SD "no" "2"] []
         (PCompound "or" [SP "outlook" "equal" "overcast"; SP "wind" "lessThan" "5"])]
      PTrue)).
Definition percent (f : string) (x y : f64) : Prop := (x, y) ∈ [(fl "70", fl "0.7"); (fl "75", fl "0.75"); (fl "80", fl "0.8")].
Definition voted (d : doc_model) : doc_model :=
  mining "classification" "average" [] [OF "p" "probability" "yes"] [] [d; d].

Example C120_example :
  let row h : row := {["outlook" := GStr "sunny"; "humidity" := GF64 (fl h); "kmh" := GF64 (fl "10")]} in
  same_order ["humidity"] percent ∧ all_double golf_dd [] ["humidity"] ∧
  only_split golf_dd (voted (golf "weightedConfidence")) ["humidity"] ∧
  recoded go_ext ["humidity"] percent (voted (golf "weightedConfidence")) (voted (golf_frac "weightedConfidence")) ∧
  recoded_rows ["humidity"] percent (row "80") (row "0.8") ∧
  (new_model go_ext golf_dd [] (voted (golf "weightedConfidence"))).1 = Ok (built go_ext golf_dd (voted (golf "weightedConfidence"))) ∧
  dumped (run go_ext golf_dd (voted (golf "weightedConfidence")) (Some (row "80"))) =
  dumped (run go_ext golf_dd (voted (golf_frac "weightedConfidence")) (Some (row "0.8"))) ∧
  dumped (run go_ext golf_dd (voted (golf "weightedConfidence")) (Some (row "80"))) = Some (Ok (Some [("p", GF64 (fl "0"))])).
Proof.
  split; [|split; [|split; [|split; [|split; [|split; [|split]]]]]].
  - intros f x y x' y' _ Hx Hy. unfold percent in *.
    repeat (apply elem_of_cons in Hx as [[= -> ->]|Hx]); try (by apply elem_of_nil in Hx);
    repeat (apply elem_of_cons in Hy as [[= -> ->]|Hy]); try (by apply elem_of_nil in Hy);
    vm_compute; reflexivity.
  - intros f ->%elem_of_list_singleton. by left.
  - intros f ->%elem_of_list_singleton. vm_compute. split; intros H; repeat (apply elem_of_cons in H as [H|H]; [done|]); by apply elem_of_nil in H.
  - constructor. assert (recoded go_ext ["humidity"] percent (golf "weightedConfidence") (golf_frac "weightedConfidence")) as H.
    { constructor. constructor. cbn [golf_tree tm_node golf_root].
      constructor; [|constructor]. constructor; [|constructor; [|constructor]].
      - constructor; [|apply rp_other; set_solver]. constructor; [|constructor; [|constructor]].
        + constructor; [constructor|]. eapply rp_simple; [set_solver|vm_compute; reflexivity|vm_compute; reflexivity|].
          unfold percent. right. left.
        + constructor; [constructor|]. eapply rp_simple; [set_solver|vm_compute; reflexivity|vm_compute; reflexivity|].
          unfold percent. right. left.
      - constructor; [constructor|]. constructor. constructor; [apply rp_other; set_solver|].
        constructor; [apply rp_other; set_solver|constructor]. }
    constructor; [constructor; [exact H|constructor]|]. constructor; [constructor; [exact H|constructor]|constructor].
  - intros k. case_decide as Hk.
    + apply elem_of_list_singleton in Hk as ->. right. exists (fl "80"), (fl "0.8"). split; [done|]. split; [done|].
      unfold percent. right. right. left.
    + assert (k ≠ "humidity") as Hne by set_solver.
      destruct (decide (k = "outlook")) as [->|]; [done|]. by rewrite !(lookup_insert_ne _ "outlook"), !(lookup_insert_ne _ "humidity") by done.
  - rewrite built_ok; [done|by vm_compute].
  - vm_compute. reflexivity.
  - vm_compute. reflexivity.
Qed.
