(** The hand-written decoder against the table: mining models and documents. *)
From Verif Require Import Base Strconv Xml Doc Decode Schema Reflect SpecReflect ProofsReflect SpecView ProofsView
  ProofsViewDoc.

(** ** Induction over all elements below *)

Fixpoint below (P : xml → Prop) (x : xml) : Prop :=
  match x with
  | Chars _ => True
  | Elem _ _ _ ks => (fix go l := match l with [] => True | k :: l' => P k ∧ below P k ∧ go l' end) ks
  end.

Lemma below_child P n at_ i ks k : below P (Elem n at_ i ks) → k ∈ ks → P k ∧ below P k.
Proof.
  cbn. induction ks as [|q ks IH]; intros H Hk; [by apply elem_of_nil in Hk|].
  destruct H as (H1 & H2 & H3). apply elem_of_cons in Hk as [->|Hk]; [done|by apply IH].
Qed.

Lemma below_ind (P : xml → Prop) : (∀ x, below P x → P x) → ∀ x, P x.
Proof.
  intros H x. enough (P x ∧ below P x) by tauto.
  induction x as [n at_ i ks IH|t] using xml_rect'.
  - assert (below P (Elem n at_ i ks)) as Hb; [|split; [by apply H|done]].
    cbn. induction IH as [|k ks [H1 H2] IH IHk]; done.
  - split; [by apply H|done].
Qed.

(** ** Mining models *)

Definition as_model (n : string) (vs : list value) : doc_model := see_model (VStruct n vs).
Definition see_models (v : value) : list doc_model :=
  map (λ u, match u with VSome m => see_model m | _ => DOther "" end) (items v).
Definition as_segment (vs : list value) : segment doc_model := see_segment (VStruct "Segment" vs).
Lemma as_segment_is a b c : as_segment [a; b; c] = Segment (str a) (see_preds b) (see_models c).
Proof. destruct c; reflexivity. Qed.
Global Arguments as_segment : simpl never.

Definition see_segmentation (vs : list value) : string * list (segment doc_model) :=
  (str (get "Segmentation" "multipleModelMethod" vs), map see_segment (items (get "Segmentation" "Segment" vs))).
Lemma see_segmentation_is a b c : see_segmentation [a; b; c] = (str a, map see_segment (items b)).
Proof. reflexivity. Qed.
Global Arguments see_segmentation : simpl never.

Definition set_method (h : mining_header) (me : string) : mining_header :=
  let 'MiningHeader fn _ lt sc os ts vr := h in MiningHeader fn me lt sc os ts vr.

Definition see_mining (vs : list value) : mining_header * list (segment doc_model) :=
  (see_header vs, (see_segmentation (inside (get "MiningModel" "Segmentation" vs))).2).
Lemma see_mining_is a b c d e f g h i j k : see_mining [a; b; c; d; e; f; g; h; i; j; k] =
  (MiningHeader (str b) (see_segmentation (inside i)).1 (see_local (inside g)) (see_schema (inside f))
     (see_output (inside h)) (see_targets (inside j)) (see_verif_opt e), (see_segmentation (inside i)).2).
Proof. reflexivity. Qed.
Global Arguments see_mining : simpl never.

Lemma groups_apart m : in_group m "Predicate" = true → in_group m "ModelElement" = false.
Proof. intros H. destruct (pred_group m H) as [->|[->|[->|[->| ->]]]]; reflexivity. Qed.

(** the statement, for one element *)
Definition model_ok (E : Ext) (x : xml) : Prop :=
  match x with
  | Elem n at_ inner ks =>
      dec_model E (go_unread E) x =
      if in_group n "ModelElement" then Some (as_model n <$> read E x n (zero n)) else None
  | Chars _ => True
  end.

Definition segment_kid (E : Ext) (U : unread) (c : xml) (sg : segment doc_model) : option (segment doc_model) :=
  match c with
  | Chars _ => Some sg
  | Elem _ _ _ _ =>
      match dec_pred c with
      | Some (Some p) => Some (Segment (sg_id sg) (sg_preds sg ++ [p]) (sg_models sg))
      | Some None => None
      | None =>
          match dec_model E U c with
          | Some (Some d) => Some (Segment (sg_id sg) (sg_preds sg) (sg_models sg ++ [d]))
          | _ => None
          end
      end
  end.

Definition dec_segment (E : Ext) (U : unread) (sat : list (string * string)) (sks : list xml)
    : option (segment doc_model) :=
  id ← attrs_fold segment_attr sat ""; kids_fold (segment_kid E U) sks (Segment id [] []).

Definition segmentation_kid (E : Ext) (U : unread) (s : xml) (l : list (segment doc_model))
    : option (list (segment doc_model)) :=
  match s with
  | Chars _ => Some l
  | Elem m sat _ sks => if m =s "Segment" then sg ← dec_segment E U sat sks; Some (l ++ [sg]) else Some l
  end.

Definition mining_step (E : Ext) (U : unread) (k : xml) (acc : mining_header * list (segment doc_model))
    : option (mining_header * list (segment doc_model)) :=
  match k with
  | Chars _ => Some acc
  | Elem m kat _ kks =>
      if m =s "Segmentation" then
        h1 ← attrs_fold segmentation_attr kat acc.1;
        segs1 ← kids_fold (segmentation_kid E U) kks acc.2;
        Some (h1, segs1)
      else h1 ← mining_kid E U m kat kks acc.1; Some (h1, acc.2)
  end.

Lemma obind_cong {A B} (a b : option A) (k : A → option B) : a = b → (a ≫= k) = (b ≫= k).
Proof. by intros ->. Qed.
Lemma kids_ext {A} (f g : xml → A → option A) ks a : (∀ k a, f k a = g k a) → kids_fold f ks a = kids_fold g ks a.
Proof. intros H. revert a. induction ks as [|k ks IH]; intros a; [done|]. cbn. rewrite H. destruct (g k a); [apply IH|done]. Qed.

Lemma dec_mining E U at_ inner ks :
  dec_model E U (Elem "MiningModel" at_ inner ks) =
  Some (h ← attrs_fold mining_attr at_ zero_header;
        hs ← kids_fold (mining_step E U) ks (h, []); Some (DMining hs.1 hs.2)).
Proof.
  cbn [dec_model]. lits. f_equal. destruct (attrs_fold mining_attr at_ zero_header) as [h|]; [|done].
  change (Some h ≫= ?k) with (k h). cbv beta.
  apply obind_cong.
  apply kids_ext. intros [m kat ki kks|t] acc; [|done]. cbn [mining_step].
  destruct (m =s "Segmentation"); [|done].
  destruct (attrs_fold segmentation_attr kat acc.1) as [h1|]; [|done].
  change (Some h1 ≫= ?k) with (k h1). cbv beta.
  apply obind_cong.
  apply kids_ext. intros [m' sat si sks|t] l; [|done]. cbn [segmentation_kid].
  destruct (m' =s "Segment"); [|done]. unfold dec_segment.
  by destruct (attrs_fold segment_attr sat "") as [id|].
Qed.

Lemma segment_read E n at_ inner ks vs : (∀ k, k ∈ ks → model_ok E k) → Forall2 fits (fields "Segment") vs →
  (sg ← attrs_fold (λ n t sg, (λ id, Segment id (sg_preds sg) (sg_models sg)) <$> segment_attr n t (sg_id sg)) at_ (as_segment vs);
   kids_fold (segment_kid E (go_unread E)) ks sg) =
  as_segment <$> read E (Elem n at_ inner ks) "Segment" vs.
Proof.
  known "Segment". rewrite (go_struct_fields _ _ Hs). intros IH Hf.
  apply (view_read E _ _ _ as_segment _ _ n at_ inner ks vs Hs); [done| | |exact Hf]; clear vs Hf.
  - by_attrs as_segment_is ltac:(cbv [segment_attr sg_id sg_preds sg_models]).
  - intros [m at' i cs|?] vs Hk Hf; [|reflexivity].
    cbn [s_fields] in Hf. spread Hf. open_kid. rewrite as_segment_is. cbv [segment_kid sg_id sg_preds sg_models].
    rewrite (pred_any E). specialize (IH _ Hk). cbn [model_ok] in IH. rewrite IH.
    destruct (in_group m "Predicate") eqn:Hp.
    + rewrite (groups_apart m Hp). destruct (read E _ _ _); steps; [|done].
      rewrite as_segment_is. unfold see_preds. cbn [items]. by rewrite map_app.
    + destruct (in_group m "ModelElement"); [|done]. destruct (read E _ _ _); steps; [|done].
      rewrite as_segment_is. unfold see_models. cbn [items]. by rewrite map_app.
Qed.

Lemma segment_new E n at_ inner ks : (∀ k, k ∈ ks → model_ok E k) →
  dec_segment E (go_unread E) at_ ks = as_segment <$> read E (Elem n at_ inner ks) "Segment" (zero "Segment").
Proof.
  intros IH. rewrite <- (segment_read E n at_ inner ks) by first [done|fit]. unfold dec_segment.
  change (as_segment (zero "Segment")) with (@Segment doc_model "" [] []).
  generalize "" at 1 2. induction at_ as [|[a t] at_ IHa]; intros id; [done|].
  cbn. destruct (segment_attr a t id); [apply IHa|done].
Qed.

Definition seg_me (n v me : string) : option string := if n =s "multipleModelMethod" then Some v else Some me.

Lemma method_attrs at_ : ∀ fn me lt sc os ts vr,
  attrs_fold segmentation_attr at_ (MiningHeader fn me lt sc os ts vr) =
  (λ me', MiningHeader fn me' lt sc os ts vr) <$> attrs_fold seg_me at_ me.
Proof.
  induction at_ as [|[n t] at_ IH]; intros; [done|]. cbn [attrs_fold segmentation_attr]. unfold seg_me at 1.
  destruct (n =s "multipleModelMethod"); apply IH.
Qed.

Lemma segmentation_read E n at_ inner ks vs :
  (∀ k m a i c, k ∈ ks → k = Elem m a i c → ∀ q, q ∈ c → model_ok E q) →
  Forall2 fits (fields "Segmentation") vs →
  (p ← attrs_fold (λ n t p, (λ x, (x, p.2)) <$> seg_me n t p.1) at_ (see_segmentation vs);
   kids_fold (λ k p, (λ y, (p.1, y)) <$> segmentation_kid E (go_unread E) k p.2) ks p) =
  see_segmentation <$> read E (Elem n at_ inner ks) "Segmentation" vs.
Proof.
  known "Segmentation". rewrite (go_struct_fields _ _ Hs). intros IH Hf.
  apply (view_read E _ _ _ see_segmentation _ _ n at_ inner ks vs Hs); [done| | |exact Hf]; clear vs Hf.
  - by_attrs see_segmentation_is ltac:(cbv [seg_me fst snd]).
  - intros [m at' i cs|?] vs Hk Hf; [|reflexivity].
    cbn [s_fields] in Hf. spread Hf. open_kid. rewrite see_segmentation_is. cbv [segmentation_kid fst snd].
    split_names m ltac:(idtac; first [skip see_segmentation_is|
      rewrite (segment_new E "Segment" at' i cs) by (by eapply IH);
      destruct (read E _ _ _); steps; [rewrite see_segmentation_is; cbn [items]; rewrite map_app; reflexivity|reflexivity]]).
    steps. by rewrite see_segmentation_is.
Qed.

Lemma segmentation_in E n at_ inner ks vs fn lt sc os ts vr :
  (∀ k m a i c, k ∈ ks → k = Elem m a i c → ∀ q, q ∈ c → model_ok E q) →
  Forall2 fits (fields "Segmentation") vs →
  (h1 ← attrs_fold segmentation_attr at_ (MiningHeader fn (see_segmentation vs).1 lt sc os ts vr);
   segs1 ← kids_fold (segmentation_kid E (go_unread E)) ks (see_segmentation vs).2;
   Some (h1, segs1)) =
  (λ w, (MiningHeader fn (see_segmentation w).1 lt sc os ts vr, (see_segmentation w).2)) <$>
    read E (Elem n at_ inner ks) "Segmentation" vs.
Proof.
  intros IH Hf. rewrite method_attrs.
  transitivity (x ← attrs_fold seg_me at_ (see_segmentation vs).1;
                y ← kids_fold (segmentation_kid E (go_unread E)) ks (see_segmentation vs).2;
                Some (MiningHeader fn x lt sc os ts vr, y)).
  { by destruct (attrs_fold seg_me at_ _). }
  rewrite (two_folds (λ x y, (MiningHeader fn x lt sc os ts vr, y))).
  rewrite <- surjective_pairing. rewrite (segmentation_read E n at_ inner ks vs IH Hf).
  by destruct (read E _ _ _).
Qed.

Lemma mining_read E n at_ inner ks vs :
  (∀ k m a i c, k ∈ ks → k = Elem m a i c →
     ∀ k' m' a' i' c', k' ∈ c → k' = Elem m' a' i' c' → ∀ q, q ∈ c' → model_ok E q) →
  Forall2 fits (fields "MiningModel") vs →
  (p ← attrs_fold (λ n t p, (λ x, (x, p.2)) <$> mining_attr n t p.1) at_ (see_mining vs);
   kids_fold (mining_step E (go_unread E)) ks p) =
  see_mining <$> read E (Elem n at_ inner ks) "MiningModel" vs.
Proof.
  known "MiningModel". rewrite (go_struct_fields _ _ Hs). intros IH Hf.
  apply (view_read E _ _ _ see_mining _ _ n at_ inner ks vs Hs); [done| | |exact Hf]; clear vs Hf.
  - by_attrs see_mining_is ltac:(cbv [mining_attr fst snd]).
  - intros [m at' i cs|?] vs Hk Hf; [|reflexivity].
    cbn [s_fields] in Hf. spread Hf; open_kid; rewrite see_mining_is, !inside_struct; cbv [mining_step mining_kid].
    change ((?a, ?b).1) with a. change ((?a, ?b).2) with b. cbv beta iota.
    split_names m ltac:(idtac; pointer; first
      [on "Extension" ltac:(idtac; skip see_mining_is)|
       on "LocalTransformations" ltac:(idtac; place see_mining_is local_read)|
       on "MiningSchema" ltac:(idtac; place see_mining_is schema_read)|
       on "ModelVerification" ltac:(idtac; verified see_mining_is)|
       on "Output" ltac:(idtac; place see_mining_is output_read)|
       on "Targets" ltac:(idtac; place see_mining_is targets_read)|
       rewrite (segmentation_in E "Segmentation" at' i cs) by first [fit|by eapply IH];
       destruct (read E _ _ _); steps; [rewrite see_mining_is; reflexivity|reflexivity]]).
    steps. by rewrite see_mining_is.
Qed.

Definition model_names : list string :=
  ["AssociationModel"; "BaselineModel"; "BayesianNetworkModel"; "ClusteringModel"; "GaussianProcessModel";
   "GeneralRegressionModel"; "MiningModel"; "NaiveBayesModel"; "NearestNeighborModel"; "NeuralNetwork";
   "RegressionModel"; "RuleSetModel"; "Scorecard"; "SequenceModel"; "SupportVectorMachineModel"; "TextModel";
   "TimeSeriesModel"; "TreeModel"].

Lemma dec_model_name E U n at_ inner ks : in_group n "ModelElement" = false → dec_model E U (Elem n at_ inner ks) = None.
Proof.
  unfold in_group. change (go_group "ModelElement") with model_names. unfold model_names.
  cbv [existsb]. intros H. repeat (apply orb_false_elim in H as [? H]).
  cbn [dec_model]. unfold other_model.
  repeat match goal with H : (n =s _) = false |- _ => rewrite H; clear H end. done.
Qed.

Lemma model_group n : in_group n "ModelElement" = true →
  n = "TreeModel" ∨ n = "RegressionModel" ∨ n = "MiningModel" ∨ other_model n = true.
Proof.
  unfold in_group. change (go_group "ModelElement") with model_names. unfold model_names.
  cbv [existsb]. intros H. repeat (apply orb_prop in H as [H|H]; [apply String.eqb_eq in H as ->; tauto|]). done.
Qed.

Lemma other_model_struct n : other_model n = true → ∃ st, go_struct n = Some st.
Proof.
  unfold other_model. intros H.
  repeat (apply orb_prop in H as [H|H]); apply String.eqb_eq in H as ->; eexists; vm_compute; reflexivity.
Qed.

Lemma as_other_model n vs : other_model n = true → as_model n vs = DOther n.
Proof.
  unfold other_model. intros H.
  repeat (apply orb_prop in H as [H|H]); apply String.eqb_eq in H as ->; reflexivity.
Qed.

Lemma dec_other_model E U n at_ inner ks : other_model n = true →
  dec_model E U (Elem n at_ inner ks) = Some (_ ← check (U n (Elem n at_ inner ks)); Some (DOther n)).
Proof.
  intros H. pose proof H as H'. unfold other_model in H'.
  repeat (apply orb_prop in H' as [H'|H']); apply String.eqb_eq in H' as ->; reflexivity.
Qed.

Lemma as_mining vs : Forall2 fits (fields "MiningModel") vs →
  as_model "MiningModel" vs = DMining (see_mining vs).1 (see_mining vs).2.
Proof.
  known "MiningModel". rewrite (go_struct_fields _ _ Hs). cbn [s_fields]. intros Hf. spread Hf.
  rewrite see_mining_is. cbn [inside].
  match goal with H : go_struct "Segmentation" = Some ?st, H' : Forall2 fits (s_fields ?st) _ |- _ =>
    let X := fresh in
    assert (go_struct "Segmentation" = Some (Struct false (fields "Segmentation"))) as X by (vm_compute; reflexivity);
    rewrite X in H; injection H as <-; cbn [s_fields] in H';
    let fs := eval vm_compute in (fields "Segmentation") in change (fields "Segmentation") with fs in H'; spread H' end.
  reflexivity.
Qed.

Lemma model_all E x : model_ok E x.
Proof.
  induction x as [x IH] using below_ind. destruct x as [n at_ inner ks|]; [|done]. cbn [model_ok].
  destruct (in_group n "ModelElement") eqn:Hg; [|by apply dec_model_name].
  destruct (model_group n Hg) as [->|[->|[->|Ho]]].
  - change (dec_model E (go_unread E) (Elem "TreeModel" at_ inner ks)) with
      (Some (DTree <$> dec_tree E (go_unread E) at_ ks)).
    rewrite (tree_new E "TreeModel" at_ inner ks). by destruct (read E _ _ _).
  - change (dec_model E (go_unread E) (Elem "RegressionModel" at_ inner ks)) with
      (Some (DRegr <$> dec_regr E (go_unread E) at_ ks)).
    rewrite (regr_new E "RegressionModel" at_ inner ks). by destruct (read E _ _ _).
  - rewrite dec_mining. f_equal.
    transitivity ((λ hs : mining_header * list (segment doc_model), DMining hs.1 hs.2) <$>
      (p ← attrs_fold (λ n t p, (λ x, (x, p.2)) <$> mining_attr n t p.1) at_ (see_mining (zero "MiningModel"));
       kids_fold (mining_step E (go_unread E)) ks p)).
    { change (see_mining (zero "MiningModel")) with (zero_header, @nil (segment doc_model)).
      rewrite attrs_left. destruct (attrs_fold mining_attr at_ zero_header) as [h|]; [|done].
      change ((λ x, (x, @nil (segment doc_model))) <$> Some h) with (Some (h, @nil (segment doc_model))).
      change (Some ?h ≫= ?k) with (k h). cbv beta. by destruct (kids_fold _ ks _). }
    rewrite (mining_read E "MiningModel" at_ inner ks); [| |fit].
    + destruct (read E _ _ _) as [vs|] eqn:R; [|done]. steps. f_equal. symmetry. apply as_mining.
      known "MiningModel". rewrite (go_struct_fields _ _ Hs). by apply (new_fits _ _ _ _ _ _ _ _ Hs R).
    + intros k m a i c Hk -> k' m' a' i' c' Hk' -> q Hq.
      destruct (below_child _ _ _ _ _ _ IH Hk) as [_ H1].
      destruct (below_child _ _ _ _ _ _ H1 Hk') as [_ H2].
      by destruct (below_child _ _ _ _ _ _ H2 Hq).
  - rewrite dec_other_model by done. destruct (other_model_struct n Ho) as [st Hst].
    rewrite (check_read E n st n at_ inner ks (zero n)); [|done|by apply zero_fits].
    destruct (read E _ _ _); [|done]. steps. by rewrite as_other_model.
Qed.
Global Arguments as_model : simpl never.

(** ** The document *)

Definition as_pmml (vs : list value) : pmml := see_pmml (VStruct "PMML" vs).
Lemma as_pmml_is a b c d e f : as_pmml [a; b; c; d; e; f] =
  Pmml (str a) (see_dict (inside b)) (see_tdict (inside c)) (see_models f).
Proof. reflexivity. Qed.
Global Arguments as_pmml : simpl never.

Lemma pmml_read E n at_ inner ks vs : Forall2 fits (fields "PMML") vs →
  (p ← attrs_fold pmml_attr at_ (as_pmml vs); kids_fold (pmml_kid E (go_unread E)) ks p) =
  as_pmml <$> read E (Elem n at_ inner ks) "PMML" vs.
Proof.
  known "PMML". rewrite (go_struct_fields _ _ Hs). intros Hf.
  apply (view_read E _ _ _ as_pmml _ _ n at_ inner ks vs Hs); [done| | |exact Hf]; clear vs Hf.
  - by_attrs as_pmml_is ltac:(cbv [pmml_attr]).
  - intros [m at' i cs|?] vs Hk Hf; [|reflexivity].
    cbn [s_fields] in Hf. spread Hf; open_kid; rewrite as_pmml_is, !inside_struct; cbv [pmml_kid orb].
    split_names m ltac:(idtac; pointer; first
      [on "Header" ltac:(idtac; drop as_pmml_is)|on "MiningBuildTask" ltac:(idtac; drop as_pmml_is)|
       on "DataDictionary" ltac:(idtac; place as_pmml_is dict_read)|
       on "TransformationDictionary" ltac:(idtac; place as_pmml_is tdict_read)]).
    pose proof (model_all E (Elem m at' i cs)) as Hm. cbn [model_ok] in Hm. rewrite Hm.
    destruct (in_group m "ModelElement"); [|done]. destruct (read E _ _ _); steps; [|done].
    rewrite as_pmml_is. unfold see_models. cbn [items]. by rewrite map_app.
Qed.

Lemma decode_view E n at_ inner ks :
  decode E (go_unread E) (Elem n at_ inner ks) = see_pmml <$> unmarshal_new E "PMML" (Elem n at_ inner ks).
Proof.
  transitivity (as_pmml <$> read E (Elem n at_ inner ks) "PMML" (zero "PMML")).
  - cbn [decode]. from_zero pmml_read.
  - unfold unmarshal_new. by destruct (read E _ _ _).
Qed.
