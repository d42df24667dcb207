(** Proof infrastructure: induction principles for the nested types, and lemmas
    about the small library of Base.v.  No model definitions here. *)
From Verif Require Import Base Strconv Value Doc Expr Pred Tree Regression Model.

(** ** Induction principles *)

Section PredInd.
  Context (P : predicate → Prop).
  Context (HT : P PTrue) (HF : P PFalse)
    (HS : ∀ f op v raw, P (PSimple f op v raw))
    (HC : ∀ b ps, Forall P ps → P (PCompound b ps))
    (HSet : ∀ b f a, P (PSet b f a)) (HN : P PNone).
  Fixpoint predicate_rect' (p : predicate) : P p :=
    match p with
    | PTrue => HT | PFalse => HF
    | PSimple f op v raw => HS f op v raw
    | PCompound b ps => HC b ps
        ((fix go l : Forall P l :=
            match l with
            | [] => Forall_nil_2 P
            | q :: l' => Forall_cons_2 P q l' (predicate_rect' q) (go l')
            end) ps)
    | PSet b f a => HSet b f a
    | PNone => HN
    end.
End PredInd.

Section ExprInd.
  Context (P : expr → Prop).
  Context (HF : ∀ f m, P (XField f m)) (HC : ∀ d v, P (XConst d v))
    (HA : ∀ fn dv m args, Forall P args → P (XApply fn dv m args))
    (HM : ∀ a b c d e f, P (XMap a b c d e f)) (HO : ∀ k, P (XOther k)).
  Fixpoint expr_rect' (e : expr) : P e :=
    match e with
    | XField f m => HF f m | XConst d v => HC d v
    | XApply fn dv m args => HA fn dv m args
        ((fix go l : Forall P l :=
            match l with
            | [] => Forall_nil_2 P
            | q :: l' => Forall_cons_2 P q l' (expr_rect' q) (go l')
            end) args)
    | XMap a b c d e f => HM a b c d e f
    | XOther k => HO k
    end.
End ExprInd.

Section MnodeInd.
  Context (P : mnode → Prop).
  Context (H : ∀ id dc sc c ds ns p, Forall P ns → P (MNode id dc sc c ds ns p)).
  Fixpoint mnode_rect' (m : mnode) : P m :=
    match m with
    | MNode id dc sc c ds ns p => H id dc sc c ds ns p
        ((fix go l : Forall P l :=
            match l with
            | [] => Forall_nil_2 P
            | q :: l' => Forall_cons_2 P q l' (mnode_rect' q) (go l')
            end) ns)
    end.
End MnodeInd.

Section NodeInd.
  Context (P : node → Prop).
  Context (H : ∀ id dc cs ds t sc, Forall P cs → P (Node id dc cs ds t sc)).
  Fixpoint node_rect' (n : node) : P n :=
    match n with
    | Node id dc cs ds t sc => H id dc cs ds t sc
        ((fix go l : Forall P l :=
            match l with
            | [] => Forall_nil_2 P
            | q :: l' => Forall_cons_2 P q l' (node_rect' q) (go l')
            end) cs)
    end.
End NodeInd.

Section DocInd.
  Context (P : doc_model → Prop).
  Context (HT : ∀ t, P (DTree t)) (HR : ∀ r, P (DRegr r)) (HO : ∀ k, P (DOther k))
    (HM : ∀ h segs, Forall (λ s, Forall P (sg_models s)) segs → P (DMining h segs)).
  Fixpoint doc_rect' (d : doc_model) : P d :=
    match d with
    | DTree t => HT t | DRegr r => HR r | DOther k => HO k
    | DMining h segs => HM h segs
        ((fix go l : Forall (λ s, Forall P (sg_models s)) l :=
            match l with
            | [] => Forall_nil_2 _
            | Segment i ps ms :: l' =>
                Forall_cons_2 (λ s, Forall P (sg_models s)) (Segment i ps ms) l'
                  ((fix go2 ms : Forall P ms :=
                      match ms with
                      | [] => Forall_nil_2 P
                      | m :: ms' => Forall_cons_2 P m ms' (doc_rect' m) (go2 ms')
                      end) ms) (go l')
            end) segs)
    end.
End DocInd.

Section EmodelInd.
  Context (P : emodel → Prop).
  Context (HT : ∀ t, P (ETree t)) (HR : ∀ r, P (ERegr r))
    (HM : ∀ h sm, Forall P sm → P (EMining h sm)).
  Fixpoint emodel_rect' (e : emodel) : P e :=
    match e with
    | ETree t => HT t | ERegr r => HR r
    | EMining h sm => HM h sm
        ((fix go l : Forall P l :=
            match l with
            | [] => Forall_nil_2 P
            | q :: l' => Forall_cons_2 P q l' (emodel_rect' q) (go l')
            end) sm)
    end.
End EmodelInd.

(** ** Results *)

Lemma rbind_ok {A B} (x : res A) (k : A → res B) b :
  rbind x k = Ok b ↔ ∃ a, x = Ok a ∧ k a = Ok b.
Proof.
  destruct x as [a|e|p]; simpl; split; try (intros [? [? ?]]); try naive_solver.
Qed.

Lemma rbind_err {A B} (x : res A) (k : A → res B) e :
  rbind x k = Err e ↔ x = Err e ∨ ∃ a, x = Ok a ∧ k a = Err e.
Proof. destruct x; simpl; naive_solver. Qed.

Lemma rbind_panic {A B} (x : res A) (k : A → res B) p :
  rbind x k = Panic p ↔ x = Panic p ∨ ∃ a, x = Ok a ∧ k a = Panic p.
Proof. destruct x; simpl; naive_solver. Qed.

Lemma rbind_assoc {A B C} (x : res A) (f : A → res B) (g : B → res C) :
  rbind (rbind x f) g = rbind x (λ a, rbind (f a) g).
Proof. by destruct x. Qed.

Lemma rmap_ok {A B} (f : A → res B) l bs :
  rmap f l = Ok bs ↔ Forall2 (λ a b, f a = Ok b) l bs.
Proof.
  revert bs. induction l as [|a l IH]; intros bs; simpl.
  - split; [intros [= <-]; constructor | intros H; by inversion H].
  - rewrite rbind_ok. split.
    + intros (b & Hb & H). apply rbind_ok in H as (bs' & H & [= <-]).
      constructor; [done|]. by apply IH.
    + intros H. inversion H as [|? b ? bs' Hb Hl]; subst.
      exists b. split; [done|]. apply rbind_ok. exists bs'. split; [by apply IH|done].
Qed.

Lemma rmap_err {A B} (f : A → res B) l e :
  rmap f l = Err e → ∃ a, a ∈ l ∧ f a = Err e.
Proof.
  induction l as [|a l IH]; simpl; [done|].
  intros [H|(b & Hb & H)]%rbind_err; [set_solver|].
  apply rbind_err in H as [H|(? & _ & ?)]; [|done].
  destruct (IH H) as (a' & ? & ?). set_solver.
Qed.

Lemma rmap_panic {A B} (f : A → res B) l e :
  rmap f l = Panic e → ∃ a, a ∈ l ∧ f a = Panic e.
Proof.
  induction l as [|a l IH]; simpl; [done|].
  intros [H|(b & Hb & H)]%rbind_panic; [set_solver|].
  apply rbind_panic in H as [H|(? & _ & ?)]; [|done].
  destruct (IH H) as (a' & ? & ?). set_solver.
Qed.

Lemma rmap_ext {A B} (f g : A → res B) l :
  Forall (λ a, f a = g a) l → rmap f l = rmap g l.
Proof. induction 1 as [|a l H _ IH]; simpl; [done|]. by rewrite H, IH. Qed.

(** [rmapi] is [rmap] over the list with indices. *)
Lemma rmapi_ok {A B} (f : nat → A → res B) i l bs :
  rmapi f i l = Ok bs ↔
  length bs = length l ∧ ∀ j a b, l !! j = Some a → bs !! j = Some b → f (i + j) a = Ok b.
Proof.
  revert i bs. induction l as [|a l IH]; intros i bs; simpl.
  - split.
    + intros [= <-]. split; [done|]. intros j ? ? H. by rewrite lookup_nil in H.
    + intros [H _]. by destruct bs.
  - rewrite rbind_ok. split.
    + intros (b & Hb & H). apply rbind_ok in H as (bs' & H & [= <-]).
      apply IH in H as [Hlen H]. split; [simpl; lia|].
      intros [|j] a' b' Ha' Hb'; simplify_eq/=.
      * by rewrite Nat.add_0_r.
      * rewrite <-Nat.add_succ_comm. by eapply H.
    + intros [Hlen H]. destruct bs as [|b bs]; simplify_eq/=.
      exists b. split; [rewrite <-(Nat.add_0_r i); by eapply H|].
      apply rbind_ok. exists bs. split; [|done]. apply IH. split; [done|].
      intros j a' b' Ha' Hb'. rewrite Nat.add_succ_comm. by eapply H.
Qed.

Lemma rmapi_err {A B} (f : nat → A → res B) i l e :
  rmapi f i l = Err e → ∃ j a, a ∈ l ∧ f j a = Err e.
Proof.
  revert i. induction l as [|a l IH]; intros i; simpl; [done|].
  intros [H|(b & Hb & H)]%rbind_err; [set_solver|].
  apply rbind_err in H as [H|(? & _ & ?)]; [|done].
  destruct (IH _ H) as (j & a' & ? & ?). set_solver.
Qed.

Lemma rmapi_panic {A B} (f : nat → A → res B) i l e :
  rmapi f i l = Panic e → ∃ j a, a ∈ l ∧ f j a = Panic e.
Proof.
  revert i. induction l as [|a l IH]; intros i; simpl; [done|].
  intros [H|(b & Hb & H)]%rbind_panic; [set_solver|].
  apply rbind_panic in H as [H|(? & _ & ?)]; [|done].
  destruct (IH _ H) as (j & a' & ? & ?). set_solver.
Qed.

Lemma rmapi_const {A B} (f : A → res B) (g : nat → A → res B) i l :
  Forall (λ a, ∀ j, g j a = f a) l → rmapi g i l = rmap f l.
Proof.
  intros H. revert i. induction H as [|a l H _ IH]; intros i; simpl; [done|].
  by rewrite H, IH.
Qed.

(** ** Ranging over maps *)

Lemma omap_keys_perm {A} (m : gmap string A) l1 l2 :
  Permutation l1 l2 →
  Permutation (omap (λ k, v ← m !! k; Some (k, v)) l1)
              (omap (λ k, v ← m !! k; Some (k, v)) l2).
Proof.
  induction 1 as [|x l l' _ IH|x y l|l l' l'' _ IH1 _ IH2]; cbn [omap list_omap]; [done| | |by etrans].
  - destruct (m !! x ≫= _); [by constructor|done].
  - destruct (m !! x ≫= _), (m !! y ≫= _); try done. constructor.
Qed.

Lemma omap_keys_list {A} (m : gmap string A) (l : list (string * A)) :
  Forall (λ kv, m !! kv.1 = Some kv.2) l →
  omap (λ k, v ← m !! k; Some (k, v)) l.*1 = l.
Proof.
  induction 1 as [|[k v] l H _ IH]; simpl in *; [done|].
  rewrite H; simpl. f_equal. exact IH.
Qed.

Lemma map_range_perm {A} E t (m : gmap string A) :
  Permutation (map_range E t m) (map_to_list m).
Proof.
  unfold map_range.
  etrans; [apply (omap_keys_perm m), ext_order_perm|].
  apply reflexive_eq, omap_keys_list.
  apply Forall_forall. intros [k v] H. by apply elem_of_map_to_list in H.
Qed.

Lemma map_range_elem {A} E t (m : gmap string A) k v :
  (k, v) ∈ map_range E t m ↔ m !! k = Some v.
Proof. by rewrite map_range_perm, elem_of_map_to_list. Qed.

Lemma map_range_nodup {A} E t (m : gmap string A) : NoDup (map_range E t m).*1.
Proof. rewrite map_range_perm. apply NoDup_fst_map_to_list. Qed.

Lemma map_range_length {A} E t (m : gmap string A) :
  length (map_range E t m) = size m.
Proof. by rewrite map_range_perm. Qed.

Lemma map_range_empty {A} E t : map_range E t (∅ : gmap string A) = [].
Proof.
  apply Permutation_nil. symmetry. rewrite map_range_perm. by rewrite map_to_list_empty.
Qed.

(** ** Lists *)

Lemma elem_of_concat_map {A B} (f : A → list B) l x :
  x ∈ concat (map f l) ↔ ∃ a, a ∈ l ∧ x ∈ f a.
Proof.
  induction l as [|a l IH]; simpl; [set_solver|].
  rewrite elem_of_app, IH. set_solver.
Qed.

Lemma fmap_ext_in {A B} (f g : A → B) (l : list A) :
  (∀ x, x ∈ l → f x = g x) → f <$> l = g <$> l.
Proof.
  intros H. induction l as [|x l IH]; [done|]. rewrite !fmap_cons, H by left. f_equal.
  apply IH. intros; apply H; by right.
Qed.
