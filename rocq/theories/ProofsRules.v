(** Trees and the lists of their rules (C136). *)
From Verif Require Import Base Strconv Value Doc Expr Pred Tree Regression Model Lib SpecPred ProofsPred SpecTree ProofsTree ProofsOutput ProofsDoc ProofsEval
  SpecEquiv ProofsEquiv ProofsPrune ProofsCollapse SpecRules.

Lemma rmap_all {A B} (f : A → res B) l : Forall (λ a, ∃ b, f a = Ok b) l → ∃ k, rmap f l = Ok k.
Proof.
  induction 1 as [|a l [b Hb] _ [k Hk]]; [by exists []|]. exists (b :: k). cbn [rmap]. rewrite Hb. cbn [rbind]. by rewrite Hk.
Qed.

(** ** Conjunctions *)
Section conj.
  Context (E : Ext) (ft : fieldtypes) (r : datarow).
  Definition holds (p : predicate) (v : presult) : Prop :=
    ∃ q, compile_predicate E ft p = Ok q ∧ run_test E ft q r = Ok v.

  Lemma all_of_compiles ps : Forall (λ p, ∃ q, compile_predicate E ft p = Ok q) ps →
    ∃ q, compile_predicate E ft (all_of ps) = Ok q.
  Proof.
    intros H. unfold all_of. destruct (existsb is_false_pred ps); [by exists PFalse|].
    assert (Hf : Forall (λ p, ∃ q, compile_predicate E ft p = Ok q) (filter (λ p, is_true_pred p = false) ps)).
    { apply Forall_forall. intros p [_ Hp]%elem_of_list_filter. rewrite Forall_forall in H. by apply H. }
    destruct (filter _ ps) as [|p [|p' l]]; [by exists PTrue|by inversion Hf|].
    apply rmap_all in Hf as [k Hk]. exists (PCompound "and" k). cbn [compile_predicate]. by rewrite Hk.
  Qed.

  Lemma tv_and_drop v1 v2 : tv_and (v1 ++ RT :: v2) = tv_and (v1 ++ v2).
  Proof. unfold tv_and. repeat case_decide; try done; exfalso; set_solver. Qed.
  Lemma tv_and_snoc vs v : tv_and (vs ++ [v]) =
    match tv_and vs, v with RF, _ | _, RF => RF | RU, _ | _, RU => RU | RT, RT => RT end.
  Proof. unfold tv_and. repeat case_decide; destruct v; try done; exfalso; set_solver. Qed.

  Lemma all_of_holds ps vs : Forall2 holds ps vs → Forall (λ p, p ≠ PNone) ps → holds (all_of ps) (tv_and vs).
  Proof.
    intros H Hp. unfold all_of. destruct (existsb is_false_pred ps) eqn:Hf.
    { apply existsb_exists in Hf as (p & Hin & Hpf). destruct p; try done. exists PFalse. split; [done|].
      apply elem_of_list_In, elem_of_list_lookup in Hin as [i Hi].
      destruct (Forall2_lookup_l _ _ _ _ _ H Hi) as (v & Hv & q & [= <-] & [= <-]).
      unfold tv_and. rewrite decide_True; [done|]. by eapply elem_of_list_lookup_2. }
    assert (∃ vs', Forall2 holds (filter (λ p, is_true_pred p = false) ps) vs' ∧ tv_and vs' = tv_and vs ∧
      Forall (λ p, ¬ const_pred p) (filter (λ p, is_true_pred p = false) ps)) as (vs' & H' & <- & Hc).
    { clear - H Hp Hf. assert (∀ pre, ∃ vs', Forall2 holds (filter (λ p, is_true_pred p = false) ps) vs' ∧
        tv_and (pre ++ vs') = tv_and (pre ++ vs) ∧ Forall (λ p, ¬ const_pred p) (filter (λ p, is_true_pred p = false) ps)) as Hg;
        [|exact (Hg [])].
      induction H as [|p v ps vs Hpv _ IH]; intros pre.
      { exists []. split; [constructor|]. split; [done|constructor]. }
      apply Forall_cons in Hp as [Hp1 Hp]. simpl in Hf. apply orb_false_iff in Hf as [Hf1 Hf].
      destruct (is_true_pred p) eqn:Hpt.
      - rewrite filter_cons_False by (by rewrite Hpt). destruct p; try done. destruct Hpv as (q & [= <-] & [= <-]).
        destruct (IH Hp Hf pre) as (vs' & H1 & H2 & H3). exists vs'. split; [done|]. split; [|done].
        by rewrite tv_and_drop.
      - rewrite filter_cons_True by done. destruct (IH Hp Hf (pre ++ [v])) as (vs' & H1 & H2 & H3).
        exists (v :: vs'). split; [by constructor|]. rewrite <- !app_assoc in H2. split; [done|].
        constructor; [|done]. intros Hc. by destruct p. }
    destruct (filter _ ps) as [|p [|p' l]] eqn:Hfl.
    - inversion H'; subst. by exists PTrue.
    - inversion H' as [|? v ? l Hpv Hl]; subst. inversion Hl; subst.
      replace (tv_and [v]) with v; [done|]. symmetry. apply (tv_single "and"). set_solver.
    - rewrite <- Hfl in *. clear Hfl. generalize dependent (filter (λ p, is_true_pred p = false) ps). intros qs H' Hc.
      assert (∃ cs, rmap (compile_predicate E ft) qs = Ok cs ∧ Forall2 (λ p v, eval_operand E ft r p = Ok v) cs vs') as (cs & Hcs & Hv).
      { clear -H' Hc. induction H' as [|q v qs vs (c & Hcq & Hcv) _ IH]; [exists []; by split; [|constructor]|].
        apply Forall_cons in Hc as [Hc1 Hc]. destruct (IH Hc) as (cs & Hcs & Hvs). exists (c :: cs). split.
        - cbn [rmap]. rewrite Hcq. cbn [rbind]. by rewrite Hcs.
        - constructor; [|done]. rewrite <- run_test_operand; [done|]. by rewrite (compile_const _ _ _ _ Hcq). }
      exists (PCompound "and" cs). split; [cbn [compile_predicate]; by rewrite Hcs|].
      cbn [run_test]. unfold eval_compound. by apply (compound_loop_spec _ "and").
  Qed.
End conj.

(** ** Rules *)
Section rules.
  Context (E : Ext) (cx : tctx) (r : datarow).
  Let ft := cx_ft cx.
  Context (Hnt : cx_notrue cx ≠ "returnNullPrediction").

  Lemma rules_compile m : ∀ path n, new_node E ft m = Ok n → Forall (λ p, ∃ q, compile_predicate E ft p = Ok q) path →
    Forall (λ m, ∃ n, new_node E ft m = Ok n) (rules path m).
  Proof.
    induction m as [id dc sc c ds ns p IH] using mnode_rect'. intros path n. cbn [new_node rules].
    intros (cs & Hcs & (q & Hq & _)%rbind_ok)%rbind_ok Hpath.
    assert (Hpath' : Forall (λ p, ∃ q, compile_predicate E ft p = Ok q) (path ++ [p])).
    { apply Forall_app. split; [done|]. repeat constructor. by exists q. }
    apply Forall_app. split.
    - revert cs Hcs. induction ns as [|m ns IHn]; intros cs Hcs; [constructor|].
      cbn [rmap] in Hcs. apply rbind_ok in Hcs as (x & Hx & (xs & Hxs & _)%rbind_ok).
      apply Forall_cons in IH as [IH1 IH]. cbn [map concat]. apply Forall_app. split; [by eapply IH1|by eapply IHn].
    - repeat constructor. cbn [new_node rmap rbind]. destruct (all_of_compiles E ft _ Hpath') as [q' ->]. cbn [rbind]. eauto.
  Qed.

  Lemma dist_children id dc dc' sc c ds ns ns' p p' :
    doc_dist (cx_dd cx) (cx_target cx) (cx_notrue cx) (MNode id dc sc c ds ns p) =
    doc_dist (cx_dd cx) (cx_target cx) (cx_notrue cx) (MNode id dc' sc c ds ns' p').
  Proof. unfold doc_dist. do 2 (rewrite (decide_False (P := _ ∧ cx_notrue cx = _)) by (by intros [_ ?])). done. Qed.

  Notation dist := (doc_dist (cx_dd cx) (cx_target cx) (cx_notrue cx)).

  (** a strategy on the nodes of the document *)
  Definition on_doc (ev : node → res (list score * presult)) (m : mnode) : res (list score * presult) :=
    n <-! new_node E ft m; ev n.

  Lemma first_true_doc {A B} (f : B → res A) (ev : A → res (list score * presult)) l : ∀ k d, rmap f l = Ok k →
    first_true ev d k = first_true (λ b, a <-! f b; ev a) d l.
  Proof.
    induction l as [|b l IH]; intros k d; cbn [rmap]; [by intros [= <-]|].
    intros (a & Ha & (k' & Hk & [= <-])%rbind_ok)%rbind_ok. cbn [first_true]. rewrite Ha. cbn [rbind].
    destruct (ev a) as [[s v]| |]; [|done..]. cbn [rbind]. destruct v; [|done|]; by apply IH.
  Qed.
  Lemma first_known_doc {A B} (f : B → res A) (ev : A → res (list score * presult)) l : ∀ k d, rmap f l = Ok k →
    first_known ev d k = first_known (λ b, a <-! f b; ev a) d l.
  Proof.
    induction l as [|b l IH]; intros k d; cbn [rmap]; [by intros [= <-]|].
    intros (a & Ha & (k' & Hk & [= <-])%rbind_ok)%rbind_ok. cbn [first_known]. rewrite Ha. cbn [rbind].
    destruct (ev a) as [[s v]| |]; [|done..]. cbn [rbind]. destruct v; [done|done|]; by apply IH.
  Qed.

  Lemma none_doc_node id dc sc c ds ns p n v : new_node E ft (MNode id dc sc c ds ns p) = Ok n → holds E ft r p v →
    on_doc (eval_none E cx r) (MNode id dc sc c ds ns p) =
    match v with
    | RT => first_true (on_doc (eval_none E cx r)) (dist (MNode id dc sc c ds ns p), RT) ns
    | _ => Ok ([], RF)
    end.
  Proof.
    intros Hn (q & Hq & Hv). unfold on_doc at 1. rewrite Hn. cbn [rbind].
    pose proof (output_dist_doc E ft cx _ _ Hn) as Hd. revert Hn Hd. cbn [new_node]. rewrite Hq.
    intros (cs & Hcs & [= <-])%rbind_ok Hd. cbn [eval_none]. fold ft. rewrite Hv. cbn [rbind].
    destruct v; [done| |done]. rewrite Hd. by apply first_true_doc.
  Qed.
  Lemma null_doc_node id dc sc c ds ns p n v : new_node E ft (MNode id dc sc c ds ns p) = Ok n → holds E ft r p v →
    on_doc (eval_null E cx r) (MNode id dc sc c ds ns p) =
    match v with
    | RT => first_known (on_doc (eval_null E cx r)) (dist (MNode id dc sc c ds ns p), RT) ns
    | RU => Ok ([], RU)
    | RF => Ok ([], RF)
    end.
  Proof.
    intros Hn (q & Hq & Hv). unfold on_doc at 1. rewrite Hn. cbn [rbind].
    pose proof (output_dist_doc E ft cx _ _ Hn) as Hd. revert Hn Hd. cbn [new_node]. rewrite Hq.
    intros (cs & Hcs & [= <-])%rbind_ok Hd. cbn [eval_null]. fold ft. rewrite Hv. cbn [rbind].
    destruct v; [done| |done]. rewrite Hd. by apply first_known_doc.
  Qed.

  Lemma own_rule id sc c ds p q : compile_predicate E ft p = Ok q →
    ∃ n, new_node E ft (MNode id "" sc c ds [] p) = Ok n.
  Proof. intros H. cbn [new_node rmap rbind]. rewrite H. cbn [rbind]. eauto. Qed.

  Lemma node_holds id dc sc c ds ns p n : new_node E ft (MNode id dc sc c ds ns p) = Ok n → p ≠ PNone → ∃ v, holds E ft r p v.
  Proof.
    cbn [new_node]. intros (cs & Hcs & (q & Hq & _)%rbind_ok)%rbind_ok Hp.
    destruct (run_test_total E ft r p q Hq Hp) as [v Hv]. by exists v, q.
  Qed.

  Lemma first_true_stop {A} (f : A → res (list score * presult)) d x s l1 l2 : f x = Ok (s, RT) →
    first_true f d (l1 ++ x :: l2) = first_true f (s, RT) l1.
  Proof.
    intros Hx. induction l1 as [|a l1 IH]; cbn [app first_true]; [by rewrite Hx|].
    destruct (f a) as [[s' v]| |]; [|done..]. cbn [rbind]. by destruct v.
  Qed.
  Lemma first_known_stop {A} (f : A → res (list score * presult)) d x s l1 l2 : f x = Ok (s, RT) →
    first_known f d (l1 ++ x :: l2) = first_known f (s, RT) l1.
  Proof.
    intros Hx. induction l1 as [|a l1 IH]; cbn [app first_known]; [by rewrite Hx|].
    destruct (f a) as [[s' v]| |]; [|done..]. cbn [rbind]. by destruct v.
  Qed.
  Lemma first_true_true {A} (f : A → res (list score * presult)) d l s v : first_true f (d, RT) l = Ok (s, v) → v = RT.
  Proof.
    induction l as [|a l IH]; cbn [first_true]; [by intros [= _ <-]|].
    destruct (f a) as [[s' v']| |]; [|done..]. cbn [rbind]. destruct v'; [done| |done]. by intros [= _ <-].
  Qed.
  Lemma first_known_shape {A} (f : A → res (list score * presult)) d l s v : first_known f (d, RT) l = Ok (s, v) →
    v = RT ∨ v = RU ∧ s = [].
  Proof.
    induction l as [|a l IH]; cbn [first_known]; [intros [= _ <-]; by left|].
    destruct (f a) as [[s' v']| |]; [|done..]. cbn [rbind]. destruct v'; [|..|done].
    - intros [= <- <-]. by right.
    - intros [= _ <-]. by left.
  Qed.

  Notation N := (on_doc (eval_none E cx r)).
  Notation K := (on_doc (eval_null E cx r)).

  Lemma none_rules m : ∀ path vs n d rest, new_node E ft m = Ok n → everywhere_doc (λ m, m_pred m ≠ PNone) m →
    Forall2 (holds E ft r) path vs → Forall (λ p, p ≠ PNone) path →
    first_true N d (rules path m ++ rest) =
    match tv_and vs with RT => first_true N d (m :: rest) | _ => first_true N d rest end.
  Proof.
    induction m as [id dc sc c ds ns p IH] using mnode_rect'. intros path vs n d rest Hn Hev Hpath Hpn.
    inversion Hev as [? Hp Hk]; subst. simpl in Hp, Hk.
    destruct (node_holds _ _ _ _ _ _ _ _ Hn Hp) as [v Hv].
    assert (Hpath' : Forall2 (holds E ft r) (path ++ [p]) (vs ++ [v])) by (apply Forall2_app; [done|by repeat constructor]).
    assert (Hpn' : Forall (λ p, p ≠ PNone) (path ++ [p])) by (apply Forall_app; split; [done|by repeat constructor]).
    pose proof (all_of_holds E ft r _ _ Hpath' Hpn') as Hall.
    set (own := MNode id "" sc c ds [] (all_of (path ++ [p]))).
    assert (Hown : N own = match tv_and (vs ++ [v]) with RT => Ok (dist (MNode id dc sc c ds ns p), RT) | _ => Ok ([], RF) end).
    { destruct (proj1 (iff_refl _) Hall) as (q & Hq & _). destruct (own_rule id sc c ds _ _ Hq) as [n' Hn'].
      unfold own. rewrite (none_doc_node _ _ _ _ _ _ _ _ _ Hn' Hall). destruct (tv_and _); try done.
      cbn [first_true]. by rewrite (dist_children id "" dc sc c ds [] ns _ p). }
    assert (Hkids : ∀ rest, first_true N d (concat (map (rules (path ++ [p])) ns) ++ rest) =
      match tv_and (vs ++ [v]) with RT => first_true N d (ns ++ rest) | _ => first_true N d rest end).
    { revert Hn. cbn [new_node]. intros (cs & Hcs & _)%rbind_ok. clear Hown own Hall Hev Hp.
      revert cs Hcs. induction ns as [|m ns IHn]; intros cs Hcs rest'; [by destruct (tv_and _)|].
      cbn [rmap] in Hcs. apply rbind_ok in Hcs as (x & Hx & (xs & Hxs & _)%rbind_ok).
      apply Forall_cons in IH as [IH1 IH]. apply Forall_cons in Hk as [Hk1 Hk].
      cbn [map concat]. rewrite <- app_assoc. rewrite (IH1 _ _ _ _ _ Hx Hk1 Hpath' Hpn').
      specialize (IHn IH Hk _ Hxs rest'). destruct (tv_and (vs ++ [v])); [done| |done].
      cbn [app first_true]. destruct (N m) as [[s w]| |]; [|done..]. cbn [rbind]. by destruct w. }
    cbn [rules]. rewrite <- app_assoc. cbn [app]. rewrite Hkids. fold own.
    rewrite tv_and_snoc in *. destruct (tv_and vs); [by destruct v; cbn [first_true]; rewrite Hown| |by destruct v; cbn [first_true]; rewrite Hown].
    cbn [first_true]. rewrite (none_doc_node _ _ _ _ _ _ _ _ _ Hn Hv). destruct v.
    - cbn [first_true]. by rewrite Hown.
    - rewrite (first_true_stop _ _ own _ _ _ Hown).
      destruct (first_true N _ ns) as [[s w]| |] eqn:Hft; [|done..]. cbn [rbind].
      by rewrite (first_true_true _ _ _ _ _ Hft).
    - cbn [first_true]. by rewrite Hown.
  Qed.

  Lemma null_rules m : ∀ path vs n d rest, new_node E ft m = Ok n → everywhere_doc (λ m, m_pred m ≠ PNone) m →
    Forall2 (holds E ft r) path vs → Forall (λ p, p ≠ PNone) path →
    match tv_and vs with
    | RT => first_known K d (rules path m ++ rest) = first_known K d (m :: rest)
    | RF => first_known K d (rules path m ++ rest) = first_known K d rest
    | RU => first_known K d (rules path m ++ rest) = first_known K d rest ∨ first_known K d (rules path m ++ rest) = Ok ([], RU)
    end.
  Proof.
    induction m as [id dc sc c ds ns p IH] using mnode_rect'. intros path vs n d rest Hn Hev Hpath Hpn.
    inversion Hev as [? Hp Hk]; subst. simpl in Hp, Hk.
    destruct (node_holds _ _ _ _ _ _ _ _ Hn Hp) as [v Hv].
    assert (Hpath' : Forall2 (holds E ft r) (path ++ [p]) (vs ++ [v])) by (apply Forall2_app; [done|by repeat constructor]).
    assert (Hpn' : Forall (λ p, p ≠ PNone) (path ++ [p])) by (apply Forall_app; split; [done|by repeat constructor]).
    pose proof (all_of_holds E ft r _ _ Hpath' Hpn') as Hall.
    set (own := MNode id "" sc c ds [] (all_of (path ++ [p]))).
    assert (Hown : K own = match tv_and (vs ++ [v]) with RT => Ok (dist (MNode id dc sc c ds ns p), RT) | w => Ok ([], w) end).
    { destruct (proj1 (iff_refl _) Hall) as (q & Hq & _). destruct (own_rule id sc c ds _ _ Hq) as [n' Hn'].
      unfold own. rewrite (null_doc_node _ _ _ _ _ _ _ _ _ Hn' Hall). destruct (tv_and _); try done.
      cbn [first_known]. by rewrite (dist_children id "" dc sc c ds [] ns _ p). }
    assert (Hkids : ∀ rest, match tv_and (vs ++ [v]) with
      | RT => first_known K d (concat (map (rules (path ++ [p])) ns) ++ rest) = first_known K d (ns ++ rest)
      | RF => first_known K d (concat (map (rules (path ++ [p])) ns) ++ rest) = first_known K d rest
      | RU => first_known K d (concat (map (rules (path ++ [p])) ns) ++ rest) = first_known K d rest ∨
              first_known K d (concat (map (rules (path ++ [p])) ns) ++ rest) = Ok ([], RU) end).
    { revert Hn. cbn [new_node]. intros (cs & Hcs & _)%rbind_ok. clear Hown own Hall Hev Hp.
      revert cs Hcs. induction ns as [|m ns IHn]; intros cs Hcs rest'; [destruct (tv_and _); auto|].
      cbn [rmap] in Hcs. apply rbind_ok in Hcs as (x & Hx & (xs & Hxs & _)%rbind_ok).
      apply Forall_cons in IH as [IH1 IH]. apply Forall_cons in Hk as [Hk1 Hk].
      cbn [map concat]. rewrite <- app_assoc.
      pose proof (IH1 _ _ _ d (concat (map (rules (path ++ [p])) ns) ++ rest') Hx Hk1 Hpath' Hpn') as H1.
      specialize (IHn IH Hk _ Hxs rest'). destruct (tv_and (vs ++ [v])).
      - destruct H1 as [->| ->]; auto.
      - rewrite H1. cbn [app first_known]. destruct (K m) as [[s w]| |]; [|done..]. cbn [rbind]. by destruct w.
      - by rewrite H1. }
    specialize (Hkids (own :: rest)).
    cbn [rules]. rewrite <- app_assoc. cbn [app]. fold own.
    rewrite tv_and_snoc in *.
    assert (Hm := null_doc_node _ _ _ _ _ _ _ _ _ Hn Hv).
    destruct (tv_and vs), v; cbn [first_known] in *; rewrite ?Hown in Hkids; cbn [rbind] in Hkids; rewrite ?Hm; cbn [rbind];
      auto; try (destruct Hkids as [Hkids|Hkids]; by auto).
    rewrite Hkids, (first_known_stop _ _ own _ _ _ Hown).
    destruct (first_known K _ ns) as [[s w]| |] eqn:Hft; [|done..]. cbn [rbind].
    by destruct (first_known_shape _ _ _ _ _ Hft) as [->|[-> ->]].
  Qed.

  (** ** The root *)
  Lemma none_root m n1 n2 : new_node E ft m = Ok n1 → new_node E ft (as_rules m) = Ok n2 →
    everywhere_doc (λ m, m_pred m ≠ PNone) m → eval_none E cx r n1 = eval_none E cx r n2.
  Proof.
    intros H1 H2 Hev. assert (Hd : N m = N (as_rules m)); [|unfold on_doc in Hd; by rewrite H1, H2 in Hd].
    destruct m as [id dc sc c ds ns p]. inversion Hev as [? Hp Hk]; subst. simpl in Hp, Hk.
    destruct (node_holds _ _ _ _ _ _ _ _ H1 Hp) as [v Hv]. cbn [as_rules] in *.
    rewrite (none_doc_node _ _ _ _ _ _ _ _ _ H1 Hv), (none_doc_node _ _ _ _ _ _ _ _ _ H2 Hv).
    destruct v; [done| |done]. rewrite (dist_children id dc dc sc c ds ns (concat (map (rules []) ns)) p p).
    generalize (dist (MNode id dc sc c ds (concat (map (rules []) ns)) p), RT) as d. intros d.
    revert H1. cbn [new_node]. intros (cs & Hcs & _)%rbind_ok. clear H2 Hev. revert cs Hcs.
    induction ns as [|m ns IH]; intros cs Hcs; [done|].
    cbn [rmap] in Hcs. apply rbind_ok in Hcs as (x & Hx & (xs & Hxs & _)%rbind_ok). apply Forall_cons in Hk as [Hk1 Hk].
    cbn [map concat]. rewrite (none_rules _ _ [] _ _ _ Hx Hk1 ltac:(constructor) ltac:(constructor)).
    cbn [first_true]. change (tv_and []) with RT. cbn iota.
    destruct (N m) as [[s w]| |]; [|done..]. cbn [rbind]. destruct w; [|done|]; by eapply IH.
  Qed.
  Lemma null_root m n1 n2 : new_node E ft m = Ok n1 → new_node E ft (as_rules m) = Ok n2 →
    everywhere_doc (λ m, m_pred m ≠ PNone) m → eval_null E cx r n1 = eval_null E cx r n2.
  Proof.
    intros H1 H2 Hev. assert (Hd : K m = K (as_rules m)); [|unfold on_doc in Hd; by rewrite H1, H2 in Hd].
    destruct m as [id dc sc c ds ns p]. inversion Hev as [? Hp Hk]; subst. simpl in Hp, Hk.
    destruct (node_holds _ _ _ _ _ _ _ _ H1 Hp) as [v Hv]. cbn [as_rules] in *.
    rewrite (null_doc_node _ _ _ _ _ _ _ _ _ H1 Hv), (null_doc_node _ _ _ _ _ _ _ _ _ H2 Hv).
    destruct v; [done| |done]. rewrite (dist_children id dc dc sc c ds ns (concat (map (rules []) ns)) p p).
    generalize (dist (MNode id dc sc c ds (concat (map (rules []) ns)) p), RT) as d. intros d.
    revert H1. cbn [new_node]. intros (cs & Hcs & _)%rbind_ok. clear H2 Hev. revert cs Hcs.
    induction ns as [|m ns IH]; intros cs Hcs; [done|].
    cbn [rmap] in Hcs. apply rbind_ok in Hcs as (x & Hx & (xs & Hxs & _)%rbind_ok). apply Forall_cons in Hk as [Hk1 Hk].
    pose proof (null_rules m [] [] x d (concat (map (rules []) ns)) Hx Hk1 ltac:(constructor) ltac:(constructor)) as H.
    change (tv_and []) with RT in H. cbn iota in H. cbn [map concat]. rewrite H.
    cbn [first_known]. destruct (K m) as [[s w]| |]; [|done..]. cbn [rbind]. destruct w; [done|done|]. by eapply IH.
  Qed.

  Lemma as_rules_compiles m n : new_node E ft m = Ok n → ∃ n', new_node E ft (as_rules m) = Ok n'.
  Proof.
    destruct m as [id dc sc c ds ns p]. cbn [new_node as_rules]. intros (cs & Hcs & (q & -> & _)%rbind_ok)%rbind_ok.
    assert (Hk : Forall (λ m, ∃ n, new_node E ft m = Ok n) (concat (map (rules []) ns))).
    { revert cs Hcs. induction ns as [|m ns IH]; intros cs Hcs; [constructor|].
      cbn [rmap] in Hcs. apply rbind_ok in Hcs as (x & Hx & (xs & Hxs & _)%rbind_ok).
      cbn [map concat]. apply Forall_app. split; [|by eapply IH]. eapply rules_compile; [done|constructor]. }
    apply rmap_all in Hk as [k ->]. cbn [rbind]. eauto.
  Qed.
End rules.

Lemma ruled_stands_in E dd d1 d2 : ruled d1 d2 → stands_in E dd dd d1 d2.
Proof.
  apply rewritten_stands_in. intros t1 t2 [<-|[t n [(Hst & Hnt & Hp) ->]]]; [apply stands_in_refl|].
  intros td e td'. cbn [new_model]. unfold new_tree_model, tree_validate, with_node.
  cbn [et_model tm_function et_dd et_ft et_root et_outkeys et_target et_compiled].
  destruct (_ && _); [done|].
  unfold tree_compile. cbn [et_model tm_lt tm_schema tm_node et_dd et_target et_validated et_compiled et_outkeys et_root
    tm_function tm_strategy tm_penalty tm_notrue tm_verification].
  destruct (new_node E _ (tm_node t)) as [n1|x|p] eqn:H1; [|done..]. intros [= <- <-].
  set (ft := field_types dd (td ++ tm_lt t)) in *. set (tg := target_of "" (mf_defaults <$> tm_schema t)).
  set (cx := Tctx ft dd tg (tm_penalty t) (tm_notrue t)).
  destruct (as_rules_compiles E cx _ _ H1) as (n2 & Hn2). change (cx_ft cx) with ft in Hn2. rewrite Hn2.
  eexists. split; [done|]. intros tk r. cbn [evaluate]. unfold tree_evaluate.
  cbn [et_validated et_compiled negb et_model tm_lt tm_strategy tm_schema et_root].
  destruct (handle_input E (tm_lt t) r) as [[u|x|p] r0]; [|done..].
  unfold tree_ctx. cbn [et_ft et_dd et_target et_model tm_penalty tm_notrue]. fold cx.
  assert (node_evaluate E cx (tm_strategy t) r0 tk n1 = node_evaluate E cx (tm_strategy t) r0 tk n2) as ->.
  { destruct (decide (tm_strategy t = "nullPrediction")) as [Heq|Hne].
    - rewrite Heq. unfold node_evaluate. cbn. by apply (null_root E cx r0 Hnt _ _ _ H1 Hn2 Hp).
    - rewrite !node_evaluate_plain by set_solver. by apply (none_root E cx r0 Hnt _ _ _ H1 Hn2 Hp). }
  destruct (node_evaluate E cx (tm_strategy t) r0 tk n2) as [[s v]|x|p]; [|done..]. destruct v; [done| |done].
  unfold tree_output. cbn [et_model tm_function et_target et_outkeys].
  destruct (tm_function t =s "classification"); [by destruct (foldl out_step _ s)|].
  by destruct (tm_function t =s "regression").
Qed.
