(** The token loop shared by the hand-written UnmarshalXML methods, e.g. Segment
    (elements.go:4514-4546), InlineTable (2408-2434), PMML (3758-3802), Node
    (3372-3427), Apply, CompoundPredicate, DerivedField: read a token; a start
    tag of a known name is handed to DecodeElement, which consumes that element;
    any other start tag and any text is passed over and the loop goes on with
    the next token; the first end tag makes the method return nil.

    After the method returns, encoding/xml (Decoder.unmarshalInterface, outside
    the repository) requires the decoder to stand right behind the element's
    own end tag and fails otherwise ("did not consume entire element").

    This file derives the reading Decode.v works with: the method succeeds
    exactly if every child element is known and decodes. *)
From Verif Require Import Base Xml.

(** [token_loop known step depth ks a]: the loop stands inside [depth] elements
    it did not know, [ks] is what is left up to the next end tag that closes one
    of them (or the element itself if [depth] is 0).  Some (a, d) is "returned
    nil at an end tag with d elements still open", None is an error. *)
Fixpoint token_loop_in {A} (known : string → bool) (step : xml → A → option A)
    (x : xml) (depth : nat) (a : A) {struct x} : option (A * nat) :=
  match x with
  | Chars _ => Some (a, depth)
  | Elem _ _ _ ks =>
      (fix go ks a := match ks with
        | [] => Some (a, depth)
        | k :: ks' =>
            match k with
            | Chars _ => go ks' a
            | Elem n _ _ _ =>
                if known n then match step k a with Some a' => go ks' a' | None => None end
                else token_loop_in known step k (S depth) a
            end
        end) ks a
  end.

(** what the caller of UnmarshalXML sees *)
Definition unmarshal {A} (known : string → bool) (step : xml → A → option A)
    (x : xml) (a : A) : option A :=
  match token_loop_in known step x 0 a with
  | Some (a', O) => Some a'
  | _ => None
  end.

Lemma token_loop_depth {A} known (step : xml → A → option A) : ∀ x d a r,
  token_loop_in known step x d a = Some r → d ≤ r.2.
Proof.
  intros x. induction x as [n at_ i ks IH|s] using xml_rect'; intros d a r H; [|cbn in H; by simplify_eq].
  revert a H. induction ks as [|k ks IHk]; intros a H; cbn in H; [by simplify_eq|].
  apply Forall_cons in IH as [IH1 IH2].
  destruct k as [m at' i' ks'|s]; [|by eapply IHk].
  destruct (known m).
  - destruct (step _ a); [by eapply IHk|done].
  - apply IH1 in H. lia.
Qed.

Theorem unmarshal_is_fold {A} (known : string → bool) (step : xml → A → option A) n at_ i ks a :
  unmarshal known step (Elem n at_ i ks) a =
  kids_fold (λ k a, match k with
                    | Chars _ => Some a
                    | Elem m _ _ _ => if known m then step k a else None
                    end) ks a.
Proof.
  revert a. induction ks as [|k ks IH]; intros a; [done|].
  cbn [kids_fold]. destruct k as [m at' i' ks'|s].
  - destruct (known m) eqn:Hm.
    + destruct (step (Elem m at' i' ks') a) as [a'|] eqn:Hs.
      * rewrite <- IH. unfold unmarshal. cbn. by rewrite Hm, Hs.
      * unfold unmarshal. cbn. by rewrite Hm, Hs.
    + unfold unmarshal.
      assert (token_loop_in known step (Elem n at_ i (Elem m at' i' ks' :: ks)) 0 a =
              token_loop_in known step (Elem m at' i' ks') 1 a) as ->.
      { cbn. by rewrite Hm. }
      destruct (token_loop_in known step (Elem m at' i' ks') 1 a) as [[a' [|d]]|] eqn:H; try done.
      apply token_loop_depth in H. cbn in H. lia.
  - rewrite <- IH. reflexivity.
Qed.
