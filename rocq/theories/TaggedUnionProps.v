(** C26: tagged unions. *)
From Coq Require Import List NArith ZArith Bool Lia.
From Verif Require Import Base Float64 IntParse Numbers BytesCodec Decimal Utf8 Values VState LookupKey Collections Child Inputs Scalars Literal LiteralSpec LiteralProofs TaggedUnion ModelFieldsProps.
Import ListNotations.
Open Scope nat_scope.

Section Props.
Variable repr : pyval -> str.
Variable getattr : pyval -> str -> attr_res.
Variable py_str : pyval -> str.
Variable f64_to_string : f64 -> str.
Variable max_digits : N.
Notation tagged := (tagged_union_validate repr getattr py_str f64_to_string max_digits).

(** The tag of an input: what the discriminator function returns (None: no tag), or the
    value found under the discriminator's key or alias path in the input's mapping or
    attributes. *)
Inductive tag_of (d : discriminator) (fa : bool) (i : input) (s : state) : option pyval -> Prop :=
| tag_function f t : d = DFunction f -> f (input_object i) = inl t -> t <> PNone -> tag_of d fa i s (Some t)
| tag_function_none f : d = DFunction f -> f (input_object i) = inl PNone -> tag_of d fa i s None
| tag_key k md p x : d = DLookup k ->
    validate_model_fields repr getattr (strict_or s false) (unwrap_or (x_from_attributes (st_extra s)) fa) i = VOk md ->
    md_get md k = VOk (Some (p, x)) -> tag_of d fa i s (Some (input_object x))
| tag_key_none k md : d = DLookup k ->
    validate_model_fields repr getattr (strict_or s false) (unwrap_or (x_from_attributes (st_extra s)) fa) i = VOk md ->
    md_get md k = VOk None -> tag_of d fa i s None.

Lemma tagged_some : forall d fa custom choices i s t, tag_of d fa i s (Some t) ->
  tagged d fa custom choices i s = find_call_validator repr py_str f64_to_string max_digits custom choices t i s.
Proof.
  intros d fa custom choices i s t H. inversion H as [f t0 E1 E2 N| |k md p x E1 E2 E3|]; subst; cbn [tagged_union_validate].
  - rewrite E2. destruct t; try reflexivity. contradiction (N eq_refl).
  - rewrite E2, E3. reflexivity.
Qed.

(** Choices come from a dict: their tags are pairwise different. *)
Definition distinct_tags (choices : list (pyval * validator)) : Prop :=
  ForallOrdPairs (fun a b => py_eq a b = false) (map fst choices).

(** Only the member whose tag equals the input's tag is run; its errors are located
    under the tag. *)
Theorem C26_dispatch : forall d fa custom choices i s t k v,
  Forall pep586 (map fst choices) -> distinct_tags choices ->
  tag_of d fa i s (Some t) -> hashable t = true -> ~ overlooked (map fst choices) t ->
  In (k, v) choices -> py_eq k t = true ->
  tagged d fa custom choices i s =
    match v i s with
    | (VOk x, s') => (VOk x, s')
    | (VErr e, s') => (VErr (with_outer_err (py_loc repr t) e), s')
    end.
Proof.
  intros d fa custom choices i s t k v HP HD HT HV HO Hk E. rewrite (tagged_some _ _ _ _ _ _ _ HT). unfold find_call_validator.
  assert (Hin : In k (map fst choices)) by (apply in_map_iff; exists (k, v); auto).
  destruct (lookup_complete py_str f64_to_string max_digits _ t k HP HV HO Hin E) as [id L]. rewrite L.
  destruct (lookup_sound _ _ _ _ _ _ L) as (k0 & e & Hk0 & He & E0 & C). rewrite Forall_forall in HP.
  assert (Hie : In e (map fst choices)) by (eapply nth_error_In; exact He).
  assert (EE : py_eq e t = true) by (destruct C as [->|C]; [exact E0|rewrite <- (pep_eq k0 e); auto]).
  rewrite nth_error_map in He. destruct (nth_error choices id) as [[k' v']|] eqn:N; [|discriminate He]. cbn [option_map fst] in He. injection He as He. subst e.
  assert (Q : (k', v') = (k, v)).
  { (* both tags equal t, and tags are distinct *)
    assert (Hin' : In (k', v') choices) by (eapply nth_error_In; exact N).
    clear L C N Hk0 E0 k0. unfold distinct_tags in HD. revert Hk Hin' HD HP. clear HO Hin Hie. induction choices as [|[a va] cs IH]; intros Hk Hin' HD HP; [destruct Hk|].
    cbn [map fst] in HD. inversion HD as [|? ? HF HD']; subst. rewrite Forall_forall in HF.
    assert (SY : forall x y, In x (a :: map fst cs) -> In y (a :: map fst cs) -> py_eq x t = true -> py_eq y t = true -> py_eq x y = true).
    { intros x y Hx Hy Ex Ey. assert (Px : pep586 x) by (apply HP; exact Hx). assert (Py : pep586 y) by (apply HP; exact Hy).
      clear -Px Py Ex Ey.
      destruct x as [|b|z|fl|u|bs|ls|ls|ls|ls|ls|c [|? ?]|c v0]; try destruct Px;
      destruct y as [|b'|z'|fl'|u'|bs'|ls'|ls'|ls'|ls'|ls'|c' [|? ?]|c' v0']; try destruct Py; try reflexivity;
        rewrite ?py_eq_bool, ?py_eq_int in Ex, Ey; cbn in Ex, Ey |- *; change ((fix strip (v : pyval) : pyval := match v with PSub _ v' => strip v' | _ => v end) t) with (strip t) in *;
        destruct (strip t) as [|q|q|q|q|q|q|q|q|q|q|q r|q r]; try discriminate Ex; try discriminate Ey.
      all: repeat match goal with
           | H : Bool.eqb _ _ = true |- _ => apply eqb_prop in H
           | H : (_ =? _)%Z = true |- _ => apply Z.eqb_eq in H
           | H : str_eqb _ _ = true |- _ => apply str_eqb_eq in H
           end; subst.
      all: try (apply eqb_reflx); try (apply Z.eqb_refl); try (apply str_eqb_refl); try (destruct b; reflexivity); try (destruct q; reflexivity).
      all: try (destruct b; destruct b'; cbn in *; try discriminate; reflexivity).
      all: try (destruct b, q; cbn in *; try discriminate; reflexivity).
      all: try (destruct b', q; cbn in *; try discriminate; reflexivity).
      all: try match goal with
           | F : f_eq_Z ?q ?x = true, G : f_eq_Z ?q ?y = true |- _ => assert (x = y) by
              (clear -F G; unfold f_eq_Z in *; destruct q as [sg|sg| |sg m e]; try discriminate;
               [apply Z.eqb_eq in F, G; congruence|];
               destruct (0 <=? e)%Z eqn:L; destruct sg; apply Z.eqb_eq in F, G; try lia;
               assert (2 ^ (- e) <> 0)%Z by (apply Z.pow_nonzero; [lia|apply Z.leb_gt in L; lia]); nia)
           end.
      all: try (destruct b, b'; try discriminate; reflexivity).
      all: try (subst; apply Z.eqb_refl); try (symmetry; subst; apply Z.eqb_refl).
      all: try (destruct b; subst; reflexivity); try (destruct b'; subst; reflexivity).
      all: destruct r; cbn in Ex, Ey |- *; rewrite ?andb_false_r in *; try discriminate; rewrite ?andb_true_r in *; apply N.eqb_eq in Ex, Ey; subst; rewrite N.eqb_refl; reflexivity. }
    destruct Hk as [Hk|Hk]; destruct Hin' as [Hin'|Hin'].
    - congruence.
    - exfalso. injection Hk as -> ->. assert (I' : In k' (map fst cs)) by (apply in_map_iff; exists (k', v'); auto).
      specialize (HF k' I'). rewrite SY in HF; [discriminate|left; reflexivity|right; exact I'|assumption|assumption].
    - exfalso. injection Hin' as -> ->. assert (I' : In k (map fst cs)) by (apply in_map_iff; exists (k, v); auto).
      specialize (HF k I'). rewrite SY in HF; [discriminate|left; reflexivity|right; exact I'|assumption|assumption].
    - apply IH; auto. intros x Hx. apply HP. right. exact Hx. }
  injection Q as -> ->. reflexivity.
Qed.

(** A missing tag is rejected without running any member. *)
Theorem C26_missing_tag : forall d fa custom choices i s, tag_of d fa i s None ->
  tagged d fa custom choices i s = (VErr (LineErrors [new_error (match custom with Some t => t | None => EUnionTagNotFound end) i]), s).
Proof.
  intros d fa custom choices i s H. inversion H as [|f E1 E2| |k md E1 E2 E3]; subst; cbn [tagged_union_validate].
  - rewrite E2. unfold tag_not_found. destruct custom; reflexivity.
  - rewrite E2, E3. unfold tag_not_found. destruct custom; reflexivity.
Qed.

(** So is a tag that equals none of the members' tags. *)
Theorem C26_unknown_tag : forall d fa custom choices i s t,
  Forall pep586 (map fst choices) -> tag_of d fa i s (Some t) ->
  (forall k v, In (k, v) choices -> py_eq k t = false) ->
  tagged d fa custom choices i s = (VErr (LineErrors [new_error (match custom with Some e => e | None => EUnionTagInvalid (py_str t) end) i]), s).
Proof.
  intros d fa custom choices i s t HP HT HN. rewrite (tagged_some _ _ _ _ _ _ _ HT). unfold find_call_validator.
  destruct (lk_validate _ _ _ _ _) as [[id|]|e] eqn:L.
  - exfalso. destruct (lookup_sound _ _ _ _ _ _ L) as (k0 & e & Hk0 & _ & E0 & _). apply in_map_iff in Hk0. destruct Hk0 as ([k v] & <- & Hk).
    specialize (HN k v Hk). cbn in E0. congruence.
  - destruct custom; reflexivity.
  - destruct custom; reflexivity.
Qed.

(** When the tag cannot be determined the error is passed on, located as raised. *)
Theorem C26_no_tag : forall k fa custom choices i s,
  (forall e, validate_model_fields repr getattr (strict_or s false) (unwrap_or (x_from_attributes (st_extra s)) fa) i = VErr e ->
     tagged (DLookup k) fa custom choices i s = (VErr e, s)) /\
  (forall f e, f (input_object i) = inr e -> tagged (DFunction f) fa custom choices i s = (VErr (InternalErr e), s)).
Proof.
  intros k fa custom choices i s. split; cbn [tagged_union_validate].
  - intros e ->. reflexivity.
  - intros f e ->. reflexivity.
Qed.

Definition ex_choices : list (pyval * validator) :=
  [(PStr (lit "cat"), fun i s => (VOk (PInt 1), s)); (PStr (lit "dog"), fun i s => (val_err EIntType i, s))].
Definition ex_disc : discriminator := DLookup (Simple (path_from_str (lit "kind"))).
Definition ex_in (t : str) : input := IJson (JObj [(lit "kind", JStr t)]).

Example C26_nonvacuous :
  tag_of ex_disc true (ex_in (lit "dog")) ex_state (Some (PStr (lit "dog"))) /\
  Forall pep586 (map fst ex_choices) /\ distinct_tags ex_choices /\
  tagged ex_disc true None ex_choices (ex_in (lit "cat")) ex_state = (VOk (PInt 1), ex_state) /\
  tagged ex_disc true None ex_choices (ex_in (lit "dog")) ex_state =
    (VErr (LineErrors [with_outer (LStr (lit "dog")) (new_error EIntType (ex_in (lit "dog")))]), ex_state) /\
  tagged ex_disc true None ex_choices (IJson (JObj [])) ex_state = (val_err EUnionTagNotFound (IJson (JObj [])), ex_state).
Proof.
  split; [change (Some (PStr (lit "dog"))) with (Some (input_object (IJson (JStr (lit "dog"))))); eapply tag_key; reflexivity|]. split; [repeat constructor|]. split; [|repeat split; reflexivity].
  repeat (constructor; try reflexivity).
Qed.

(** As for literals, a tag outside 64 bits is not found when some other tag is inside. *)
Theorem C26_big_int_tag_refuted : exists choices i s t v,
  distinct_tags choices /\ In (t, v) choices /\
  fst (tagged (DFunction (fun _ => inl t)) true None choices i s) = VErr (LineErrors [new_error (EUnionTagInvalid (py_str t)) i]) /\
  fst (v i s) = VOk PNone.
Proof.
  exists [(PInt 1, fun _ s => (VOk PNone, s)); (PInt (2 ^ 63), fun _ s => (VOk PNone, s))], (IPy PNone), ex_state, (PInt (2 ^ 63)), (fun _ s => (VOk PNone, s)).
  split; [repeat (constructor; try reflexivity)|]. split; [right; left; reflexivity|]. split; reflexivity.
Qed.
End Props.
Print Assumptions C26_dispatch.
Print Assumptions C26_missing_tag.
Print Assumptions C26_unknown_tag.
Print Assumptions C26_no_tag.
Print Assumptions C26_big_int_tag_refuted.
