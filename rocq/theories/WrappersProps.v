(** C27, C41, C42: defaults, wrappers and function validators. *)
From Coq Require Import List NArith ZArith Bool Lia.
From Verif Require Import Base Float64 Values VState LookupKey Collections CollectionsSpec CollectionsProofs Child ModelFieldsProps Wrappers WrappersSpec.
Import ListNotations.
Open Scope nat_scope.

(** ** C27 *)

Lemma stored_has w s v : stored_default (wd_default_kind w) (x_data (st_extra s)) = VOk (Some v) ->
  (forall f, wd_default_kind w = DFactory f true -> x_data (st_extra s) <> None) -> has_default w s v.
Proof.
  intros H N. unfold stored_default in H. destruct (wd_default_kind w) as [|d|f t] eqn:K; [discriminate| |].
  - injection H as ->. apply hd_value. assumption.
  - destruct t.
    + destruct (x_data (st_extra s)) as [d|] eqn:D; [|exfalso; eapply N; reflexivity].
      destruct (f _) as [x|x] eqn:F; [|discriminate]. injection H as ->. eapply hd_factory_data; eassumption.
    + destruct (f None) as [x|x] eqn:F; [|discriminate]. injection H as ->. eapply hd_factory; eassumption.
Qed.
Lemma has_stored w s v : has_default w s v -> stored_default (wd_default_kind w) (x_data (st_extra s)) = VOk (Some v).
Proof. intros H. inversion H as [x K|f x K F|f d x K D F]; subst; unfold stored_default; rewrite K; [reflexivity|rewrite F; reflexivity|rewrite D, F; reflexivity]. Qed.

Lemma gives_default_value w s r n : gives_default w s r ->
  default_value (wd_validate (S n) w) w None s = Some (match fst r with VOk v => VOk (Some v) | VErr e => VErr e end, snd r).
Proof.
  intros G. unfold default_value. inversion G as [v Hd Vd E|v v' s' Hd Vd U I E|v e s' Hd Vd U I O E|v e s' Hd Vd U I O E]; subst; rewrite (has_stored _ _ _ Hd), Vd; cbn [fst snd]; try reflexivity;
    cbn [wd_validate]; rewrite U, I; try rewrite O; reflexivity.
Qed.

Definition use_default (w : with_default) (n : nat) (e : verror) (s : state) : option (vres pyval * state) :=
  match default_value (wd_validate n w) w None s with
  | None => None
  | Some (VErr e', s') => Some (VErr e', s')
  | Some (VOk (Some v), s') => Some (VOk v, s')
  | Some (VOk None, s') => Some (VErr e, s')
  end.
Lemma wd_step w n i s : wd_validate (S n) w i s =
  if is_undefined i then use_default w n Panic s
  else match wd_inner w i s with
       | (VOk v, s') => Some (VOk v, s')
       | (VErr Panic, s') => Some (VErr Panic, s')
       | (VErr UseDefault, s') => use_default w n UseDefault s'
       | (VErr e, s') => match wd_on_error w with OnRaise => Some (VErr e, s') | OnDefault => use_default w n e s' | OnOmit => Some (VErr Omit, s') end
       end.
Proof. reflexivity. Qed.

(** C27: with two levels of recursion allowed, everything the specification says is
    what the code does: an accepted value is kept, a failing one is handled according
    to on_error, an absent or UseDefault one gives the default, validated iff
    validate_default is set. *)
Theorem C27_defaults : forall w i s r, defaulted w i s r -> forall n, wd_validate (2 + n) w i s = Some r.
Proof.
  intros w i s r D n. change (2 + n) with (S (S n)).
  inversion D as [v s' U I E|e s' U I O E|e s' U I O E|e s' r' U I O G E|s' r' U I G E|r' U G E]; subst; rewrite wd_step, U; try rewrite I; try rewrite O; try reflexivity;
    unfold use_default; rewrite (gives_default_value _ _ _ n G); destruct r as [[v|e'] s'']; reflexivity.
Qed.
Print Assumptions C27_defaults.

(** C27: an absent value: the default under the outer location, or nothing. *)
Theorem C27_absent : forall w l s n,
  (wd_default_kind w = DNone -> cv_default (wd_cv (S n) w) l s = (VOk None, s)) /\
  (forall r s', gives_default w s (r, s') -> cv_default (wd_cv (S n) w) l s =
     (match r with VOk v => VOk (Some v)
      | VErr (LineErrors es) => VErr (LineErrors (match l with Some l => map (with_outer l) es | None => es end))
      | VErr e => VErr e end, s')).
Proof.
  intros w l s n. split.
  - intros K. cbn. unfold default_value. rewrite K. reflexivity.
  - intros r s' G. cbn [wd_cv cv_default]. unfold default_value.
    inversion G as [v Hd Vd E|v v' s0 Hd Vd U I E|v e s0 Hd Vd U I O E|v e s0 Hd Vd U I O E]; subst; rewrite (has_stored _ _ _ Hd), Vd; try reflexivity;
      cbn [wd_validate]; rewrite U, I; try rewrite O; destruct l; reflexivity.
Qed.
Print Assumptions C27_absent.

(** C27: whenever validation stops at all, its outcome is that of the specification,
    for inner validators that only accept or report line errors. *)
Theorem C27_defaults_only : forall w n i s r,
  (forall i s, exists r s', wd_inner w i s = (r, s') /\ match r with VOk _ | VErr (LineErrors _) => True | _ => False end) ->
  (forall d, exists v, forall s, x_data (st_extra s) = d -> has_default w s v) ->
  (wd_validate_default w = true -> wd_on_error w <> OnDefault /\ forall s v, has_default w s v -> is_undefined (IPy v) = false) ->
  wd_validate n w i s = Some r -> defaulted w i s r.
Proof.
  intros w n i s r Inn Dft Vd H.
  assert (M : forall r0, wd_validate (2 + n) w i s = Some r0 -> defaulted w i s r0).
  { clear H. intros r0 H. destruct (Dft (x_data (st_extra s))) as [v Hv].
    assert (G : forall s, exists v r, has_default w s v /\ gives_default w s r).
    { intros s1. destruct (Dft (x_data (st_extra s1))) as [v1 Hv1]. specialize (Hv1 s1 eq_refl). exists v1.
      destruct (wd_validate_default w) eqn:V; [|exists (VOk v1, s1); split; [assumption|constructor; assumption]].
      destruct (Vd eq_refl) as [No Nu]. specialize (Nu s1 v1 Hv1). destruct (Inn (IPy v1) s1) as (r1 & s2 & I1 & R1).
      destruct r1 as [x|[es| | | |]]; try contradiction.
      - eexists. split; [assumption|]. eapply gd_valid; eassumption.
      - destruct (wd_on_error w) eqn:O; [| |congruence]; eexists; (split; [assumption|]); [eapply gd_invalid|eapply gd_omit]; eassumption. }
    assert (D : exists r1, defaulted w i s r1).
    { destruct (is_undefined i) eqn:U.
      - destruct (G s) as (v1 & r1 & _ & G1). exists r1. apply df_undefined; assumption.
      - destruct (Inn i s) as (r1 & s1 & I1 & R1). destruct r1 as [x|[es| | | |]]; try contradiction.
        + eexists. eapply df_ok; eassumption.
        + destruct (wd_on_error w) eqn:O; [eexists; eapply df_raise; eassumption|eexists; eapply df_omit; eassumption|].
          destruct (G s1) as (v1 & r2 & _ & G1). exists r2. eapply df_default; eassumption. }
    destruct D as [r1 D1]. rewrite (C27_defaults _ _ _ _ D1) in H. injection H as <-. assumption. }
  apply M. clear M Inn Dft Vd. revert i s r H.
  assert (Mono : forall k i s r, wd_validate k w i s = Some r -> wd_validate (S k) w i s = Some r).
  { induction k as [|m IH]; intros i s r H; [discriminate H|].
    assert (Dv : forall l s r, default_value (wd_validate m w) w l s = Some r -> default_value (wd_validate (S m) w) w l s = Some r).
    { intros l s1 r1 D. unfold default_value in *. destruct (stored_default _ _) as [[d|]|e]; try assumption. destruct (wd_validate_default w); [|assumption].
      destruct (wd_validate m w (IPy d) s1) as [r2|] eqn:E; [|discriminate]. rewrite (IH _ _ _ E). assumption. }
    assert (Ud : forall e s1 r1, use_default w m e s1 = Some r1 -> use_default w (S m) e s1 = Some r1).
    { intros e s1 r1 X. unfold use_default in *. destruct (default_value (wd_validate m w) w None s1) as [r2|] eqn:E; [|discriminate]. rewrite (Dv _ _ _ E). exact X. }
    rewrite wd_step in H. rewrite wd_step.
    destruct (is_undefined i); [apply Ud; exact H|]. destruct (wd_inner w i s) as [[x|[es|x| | |]] s1]; try exact H; try (destruct (wd_on_error w); try exact H; apply Ud; exact H). }
  intros i s r H. apply Mono, Mono. exact H.
Qed.
Print Assumptions C27_defaults_only.

(** C27: without validate_default a failing value is replaced by exactly the default. *)
Theorem C27_no_validation : forall w i s v es s' n, is_undefined i = false ->
  wd_inner w i s = (VErr (LineErrors es), s') -> wd_on_error w = OnDefault -> wd_default_kind w = DValue v -> wd_validate_default w = false ->
  wd_validate (S n) w i s = Some (VOk v, s').
Proof. intros w i s v es s' n U I O K V. cbn [wd_validate]. rewrite U, I, O. unfold default_value. rewrite K, V. reflexivity. Qed.
Print Assumptions C27_no_validation.

(** C27 is false where the code never stops: an invalid default with validate_default
    and on_error="default" recurses for ever. *)
Definition wd_bad : with_default := {| wd_default_kind := DValue (PStr (lit "x")); wd_on_error := OnDefault; wd_inner := ex_int; wd_validate_default := true |}.
Theorem C27_terminates_refuted : wd_build_ok (wd_default_kind wd_bad) (wd_on_error wd_bad) = true /\
  forall n s, wd_validate n wd_bad (IPy PNone) s = None.
Proof.
  split; [reflexivity|].
  assert (H : forall n s, wd_validate n wd_bad (IPy (PStr (lit "x"))) s = None).
  { induction n as [|n IH]; intros s; [reflexivity|]. rewrite wd_step. change (is_undefined (IPy (PStr (lit "x")))) with false. cbn [wd_bad wd_inner ex_int input_object wd_on_error].
    unfold val_err, use_default, default_value. cbn [wd_bad wd_default_kind stored_default wd_validate_default]. fold wd_bad. rewrite IH. reflexivity. }
  intros [|n] s; [reflexivity|]. rewrite wd_step. change (is_undefined (IPy PNone)) with false. cbn [wd_bad wd_inner ex_int input_object wd_on_error].
  unfold val_err, use_default, default_value. cbn [wd_bad wd_default_kind stored_default wd_validate_default]. fold wd_bad. rewrite H. reflexivity.
Qed.
Print Assumptions C27_terminates_refuted.

(** C27: a factory that asks for the validated data outside of any model gets an empty
    tuple instead of a dict. *)
Theorem C27_factory_data_refuted : exists w s n, wd_default_kind w = DFactory (fun a => inl (unwrap_or a PNone)) true /\
  x_data (st_extra s) = None /\ cv_default (wd_cv n w) None s = (VOk (Some (PTuple [])), s).
Proof.
  exists {| wd_default_kind := DFactory (fun a => inl (unwrap_or a PNone)) true; wd_on_error := OnRaise; wd_inner := ex_int; wd_validate_default := false |}, ex_state, 1.
  repeat split.
Qed.
Print Assumptions C27_factory_data_refuted.

(** C27: passing PydanticUndefined to a schema without default panics. *)
Theorem C27_undefined_panic_refuted : exists w s n, wd_build_ok (wd_default_kind w) (wd_on_error w) = true /\
  cv_validate (wd_cv n w) (IPy py_undefined) s = (VErr Panic, s).
Proof.
  exists {| wd_default_kind := DNone; wd_on_error := OnRaise; wd_inner := ex_int; wd_validate_default := false |}, ex_state, 2.
  split; reflexivity.
Qed.
Print Assumptions C27_undefined_panic_refuted.

Example C27_ex : let w := {| wd_default_kind := DValue (PInt 7); wd_on_error := OnDefault; wd_inner := ex_int; wd_validate_default := true |} in
  defaulted w (IPy PNone) ex_state (VOk (PInt 7), ex_state) /\ defaulted w (IPy py_undefined) ex_state (VOk (PInt 7), ex_state) /\
  defaulted w (IPy (PInt 3)) ex_state (VOk (PInt 3), ex_state).
Proof.
  cbv zeta. set (w := {| wd_default_kind := _ |}).
  assert (G : gives_default w ex_state (VOk (PInt 7), ex_state)) by (eapply gd_valid; [apply hd_value; reflexivity|reflexivity..]).
  split; [|split].
  - eapply df_default; [reflexivity|reflexivity|reflexivity|exact G].
  - apply df_undefined; [reflexivity|exact G].
  - apply df_ok; reflexivity.
Qed.
Example C27_ex_only : let w := {| wd_default_kind := DValue (PInt 7); wd_on_error := OnDefault; wd_inner := ex_int; wd_validate_default := false |} in
  (forall i s, exists r s', wd_inner w i s = (r, s') /\ match r with VOk _ | VErr (LineErrors _) => True | _ => False end) /\
  (forall d, exists v, forall s, x_data (st_extra s) = d -> has_default w s v).
Proof.
  cbv zeta. split.
  - intros i s. cbn [wd_inner]. unfold ex_int. destruct (input_object i); eexists; eexists; (split; [reflexivity|exact I]).
  - intros d. exists (PInt 7). intros s _. apply hd_value. reflexivity.
Qed.

(** ** C41 *)

Theorem C41_nullable : forall inner i s r,
  nullable inner i s = r <->
  (i = IPy PNone \/ i = IJson JNull) /\ r = (VOk PNone, s) \/
  ~ (i = IPy PNone \/ i = IJson JNull) /\ r = inner i s.
Proof.
  intros inner i s r. unfold nullable.
  assert (N : is_none_input i = true <-> (i = IPy PNone \/ i = IJson JNull)).
  { destruct i as [[]|[]| |]; cbn; split; intros H; try discriminate H; auto; destruct H as [H|H]; discriminate H. }
  destruct (is_none_input i) eqn:E.
  - assert (P : i = IPy PNone \/ i = IJson JNull) by (apply N; reflexivity). split; [intros <-; auto|]. intros [[_ ->]|[F _]]; [reflexivity|contradiction].
  - assert (P : ~ (i = IPy PNone \/ i = IJson JNull)) by (intros X; apply N in X; discriminate). split; [intros <-; auto|]. intros [[F _]|[_ ->]]; [contradiction|reflexivity].
Qed.
Print Assumptions C41_nullable.

(** C41: a chain is left-to-right composition. *)
Lemma chain_rest_composed vs : forall v s, vs <> [] -> composed vs (IPy v) s (chain_rest vs v s).
Proof.
  induction vs as [|x vs IH]; intros v s N; [congruence|]. cbn [chain_rest].
  destruct vs as [|y vs].
  - cbn [chain_rest]. replace (match x (IPy v) s with (VOk v', s') => (VOk v', s') | (VErr e, s') => (VErr e, s') end) with (x (IPy v) s) by (destruct (x (IPy v) s) as [[|] ?]; reflexivity). constructor.
  - destruct (x (IPy v) s) as [[w|e] s'] eqn:E; [eapply co_ok|eapply co_err]; try eassumption; try discriminate. apply IH. discriminate.
Qed.
Lemma chain_composed vs i s : vs <> [] -> composed vs i s (chain_validate vs i s).
Proof.
  intros N. destruct vs as [|x [|y vs]]; [congruence| |].
  - cbn [chain_validate chain_rest]. replace (match x i s with (VOk v, s') => (VOk v, s') | (VErr e, s') => (VErr e, s') end) with (x i s) by (destruct (x i s) as [[|] ?]; reflexivity). constructor.
  - cbn [chain_validate]. destruct (x i s) as [[w|e] s'] eqn:E; [eapply co_ok|eapply co_err]; try eassumption; try discriminate. apply chain_rest_composed. discriminate.
Qed.
Lemma composed_fun vs i s r : composed vs i s r -> forall r', composed vs i s r' -> r = r'.
Proof.
  induction 1 as [v i s|v vs i s x s' r E N C IH|v vs i s e s' E N]; intros r' C'; inversion C' as [a b c|a b c d x' s'' r'' E' N' C''|a b c d e' s'' E' N']; subst; try congruence.
  apply IH. rewrite E in E'. injection E' as <- <-. assumption.
Qed.
Theorem C41_chain : forall steps i s r, steps <> [] -> (chain_validate steps i s = r <-> composed steps i s r).
Proof. intros steps i s r N. split; [intros <-; apply chain_composed; assumption|]. intros C. eapply composed_fun; [apply chain_composed; assumption|assumption]. Qed.
Print Assumptions C41_chain.

Lemma composed_app vs ws i s r : vs <> [] -> ws <> [] ->
  composed (vs ++ ws) i s r <-> composed [fun i s => chain_validate vs i s; fun i s => chain_validate ws i s] i s r.
Proof.
  intros Nv Nw.
  assert (F : forall vs i s, vs <> [] -> composed (vs ++ ws) i s (match chain_validate vs i s with (VOk v, s') => chain_validate ws (IPy v) s' | (VErr e, s') => (VErr e, s') end)).
  { clear vs Nv i s r. induction vs as [|x vs IH]; intros i s N; [congruence|]. cbn [app chain_validate]. destruct (x i s) as [[w|e] s'] eqn:E.
    - eapply co_ok; [exact E|destruct vs; cbn; [assumption|discriminate]|]. destruct vs as [|y vs]; cbn [chain_rest app]; [apply chain_composed; assumption|].
      specialize (IH (IPy w) s' ltac:(discriminate)). cbn [chain_validate] in IH. cbn [chain_rest]. exact IH.
    - apply co_err; [exact E|destruct vs; cbn; [assumption|discriminate]]. }
  split.
  - intros C. rewrite (composed_fun _ _ _ _ C _ (F vs i s Nv)). destruct (chain_validate vs i s) as [[w|e] s'] eqn:E; [|apply co_err; [exact E|discriminate]].
    eapply co_ok; [exact E|discriminate|]. constructor.
  - intros C. replace r with (match chain_validate vs i s with (VOk v, s') => chain_validate ws (IPy v) s' | (VErr e, s') => (VErr e, s') end); [apply F; assumption|].
    inversion C as [a b c|a b c d x' s'' r'' E' N' C''|a b c d e' s'' E' N']; subst; rewrite E'; [|reflexivity].
    inversion C''; subst; try reflexivity; match goal with N2 : [] <> [] |- _ => contradiction (N2 eq_refl) end.
Qed.
(** C41: building a chain flattens nested chains and drops one-step chains without
    changing what the steps do one after the other. *)
Theorem C41_chain_build : forall steps t,
  Forall (fun u => match u with Chain [] => False | _ => True end) steps ->
  chain_build steps = Some t -> forall i s, step_run t i s = chain_validate (map step_run steps) i s.
Proof.
  intros steps t Ne B i s.
  set (flat := flat_map (fun u => match u with Plain v => [v] | Chain l => l end) steps) in *.
  assert (R : step_run t i s = chain_validate flat i s /\ flat <> []).
  { unfold chain_build in B. fold flat in B. destruct flat as [|v [|w l]]; [discriminate| |]; injection B as <-; (split; [|discriminate]); [|reflexivity].
    cbn. destruct (v i s) as [[|] ?]; reflexivity. }
  destruct R as [-> Nf].
  assert (G : forall steps i s, Forall (fun u => match u with Chain [] => False | _ => True end) steps -> steps <> [] ->
    composed (flat_map (fun u => match u with Plain v => [v] | Chain l => l end) steps) i s (chain_validate (map step_run steps) i s)).
  { clear. induction steps as [|u steps IH]; intros i s Ne N; [congruence|]. inversion Ne as [|? ? N1 N2]; subst. cbn [flat_map map].
    set (h := match u with Plain v => [v] | Chain l => l end). assert (Nh : h <> []) by (subst h; destruct u as [v|[|v l]]; [discriminate|contradiction|discriminate]).
    assert (Hr : forall i s, step_run u i s = chain_validate h i s).
    { intros i0 s0. subst h. destruct u as [v|l]; [|reflexivity]. cbn. destruct (v i0 s0) as [[|] ?]; reflexivity. }
    destruct steps as [|u' steps].
    - cbn [flat_map map app]. rewrite app_nil_r. cbn [chain_validate chain_rest]. rewrite Hr.
      replace (match chain_validate h i s with (VOk v, s') => (VOk v, s') | (VErr e, s') => (VErr e, s') end) with (chain_validate h i s) by (destruct (chain_validate h i s) as [[|] ?]; reflexivity).
      apply chain_composed; assumption.
    - set (f := flat_map _ (u' :: steps)). assert (Nf : f <> []).
      { inversion N2 as [|? ? M1 M2]; subst. subst f. cbn. destruct u' as [v|[|v l]]; [discriminate|contradiction|discriminate]. }
      apply composed_app; try assumption. cbn [chain_validate]. rewrite Hr. destruct (chain_validate h i s) as [[w|e] s'] eqn:E; [|apply co_err; [exact E|discriminate]].
      eapply co_ok; [exact E|discriminate|]. specialize (IH (IPy w) s' N2 ltac:(discriminate)). fold f in IH.
      assert (Er : chain_validate (map step_run (u' :: steps)) (IPy w) s' = chain_validate f (IPy w) s') by (eapply composed_fun; [exact IH|apply chain_composed; assumption]).
      cbn [map chain_validate] in Er. cbn [map chain_rest]. rewrite Er. apply co_last with (v := fun i s => chain_validate f i s). }
  apply C41_chain; [assumption|]. apply G; [assumption|]. intros ->. apply Nf. reflexivity.
Qed.
Print Assumptions C41_chain_build.

(** C41: json_or_python runs exactly the branch of the input mode. *)
Theorem C41_json_or_python : forall j p i s,
  (x_input_type (st_extra s) = ITPython -> json_or_python j p i s = p i s) /\
  (x_input_type (st_extra s) <> ITPython -> json_or_python j p i s = j i s).
Proof. intros j p i s. unfold json_or_python. split; intros H; destruct (x_input_type (st_extra s)); try reflexivity; try discriminate H; contradiction (H eq_refl). Qed.
Print Assumptions C41_json_or_python.

(** C41: lax_or_strict outside unions runs exactly the branch for the strictness; inside
    a smart union (exactness tracked) a strict success is preferred and anything else
    is what the lax branch says, with the exactness lowered to lax. *)
Theorem C41_lax_or_strict : forall strict lax sv i s,
  (strict_or s strict = true -> lax_or_strict strict lax sv i s = sv i s) /\
  (strict_or s strict = false -> st_exactness s = None -> lax_or_strict strict lax sv i s = lax i s) /\
  (strict_or s strict = false -> st_exactness s <> None ->
     (forall v s', sv i s = (VOk v, s') -> lax_or_strict strict lax sv i s = (VOk v, s')) /\
     (forall e s', sv i s = (VErr e, s') -> e <> Panic -> exists s0, lax_or_strict strict lax sv i s = lax i s0 /\
        st_extra s0 = st_extra s' /\ st_fields_set s0 = st_fields_set s' /\ st_partial s0 = st_partial s' /\
        (st_exactness s' <> None -> st_exactness s0 = Some Lax))).
Proof.
  intros strict lax sv i s. unfold lax_or_strict. repeat split.
  - intros ->. reflexivity.
  - intros -> ->. reflexivity.
  - intros v s' E. rewrite H. destruct (st_exactness s); [|congruence]. rewrite E. reflexivity.
  - intros e s' E Np. rewrite H. destruct (st_exactness s); [|congruence]. rewrite E. exists (floor_exactness Lax s').
    split; [destruct e; try reflexivity; congruence|]. unfold floor_exactness. destruct (st_exactness s') as [[| |]|] eqn:Es; repeat split; auto; congruence.
Qed.
Print Assumptions C41_lax_or_strict.

(** C41, lax_or_strict: the failed strict attempt is not undone before the lax one: the
    fields it counted are counted again. *)
Definition counting (n : nat) (r : vres pyval) : validator := fun i s => (r, add_fields_set n s).
Theorem C41_lax_or_strict_refuted : exists strict lax sv i s v,
  fst (lax_or_strict strict lax sv i s) = VOk v /\ fst (lax i s) = VOk v /\
  st_fields_set (snd (lax i s)) = Some 1 /\ st_fields_set (snd (lax_or_strict strict lax sv i s)) = Some 3.
Proof.
  exists false, (counting 1 (VOk PNone)), (counting 2 (val_err EIntType (IPy PNone))), (IPy PNone), ex_state, PNone. repeat split.
Qed.
Print Assumptions C41_lax_or_strict_refuted.

(** C41: custom_error keeps successes and replaces line errors by exactly one error
    about the whole input. *)
Theorem C41_custom_error : forall t inner i s r s', inner i s = (r, s') ->
  custom_error t inner i s =
    (match r with
     | VErr (LineErrors _) => VErr (LineErrors [{| le_type := t; le_loc := LEmpty; le_input := i |}])
     | VOk v => VOk v
     | VErr Panic => VErr Panic
     | VErr _ => fst (custom_error t inner i s)
     end, s').
Proof. intros t inner i s r s' H. unfold custom_error. rewrite H. destruct r as [v|[es|x| | |]]; reflexivity. Qed.
Print Assumptions C41_custom_error.

(** C41/C42: but it also turns a programming error (here a TypeError raised by a
    validator function) and an omission request into that validation error. *)
Theorem C41_custom_error_refuted : exists t inner i s s',
  inner i s = (VErr (InternalErr XTypeError), s') /\ custom_error t inner i s = (val_err t i, s').
Proof. exists (ECustom 1), (fun _ s => (VErr (InternalErr XTypeError), s)), (IPy PNone), ex_state, ex_state. split; reflexivity. Qed.
Print Assumptions C41_custom_error_refuted.

Example C41_ex : chain_build [Plain ex_int; Chain [ex_int; nullable ex_int]] = Some (Chain [ex_int; ex_int; nullable ex_int]) /\
  chain_validate [ex_int; nullable ex_int] (IJson (JInt 3)) ex_state = (VOk (PInt 3), ex_state).
Proof. split; reflexivity. Qed.

(** ** C42 *)

(** An exception raised by a plain function becomes line errors about the input, a
    control request, or escapes unchanged, and escapes iff it is not one of the
    documented kinds. *)
Theorem C42_exceptions : forall f own i s x,
  f (input_object i) (info_of own s) = inr x ->
  (documented x = false <-> fst (function_plain f own i s) = VErr (InternalErr x)) /\
  (x = XOmit <-> fst (function_plain f own i s) = VErr Omit) /\
  (x = XUseDefault <-> fst (function_plain f own i s) = VErr UseDefault) /\
  (forall t, (x = XCustom t \/ x = XValueError /\ t = EValueError \/ x = XAssertionError /\ t = EAssertionError) ->
     fst (function_plain f own i s) = VErr (LineErrors [{| le_type := t; le_loc := LEmpty; le_input := i |}])) /\
  (forall es, x = XValidation es -> fst (function_plain f own i s) = VErr (LineErrors es)) /\
  snd (function_plain f own i s) = s.
Proof.
  intros f own i s x H. unfold function_plain, call_fun. rewrite H. cbn [fst snd].
  repeat split; try (intros E; destruct x; cbn in E |- *; congruence).
  - intros t [->|[[-> ->]|[-> ->]]]; reflexivity.
Qed.
Print Assumptions C42_exceptions.

(** The order of calls: before, after. *)
Theorem C42_before : forall f own inner i s,
  (forall v, f (input_object i) (info_of own s) = inl v -> function_before f own inner i s = inner (IPy v) s) /\
  (forall x, f (input_object i) (info_of own s) = inr x -> function_before f own inner i s = function_plain f own i s).
Proof.
  intros f own inner i s. unfold function_before, function_plain, call_fun. split; intros v ->; reflexivity.
Qed.
Print Assumptions C42_before.
Theorem C42_after : forall f own inner i s,
  (forall v s', inner i s = (VOk v, s') -> snd (function_after f own inner i s) = s' /\
     (forall w, f v (info_of own s') = inl w <-> fst (function_after f own inner i s) = VOk w) /\
     (forall x, f v (info_of own s') = inr x -> fst (function_after f own inner i s) = VErr (convert_err x i))) /\
  (forall e s', inner i s = (VErr e, s') -> function_after f own inner i s = (VErr e, s')).
Proof.
  intros f own inner i s. unfold function_after, call_fun. split.
  - intros v s' ->. cbn [fst snd]. split; [reflexivity|]. destruct (f v (info_of own s')) as [w|x]; split; intros w'; try split; congruence.
  - intros e s' ->. reflexivity.
Qed.
Print Assumptions C42_after.

(** The function sees the field name it is called for, the data validated so far and
    the mode of validation. *)
Theorem C42_info : forall own s,
  in_data (info_of own s) = x_data (st_extra s) /\ in_mode (info_of own s) = x_input_type (st_extra s) /\
  in_field_name (info_of own s) = match x_field_name (st_extra s) with Some n => Some n | None => own end.
Proof. intros own s. repeat split. cbn. destruct (x_field_name (st_extra s)); reflexivity. Qed.
Print Assumptions C42_info.

(** C42: a wrap function that calls its handler once and returns or re-raises is
    transparent: same value, same errors (their inputs as Python objects); but an
    omission or a use of the default becomes an internal error. *)
Theorem C42_wrap_transparent : forall inner own i s r s',
  inner (IPy (input_object i)) (handler_state s (st_exactness s)) = (r, s') ->
  function_wrap call_through own inner i s =
    (match r with
     | VErr (LineErrors es) => VErr (LineErrors (map freeze_error es))
     | VErr (InternalErr x) => VErr (convert_err x i)
     | VErr Omit | VErr UseDefault => VErr (InternalErr schema_error)
     | r => r
     end, set_exactness (st_exactness s') s).
Proof.
  intros inner own i s r s' H. unfold function_wrap, call_through. cbn [run_wrap]. rewrite H. destruct r as [v|[es|x| | |]]; reflexivity.
Qed.
Print Assumptions C42_wrap_transparent.

(** C42: whatever a wrap function does, each of its handler calls validates the value it
    passes, with the mode, strictness and data of the surrounding validation, and gets
    the value or an exception with the errors of the wrapped schema; the outcome of the
    function is the outcome of the validation. *)
Theorem C42_wrap_conversation : forall f own inner i s,
  (forall j t, fst (inner j t) <> VErr Panic) ->
  exists r e, conversation inner s (f (input_object i) (info_of own s)) (st_exactness s) r e /\
  function_wrap f own inner i s = (match r with inl v => VOk v | inr x => VErr (convert_err x i) end, set_exactness e s).
Proof.
  intros f own inner i s HN. unfold function_wrap. generalize (f (input_object i) (info_of own s)). intro p. generalize (st_exactness s). revert s.
  assert (K : forall p s e, exists r e', run_wrap inner s p e = (Some r, e') /\ conversation inner s p e r e').
  { clear p. intros p. induction p as [v|x|v outer k IH]; intros s e.
    - exists (inl v), e. split; [reflexivity|constructor].
    - exists (inr x), e. split; [reflexivity|constructor].
    - cbn [run_wrap]. assert (HH : handed_over s e (handler_state s e)) by (repeat split).
      pose proof (HN (IPy v) (handler_state s e)) as HP.
      destruct (inner (IPy v) (handler_state s e)) as [[w|[es|x| | |]] s'] eqn:E; cbn [to_exception].
      + destruct (IH (inl w) s (st_exactness s')) as (r & e' & R & C). exists r, e'. split; [exact R|]. eapply cv_ok; eauto.
      + destruct (IH (inr (XValidation (map freeze_error (match outer with Some l => map (with_outer l) es | None => es end)))) s (st_exactness s')) as (r & e' & R & C).
        exists r, e'. split; [exact R|]. eapply cv_fail; [exact HH|exact E| |exact C].
        clear. induction es as [|y es IH]; destruct outer as [l|]; cbn [map]; constructor; try exact IH.
        * destruct (with_outer_path l y) as (P & T & I). unfold reported, freeze_error. cbn [le_type le_loc le_input]. rewrite P, T, I. auto.
        * unfold reported, freeze_error. cbn [le_type le_loc le_input]. auto.
      + destruct (IH (inr x) s (st_exactness s')) as (r & e' & R & C). exists r, e'. split; [exact R|]. eapply cv_internal; eauto.
      + destruct (IH (inr schema_error) s (st_exactness s')) as (r & e' & R & C). exists r, e'. split; [exact R|]. eapply cv_omit; eauto.
      + destruct (IH (inr schema_error) s (st_exactness s')) as (r & e' & R & C). exists r, e'. split; [exact R|]. eapply cv_use_default; eauto.
      + contradiction (HP eq_refl). }
  intros s e. destruct (K p s e) as (r & e' & R & C). exists r, e'. split; [exact C|]. rewrite R. destruct r; reflexivity.
Qed.
Print Assumptions C42_wrap_conversation.
Example C42_conversation_ex :
  fst (function_wrap (fun v _ => WCall v (Some (LInt 7)) (fun r => match r with inr (XValidation l) => WCall (PInt (Z.of_nat (length l))) None reraise | _ => WReturn PNone end))
         None (fun j t => match j with IPy (PInt _) => (VOk (input_object j), t) | _ => (val_err EIntType j, t) end) (IPy (PStr [])) ex_state) = VOk (PInt 1).
Proof. reflexivity. Qed.

(** C42: a wrap function may ignore the handler, and whatever it raises is classified
    like for the other kinds of functions. *)
Theorem C42_wrap_result : forall f own inner i s,
  (forall v, f (input_object i) (info_of own s) = WReturn v -> function_wrap f own inner i s = (VOk v, s)) /\
  (forall x, f (input_object i) (info_of own s) = WRaise x -> function_wrap f own inner i s = (VErr (convert_err x i), s)).
Proof.
  intros f own inner i s. unfold function_wrap. assert (E : set_exactness (st_exactness s) s = s) by (destruct s; reflexivity).
  split; intros x ->; cbn [run_wrap]; rewrite E; reflexivity.
Qed.
Print Assumptions C42_wrap_result.

(** C42/C10: the handler does not pass by_alias/by_name on: a transparent wrap changes
    what the wrapped schema accepts. *)
Definition needs_by_name : validator := fun i s =>
  if validate_by_name_or s None then (VOk (input_object i), s) else (val_err EMissing i, s).
Theorem C42_wrap_flags_refuted : exists inner i s v s', inner i s = (VOk v, s') /\
  fst (function_wrap call_through None inner i s) = VErr (LineErrors [new_error EMissing i]).
Proof.
  exists needs_by_name, (IPy PNone),
    (set_extra {| x_input_type := ITPython; x_strict := None; x_from_attributes := None; x_by_alias := None; x_by_name := Some true; x_data := None; x_field_name := None |} ex_state).
  do 2 eexists. split; reflexivity.
Qed.
Print Assumptions C42_wrap_flags_refuted.

(** C42: an omission (or a use of the default) inside a wrap function becomes a
    SchemaError, although the same schema unwrapped just drops the value. *)
Theorem C42_wrap_omit_refuted : exists inner i s, inner i s = (VErr Omit, s) /\
  fst (function_wrap call_through None inner i s) = VErr (InternalErr schema_error).
Proof. exists (fun _ s => (VErr Omit, s)), (IPy PNone), ex_state. split; reflexivity. Qed.
Print Assumptions C42_wrap_omit_refuted.

(** C42/C22: nor does it report the number of fields set. *)
Theorem C42_wrap_count_refuted : exists inner i s v, inner i s = (VOk v, add_fields_set 2 s) /\
  function_wrap call_through None inner i s = (VOk v, s) /\ st_fields_set s = None.
Proof. exists (counting 2 (VOk PNone)), (IPy PNone), ex_state, PNone. repeat split. Qed.
Print Assumptions C42_wrap_count_refuted.

(** C27/C42: on_error="omit" or "default" hides exceptions that are not validation
    errors at all. *)
Theorem C42_on_error_swallows_refuted : exists w i s s', wd_on_error w = OnOmit /\
  wd_inner w i s = (VErr (InternalErr XTypeError), s') /\ wd_validate 1 w i s = Some (VErr Omit, s').
Proof.
  exists {| wd_default_kind := DNone; wd_on_error := OnOmit; wd_inner := fun _ s => (VErr (InternalErr XTypeError), s); wd_validate_default := false |}, (IPy PNone), ex_state, ex_state.
  repeat split.
Qed.
Print Assumptions C42_on_error_swallows_refuted.

Example C42_ex : exists es,
  function_before (fun v _ => match v with PInt z => if Z.ltb z 0 then inr XValueError else inl (PInt (z + 1)) | _ => inr XTypeError end) None ex_int (IJson (JInt 3)) ex_state = (VOk (PInt 4), ex_state) /\
  function_plain (fun v _ => inr XValueError) None (IJson (JInt 3)) ex_state = (VErr (LineErrors es), ex_state) /\
  function_wrap (fun v _ => WCall v None (fun r => match r with inl w => WReturn w | inr _ => WCall (PInt 0) None reraise end)) None ex_int (IJson JNull) ex_state = (VOk (PInt 0), ex_state).
Proof. eexists. repeat split. Qed.
