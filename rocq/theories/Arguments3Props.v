(** C64: arguments of function calls given by one list of parameters. *)
From Coq Require Import List NArith ZArith Bool Lia Arith.
From Verif Require Import Base Float64 Values VState LookupKey LookupKeySpec LookupKeyProofs Collections CollectionsSpec CollectionsProofs Child Inputs ModelFields ModelFieldsSpec ModelFieldsProofs ModelFieldsProps Assign AssignSpec AssignProofs Arguments ArgumentsSpec ArgumentsProofs ArgumentsProps Classes Arguments3 Arguments3Spec Arguments3Proofs Arguments3Build.
Import ListNotations.
Open Scope nat_scope.

(** C64: the parameter lists that are accepted. *)
Theorem C64_signatures : forall ps, build3 ps = true <->
  signature (map ps_mode ps) /\ NoDup (map ps_name ps) /\ Forall (fun p => ps_omit p = false) ps /\ defaults_last ps.
Proof. exact build3_iff. Qed.
Print Assumptions C64_signatures.

(** C64: with an [ArgsKwargs] the result is that of the older kind of schema for the same
    parameters, so C38 applies; the validators must not look at the field name, which is
    set by the older kind only. *)
Theorem C64_argskwargs : forall repr c v args kw vd vt e s,
  as_args_kwargs v = Some (args, kw) -> vd false (IPy v) = VErr e -> signature (map p3_mode (a3_params c)) ->
  Forall (fun p => nameless (p3_cv p) /\ exists k, collection_select (p3_keys p) (validate_by_alias_or s (a3_by_alias c)) (validate_by_name_or s (a3_by_name c)) = BOk k) (plain c) ->
  arguments3_validate repr c vd vt (IPy v) s = arguments_validate (as_v2 c) (validate_args repr) (IPy v) s.
Proof. exact argskwargs_same. Qed.
Print Assumptions C64_argskwargs.

(** The validation of a mapping. *)
Record mapping_call (c : args3_cfg) (vd : bool -> input -> vres mdict) (vt : bool -> input -> vres seq) (i : input) (s : state)
    (md : mdict) (xs : list (input * loc_item * input)) (key_of : param3 -> lookup_key) (vs : list (param3 * mout)) (s1 : state) : Prop := {
  mc_input : vd false i = VOk md;
  mc_dict : md_is_attr md = false;
  mc_entries : md_iter md = VOk (map to_entry xs);
  mc_keys : Forall (fun p => collection_select (p3_keys p) (validate_by_alias_or s (a3_by_alias c)) (validate_by_name_or s (a3_by_name c)) = BOk (key_of p) /\ built_key (key_of p)) (a3_params c);
  mc_trace : mapping_trace vt md key_of (a3_params c) (set_partial PartialOff s) = (vs, s1) }.

(** C64: the result for a mapping. *)
Theorem C64_mapping_result : forall repr c vd vt i s md xs key_of vs s1, mapping_call c vd vt i s md xs key_of vs s1 ->
  (Forall (fun po => mout_regular (snd po)) vs -> arguments3_validate repr c vd vt i s = (mapping_result repr c i key_of vs xs, s1)) /\
  (~ Forall (fun po => mout_regular (snd po)) vs -> exists e s', arguments3_validate repr c vd vt i s = (VErr e, s')).
Proof.
  intros repr c vd vt i s md xs key_of vs s1 [H1 H2 H3 H4 H5]. unfold arguments3_validate. rewrite H1. unfold from_mapping.
  change (validate_by_alias_or (set_partial PartialOff s) ?x) with (validate_by_alias_or s x). change (validate_by_name_or (set_partial PartialOff s) ?x) with (validate_by_name_or s x).
  destruct (mapping_loop_run repr c vt md i (validate_by_alias_or s (a3_by_alias c)) (validate_by_name_or s (a3_by_name c)) key_of (a3_params c) aa_init (set_partial PartialOff s) vs s1 H4 H5) as [L1 L2]. split.
  - intros R. rewrite (L1 R). rewrite H2, H3. unfold mapping_result, mapping_errors.
    assert (U : forall k, mem_str k (aa_used (after3 repr c i key_of aa_init vs)) = mem_str k (flat_map (fun po => mout_key (snd po)) vs)).
    { intros k. unfold after3. cbn [aa_used aa_init]. apply use_keys_mem. }
    assert (F : forall a, args_finish a s1 = (match aa_errors a with [] => VOk (PTuple [PTuple (aa_args a); PDict (aa_kwargs a)]) | es => VErr (LineErrors es) end, s1)).
    { intros a. unfold args_finish. destruct (aa_errors a); reflexivity. }
    assert (G : forall f, extra3 f (map to_entry xs) (after3 repr c i key_of aa_init vs) =
      VOk {| aa_args := flat_map mout_args vs; aa_kwargs := dict_update (flat_map mout_kwargs vs) []; aa_errors := flat_map (mout_errors repr (a3_loc_by_alias c) i key_of) vs ++
        flat_map (surplus_key_errors f (flat_map (fun po => mout_key (snd po)) vs)) xs; aa_used := aa_used (after3 repr c i key_of aa_init vs) |}).
    { intros f. rewrite extra3_run. f_equal. unfold after3. cbn [aa_args aa_kwargs aa_errors aa_used aa_init app]. f_equal. f_equal. apply flat_map_ext. intros e.
      unfold surplus_key_errors. destruct (key_str _); [|reflexivity]. rewrite <- U. reflexivity. }
    destruct (a3_extra c).
    + rewrite G, F. cbn [aa_errors aa_args aa_kwargs]. reflexivity.
    + rewrite G, F. cbn [aa_errors aa_args aa_kwargs]. reflexivity.
    + rewrite F. unfold after3. cbn [aa_errors aa_args aa_kwargs aa_init app]. rewrite app_nil_r. reflexivity.
  - intros R. destruct (L2 R) as (e & s' & ->). eauto.
Qed.
Print Assumptions C64_mapping_result.

(** ** Binding *)
Definition fits (po : param3 * mout) : Prop :=
  match snd po with
  | MLost _ => True
  | MOne _ _ | MNone _ => is_variadic (p3_mode (fst po)) = false
  | MMany _ _ _ => p3_mode (fst po) = MVarArgs
  | MKeys _ _ _ => p3_mode (fst po) = MVarKwargs
  | MDict _ _ => p3_mode (fst po) = MUnpacked
  | MSkip => p3_mode (fst po) = MVarArgs \/ p3_mode (fst po) = MVarKwargs
  end.
(** No outcome reports an empty list of errors. *)
Definition full {A} (r : vres A) : Prop := r <> VErr (LineErrors []).
Definition mout_full (o : mout) : Prop :=
  match o with
  | MOne _ r | MDict _ r => full r
  | MMany _ _ (Some rs) => Forall full rs
  | MKeys _ _ (Some rs) => Forall (fun kr => match snd kr with Some r => full r | None => True end) rs
  | _ => True
  end.
Lemma full_of v x s : nonempty_errors v -> full (fst (v x s)).
Proof. intros N E. destruct (v x s) as [r s'] eqn:V. cbn in E. subst r. exact (N _ _ _ _ V eq_refl). Qed.
Lemma many_full v xs : nonempty_errors v -> forall s, Forall full (fst (many_trace v xs s)).
Proof.
  intros N. induction xs as [|[x|e] xs IH]; intros s; cbn [many_trace]; [constructor| |].
  - pose proof (full_of v x s N) as F. destruct (v x s) as [r s1]. specialize (IH s1). destruct (many_trace v xs s1). constructor; assumption.
  - specialize (IH s). destruct (many_trace v xs s). constructor; [discriminate|assumption].
Qed.
Lemma entries_full v d : nonempty_errors v -> forall s, Forall (fun kr => match snd kr with Some r => full r | None => True end) (fst (entries_trace v d s)).
Proof.
  intros N. induction d as [|[k x] d IH]; intros s; cbn [entries_trace]; [constructor|]. destruct (as_str k).
  - pose proof (full_of v (IPy x) s N) as F. destruct (v (IPy x) s) as [r s1]. specialize (IH s1). destruct (entries_trace v d s1). constructor; assumption.
  - specialize (IH s). destruct (entries_trace v d s). constructor; [exact I|assumption].
Qed.
Lemma look_fits vt p f s o s' : nonempty_errors (cv_validate (p3_cv p)) -> look3 vt p f s = (o, s') -> fits (p, o) /\ mout_full o.
Proof.
  intros N L. unfold look3 in L. unfold fits. cbn [fst snd].
  destruct f as [[[path x]|]|e]; [destruct (p3_mode p) eqn:M..|injection L as <- <-; split; exact I].
  all: try (pose proof (full_of _ x s N) as F; destruct (cv_validate (p3_cv p) x s) as [r s1]; injection L as <- <-; split; [reflexivity|exact F]).
  all: try (destruct (cv_default (p3_cv p) _ s) as [r s1]; injection L as <- <-; split; [reflexivity|exact I]).
  - destruct (vt false x) as [sq|e]; [|injection L as <- <-; split; [reflexivity|exact I]].
    pose proof (many_full _ (sq_items sq) N (floor_exactness (sq_exactness sq) s)) as F. destruct (many_trace _ _ _) as [rs s1]. injection L as <- <-. split; [reflexivity|exact F].
  - destruct (as_kwargs x) as [d|]; [|injection L as <- <-; split; [reflexivity|exact I]].
    pose proof (entries_full _ d N s) as F. destruct (entries_trace _ _ _) as [rs s1]. injection L as <- <-. split; [reflexivity|exact F].
  - injection L as <- <-. split; [left; reflexivity|exact I].
  - injection L as <- <-. split; [right; reflexivity|exact I].
  - pose proof (full_of _ (IPy (PDict [])) s N) as F. destruct (cv_validate (p3_cv p) _ s) as [r s1]; injection L as <- <-; split; [reflexivity|exact F].
Qed.
Lemma trace_fits vt md key_of ps : Forall (fun p => nonempty_errors (cv_validate (p3_cv p))) ps -> forall s vs s', mapping_trace vt md key_of ps s = (vs, s') ->
  map fst vs = ps /\ Forall fits vs /\ Forall (fun po => mout_full (snd po)) vs.
Proof.
  induction ps as [|p ps IH]; intros N s vs s' T; cbn [mapping_trace] in T; [injection T as <- <-; repeat constructor|].
  destruct (look3 vt p _ s) as [o s1] eqn:L. destruct (mapping_trace vt md key_of ps s1) as [os s2] eqn:T2. injection T as <- <-. inversion N; subst.
  destruct (IH ltac:(assumption) _ _ _ T2) as (E & F1 & F2). destruct (look_fits _ _ _ _ _ _ ltac:(eassumption) L) as [G1 G2]. cbn [map fst]. rewrite E. repeat split; constructor; assumption.
Qed.
Lemma result_none loc r : line_or_ok r -> full r -> result_errors loc r = [] -> accepted r.
Proof. destruct r as [v|[[|e es]| | | |]]; intros L F E; try exact L; [exact (F eq_refl)|discriminate E]. Qed.
Lemma many_none loc rs : forall k, Forall line_or_ok rs -> Forall full rs -> many_errors loc k rs = [] -> Forall accepted rs.
Proof.
  induction rs as [|r rs IH]; intros k R F E; [constructor|]. inversion R; inversion F; subst. cbn in E. apply app_eq_nil in E. destruct E as [E1 E2].
  constructor; [eapply result_none; eassumption|eapply IH; eassumption].
Qed.
Lemma no_error_delivered repr lba i key_of po : built_key (key_of (fst po)) -> mout_regular (snd po) -> mout_full (snd po) -> mout_errors repr lba i key_of po = [] -> delivered po.
Proof.
  destruct po as [p o]. cbn [fst snd]. intros B R F E. unfold delivered. cbn [snd].
  destruct o as [e|path r|path x [rs|]|path x [rs|]|path r|[[v|]|e]|]; cbn [mout_regular mout_full mout_errors] in *; try contradiction; try exact I; try discriminate E.
  - eapply result_none; eassumption.
  - eapply many_none; eassumption.
  - clear B. induction rs as [|[k [r|]] rs IH]; [constructor| |]; cbn [flat_map snd fst] in E; [|discriminate E]. apply app_eq_nil in E. destruct E as [E1 E2].
    inversion R; inversion F; subst. constructor; [eapply result_none; eassumption|apply IH; assumption].
  - destruct r as [w|[[|e es]| | | |]]; try contradiction; [exact R|]. destruct path; discriminate E.
  - destruct (key_error_at (key_of p) (match p3_mode p with MPosOnly => EMissingPositionalOnly | MPosOrKw => EMissingArgument | _ => EMissingKeywordOnly end) i lba (p3_name p) B) as (e & _ & E2). rewrite <- E2 in E. discriminate E.
Qed.
Lemma delivered_value po : fits po -> delivered po -> is_variadic (p3_mode (fst po)) = false -> exists v, mout_value (snd po) = Some v.
Proof.
  destruct po as [p o]. unfold fits, delivered. cbn [fst snd]. destruct o as [e|path r|path x [rs|]|path x [rs|]|path r|[[v|]|e]|]; intros F D V; try contradiction; try (rewrite F in V; discriminate V).
  - destruct r; [eexists; reflexivity|contradiction].
  - eexists. reflexivity.
  - destruct F as [F|F]; rewrite F in V; discriminate V.
Qed.
Definition is_plain (po : param3 * mout) : bool := negb (is_variadic (p3_mode (fst po))).
Definition named (vs : list (param3 * mout)) : list (str * pyval) :=
  flat_map (fun po => if positional3 (p3_mode (fst po)) then [] else match mout_value (snd po) with Some v => [(p3_name (fst po), v)] | None => [] end) vs.
Lemma plain_args po v : is_variadic (p3_mode (fst po)) = false -> mout_value (snd po) = Some v ->
  mout_args po = (if positional3 (p3_mode (fst po)) then [v] else []) /\
  mout_kwargs po = (if positional3 (p3_mode (fst po)) then [] else [(PStr (p3_name (fst po)), v)]).
Proof.
  unfold mout_args, mout_kwargs. destruct po as [p o]. cbn [fst snd]. intros V E. destruct o as [e|path r|path x rs|path x rs|path r|r|]; try discriminate E; rewrite E; auto.
Qed.
Lemma sig_tail (vs : list (param3 * mout)) po : signature (map (fun po => p3_mode (fst po)) (po :: vs)) ->
  signature (map (fun po => p3_mode (fst po)) vs) /\ Forall (fun q => compat (p3_mode (fst po)) (p3_mode (fst q))) vs.
Proof. cbn [map]. intros Sg. apply signature_cons in Sg. destruct Sg as [F Sg]. rewrite Forall_map in F. auto. Qed.
Lemma nth_args vs : signature (map (fun po => p3_mode (fst po)) vs) -> Forall fits vs -> Forall delivered vs -> forall k po,
  nth_error (filter is_plain vs) k = Some po -> positional3 (p3_mode (fst po)) = true -> nth_error (flat_map mout_args vs) k = mout_value (snd po).
Proof.
  induction vs as [|q vs IH]; intros Sg F D k po N P; [destruct k; discriminate N|]. apply sig_tail in Sg. destruct Sg as [Sg C]. inversion F; inversion D; subst. cbn [filter flat_map] in *.
  destruct (positional3 (p3_mode (fst q))) eqn:Q.
  - assert (V : is_variadic (p3_mode (fst q)) = false) by (destruct (p3_mode (fst q)); try discriminate Q; reflexivity).
    destruct (delivered_value q) as (v & E); [assumption..|]. destruct (plain_args q v V E) as [-> _]. rewrite Q. unfold is_plain at 1 in N. rewrite V in N. cbn [negb] in N.
    destruct k as [|k]; [injection N as <-; rewrite E; reflexivity|]. cbn [nth_error app] in *. apply IH; assumption.
  - exfalso. assert (I : In po (filter is_plain vs) \/ po = q).
    { unfold is_plain at 1 in N. destruct (negb _); [|left; eapply nth_error_In; exact N]. destruct k; [injection N as <-; right; reflexivity|left; eapply nth_error_In; exact N]. }
    destruct I as [I| ->]; [|congruence]. apply filter_In in I. rewrite Forall_forall in C. specialize (C po (proj1 I)). unfold compat in C.
    destruct (p3_mode (fst q)), (p3_mode (fst po)); try discriminate Q; try discriminate P; cbn in C; lia.
Qed.
Lemma rest3 vs : signature (map (fun po => p3_mode (fst po)) vs) -> Forall fits vs -> Forall delivered vs ->
  skipn (length (filter (fun po => positional3 (p3_mode (fst po))) vs)) (flat_map mout_args vs) = many_given vs.
Proof.
  induction vs as [|q vs IH]; intros Sg F D; [reflexivity|]. apply sig_tail in Sg. destruct Sg as [Sg C]. inversion F as [|? ? Fq F']; inversion D as [|? ? Dq D']; subst. specialize (IH Sg F' D'). cbn [filter flat_map many_given].
  fold (many_given vs). destruct (positional3 (p3_mode (fst q))) eqn:Q.
  - assert (V : is_variadic (p3_mode (fst q)) = false) by (destruct (p3_mode (fst q)); try discriminate Q; reflexivity).
    destruct (delivered_value q Fq Dq V) as (v & E). destruct (plain_args q v V E) as [-> _]. rewrite Q. cbn [length skipn app]. rewrite IH.
    destruct q as [p o]; cbn [snd fst] in *. destruct o; try discriminate E; reflexivity.
  - assert (Z : filter (fun po => positional3 (p3_mode (fst po))) vs = []).
    { clear - C Q. induction vs as [|x vs IH]; [reflexivity|]. inversion C as [|? ? Cx C']; subst. cbn. destruct (positional3 (p3_mode (fst x))) eqn:X; [|apply IH; exact C'].
      exfalso. unfold compat in Cx. destruct (p3_mode (fst q)), (p3_mode (fst x)); try discriminate; cbn in Cx; lia. }
    rewrite Z in *. cbn [length skipn] in *. rewrite IH. f_equal. unfold mout_args. destruct q as [p o]; cbn [fst snd] in *. rewrite Q. destruct o as [| | ? ? [|]| | | |]; reflexivity.
Qed.
Lemma kwargs_split vs : signature (map (fun po => p3_mode (fst po)) vs) -> Forall fits vs -> Forall delivered vs ->
  flat_map mout_kwargs vs = map (fun nv => (PStr (fst nv), snd nv)) (named vs) ++ extra_given vs.
Proof.
  induction vs as [|q vs IH]; intros Sg F D; [reflexivity|]. apply sig_tail in Sg. destruct Sg as [Sg C]. inversion F as [|? ? Fq F']; inversion D as [|? ? Dq D']; subst. specialize (IH Sg F' D').
  cbn [flat_map named extra_given]. fold (named vs). fold (extra_given vs). rewrite map_app. destruct (is_variadic (p3_mode (fst q))) eqn:V.
  - assert (VS : is_var_kwargs (p3_mode (fst q)) = true -> vs = []).
    { intros K. destruct vs as [|x vs]; [reflexivity|]. exfalso. inversion C as [|? ? Cx _]; subst. unfold compat in Cx. destruct (p3_mode (fst q)), (p3_mode (fst x)); try discriminate; cbn in Cx; lia. }
    unfold mout_kwargs at 1. destruct q as [p o]; cbn [fst snd] in *. unfold fits in Fq. cbn [fst snd] in Fq. unfold delivered in Dq. cbn [snd] in Dq.
    destruct o as [e|path r|path x [rs|]|path x [rs|]|path [w|e]|r|]; try contradiction; try (rewrite Fq in V; discriminate V); try (rewrite Fq in VS; rewrite (VS eq_refl); rewrite Fq; cbn; rewrite ?app_nil_r; reflexivity).
    + rewrite Fq. cbn [positional3 mout_value app map]. exact IH.
    + destruct Fq as [Fq|Fq]; rewrite Fq; cbn [positional3 mout_value app map]; exact IH.
  - destruct (delivered_value q Fq Dq V) as (v & E). destruct (plain_args q v V E) as [_ ->]. rewrite E.
    assert (X : (match snd q with MKeys _ _ (Some rs) => flat_map (fun kr => match snd kr with Some (VOk v) => [(fst kr, v)] | _ => [] end) rs
                | MDict _ (VOk w) => match as_dict w with Some d => d | None => [] end | _ => [] end) = ([] : pydict)) by (destruct (snd q); try discriminate E; reflexivity).
    rewrite X. destruct (positional3 _); cbn [app map fst snd]; rewrite IH; reflexivity.
Qed.
Lemma update_named l d : dict_update (map (fun nv : str * pyval => (PStr (fst nv), snd nv)) l) d = puts d l.
Proof. unfold dict_update, puts. revert d. induction l as [|[n v] l IH]; intros d; [reflexivity|]. cbn. apply IH. Qed.
Lemma filter_map_fst (f : param3 -> bool) (vs : list (param3 * mout)) : filter f (map fst vs) = map fst (filter (fun po => f (fst po)) vs).
Proof. induction vs as [|x vs IH]; [reflexivity|]. cbn. destruct (f (fst x)); cbn; rewrite IH; reflexivity. Qed.

(** C64: after a successful validation of a mapping everything given was accepted, and
    calling the function with the result binds every parameter exactly once, to the
    value given under its name or its default; *args and **kwargs receive what was given
    for them.  The entries given for **kwargs must not have the name of a parameter. *)
Theorem C64_mapping_binds : forall repr c vd vt i s md xs key_of vs s1 args kwargs s', mapping_call c vd vt i s md xs key_of vs s1 ->
  signature (map p3_mode (a3_params c)) -> NoDup (map p3_name (a3_params c)) -> Forall (fun p => nonempty_errors (cv_validate (p3_cv p))) (a3_params c) ->
  arguments3_validate repr c vd vt i s = (VOk (PTuple [PTuple args; PDict kwargs]), s') ->
  Forall delivered vs /\
  skipn (positional_count3 c) args = many_given vs /\
  (keyed (extra_given vs) -> (forall p, In p (plain c) -> by_keyword3 (p3_mode p) = true -> dict_get (PStr (p3_name p)) (extra_given vs) = None) ->
   (forall k p, nth_error (plain c) k = Some p -> exists o v, In (p, o) vs /\ mout_value o = Some v /\ python_binds (ac_params (as_v2 c)) args kwargs k = Bound v) /\
   (forall n, (forall p, In p (plain c) -> p3_mode p = MKwOnly -> p3_name p <> n) -> dict_get (PStr n) kwargs = dict_get (PStr n) (extra_given vs))).
Proof.
  intros repr c vd vt i s md xs key_of vs s1 args kwargs s' R Sg Nd Ne H.
  pose proof (C64_mapping_result repr _ _ _ _ _ _ _ _ _ _ R) as [E1 E2]. destruct R as [H1 H2 H3 H4 H5].
  assert (Reg : Forall (fun po => mout_regular (snd po)) vs).
  { destruct (forall_dec vs (fun po => mout_regular (snd po)) (fun po => mout_regular_dec (snd po))) as [D|D]; [exact D|]. destruct (E2 D) as (e & s0 & E). congruence. }
  rewrite (E1 Reg) in H. clear E1 E2. unfold mapping_result, mapping_errors in H.
  destruct (flat_map (mout_errors repr (a3_loc_by_alias c) i key_of) vs ++ _) eqn:Er; [|discriminate H]. injection H as <- <- <-.
  apply app_eq_nil in Er. destruct Er as [Er _].
  destruct (trace_fits vt md key_of _ Ne _ _ _ H5) as (Ps & Fi & Fu).
  assert (D : Forall delivered vs).
  { rewrite Forall_forall in *. intros po I. apply (no_error_delivered repr (a3_loc_by_alias c) i key_of).
    - apply H4. rewrite <- Ps. apply in_map. exact I.
    - apply Reg, I.
    - apply Fu, I.
    - destruct (mout_errors repr (a3_loc_by_alias c) i key_of po) as [|e es] eqn:Eo; [reflexivity|]. exfalso.
      assert (X : In e (flat_map (mout_errors repr (a3_loc_by_alias c) i key_of) vs)) by (apply in_flat_map; exists po; rewrite Eo; cbn; auto). rewrite Er in X. destruct X. }
  assert (Sg' : signature (map (fun po => p3_mode (fst po)) vs)) by (rewrite <- map_map, Ps; exact Sg).
  split; [exact D|]. split.
  { rewrite <- (rest3 vs Sg' Fi D). unfold positional_count3. rewrite <- Ps, filter_map_fst, map_length. reflexivity. }
  intros Kx Fr. rewrite (kwargs_split vs Sg' Fi D), update_app, update_named.
  assert (Kn : keyed (puts [] (named vs))) by (apply keyed_puts, keyed_nil).
  assert (Names : map fst (named vs) = map (fun po => p3_name (fst po)) (filter (fun po => match p3_mode (fst po) with MKwOnly => true | _ => false end) vs)).
  { clear - Fi D. induction vs as [|q vs IH]; [reflexivity|]. inversion Fi as [|? ? Fq F']; inversion D as [|? ? Dq D']; subst. cbn [named flat_map filter]. fold (named vs). rewrite map_app, IH by assumption. clear IH.
    destruct (is_variadic (p3_mode (fst q))) eqn:V.
    - assert (mout_value (snd q) = None) by (unfold fits in Fq; destruct (snd q) as [e|path r|path x rs|path x rs|path r|r|]; try reflexivity; congruence). rewrite H.
      destruct (p3_mode (fst q)); try discriminate V; reflexivity.
    - destruct (delivered_value q Fq Dq V) as (v & E). rewrite E. destruct (p3_mode (fst q)); try discriminate V; reflexivity. }
  assert (NdN : NoDup (map fst (named vs))).
  { rewrite Names. rewrite <- Ps, map_map in Nd. clear - Nd. induction vs as [|q vs IH]; [constructor|]. cbn [map] in Nd. inversion Nd; subst. cbn [filter]. destruct (match p3_mode (fst q) with MKwOnly => true | _ => false end); [|auto].
    cbn [map]. constructor; [|auto]. intros I. apply H1. apply in_map_iff in I. destruct I as (x & <- & I). apply filter_In in I. apply in_map_iff. exists x. tauto. }
  set (kw := dict_update (extra_given vs) (puts [] (named vs))).
  assert (Get : forall n, dict_get (PStr n) kw = match dict_get (PStr n) (extra_given vs) with Some v => Some v | None => dict_get (PStr n) (puts [] (named vs)) end).
  { intros n. unfold kw. rewrite dict_get_update by assumption. reflexivity. }
  assert (NotNamed : forall n, (forall p, In p (plain c) -> p3_mode p = MKwOnly -> p3_name p <> n) -> dict_get (PStr n) (puts [] (named vs)) = None).
  { intros n Hn. rewrite puts_other; [reflexivity|apply keyed_nil|]. rewrite Names. intros I. apply in_map_iff in I. destruct I as ([p o] & En & I). apply filter_In in I. destruct I as [I M]. cbn [fst] in *.
    apply (Hn p).
    - unfold plain. apply filter_In. split; [rewrite <- Ps; apply (in_map fst) in I; exact I|]. destruct (p3_mode p); try discriminate M; reflexivity.
    - destruct (p3_mode p); try discriminate M; reflexivity.
    - exact En. }
  split.
  - intros k p N. unfold plain in N. rewrite <- Ps, filter_map_fst, nth_error_map in N.
    destruct (nth_error (filter (fun po => negb (is_variadic (p3_mode (fst po)))) vs) k) as [[p' o]|] eqn:Nk; [|discriminate N]. cbn in N. injection N as ->.
    pose proof (nth_error_In _ _ Nk) as Ik. apply filter_In in Ik. destruct Ik as [Ik Pk]. cbn [fst] in Pk. apply negb_true_iff in Pk.
    rewrite Forall_forall in Fi, D. destruct (delivered_value (p, o) (Fi _ Ik) (D _ Ik) Pk) as (v & E). cbn [snd] in E. exists o, v. split; [exact Ik|]. split; [exact E|].
    rewrite <- Forall_forall in Fi, D. unfold python_binds. cbn [as_v2 ac_params]. rewrite nth_error_map.
    assert (Np : nth_error (plain c) k = Some p). { unfold plain. rewrite <- Ps, filter_map_fst, nth_error_map. unfold is_plain in Nk. rewrite Nk. reflexivity. }
    rewrite Np. cbn [option_map param_v2 pa_mode pa_name].
    pose proof (Fr p (nth_error_In _ _ Np)) as Frp.
    destruct (p3_mode p) eqn:M; try discriminate Pk; cbn [mode_v2 positional by_keyword].
    + rewrite (nth_args vs Sg' Fi D k (p, o) Nk); [|cbn [fst]; rewrite M; reflexivity]. cbn [snd]. rewrite E. reflexivity.
    + rewrite (nth_args vs Sg' Fi D k (p, o) Nk); [|cbn [fst]; rewrite M; reflexivity]. cbn [snd]. rewrite E.
      rewrite Get, Frp, NotNamed; [reflexivity| |reflexivity]. intros q Iq Mq En. apply nth_error_In in Np.
      assert (q = p); [|subst; congruence]. apply filter_In in Iq, Np. destruct Iq as [Iq _], Np as [Np _]. clear - Nd Iq Np En.
      induction (a3_params c) as [|x l IH]; [destruct Iq|]. cbn [map] in Nd. inversion Nd; subst. destruct Iq as [->|Iq], Np as [->|Np]; auto.
      * exfalso. apply H1. rewrite En. apply in_map. exact Np.
      * exfalso. apply H1. rewrite <- En. apply in_map. exact Iq.
    + rewrite Get, Frp by reflexivity. rewrite (puts_in (named vs) [] (p3_name p) v); [reflexivity|apply keyed_nil|exact NdN|].
      unfold named. apply in_flat_map. exists (p, o). split; [exact Ik|]. cbn [fst snd]. rewrite M, E. cbn. auto.
  - intros n Hn. rewrite Get, NotNamed by exact Hn. destruct (dict_get _ _); reflexivity.
Qed.
Print Assumptions C64_mapping_binds.

(** ** Examples and counterexamples *)
Definition ex_p3 (n : str) (m : pmode3) (d : option pyval) : param3 := {| p3_name := n; p3_mode := m; p3_keys := ex_keys n None; p3_cv := ex_default d |}.
Definition ex_call3 (ps : list param3) (e : extra_behavior) : args3_cfg :=
  {| a3_params := ps; a3_extra := e; a3_loc_by_alias := true; a3_by_alias := None; a3_by_name := None |}.
Definition run_call3 (ps : list param3) (i : input) : vres pyval := fst (arguments3_validate ex_repr (ex_call3 ps ExtraForbid) (validate_dict ex_repr) validate_tuple i ex_state).
Definition ex_ps3 : list param3 := [ex_p3 (lit "a") MPosOnly None; ex_p3 (lit "b") MPosOrKw (Some (PInt 7)); ex_p3 (lit "args") MVarArgs None; ex_p3 (lit "c") MKwOnly None; ex_p3 (lit "kwargs") MVarKwargs None].
Definition ex_schema3 (p : param3) (d : bool) : param_schema := {| ps_name := p3_name p; ps_mode := p3_mode p; ps_default := d; ps_omit := false |}.

Ltac sig := cbn [signature map p3_mode ps_mode ex_p3 ex_schema3 ex_ps3]; repeat first [apply Forall_cons|apply Forall_nil|exact I|cbn [rank3]; lia|split]; cbn [rank3] in *; lia.

Example C64_nonvacuous :
  (exists md xs key_of vs s1, mapping_call (ex_call3 ex_ps3 ExtraForbid) (validate_dict ex_repr) validate_tuple
      (IPy (PDict [(PStr (lit "c"), PInt 3); (PStr (lit "a"), PInt 1); (PStr (lit "args"), PList [PInt 8; PInt 9]); (PStr (lit "kwargs"), PDict [(PStr (lit "z"), PInt 4)])])) ex_state md xs key_of vs s1 /\
    run_call3 ex_ps3 (IPy (PDict [(PStr (lit "c"), PInt 3); (PStr (lit "a"), PInt 1); (PStr (lit "args"), PList [PInt 8; PInt 9]); (PStr (lit "kwargs"), PDict [(PStr (lit "z"), PInt 4)])])) =
      VOk (PTuple [PTuple [PInt 1; PInt 7; PInt 8; PInt 9]; PDict [(PStr (lit "c"), PInt 3); (PStr (lit "z"), PInt 4)]])) /\
  (exists i, run_call3 ex_ps3 (IPy (PDict [(PStr (lit "b"), PNone); (PStr (lit "args"), PList [PInt 8; PNone]); (PStr (lit "kwargs"), PDict [(PInt 5, PInt 4)]); (PStr (lit "y"), PInt 0)])) =
      VErr (LineErrors [error_at EMissingPositionalOnly i [LStr (lit "a")]; error_at EIntType (IPy PNone) [LStr (lit "b")]; error_at EIntType (IPy PNone) [LStr (lit "args"); LInt 1];
                        error_at EMissingKeywordOnly i [LStr (lit "c")]; error_at EInvalidKey (IPy (PInt 5)) [LStr (lit "kwargs"); LInt 5];
                        error_at EExtraForbidden (IPy (PInt 0)) [LStr (lit "y")]])) /\
  signature (map p3_mode ex_ps3) /\ NoDup (map p3_name ex_ps3) /\ Forall (fun p => nameless (p3_cv p)) ex_ps3 /\
  build3 [ex_schema3 (ex_p3 (lit "a") MPosOnly None) false; ex_schema3 (ex_p3 (lit "args") MVarArgs None) false; ex_schema3 (ex_p3 (lit "c") MKwOnly None) true; ex_schema3 (ex_p3 (lit "kwargs") MVarKwargs None) false] = true /\
  run_call3 ex_ps3 (IPy (args_kwargs [PInt 1; PInt 2; PInt 5] [(PStr (lit "c"), PInt 3)])) = VOk (PTuple [PTuple [PInt 1; PInt 2; PInt 5]; PDict [(PStr (lit "c"), PInt 3)]]).
Proof.
  split; [|split; [|split; [|split; [|split; [|split]]]]].
  - eexists _, (map (fun kv => (IPy (fst kv), LStr (match fst kv with PStr n => n | _ => [] end), IPy (snd kv))) [(PStr (lit "c"), PInt 3); (PStr (lit "a"), PInt 1); (PStr (lit "args"), PList [PInt 8; PInt 9]); (PStr (lit "kwargs"), PDict [(PStr (lit "z"), PInt 4)])]),
      (fun p => Simple (path_from_str (p3_name p))), _, _. split; [|reflexivity]. split; [reflexivity|reflexivity|reflexivity| |reflexivity].
    repeat constructor.
  - eexists. reflexivity.
  - sig.
  - repeat constructor; cbn; intuition discriminate.
  - assert (G : forall d, nameless (ex_default d)).
    { intros d n s. split; [intros x|intros l]; unfold rebind; destruct s as [? ? ? []]; cbn; [|reflexivity]. unfold ex_int. destruct (input_object x); reflexivity. }
    repeat (apply Forall_cons; [apply G|]). apply Forall_nil.
  - reflexivity.
  - reflexivity.
Qed.

(** An entry of **kwargs takes the place of the validated value of a keyword-only
    parameter. *)
Theorem C64_kwargs_overwrite_refuted : exists ps i,
  signature (map p3_mode ps) /\ NoDup (map p3_name ps) /\
  i = IPy (PDict [(PStr (lit "b"), PInt 1); (PStr (lit "kwargs"), PDict [(PStr (lit "b"), PInt 2)])]) /\
  run_call3 ps i = VOk (PTuple [PTuple []; PDict [(PStr (lit "b"), PInt 2)]]).
Proof.
  exists [ex_p3 (lit "b") MKwOnly None; ex_p3 (lit "kwargs") MVarKwargs None]. eexists. split; [|split; [|split; [reflexivity|reflexivity]]].
  - sig.
  - repeat constructor; cbn; intuition discriminate.
Qed.
Print Assumptions C64_kwargs_overwrite_refuted.
(** An entry of **kwargs named like a positional-or-keyword parameter: the call raises a
    TypeError since the parameter is given twice. *)
Theorem C64_bound_twice_refuted : exists ps i args kwargs,
  signature (map p3_mode ps) /\ NoDup (map p3_name ps) /\
  run_call3 ps i = VOk (PTuple [PTuple args; PDict kwargs]) /\ python_binds (ac_params (as_v2 (ex_call3 ps ExtraForbid))) args kwargs 0 = BoundTwice.
Proof.
  exists [ex_p3 (lit "a") MPosOrKw None; ex_p3 (lit "kwargs") MVarKwargs None], (IPy (PDict [(PStr (lit "a"), PInt 1); (PStr (lit "kwargs"), PDict [(PStr (lit "a"), PInt 2)])])).
  eexists _, _. split; [|split; [|split; [reflexivity|reflexivity]]].
  - sig.
  - repeat constructor; cbn; intuition discriminate.
Qed.
Print Assumptions C64_bound_twice_refuted.
(** An iterable given for *args whose iteration raises: a panic, not an error. *)
Theorem C64_iterator_panic_refuted : exists ps vt i,
  build3 (map (fun p => ex_schema3 p false) ps) = true /\ fst (arguments3_validate ex_repr (ex_call3 ps ExtraForbid) (validate_dict ex_repr) vt i ex_state) = VErr Panic.
Proof.
  exists [ex_p3 (lit "args") MVarArgs None], (fun _ _ => VOk {| sq_items := [Raise (XOther 0%N)]; sq_len := None; sq_exactness := Lax; sq_py_list := false |}), (IPy (PDict [(PStr (lit "args"), PNone)])).
  split; reflexivity.
Qed.
Print Assumptions C64_iterator_panic_refuted.
(** A typed dict for **kwargs whose validator returns no dict: a panic. *)
Theorem C64_unpacked_panic_refuted : exists ps i,
  build3 (map (fun p => ex_schema3 p false) ps) = true /\ run_call3 ps i = VErr Panic.
Proof.
  exists [{| p3_name := lit "kwargs"; p3_mode := MUnpacked; p3_keys := ex_keys (lit "kwargs") None; p3_cv := no_default (fun i s => (VOk PNone, s)) |}], (IPy (PDict [])).
  split; reflexivity.
Qed.
Print Assumptions C64_unpacked_panic_refuted.
(** [def f(a=1, *args)] and [def f(a=1, **kwargs)] are Python functions, but their
    parameter lists are refused. *)
Theorem C64_default_then_variadic_refuted : exists ps qs,
  Forall (fun l => signature (map ps_mode l) /\ NoDup (map ps_name l) /\ Forall (fun p => ps_omit p = false) l /\
    (forall before p after q, l = before ++ p :: after -> In q before -> ps_default q = true -> positional3 (ps_mode p) = true -> ps_default p = true) /\ build3 l = false) [ps; qs] /\
  map ps_mode ps = [MPosOrKw; MVarArgs] /\ map ps_mode qs = [MPosOrKw; MVarKwargs].
Proof.
  exists [ex_schema3 (ex_p3 (lit "a") MPosOrKw None) true; ex_schema3 (ex_p3 (lit "args") MVarArgs None) false],
         [ex_schema3 (ex_p3 (lit "a") MPosOrKw None) true; ex_schema3 (ex_p3 (lit "kwargs") MVarKwargs None) false].
  split; [|split; reflexivity]. apply Forall_cons; [|apply Forall_cons; [|apply Forall_nil]]; (split; [sig|]); (split; [repeat constructor; cbn; intuition discriminate|]); (split; [repeat constructor|]); (split; [|reflexivity]);
  intros before p after q E I D P; (destruct before as [|? [|? [|? ?]]]; cbn in E; [destruct I|injection E as <- <- <-; discriminate P|discriminate E..]).
Qed.
Print Assumptions C64_default_then_variadic_refuted.
(** In JSON the entries of **kwargs are validated as Python values: a strict set accepts a
    JSON array as a parameter but not in **kwargs. *)
Theorem C64_json_kwargs_refuted : exists v j,
  let p n m := {| p3_name := n; p3_mode := m; p3_keys := ex_keys n None; p3_cv := no_default v |} in
  (exists r, run_call3 [p (lit "k") MKwOnly] (IJson (JObj [(lit "k", j)])) = VOk r) /\
  (exists e, run_call3 [p (lit "kwargs") MVarKwargs] (IJson (JObj [(lit "kwargs", JObj [(lit "k", j)])])) = VErr e) /\
  (exists r, fst (v (IJson j) ex_state) = VOk r).
Proof.
  exists (fun i s => match validate_set true i with VOk _ => (VOk (PSet []), s) | VErr e => (VErr e, s) end), (JArr []).
  split; [|split]; eexists; reflexivity.
Qed.
Print Assumptions C64_json_kwargs_refuted.
