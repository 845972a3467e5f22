(** C38, C39: arguments of function calls and of dataclasses. *)
From Coq Require Import List NArith ZArith Bool Lia Arith.
From Verif Require Import Base Float64 Values VState LookupKey LookupKeySpec LookupKeyProofs Collections CollectionsSpec CollectionsProofs Child Inputs ModelFields ModelFieldsSpec ModelFieldsProofs ModelFieldsProps Assign AssignSpec AssignProofs Arguments ArgumentsSpec ArgumentsProofs.
Import ListNotations.
Open Scope nat_scope.

(** The validation of one call: the arguments read from the input, what happened to
    every parameter, surplus positional argument and keyword argument. *)
Record call (c : args_cfg) (va : input -> vres arg_input) (i : input) (s : state)
    (ai : arg_input) (xs : list (input * loc_item * input)) (key_of : param -> lookup_key)
    (vs : list (nat * param * pout)) (ps : list (input * option (vres pyval))) (ks : list kout) (s3 : state) : Prop := {
  call_input : va i = VOk ai;
  call_kwargs : kwargs_are (ai_kwargs ai) xs;
  call_keys_ok : Forall (fun p => by_keyword (pa_mode p) = true ->
      collection_select (pa_keys p) (validate_by_alias_or s (ac_by_alias c)) (validate_by_name_or s (ac_by_name c)) = BOk (key_of p) /\ built_key (key_of p)) (ac_params c);
  call_traces : exists s1 s2,
    params_trace ai key_of 0 (ac_params c) (set_partial PartialOff s) = (vs, s1) /\
    surplus_trace (ac_var_args c) (skipn (positional_count c) (args_list ai)) s1 = (ps, s2) /\
    keys_trace (call_keys vs) (call_policy c) xs s2 = (ks, s3) }.

(** C38: the result is determined by what happened to the parameters and to the surplus
    arguments: an exception escapes; otherwise all errors are reported, parameters
    first; otherwise the values are passed on. *)
Theorem C38_result : forall c va i s ai xs key_of vs ps ks s3, call c va i s ai xs key_of vs ps ks s3 ->
  (call_regular vs ps ks -> arguments_validate c va i s = call_finish c i key_of xs vs ps ks s3) /\
  (~ call_regular vs ps ks -> exists e s', arguments_validate c va i s = (VErr e, s')).
Proof. intros c va i s ai xs key_of vs ps ks s3 [H1 H2 H3 (s1 & s2 & T1 & T2 & T3)]. exact (call_run c va i s ai xs key_of vs ps ks s1 s2 s3 H1 H2 H3 T1 T2 T3). Qed.
Print Assumptions C38_result.

(** C38: what happened to a parameter follows from how it was given: by position and by
    keyword (an error), by one of them, or not at all (its default). *)
Theorem C38_sources : forall c va i s ai xs key_of vs ps ks s3, call c va i s ai xs key_of vs ps ks s3 ->
  forall k p o, In (k, p, o) vs ->
  nth_error (ac_params c) k = Some p /\
  let by_pos := if positional (pa_mode p) then nth_error (args_list ai) k else None in
  let by_kw := match ai_kwargs ai with Some (md, _) => if by_keyword (pa_mode p) then md_get md (key_of p) else VOk None | None => VOk None end in
  match o with
  | Lost e => by_kw = VErr e
  | Twice path x => by_pos <> None /\ by_kw = VOk (Some (path, x))
  | AtPos r => by_kw = VOk None /\ exists x t, by_pos = Some x /\ x_field_name (st_extra t) = Some (pa_name p) /\ fst (cv_validate (pa_cv p) x t) = r
  | AtKey path r => by_pos = None /\ exists x t, by_kw = VOk (Some (path, x)) /\ x_field_name (st_extra t) = Some (pa_name p) /\ fst (cv_validate (pa_cv p) x t) = r
  | Dflt r => by_pos = None /\ by_kw = VOk None /\ exists t, x_field_name (st_extra t) = Some (pa_name p) /\ fst (cv_default (pa_cv p) (Some (LStr (pa_name p))) t) = r
  end.
Proof.
  intros c va i s ai xs key_of vs ps ks s3 [H1 H2 H3 (s1 & s2 & T1 & T2 & T3)] k p o I. clear - T1 I.
  assert (G : forall params k0 t vs s1, params_trace ai key_of k0 params t = (vs, s1) -> In (k, p, o) vs ->
    (exists j, k = k0 + j /\ nth_error params j = Some p) /\ exists t1 t2, give (pa_name p) (pa_cv p) (if positional (pa_mode p) then nth_error (args_list ai) k else None)
       (keyword_value ai (if by_keyword (pa_mode p) then Some (key_of p) else None)) t1 = (o, t2)).
  { clear. intros params. induction params as [|q params IH]; intros k0 t vs s1 T I; cbn [params_trace] in T; [injection T as <- <-; destruct I|].
    destruct (give _ _ _ _ t) as [o' t1] eqn:G. destruct (params_trace ai key_of (S k0) params t1) as [os t2] eqn:T2. injection T as <- <-. destruct I as [I|I].
    - injection I as -> -> ->. split; [exists 0; split; [lia|reflexivity]|eauto].
    - destruct (IH _ _ _ _ T2 I) as [(j & -> & N) X]. split; [exists (S j); split; [lia|exact N]|exact X]. }
  destruct (G _ _ _ _ _ T1 I) as [(j & -> & N) (t1 & t2 & E)]. cbn [plus] in *. split; [exact N|]. cbv zeta.
  set (by_pos := if positional _ then _ else _) in *.
  replace (match ai_kwargs ai with Some (md, _) => if by_keyword (pa_mode p) then md_get md (key_of p) else VOk None | None => VOk None end)
    with (keyword_value ai (if by_keyword (pa_mode p) then Some (key_of p) else None)).
  2:{ unfold keyword_value. destruct (ai_kwargs ai) as [[md len]|], (by_keyword (pa_mode p)); reflexivity. }
  unfold give in E. destruct (keyword_value ai _) as [[[path x]|]|e].
  - destruct by_pos as [y|].
    + injection E as <- <-. split; [discriminate|reflexivity].
    + unfold rebind in E. destruct (cv_validate _ _ _) as [r t3] eqn:C. injection E as <- <-. split; [reflexivity|]. eexists x, _. split; [reflexivity|]. split; [|rewrite C; reflexivity]. reflexivity.
  - destruct by_pos as [y|].
    + unfold rebind in E. destruct (cv_validate _ _ _) as [r t3] eqn:C. injection E as <- <-. split; [reflexivity|]. eexists y, _. split; [reflexivity|]. split; [|rewrite C; reflexivity]. reflexivity.
    + unfold rebind in E. destruct (cv_default _ _ _) as [r t3] eqn:C. injection E as <- <-. split; [reflexivity|]. split; [reflexivity|]. eexists _. split; [|rewrite C; reflexivity]. reflexivity.
  - injection E as <- <-. reflexivity.
Qed.
Print Assumptions C38_sources.

(** ** Binding *)
Lemma dict_get_puts_split n b : forall d, keyed d -> dict_get (PStr n) (puts d b) = match dict_get (PStr n) (dict_of b) with Some v => Some v | None => dict_get (PStr n) d end.
Proof.
  induction b as [|[k v] b IH] using rev_ind; intros d Hd; [reflexivity|]. unfold dict_of. rewrite fold_left_app. cbn [fold_left fst snd]. fold (dict_of b).
  rewrite puts_app. cbn [puts fold_left fst snd]. rewrite !dict_get_set; [|apply keyed_dict_of|apply keyed_puts; assumption]. destruct (str_eqb n k); [reflexivity|]. apply IH. assumption.
Qed.
Lemma python_binds_ext params args kw kw' k : (forall n, dict_get (PStr n) kw = dict_get (PStr n) kw') -> python_binds params args kw k = python_binds params args kw' k.
Proof. intros H. unfold python_binds. destruct (nth_error params k) as [p|]; [|reflexivity]. destruct (by_keyword (pa_mode p)); rewrite ?H; reflexivity. Qed.

Definition nonempty_child (c : cv) : Prop := nonempty_errors (cv_validate c).
Lemma trace_nonempty ai key_of ps : Forall (fun p => nonempty_child (pa_cv p)) ps -> forall k s vs s', params_trace ai key_of k ps s = (vs, s') ->
  Forall (fun x => match snd x with AtPos (VErr (LineErrors [])) | AtKey _ (VErr (LineErrors [])) => False | _ => True end) vs.
Proof.
  induction ps as [|p ps IH]; intros N k s vs s' T; cbn [params_trace] in T; [injection T as <- <-; constructor|].
  destruct (give _ _ _ _ s) as [o s1] eqn:G. destruct (params_trace ai key_of (S k) ps s1) as [os s2] eqn:T2. injection T as <- <-. inversion N; subst.
  constructor; [|eapply IH; eassumption]. cbn [snd]. unfold give, rebind in G.
  destruct (keyword_value ai _) as [[[path x]|]|e]; [destruct (if positional _ then _ else _)..|].
  1,5: injection G as <- <-; exact I.
  - destruct (cv_validate (pa_cv p) x _) as [[v|[[|]| | | |]] t] eqn:C; injection G as <- <-; try exact I. exfalso. eapply H1; [exact C|reflexivity].
  - destruct (cv_validate (pa_cv p) _ _) as [[v|[[|]| | | |]] t] eqn:C; injection G as <- <-; try exact I. exfalso. eapply H1; [exact C|reflexivity].
  - destruct (cv_default _ _ _). injection G as <- <-. exact I.
Qed.

(** What the function's **kwargs should receive: the validated surplus keywords, or for an
    unpacked typed dict what its validator makes of them. *)
Definition extra_keywords (c : args_cfg) (ks : list kout) (s : state) : option pydict :=
  if ac_unpacked c then
    match ac_var_kwargs c with
    | Some v => match fst (v (IPy (PDict (dict_of (kout_kept ks)))) s) with VOk w => as_dict w | VErr _ => None end
    | None => None
    end
  else Some (dict_of (kout_kept ks)).

(** C38: after a successful validation, calling a Python function that has these
    parameters with the result binds every parameter exactly once, to the one value it
    was given (or its default); surplus arguments reach *args and **kwargs only. *)
Theorem C38_binds : forall c va i s ai xs key_of vs ps ks s3 args kwargs s',
  call c va i s ai xs key_of vs ps ks s3 -> ordered (ac_params c) -> NoDup (map pa_name (ac_params c)) ->
  Forall (fun p => nonempty_errors (cv_validate (pa_cv p))) (ac_params c) ->
  (forall v, ac_var_kwargs c = Some v -> nonempty_errors v) ->
  arguments_validate c va i s = (VOk (PTuple [PTuple args; PDict kwargs]), s') ->
  exists extra, extra_keywords c ks s3 = Some extra /\
  (keyed extra -> (forall p, In p (ac_params c) -> by_keyword (pa_mode p) = true -> dict_get (PStr (pa_name p)) extra = None) ->
  (forall k p, nth_error (ac_params c) k = Some p -> exists o v, In (k, p, o) vs /\ pout_value o = Some v /\ python_binds (ac_params c) args kwargs k = Bound v) /\
  skipn (positionals (ac_params c)) args = surplus_values ps /\
  (forall n, (forall p, In p (ac_params c) -> by_keyword (pa_mode p) = true -> pa_name p <> n) -> dict_get (PStr n) kwargs = dict_get (PStr n) extra)).
Proof.
  intros c va i s ai xs key_of vs ps ks s3 args kwargs s' R Ord Nd Ne Nv H.
  pose proof (C38_result _ _ _ _ _ _ _ _ _ _ _ R) as [E1 E2]. destruct R as [H1 H2 H3 (s1 & s2 & T1 & T2 & T3)].
  assert (Reg : call_regular vs ps ks).
  { destruct (forall_dec vs (fun kpo => pout_regular (snd kpo)) (fun x => pout_regular_dec (snd x))) as [D1|D1];
    destruct (forall_dec ps surplus_regular surplus_regular_dec) as [D2|D2]; destruct (forall_dec ks kout_regular kout_regular_dec) as [D3|D3];
    try (repeat split; assumption); destruct E2 as (e & s0 & E2); try (intros (? & ? & ?); contradiction); congruence. }
  rewrite (E1 Reg) in H.
  assert (F : exists extra, extra_keywords c ks s3 = Some extra /\ call_errors c i key_of xs vs ps ks = [] /\ args = call_args vs ps /\
    kwargs = if ac_unpacked c then dict_update extra (dict_of (flat_map by_name vs)) else dict_of (flat_map by_name vs ++ kout_kept ks)).
  { unfold call_finish in H. unfold extra_keywords. destruct (ac_unpacked c).
    - destruct (ac_var_kwargs c) as [v|]; [|discriminate H]. destruct (v _ s3) as [[w|[es| | | |]] s4] eqn:Ev; try discriminate H.
      + cbn [fst]. destruct (as_dict w) as [d|]; [|discriminate H]. unfold call_result in H. destruct (call_errors c i key_of xs vs ps ks); [|discriminate H]. injection H as <- <- <-. eauto.
      + exfalso. unfold call_result in H. destruct (call_errors c i key_of xs vs ps ks ++ es) eqn:Z; [|discriminate H]. apply app_eq_nil in Z. destruct Z as [_ Z]. exact (Nv v eq_refl _ _ _ _ Ev Z).
    - unfold call_result in H. destruct (call_errors c i key_of xs vs ps ks); [|discriminate H]. injection H as <- <- <-. eauto. }
  destruct F as (extra & Exk & Er & -> & ->). exists extra. split; [exact Exk|]. intros Kx Fr. clear H E1 E2. unfold call_errors in Er. apply app_eq_nil in Er. destruct Er as [Er _].
  assert (V : Forall valued vs).
  { pose proof (trace_nonempty ai key_of (ac_params c) Ne _ _ _ _ T1) as N. rewrite Forall_forall in *. intros x Ix. destruct Reg as [Rg _]. rewrite Forall_forall in Rg.
    eapply (no_error_valued (ac_loc_by_alias c) i key_of); [|apply Rg; exact Ix| |apply N; exact Ix].
    - unfold good_param. apply (H3 (snd (fst x))). rewrite <- (trace_params _ _ _ _ _ _ _ T1). apply in_map_iff. exists x. auto.
    - destruct (param_errors _ i key_of x) as [|e es] eqn:Ex; [reflexivity|]. exfalso. assert (I : In e (flat_map (param_errors (ac_loc_by_alias c) i key_of) vs)) by (apply in_flat_map; exists x; rewrite Ex; cbn; auto).
      rewrite Er in I. destruct I. }
  set (kwargs := if ac_unpacked c then _ else _).
  assert (Gx : forall n, dict_get (PStr n) kwargs = dict_get (PStr n) (dict_update extra (dict_of (flat_map by_name vs)))).
  { intros n. unfold kwargs. unfold extra_keywords in Exk. destruct (ac_unpacked c); [reflexivity|]. injection Exk as <-.
    unfold dict_of at 1. rewrite fold_left_app. fold (dict_of (flat_map by_name vs)). fold (puts (dict_of (flat_map by_name vs)) (kout_kept ks)).
    rewrite dict_get_puts_split by apply keyed_dict_of. rewrite dict_get_update by apply keyed_dict_of. reflexivity. }
  split; [|split].
  - intros k p Np. destruct (nth_error vs k) as [x|] eqn:Nx.
    2:{ apply nth_error_None in Nx. rewrite (trace_length _ _ _ _ _ _ _ T1) in Nx. apply nth_error_None in Nx. congruence. }
    destruct (trace_nth _ _ _ _ _ _ _ T1 k x Nx) as (p' & Np' & Ex & _). rewrite Np in Np'. injection Np' as <-. cbn [plus] in Ex. destruct x as [kp o]. cbn [fst] in Ex. subst kp.
    destruct (bound_once c ai key_of _ s1 s2 vs ps extra T1 T2 Ord Nd V Kx Fr k _ Nx) as (v & Ev & B).
    exists o, v. split; [eapply nth_error_In; exact Nx|]. split; [exact Ev|]. rewrite (python_binds_ext _ _ _ _ k Gx). exact B.
  - destruct (Nat.le_gt_cases (length (args_list ai)) (positionals (ac_params c))) as [L|L].
    + unfold call_surplus in T2. rewrite (surplus_none (ac_var_args c) (positional_count c)) in T2.
      2:{ rewrite (count_eq c Ord). exact L. }
      injection T2 as <- <-. cbn. unfold call_args. cbn. rewrite app_nil_r. apply skipn_all2.
      assert (Up : forall l, Forall valued l -> Forall (fun x => pushed x = true -> positional (pa_mode (snd (fst x))) = true) l -> length (flat_map by_position l) <= length (filter (fun p => positional (pa_mode p)) (map (fun x => snd (fst x)) l))).
      { clear. intros l. induction l as [|x l IH]; intros F P; [cbn; lia|]. inversion F; inversion P; subst. cbn [flat_map map filter]. destruct (valued_value x) as (v & _ & -> & _); [assumption|].
        specialize (IH ltac:(assumption) ltac:(assumption)). destruct (pushed x) eqn:E; [rewrite H5 by reflexivity; cbn; lia|]. cbn [app]. destruct (positional (pa_mode (snd (fst x)))); cbn; lia. }
      unfold positionals. rewrite <- (trace_params _ _ _ _ _ _ _ T1). apply Up; [exact V|]. rewrite Forall_forall in *. intros x Ix Px. pose proof (In_nth_error _ _ Ix) as (j & Nj).
      destruct (trace_nth _ _ _ _ _ _ _ T1 j x Nj) as (p & _ & Ex & Q). rewrite Ex. cbn [snd]. apply Q in Px; [|apply V; exact Ix]. destruct Px as [->|[-> _]]; reflexivity.
    + exact (rest_args c ai key_of _ s1 vs ps T1 Ord V L).
  - intros n Hn. rewrite Gx. apply (rest_kwargs c ai key_of _ s1 vs extra T1 V Kx n Hn).
Qed.
Print Assumptions C38_binds.

(** C38: parameters without alias are never also given to **kwargs (Python dicts and
    JSON objects). *)
Theorem C38_no_alias : forall c va i s ai xs key_of vs ps ks s3, call c va i s ai xs key_of vs ps ks s3 ->
  (exists repr d, ai_kwargs ai = Some (py_kwargs repr d)) \/ (exists l, ai_kwargs ai = Some (json_mdict l, length l)) ->
  call_regular vs ps ks ->
  forall p, In p (ac_params c) -> by_keyword (pa_mode p) = true -> key_of p = Simple (path_from_str (pa_name p)) ->
  dict_get (PStr (pa_name p)) (dict_of (kout_kept ks)) = None.
Proof.
  intros c va i s ai xs key_of vs ps ks s3 R Src Reg p Ip B Kp. unfold dict_of. fold (puts [] (kout_kept ks)). rewrite puts_other; [reflexivity|apply keyed_nil|]. intros I.
  assert (Found : (exists e, In e xs /\ key_str (fst (fst e)) = VOk (pa_name p)) -> exists y, match ai_kwargs ai with Some (md, _) => md_get md (key_of p) | None => VOk None end = VOk (Some (path_from_str (pa_name p), y))).
  { destruct R as [_ Hk _ _]. rewrite Kp. intros (e & Ie & Ke). destruct Src as [(repr & d & E)|(l & E)]; rewrite E in *.
    - destruct Hk as (Hi & _ & _). cbn in Hi. injection Hi as Hi. cbn.
      assert (Ie' : In (to_entry e) (map to_entry xs)) by (apply in_map; exact Ie). rewrite <- Hi in Ie'. apply in_map_iff in Ie'. destruct Ie' as ([k v] & Ee & Id).
      destruct e as [[ek el] ev]. cbn in Ee. injection Ee as <- _ _. cbn in Ke. destruct (as_str k) as [t|] eqn:A; [|discriminate Ke]. injection Ke as ->.
      assert (G : dict_get (PStr (pa_name p)) d <> None).
      { clear - Id A. induction d as [|[k' v'] d IH]; [destruct Id|]. cbn [dict_get]. destruct (py_eq k' (PStr (pa_name p))) eqn:E; [discriminate|]. destruct Id as [Id|Id]; [|auto].
        injection Id as -> ->. exfalso. clear - E A. revert E A. induction k; cbn; try discriminate; auto. intros E [= ->]. rewrite str_eqb_refl in E. discriminate. }
      destruct (dict_get (PStr (pa_name p)) d) as [w|]; [|congruence]. eexists. reflexivity.
    - destruct Hk as (Hi & _ & _). cbn in Hi. injection Hi as Hi. cbn.
      assert (Ie' : In (to_entry e) (map to_entry xs)) by (apply in_map; exact Ie). rewrite <- Hi in Ie'. apply in_map_iff in Ie'. destruct Ie' as ([k v] & Ee & Id).
      destruct e as [[ek el] ev]. cbn in Ee. injection Ee as <- _ _. cbn in Ke. injection Ke as ->.
      assert (G : json_last (pa_name p) l <> None).
      { unfold json_last. apply in_rev in Id. revert Id. generalize (rev l). clear. intros m. induction m as [|[k' v'] m IH]; intros Id; [destruct Id|]. cbn [assoc].
        destruct (str_eqb (pa_name p) k') eqn:E; [discriminate|]. destruct Id as [Id|Id]; [|auto]. injection Id as -> ->. rewrite str_eqb_refl in E. discriminate. }
      destruct (json_last (pa_name p) l) as [w|]; [|congruence]. eexists. reflexivity. }
  pose proof (C38_sources _ _ _ _ _ _ _ _ _ _ _ R) as S. destruct R as [_ _ _ (s1 & s2 & T1 & _ & T3)].
  assert (K : exists e, In e xs /\ key_str (fst (fst e)) = VOk (pa_name p) /\ mem_str (pa_name p) (call_keys vs) = false).
  { clear - T3 I. revert s2 ks s3 T3 I. induction xs as [|x xs IH]; intros s2 ks s3 T3 I; cbn [keys_trace] in T3; [injection T3 as <- <-; destruct I|].
    destruct (key_look _ _ x s2) as [o t1] eqn:L. destruct (keys_trace _ _ xs t1) as [os t2] eqn:T. injection T3 as <- <-. unfold kout_kept in I. cbn [flat_map] in I. rewrite map_app in I. apply in_app_or in I. destruct I as [I|I].
    - exists x. split; [left; reflexivity|]. unfold key_look in L. destruct (key_str (fst (fst x))) as [k|e] eqn:Ek; [|injection L as <- <-; destruct I].
      destruct (mem_str k (call_keys vs)) eqn:M; [injection L as <- <-; destruct I|].
      assert (k = pa_name p); [|subst k; auto].
      unfold call_policy in L. destruct (ac_unpacked c); [injection L as <- <-; destruct I as [I|[]]; exact I|]. destruct (ac_var_kwargs c) as [v|].
      + destruct (v (snd x) s2) as [[w|?] t3]; injection L as <- <-; [destruct I as [I|[]]; exact I|destruct I].
      + injection L as <- <-. destruct (ac_extra c); destruct I.
    - destruct (IH _ _ _ T I) as (e & Ie & Ke). exists e. split; [right; exact Ie|exact Ke]. }
  destruct K as (e & Ie & Ke & M). destruct (Found (ex_intro _ e (conj Ie Ke))) as (y & Fy).
  apply In_nth_error in Ip. destruct Ip as (j & Np). destruct (nth_error vs j) as [[[k' p'] o]|] eqn:Nx.
  2:{ apply nth_error_None in Nx. rewrite (trace_length _ _ _ _ _ _ _ T1) in Nx. apply nth_error_None in Nx. congruence. }
  destruct (trace_nth _ _ _ _ _ _ _ T1 j _ Nx) as (q & Nq & Eq & _). rewrite Np in Nq. injection Nq as <-. cbn in Eq. injection Eq as -> ->.
  pose proof (nth_error_In _ _ Nx) as Iv. destruct (S _ _ _ Iv) as [_ So]. cbv zeta in So. rewrite B in So.
  assert (Ky : match ai_kwargs ai with Some (md, _) => md_get md (key_of p) | None => VOk None end = VOk (Some (path_from_str (pa_name p), y))) by exact Fy.
  assert (In (pa_name p) (call_keys vs)); [|apply mem_str_not_In in M; contradiction].
  unfold call_keys. apply in_flat_map. exists (j, p, o). split; [exact Iv|]. cbn [snd].
  destruct o as [er|path x|r|path r|r]; rewrite Ky in So.
  - discriminate So.
  - destruct So as [_ So]. injection So as <- _. cbn. auto.
  - destruct So as [So _]. discriminate.
  - destruct So as (_ & x & t & So & _). injection So as <- _. cbn. auto.
  - destruct So as (_ & So & _). discriminate.
Qed.
Print Assumptions C38_no_alias.

(** The keyword arguments read from a Python dict or a JSON object are as assumed. *)
Theorem C38_inputs : forall repr i ai, validate_args repr i = VOk ai -> exists xs, kwargs_are (ai_kwargs ai) xs.
Proof.
  intros repr i ai. destruct i as [v|j|k|v]; cbn [validate_args].
  - destruct (dict_items v) as [d|]; [intros [= <-]; eexists; apply py_kwargs_are|].
    destruct (as_args_kwargs v) as [[args [kw|]]|]; [intros [= <-]; eexists; apply py_kwargs_are|intros [= <-]; exists []; reflexivity|].
    destruct (strip v); try discriminate; intros [= <-]; exists []; reflexivity.
  - destruct j; try discriminate; intros [= <-]; [exists []; reflexivity|eexists; apply json_kwargs_are].
  - discriminate.
  - discriminate.
Qed.
Print Assumptions C38_inputs.

(** ** Examples and counterexamples *)
Definition ex_default (v : option pyval) : cv := {| cv_validate := cv_validate (no_default ex_int); cv_default := fun _ s => (VOk v, s) |}.
Definition ex_param (n : str) (m : pmode) (alias : option alias_item) (d : option pyval) : param :=
  {| pa_name := n; pa_mode := m; pa_keys := ex_keys n alias; pa_cv := ex_default d |}.
Definition ex_call (ps : list param) (va vk : option validator) (e : extra_behavior) : args_cfg :=
  {| ac_params := ps; ac_var_args := va; ac_unpacked := false; ac_var_kwargs := vk; ac_extra := e; ac_loc_by_alias := true; ac_by_alias := None; ac_by_name := None |}.
Definition run_call (c : args_cfg) (args : list pyval) (kwargs : pydict) : vres pyval :=
  fst (arguments_validate c (validate_args ex_repr) (IPy (args_kwargs args kwargs)) ex_state).
Definition ex_ps : list param := [ex_param (lit "a") PosOnly None None; ex_param (lit "b") PosOrKw None (Some (PInt 7)); ex_param (lit "c") KwOnly None None].

Example C38_nonvacuous :
  run_call (ex_call ex_ps None None ExtraForbid) [PInt 1] [(PStr (lit "c"), PInt 3)] =
    VOk (PTuple [PTuple [PInt 1]; PDict [(PStr (lit "b"), PInt 7); (PStr (lit "c"), PInt 3)]]) /\
  run_call (ex_call ex_ps (Some ex_int) (Some ex_int) ExtraForbid) [PInt 1; PInt 2; PInt 5] [(PStr (lit "c"), PInt 3); (PStr (lit "a"), PInt 4)] =
    VOk (PTuple [PTuple [PInt 1; PInt 2; PInt 5]; PDict [(PStr (lit "c"), PInt 3); (PStr (lit "a"), PInt 4)]]) /\
  (exists i, run_call (ex_call ex_ps None None ExtraForbid) [PInt 1; PInt 2; PNone] [(PStr (lit "b"), PInt 3); (PStr (lit "x"), PInt 4)] =
    VErr (LineErrors [error_at EMultipleArgumentValues (IPy (PInt 3)) [LStr (lit "b")]; error_at EMissingKeywordOnly i [LStr (lit "c")];
                      error_at EUnexpectedPositional (IPy PNone) [LInt 2]; error_at EUnexpectedKeyword (IPy (PInt 4)) [LStr (lit "x")]])) /\
  ordered ex_ps /\ NoDup (map pa_name ex_ps).
Proof.
  split; [reflexivity|]. split; [reflexivity|]. split; [eexists; reflexivity|]. split.
  - cbn. repeat split; repeat constructor.
  - repeat constructor; cbn; intuition discriminate.
Qed.

(** A parameter with an alias, and **kwargs: an extra keyword with the parameter's own
    name takes the place of the validated value. *)
Theorem C38_alias_overwritten_refuted : exists c args kwargs v,
  ordered (ac_params c) /\ NoDup (map pa_name (ac_params c)) /\
  run_call c args kwargs = VOk (PTuple [PTuple []; PDict [(PStr (lit "a"), v)]]) /\
  dict_get (PStr (lit "alias")) kwargs = Some (PInt 1) /\ v = PInt 2.
Proof.
  exists (ex_call [ex_param (lit "a") PosOrKw (Some (ASt (lit "alias"))) None] None (Some ex_int) ExtraForbid), [], [(PStr (lit "alias"), PInt 1); (PStr (lit "a"), PInt 2)], (PInt 2).
  repeat split; cbn; try reflexivity; try constructor; cbn; auto. constructor.
Qed.
Print Assumptions C38_alias_overwritten_refuted.
(** ... or, given by position, the call binds the parameter twice. *)
Theorem C38_bound_twice_refuted : exists c args kwargs oa ok,
  ordered (ac_params c) /\ NoDup (map pa_name (ac_params c)) /\
  run_call c args kwargs = VOk (PTuple [PTuple oa; PDict ok]) /\ python_binds (ac_params c) oa ok 0 = BoundTwice.
Proof.
  exists (ex_call [ex_param (lit "a") PosOrKw (Some (ASt (lit "alias"))) None] None (Some ex_int) ExtraForbid), [PInt 1], [(PStr (lit "a"), PInt 2)]. do 2 eexists.
  repeat split; cbn; try reflexivity; try constructor; cbn; auto. constructor.
Qed.
Print Assumptions C38_bound_twice_refuted.
(** The order of the modes is not checked when the schema is built: a keyword-only
    parameter in front makes a positional argument vanish. *)
Theorem C38_unordered_refuted : exists c args kwargs oa ok,
  NoDup (map pa_name (ac_params c)) /\ args = [PInt 1; PInt 2] /\
  run_call c args kwargs = VOk (PTuple [PTuple oa; PDict ok]) /\ oa = [PInt 2].
Proof.
  exists (ex_call [ex_param (lit "k") KwOnly None None; ex_param (lit "a") PosOnly None None] None None ExtraForbid), [PInt 1; PInt 2], [(PStr (lit "k"), PInt 3)]. do 2 eexists.
  repeat split. repeat constructor; cbn; intuition discriminate.
Qed.
Print Assumptions C38_unordered_refuted.
(** A default that fails its validation hides the errors of the other arguments. *)
Theorem C38_default_error_refuted : exists c args kwargs e,
  run_call c args kwargs = VErr (LineErrors [e]) /\ le_type e = EValueError /\
  exists k x, nth_error args k = Some x /\ exists p, nth_error (ac_params c) k = Some p /\ forall s, fst (cv_validate (pa_cv p) (IPy x) s) <> VOk x.
Proof.
  exists (ex_call [ex_param (lit "a") PosOnly None None;
                   {| pa_name := lit "b"; pa_mode := PosOnly; pa_keys := ex_keys (lit "b") None; pa_cv := {| cv_validate := ex_int; cv_default := fun _ s => (val_err EValueError (IPy PNone), s) |} |}] None None ExtraForbid), [PNone], [].
  eexists. split; [reflexivity|]. split; [reflexivity|]. exists 0, PNone. split; [reflexivity|]. eexists. split; [reflexivity|]. intros s. discriminate.
Qed.
Print Assumptions C38_default_error_refuted.

(** * Dataclasses *)
Record dc_call (c : dc_cfg) (va : input -> vres arg_input) (i : input) (s : state)
    (ai : arg_input) (xs : list (input * loc_item * input)) (key_of : dc_field -> lookup_key)
    (vs : list (nat * dc_field * fout)) (ks : list kout) (s3 : state) : Prop := {
  dcc_input : va i = VOk ai;
  dcc_kwargs : kwargs_are (ai_kwargs ai) xs;
  dcc_keys_ok : Forall (fun f => collection_select (df_keys f) (validate_by_alias_or s (dc_by_alias c)) (validate_by_name_or s (dc_by_name c)) = BOk (key_of f) /\ built_key (key_of f)) (dc_fields c);
  dcc_traces : exists s1,
    dc_trace ai key_of 0 [] (dc_fields c) (set_extra (set_data (Some []) (st_extra s)) (set_partial PartialOff s)) = (vs, s1) /\
    dc_keys_trace c (dc_keys vs) (dc_values vs) xs s1 = (ks, s3) }.

(** C39: the result is determined by what happened to the fields and to the surplus
    arguments. *)
Theorem C39_result : forall c va i s ai xs key_of vs ks s3, dc_call c va i s ai xs key_of vs ks s3 ->
  (dc_regular vs ks -> dataclass_args_validate c va i s = (dc_result c ai i key_of xs vs ks, set_extra (st_extra s) (add_fields_set (dc_set_count vs) s3))) /\
  (~ dc_regular vs ks -> exists e s', dataclass_args_validate c va i s = (VErr e, s')).
Proof. intros c va i s ai xs key_of vs ks s3 [H1 H2 H3 (s1 & T1 & T3)]. exact (dc_whole c va i s ai xs key_of vs ks s1 s3 H1 H2 H3 T1 T3). Qed.
Print Assumptions C39_result.

Lemma nth_error_skip {A} n : forall (l : list A) j, nth_error (skipn n l) j = nth_error l (n + j).
Proof. induction n as [|n IH]; intros l j; [reflexivity|]. destruct l as [|x l]; [destruct j; reflexivity|]. cbn. apply IH. Qed.
Lemma dc_trace_fields ai key_of fs : forall k done t vs s1, dc_trace ai key_of k done fs t = (vs, s1) -> map (fun x => snd (fst x)) vs = fs.
Proof.
  induction fs as [|f fs IH]; intros k done t vs s1 T; cbn [dc_trace] in T; [injection T as <- <-; reflexivity|].
  destruct (field_look _ _ _ f _) as [o t1]. destruct (dc_trace ai key_of (S k) _ fs t1) as [os t2] eqn:T2. injection T as <- <-. cbn [map fst snd]. f_equal. eapply IH. exact T2.
Qed.
Lemma dc_trace_give ai key_of k f o fs : forall k0 done t vs s1, dc_trace ai key_of k0 done fs t = (vs, s1) -> In (k, f, o) vs ->
  (exists j, k = k0 + j /\ nth_error fs j = Some f) /\ exists t1 t2, field_look ai (key_of f) k f t1 = (o, t2).
Proof.
  induction fs as [|g fs IH]; intros k0 done t vs s1 T I; cbn [dc_trace] in T; [injection T as <- <-; destruct I|].
  destruct (field_look _ _ _ g _) as [o' t1] eqn:G. destruct (dc_trace ai key_of (S k0) _ fs t1) as [os t2] eqn:T2. injection T as <- <-. destruct I as [I|I].
  - injection I as -> -> ->. split; [exists 0; split; [lia|reflexivity]|eauto].
  - destruct (IH _ _ _ _ _ T2 I) as [(j & -> & N) X]. split; [exists (S j); split; [lia|exact N]|exact X].
Qed.
(** C39: how each field is filled: one that is not an init field only by its default;
    the others by position (their index) or by keyword, not both, or by the default. *)
Theorem C39_sources : forall c va i s ai xs key_of vs ks s3, dc_call c va i s ai xs key_of vs ks s3 ->
  forall k f o, In (k, f, o) vs ->
  nth_error (dc_fields c) k = Some f /\
  let by_pos := if df_kw_only f then None else nth_error (args_list ai) k in
  let by_kw := match ai_kwargs ai with Some (md, _) => md_get md (key_of f) | None => VOk None end in
  match o with
  | FNoInit r => df_init f = false /\ exists t, fst (cv_default (df_cv f) (Some (LStr (df_name f))) t) = r
  | FPout (Lost e) => df_init f = true /\ by_kw = VErr e
  | FPout (Twice path x) => df_init f = true /\ by_pos <> None /\ by_kw = VOk (Some (path, x))
  | FPout (AtPos r) => df_init f = true /\ by_kw = VOk None /\ exists x t, by_pos = Some x /\ x_field_name (st_extra t) = Some (df_name f) /\ fst (cv_validate (df_cv f) x t) = r
  | FPout (AtKey path r) => df_init f = true /\ by_pos = None /\ exists x t, by_kw = VOk (Some (path, x)) /\ x_field_name (st_extra t) = Some (df_name f) /\ fst (cv_validate (df_cv f) x t) = r
  | FPout (Dflt r) => df_init f = true /\ by_pos = None /\ by_kw = VOk None /\ exists t, fst (cv_default (df_cv f) (Some (LStr (df_name f))) t) = r
  end.
Proof.
  intros c va i s ai xs key_of vs ks s3 [H1 H2 H3 (s1 & T1 & T3)] k f o I. clear - T1 I.
  destruct (dc_trace_give _ _ _ _ _ _ _ _ _ _ _ T1 I) as [(j & -> & N) (t1 & t2 & E)]. cbn [plus] in *. split; [exact N|]. cbv zeta.
  unfold field_look in E. destruct (df_init f) eqn:If.
  - set (by_pos := if df_kw_only f then _ else _) in *.
    replace (match ai_kwargs ai with Some (md, _) => md_get md (key_of f) | None => VOk None end) with (keyword_value ai (Some (key_of f))) by (unfold keyword_value; destruct (ai_kwargs ai) as [[md len]|]; reflexivity).
    destruct (give _ _ _ _ t1) as [o' t3] eqn:G. injection E as <- <-. unfold give in G. destruct (keyword_value ai _) as [[[path x]|]|e].
    + destruct by_pos as [y|].
      * injection G as <- <-. split; [reflexivity|]. split; [discriminate|reflexivity].
      * unfold rebind in G. destruct (cv_validate _ _ _) as [r t4] eqn:C. injection G as <- <-. split; [reflexivity|]. split; [reflexivity|]. eexists x, _. split; [reflexivity|]. split; [|rewrite C; reflexivity]. reflexivity.
    + destruct by_pos as [y|].
      * unfold rebind in G. destruct (cv_validate _ _ _) as [r t4] eqn:C. injection G as <- <-. split; [reflexivity|]. split; [reflexivity|]. eexists y, _. split; [reflexivity|]. split; [|rewrite C; reflexivity]. reflexivity.
      * unfold rebind in G. destruct (cv_default _ _ _) as [r t4] eqn:C. injection G as <- <-. split; [reflexivity|]. split; [reflexivity|]. split; [reflexivity|]. eexists _. rewrite C. reflexivity.
    + injection G as <- <-. split; reflexivity.
  - destruct (cv_default _ _ _) as [r t4] eqn:C. injection E as <- <-. split; [reflexivity|]. eexists _. rewrite C. reflexivity.
Qed.
Print Assumptions C39_sources.

(** C39: no positional argument is lost when the keyword-only fields come last: each one
    is the value of the field at its position, or an error. *)
Theorem C39_positional_used : forall c va i s ai xs key_of vs ks s3 k x, dc_call c va i s ai xs key_of vs ks s3 ->
  dc_regular vs ks -> nth_error (args_list ai) k = Some x ->
  (forall j f, nth_error (dc_fields c) j = Some f -> (df_kw_only f = false <-> j < dc_positional_count c)) ->
  Forall (fun f => df_init f = true \/ df_kw_only f = true) (dc_fields c) ->
  (exists f r, nth_error (dc_fields c) k = Some f /\ In (k, f, FPout (AtPos r)) vs) \/
  (exists f p y, nth_error (dc_fields c) k = Some f /\ In (k, f, FPout (Twice p y)) vs) \/
  In (error_at EUnexpectedPositional x [index_loc k]) (dc_call_errors c ai i key_of xs vs ks).
Proof.
  intros c va i s ai xs key_of vs ks s3 k x R Reg Nx Ord Ini.
  assert (Hlen : forall ai key_of fs k done t vs s1, dc_trace ai key_of k done fs t = (vs, s1) -> forall j f, nth_error fs j = Some f -> exists o, In (k + j, f, o) vs).
  { clear. intros ai key_of fs. induction fs as [|g fs IH]; intros k done t vs s1 T j f N; [destruct j; discriminate|]. cbn [dc_trace] in T.
    destruct (field_look _ _ _ g _) as [o' t1]. destruct (dc_trace ai key_of (S k) _ fs t1) as [os t2] eqn:T2. injection T as <- <-. destruct j as [|j].
    - injection N as <-. exists o'. left. rewrite Nat.add_0_r. reflexivity.
    - destruct (IH _ _ _ _ _ T2 j f N) as (o & I). exists o. right. replace (k + S j) with (S k + j) by lia. exact I. }
  destruct (Nat.lt_ge_cases k (dc_positional_count c)) as [L|L].
  - destruct (nth_error (dc_fields c) k) as [f|] eqn:Nf.
    2:{ apply nth_error_None in Nf. exfalso. assert (Len : dc_positional_count c <= length (dc_fields c)); [|lia].
        unfold dc_positional_count. clear. induction (dc_fields c) as [|f l IH]; cbn; [lia|]. destruct (negb (df_kw_only f)); cbn; lia. }
    assert (Kw : df_kw_only f = false) by (apply (Ord k f Nf); exact L).
    pose proof (C39_sources _ _ _ _ _ _ _ _ _ _ R) as S. destruct R as [_ _ _ (s1 & T1 & _)]. destruct (Hlen _ _ _ _ _ _ _ _ T1 k f Nf) as (o & I). cbn [plus] in I.
    pose proof (S _ _ _ I) as [_ So]. cbv zeta in So. rewrite Kw, Nx in So. rewrite Forall_forall in Ini. pose proof (Ini f (nth_error_In _ _ Nf)) as Init.
    destruct Reg as [Rg _]. rewrite Forall_forall in Rg. pose proof (Rg _ I) as Ro. cbn [snd] in Ro.
    destruct o as [[e|p y|r|p r|r]|r].
    + destruct Ro.
    + right. left. exists f, p, y. auto.
    + left. exists f, r. auto.
    + destruct So as (_ & So & _). discriminate.
    + destruct So as (_ & So & _). discriminate.
    + destruct So as [So _]. destruct Init; congruence.
  - right. right. unfold dc_call_errors. apply in_or_app. right. apply in_or_app. left.
    assert (G : forall n (l : list input) k x, nth_error l k = Some x -> n <= k -> In (error_at EUnexpectedPositional x [index_loc k]) (surplus_errors n (map (fun x => (x, None)) (skipn n l)))).
    { clear. assert (H : forall (l : list input) n k x, nth_error l k = Some x -> In (error_at EUnexpectedPositional x [index_loc (n + k)]) (surplus_errors n (map (fun x => (x, None)) l))).
      { intros l. induction l as [|y l IH]; intros n k x N; [destruct k; discriminate|]. cbn [map surplus_errors]. destruct k as [|k].
        - injection N as ->. rewrite Nat.add_0_r. apply in_or_app. left. left. reflexivity.
        - apply in_or_app. right. replace (n + S k) with (S n + k) by lia. apply IH. exact N. }
      intros n l k x N L. replace k with (n + (k - n)) by lia. apply H. rewrite nth_error_skip. replace (n + (k - n)) with k by lia. exact N. }
    apply G; assumption.
Qed.
Print Assumptions C39_positional_used.

(** C39: on success every field of the dataclass dict has the value its only source
    gave, unless an extra has the field's name. *)
Theorem C39_dict : forall c va i s ai xs key_of vs ks s3 d io s', dc_call c va i s ai xs key_of vs ks s3 ->
  NoDup (map df_name (dc_fields c)) ->
  dataclass_args_validate c va i s = (VOk (PTuple [PDict d; io]), s') ->
  forall k f o, In (k, f, o) vs -> df_init_only f = false -> ~ In (df_name f) (map fst (kout_kept ks)) ->
  dict_get (PStr (df_name f)) d = fout_value o.
Proof.
  intros c va i s ai xs key_of vs ks s3 d io s' R Nd H k f o Iv Io Nk. pose proof (C39_result _ _ _ _ _ _ _ _ _ _ R) as [E1 E2].
  assert (Reg : dc_regular vs ks).
  { destruct (forall_dec vs (fun x => fout_regular (snd x)) (fun x => fout_regular_dec (snd x))) as [D1|D1]; destruct (forall_dec ks kout_regular kout_regular_dec) as [D3|D3];
    try (split; assumption); destruct E2 as (e & s0 & E2); try (intros [? ?]; contradiction); congruence. }
  rewrite (E1 Reg) in H. unfold dc_result in H. destruct (dc_call_errors _ _ _ _ _ _ _); [|discriminate H]. injection H as <- _ _.
  destruct R as [_ _ _ (s1 & T1 & _)]. rewrite <- (dc_trace_fields _ _ _ _ _ _ _ _ T1) in Nd.
  unfold dict_of. rewrite fold_left_app. fold (dict_of (dc_values vs)). fold (puts (dict_of (dc_values vs)) (kout_kept ks)). rewrite puts_other; [|apply keyed_dict_of|exact Nk].
  clear - Nd Iv Io. revert Nd Iv.
  assert (G : forall l d0, keyed d0 -> NoDup (map (fun x => df_name (snd (fst x))) l) -> In (k, f, o) l -> dict_get (PStr (df_name f)) d0 = None -> dict_get (PStr (df_name f)) (puts d0 (dc_values l)) = fout_value o).
  { intros l. induction l as [|x l IH]; intros d0 Kd Nd I D; [destruct I|]. cbn [map] in Nd. inversion Nd as [|? ? N1 N2]; subst. unfold dc_values. cbn [flat_map]. fold (dc_values l). rewrite puts_app.
    assert (Other : forall m, ~ In (df_name f) (map (fun x => df_name (snd (fst x))) m) -> ~ In (df_name f) (map fst (dc_values m))).
    { clear. intros m N J. apply N. apply in_map_iff in J. destruct J as ([n v] & <- & J). apply in_flat_map in J. destruct J as (y & Iy & J). apply in_map_iff. exists y. split; [|exact Iy].
      destruct (fout_value (snd y)); [|destruct J]. destruct (df_init_only _); [destruct J|]. destruct J as [[= -> ->]|[]]. reflexivity. }
    destruct I as [->|I].
    - cbn [fst snd] in *. rewrite puts_other.
      + rewrite Io. destruct (fout_value o) as [v|]; cbn [puts fold_left fst snd]; [|exact D]. rewrite dict_get_set by assumption. rewrite str_eqb_refl. reflexivity.
      + rewrite Io. destruct (fout_value o); cbn [puts fold_left]; [apply keyed_set|]; assumption.
      + apply Other. exact N1.
    - apply IH; try assumption.
      + apply keyed_puts. exact Kd.
      + rewrite puts_other; [exact D|exact Kd|]. intros J. apply N1. apply in_map_iff in J. destruct J as ([n v] & E & J). cbn [fst] in E. subst n.
        destruct (fout_value (snd x)); [|destruct J]. destruct (df_init_only (snd (fst x))); [destruct J|]. destruct J as [[= E ->]|[]]. rewrite E. apply in_map_iff. exists (k, f, o). auto. }
  intros Nd Iv. apply (G vs []); try assumption; [apply keyed_nil| |reflexivity]. rewrite map_map in Nd. exact Nd.
Qed.
Print Assumptions C39_dict.

Definition ex_dcf (n : str) (alias : option alias_item) (kw init io : bool) (d : option pyval) : dc_field :=
  {| df_name := n; df_keys := ex_keys n alias; df_cv := ex_default d; df_kw_only := kw; df_init := init; df_init_only := io |}.
Definition ex_dc (fs : list dc_field) (e : extra_behavior) : dc_cfg :=
  {| dc_fields := fs; dc_collect_init_only := true; dc_extra := e; dc_extras := None; dc_loc_by_alias := true; dc_by_alias := None; dc_by_name := None |}.
Definition run_dc (c : dc_cfg) (args : list pyval) (kwargs : pydict) : vres pyval :=
  fst (dataclass_args_validate c (validate_dataclass_args ex_repr) (IPy (args_kwargs args kwargs)) ex_state).
Definition ex_fs : list dc_field := [ex_dcf (lit "a") None false true false None; ex_dcf (lit "i") None false true true (Some (PInt 9)); ex_dcf (lit "k") None true true false None; ex_dcf (lit "n") None true false false (Some (PInt 5))].
Example C39_nonvacuous :
  run_dc (ex_dc ex_fs ExtraForbid) [PInt 1] [(PStr (lit "k"), PInt 3)] =
    VOk (PTuple [PDict [(PStr (lit "a"), PInt 1); (PStr (lit "k"), PInt 3); (PStr (lit "n"), PInt 5)]; PTuple [PInt 9]]) /\
  (exists i, run_dc (ex_dc ex_fs ExtraForbid) [PInt 1; PNone; PInt 6] [(PStr (lit "a"), PInt 3); (PStr (lit "n"), PInt 4)] =
    VErr (LineErrors [error_at EMultipleArgumentValues (IPy (PInt 3)) [LStr (lit "a")]; error_at EIntType (IPy PNone) [LInt 1]; error_at EMissing i [LStr (lit "k")];
                      error_at EUnexpectedPositional (IPy (PInt 6)) [LInt 2]; error_at EUnexpectedKeyword (IPy (PInt 4)) [LStr (lit "n")]])) /\
  NoDup (map df_name ex_fs) /\
  (forall j f, nth_error ex_fs j = Some f -> (df_kw_only f = false <-> j < dc_positional_count (ex_dc ex_fs ExtraForbid))) /\ Forall (fun f => df_init f = true \/ df_kw_only f = true) ex_fs.
Proof.
  split; [reflexivity|]. split; [eexists; reflexivity|]. split; [repeat constructor; cbn; intuition discriminate|]. split; [|repeat (constructor; [cbn; auto|]); constructor].
  intros [|[|[|[|j]]]] f H; try (injection H as <-; change (dc_positional_count _) with 2; split; intros X; cbn in X |- *; try discriminate; try reflexivity; lia). destruct j; discriminate.
Qed.
(** Positional arguments are matched with the index of the field, keyword-only fields
    included, so behind one an argument is dropped without an error. *)
Theorem C39_argument_dropped_refuted : exists c args kwargs d,
  args = [PInt 1; PInt 2] /\ run_dc c args kwargs = VOk (PTuple [PDict d; PTuple []]) /\ dict_get (PStr (lit "k")) d = Some (PInt 3) /\ dict_get (PStr (lit "a")) d = Some (PInt 2) /\
  length d = 3 /\ ~ In (PInt 1) (map snd d).
Proof.
  exists (ex_dc [ex_dcf (lit "k") None true true false None; ex_dcf (lit "a") None false true false None; ex_dcf (lit "b") None false true false (Some (PInt 8))] ExtraForbid), [PInt 1; PInt 2], [(PStr (lit "k"), PInt 3)].
  eexists. split; [reflexivity|]. split; [reflexivity|]. repeat split; try reflexivity; cbn; intros X; repeat (destruct X as [X|X]; [discriminate X|]); exact X.
Qed.
Print Assumptions C39_argument_dropped_refuted.
(** A field that is not an init field also swallows the argument at its index. *)
Theorem C39_no_init_dropped_refuted : exists c args d,
  args = [PInt 1] /\ run_dc c args [] = VOk (PTuple [PDict d; PTuple []]) /\ ~ In (PInt 1) (map snd d).
Proof.
  exists (ex_dc [ex_dcf (lit "n") None false false false (Some (PInt 5))] ExtraForbid), [PInt 1]. eexists. split; [reflexivity|]. split; [reflexivity|]. repeat split; try reflexivity; cbn; intros X; repeat (destruct X as [X|X]; [discriminate X|]); exact X.
Qed.
Print Assumptions C39_no_init_dropped_refuted.
(** With extras allowed, a field without init can be set from the input after all. *)
Theorem C39_no_init_set_refuted : exists c kwargs d,
  Forall (fun f => df_init f = false) (dc_fields c) /\ run_dc c [] kwargs = VOk (PTuple [PDict d; PTuple []]) /\ dict_get (PStr (lit "n")) d = Some (PStr (lit "x")).
Proof.
  exists (ex_dc [ex_dcf (lit "n") None false false false (Some (PInt 5))] ExtraAllow), [(PStr (lit "n"), PStr (lit "x"))]. eexists. repeat split. repeat constructor.
Qed.
Print Assumptions C39_no_init_set_refuted.
