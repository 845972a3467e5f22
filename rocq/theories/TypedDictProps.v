(** C21, C61: typed dicts over arbitrary field validators. *)
From Coq Require Import List NArith ZArith Bool Lia.
From Verif Require Import Base Float64 Values VState LookupKey LookupKeySpec LookupKeyProofs Collections CollectionsSpec CollectionsProofs Child Inputs ModelFields ModelFieldsSpec ModelFieldsProofs ModelFieldsProps TypedDict TypedDictSpec TypedDictProofs.
Import ListNotations.
Open Scope nat_scope.

Lemma typed_dict_run c vd i s md last vs xs os s2 : td_run c vd i s md last vs xs os s2 ->
  (Forall field_regular vs -> Forall extra_regular os ->
   typed_dict_validate c vd i s =
     if is_nil (td_errors c last i vs xs os) then (VOk (PDict (overwrite (data_of vs) (kept os))), s2)
     else (VErr (LineErrors (td_errors c last i vs xs os)), s2)) /\
  (~ (Forall field_regular vs /\ Forall extra_regular os) ->
   exists e s', typed_dict_validate c vd i s = (VErr e, s') /\ match e with LineErrors _ => False | _ => True end).
Proof.
  intros [H1 Hl (key_of & s1 & [Nd Ok] & T & X)]. unfold typed_dict_validate. rewrite H1, <- Hl.
  set (ba := validate_by_alias_or s (fc_by_alias c)) in *. set (bn := validate_by_name_or s (fc_by_name c)) in *.
  unfold rebind.
  destruct (td_fields_run c md i last (st_partial s) ba bn key_of (fc_fields c) fa_init _ [] vs s1 Ok eq_refl Nd T) as [R1 R2].
  assert (Eb : extra_behavior_eqb (fc_extra c) ExtraIgnore || md_is_attr md = negb (looks_at_extras c md)) by (unfold looks_at_extras; destruct (fc_extra c), (md_is_attr md); reflexivity).
  rewrite Eb. cbv zeta in X. split.
  - intros F1 F2. rewrite R1 by assumption. cbn [fa_set fa_errors fa_used fa_dict td_after fa_init app].
    destruct (looks_at_extras c md) eqn:Lx; cbn [negb].
    + destruct X as [X1 X2]. rewrite X1.
      destruct (td_extras_run c last (st_partial s) (rev (consumed vs) ++ []) (consumed vs) xs ltac:(intros k; rewrite mem_str_rev, app_nil_r; reflexivity) (data_of vs) (flat_map (td_field_errors last (fc_loc_by_alias c) i) vs) _ _ _ X2) as [E1 _].
      rewrite E1 by assumption. reflexivity.
    + destruct X as (-> & -> & ->). unfold td_errors. cbn [combine flat_map kept overwrite fold_left]. rewrite app_nil_r. reflexivity.
  - intros N. destruct (field_regular_dec vs) as [F|F].
    + rewrite R1 by assumption. cbn [fa_set fa_errors fa_used fa_dict td_after fa_init app].
      destruct (looks_at_extras c md) eqn:Lx; [|destruct X as (-> & -> & ->); exfalso; apply N; split; [assumption|constructor]].
      destruct X as [X1 X2]. rewrite X1. cbn [negb].
      destruct (td_extras_run c last (st_partial s) (rev (consumed vs) ++ []) (consumed vs) xs ltac:(intros k; rewrite mem_str_rev, app_nil_r; reflexivity) (data_of vs) (flat_map (td_field_errors last (fc_loc_by_alias c) i) vs) _ _ _ X2) as [_ E2].
      destruct E2 as (e & s' & -> & He); [intros F'; apply N; auto|]. eauto.
    + destruct (R2 F) as (e & s' & -> & He). eauto.
Qed.

(** C21: success iff nothing in the run is an error; the result holds the fields in
    schema order, then the kept extras written over them. *)
Theorem C21_typed_dict_success : forall c vd i s md last vs xs os s2, td_run c vd i s md last vs xs os s2 ->
  forall v s', typed_dict_validate c vd i s = (VOk v, s') <->
    Forall field_regular vs /\ Forall extra_regular os /\ td_errors c last i vs xs os = [] /\
    v = PDict (overwrite (data_of vs) (kept os)) /\ s' = s2.
Proof.
  intros c vd i s md last vs xs os s2 R v s'. destruct (typed_dict_run _ _ _ _ _ _ _ _ _ _ R) as [M1 M2]. split.
  - intros H. destruct (field_regular_dec vs) as [F1|F1], (extra_regular_dec os) as [F2|F2].
    2,3,4: destruct M2 as (e & s0 & E & _); [intros [? ?]; contradiction|congruence].
    rewrite M1 in H by assumption. destruct (td_errors c last i vs xs os); [|discriminate]. cbn [is_nil] in H. injection H as <- <-. auto 10.
  - intros (F1 & F2 & E & -> & ->). rewrite M1, E by assumption. reflexivity.
Qed.
Print Assumptions C21_typed_dict_success.

(** C21/C19: the errors are exactly those of the fields and extra keys, in order. *)
Theorem C21_typed_dict_errors : forall c vd i s md last vs xs os s2, td_run c vd i s md last vs xs os s2 ->
  forall es s', typed_dict_validate c vd i s = (VErr (LineErrors es), s') <->
    Forall field_regular vs /\ Forall extra_regular os /\ es <> [] /\ s' = s2 /\
    es = flat_map (td_field_errors last (fc_loc_by_alias c) i) vs ++ flat_map (td_extra_errors c last) (combine xs os).
Proof.
  intros c vd i s md last vs xs os s2 R es s'. destruct (typed_dict_run _ _ _ _ _ _ _ _ _ _ R) as [M1 M2]. fold (td_errors c last i vs xs os). split.
  - intros H. destruct (field_regular_dec vs) as [F1|F1], (extra_regular_dec os) as [F2|F2].
    2,3,4: destruct M2 as (e & s0 & E & He); [intros [? ?]; contradiction|rewrite H in E; injection E as <- _; destruct He].
    rewrite M1 in H by assumption. destruct (td_errors c last i vs xs os) eqn:Ea; [discriminate|]. cbn [is_nil] in H. injection H as <- <-. repeat split; auto. discriminate.
  - intros (F1 & F2 & N & -> & ->). rewrite M1 by assumption. destruct (td_errors c last i vs xs os); [congruence|reflexivity].
Qed.
Print Assumptions C21_typed_dict_errors.

Lemma td_trace_outcomes md last p key_of fs : forall done s vs s1, td_trace md last p key_of done fs s = (vs, s1) ->
  map fst vs = fs /\ Forall (fun fo => exists s0 s', td_look md last p (key_of (fst fo)) (fst fo) s0 = (snd fo, s')) vs.
Proof.
  induction fs as [|f fs IH]; intros done s vs s1 T.
  - cbn in T. injection T as <- <-. split; [reflexivity|constructor].
  - cbn [td_trace] in T. destruct (td_look _ _ _ _ f _) as [o s0] eqn:L. destruct (td_trace md last p key_of _ fs s0) as [os s2] eqn:T2. injection T as <- <-.
    destruct (IH _ _ _ _ T2) as [I1 I2]. cbn [map fst]. split; [f_equal; assumption|]. constructor; [cbn [fst snd]; eauto|assumption].
Qed.

Lemma overwrite_get k kvs : forall d, str_keys d ->
  dict_get (PStr k) (overwrite d kvs) = match assoc k (rev kvs) with Some v => Some v | None => dict_get (PStr k) d end.
Proof.
  unfold overwrite. intros d K.
  assert (G : str_keys (fold_left (fun d kv => dict_set (PStr (fst kv)) (snd kv) d) kvs d) /\
    dict_get (PStr k) (fold_left (fun d kv => dict_set (PStr (fst kv)) (snd kv) d) kvs d) = match assoc k (rev kvs) with Some v => Some v | None => dict_get (PStr k) d end).
  { induction kvs as [|[k' v'] kvs IH] using rev_ind; [split; [assumption|reflexivity]|].
    rewrite fold_left_app. cbn [fold_left fst snd]. destruct IH as [K1 G1]. split; [apply str_keys_set; assumption|].
    rewrite dict_get_set_str by assumption. rewrite rev_app_distr. cbn [rev app assoc]. rewrite str_eqb_sym. destruct (str_eqb k k'); [reflexivity|assumption]. }
  apply G.
Qed.
Lemma data_of_str_keys vs : str_keys (data_of vs).
Proof. intros k v I. destruct (data_of_names _ _ _ I) as (t & -> & _). eauto. Qed.
Lemma data_of_get vs : NoDup (map (fun fo => f_name (fst fo)) vs) ->
  forall f o, In (f, o) vs -> dict_get (PStr (f_name f)) (data_of vs) = value_of o.
Proof.
  induction vs as [|[g o'] vs IH]; intros Nd f o I; [destruct I|]. cbn [map fst] in Nd. inversion Nd as [|? ? N1 N2]; subst.
  assert (Skip : forall d, (forall k v, In (k, v) d -> exists t, k = PStr t /\ t <> f_name f) -> dict_get (PStr (f_name f)) d = None).
  { induction d as [|[k v] d IHd]; intros Hd; [reflexivity|]. cbn [dict_get]. destruct (Hd k v (or_introl eq_refl)) as (t & -> & Ht). rewrite py_eq_str.
    destruct (str_eqb t (f_name f)) eqn:E; [apply str_eqb_eq in E; congruence|]. apply IHd. intros k' v' I'. apply (Hd k' v'). right. exact I'. }
  unfold data_of. cbn [flat_map fst snd]. fold (data_of vs). destruct I as [I|I].
  - injection I as <- <-. destruct (value_of o') as [v|]; cbn [app].
    + cbn [dict_get]. rewrite py_eq_str, str_eqb_refl. reflexivity.
    + apply Skip. intros k v Ik. destruct (data_of_names _ _ _ Ik) as (t & -> & It). exists t. split; [reflexivity|]. intros ->. contradiction.
  - rewrite <- (IH N2 f o I). destruct (value_of o') as [v|]; cbn [app]; [|reflexivity]. cbn [dict_get]. rewrite py_eq_str.
    destruct (str_eqb (f_name g) (f_name f)) eqn:E; [|reflexivity]. apply str_eqb_eq in E. exfalso. apply N1. rewrite E. apply in_map_iff. exists (f, o). auto.
Qed.

(** C21: when the input's values can be read, a successful result contains every
    required key, unless that key's own schema dropped it by raising
    [PydanticOmit]. *)
Theorem C21_required_present : forall c vd i s md last vs xs os s2 d s', td_run c vd i s md last vs xs os s2 ->
  Forall nonempty_field (fc_fields c) ->
  (forall k es, md_get md k <> VErr (LineErrors es)) ->
  typed_dict_validate c vd i s = (VOk (PDict d), s') ->
  forall f, In f (fc_fields c) -> f_required f = true ->
    (exists v, dict_get (PStr (f_name f)) d = Some v) \/
    (exists p, In (f, Found p (VErr Omit)) vs) \/ (exists k, In (f, Absent k (VErr Omit)) vs).
Proof.
  intros c vd i s md last vs xs os s2 d s' R Ne Nl H f If Rq.
  pose proof (proj1 (C21_typed_dict_success _ _ _ _ _ _ _ _ _ _ R _ s') H) as (F1 & F2 & E & Ev & _). injection Ev as ->.
  destruct R as [_ _ (key_of & s1 & [Nd Ok] & T & _)]. destruct (td_trace_outcomes _ _ _ _ _ _ _ _ _ T) as [T1 T2].
  rewrite <- T1 in If. apply in_map_iff in If. destruct If as ([f' o] & Ef & I). cbn [fst] in Ef. subst f'.
  rewrite Forall_forall in F1, T2, Ne, Ok. specialize (F1 _ I). destruct (T2 _ I) as (s0 & s0' & L).
  assert (If : In f (fc_fields c)) by (rewrite <- T1; apply in_map_iff; exists (f, o); auto).
  destruct (Ne f If) as [Ne1 Ne2]. destruct (Ok f If) as [_ Bk].
  assert (E0 : td_field_errors last (fc_loc_by_alias c) i (f, o) = []).
  { unfold td_errors in E. apply app_eq_nil in E. destruct E as [E _]. destruct (td_field_errors last (fc_loc_by_alias c) i (f, o)) as [|e es] eqn:Ef; [reflexivity|].
    assert (Ie : In e (flat_map (td_field_errors last (fc_loc_by_alias c) i) vs)) by (apply in_flat_map; exists (f, o); rewrite Ef; split; [assumption|left; reflexivity]). rewrite E in Ie. destruct Ie. }
  assert (Got : forall v, value_of o = Some v -> exists v, dict_get (PStr (f_name f)) (overwrite (data_of vs) (kept os)) = Some v).
  { intros v Hv. rewrite overwrite_get by apply data_of_str_keys. destruct (assoc _ _) as [w|]; [eauto|]. exists v. rewrite <- Hv. apply data_of_get; [|assumption].
    rewrite <- T1 in Nd. rewrite map_map in Nd. exact Nd. }
  unfold td_look in L. cbn [fst snd] in L. unfold td_field_errors in E0. cbn [fst snd] in E0. rewrite Rq in E0.
  destruct o as [e|p [x|[es| | | |]]|k [[x|]|[es| | | |]]]; cbn in F1; try contradiction; try (left; eapply Got; reflexivity); try (right; eauto; fail).
  - exfalso. destruct e as [es| | | |]; try contradiction. destruct (md_get md (key_of f)) as [[[p x]|]|e] eqn:G.
    + destruct (rebind _ _ _); discriminate.
    + destruct (cv_default _ _ s0); discriminate.
    + injection L as -> _. eapply Nl; exact G.
  - exfalso. rewrite andb_false_r in E0. apply map_eq_nil in E0. subst es. destruct (md_get md (key_of f)) as [[[p' x]|]|e]; [|destruct (cv_default _ _ s0); discriminate|discriminate].
    unfold rebind in L. destruct (cv_validate (f_cv f) x _) as [r s3] eqn:C. injection L as -> -> _. eapply Ne1; [exact C|reflexivity].
  - exfalso. destruct (md_get md (key_of f)) as [[[p' x]|]|e]; [destruct (rebind _ _ _); discriminate| |discriminate].
    destruct (cv_default _ _ s0) as [r s3]. injection L as <- _ _. destruct Bk as [_ Bk]. destruct (key_of f) as [p|p q|[|p ps]]; try discriminate E0. congruence.
  - exfalso. subst es. destruct (md_get md (key_of f)) as [[[p' x]|]|e]; [destruct (rebind _ _ _); discriminate| |discriminate].
    destruct (cv_default _ _ s0) as [r s3] eqn:C. injection L as _ -> _. eapply Ne2; [exact C|reflexivity].
Qed.
Print Assumptions C21_required_present.

(** The readability hypothesis holds for Python dicts and for JSON. *)
Theorem C21_readable : forall repr strict i md k es, validate_dict repr strict i = VOk md ->
  match i with IStrings _ => False | _ => True end -> md_get md k <> VErr (LineErrors es).
Proof.
  intros repr strict i md k es H Hi. destruct i as [v|[| | | | | |]| |]; cbn in H; try discriminate H; try contradiction.
  - destruct (dict_items v); [|discriminate H]. injection H as <-. discriminate.
  - injection H as <-. discriminate.
Qed.
Print Assumptions C21_readable.

(** C21 is false for string mappings: a required key whose value is neither a string
    nor a dict is silently dropped. *)
Definition td_ex_cfg (e : extra_behavior) (alias : option alias_item) : fields_cfg :=
  {| fc_fields := [ex_field (lit "a") alias (no_default ex_int)]; fc_extra := e; fc_extras := None; fc_extras_keys := None;
     fc_strict := false; fc_from_attributes := false; fc_loc_by_alias := true; fc_by_alias := None; fc_by_name := None |}.
Theorem C21_required_strings_refuted :
  exists c i s f s', In f (fc_fields c) /\ f_required f = true /\ Forall nonempty_field (fc_fields c) /\
    typed_dict_validate c (validate_dict ex_repr) i s = (VOk (PDict []), s').
Proof.
  exists (td_ex_cfg ExtraIgnore None), (IStrings (PDict [(PStr (lit "a"), PInt 1)])), ex_state, (ex_field (lit "a") None (no_default ex_int)). eexists.
  split; [left; reflexivity|]. split; [reflexivity|]. split; [|reflexivity].
  constructor; [|constructor]. split.
  - intros i s es s' H. cbn in H. unfold ex_int in H. destruct (input_object i); injection H; intros; subst; discriminate.
  - intros l s es s' H. cbn in H. discriminate H.
Qed.
Print Assumptions C21_required_strings_refuted.

(** C61: every field's value in the result is the one its schema produced, as long as
    no kept extra key has the name of a field ... *)
Theorem C61_field_values : forall c vd i s md last vs xs os s2 d s', td_run c vd i s md last vs xs os s2 ->
  typed_dict_validate c vd i s = (VOk (PDict d), s') ->
  (fc_extra c = ExtraAllow -> forall key kloc value k, In (key, kloc, value) xs -> key_str key = VOk k -> ~ In k (consumed vs) ->
     ~ In k (map f_name (fc_fields c))) ->
  forall f o, In (f, o) vs -> dict_get (PStr (f_name f)) d = value_of o.
Proof.
  intros c vd i s md last vs xs os s2 d s' R H Ex f o I.
  apply (C21_typed_dict_success _ _ _ _ _ _ _ _ _ _ R) in H. destruct H as (_ & _ & _ & Ev & _). injection Ev as ->.
  destruct R as [_ _ (key_of & s1 & [Nd Ok] & T & X)]. destruct (td_trace_outcomes _ _ _ _ _ _ _ _ _ T) as [T1 T2].
  assert (If : In (f_name f) (map f_name (fc_fields c))) by (rewrite <- T1, map_map; apply in_map_iff; exists (f, o); auto).
  rewrite overwrite_get by apply data_of_str_keys.
  assert (Hk : assoc (f_name f) (rev (kept os)) = None).
  { assert (Hn : ~ In (f_name f) (map fst (kept os))).
    { cbv zeta in X. destruct (looks_at_extras c md); [|destruct X as (_ & -> & _); intros []]. destruct X as [_ X].
      clear T. revert X. generalize (set_extra (st_extra s) (add_fields_set (length (found_names vs)) s1)).
      revert os s2. induction xs as [|x xs IH]; intros os s2 s0 X; cbn [td_extra_trace] in X; [injection X as <- <-; intros []|].
      destruct (td_extra_look _ _ _ _ x s0) as [o1 s3] eqn:L. destruct (td_extra_trace _ _ _ _ xs s3) as [os1 s4] eqn:T. injection X as <- <-.
      unfold kept. cbn [flat_map]. fold (kept os1). rewrite map_app, in_app_iff. intros [In1|In1].
      - unfold td_extra_look in L. destruct (key_str (fst (fst x))) as [k|] eqn:Ek; [|injection L as <- _; destruct In1].
        destruct (mem_str k (consumed vs)) eqn:Mk; [injection L as <- _; destruct In1|].
        destruct (fc_extra c) eqn:Fe; [|injection L as <- _; destruct In1|injection L as <- _; destruct In1].
        assert (k = f_name f). { destruct (fc_extras c) as [v|]; [destruct (v _ _) as [[w|e] s5]|]; injection L as <- _; cbn in In1; intuition. }
        subst k. destruct x as [[key kloc] value]. eapply (Ex eq_refl key kloc value); [left; reflexivity|exact Ek| |exact If].
        intros C. apply mem_str_In in C. congruence.
      - eapply IH; [| exact T|exact In1]. intros Ha key kloc value k Ik. apply (Ex Ha key kloc value k). right. exact Ik. }
    revert Hn. induction (kept os) as [|[k v] l IH] using rev_ind; intros Hn; [reflexivity|]. rewrite rev_app_distr. cbn [rev app assoc].
    rewrite map_app, in_app_iff in Hn. cbn [map fst In] in Hn. destruct (str_eqb (f_name f) k) eqn:E; [apply str_eqb_eq in E; exfalso; apply Hn; right; left; auto|].
    rewrite str_eqb_sym in E. rewrite ?E. try rewrite str_eqb_sym, E. apply IH. intros I'. apply Hn. left. exact I'. }
  rewrite Hk. apply data_of_get; [|assumption]. rewrite <- T1, map_map in Nd. exact Nd.
Qed.
Print Assumptions C61_field_values.

(** ... and it is false without that: with extra="allow" an input holding both the
    alias and the name of a field gets the unvalidated extra in the field's place. *)
Theorem C61_field_values_refuted :
  exists c i s s', c = td_ex_cfg ExtraAllow (Some (ASt (lit "x"))) /\
    i = IJson (JObj [(lit "x", JInt 1); (lit "a", JStr (lit "not an int"))]) /\
    typed_dict_validate c (validate_dict ex_repr) i s = (VOk (PDict [(PStr (lit "a"), PStr (lit "not an int"))]), s').
Proof. do 2 eexists. exists ex_state. eexists. split; [reflexivity|]. split; reflexivity. Qed.
Print Assumptions C61_field_values_refuted.

(** Non-vacuity: two required fields and an optional one, partial input. *)
Definition td_ex2 (e : extra_behavior) : fields_cfg :=
  {| fc_fields := [ex_field (lit "a") (Some (ASt (lit "x"))) (no_default ex_int);
                   {| f_name := lit "b"; f_keys := ex_keys (lit "b") None; f_cv := no_default ex_int; f_frozen := false; f_required := false |}];
     fc_extra := e; fc_extras := None; fc_extras_keys := None; fc_strict := false; fc_from_attributes := false;
     fc_loc_by_alias := true; fc_by_alias := None; fc_by_name := None |}.
Definition ex_partial : state := {| st_exactness := Some Exact; st_fields_set := None; st_partial := PartialOn; st_extra := ex_extra |}.
Lemma td_ex_good e : good_fields (td_ex2 e) (fun f => match collection_select (f_keys f) true false with BOk k => k | BErr => Simple (path_from_str (f_name f)) end) true false.
Proof.
  split.
  - repeat constructor; cbn; intuition discriminate.
  - repeat constructor; try reflexivity; try discriminate; try (intros [|]; discriminate); cbn; auto.
Qed.
Definition td_ex_in : input := IJson (JObj [(lit "x", JInt 1); (lit "z", JNull); (lit "b", JStr (lit "12"))]).
Example C21_ex_run : exists md vs os s2, td_run (td_ex2 ExtraAllow) (validate_dict ex_repr) td_ex_in ex_partial md (Some (LStr (lit "b"))) vs
    [(IKey (lit "x"), LStr (lit "x"), IJson (JInt 1)); (IKey (lit "z"), LStr (lit "z"), IJson JNull); (IKey (lit "b"), LStr (lit "b"), IJson (JStr (lit "12")))] os s2 /\
  Forall field_regular vs /\ Forall extra_regular os /\ td_errors (td_ex2 ExtraAllow) (Some (LStr (lit "b"))) td_ex_in vs [] os = [].
Proof.
  do 4 eexists. split; [split; [reflexivity|reflexivity|]|].
  - eexists. eexists. split; [apply td_ex_good|]. split; [reflexivity|]. cbn [looks_at_extras td_ex2 fc_extra md_is_attr json_mdict negb]. split; reflexivity.
  - split; [repeat constructor|]. split; [repeat constructor|]. reflexivity.
Qed.
Example C21_ex : exists s', typed_dict_validate (td_ex2 ExtraAllow) (validate_dict ex_repr) td_ex_in ex_partial =
  (VOk (PDict [(PStr (lit "a"), PInt 1); (PStr (lit "z"), PNone)]), s').
Proof. eexists. reflexivity. Qed.
Example C21_ex_fail : exists s' es, typed_dict_validate (td_ex2 ExtraForbid) (validate_dict ex_repr) td_ex_in ex_state = (VErr (LineErrors es), s') /\
  map (fun e => (le_type e, loc_path (le_loc e))) es = [(EIntType, [LStr (lit "b")]); (EExtraForbidden, [LStr (lit "z")])].
Proof. eexists. eexists. split; reflexivity. Qed.
