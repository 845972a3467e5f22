(** C18 - C20: model fields over arbitrary field validators. *)
From Coq Require Import List NArith ZArith Bool Lia.
From Verif Require Import Base Float64 Values VState LookupKey LookupKeySpec LookupKeyProofs Collections CollectionsSpec CollectionsProofs Child Inputs ModelFields ModelFieldsSpec ModelFieldsProofs.
Import ListNotations.
Open Scope nat_scope.

(** The run of a model-fields schema: the mapping read from the input, the outcome of
    every field and (when they are looked at) of every extra key. *)
Record run (c : fields_cfg) (vmf : bool -> bool -> input -> vres mdict) (i : input) (s : state)
    (md : mdict) (vs : list (field * outcome)) (xs : list (input * loc_item * input)) (os : list eoutcome) (s2 : state) : Prop := {
  run_input : vmf (strict_or s (fc_strict c)) (unwrap_or (x_from_attributes (st_extra s)) (fc_from_attributes c)) i = VOk md;
  run_fields : exists key_of s1,
    good_fields c key_of (validate_by_alias_or s (fc_by_alias c)) (validate_by_name_or s (fc_by_name c)) /\
    fields_trace md key_of [] (fc_fields c) (set_extra (set_data (Some []) (st_extra s)) (set_partial PartialOff s)) = (vs, s1) /\
    (if looks_at_extras c md then md_iter md = VOk (map to_entry xs) /\ extra_trace c (consumed vs) xs (set_extra (st_extra s) s1) = (os, s2)
     else xs = [] /\ os = [] /\ s2 = set_extra (st_extra s) s1) }.

Definition all_errors (c : fields_cfg) (i : input) vs xs os : list line_error :=
  flat_map (field_errors (fc_loc_by_alias c) i) vs ++ flat_map (extra_errors c) (combine xs os).

Definition model_result (c : fields_cfg) (vs : list (field * outcome)) (os : list eoutcome) : pyval :=
  PTuple [PDict (data_of vs);
          match fc_extra c with ExtraAllow => PDict (dict_of (kept os)) | _ => PNone end;
          PSet (set_of (found_names vs ++ map fst (kept os)))].

(** C18/C19: the result is determined by the outcomes of the fields and extra keys:
    an exception of a validator escapes; otherwise all errors are reported; otherwise
    the values, the extras and the set of fields are returned. *)
Lemma model_fields_run : forall c vmf i s md vs xs os s2, run c vmf i s md vs xs os s2 ->
  (Forall field_regular vs -> Forall extra_regular os ->
   model_fields_validate c vmf i s =
     if is_nil (all_errors c i vs xs os) then (VOk (model_result c vs os), add_fields_set (length (found_names vs)) s2)
     else (VErr (LineErrors (all_errors c i vs xs os)), s2)) /\
  (~ (Forall field_regular vs /\ Forall extra_regular os) ->
   exists e s', model_fields_validate c vmf i s = (VErr e, s') /\ match e with LineErrors _ => False | _ => True end).
Proof.
  intros c vmf i s md vs xs os s2 [H1 (key_of & s1 & [Nd Ok] & T & X)]. unfold model_fields_validate.
  change (strict_or (set_partial PartialOff s) (fc_strict c)) with (strict_or s (fc_strict c)).
  change (st_extra (set_partial PartialOff s)) with (st_extra s).
  rewrite H1. change (validate_by_alias_or (set_partial PartialOff s)) with (validate_by_alias_or s). change (validate_by_name_or (set_partial PartialOff s)) with (validate_by_name_or s).
  set (ba := validate_by_alias_or s (fc_by_alias c)) in *. set (bn := validate_by_name_or s (fc_by_name c)) in *.
  unfold rebind. change (st_extra (set_partial PartialOff s)) with (st_extra s).
  destruct (fields_run_all c md i ba bn key_of (fc_fields c) _ vs s1 Ok Nd T) as [R1 R2].
  assert (Eb : extra_behavior_eqb (fc_extra c) ExtraIgnore || md_is_attr md = negb (looks_at_extras c md)) by (unfold looks_at_extras; destruct (fc_extra c), (md_is_attr md); reflexivity).
  split.
  - intros F1 F2. rewrite R1 by assumption. rewrite Eb. cbn [fa_set fa_errors fa_used fa_dict acc_after fa_init app].
    destruct (looks_at_extras c md) eqn:Lx.
    + destruct X as [X1 X2]. rewrite X1. cbn [negb].
      destruct (extras_run c (rev (consumed vs) ++ []) (consumed vs) xs ltac:(intros k; rewrite mem_str_rev, app_nil_r; reflexivity) [] (flat_map (field_errors (fc_loc_by_alias c) i) vs) (found_names vs) _ _ _ X2) as [E1 _].
      rewrite E1 by assumption. fold (all_errors c i vs xs os). destruct (is_nil _); [|reflexivity]. unfold model_result. destruct (fc_extra c); reflexivity.
    + destruct X as (-> & -> & ->). cbn [negb]. unfold all_errors. cbn [combine flat_map]. rewrite app_nil_r. destruct (is_nil _); [|reflexivity].
      unfold model_result. cbn [kept flat_map map unwrap_or]. rewrite app_nil_r. destruct (fc_extra c); reflexivity.
  - intros N. destruct (field_regular_dec vs) as [F|F].
    + rewrite R1 by assumption. rewrite Eb. cbn [fa_set fa_errors fa_used fa_dict acc_after fa_init app].
      destruct (looks_at_extras c md) eqn:Lx; [|destruct X as (-> & -> & ->); exfalso; apply N; split; [assumption|constructor]].
      destruct X as [X1 X2]. rewrite X1. cbn [negb].
      destruct (extras_run c (rev (consumed vs) ++ []) (consumed vs) xs ltac:(intros k; rewrite mem_str_rev, app_nil_r; reflexivity) [] (flat_map (field_errors (fc_loc_by_alias c) i) vs) (found_names vs) _ _ _ X2) as [_ E2].
      destruct E2 as (e & s' & -> & He); [intros F'; apply N; auto|]. eauto.
    + destruct (R2 F) as (e & s' & -> & He). eauto.
Qed.

(** C18: success iff no field or extra key has an error; the result lists the
    fields' values in schema order, the extras, and the names that were set. *)
Theorem C18_model_success : forall c vmf i s md vs xs os s2, run c vmf i s md vs xs os s2 ->
  forall v s', model_fields_validate c vmf i s = (VOk v, s') <->
    Forall field_regular vs /\ Forall extra_regular os /\ all_errors c i vs xs os = [] /\
    v = PTuple [PDict (data_of vs);
                match fc_extra c with ExtraAllow => PDict (dict_of (kept os)) | _ => PNone end;
                PSet (set_of (found_names vs ++ map fst (kept os)))] /\
    s' = add_fields_set (length (found_names vs)) s2.
Proof.
  intros c vmf i s md vs xs os s2 R v s'. destruct (model_fields_run _ _ _ _ _ _ _ _ _ R) as [M1 M2]. split.
  - intros H. destruct (field_regular_dec vs) as [F1|F1], (extra_regular_dec os) as [F2|F2].
    2,3,4: destruct M2 as (e & s0 & E & _); [intros [? ?]; contradiction|congruence].
    rewrite M1 in H by assumption. destruct (all_errors c i vs xs os); [|discriminate]. cbn [is_nil] in H. injection H as <- <-. auto 10.
  - intros (F1 & F2 & E & -> & ->). rewrite M1, E by assumption. reflexivity.
Qed.
Print Assumptions C18_model_success.

(** C18: so each field of a successful model is found and valid, defaulted, or was
    omitted by its own validator; names_set are the found ones. *)
Definition nonempty_field (f : field) : Prop :=
  nonempty_errors (cv_validate (f_cv f)) /\
  forall l s es s', cv_default (f_cv f) l s = (VErr (LineErrors es), s') -> es <> [].
Definition nonempty_lookup (md : mdict) : Prop := forall k es, md_get md k = VErr (LineErrors es) -> es <> [].

Lemma trace_outcomes md key_of fs : forall done s vs s1, fields_trace md key_of done fs s = (vs, s1) ->
  map fst vs = fs /\ Forall (fun fo => exists s0 s', look md (key_of (fst fo)) (fst fo) s0 = (snd fo, s')) vs.
Proof.
  induction fs as [|f fs IH]; intros done s vs s1 T.
  - cbn in T. injection T as <- <-. split; [reflexivity|constructor].
  - cbn [fields_trace] in T. destruct (look _ _ f _) as [o s0] eqn:L. destruct (fields_trace md key_of _ fs s0) as [os s2] eqn:T2. injection T as <- <-.
    destruct (IH _ _ _ _ T2) as [I1 I2]. cbn [map fst]. split; [f_equal; assumption|]. constructor; [cbn [fst snd]; eauto|assumption].
Qed.

Theorem C18_every_field_accounted : forall c vmf i s md vs xs os s2 v s', run c vmf i s md vs xs os s2 ->
  Forall nonempty_field (fc_fields c) -> nonempty_lookup md ->
  model_fields_validate c vmf i s = (VOk v, s') ->
  map fst vs = fc_fields c /\
  forall f o, In (f, o) vs ->
    (exists p x, o = Found p (VOk x)) \/ (exists k x, o = Absent k (VOk (Some x))) \/
    (exists p, o = Found p (VErr Omit)) \/ (exists k, o = Absent k (VErr Omit)).
Proof.
  intros c vmf i s md vs xs os s2 v s' R Ne Nl H. pose proof (proj1 (C18_model_success _ _ _ _ _ _ _ _ _ R v s') H) as (F1 & F2 & E & _ & _).
  destruct R as [_ (key_of & s1 & [_ Ok] & T & _)]. destruct (trace_outcomes _ _ _ _ _ _ _ T) as [T1 T2]. split; [assumption|].
  intros f o I. rewrite Forall_forall in F1, T2, Ne, Ok. specialize (F1 _ I). destruct (T2 _ I) as (s0 & s0' & L).
  assert (If : In f (fc_fields c)) by (rewrite <- T1; apply in_map_iff; exists (f, o); auto).
  destruct (Ne f If) as [Ne1 Ne2]. destruct (Ok f If) as [_ Bk].
  assert (E0 : field_errors (fc_loc_by_alias c) i (f, o) = []).
  { unfold all_errors in E. apply app_eq_nil in E. destruct E as [E _]. destruct (field_errors (fc_loc_by_alias c) i (f, o)) as [|e es] eqn:Ef; [reflexivity|].
    assert (Ie : In e (flat_map (field_errors (fc_loc_by_alias c) i) vs)) by (apply in_flat_map; exists (f, o); rewrite Ef; split; [assumption|left; reflexivity]). rewrite E in Ie. destruct Ie. }
  unfold look in L. cbn [fst snd] in L. unfold field_errors in E0. cbn [fst snd] in E0.
  destruct o as [e|p [x|[es| | | |]]|k [[x|]|[es| | | |]]]; cbn in F1; try contradiction; eauto 6.
  - destruct e; try contradiction. destruct (md_get md (key_of f)) as [[[p x]|]|e] eqn:G.
    + destruct (rebind _ s0 _); discriminate.
    + destruct (cv_default _ _ s0); discriminate.
    + injection L as -> ->. apply map_eq_nil in E0. exfalso. eapply Nl; eassumption.
  - apply map_eq_nil in E0. subst es. exfalso. destruct (md_get md (key_of f)) as [[[p' x]|]|e]; [|destruct (cv_default _ _ s0); discriminate|discriminate].
    unfold rebind in L. destruct (cv_validate (f_cv f) x _) as [r s3] eqn:C. injection L as -> -> _. eapply Ne1; [exact C|reflexivity].
  - exfalso. destruct (md_get md (key_of f)) as [[[p' x]|]|e]; [destruct (rebind _ s0 _); discriminate| |discriminate].
    destruct (cv_default _ _ s0) as [r s3]. injection L as <- _ _. destruct Bk as [_ Bk]. destruct (key_of f) as [p|p q|[|p ps]]; try discriminate E0. congruence.
  - subst es. exfalso. destruct (md_get md (key_of f)) as [[[p' x]|]|e]; [destruct (rebind _ s0 _); discriminate| |discriminate].
    destruct (cv_default _ _ s0) as [r s3] eqn:C. injection L as _ -> _. eapply Ne2; [exact C|reflexivity].
Qed.
Print Assumptions C18_every_field_accounted.

(** C19: a failure with line errors reports exactly the errors of all fields, in
    schema order, followed by those of all extra keys. *)
Theorem C19_errors_exact : forall c vmf i s md vs xs os s2, run c vmf i s md vs xs os s2 ->
  forall es s', model_fields_validate c vmf i s = (VErr (LineErrors es), s') <->
    Forall field_regular vs /\ Forall extra_regular os /\ es <> [] /\ s' = s2 /\
    es = flat_map (field_errors (fc_loc_by_alias c) i) vs ++ flat_map (extra_errors c) (combine xs os).
Proof.
  intros c vmf i s md vs xs os s2 R es s'. destruct (model_fields_run _ _ _ _ _ _ _ _ _ R) as [M1 M2]. fold (all_errors c i vs xs os). split.
  - intros H. destruct (field_regular_dec vs) as [F1|F1], (extra_regular_dec os) as [F2|F2].
    2,3,4: destruct M2 as (e & s0 & E & He); [intros [? ?]; contradiction|rewrite H in E; injection E as <- _; destruct He].
    rewrite M1 in H by assumption. destruct (all_errors c i vs xs os) eqn:Ea; [discriminate|]. cbn [is_nil] in H. injection H as <- <-. repeat split; auto. discriminate.
  - intros (F1 & F2 & N & -> & ->). rewrite M1 by assumption. destruct (all_errors c i vs xs os); [congruence|reflexivity].
Qed.
Print Assumptions C19_errors_exact.

(** C19: in particular a "missing" error for every absent field without default, at
    the place where it was looked for first, and every error of a failing field at
    the place where its value was found. *)
Theorem C19_missing_and_failing_reported : forall c vmf i s md vs xs os s2 es s', run c vmf i s md vs xs os s2 ->
  model_fields_validate c vmf i s = (VErr (LineErrors es), s') ->
  (forall f key p ps, In (f, Absent key (VOk None)) vs -> paths_of key = p :: ps ->
     exists e, In e es /\ le_type e = EMissing /\ le_input e = i /\
       loc_path (le_loc e) = if fc_loc_by_alias c then map to_loc_item (items p) else [LStr (f_name f)]) /\
  (forall f p fes e, In (f, Found p (VErr (LineErrors fes))) vs -> In e fes ->
     exists e', In e' es /\ le_type e' = le_type e /\ le_input e' = le_input e /\
       loc_path (le_loc e') = (if fc_loc_by_alias c then map to_loc_item (items p) else [LStr (f_name f)]) ++ loc_path (le_loc e)) /\
  (fc_extra c = ExtraForbid -> forall key kloc value, In ((key, kloc, value), Unknown) (combine xs os) ->
     exists e, In e es /\ le_type e = EExtraForbidden /\ le_input e = value /\ loc_path (le_loc e) = [kloc]).
Proof.
  intros c vmf i s md vs xs os s2 es s' R H. apply (C19_errors_exact _ _ _ _ _ _ _ _ _ R) in H. destruct H as (_ & _ & _ & _ & ->).
  assert (U : forall loc e, loc_path (le_loc (under loc e)) = loc ++ loc_path (le_loc e) /\ le_type (under loc e) = le_type e /\ le_input (under loc e) = le_input e).
  { induction loc as [|l loc IH]; intros e; [repeat split|]. unfold under. cbn [fold_right]. fold (under loc e). destruct (with_outer_path l (under loc e)) as (W1 & W2 & W3). destruct (IH e) as (I1 & I2 & I3).
    rewrite W1, W2, W3, I1, I2, I3. repeat split. }
  split; [|split].
  - intros f key p ps I P. exists (missing_error i (field_loc (fc_loc_by_alias c) p (f_name f))). split.
    + apply in_or_app. left. apply in_flat_map. eexists. split; [exact I|]. cbn. rewrite P. left. reflexivity.
    + repeat split. cbn. rewrite rev_involutive. reflexivity.
  - intros f p fes e I Ie. exists (under (field_loc (fc_loc_by_alias c) p (f_name f)) e). destruct (U (field_loc (fc_loc_by_alias c) p (f_name f)) e) as (U1 & U2 & U3). split.
    + apply in_or_app. left. apply in_flat_map. eexists. split; [exact I|]. cbn. apply in_map. assumption.
    + rewrite U1. auto.
  - intros Fb key kloc value I. eexists. split.
    + apply in_or_app. right. apply in_flat_map. eexists. split; [exact I|]. cbn. rewrite Fb. left. reflexivity.
    + repeat split.
Qed.
Print Assumptions C19_missing_and_failing_reported.

(** C19: if looking at the input itself fails, that is what is reported. *)
Theorem C19_not_a_mapping : forall c vmf i s e,
  vmf (strict_or s (fc_strict c)) (unwrap_or (x_from_attributes (st_extra s)) (fc_from_attributes c)) i = VErr e ->
  exists e', model_fields_validate c vmf i s = (VErr e', set_partial PartialOff s) /\
  match e with
  | LineErrors es => exists es', e' = LineErrors es' /\
      Forall2 (fun a b => le_loc a = le_loc b /\ le_input a = le_input b /\
                          le_type b = (match le_type a with EDictType => EModelType | t => t end)) es es'
  | _ => e' = e
  end.
Proof.
  intros c vmf i s e H. unfold model_fields_validate.
  change (strict_or (set_partial PartialOff s) (fc_strict c)) with (strict_or s (fc_strict c)).
  change (st_extra (set_partial PartialOff s)) with (st_extra s). rewrite H.
  destruct e as [es| | | |]; eexists; (split; [reflexivity|]); try reflexivity.
  eexists. split; [reflexivity|]. clear H. induction es as [|e es IH]; [constructor|]. cbn [model_type_errors map]. constructor; [destruct e as [t l j]; destruct t; cbn; auto|exact IH].
Qed.
Print Assumptions C19_not_a_mapping.

(** C20, forbid: success means every key of the input is a string under which some
    field was found. *)
Lemma extra_trace_length c used xs : forall s os s2, extra_trace c used xs s = (os, s2) -> length os = length xs.
Proof.
  induction xs as [|x xs IH]; intros s os s2 H; cbn [extra_trace] in H; [injection H as <- <-; reflexivity|].
  destruct (extra_look c used x s) as [o s1]. destruct (extra_trace c used xs s1) as [os1 s3] eqn:T. injection H as <- <-. cbn. f_equal. eauto.
Qed.
Lemma extra_trace_look c used xs : forall s os s2, extra_trace c used xs s = (os, s2) ->
  forall x o, In (x, o) (combine xs os) -> exists s0 s0', extra_look c used x s0 = (o, s0').
Proof.
  induction xs as [|x xs IH]; intros s os s2 H y o I; cbn [extra_trace] in H; [destruct I|].
  destruct (extra_look c used x s) as [o1 s1] eqn:L. destruct (extra_trace c used xs s1) as [os1 s3] eqn:T. injection H as <- <-.
  cbn [combine] in I. destruct I as [I|I]; [injection I as <- <-; eauto|]. eapply IH; eassumption.
Qed.
Lemma in_combine_l' {A B} (xs : list A) : forall (os : list B) x, length os = length xs -> In x xs -> exists o, In (x, o) (combine xs os).
Proof.
  induction xs as [|y xs IH]; intros os x L I; [destruct I|]. destruct os as [|o os]; [discriminate|]. destruct I as [->|I]; [exists o; left; reflexivity|].
  cbn in L. destruct (IH os x ltac:(lia) I) as [o' Io]. exists o'. right. assumption.
Qed.

Theorem C20_forbid : forall c vmf i s md vs xs os s2 v s', run c vmf i s md vs xs os s2 ->
  fc_extra c = ExtraForbid -> md_is_attr md = false ->
  model_fields_validate c vmf i s = (VOk v, s') ->
  forall key kloc value, In (key, kloc, value) xs -> exists k, key_str key = VOk k /\ In k (consumed vs).
Proof.
  intros c vmf i s md vs xs os s2 v s' R Fb At H key kloc value I.
  apply (C18_model_success _ _ _ _ _ _ _ _ _ R) in H. destruct H as (_ & _ & E & _ & _).
  destruct R as [_ (key_of & s1 & _ & _ & X)]. unfold looks_at_extras in X. rewrite Fb, At in X. cbn [negb] in X. destruct X as [_ X].
  destruct (in_combine_l' xs os _ (extra_trace_length _ _ _ _ _ _ X) I) as [o Io]. destruct (extra_trace_look _ _ _ _ _ _ X _ _ Io) as (s0 & s0' & L).
  unfold all_errors in E. apply app_eq_nil in E. destruct E as [_ E].
  assert (Ee : extra_errors c (key, kloc, value, o) = []).
  { destruct (extra_errors c (key, kloc, value, o)) as [|e es] eqn:Ef; [reflexivity|]. assert (Ie : In e (flat_map (extra_errors c) (combine xs os))) by (apply in_flat_map; eexists; split; [exact Io|]; rewrite Ef; left; reflexivity). rewrite E in Ie. destruct Ie. }
  unfold extra_look in L. cbn [fst snd] in L. destruct (key_str key) as [k|e].
  - exists k. split; [reflexivity|]. destruct (mem_str k (consumed vs)) eqn:M; [apply mem_str_In; assumption|]. rewrite Fb in L. injection L as <- _. cbn in Ee. rewrite Fb in Ee. discriminate.
  - injection L as <- _. discriminate.
Qed.
Print Assumptions C20_forbid.

(** C20, ignore: the keys of the input are not even looked at. *)
Theorem C20_ignore : forall c vmf vmf' i s, fc_extra c = ExtraIgnore ->
  (forall st fa, match vmf st fa i, vmf' st fa i with
                 | VOk md, VOk md' => md_get md = md_get md'
                 | VErr e, VErr e' => e = e'
                 | _, _ => False end) ->
  model_fields_validate c vmf i s = model_fields_validate c vmf' i s.
Proof.
  intros c vmf vmf' i s Ig H. unfold model_fields_validate. specialize (H (strict_or (set_partial PartialOff s) (fc_strict c)) (unwrap_or (x_from_attributes (st_extra (set_partial PartialOff s))) (fc_from_attributes c))).
  destruct (vmf _ _ i) as [md|e], (vmf' _ _ i) as [md'|e']; try contradiction; [|subst; reflexivity].
  assert (L : forall ba bn fs a s, fields_loop c md i ba bn fs a s = fields_loop c md' i ba bn fs a s).
  { intros ba bn. induction fs as [|f fs IH]; intros a s0; [reflexivity|]. cbn [fields_loop]. rewrite H. destruct (collection_select _ ba bn); [|reflexivity].
    destruct (md_get md' _) as [[[p x]|]|[es| | | |]]; try reflexivity; [| |apply IH].
    - destruct (rebind _ _ _) as [[w|[es| | | |]] s']; try reflexivity; apply IH.
    - destruct (cv_default _ _ _) as [[[w|]|[es| | | |]] s']; try reflexivity; try apply IH. destruct (key_error _ _ _ _ _); [apply IH|reflexivity]. }
  unfold rebind. rewrite L. rewrite Ig. reflexivity.
Qed.
Print Assumptions C20_ignore.

(** C20, allow: the extras are exactly the entries whose key no field was found
    under, the last one winning. *)
Definition unknown (consumed : list str) (x : input * loc_item * input) : list (str * pyval) :=
  match key_str (fst (fst x)) with VOk k => if mem_str k consumed then [] else [(k, input_object (snd x))] | VErr _ => [] end.
Theorem C20_allow : forall c vmf i s md vs xs os s2 v s', run c vmf i s md vs xs os s2 ->
  fc_extra c = ExtraAllow -> md_is_attr md = false -> fc_extras c = None -> fc_extras_keys c = None ->
  model_fields_validate c vmf i s = (VOk v, s') ->
  exists fset, v = PTuple [PDict (data_of vs); PDict (dict_of (flat_map (unknown (consumed vs)) xs)); PSet fset] /\
    fset = set_of (found_names vs ++ map fst (flat_map (unknown (consumed vs)) xs)).
Proof.
  intros c vmf i s md vs xs os s2 v s' R Al At N1 N2 H.
  apply (C18_model_success _ _ _ _ _ _ _ _ _ R) in H. destruct H as (_ & _ & _ & -> & _). rewrite Al.
  destruct R as [_ (key_of & s1 & _ & _ & X)]. unfold looks_at_extras in X. rewrite Al, At in X. cbn [negb] in X. destruct X as [_ X].
  assert (K : kept os = flat_map (unknown (consumed vs)) xs).
  { clear At. revert os s2 X. generalize (set_extra (st_extra s) s1). induction xs as [|x xs IH]; intros s0 os s2 X; cbn [extra_trace] in X; [injection X as <- <-; reflexivity|].
    destruct (extra_look c (consumed vs) x s0) as [o s3] eqn:L. destruct (extra_trace c (consumed vs) xs s3) as [os1 s4] eqn:T. injection X as <- <-.
    unfold kept. cbn [flat_map]. fold (kept os1). rewrite (IH _ _ _ T). f_equal. unfold extra_look in L. unfold unknown. destruct (key_str (fst (fst x))) as [k|e]; [|injection L as <- _; reflexivity].
    destruct (mem_str k (consumed vs)); [injection L as <- _; reflexivity|]. rewrite Al, N1, N2 in L. cbn [as_str] in L. injection L as <- _. reflexivity. }
  rewrite K. eauto.
Qed.
Print Assumptions C20_allow.

(** C20: a key under which a field was found is never treated as an extra. *)
Theorem C20_consumed_not_extra : forall c vmf i s md vs xs os s2 x o, run c vmf i s md vs xs os s2 ->
  In (x, o) (combine xs os) -> forall k, key_str (fst (fst x)) = VOk k -> In k (consumed vs) -> o = Consumed.
Proof.
  intros c vmf i s md vs xs os s2 x o [_ (key_of & s1 & _ & _ & X)] I k Hk C.
  destruct (looks_at_extras c md); [|destruct X as (-> & _ & _); destruct I].
  destruct X as [_ X]. destruct (extra_trace_look _ _ _ _ _ _ X _ _ I) as (s0 & s0' & L). unfold extra_look in L. rewrite Hk in L.
  apply mem_str_In in C. rewrite C in L. injection L as <- _. reflexivity.
Qed.
Print Assumptions C20_consumed_not_extra.

(** C18/C20: the value of every key in the dicts of extras is the last one given. *)
Theorem C20_last_extra_wins : forall kvs k,
  dict_get (PStr k) (dict_of kvs) = assoc k (rev kvs).
Proof.
  intros kvs k. unfold dict_of.
  assert (G : forall d, str_keys d -> str_keys (fold_left (fun d kv => dict_set (PStr (fst kv)) (snd kv) d) kvs d) /\
    dict_get (PStr k) (fold_left (fun d kv => dict_set (PStr (fst kv)) (snd kv) d) kvs d) = match assoc k (rev kvs) with Some v => Some v | None => dict_get (PStr k) d end).
  { induction kvs as [|[k' v'] kvs IH] using rev_ind; intros d K; [split; [assumption|reflexivity]|].
    rewrite fold_left_app. cbn [fold_left fst snd]. destruct (IH d K) as [K1 G1]. split; [apply str_keys_set; assumption|].
    rewrite dict_get_set_str by assumption. rewrite rev_app_distr. cbn [rev app assoc]. rewrite str_eqb_sym. destruct (str_eqb k k'); [reflexivity|assumption]. }
  destruct (G [] ltac:(intros ? ? [])) as [_ ->]. destruct (assoc k (rev kvs)); reflexivity.
Qed.
Print Assumptions C20_last_extra_wins.

(** Non-vacuity: a model with an alias, a default, and extra keys. *)
Definition ex_int : validator := fun i s => match input_object i with PInt z => (VOk (PInt z), s) | _ => (val_err EIntType i, s) end.
Definition ex_keys (name : str) (alias : option alias_item) : key_collection :=
  match collection_new alias name with BOk c => c | BErr => {| kc_by_name := Simple (path_from_str name); kc_by_alias := None; kc_by_alias_then_name := None |} end.
Definition ex_field (name : str) (alias : option alias_item) (v : cv) : field :=
  {| f_name := name; f_keys := ex_keys name alias; f_cv := v; f_frozen := false; f_required := true |}.
Definition ex_cfg (e : extra_behavior) : fields_cfg :=
  {| fc_fields := [ex_field (lit "a") (Some (ALi [ALi [ASt (lit "x"); AIn 0]])) (no_default ex_int);
                   ex_field (lit "b") None {| cv_validate := ex_int; cv_default := fun _ s => (VOk (Some (PInt 7)), s) |};
                   ex_field (lit "c") None (no_default ex_int)];
     fc_extra := e; fc_extras := None; fc_extras_keys := None; fc_strict := false; fc_from_attributes := false;
     fc_loc_by_alias := true; fc_by_alias := None; fc_by_name := None |}.
Definition ex_extra : extra :=
  {| x_input_type := ITJson; x_strict := None; x_from_attributes := None; x_by_alias := None; x_by_name := None; x_data := None; x_field_name := None |}.
Definition ex_state : state := {| st_exactness := Some Exact; st_fields_set := None; st_partial := PartialOff; st_extra := ex_extra |}.
Definition ex_repr (v : pyval) : str := lit "?".
Definition ex_getattr (v : pyval) (k : str) : attr_res := match v with PObj _ a => match assoc k a with Some x => AVal x | None => AMissing end | _ => AMissing end.
Definition ex_vmf := validate_model_fields ex_repr ex_getattr.

Definition ex_ok : input := IJson (JObj [(lit "c", JInt 3); (lit "z", JNull); (lit "x", JArr [JInt 1])]).
Definition ex_bad : input := IJson (JObj [(lit "x", JArr [JNull]); (lit "z", JBool true)]).
Definition ex_run (e : extra_behavior) (i : input) : Prop := exists md vs xs os s2, run (ex_cfg e) ex_vmf i ex_state md vs xs os s2 /\ Forall field_regular vs /\ Forall extra_regular os.
Lemma ex_good e : good_fields (ex_cfg e) (fun f => match collection_select (f_keys f) true false with BOk k => k | BErr => Simple (path_from_str (f_name f)) end) true false.
Proof.
  split.
  - repeat constructor; cbn; intuition discriminate.
  - repeat constructor; try reflexivity; try discriminate; try (intros [|]; discriminate); cbn; auto.
Qed.
Example C18_ex_run : ex_run ExtraAllow ex_ok /\ ex_run ExtraForbid ex_bad.
Proof.
  split.
  - do 2 eexists. exists [(IKey (lit "c"), LStr (lit "c"), IJson (JInt 3)); (IKey (lit "z"), LStr (lit "z"), IJson JNull); (IKey (lit "x"), LStr (lit "x"), IJson (JArr [JInt 1]))]. do 2 eexists. split; [split; [reflexivity|]|].
    + eexists. eexists. split; [apply ex_good|]. split; [reflexivity|]. cbn [looks_at_extras ex_cfg fc_extra md_is_attr json_mdict negb].
      split; reflexivity.
    + split; repeat constructor.
  - do 2 eexists. exists [(IKey (lit "x"), LStr (lit "x"), IJson (JArr [JNull])); (IKey (lit "z"), LStr (lit "z"), IJson (JBool true))]. do 2 eexists. split; [split; [reflexivity|]|].
    + eexists. eexists. split; [apply ex_good|]. split; [reflexivity|]. cbn [looks_at_extras ex_cfg fc_extra md_is_attr json_mdict negb].
      split; reflexivity.
    + split; repeat constructor.
Qed.
Example C18_ex : exists s', model_fields_validate (ex_cfg ExtraAllow) ex_vmf ex_ok ex_state =
  (VOk (PTuple [PDict [(PStr (lit "a"), PInt 1); (PStr (lit "b"), PInt 7); (PStr (lit "c"), PInt 3)];
                PDict [(PStr (lit "z"), PNone)]; PSet [PStr (lit "a"); PStr (lit "c"); PStr (lit "z")]]), s') /\ st_fields_set s' = Some 2.
Proof. eexists. split; reflexivity. Qed.
Example C19_ex : exists s' es, model_fields_validate (ex_cfg ExtraForbid) ex_vmf ex_bad ex_state = (VErr (LineErrors es), s') /\
  map (fun e => (le_type e, loc_path (le_loc e))) es =
  [(EIntType, [LStr (lit "x"); LInt 0]); (EMissing, [LStr (lit "c")]); (EExtraForbidden, [LStr (lit "z")])].
Proof. eexists. eexists. split; reflexivity. Qed.
