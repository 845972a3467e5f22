(** Lemmas about typed dicts. *)
From Coq Require Import List NArith ZArith Bool Lia.
From Verif Require Import Base Float64 Values VState LookupKey LookupKeySpec LookupKeyProofs LookupKeyProps Collections CollectionsSpec CollectionsProofs Child ModelFields ModelFieldsSpec ModelFieldsProofs TypedDict TypedDictSpec.
Import ListNotations.
Open Scope nat_scope.

Lemma last_is_spec last l : last_is last l = is_last last l.
Proof. destruct last as [[a|a]|], l; reflexivity. Qed.

Definition td_after (c : fields_cfg) (last : option loc_item) (i : input) (a : facc) (vs : list (field * outcome)) : facc :=
  {| fa_dict := fa_dict a ++ data_of vs; fa_errors := fa_errors a ++ flat_map (td_field_errors last (fc_loc_by_alias c) i) vs;
     fa_set := fa_set a ++ found_names vs; fa_used := rev (consumed vs) ++ fa_used a |}.
Lemma td_after_cons c last i a fo vs : td_after c last i a (fo :: vs) = td_after c last i (td_after c last i a [fo]) vs.
Proof.
  unfold td_after. cbn [fa_dict fa_errors fa_set fa_used]. f_equal.
  - change (fo :: vs) with ([fo] ++ vs). rewrite data_of_app, app_assoc. reflexivity.
  - cbn [flat_map]. rewrite app_nil_r, app_assoc. reflexivity.
  - unfold found_names. cbn [flat_map]. rewrite app_nil_r, app_assoc. reflexivity.
  - unfold consumed. cbn [flat_map]. rewrite rev_app_distr, app_nil_r, <- app_assoc. reflexivity.
Qed.
Lemma td_after_nil c last i a : td_after c last i a [] = a.
Proof. unfold td_after; cbn. rewrite !app_nil_r. destruct a; reflexivity. Qed.

Section Loop.
Variables (c : fields_cfg) (md : mdict) (i : input) (last : option loc_item) (p : partial_mode) (ba bn : bool) (key_of : field -> lookup_key).

Lemma td_step f fs a s done o s1 : step_ok ba bn key_of f -> fa_dict a = data_of done ->
  ~ In (f_name f) (map (fun fo => f_name (fst fo)) done) ->
  td_look md last p (key_of f) f (set_extra (set_data (Some (data_of done)) (st_extra s)) s) = (o, s1) ->
  (field_regular (f, o) -> td_loop c md i last p ba bn (f :: fs) a s = td_loop c md i last p ba bn fs (td_after c last i a [(f, o)]) s1) /\
  (~ field_regular (f, o) -> exists e, td_loop c md i last p ba bn (f :: fs) a s = (VErr e, s1) /\ match e with LineErrors _ => False | _ => True end).
Proof.
  intros [Hs Hb] Hd Hn L. cbn [td_loop]. rewrite Hs, Hd. unfold td_look in L.
  assert (Put : forall v, dict_set (PStr (f_name f)) v (fa_dict a) = fa_dict a ++ [(PStr (f_name f), v)]).
  { intros v. apply dict_set_fresh. rewrite Hd. intros k' v' I. destruct (data_of_names _ _ _ I) as (t & -> & I'). exists t. split; [reflexivity|]. intros ->. contradiction. }
  set (s0 := set_extra _ s) in *. destruct (md_get md (key_of f)) as [[[path x]|]|e].
  - rewrite last_is_spec. destruct (rebind _ _ _) as [r s'] eqn:R. injection L as <- <-.
    destruct r as [v|[es| | | |]]; cbn [field_regular snd]; (split; [intros Hr; try destruct Hr|intros Hr; first [destruct Hr; exact I | eexists; split; [reflexivity|exact I]]]).
    + f_equal. unfold td_after, fa_mark, fa_put, fa_use, data_of, found_names, consumed. cbn. rewrite Put, app_nil_r. reflexivity.
    + f_equal. unfold td_after, fa_add_errors, fa_use, data_of, found_names, consumed. cbn [flat_map fst snd td_field_errors value_of app rev fa_dict fa_errors fa_set fa_used].
      destruct (is_last last (LStr (lp_first path))), (f_required f); cbn [negb orb andb]; rewrite !app_nil_r; try reflexivity; f_equal; f_equal; apply map_ext; intros e; apply apply_error_loc_under.
    + f_equal. unfold td_after, fa_use, data_of, found_names, consumed. cbn. rewrite !app_nil_r. reflexivity.
  - destruct (cv_default (f_cv f) _ s0) as [r s'] eqn:R. injection L as <- <-.
    destruct r as [[v|]|[es| | | |]]; cbn [field_regular snd]; (split; [intros Hr; try destruct Hr|intros Hr; first [destruct Hr; exact I | eexists; split; [reflexivity|exact I]]]).
    + f_equal. unfold td_after, fa_put, data_of, found_names, consumed. cbn. rewrite Put, !app_nil_r. reflexivity.
    + destruct (f_required f) eqn:Rq.
      * destruct (key_error_missing (key_of f) i (fc_loc_by_alias c) (f_name f) Hb) as (e & -> & Ee).
        f_equal. unfold td_after, fa_add_errors, data_of, found_names, consumed. cbn [flat_map td_field_errors snd fst value_of app rev]. rewrite Rq, !app_nil_r, <- Ee. reflexivity.
      * f_equal. unfold td_after, data_of, found_names, consumed. cbn [flat_map td_field_errors snd fst value_of app rev]. rewrite Rq, !app_nil_r. destruct a; reflexivity.
    + f_equal. unfold td_after, fa_add_errors, data_of, found_names, consumed. cbn. rewrite !app_nil_r. reflexivity.
    + f_equal. unfold td_after, data_of, found_names, consumed. cbn. rewrite !app_nil_r. destruct a; reflexivity.
  - injection L as <- <-. rewrite last_is_spec. destruct e as [es| | | |]; cbn [field_regular snd]; (split; [intros Hr; try destruct Hr|intros Hr; first [destruct Hr; exact I | eexists; split; [reflexivity|exact I]]]).
    f_equal. unfold td_after, fa_add_errors, data_of, found_names, consumed. cbn [flat_map td_field_errors snd fst value_of app rev].
    destruct (is_last last _); rewrite !app_nil_r; destruct a; reflexivity.
Qed.

Lemma td_fields_run fs : forall a s done vs s', Forall (step_ok ba bn key_of) fs -> fa_dict a = data_of done ->
  NoDup (map (fun fo => f_name (fst fo)) done ++ map f_name fs) ->
  td_trace md last p key_of done fs s = (vs, s') ->
  (Forall field_regular vs -> td_loop c md i last p ba bn fs a s = (VOk (td_after c last i a vs), s')) /\
  (~ Forall field_regular vs -> exists e s1, td_loop c md i last p ba bn fs a s = (VErr e, s1) /\ match e with LineErrors _ => False | _ => True end).
Proof.
  induction fs as [|f fs IH]; intros a s done vs s' Ok Hd Nd T.
  - cbn in T. injection T as <- <-. split; [intros _; cbn [td_loop]; rewrite td_after_nil; reflexivity|]. intros H. destruct H. constructor.
  - cbn [td_trace] in T. destruct (td_look md last p (key_of f) f _) as [o s1] eqn:L. destruct (td_trace md last p key_of _ fs s1) as [os s2] eqn:T2. injection T as <- <-.
    inversion Ok as [|? ? Ok1 Ok2]; subst. cbn [map] in Nd.
    assert (Hn : ~ In (f_name f) (map (fun fo => f_name (fst fo)) done)).
    { apply NoDup_remove_2 in Nd. intros I. apply Nd. apply in_or_app. auto. }
    destruct (td_step f fs a s done o s1 Ok1 Hd Hn L) as [S1 S2].
    specialize (IH (td_after c last i a [(f, o)]) s1 (done ++ [(f, o)]) os s2 Ok2).
    destruct IH as [I1 I2]; [cbn [td_after fa_dict]; rewrite data_of_app, Hd; reflexivity| |assumption|].
    { rewrite map_app. cbn [map fst]. rewrite <- app_assoc. exact Nd. }
    assert (D : field_regular (f, o) \/ ~ field_regular (f, o)) by (destruct o as [[| | | |]|? [|[| | | |]]|k [|[| | | |]]]; cbn; auto).
    split.
    + intros F. inversion F; subst. rewrite S1 by assumption. rewrite (td_after_cons c last i a (f, o) os). apply I1; assumption.
    + intros F. destruct D as [D|D].
      * rewrite S1 by assumption. apply I2. intros F'. apply F. constructor; assumption.
      * destruct (S2 D) as (e & E & He). eauto.
Qed.
End Loop.

Local Ltac fin := try reflexivity; try exact I; try (cbn; rewrite ?app_nil_r; reflexivity).
Lemma td_extras_run c last p used used' xs : (forall k, mem_str k used = mem_str k used') -> forall out errors s os s',
  td_extra_trace c last p used' xs s = (os, s') ->
  (Forall extra_regular os ->
   td_extras c used last p (map to_entry xs) out errors s =
   (VOk (overwrite out (kept os), errors ++ flat_map (td_extra_errors c last) (combine xs os)), s')) /\
  (~ Forall extra_regular os -> exists e s1, td_extras c used last p (map to_entry xs) out errors s = (VErr e, s1) /\ match e with LineErrors _ => False | _ => True end).
Proof.
  intros U. induction xs as [|x xs IH]; intros out errors s os s' T.
  - cbn in T. injection T as <- <-. split; [intros _; cbn; rewrite !app_nil_r; reflexivity|]. intros H; destruct H; constructor.
  - cbn [td_extra_trace] in T. destruct (td_extra_look c last p used' x s) as [o s1] eqn:L. destruct (td_extra_trace c last p used' xs s1) as [os1 s2] eqn:T1. injection T as <- <-.
    destruct x as [[key kloc] value]. unfold td_extra_look in L. cbn [fst snd] in L. cbn [map]. change (to_entry (key, kloc, value)) with (Entry key kloc value). cbn [td_extras].
    assert (K : forall k out' errors', kept (o :: os1) = k ++ kept os1 -> out' = overwrite out k ->
      errors' = errors ++ td_extra_errors c last (key, kloc, value, o) -> extra_regular o ->
      (Forall extra_regular (o :: os1) -> td_extras c used last p (map to_entry xs) out' errors' s1 =
        (VOk (overwrite out (kept (o :: os1)), errors ++ flat_map (td_extra_errors c last) (combine ((key, kloc, value) :: xs) (o :: os1))), s2)) /\
      (~ Forall extra_regular (o :: os1) -> exists e s3, td_extras c used last p (map to_entry xs) out' errors' s1 = (VErr e, s3) /\ match e with LineErrors _ => False | _ => True end)).
    { intros k out' errors' E1 -> -> R. destruct (IH (overwrite out k) (errors ++ td_extra_errors c last (key, kloc, value, o)) s1 os1 s2 T1) as [I1 I2]. split.
      - intros F. inversion F; subst. rewrite I1 by assumption. rewrite E1. unfold overwrite. rewrite fold_left_app. cbn [combine flat_map]. rewrite app_assoc. reflexivity.
      - intros F. apply I2. intros F'. apply F. constructor; assumption. }
    assert (Stop : forall e s3, match e with LineErrors _ => False | _ => True end -> ~ extra_regular o ->
      (Forall extra_regular (o :: os1) -> (VErr e, s3) = (VOk (overwrite out (kept (o :: os1)), errors ++ flat_map (td_extra_errors c last) (combine ((key, kloc, value) :: xs) (o :: os1))), s2)) /\
      (~ Forall extra_regular (o :: os1) -> exists e0 s4, (VErr e, s3) = (@VErr (list (pyval * pyval) * list line_error) e0, s4) /\ match e0 with LineErrors _ => False | _ => True end)).
    { intros e s3 He Hr. split; [intros F; inversion F; contradiction|]. intros _. eauto. }
    assert (KS : forall e, key_str key = VErr e -> e = LineErrors [new_error EStringType key]).
    { intros e. unfold key_str, val_err. destruct key as [v|[| | | | | |]|k|v]; try (destruct (as_str v)); congruence. }
    destruct (key_str key) as [k|e] eqn:Ek.
    2:{ rewrite (KS e eq_refl). injection L as <- <-. apply (K []); fin. }
    rewrite U. destruct (mem_str k used').
    { injection L as <- <-. apply (K []); fin. }
    destruct (fc_extra c) eqn:Ex.
    2,3: injection L as <- <-; apply (K []); fin; cbn [td_extra_errors extra_errors]; rewrite Ex, ?app_nil_r; reflexivity.
    rewrite last_is_spec. destruct (fc_extras c) as [v|].
    + destruct (v value _) as [[x|[es| | | |]] s3]; injection L as <- <-; try (apply Stop; [exact I|intros []]).
      * apply (K [(k, x)]); fin.
      * apply (K []); fin. cbn [td_extra_errors]. destruct (is_last last kloc); rewrite ?app_nil_r; reflexivity.
    + injection L as <- <-. apply (K [(k, input_object value)]); fin.
Qed.
