(** Lemmas about call arguments given as a mapping. *)
From Coq Require Import List NArith ZArith Bool Lia Arith.
From Verif Require Import Base Float64 Values VState LookupKey LookupKeySpec LookupKeyProofs LookupKeyProps Collections CollectionsSpec CollectionsProofs Child Inputs ModelFields ModelFieldsSpec ModelFieldsProofs Assign AssignSpec AssignProofs Arguments ArgumentsSpec ArgumentsProofs Classes Arguments3 Arguments3Spec.
Import ListNotations.
Open Scope nat_scope.

Lemma under_app l1 l2 e : under (l1 ++ l2) e = under l1 (under l2 e).
Proof. unfold under. apply fold_right_app. Qed.
Lemma update_app d a b : dict_update (a ++ b) d = dict_update b (dict_update a d).
Proof. unfold dict_update. apply fold_left_app. Qed.
Lemma field_loc_ne b p n : exists x l, field_loc b p n = x :: l.
Proof. unfold field_loc. destruct b; [unfold items; cbn|]; eauto. Qed.
Lemma under_new l t x : l <> [] -> under l (new_error t x) = error_at t x l.
Proof.
  intros N. unfold error_at, new_error, under. induction l as [|y l IH]; [congruence|]. cbn [fold_right].
  destruct l as [|z l]; [reflexivity|]. rewrite IH by discriminate. unfold with_outer. cbn [le_type le_loc le_input loc_with_outer rev]. reflexivity.
Qed.
Lemma place_new b path n t x : apply_error_loc path (new_error t x) b n = error_at t x (field_loc b path n).
Proof. rewrite apply_error_loc_under. apply under_new. destruct (field_loc_ne b path n) as (y & l & ->). discriminate. Qed.

Section Mapping.
Variable repr : pyval -> str.
Variables (c : args3_cfg) (vt : bool -> input -> vres seq) (md : mdict) (i : input) (ba bn : bool) (key_of : param3 -> lookup_key).
Definition good3 (p : param3) : Prop := collection_select (p3_keys p) ba bn = BOk (key_of p) /\ built_key (key_of p).

Definition after3 (a : aacc) (vs : list (param3 * mout)) : aacc :=
  {| aa_args := aa_args a ++ flat_map mout_args vs;
     aa_kwargs := dict_update (flat_map mout_kwargs vs) (aa_kwargs a);
     aa_errors := aa_errors a ++ flat_map (mout_errors repr (a3_loc_by_alias c) i key_of) vs;
     aa_used := use_keys (flat_map (fun po => mout_key (snd po)) vs) (aa_used a) |}.
Lemma after3_cons a x vs : after3 a (x :: vs) = after3 (after3 a [x]) vs.
Proof.
  unfold after3. cbn [aa_args aa_kwargs aa_errors aa_used flat_map]. rewrite !app_nil_r, !app_assoc, update_app. f_equal.
  unfold use_keys. rewrite fold_left_app. reflexivity.
Qed.
Lemma line_or_ok_dec r : line_or_ok r \/ ~ line_or_ok r.
Proof. destruct r as [|[| | | |]]; cbn; auto. Qed.

Lemma items3_run v path n xs : forall k a s rs s', many_trace v xs s = (rs, s') ->
  forall place, place = (fun e => apply_error_loc path e (a3_loc_by_alias c) n) ->
  (Forall line_or_ok rs -> items3 v place k xs a s =
     (VOk {| aa_args := aa_args a ++ ok_values rs; aa_kwargs := aa_kwargs a;
             aa_errors := aa_errors a ++ many_errors (field_loc (a3_loc_by_alias c) path n) k rs; aa_used := aa_used a |}, s')) /\
  (~ Forall line_or_ok rs -> stops (items3 v place k xs a s)).
Proof.
  induction xs as [|x xs IH]; intros k a s rs s' T place P.
  - cbn in T. injection T as <- <-. cbn. rewrite !app_nil_r. split; [destruct a; reflexivity|]. intros H. destruct H. constructor.
  - cbn [many_trace] in T. destruct x as [x|e].
    + cbn [items3]. destruct (v x s) as [r s1]. destruct (many_trace v xs s1) as [rs0 s2] eqn:T2. injection T as <- <-.
      destruct r as [w|[es| | | |]].
      * destruct (IH (S k) (aa_push w a) s1 rs0 s2 T2 place P) as [I1 I2]. split.
        -- intros F. inversion F; subst. rewrite I1 by assumption. f_equal. f_equal. unfold aa_push. cbn. rewrite <- app_assoc. reflexivity.
        -- intros F. apply I2. intros F'. apply F. constructor; [exact I|assumption].
      * destruct (IH (S k) (aa_add (map (fun e => place (with_outer (index_loc k) e)) es) a) s1 rs0 s2 T2 place P) as [I1 I2]. split.
        -- intros F. inversion F; subst. rewrite I1 by assumption. f_equal. f_equal. unfold aa_add. cbn [aa_args aa_kwargs aa_errors aa_used many_errors result_errors ok_values flat_map app].
           f_equal. rewrite <- app_assoc. f_equal. f_equal. apply map_ext. intros e. cbv beta. rewrite apply_error_loc_under. rewrite under_app. reflexivity.
        -- intros F. apply I2. intros F'. apply F. constructor; [exact I|assumption].
      * split; [intros F; inversion F; contradiction|]. intros _. eexists _, _. reflexivity.
      * split; [intros F; inversion F; contradiction|]. intros _. eexists _, _. reflexivity.
      * split; [intros F; inversion F; contradiction|]. intros _. eexists _, _. reflexivity.
      * split; [intros F; inversion F; contradiction|]. intros _. eexists _, _. reflexivity.
    + destruct (many_trace v xs s) as [rs0 s2]. injection T as <- <-. split; [intros F; inversion F; contradiction|]. intros _. eexists _, _. reflexivity.
Qed.

Definition entry_ok (kr : pyval * option (vres pyval)) : Prop := match snd kr with Some r => line_or_ok r | None => True end.
Lemma keywords3_run v path n d : forall a s rs s', entries_trace v d s = (rs, s') ->
  forall place, place = (fun e => apply_error_loc path e (a3_loc_by_alias c) n) ->
  (Forall entry_ok rs -> keywords3 repr v n place d a s =
     (VOk {| aa_args := aa_args a; aa_kwargs := dict_update (flat_map (fun kr => match snd kr with Some (VOk v) => [(fst kr, v)] | _ => [] end) rs) (aa_kwargs a);
             aa_errors := aa_errors a ++ flat_map (fun kr => match snd kr with
                          | Some r => result_errors (field_loc (a3_loc_by_alias c) path n ++ [py_loc repr (fst kr)]) r
                          | None => [error_at EInvalidKey (IPy (fst kr)) [LStr n; py_loc repr (fst kr)]]
                          end) rs; aa_used := aa_used a |}, s')) /\
  (~ Forall entry_ok rs -> stops (keywords3 repr v n place d a s)).
Proof.
  induction d as [|[k x] d IH]; intros a s rs s' T place P.
  - cbn in T. injection T as <- <-. cbn. rewrite !app_nil_r. split; [destruct a; reflexivity|]. intros H. destruct H. constructor.
  - cbn [entries_trace] in T. cbn [keywords3 key_str]. destruct (as_str k) as [t|].
    + destruct (v (IPy x) s) as [r s1]. destruct (entries_trace v d s1) as [rs0 s2] eqn:T2. injection T as <- <-.
      destruct r as [w|[es| | | |]].
      * destruct (IH (aa_set k w a) s1 rs0 s2 T2 place P) as [I1 I2]. split.
        -- intros F. inversion F; subst. rewrite I1 by assumption. reflexivity.
        -- intros F. apply I2. intros F'. apply F. constructor; [exact I|assumption].
      * destruct (IH (aa_add (map (fun e => place (with_outer (py_loc repr k) e)) es) a) s1 rs0 s2 T2 place P) as [I1 I2]. split.
        -- intros F. inversion F; subst. rewrite I1 by assumption. f_equal. f_equal. unfold aa_add. cbn [aa_args aa_kwargs aa_errors aa_used result_errors flat_map app fst snd].
           f_equal. rewrite <- app_assoc. f_equal. f_equal. apply map_ext. intros e. cbv beta. rewrite apply_error_loc_under, under_app. reflexivity.
        -- intros F. apply I2. intros F'. apply F. constructor; [exact I|assumption].
      * split; [intros F; inversion F; contradiction|]. intros _. eexists _, _. reflexivity.
      * split; [intros F; inversion F; contradiction|]. intros _. eexists _, _. reflexivity.
      * split; [intros F; inversion F; contradiction|]. intros _. eexists _, _. reflexivity.
      * split; [intros F; inversion F; contradiction|]. intros _. eexists _, _. reflexivity.
    + destruct (entries_trace v d s) as [rs0 s2] eqn:T2. injection T as <- <-. cbn [val_err].
      set (es' := map _ _). destruct (IH (aa_add es' a) s rs0 s2 T2 place P) as [I1 I2]. split.
      * intros F. inversion F; subst. rewrite I1 by assumption. f_equal. f_equal. unfold aa_add. cbn [aa_args aa_kwargs aa_errors aa_used flat_map app fst snd].
        f_equal. rewrite <- app_assoc. reflexivity.
      * intros F. apply I2. intros F'. apply F. constructor; [exact I|assumption].
Qed.

Lemma mout_regular_dec o : mout_regular o \/ ~ mout_regular o.
Proof.
  destruct o as [e|p r|p x [rs|]|p x [rs|]|p r|[r|e]|]; cbn [mout_regular]; auto.
  - apply line_or_ok_dec.
  - apply forall_dec, line_or_ok_dec.
  - apply forall_dec. intros [k [r|]]; cbn; [apply line_or_ok_dec|auto].
  - destruct r as [w|[| | | |]]; auto. destruct (as_dict w); [left; discriminate|right; congruence].
Qed.

Ltac stop := eexists _, _; reflexivity.
Lemma mapping_param_run p a s o s1 : good3 p -> look3 vt p (md_get md (key_of p)) s = (o, s1) ->
  (mout_regular o -> (match md_get md (key_of p) with VErr e => (VErr e, s) | VOk found => mapping_param repr c vt i p (key_of p) found a s end) = (VOk (after3 a [(p, o)]), s1)) /\
  (~ mout_regular o -> stops (match md_get md (key_of p) with VErr e => (VErr e, s) | VOk found => mapping_param repr c vt i p (key_of p) found a s end)).
Proof.
  intros [_ BK] L. unfold look3 in L. destruct (md_get md (key_of p)) as [[[path x]|]|e].
  3:{ injection L as <- <-. split; [intros []|intros _; stop]. }
  - assert (ONE : p3_mode p = MPosOnly \/ p3_mode p = MPosOrKw \/ p3_mode p = MKwOnly -> (let '(r, s') := cv_validate (p3_cv p) x s in (MOne path r, s')) = (o, s1) ->
      (mout_regular o -> mapping_param repr c vt i p (key_of p) (Some (path, x)) a s = (VOk (after3 a [(p, o)]), s1)) /\
      (~ mout_regular o -> stops (mapping_param repr c vt i p (key_of p) (Some (path, x)) a s))).
    { intros M L'. unfold mapping_param. destruct (cv_validate (p3_cv p) x s) as [r s2]. injection L' as <- <-.
      destruct r as [w|[es| | | |]]; (split; [intros R; try (exfalso; exact R)|intros R; try (contradiction R; exact I)]).
      - cbv beta iota. destruct M as [M|[M|M]]; rewrite M; unfold after3, mout_args, mout_kwargs; cbn [flat_map snd fst mout_value app]; rewrite M; cbn [positional3]; cbn; rewrite ?app_nil_r; reflexivity.
      - cbv beta iota. destruct M as [M|[M|M]]; rewrite M; unfold after3, mout_args, mout_kwargs; cbn [flat_map snd fst mout_value app]; rewrite M; cbn [positional3]; cbn; rewrite ?app_nil_r;
          unfold aa_use, aa_add; cbn; f_equal; f_equal; f_equal; f_equal; apply map_ext; intros e; apply apply_error_loc_under.
      - destruct M as [M|[M|M]]; rewrite M; stop.
      - destruct M as [M|[M|M]]; rewrite M; stop.
      - destruct M as [M|[M|M]]; rewrite M; stop.
      - destruct M as [M|[M|M]]; rewrite M; stop. }
    destruct (p3_mode p) eqn:M; try (apply ONE; auto; fail); clear ONE; unfold mapping_param; rewrite M.
    + destruct (vt false x) as [sq|e].
      * destruct (many_trace _ _ _) as [rs s2] eqn:T. injection L as <- <-.
        destruct (items3_run _ path (p3_name p) _ 0 (aa_use (lp_first path) a) _ _ _ T _ eq_refl) as [I1 I2]. cbn [mout_regular]. split.
        -- intros R. cbv beta iota. rewrite I1 by exact R. unfold after3, mout_args, mout_kwargs. cbn [flat_map snd fst mout_value app]. rewrite ?M. cbn. rewrite ?app_nil_r. reflexivity.
        -- intros R. apply I2, R.
      * injection L as <- <-. split; [|intros R; contradiction R; exact I]. intros _. cbv beta iota. rewrite place_new.
        unfold after3, mout_args, mout_kwargs. cbn [flat_map snd fst mout_value app]. rewrite ?M. cbn. rewrite ?app_nil_r. reflexivity.
    + destruct (as_kwargs x) as [d|].
      * destruct (entries_trace _ _ _) as [rs s2] eqn:T. injection L as <- <-.
        destruct (keywords3_run _ path (p3_name p) _ (aa_use (lp_first path) a) _ _ _ T _ eq_refl) as [I1 I2]. cbn [mout_regular]. split.
        -- intros R. cbv beta iota. rewrite I1 by exact R. unfold after3, mout_args, mout_kwargs. cbn [flat_map snd fst mout_value app]. rewrite ?M. cbn. rewrite ?app_nil_r. reflexivity.
        -- intros R. apply I2, R.
      * injection L as <- <-. split; [|intros R; contradiction R; exact I]. intros _. cbv beta iota. rewrite place_new.
        unfold after3, mout_args, mout_kwargs. cbn [flat_map snd fst mout_value app]. rewrite ?M. cbn. rewrite ?app_nil_r. reflexivity.
    + destruct (cv_validate (p3_cv p) x s) as [r s2]. injection L as <- <-. cbn [mout_regular unpack3].
      destruct r as [w|[es| | | |]]; cbn [unpack3]; (split; [intros R; try (exfalso; exact R)|intros R; try (contradiction R; exact I)]).
      * destruct (as_dict w) as [d|] eqn:D; [|contradiction R; reflexivity]. cbv beta iota. unfold after3, mout_args, mout_kwargs. cbn [flat_map snd fst mout_value app]. rewrite ?M, D. cbn. rewrite ?app_nil_r. reflexivity.
      * destruct (as_dict w); [contradiction R; discriminate|stop].
      * cbv beta iota. unfold after3, mout_args, mout_kwargs. cbn [flat_map snd fst mout_value app]. rewrite ?M. cbn. rewrite ?app_nil_r.
        unfold aa_use, aa_add; cbn; f_equal; f_equal; f_equal; f_equal; apply map_ext; intros e; apply apply_error_loc_under.
      * stop.
      * stop.
      * stop.
      * stop.
  - assert (ONE : p3_mode p = MPosOnly \/ p3_mode p = MPosOrKw \/ p3_mode p = MKwOnly -> (let '(r, s') := cv_default (p3_cv p) (Some (LStr (p3_name p))) s in (MNone r, s')) = (o, s1) ->
      (mout_regular o -> mapping_param repr c vt i p (key_of p) None a s = (VOk (after3 a [(p, o)]), s1)) /\
      (~ mout_regular o -> stops (mapping_param repr c vt i p (key_of p) None a s))).
    { intros M L'. unfold mapping_param. destruct (cv_default _ _ s) as [r s2]. injection L' as <- <-.
      destruct r as [[w|]|e]; (split; [intros R; try (exfalso; exact R)|intros R; try (contradiction R; exact I)]).
      - cbv beta iota. destruct M as [M|[M|M]]; rewrite M; unfold after3, mout_args, mout_kwargs; cbn [flat_map snd fst mout_value app]; rewrite M; cbn [positional3]; cbn; rewrite ?app_nil_r; reflexivity.
      - cbv beta iota.
        destruct (key_error_at (key_of p) (match p3_mode p with MPosOnly => EMissingPositionalOnly | MPosOrKw => EMissingArgument | _ => EMissingKeywordOnly end) i (a3_loc_by_alias c) (p3_name p) BK) as (e & E1 & E2).
        unfold after3, mout_args, mout_kwargs. cbn [flat_map snd fst mout_value app mout_errors mout_key use_keys fold_left]. rewrite <- E2.
        destruct M as [M|[M|M]]; rewrite M in *; rewrite E1; cbn [positional3 dict_update fold_left flat_map app]; unfold aa_add; rewrite ?app_nil_r; reflexivity.
      - destruct M as [M|[M|M]]; rewrite M; stop. }
    destruct (p3_mode p) eqn:M; try (apply ONE; auto; fail); clear ONE; unfold mapping_param; rewrite M.
    + injection L as <- <-. split; [|intros R; contradiction R; exact I]. intros _. cbv beta iota. unfold after3, mout_args, mout_kwargs. cbn [flat_map snd fst mout_value app]. rewrite ?M. cbn. rewrite ?app_nil_r. destruct a; reflexivity.
    + injection L as <- <-. split; [|intros R; contradiction R; exact I]. intros _. cbv beta iota. unfold after3, mout_args, mout_kwargs. cbn [flat_map snd fst mout_value app]. rewrite ?M. cbn. rewrite ?app_nil_r. destruct a; reflexivity.
    + destruct (cv_validate (p3_cv p) (IPy (PDict [])) s) as [r s2]. injection L as <- <-. cbn [mout_regular unpack3].
      destruct r as [w|[es| | | |]]; cbn [unpack3]; (split; [intros R; try (exfalso; exact R)|intros R; try (contradiction R; exact I)]).
      * destruct (as_dict w) as [d|] eqn:D; [|contradiction R; reflexivity]. cbv beta iota. unfold after3, mout_args, mout_kwargs. cbn [flat_map snd fst mout_value app]. rewrite ?M, D. cbn. rewrite ?app_nil_r. reflexivity.
      * destruct (as_dict w); [contradiction R; discriminate|stop].
      * cbv beta iota. unfold after3, mout_args, mout_kwargs. cbn [flat_map snd fst mout_value app]. rewrite ?M. cbn. rewrite ?app_nil_r. reflexivity.
      * stop.
      * stop.
      * stop.
      * stop.
Qed.

Lemma mapping_loop_run ps : forall a s vs s', Forall good3 ps -> mapping_trace vt md key_of ps s = (vs, s') ->
  (Forall (fun po => mout_regular (snd po)) vs -> mapping_loop repr c vt md i ba bn ps a s = (VOk (after3 a vs), s')) /\
  (~ Forall (fun po => mout_regular (snd po)) vs -> stops (mapping_loop repr c vt md i ba bn ps a s)).
Proof.
  induction ps as [|p ps IH]; intros a s vs s' G T.
  - cbn in T. injection T as <- <-. split; [|intros H; destruct H; constructor]. intros _. cbn. unfold after3. cbn. rewrite !app_nil_r. destruct a; reflexivity.
  - cbn [mapping_trace] in T. destruct (look3 _ _ _ s) as [o s1] eqn:L. destruct (mapping_trace vt md key_of ps s1) as [os s2] eqn:T2. injection T as <- <-.
    inversion G as [|? ? G1 G2]; subst. destruct (mapping_param_run p a s o s1 G1 L) as [S1 S2]. cbn [mapping_loop]. rewrite (proj1 G1).
    destruct (IH (after3 a [(p, o)]) s1 os s2 G2 T2) as [I1 I2]. split.
    + intros F. inversion F; subst. assert (E := S1 ltac:(assumption)). destruct (md_get md (key_of p)) as [found|e]; [|discriminate E]. rewrite E, (after3_cons a (p, o) os). apply I1. assumption.
    + intros F. destruct (mout_regular_dec o) as [D|D].
      * assert (E := S1 D). destruct (md_get md (key_of p)) as [found|e]; [|discriminate E]. rewrite E. apply I2. intros F'. apply F. constructor; assumption.
      * destruct (S2 D) as (e & s0 & E). destruct (md_get md (key_of p)) as [found|e']; [|eexists _, _; reflexivity]. rewrite E. eexists _, _; reflexivity.
Qed.

Lemma extra3_run forbid xs : forall a,
  extra3 forbid (map to_entry xs) a = VOk {| aa_args := aa_args a; aa_kwargs := aa_kwargs a; aa_errors := aa_errors a ++ flat_map (surplus_key_errors forbid (aa_used a)) xs; aa_used := aa_used a |}.
Proof.
  induction xs as [|[[key kloc] value] xs IH]; intros a; cbn [map extra3 to_entry flat_map fst snd]; [rewrite app_nil_r; destruct a; reflexivity|].
  unfold surplus_key_errors at 1. cbn [fst snd]. destruct (key_str key) as [k|e] eqn:K.
  - destruct (mem_str k (aa_used a)) eqn:Mk; [rewrite andb_false_r; apply IH|]. destruct forbid; cbn [andb negb app]; [|apply IH].
    rewrite IH. unfold aa_add. cbn [aa_args aa_kwargs aa_errors aa_used]. rewrite <- app_assoc. reflexivity.
  - apply key_str_err in K. subst e. rewrite IH. unfold aa_add. cbn [aa_args aa_kwargs aa_errors aa_used map]. rewrite <- app_assoc. reflexivity.
Qed.
End Mapping.
