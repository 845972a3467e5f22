(** Lemmas about model fields. *)
From Coq Require Import List NArith ZArith Bool Lia.
From Verif Require Import Base Float64 Values VState LookupKey LookupKeySpec LookupKeyProofs LookupKeyProps Collections CollectionsSpec CollectionsProofs Child ModelFields ModelFieldsSpec.
Import ListNotations.
Open Scope nat_scope.

Lemma set_extra_same x s : st_extra s = x -> set_extra x s = s.
Proof. destruct s; cbn. intros <-. reflexivity. Qed.

(** * Locations *)
Lemma apply_error_loc_under p e b n : apply_error_loc p e b n = under (field_loc b p n) e.
Proof.
  unfold apply_error_loc, field_loc, under. destruct b; [|reflexivity]. unfold items. cbn [map fold_right to_loc_item]. f_equal.
  rewrite <- fold_left_rev_right. rewrite rev_involutive. induction (lp_rest p) as [|i r IH]; [reflexivity|]. cbn [fold_right map]. rewrite IH. reflexivity.
Qed.
Lemma key_error_missing key i b n : built_key key ->
  exists e, key_error key EMissing i b n = Some e /\ [e] = map (fun p => missing_error i (field_loc b p n)) (firstn 1 (paths_of key)).
Proof.
  intros [_ B]. unfold key_error, field_loc, missing_error.
  assert (F : exists p, first_of key = Some p /\ firstn 1 (paths_of key) = [p]).
  { destruct key as [p|p q|ps]; [exists p; split; reflexivity..|]. destruct ps as [|p ps]; [congruence|]. exists p; split; reflexivity. }
  destruct F as (p & F1 & F2). rewrite F2. destruct b.
  - rewrite F1. eexists. split; [reflexivity|]. cbn [map]. unfold items. cbn [map rev to_loc_item]. rewrite map_rev. reflexivity.
  - eexists. split; [reflexivity|]. reflexivity.
Qed.

(** * Dicts with string keys *)
Lemma dict_set_fresh k v d : (forall k' v', In (k', v') d -> exists s, k' = PStr s /\ s <> k) -> dict_set (PStr k) v d = d ++ [(PStr k, v)].
Proof.
  induction d as [|[k' v'] d IH]; intros H; [reflexivity|]. cbn [dict_set app].
  destruct (H k' v' (or_introl eq_refl)) as (t & -> & N). rewrite py_eq_str. destruct (str_eqb t k) eqn:E; [apply str_eqb_eq in E; contradiction|].
  rewrite IH; [reflexivity|]. intros a b I. eapply H. right; eassumption.
Qed.
Lemma data_of_app a b : data_of (a ++ b) = data_of a ++ data_of b.
Proof. apply flat_map_app. Qed.
Lemma data_of_names vs k v : In (k, v) (data_of vs) -> exists s, k = PStr s /\ In s (map (fun fo => f_name (fst fo)) vs).
Proof.
  unfold data_of. rewrite in_flat_map. intros ([f o] & I & H). cbn [fst snd] in H. destruct (value_of o); [|destruct H]. destruct H as [H|[]]. injection H as <- _.
  exists (f_name f). split; [reflexivity|]. apply in_map_iff. exists (f, o). auto.
Qed.

(** * The field loop *)
Definition acc_after (c : fields_cfg) (i : input) (a : facc) (vs : list (field * outcome)) : facc :=
  {| fa_dict := fa_dict a ++ data_of vs; fa_errors := fa_errors a ++ flat_map (field_errors (fc_loc_by_alias c) i) vs;
     fa_set := fa_set a ++ found_names vs; fa_used := rev (consumed vs) ++ fa_used a |}.

Lemma acc_after_cons c i a fo vs : acc_after c i a (fo :: vs) = acc_after c i (acc_after c i a [fo]) vs.
Proof.
  unfold acc_after. cbn [fa_dict fa_errors fa_set fa_used]. f_equal.
  - change (fo :: vs) with ([fo] ++ vs). rewrite data_of_app, app_assoc. reflexivity.
  - cbn [flat_map]. rewrite app_nil_r, app_assoc. reflexivity.
  - unfold found_names. cbn [flat_map]. rewrite app_nil_r, app_assoc. reflexivity.
  - unfold consumed. cbn [flat_map]. rewrite rev_app_distr, app_nil_r, <- app_assoc. reflexivity.
Qed.

Section Loop.
Variables (c : fields_cfg) (md : mdict) (i : input) (ba bn : bool) (key_of : field -> lookup_key).

Definition step_ok (f : field) := collection_select (f_keys f) ba bn = BOk (key_of f) /\ built_key (key_of f).

(** One field. *)
Lemma fields_step f fs a s done o s1 : step_ok f -> fa_dict a = data_of done ->
  ~ In (f_name f) (map (fun fo => f_name (fst fo)) done) ->
  look md (key_of f) f (set_extra (set_data (Some (data_of done)) (st_extra s)) s) = (o, s1) ->
  (field_regular (f, o) -> fields_loop c md i ba bn (f :: fs) a s = fields_loop c md i ba bn fs (acc_after c i a [(f, o)]) s1) /\
  (~ field_regular (f, o) -> exists e, fields_loop c md i ba bn (f :: fs) a s = (VErr e, s1) /\ match e with LineErrors _ => False | _ => True end).
Proof.
  intros [Hs Hb] Hd Hn L. cbn [fields_loop]. rewrite Hs, Hd. unfold look in L.
  assert (Put : forall v, dict_set (PStr (f_name f)) v (fa_dict a) = fa_dict a ++ [(PStr (f_name f), v)]).
  { intros v. apply dict_set_fresh. rewrite Hd. intros k' v' I. destruct (data_of_names _ _ _ I) as (t & -> & I'). exists t. split; [reflexivity|]. intros ->. contradiction. }
  set (s0 := set_extra _ s) in *. destruct (md_get md (key_of f)) as [[[p x]|]|e].
  - destruct (rebind _ s0 _) as [r s'] eqn:R. injection L as <- <-.
    destruct r as [v|[es| | | |]]; cbn [field_regular snd]; (split; [intros Hr; try destruct Hr|intros Hr; first [destruct Hr; exact I | eexists; split; [reflexivity|exact I]]]).
    + f_equal. unfold acc_after, fa_mark, fa_put, fa_use, data_of, found_names, consumed. cbn. rewrite Put, app_nil_r. reflexivity.
    + f_equal. unfold acc_after, fa_add_errors, fa_use, data_of, found_names, consumed. cbn. rewrite !app_nil_r. f_equal. f_equal. apply map_ext. intros e. apply apply_error_loc_under.
    + f_equal. unfold acc_after, fa_use, data_of, found_names, consumed. cbn. rewrite !app_nil_r. reflexivity.
  - destruct (cv_default (f_cv f) _ s0) as [r s'] eqn:R. injection L as <- <-.
    destruct r as [[v|]|[es| | | |]]; cbn [field_regular snd]; (split; [intros Hr; try destruct Hr|intros Hr; first [destruct Hr; exact I | eexists; split; [reflexivity|exact I]]]).
    + f_equal. unfold acc_after, fa_put, data_of, found_names, consumed. cbn. rewrite Put, !app_nil_r. reflexivity.
    + destruct (key_error_missing (key_of f) i (fc_loc_by_alias c) (f_name f) Hb) as (e & -> & Ee).
      f_equal. unfold acc_after, fa_add_errors, data_of, found_names, consumed. cbn [flat_map field_errors snd fst value_of app rev]. rewrite !app_nil_r. rewrite Ee. reflexivity.
    + f_equal. unfold acc_after, fa_add_errors, data_of, found_names, consumed. cbn. rewrite !app_nil_r. reflexivity.
    + f_equal. unfold acc_after, data_of, found_names, consumed. cbn. rewrite !app_nil_r. destruct a; reflexivity.
  - injection L as <- <-. destruct e as [es| | | |]; cbn [field_regular snd]; (split; [intros Hr; try destruct Hr|intros Hr; first [destruct Hr; exact I | eexists; split; [reflexivity|exact I]]]).
    f_equal. unfold acc_after, fa_add_errors, data_of, found_names, consumed. cbn. rewrite !app_nil_r. reflexivity.
Qed.

Lemma acc_after_nil a : acc_after c i a [] = a.
Proof. unfold acc_after; cbn. rewrite !app_nil_r. destruct a; reflexivity. Qed.

Lemma fields_run fs : forall a s done vs s', Forall step_ok fs -> fa_dict a = data_of done ->
  NoDup (map (fun fo => f_name (fst fo)) done ++ map f_name fs) ->
  fields_trace md key_of done fs s = (vs, s') ->
  (Forall field_regular vs -> fields_loop c md i ba bn fs a s = (VOk (acc_after c i a vs), s')) /\
  (~ Forall field_regular vs -> exists e s1, fields_loop c md i ba bn fs a s = (VErr e, s1) /\ match e with LineErrors _ => False | _ => True end).
Proof.
  induction fs as [|f fs IH]; intros a s done vs s' Ok Hd Nd T.
  - cbn in T. injection T as <- <-. split; [intros _; cbn; rewrite acc_after_nil; reflexivity|]. intros H. destruct H. constructor.
  - cbn [fields_trace] in T. destruct (look md (key_of f) f _) as [o s1] eqn:L. destruct (fields_trace md key_of _ fs s1) as [os s2] eqn:T2. injection T as <- <-.
    inversion Ok as [|? ? Ok1 Ok2]; subst. cbn [map] in Nd.
    assert (Hn : ~ In (f_name f) (map (fun fo => f_name (fst fo)) done)).
    { apply NoDup_remove_2 in Nd. intros I. apply Nd. apply in_or_app. auto. }
    destruct (fields_step f fs a s done o s1 Ok1 Hd Hn L) as [S1 S2].
    specialize (IH (acc_after c i a [(f, o)]) s1 (done ++ [(f, o)]) os s2 Ok2).
    destruct IH as [I1 I2]; [cbn [acc_after fa_dict]; rewrite data_of_app, Hd; reflexivity| |assumption|].
    { rewrite map_app. cbn [map fst]. rewrite <- app_assoc. exact Nd. }
    assert (D : field_regular (f, o) \/ ~ field_regular (f, o)) by (destruct o as [[| | | |]|p [|[| | | |]]|k [|[| | | |]]]; cbn; auto).
    split.
    + intros F. inversion F; subst. rewrite S1 by assumption. rewrite (acc_after_cons c i a (f, o) os). apply I1; assumption.
    + intros F. destruct D as [D|D].
      * rewrite S1 by assumption. apply I2. intros F'. apply F. constructor; assumption.
      * destruct (S2 D) as (e & E & He). eauto.
Qed.
Lemma fields_run_all fs s vs s' : Forall step_ok fs -> NoDup (map f_name fs) ->
  fields_trace md key_of [] fs s = (vs, s') ->
  (Forall field_regular vs -> fields_loop c md i ba bn fs fa_init s = (VOk (acc_after c i fa_init vs), s')) /\
  (~ Forall field_regular vs -> exists e s1, fields_loop c md i ba bn fs fa_init s = (VErr e, s1) /\ match e with LineErrors _ => False | _ => True end).
Proof.
  intros Ok Nd T. exact (fields_run fs fa_init s [] vs s' Ok eq_refl Nd T).
Qed.
Lemma field_regular_dec vs : Forall field_regular vs \/ ~ Forall field_regular vs.
Proof.
  induction vs as [|[f o] vs [IH|IH]].
  - left; constructor.
  - assert (D : field_regular (f, o) \/ ~ field_regular (f, o)) by (destruct o as [[| | | |]|p [|[| | | |]]|k [|[| | | |]]]; cbn; auto).
    destruct D; [left; constructor; assumption|right; intros F; inversion F; contradiction].
  - right; intros F; inversion F; contradiction.
Qed.
End Loop.

(** * The extras loop *)
Lemma mem_str_rev k l l' : mem_str k (rev l ++ l') = mem_str k (l ++ l').
Proof.
  destruct (mem_str k (l ++ l')) eqn:E.
  - apply mem_str_In. apply mem_str_In in E. apply in_or_app. apply in_app_or in E. destruct E as [E|E]; [left; apply in_rev; rewrite rev_involutive; assumption|auto].
  - apply mem_str_not_In. apply mem_str_not_In in E. intros I. apply E. apply in_or_app. apply in_app_or in I. destruct I as [I|I]; [left; apply in_rev; assumption|auto].
Qed.

Definition puts (d : list (pyval * pyval)) (kvs : list (str * pyval)) := fold_left (fun d kv => dict_set (PStr (fst kv)) (snd kv) d) kvs d.

Local Ltac fin := try reflexivity; try exact I; try (cbn; rewrite ?app_nil_r; reflexivity).
Lemma extras_run c used used' xs : (forall k, mem_str k used = mem_str k used') -> forall out errors fset s os s',
  extra_trace c used' xs s = (os, s') ->
  (Forall extra_regular os ->
   extras_loop c used (map to_entry xs) out errors fset s =
   (VOk (puts out (kept os), errors ++ flat_map (extra_errors c) (combine xs os), fset ++ map fst (kept os)), s')) /\
  (~ Forall extra_regular os -> exists e s1, extras_loop c used (map to_entry xs) out errors fset s = (VErr e, s1) /\ match e with LineErrors _ => False | _ => True end).
Proof.
  intros U. induction xs as [|x xs IH]; intros out errors fset s os s' T.
  - cbn in T. injection T as <- <-. split; [intros _; cbn; rewrite !app_nil_r; reflexivity|]. intros H; destruct H; constructor.
  - cbn [extra_trace] in T. destruct (extra_look c used' x s) as [o s1] eqn:L. destruct (extra_trace c used' xs s1) as [os1 s2] eqn:T1. injection T as <- <-.
    destruct x as [[key kloc] value]. unfold extra_look in L. cbn [fst snd] in L. cbn [map]. change (to_entry (key, kloc, value)) with (Entry key kloc value). cbn [extras_loop].
    assert (K : forall k out' errors' fset', kept (o :: os1) = k ++ kept os1 -> out' = puts out k -> fset' = fset ++ map fst k ->
      errors' = errors ++ extra_errors c (key, kloc, value, o) -> extra_regular o ->
      (Forall extra_regular (o :: os1) -> extras_loop c used (map to_entry xs) out' errors' fset' s1 =
        (VOk (puts out (kept (o :: os1)), errors ++ flat_map (extra_errors c) (combine ((key, kloc, value) :: xs) (o :: os1)), fset ++ map fst (kept (o :: os1))), s2)) /\
      (~ Forall extra_regular (o :: os1) -> exists e s3, extras_loop c used (map to_entry xs) out' errors' fset' s1 = (VErr e, s3) /\ match e with LineErrors _ => False | _ => True end)).
    { intros k out' errors' fset' E1 -> -> -> R. destruct (IH (puts out k) (errors ++ extra_errors c (key, kloc, value, o)) (fset ++ map fst k) s1 os1 s2 T1) as [I1 I2]. split.
      - intros F. inversion F; subst. rewrite I1 by assumption. rewrite E1. unfold puts. rewrite fold_left_app, map_app, !app_assoc. cbn [combine flat_map]. rewrite app_assoc. reflexivity.
      - intros F. apply I2. intros F'. apply F. constructor; assumption. }
    assert (Stop : forall e s3, match e with LineErrors _ => False | _ => True end -> ~ extra_regular o ->
      (Forall extra_regular (o :: os1) -> (VErr e, s3) = (VOk (puts out (kept (o :: os1)), errors ++ flat_map (extra_errors c) (combine ((key, kloc, value) :: xs) (o :: os1)), fset ++ map fst (kept (o :: os1))), s2)) /\
      (~ Forall extra_regular (o :: os1) -> exists e0 s4, (VErr e, s3) = (@VErr (list (pyval * pyval) * list line_error * list str) e0, s4) /\ match e0 with LineErrors _ => False | _ => True end)).
    { intros e s3 He Hr. split; [intros F; inversion F; contradiction|]. intros _. eauto. }
    assert (KS : forall e, key_str key = VErr e -> e = LineErrors [new_error EStringType key]).
    { intros e. unfold key_str, val_err. destruct key as [v|[| | | | | |]|k|v]; try (destruct (as_str v)); congruence. }
    destruct (key_str key) as [k|e] eqn:Ek.
    2:{ rewrite (KS e eq_refl). injection L as <- <-. apply (K []); fin. }
    rewrite U. destruct (mem_str k used').
    { injection L as <- <-. apply (K []); fin. }
    destruct (fc_extra c) eqn:Ex.
    2,3: injection L as <- <-; apply (K []); fin; cbn [extra_errors]; rewrite Ex, ?app_nil_r; reflexivity.
    assert (W : forall k' s0, (let '(r, s3) := match fc_extras c with Some v => v value s0 | None => (VOk (input_object value), s0) end in (Kept k' r, s3)) = (o, s1) ->
      let r := match fc_extras c with
        | Some v => match v value s0 with
            | (VOk x, s'0) => extras_loop c used (map to_entry xs) (dict_set (PStr k') x out) errors (fset ++ [k']) s'0
            | (VErr (LineErrors l), s'0) => extras_loop c used (map to_entry xs) out (errors ++ map (with_outer kloc) l) fset s'0
            | (VErr e, s'0) => (VErr e, s'0) end
        | None => extras_loop c used (map to_entry xs) (dict_set (PStr k') (input_object value) out) errors (fset ++ [k']) s0 end in
      (Forall extra_regular (o :: os1) -> r = (VOk (puts out (kept (o :: os1)), errors ++ flat_map (extra_errors c) (combine ((key, kloc, value) :: xs) (o :: os1)), fset ++ map fst (kept (o :: os1))), s2)) /\
      (~ Forall extra_regular (o :: os1) -> exists e s3, r = (VErr e, s3) /\ match e with LineErrors _ => False | _ => True end)).
    { intros k' s0 L'. cbv zeta. destruct (fc_extras c) as [v|].
      - destruct (v value s0) as [[x|[es| | | |]] s3]; injection L' as <- <-.
        + apply (K [(k', x)]); fin.
        + apply (K []); fin.
        + apply Stop; [exact I|intros []].
        + apply Stop; [exact I|intros []].
        + apply Stop; [exact I|intros []].
        + apply Stop; [exact I|intros []].
      - injection L' as <- <-. apply (K [(k', input_object value)]); fin. }
    destruct (fc_extras_keys c) as [vk|].
    + destruct (vk key s) as [[x|e] s3]; cbn [as_str] in L.
      * destruct (as_str x) as [k'|]; [apply W; exact L|]. injection L as <- <-. apply Stop; [exact I|intros []].
      * injection L as <- <-. destruct e as [es| | | |]; try (apply Stop; [exact I|intros []]).
        apply (K []); fin.
    + apply W. exact L.
Qed.
Lemma extra_regular_dec os : Forall extra_regular os \/ ~ Forall extra_regular os.
Proof.
  induction os as [|o os [IH|IH]].
  - left; constructor.
  - assert (D : extra_regular o \/ ~ extra_regular o) by (destruct o as [| | |[| | | |]|k [|[| | | |]]]; cbn; auto).
    destruct D; [left; constructor; assumption|right; intros F; inversion F; contradiction].
  - right; intros F; inversion F; contradiction.
Qed.
