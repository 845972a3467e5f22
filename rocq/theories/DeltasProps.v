(** C69: timedelta schemas. *)
From Coq Require Import List NArith ZArith Bool Lia.
From Verif Require Import Base Values VState TimeDelta TimeDeltaSpec TimeDeltaProofs Dates DatesSpec DatesProofs Deltas DeltasSpec.
Import ListNotations.
Open Scope Z_scope.

Lemma duration_cmp_micros : forall a b, normal a -> normal b ->
  duration_cmp a b = (duration_micros a ?= duration_micros b).
Proof.
  intros a b (Ha1 & Ha2 & Ha3) (Hb1 & Hb2 & Hb3). unfold duration_cmp, signed_seconds, signed_micros, duration_micros.
  destruct (du_positive a), (du_positive b);
    match goal with |- context [?x ?= ?y] => destruct (Z.compare_spec x y) end;
    try (match goal with |- (?x ?= ?y) = _ => destruct (Z.compare_spec x y) end);
    symmetry; first [apply Z.compare_eq_iff; lia|apply Z.compare_lt_iff; lia|apply Z.compare_gt_iff; lia].
Qed.

Definition dfirst (l : list derr) : dres unit := match l with [] => DOk tt | e :: _ => DErr e end.
Lemma dfirst_app : forall a b, dfirst (a ++ b) = dbind (dfirst a) (fun _ => dfirst b).
Proof. intros [|e a] b; reflexivity. Qed.

Lemma check_delta_spec : forall bt bd ok e r holds, bound_from bt bd -> normal r ->
  (forall x y, ok (x ?= y) = holds x y) ->
  check_delta bd ok e r = dfirst (dbroken bt (holds (duration_micros r)) e).
Proof.
  intros [t|] [d|] ok e r holds H Hr Hok; cbn [bound_from] in H; try contradiction; [|reflexivity].
  destruct H as [V E]. destruct (exact_as_duration_spec t V) as (d' & E' & Em & N1 & N2 & N3 & _).
  assert (d' = d) by congruence. subst d'. unfold check_delta, dbroken.
  rewrite duration_cmp_micros, Hok, Em by (assumption || (split; [|split]; assumption)).
  destruct (holds _ _); [reflexivity|]. unfold bound_text. rewrite (duration_back d t V Em). reflexivity.
Qed.

Section C69.
Variable parse : bool -> str -> duration + str.
Variable of_float : N -> option duration.
Variable bad_int bad_float : str.
Hypothesis Hparse : forall b s d, parse b s = inl d -> normal d.
Hypothesis Hfloat : forall n d, of_float n = Some d -> normal d.
Notation timedelta_validate := (timedelta_validate parse of_float bad_int bad_float).
Notation validate_timedelta := (validate_timedelta parse of_float bad_int bad_float).
Notation delta_reading := (delta_reading parse of_float).

Lemma int_reads : forall z, Z.abs z < 86400 * 1000000000 ->
  exists d, int_as_duration z = Some d /\ normal d /\ duration_micros d = z * 1000000.
Proof.
  intros z Hz. rewrite int_as_duration_spec. cbv zeta.
  assert (E : (Z.abs z / 86400) mod 4294967296 = Z.abs z / 86400).
  { apply Z.mod_small. split; [apply Z.div_pos; lia|apply Z.div_lt_upper_bound; lia]. }
  rewrite E. assert (L : Z.abs z / 86400 <= 999999999).
  { apply Z.lt_succ_r. apply Z.div_lt_upper_bound; lia. }
  apply Z.leb_le in L. rewrite L. eexists. split; [reflexivity|]. apply Z.leb_le in L.
  pose proof (Z.div_mod (Z.abs z) 86400). pose proof (Z.mod_pos_bound (Z.abs z) 86400).
  assert (0 <= Z.abs z / 86400) by (apply Z.div_pos; lia).
  split; [unfold normal; cbn; lia|]. unfold duration_micros. cbn. destruct (Z.leb_spec 0 z); lia.
Qed.

(** What the code reads, and what it gives back. *)
Lemma reading_run : forall strict trunc i m x, delta_reading strict trunc i m x ->
  exists d, validate_timedelta strict trunc i = DOk (d, x)
  /\ match i with
     | DObj t => d = ExactDelta t /\ m = delta_micros t
     | _ => exists r, d = RawDelta r /\ normal r /\ duration_micros r = m
     end.
Proof.
  intros strict trunc i m x H. destruct H as [t|i s d Ht Hs Hp|i z Hi Hs Hz|i n d Hi Hs Hp].
  - eexists. split; [reflexivity|]. auto.
  - exists (RawDelta d). pose proof (Hparse _ _ _ Hp).
    destruct i; cbn [dtext_of] in Ht; try discriminate; injection Ht as ->; cbn [dpython] in Hs;
      rewrite ?andb_true_r in Hs; subst; cbn [Deltas.validate_timedelta]; unfold read_text; rewrite Hp; split; eauto.
  - destruct (int_reads z Hz) as (d & E & N & M). exists (RawDelta d). subst strict.
    destruct Hi as [-> | ->]; cbn [Deltas.validate_timedelta]; unfold read_num; rewrite E; split; eauto.
  - exists (RawDelta d). pose proof (Hfloat _ _ Hp). subst strict.
    destruct Hi as [-> | ->]; cbn [Deltas.validate_timedelta]; unfold read_num; rewrite Hp; split; eauto.
Qed.

Lemma raw_into_py : forall r, normal r ->
  (duration_micros r < least_delta /\ duration_as_pytimedelta r = None)
  \/ (least_delta <= duration_micros r /\ exists t, duration_as_pytimedelta r = Some t /\ valid_delta t /\ delta_micros t = duration_micros r).
Proof.
  intros r (N1 & N2 & N3). unfold duration_as_pytimedelta.
  destruct (py_delta_new ((if du_positive r then 1 else -1) * du_day r) ((if du_positive r then 1 else -1) * du_second r)
    ((if du_positive r then 1 else -1) * du_micro r)) as [t|] eqn:E.
  - right. destruct (py_delta_new_micros _ _ _ _ E) as [V M].
    assert (D : delta_micros t = duration_micros r) by (rewrite M; unfold duration_micros; destruct (du_positive r); lia).
    split; [|eauto]. rewrite <- D. destruct t as [td ts tu]. unfold valid_delta, delta_micros, least_delta in *. cbn in *. lia.
  - left. split; [|reflexivity]. pose proof E as E0. unfold py_delta_new in E0. unfold duration_micros, least_delta.
    destruct (du_positive r).
    + exfalso. replace (1 * du_second r + 1 * du_micro r / 1000000) with (du_second r) in E0
        by (rewrite Z.div_small; lia).
      rewrite Z.div_small in E0 by lia.
      destruct (Z.leb_spec (-999999999) (1 * du_day r + 0)); [|lia].
      destruct (Z.leb_spec (1 * du_day r + 0) 999999999); [discriminate|lia].
    + destruct (Z.ltb_spec (-1 * ((du_day r * 86400 + du_second r) * 1000000 + du_micro r)) (-999999999 * 86400 * 1000000)); [assumption|].
      exfalso.
      assert (K : exists t, valid_delta t /\ delta_micros t = -1 * ((du_day r * 86400 + du_second r) * 1000000 + du_micro r)).
      { set (m := -1 * ((du_day r * 86400 + du_second r) * 1000000 + du_micro r)) in *.
        assert (Hm : -999999999 * 86400 * 1000000 <= m <= 0) by lia. clearbody m. clear E E0 N1 N2 N3.
        exists (mk_delta (m / 86400000000) (m mod 86400000000 / 1000000) (m mod 1000000)).
        unfold valid_delta, delta_micros. cbn [td_days td_seconds td_micros]. Z.div_mod_to_equations. lia. }
      destruct K as (t & V & M). rewrite (py_delta_new_total t) in E; [discriminate|assumption|]. rewrite M. lia.
Qed.

(** C69: an input that is taken for a length of time gives the timedelta of
    exactly that many microseconds when every bound holds, else the error of the first
    broken bound, which shows the bound; below the least timedelta it is Python that fails. *)
Theorem C69_timedelta : forall st c b i m x,
  match i with DObj t => valid_delta t | _ => True end -> bounds_from b (xc_bounds c) ->
  delta_reading (strict_or st (xc_strict c)) (xc_trunc c) i m x ->
  (m < least_delta /\ timedelta_validate st c i = DOverflow)
  \/ (least_delta <= m /\ exists t, valid_delta t /\ delta_micros t = m
      /\ timedelta_validate st c i = match broken_delta b m with e :: _ => DErr e | [] => DOk (t, x) end).
Proof.
  intros st c b i m x V (B1 & B2 & B3 & B4) H. destruct (reading_run _ _ _ _ _ H) as (d & E & Hd).
  unfold Deltas.timedelta_validate. rewrite E. cbn [dbind].
  assert (Fin : forall t r, normal r -> duration_micros r = m -> to_duration d = DOk r ->
    dbind (if no_bounds (xc_bounds c) then DOk tt
         else dbind (to_duration d) (fun r =>
              dbind (check_delta (b_le _ (xc_bounds c)) cmp_le DLessThanEqual r) (fun _ =>
              dbind (check_delta (b_lt _ (xc_bounds c)) cmp_lt DLessThan r) (fun _ =>
              dbind (check_delta (b_ge _ (xc_bounds c)) cmp_ge DGreaterThanEqual r) (fun _ =>
              check_delta (b_gt _ (xc_bounds c)) cmp_gt DGreaterThan r))))) (fun _ => DOk (t, x))
    = match broken_delta b m with e :: _ => DErr e | [] => @DOk (pydelta * exactness) (t, x) end).
  { intros t r N M R. rewrite R. cbn [dbind].
    rewrite (check_delta_spec _ _ _ _ r (fun x y => x <=? y) B1 N cmp_le_spec).
    rewrite (check_delta_spec _ _ _ _ r (fun x y => x <? y) B2 N cmp_lt_spec).
    rewrite (check_delta_spec _ _ _ _ r (fun x y => y <=? x) B3 N cmp_ge_spec).
    rewrite (check_delta_spec _ _ _ _ r (fun x y => y <? x) B4 N cmp_gt_spec).
    rewrite M, <- !dfirst_app. fold (broken_delta b m).
    destruct (no_bounds (xc_bounds c)) eqn:Nb.
    - assert (K : broken_delta b m = []).
      { destruct (xc_bounds c) as [[?|] [?|] [?|] [?|]]; try discriminate.
        destruct b as [[?|] [?|] [?|] [?|]]; cbn in B1, B2, B3, B4; try contradiction. reflexivity. }
      rewrite K. reflexivity.
    - destruct (broken_delta b m); reflexivity. }
  destruct i as [t|s| |z|n| |s|z|n| |s|s| | ].
  1:{ destruct Hd as [-> ->]. right. destruct (exact_as_duration_spec t V) as (r & Er & Em & N1 & N2 & N3 & _).
      split; [destruct t; unfold valid_delta, delta_micros, least_delta in *; cbn in *; lia|].
      exists t. split; [exact V|]. split; [reflexivity|]. cbn [delta_into_py dbind]. apply (Fin t r).
      - split; [|split]; assumption.
      - exact Em.
      - cbn [to_duration]. rewrite Er. reflexivity. }
  all: destruct Hd as (r & -> & N & M); cbn [delta_into_py];
    destruct (raw_into_py r N) as [[L Eq]|[L (t & Eq & Vt & Mt)]]; rewrite Eq; cbn [dbind];
    [left; split; [lia|reflexivity]|right; split; [lia|]; exists t; split; [exact Vt|]; split; [lia|]; apply (Fin t r); auto].
Qed.

(** C69: and nothing else is accepted, except whole seconds beyond 2^32 days (see C55). *)
Theorem C69_only : forall st c i r, timedelta_validate st c i = DOk r ->
  (exists m x, delta_reading (strict_or st (xc_strict c)) (xc_trunc c) i m x)
  \/ (exists z, (i = DPyInt z \/ i = DJsInt z) /\ 86400 * 2 ^ 32 <= Z.abs z).
Proof.
  intros st c i r H. unfold Deltas.timedelta_validate in H. set (strict := strict_or st (xc_strict c)) in *.
  assert (Rt : forall s y, dtext_of i = Some s -> strict && dpython i = false ->
    dbind (read_text (parse (xc_trunc c) s) y) (fun p => DOk p) <> DErr TimeDeltaType ->
    (exists d, parse (xc_trunc c) s = inl d) -> exists m x, delta_reading strict (xc_trunc c) i m x).
  { intros s y Ht Hs _ [d Hd]. eexists _, _. eapply ar_text; eassumption. }
  assert (Ri : forall z, i = DPyInt z \/ i = DJsInt z -> strict = false -> (exists d, int_as_duration z = Some d) ->
    (exists m x, delta_reading strict (xc_trunc c) i m x) \/ (exists z, (i = DPyInt z \/ i = DJsInt z) /\ 86400 * 2 ^ 32 <= Z.abs z)).
  { intros z Hi Hs [d Hd]. destruct (Z_lt_ge_dec (Z.abs z) (86400 * 1000000000)) as [L|G].
    - left. eexists _, _. eapply ar_int; eassumption.
    - right. exists z. split; [exact Hi|]. destruct (Z_lt_ge_dec (Z.abs z) (86400 * 2 ^ 32)) as [L|G']; [|lia]. exfalso.
      rewrite int_as_duration_spec in Hd. cbv zeta in Hd.
      assert (E : (Z.abs z / 86400) mod 4294967296 = Z.abs z / 86400).
      { apply Z.mod_small. split; [apply Z.div_pos; lia|apply Z.div_lt_upper_bound; lia]. }
      rewrite E in Hd. assert (1000000000 <= Z.abs z / 86400) by (apply Z.div_le_lower_bound; lia).
      destruct (Z.leb_spec (Z.abs z / 86400) 999999999); [lia|discriminate]. }
  destruct i as [t|s| |z|n| |s|z|n| |s|s| | ]; cbn [Deltas.validate_timedelta] in H;
    try (destruct strict eqn:Es; discriminate H); try (destruct strict eqn:Es; [discriminate H|]); try discriminate H.
  - left. eexists _, _. apply ar_object.
  - left. unfold read_text in H. destruct (parse (xc_trunc c) s) as [d|] eqn:E; [|discriminate]. eexists _, _. eapply ar_text; [reflexivity|reflexivity|exact E].
  - unfold read_num in H. destruct (int_as_duration z) as [d|] eqn:E; [|discriminate]. eapply Ri; eauto.
  - left. unfold read_num in H. destruct (of_float n) as [d|] eqn:E; [|discriminate]. eexists _, _. eapply ar_float; [left; reflexivity|reflexivity|exact E].
  - left. unfold read_text in H. destruct (parse (xc_trunc c) s) as [d|] eqn:E; [|discriminate]. eexists _, _. eapply ar_text; [reflexivity|apply andb_false_r|exact E].
  - unfold read_num in H. destruct (int_as_duration z) as [d|] eqn:E; [|discriminate]. eapply Ri; eauto.
  - left. unfold read_num in H. destruct (of_float n) as [d|] eqn:E; [|discriminate]. eexists _, _. eapply ar_float; [right; reflexivity|reflexivity|exact E].
  - left. unfold read_text in H. destruct (parse (xc_trunc c) s) as [d|] eqn:E; [|discriminate]. eexists _, _. eapply ar_text; [reflexivity|apply andb_false_r|exact E].
  - left. unfold read_text in H. destruct (parse (xc_trunc c) s) as [d|] eqn:E; [|discriminate]. eexists _, _. eapply ar_text; [reflexivity|apply andb_false_r|exact E].
Qed.
(** C69: an input that is not taken for a length of time is a validation error; nothing panics. *)
Theorem C69_refused : forall st c i,
  (forall m x, ~ delta_reading (strict_or st (xc_strict c)) (xc_trunc c) i m x) ->
  (forall z, i = DPyInt z \/ i = DJsInt z -> Z.abs z < 86400 * 2 ^ 32) ->
  exists e, timedelta_validate st c i = DErr e.
Proof.
  intros st c i H Hz. unfold Deltas.timedelta_validate. set (strict := strict_or st (xc_strict c)) in *.
  assert (Ri : forall z, i = DPyInt z \/ i = DJsInt z -> strict = false -> int_as_duration z = None).
  { intros z Hi Hs. destruct (Z_lt_ge_dec (Z.abs z) (86400 * 1000000000)) as [L|G].
    - exfalso. eapply H. eapply ar_int; eassumption.
    - specialize (Hz z Hi). rewrite int_as_duration_spec. cbv zeta.
      assert (E : (Z.abs z / 86400) mod 4294967296 = Z.abs z / 86400).
      { apply Z.mod_small. split; [apply Z.div_pos; lia|apply Z.div_lt_upper_bound; lia]. }
      rewrite E. assert (1000000000 <= Z.abs z / 86400) by (apply Z.div_le_lower_bound; lia).
      destruct (Z.leb_spec (Z.abs z / 86400) 999999999); [lia|reflexivity]. }
  assert (Rt : forall s, dtext_of i = Some s -> strict && dpython i = false -> exists e, parse (xc_trunc c) s = inr e).
  { intros s Ht Hs. destruct (parse (xc_trunc c) s) as [d|e] eqn:E; [|eauto]. exfalso. eapply H. eapply ar_text; eassumption. }
  assert (Rf : forall n, i = DPyFloat n \/ i = DJsFloat n -> strict = false -> of_float n = None).
  { intros n Hi Hs. destruct (of_float n) as [d|] eqn:E; [|reflexivity]. exfalso. eapply H. eapply ar_float; eassumption. }
  clearbody strict.
  destruct i as [t|s| |z|n| |s|z|n| |s|s| | ]; cbn [Deltas.validate_timedelta]; try (exfalso; eapply H; apply ar_object);
    try (eexists; reflexivity); try (destruct strict; [eexists; reflexivity|]); try (eexists; reflexivity);
    try (destruct (Rt _ eq_refl) as [e E]; [cbn [dpython]; first [reflexivity|apply andb_false_r]|];
         unfold read_text; rewrite E; eexists; reflexivity);
    first [rewrite Ri by auto|rewrite Rf by auto]; eexists; reflexivity.
Qed.
End C69.
Print Assumptions C69_refused.
Print Assumptions C69_timedelta.
Print Assumptions C69_only.

Definition ex_parse (b : bool) (s : str) : duration + str :=
  if str_eqb s (lit "-PT1.5S") then inl (mk_dur false 0 1 500000) else inr (lit "invalid").
Definition ex_float (n : N) : option duration := None.
Definition ex_deltas : delta_cfg :=
  {| xc_strict := false; xc_trunc := true;
     xc_bounds := {| b_le := None; b_lt := None; b_ge := Some (mk_dur false 0 1 500000); b_gt := None |} |}.
Definition ex_limits : bounds pydelta :=
  {| b_le := None; b_lt := None; b_ge := Some (mk_delta (-1) 86398 500000); b_gt := None |}.

Example C69_nonvacuous :
  bounds_from ex_limits (xc_bounds ex_deltas)
  /\ delta_reading ex_parse ex_float false true (DJsText (lit "-PT1.5S")) (-1500000) Strict
  /\ timedelta_validate ex_parse ex_float [] [] None ex_deltas (DJsText (lit "-PT1.5S")) = DOk (mk_delta (-1) 86398 500000, Strict)
  /\ timedelta_validate ex_parse ex_float [] [] None ex_deltas (DPyInt 90061) = DOk (mk_delta 1 3661 0, Lax)
  /\ timedelta_validate ex_parse ex_float [] [] None ex_deltas (DObj (mk_delta (-1) 86398 499999))
     = DErr (DGreaterThanEqual (lit "-1 days and 23 hours and 59 minutes and 58 seconds and 500000 microseconds")).
Proof.
  split; [cbn; repeat split; (reflexivity || discriminate)|].
  split; [change (-1500000) with (duration_micros (mk_dur false 0 1 500000)); eapply ar_text; [reflexivity|reflexivity|vm_compute; reflexivity]|].
  repeat split; vm_compute; reflexivity.
Qed.

(** C69, finding: whole seconds just below the least timedelta are not a validation
    error; an [OverflowError] escapes. *)
Theorem C69_overflow_refuted :
  exists z, delta_reading ex_parse ex_float false true (DJsInt z) (z * 1000000) Lax
  /\ timedelta_validate ex_parse ex_float [] [] None ex_deltas (DJsInt z) = DOverflow.
Proof.
  exists (-86399999913601). split; [|vm_compute; reflexivity].
  eapply ar_int; [right; reflexivity|reflexivity|vm_compute; reflexivity].
Qed.
Print Assumptions C69_overflow_refuted.
