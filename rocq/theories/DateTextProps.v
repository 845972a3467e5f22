(** C79: the JSON texts of dates, times and datetimes. *)
From Coq Require Import List NArith ZArith Bool Lia.
From Verif Require Import Base Values VState TzInfo Dates DateText DateTextSpec DateTextProofs.
Import ListNotations.
Open Scope Z_scope.

Lemma round_whole : forall k, round_seconds (60000000 * k) = 60 * k.
Proof.
  intros k. unfold round_seconds. rewrite Z.sgn_mul, Z.abs_mul. change (Z.abs 60000000) with 60000000. change (Z.sgn 60000000) with 1.
  replace ((60000000 * Z.abs k + 500000) / 1000000) with (60 * Z.abs k).
  - pose proof (Z.sgn_abs k). lia.
  - apply Z.div_unique with 500000; lia.
Qed.
Lemma raw_time : forall t, valid_pytime t -> whole_minutes (pt_tz t) ->
  exists r, pytime_as_time t = TOk r /\ plain_time r /\ same_as_time t r.
Proof.
  intros [h m s u z] V W. unfold valid_pytime in V. cbn [pt_hour pt_minute pt_second pt_micro pt_tz] in *. unfold pytime_as_time. cbn [pt_hour pt_minute pt_second pt_micro pt_tz].
  assert (P : forall o, shows o -> option_map (fun o => o * 1000000) o = offset_of z -> plain_time (mk_time h m s u o) /\ same_as_time (mk_pytime h m s u z) (mk_time h m s u o)).
  { intros o H E. split; [split; [exact V|exact H]|]. repeat split. exact E. }
  destruct z as [| |m'|e]; try contradiction; try (eexists; split; [reflexivity|]; apply P; [exact I|reflexivity]).
  destruct W as (k & -> & Hk). eexists. split; [reflexivity|]. rewrite round_whole. apply P; [exists k; auto|]. cbn [option_map offset_of]. f_equal. lia.
Qed.
Lemma tzinfo_shows : forall t, plain_time t -> tzinfo_ok t = true.
Proof.
  intros [h m s u o] [_ H]. unfold tzinfo_ok. cbn [ti_off] in *. destruct o as [o|]; [|reflexivity]. destruct H as (k & -> & Hk). unfold tz_new.
  destruct (Z.leb_spec 86400 (Z.abs (60 * k))); [lia|reflexivity].
Qed.

Section C79.
Variable parse_date : str -> date + str.
Variable parse_time : bool -> str -> time + str.
Variable parse_dt : bool -> str -> datetime + str.
Variable int_time : Z -> time + str.
Variable int_dt : Z -> datetime + str.
Variable float_time : N -> time + str.
Variable float_dt : N -> datetime + str.
Variable too_large : str.
Variable local : Z.
Variable today : Z -> date.
Variable now : Z -> datetime.
Notation date_validate := (date_validate parse_date parse_dt int_dt float_dt local today).
Notation datetime_validate := (datetime_validate parse_date parse_dt int_dt float_dt local now).
Notation time_validate := (time_validate parse_time int_time float_time too_large).

(** C79: the JSON of a date that a schema accepts is accepted by it, in strict mode too, and
    gives that date. *)
Theorem C79_date : forall st c exact d x, reads_date parse_date -> py_date_ok d = true ->
  date_validate st c (PyDate exact d) = TOk (SameObject, x) ->
  exists s, temporal_ser date_to_string true (PyDate exact d) = WText s
    /\ forall st', date_validate st' c (JsText s) = TOk (NewDate d, Strict).
Proof.
  intros st c exact d x R V H. exists (date_text d). split; [reflexivity|]. intros st'. unfold Dates.date_validate in *. cbn [validate_date] in *.
  rewrite (R d V). cbn [read_date tbind] in *. cbn [date_raw] in *.
  destruct (if no_bounds (dc_bounds c) && is_none (dc_now c) then _ else _); try discriminate. cbn [tbind date_into_py].
  assert (da_year d <> 0) by (unfold py_date_ok in V; rewrite !andb_true_iff, !Z.leb_le in V; lia).
  destruct (Z.eqb_spec (da_year d) 0); [contradiction|]. rewrite V. reflexivity.
Qed.
(** The same of times and datetimes whose offset has no seconds. *)
Theorem C79_time : forall st c exact t x, reads_time parse_time -> valid_pytime t -> whole_minutes (pt_tz t) ->
  time_validate st c (PyTime exact t) = TOk (SameObject, x) ->
  exists s r, temporal_ser time_to_string true (PyTime exact t) = WText s /\ same_as_time t r
    /\ forall st', time_validate st' c (JsText s) = TOk (NewTime r, Strict).
Proof.
  intros st c exact t x R V W H. destruct (raw_time t V W) as (r & E & P & Q). exists (time_text r), r. split; [|split; [exact Q|]].
  - unfold temporal_ser, time_to_string. rewrite E. reflexivity.
  - intros st'. unfold Dates.time_validate in *. cbn [validate_time] in *. rewrite (R _ r P). cbn [read_time tbind time_raw] in *. rewrite E in H. cbn [tbind] in H.
    destruct (if no_bounds (mc_bounds c) && is_none (mc_tz c) then _ else _); try discriminate. cbn [tbind time_into_py].
    rewrite (tzinfo_shows r P). destruct P as [-> _]. reflexivity.
Qed.
Theorem C79_datetime : forall st c exact d x, reads_dt parse_dt -> py_date_ok (pd_date d) = true -> valid_pytime (pd_time d) -> whole_minutes (pt_tz (pd_time d)) ->
  datetime_validate st c (PyDatetime exact d) = TOk (SameObject, x) ->
  exists s r, temporal_ser datetime_to_string true (PyDatetime exact d) = WText s /\ same_as_dt d r
    /\ forall st', datetime_validate st' c (JsText s) = TOk (NewDatetime r, Strict).
Proof.
  intros st c exact d x R Vd V W H. destruct (raw_time _ V W) as (t & E & P & Q). set (r := mk_dt (pd_date d) t).
  assert (Pr : plain_dt r) by (split; assumption). assert (Er : pydatetime_as_datetime d = TOk r) by (unfold pydatetime_as_datetime; rewrite E; reflexivity).
  exists (dt_text r), r. split; [|split; [split; [reflexivity|exact Q]|]].
  - unfold temporal_ser, datetime_to_string. rewrite Er. reflexivity.
  - intros st'. unfold Dates.datetime_validate in *. cbn [validate_datetime] in *. rewrite (R _ r Pr). cbn [read_dt tbind dt_raw] in *. rewrite Er in H.
    destruct (if no_bounds (tc_bounds c) && is_none (tc_now c) && is_none (tc_tz c) then _ else _); try discriminate. cbn [tbind dt_into_py].
    assert (da_year (dt_date r) <> 0) by (cbn [dt_date r]; unfold py_date_ok in Vd; rewrite !andb_true_iff, !Z.leb_le in Vd; lia).
    destruct (Z.eqb_spec (da_year (dt_date r)) 0); [contradiction|]. cbn [dt_date dt_time r]. rewrite (tzinfo_shows t P). rewrite Vd. destruct P as [-> _]. reflexivity.
Qed.
End C79.

(** C79: different values have different texts (so that they can be keys of a JSON object). *)
Theorem C79_injective :
  (forall a b, py_date_ok a = true -> py_date_ok b = true -> date_text a = date_text b -> a = b)
  /\ (forall a b, plain_time a -> plain_time b -> time_text a = time_text b -> a = b)
  /\ (forall a b, plain_dt a -> plain_dt b -> dt_text a = dt_text b -> a = b).
Proof.
  split; [|split]; intros a b Ha Hb E.
  - pose proof (decode_date_text a [] Ha) as A. pose proof (decode_date_text b [] Hb) as B. rewrite E in A. congruence.
  - pose proof (decode_time_text a Ha) as A. pose proof (decode_time_text b Hb) as B. rewrite E in A. congruence.
  - pose proof (decode_dt_text a Ha) as A. pose proof (decode_dt_text b Hb) as B. rewrite E in A. congruence.
Qed.
(** C79: in Python mode the object itself is returned; an object of another type, also a
    datetime for a date schema, is written as its own type says. *)
Theorem C79_types : forall i,
  (temporal_ser date_to_string false i = WObject <-> exists e d, i = PyDate e d)
  /\ (temporal_ser datetime_to_string false i = WObject <-> exists e d, i = PyDatetime e d)
  /\ (temporal_ser time_to_string false i = WObject <-> exists e t, i = PyTime e t)
  /\ forall json, (forall e d, temporal_ser date_to_string json (PyDatetime e d) = WInferred)
     /\ (temporal_ser date_to_string json i = WInferred <-> temporal_ser date_to_string false i <> WObject).
Proof.
  intros i. split; [|split; [|split]].
  - destruct i; cbn; split; intros H; try discriminate H; try (destruct H as (? & ? & H); discriminate H); eauto.
  - destruct i; cbn; split; intros H; try discriminate H; try (destruct H as (? & ? & H); discriminate H); eauto.
  - destruct i; cbn; split; intros H; try discriminate H; try (destruct H as (? & ? & H); discriminate H); eauto.
  - intros json. split; [reflexivity|]. destruct i; cbn; try (split; [discriminate|reflexivity]); destruct json; split; intros H; try discriminate H; contradiction H; reflexivity.
Qed.
Print Assumptions C79_date.
Print Assumptions C79_time.
Print Assumptions C79_datetime.
Print Assumptions C79_injective.
Print Assumptions C79_types.

(** Finding: the seconds of an offset are lost, so that the text is of another point in time. *)
Theorem C79_offset_refuted : forall parse_date parse_dt int_dt float_dt local now, reads_dt parse_dt -> exists d s r c,
  py_date_ok (pd_date d) = true /\ valid_pytime (pd_time d) /\ pt_tz (pd_time d) = TzDelta (1172 * 1000000)
  /\ temporal_ser datetime_to_string true (PyDatetime true d) = WText s
  /\ datetime_validate parse_date parse_dt int_dt float_dt local now None c (JsText s) = TOk (NewDatetime r, Strict)
  /\ ti_off (dt_time r) = Some 1140 /\ dt_date r = pd_date d /\ ti_hour (dt_time r) = pt_hour (pd_time d).
Proof.
  intros parse_date parse_dt int_dt float_dt local now R.
  exists (mk_pydt (mk_date 1937 6 1) (mk_pytime 12 0 0 0 (TzDelta (1172 * 1000000)))).
  set (r := mk_dt (mk_date 1937 6 1) (mk_time 12 0 0 0 (Some 1140))).
  exists (dt_text r), r, {| tc_strict := false; tc_trunc := true; tc_bounds := {| b_le := None; b_lt := None; b_ge := None; b_gt := None |}; tc_now := None; tc_tz := None |}.
  assert (P : plain_dt r) by (split; [reflexivity|split; [reflexivity|exists 19; split; [reflexivity|lia]]]).
  split; [reflexivity|]. split; [reflexivity|]. split; [reflexivity|]. split; [vm_compute; reflexivity|]. split; [|repeat split].
  unfold datetime_validate. cbn [validate_datetime]. rewrite (R _ r P). reflexivity.
Qed.
Print Assumptions C79_offset_refuted.

(** Readers with the assumed properties exist. *)
Definition read0 {A : Type} (o : option A) : A + str := match o with Some a => inl a | None => inr [] end.
Definition parse_date0 (s : str) : date + str := read0 (option_map fst (decode_date s)).
Definition parse_time0 (b : bool) (s : str) : time + str := read0 (decode_time s).
Definition parse_dt0 (b : bool) (s : str) : datetime + str := read0 (decode_dt s).
Lemma readers_exist : reads_date parse_date0 /\ reads_time parse_time0 /\ reads_dt parse_dt0.
Proof.
  split; [|split].
  - intros d H. unfold parse_date0. pose proof (decode_date_text d [] H) as E. rewrite app_nil_r in E. rewrite E. reflexivity.
  - intros b t H. unfold parse_time0. rewrite (decode_time_text t H). reflexivity.
  - intros b d H. unfold parse_dt0. rewrite (decode_dt_text d H). reflexivity.
Qed.
Example C79_nonvacuous :
  let d := mk_pydt (mk_date 2022 12 2) (mk_pytime 12 13 14 123 (TzDelta (-9000 * 1000000))) in
  let c := {| tc_strict := true; tc_trunc := true; tc_bounds := {| b_le := None; b_lt := None; b_ge := Some (mk_dt (mk_date 2020 1 1) (mk_time 0 0 0 0 (Some 0))); b_gt := None |}; tc_now := None; tc_tz := Some (TzAware None) |} in
  let validate := datetime_validate parse_date0 parse_dt0 (fun _ => inr []) (fun _ => inr []) 0 (fun _ => mk_dt (mk_date 2022 1 1) (mk_time 0 0 0 0 None)) None c in
  py_date_ok (pd_date d) = true /\ valid_pytime (pd_time d) /\ whole_minutes (pt_tz (pd_time d))
  /\ validate (PyDatetime true d) = TOk (SameObject, Exact)
  /\ temporal_ser datetime_to_string true (PyDatetime true d) = WText (lit "2022-12-02T12:13:14.000123-02:30")
  /\ validate (JsText (lit "2022-12-02T12:13:14.000123-02:30")) = TOk (NewDatetime (mk_dt (mk_date 2022 12 2) (mk_time 12 13 14 123 (Some (-9000)))), Strict)
  /\ date_text (mk_date 33 4 5) = lit "0033-04-05" /\ time_text (mk_time 1 2 3 0 (Some 0)) = lit "01:02:03Z".
Proof. cbv zeta. split; [reflexivity|]. split; [reflexivity|]. split; [exists (-150); split; [reflexivity|lia]|]. repeat split; vm_compute; reflexivity. Qed.
