(** C68: date, datetime and time schemas. *)
From Coq Require Import List NArith ZArith Bool Lia.
From Verif Require Import Base Values VState TzInfo Dates DatesSpec DatesProofs DatesProofs2.
Import ListNotations.
Open Scope Z_scope.

(** C68, the calendar: the day number that dates are compared by starts at 0, goes up by one
    from a day to the next, and tells dates apart; leap years are those of the
    Gregorian calendar. *)
Theorem C68_calendar :
  date_days (mk_date 0 1 1) = 0
  /\ (forall d, valid_date d -> date_days (next_day d) = date_days d + 1)
  /\ (forall d, valid_date d -> da_year (next_day d) <= 9999 -> valid_date (next_day d))
  /\ (forall a b, valid_date a -> valid_date b -> date_days a = date_days b -> a = b)
  /\ (forall y, is_leap y = true <-> leap_year y).
Proof.
  split; [reflexivity|]. split; [exact next_day_days|]. split; [exact next_day_valid|].
  split; [exact date_days_inj|exact is_leap_spec].
Qed.
Print Assumptions C68_calendar.

Section C68.
Variable parse_date : str -> date + str.
Variable parse_time : bool -> str -> time + str.
Variable parse_dt : bool -> str -> datetime + str.
Variable int_time : Z -> time + str.
Variable int_dt : Z -> datetime + str.
Variable float_time : N -> time + str.
Variable float_dt : N -> datetime + str.
Variable too_large : str.
Hypothesis Hread : readers_ok parse_date parse_time parse_dt int_time int_dt float_time float_dt.
Variable local t : Z.
Variable today : Z -> date.
Variable now : Z -> datetime.
Hypothesis Hclock : clock_reads t today now.

Notation date_validate := (date_validate parse_date parse_dt int_dt float_dt local today).
Notation datetime_validate := (datetime_validate parse_date parse_dt int_dt float_dt local now).
Notation time_validate := (time_validate parse_time int_time float_time too_large).
Notation date_reading := (date_reading parse_date parse_dt int_dt float_dt).
Notation dt_reading := (dt_reading parse_date parse_dt int_dt float_dt).
Notation time_reading := (time_reading parse_time int_time float_time).

(** C68, dates: an input that is taken for a date gives that date exactly when
    every constraint holds, else the error of the first broken one. *)
Theorem C68_date : forall st c i d x, valid_input i ->
  on_bounds valid_date (dc_bounds c) -> on_now local (dc_now c) ->
  date_reading (strict_or st (dc_strict c)) i d x ->
  date_validate st c i =
  match broken_date local t c d with
  | e :: _ => TErr e
  | [] => if da_year d =? 0 then TErr (DateParsing year_zero)
          else TOk (match i with PyDate _ _ => SameObject | _ => NewDate d end, x)
  end.
Proof. exact (date_run _ _ _ _ _ _ _ too_large Hread local t today now Hclock). Qed.

(** C68: and no other input is accepted; in particular in lax mode a datetime that
    does not show midnight has an error of its own. *)
Theorem C68_date_only : forall st c i r, valid_input i ->
  date_validate st c i = TOk r -> exists d x, date_reading (strict_or st (dc_strict c)) i d x.
Proof. exact (date_only _ _ _ _ _ _ _ too_large Hread local today). Qed.
Theorem C68_date_inexact : forall st c i d, valid_input i -> strict_or st (dc_strict c) = false ->
  (forall d', ~ date_written parse_date false i d') -> dt_written parse_dt int_dt float_dt false true i d ->
  clock (dt_time d) <> 0 -> date_validate st c i = TErr DateFromDatetimeInexact.
Proof. exact (date_inexact _ _ _ _ _ _ _ too_large Hread local today). Qed.

(** C68, datetimes: the same, a date being taken for its midnight. *)
Theorem C68_datetime : forall st c i d x, valid_input i ->
  on_bounds valid_dt (tc_bounds c) -> on_now local (tc_now c) ->
  dt_reading (strict_or st (tc_strict c)) (tc_trunc c) i d x ->
  datetime_validate st c i =
  match broken_dt local t c d with
  | e :: _ => TErr e
  | [] => if da_year (dt_date d) =? 0 then TErr (DatetimeParsing year_zero)
          else TOk (match i with PyDatetime _ _ => SameObject | _ => NewDatetime d end, x)
  end.
Proof. exact (datetime_run _ _ _ _ _ _ _ Hread local t today now Hclock). Qed.
Theorem C68_datetime_only : forall st c i r, valid_input i ->
  datetime_validate st c i = TOk r ->
  (exists d x, dt_reading (strict_or st (tc_strict c)) (tc_trunc c) i d x)
  \/ (exists ex d p e, i = PyDatetime ex (mk_pydt d p) /\ pt_tz p = TzRaises e
      /\ no_bounds (tc_bounds c) = true /\ tc_now c = None /\ tc_tz c = None /\ r = (SameObject, own_exactness i)).
Proof. exact (datetime_only _ _ _ _ local now). Qed.

(** C68: a datetime schema only ever fails with a validation error. *)
Theorem C68_datetime_errors : forall st c i e, valid_input i -> on_bounds valid_dt (tc_bounds c) -> on_now local (tc_now c) ->
  datetime_validate st c i <> TRaise e.
Proof. exact (datetime_no_raise _ _ _ _ _ _ _ Hread local t today now Hclock). Qed.

(** C68, times. *)
Theorem C68_time : forall st c i t0, valid_input i -> on_bounds valid_time (mc_bounds c) ->
  time_reading (strict_or st (mc_strict c)) (mc_trunc c) i t0 ->
  time_validate st c i =
  match broken_time c t0 with
  | e :: _ => TErr e
  | [] => TOk (match i with PyTime _ _ => SameObject | _ => NewTime t0 end, own_exactness i)
  end.
Proof. exact (time_run _ _ _ _ _ _ _ too_large Hread). Qed.
Theorem C68_time_only : forall st c i r, valid_input i -> time_validate st c i = TOk r ->
  (exists t0, time_reading (strict_or st (mc_strict c)) (mc_trunc c) i t0)
  \/ (exists ex p e, i = PyTime ex p /\ pt_tz p = TzRaises e
      /\ no_bounds (mc_bounds c) = true /\ mc_tz c = None /\ r = (SameObject, own_exactness i)).
Proof. exact (time_only _ _ _ _ _ _ _ too_large Hread). Qed.

(** C68: when a date or a time schema fails with something else than a validation error. *)
Theorem C68_raises : forall st e,
  (forall c i, valid_input i -> on_bounds valid_date (dc_bounds c) -> on_now local (dc_now c) ->
   (date_validate st c i = TRaise e <->
    strict_or st (dc_strict c) = false /\ exists ex d p, i = PyDatetime ex (mk_pydt d p) /\ pt_tz p = TzRaises e))
  /\ (forall c i, valid_input i -> on_bounds valid_time (mc_bounds c) ->
   (time_validate st c i = TRaise e <->
    (no_bounds (mc_bounds c) = false \/ mc_tz c <> None) /\ exists ex p, i = PyTime ex p /\ pt_tz p = TzRaises e)).
Proof.
  intros st e. split; intros c i.
  - exact (date_raises _ _ _ _ _ _ _ too_large Hread local t today now Hclock st c i e).
  - exact (time_raises _ _ _ _ _ _ _ too_large Hread st c i e).
Qed.
End C68.
Print Assumptions C68_date.
Print Assumptions C68_date_only.
Print Assumptions C68_date_inexact.
Print Assumptions C68_datetime.
Print Assumptions C68_datetime_only.
Print Assumptions C68_datetime_errors.
Print Assumptions C68_time.
Print Assumptions C68_time_only.
Print Assumptions C68_raises.

(** A small set of readers, and a clock that shows noon of the 16th of November
    2026 in UTC. *)
Definition one {A : Type} (s : str) (a : A) (s' : str) : A + str :=
  if str_eqb s s' then inl a else inr (lit "invalid").
Definition ex_date : str -> date + str := one (lit "2024-02-29") (mk_date 2024 2 29).
Definition ex_dt (b : bool) : str -> datetime + str :=
  one (lit "2024-02-29T00:00:00+05:00") (mk_dt (mk_date 2024 2 29) (mk_time 0 0 0 0 (Some 18000))).
Definition ex_time (b : bool) : str -> time + str := one (lit "12:13:14Z") (mk_time 12 13 14 0 (Some 0)).
Definition no_time {A : Type} (_ : A) : time + str := inr (lit "too large").
Definition ex_int (z : Z) : datetime + str :=
  if z =? 1709208001 then inl (mk_dt (mk_date 2024 2 29) (mk_time 12 0 1 0 (Some 0))) else inr (lit "too large").
Definition no_dt {A : Type} (_ : A) : datetime + str := inr (lit "too large").
Definition ex_day (o : Z) : date := mk_date 2026 11 (if o <? -43200 then 15 else if o <? 43200 then 16 else 17).
Definition ex_now (o : Z) : datetime :=
  let s := (43200 + o) mod 86400 in
  mk_dt (ex_day o) (mk_time (s / 3600) (s mod 3600 / 60) (s mod 60) 0 (Some o)).
Definition ex_t : Z := date_days (mk_date 2026 11 16) * 86400000000 + 43200000000.

Lemma ex_readers : readers_ok ex_date ex_time ex_dt no_time ex_int no_time no_dt.
Proof.
  constructor.
  - intros s d H. unfold ex_date, one in H. destruct (str_eqb _ s); [|discriminate]. injection H as <-.
    vm_compute; intuition discriminate.
  - intros b s d H. unfold ex_time, one in H. destruct (str_eqb _ s); [|discriminate]. injection H as <-.
    vm_compute; intuition discriminate.
  - intros b s d H. unfold ex_dt, one in H. destruct (str_eqb _ s); [|discriminate]. injection H as <-.
    vm_compute; intuition discriminate.
  - intros z d H. discriminate.
  - intros z d H. unfold ex_int in H. destruct (z =? _); [|discriminate]. injection H as <-.
    vm_compute; intuition discriminate.
  - intros z d H. discriminate.
  - intros z d H. discriminate.
Qed.
Lemma ex_clock : clock_reads ex_t ex_day ex_now.
Proof.
  intros o Ho.
  assert (V : valid_date (ex_day o)).
  { unfold ex_day. destruct (o <? -43200), (o <? 43200); vm_compute; intuition discriminate. }
  assert (D : date_days (ex_day o) = date_days (mk_date 2026 11 16) + (if o <? -43200 then -1 else if o <? 43200 then 0 else 1)).
  { unfold ex_day. destruct (o <? -43200), (o <? 43200); reflexivity. }
  split; [exact V|]. split; [|split; [|split; [exact V|split; [|reflexivity]]]].
  - rewrite D. unfold ex_t. destruct (Z.ltb_spec o (-43200)); [|destruct (Z.ltb_spec o 43200)];
      apply Z.div_unique with (r := 43200000000 + o * 1000000 -
        (if o <? -43200 then -1 else if o <? 43200 then 0 else 1) * 86400000000);
      repeat match goal with |- context [?a <? ?b] => destruct (Z.ltb_spec a b) end; try lia.
  - unfold ex_now, valid_time. cbn [dt_time ti_hour ti_minute ti_second ti_micro ti_off].
    pose proof (Z.mod_pos_bound (43200 + o) 86400 ltac:(lia)). set (s := (43200 + o) mod 86400) in *.
    Z.div_mod_to_equations. lia.
  - unfold wall, ex_now, clock. cbn [dt_time dt_date ti_hour ti_minute ti_second ti_micro].
    rewrite D. unfold ex_t. set (s := (43200 + o) mod 86400).
    assert (S : (s / 3600 * 60 + s mod 3600 / 60) * 60 + s mod 60 = s).
    { pose proof (Z.mod_pos_bound (43200 + o) 86400 ltac:(lia)). fold s in H.
      clearbody s. Z.div_mod_to_equations. lia. }
    rewrite S. assert (E : s = 43200 + o - (if o <? -43200 then -1 else if o <? 43200 then 0 else 1) * 86400).
    { unfold s. symmetry. apply Z.mod_unique with (q := if o <? -43200 then -1 else if o <? 43200 then 0 else 1);
        destruct (Z.ltb_spec o (-43200)); try destruct (Z.ltb_spec o 43200); lia. }
    rewrite E. lia.
Qed.

Definition ub {A : Type} (le lt ge gt : option A) : bounds A := {| b_le := le; b_lt := lt; b_ge := ge; b_gt := gt |}.
Definition ex_dates : date_cfg :=
  {| dc_strict := false; dc_bounds := ub None None (Some (mk_date 2000 1 1)) None;
     dc_now := Some {| nc_op := Past; nc_offset := Some 3600 |} |}.
Definition ex_dts : dt_cfg :=
  {| tc_strict := false; tc_trunc := true; tc_bounds := ub None (Some (mk_dt (mk_date 2024 2 28) (mk_time 19 0 0 1 (Some 0)))) None None;
     tc_now := Some {| nc_op := Past; nc_offset := None |}; tc_tz := Some (TzAware None) |}.
Definition ex_times : time_cfg :=
  {| mc_strict := true; mc_trunc := true; mc_bounds := ub (Some (mk_time 13 13 14 0 (Some 3600))) None None None; mc_tz := None |}.

Example C68_nonvacuous :
  (* text that is no date but a midnight, taken for its date, with its offset left out *)
  date_reading ex_date ex_dt ex_int no_dt false (PyText (lit "2024-02-29T00:00:00+05:00")) (mk_date 2024 2 29) Lax
  /\ date_validate ex_date ex_dt ex_int no_dt 0 ex_day None ex_dates (PyText (lit "2024-02-29T00:00:00+05:00"))
     = TOk (NewDate (mk_date 2024 2 29), Lax)
  /\ date_validate ex_date ex_dt ex_int no_dt 0 ex_day None ex_dates (JsText (lit "2024-02-29"))
     = TOk (NewDate (mk_date 2024 2 29), Strict)
  /\ date_validate ex_date ex_dt ex_int no_dt 0 ex_day None ex_dates (JsInt 1709208001) = TErr DateFromDatetimeInexact
  /\ date_validate ex_date ex_dt ex_int no_dt 0 ex_day (Some true) ex_dates (PyText (lit "2024-02-29")) = TErr DateType
  /\ date_validate ex_date ex_dt ex_int no_dt 0 ex_day None ex_dates (PyDate true (mk_date 1999 12 31)) = TErr GreaterThanEqual
  /\ date_validate ex_date ex_dt ex_int no_dt 0 ex_day None ex_dates (PyDate true (mk_date 2026 11 16)) = TErr DatePast
  (* a bound that is passed by one microsecond, in another zone *)
  /\ dt_reading ex_date ex_dt ex_int no_dt false true (StrText (lit "2024-02-29T00:00:00+05:00"))
       (mk_dt (mk_date 2024 2 29) (mk_time 0 0 0 0 (Some 18000))) Strict
  /\ datetime_validate ex_date ex_dt ex_int no_dt 0 ex_now None ex_dts (StrText (lit "2024-02-29T00:00:00+05:00"))
     = TOk (NewDatetime (mk_dt (mk_date 2024 2 29) (mk_time 0 0 0 0 (Some 18000))), Strict)
  /\ datetime_validate ex_date ex_dt ex_int no_dt 0 ex_now None ex_dts (PyDate true (mk_date 2024 2 28)) = TErr (TzError TimezoneAware)
  /\ time_reading ex_time no_time no_time true true (JsText (lit "12:13:14Z")) (mk_time 12 13 14 0 (Some 0))
  /\ time_validate ex_time no_time no_time [] None ex_times (JsText (lit "12:13:14Z")) = TOk (NewTime (mk_time 12 13 14 0 (Some 0)), Strict)
  /\ on_bounds valid_date (dc_bounds ex_dates) /\ on_bounds valid_dt (tc_bounds ex_dts) /\ on_bounds valid_time (mc_bounds ex_times).
Proof.
  split.
  { apply (dr_midnight _ _ _ _ _ _ (mk_dt (mk_date 2024 2 29) (mk_time 0 0 0 0 (Some 18000)))); try reflexivity.
    - intros d' H. inversion H; subst. injection H0 as <-. vm_compute in H2. discriminate.
    - eapply dw_text; [reflexivity|reflexivity|]. vm_compute. reflexivity. }
  do 6 (split; [vm_compute; reflexivity|]).
  split.
  { change Strict with (own_exactness (StrText (lit "2024-02-29T00:00:00+05:00"))) at 1. apply xr_datetime.
    eapply dw_text; [reflexivity|reflexivity|]. vm_compute. reflexivity. }
  do 2 (split; [vm_compute; reflexivity|]).
  split; [eapply tr_text; [reflexivity|reflexivity|vm_compute; reflexivity]|].
  split; [vm_compute; reflexivity|].
  unfold on_bounds. cbn. repeat split; intros; try discriminate; injection H as <-; vm_compute; intuition discriminate.
Qed.

(** A datetime object at a given clock time, and the schema with only an upper or only a
    lower bound. *)
Definition obj (h : Z) (u : Z) (tz : pytz) : tinput :=
  PyDatetime true (mk_pydt (mk_date 2024 1 1) (mk_pytime h 0 0 u tz)).
Definition at_hour (h : Z) (o : option Z) : datetime := mk_dt (mk_date 2024 1 1) (mk_time h 0 0 0 o).
Definition at_most (d : datetime) : dt_cfg :=
  {| tc_strict := false; tc_trunc := true; tc_bounds := ub (Some d) None None None; tc_now := None; tc_tz := None |}.
Definition later_than (d : datetime) : dt_cfg :=
  {| tc_strict := false; tc_trunc := true; tc_bounds := ub None None None (Some d); tc_now := None; tc_tz := None |}.
Notation ex_validate := (datetime_validate ex_date ex_dt ex_int no_dt 0 ex_now None).

(** C68, finding: bounds do not order datetimes when some have an offset and some
    have not (Python refuses to compare these): ten o'clock in UTC is at most ten o'clock,
    ten o'clock is at most ten o'clock at +01:00, but the first is not at most the
    last. *)
Theorem C68_mixed_refuted :
  dt_raw (PyObjDt (mk_pydt (mk_date 2024 1 1) (mk_pytime 10 0 0 0 (TzDelta 0)))) = TOk (at_hour 10 (Some 0))
  /\ dt_raw (PyObjDt (mk_pydt (mk_date 2024 1 1) (mk_pytime 10 0 0 0 TzMissing))) = TOk (at_hour 10 None)
  /\ ex_validate (at_most (at_hour 10 None)) (obj 10 0 (TzDelta 0)) = TOk (SameObject, Exact)
  /\ ex_validate (at_most (at_hour 10 (Some 3600))) (obj 10 0 TzMissing) = TOk (SameObject, Exact)
  /\ ex_validate (at_most (at_hour 10 (Some 3600))) (obj 10 0 (TzDelta 0)) = TErr LessThanEqual.
Proof. repeat split; vm_compute; reflexivity. Qed.
Print Assumptions C68_mixed_refuted.

(** C68, finding: an offset that is no whole number of seconds is rounded before it is
    compared: 10:00:00.2 at an offset of 0.4 seconds is before ten o'clock UTC, and it
    passes as later than that. *)
Theorem C68_offset_refuted :
  exists u o, wall (at_hour 10 None) + u - o < wall (at_hour 10 None)
  /\ ex_validate (later_than (at_hour 10 (Some 0))) (obj 10 u (TzDelta o)) = TOk (SameObject, Exact).
Proof. exists 200000, 400000. split; vm_compute; reflexivity. Qed.
Print Assumptions C68_offset_refuted.

(** C68, finding: a datetime whose offset cannot be had is a validation error for a
    datetime schema with constraints, but its own exception escapes from a date schema, and
    that of such a time from a time schema with constraints. *)
Theorem C68_object_refuted :
  exists e,
  ex_validate (at_most (at_hour 10 None)) (obj 10 0 (TzRaises e)) = TErr (DatetimeObjectInvalid e)
  /\ date_validate ex_date ex_dt ex_int no_dt 0 ex_day None ex_dates (obj 10 0 (TzRaises e)) = TRaise e
  /\ time_validate ex_time no_time no_time [] None ex_times (PyTime true (mk_pytime 10 0 0 0 (TzRaises e))) = TRaise e.
Proof. exists (XOther 7). repeat split; vm_compute; reflexivity. Qed.
Print Assumptions C68_object_refuted.

(** C68, finding: a midnight is that of the clock shown; the date it gives need not be the date in
    UTC. *)
Theorem C68_zone_refuted :
  exists d, ex_dt true (lit "2024-02-29T00:00:00+05:00") = inl d
  /\ date_validate ex_date ex_dt ex_int no_dt 0 ex_day None ex_dates (PyText (lit "2024-02-29T00:00:00+05:00"))
     = TOk (NewDate (dt_date d), Lax)
  /\ dt_point true d / 86400000000 = date_days (mk_date 2024 2 28).
Proof. exists (mk_dt (mk_date 2024 2 29) (mk_time 0 0 0 0 (Some 18000))). repeat split; vm_compute; reflexivity. Qed.
Print Assumptions C68_zone_refuted.
