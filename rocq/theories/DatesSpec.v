(** What dates, times and datetimes denote, what a date, datetime or time schema
    takes an input for, and which of its constraints a value breaks. *)
From Coq Require Import List NArith ZArith Bool.
From Verif Require Import Base Values VState TzInfo Dates.
Import ListNotations.
Open Scope Z_scope.

(** ** The calendar *)

Definition leap_year (y : Z) : Prop := (y mod 4 = 0 /\ y mod 100 <> 0) \/ y mod 400 = 0.
Definition month_length (leap : bool) (m : Z) : Z :=
  match m with
  | 4 | 6 | 9 | 11 => 30
  | 2 => if leap then 29 else 28
  | _ => 31
  end.
Definition valid_date (d : date) : Prop :=
  0 <= da_year d <= 9999 /\ 1 <= da_month d <= 12
  /\ 1 <= da_day d <= month_length (is_leap (da_year d)) (da_month d).
Definition valid_time (t : time) : Prop :=
  0 <= ti_hour t <= 23 /\ 0 <= ti_minute t <= 59 /\ 0 <= ti_second t <= 59 /\ 0 <= ti_micro t <= 999999
  /\ match ti_off t with Some o => -86400 < o < 86400 | None => True end.
Definition valid_dt (d : datetime) : Prop := valid_date (dt_date d) /\ valid_time (dt_time d).

(** The day after. *)
Definition next_day (d : date) : date :=
  if da_day d <? month_length (is_leap (da_year d)) (da_month d)
  then mk_date (da_year d) (da_month d) (da_day d + 1)
  else if da_month d <? 12 then mk_date (da_year d) (da_month d + 1) 1
  else mk_date (da_year d + 1) 1 1.

(** Microseconds shown on the clock, from midnight and from the first day of
    year 0; and microseconds in UTC, for a value with an offset. *)
Definition clock (t : time) : Z :=
  ((ti_hour t * 60 + ti_minute t) * 60 + ti_second t) * 1000000 + ti_micro t.
Definition wall (d : datetime) : Z := date_days (dt_date d) * 86400000000 + clock (dt_time d).

(** Two values with offsets are compared in UTC, and others as the clock shows
    them. *)
Definition both_utc (a b : option Z) : bool :=
  match a, b with Some _, Some _ => true | _, _ => false end.
Definition shift (o : option Z) : Z := match o with Some o => o * 1000000 | None => 0 end.
Definition time_point (utc : bool) (t : time) : Z := clock t - (if utc then shift (ti_off t) else 0).
Definition dt_point (utc : bool) (d : datetime) : Z := wall d - (if utc then shift (ti_off (dt_time d)) else 0).

(** ** Broken constraints, in the order in which they are looked at *)

Definition broken (holds : bool) (e : terr) : list terr := if holds then [] else [e].
Definition broken_bound {A : Type} (bound : option A) (holds : A -> bool) (e : terr) : list terr :=
  match bound with Some c => broken (holds c) e | None => [] end.

(** [x c] and [y c]: where the value and the bound lie. *)
Definition broken_bounds {A : Type} (b : bounds A) (x y : A -> Z) : list terr :=
  broken_bound (b_le _ b) (fun c => x c <=? y c) LessThanEqual
  ++ broken_bound (b_lt _ b) (fun c => x c <? y c) LessThan
  ++ broken_bound (b_ge _ b) (fun c => y c <=? x c) GreaterThanEqual
  ++ broken_bound (b_gt _ b) (fun c => y c <? x c) GreaterThan.

Definition in_past_or_future (op : now_op) (x n : Z) : bool :=
  match op with Past => x <? n | Future => n <? x end.

Definition broken_tz (c : option tz_constraint) (o : option Z) : list terr :=
  match c, o with
  | Some TzNaive, Some _ => [TzError TimezoneNaive]
  | Some (TzAware _), None => [TzError TimezoneAware]
  | Some (TzAware (Some e)), Some a => broken (e =? a) (TzError (TimezoneOffset e a))
  | _, _ => []
  end.

(** [t]: the current time, in microseconds from the first day of year 0 in UTC. *)
Definition broken_date (local t : Z) (c : date_cfg) (d : date) : list terr :=
  broken_bounds (dc_bounds c) (fun _ => date_days d) date_days
  ++ match dc_now c with
     | None => []
     | Some n =>
         let o := match nc_offset n with Some o => o | None => local end in
         broken (in_past_or_future (nc_op n) (date_days d) ((t + o * 1000000) / 86400000000))
                (match nc_op n with Past => DatePast | Future => DateFuture end)
     end.

Definition broken_dt (local t : Z) (c : dt_cfg) (d : datetime) : list terr :=
  broken_bounds (tc_bounds c) (fun b => dt_point (both_utc (ti_off (dt_time d)) (ti_off (dt_time b))) d)
    (fun b => dt_point (both_utc (ti_off (dt_time d)) (ti_off (dt_time b))) b)
  ++ match tc_now c with
     | None => []
     | Some n =>
         let o := match nc_offset n with Some o => o | None => local end in
         broken (match ti_off (dt_time d) with
                 | Some _ => in_past_or_future (nc_op n) (dt_point true d) t
                 | None => in_past_or_future (nc_op n) (wall d) (t + o * 1000000)
                 end)
                (match nc_op n with Past => DatetimePast | Future => DatetimeFuture end)
     end
  ++ broken_tz (tc_tz c) (ti_off (dt_time d)).

Definition broken_time (c : time_cfg) (t : time) : list terr :=
  broken_bounds (mc_bounds c) (fun b => time_point (both_utc (ti_off t) (ti_off b)) t)
    (fun b => time_point (both_utc (ti_off t) (ti_off b)) b)
  ++ broken_tz (mc_tz c) (ti_off t).

(** ** What an input is taken for *)

(** The text of an input, and whether it is a Python object. *)
Definition text_of (i : tinput) : option str :=
  match i with PyText s | PyBytesText s | JsText s | JsKey s | StrText s => Some s | _ => None end.
Definition python (i : tinput) : bool :=
  match i with
  | PyDate _ _ | PyDatetime _ _ | PyTime _ _ | PyText _ | PyBadText | PyBytesText _
  | PyTrueFalse _ | PyInt64 _ | PyFloatLike _ | PyElse => true
  | _ => false
  end.

(** How good a match an input is that is taken for what it is. *)
Definition own_exactness (i : tinput) : exactness :=
  match i with
  | PyDate ex _ | PyDatetime ex _ | PyTime ex _ => if ex then Exact else Strict
  | JsText _ | StrText _ => Strict
  | _ => Lax
  end.

(** The time of a Python object: its offset, rounded to seconds. *)
Inductive shows_time : pytime -> time -> Prop :=
| shows_naive : forall h m s u, shows_time (mk_pytime h m s u TzMissing) (mk_time h m s u None)
| shows_no_offset : forall h m s u, shows_time (mk_pytime h m s u TzNone) (mk_time h m s u None)
| shows_offset : forall h m s u o, shows_time (mk_pytime h m s u (TzDelta o)) (mk_time h m s u (Some (round_seconds o))).

Section Readings.
Variable parse_date : str -> date + str.
Variable parse_time : bool -> str -> time + str.
Variable parse_dt : bool -> str -> datetime + str.
Variable int_time : Z -> time + str.
Variable int_dt : Z -> datetime + str.
Variable float_time : N -> time + str.
Variable float_dt : N -> datetime + str.

(** The readers give values that exist. *)
Record readers_ok := {
  ok_date : forall s d, parse_date s = inl d -> valid_date d;
  ok_time : forall b s t, parse_time b s = inl t -> valid_time t;
  ok_dt : forall b s d, parse_dt b s = inl d -> valid_dt d;
  ok_int_time : forall z t, int_time z = inl t -> valid_time t;
  ok_int_dt : forall z d, int_dt z = inl d -> valid_dt d;
  ok_float_time : forall n t, float_time n = inl t -> valid_time t;
  ok_float_dt : forall n d, float_dt n = inl d -> valid_dt d }.

(** A time: a time object, text, or (in lax mode) a number. *)
Inductive time_reading (strict trunc : bool) : tinput -> time -> Prop :=
| tr_object : forall ex p t, shows_time p t -> time_reading strict trunc (PyTime ex p) t
| tr_text : forall i s t, text_of i = Some s -> strict && python i = false -> parse_time trunc s = inl t ->
    time_reading strict trunc i t
| tr_int : forall i z t, i = PyInt64 z \/ i = JsInt z -> strict = false -> int_time z = inl t ->
    time_reading strict trunc i t
| tr_float : forall i n t, i = PyFloatLike n \/ i = JsFloat n -> strict = false -> float_time n = inl t ->
    time_reading strict trunc i t.

(** A datetime in its own right. *)
Inductive dt_written (strict trunc : bool) : tinput -> datetime -> Prop :=
| dw_object : forall ex p d t, shows_time p t -> dt_written strict trunc (PyDatetime ex (mk_pydt d p)) (mk_dt d t)
| dw_text : forall i s d, text_of i = Some s -> strict && python i = false -> parse_dt trunc s = inl d ->
    dt_written strict trunc i d
| dw_int : forall i z d, i = PyInt64 z \/ i = JsInt z -> strict = false -> int_dt z = inl d ->
    dt_written strict trunc i d
| dw_float : forall i n d, i = PyFloatLike n \/ i = JsFloat n -> strict = false -> float_dt n = inl d ->
    dt_written strict trunc i d.

(** A date in its own right. *)
Inductive date_written (strict : bool) : tinput -> date -> Prop :=
| da_object : forall ex d, date_written strict (PyDate ex d) d
| da_text : forall i s d, text_of i = Some s -> strict && python i = false -> parse_date s = inl d ->
    date_written strict i d.

(** A date schema takes a date, or in lax mode a datetime that shows midnight;
    a datetime schema takes a datetime, or in lax mode a date, for its midnight. *)
Inductive date_reading (strict : bool) : tinput -> date -> exactness -> Prop :=
| dr_date : forall i d, date_written strict i d -> date_reading strict i d (own_exactness i)
| dr_midnight : forall i d, strict = false -> (forall d', ~ date_written strict i d') ->
    dt_written false true i d -> clock (dt_time d) = 0 -> date_reading strict i (dt_date d) Lax.

Definition midnight (d : date) : datetime := mk_dt d (mk_time 0 0 0 0 None).
Inductive dt_reading (strict trunc : bool) : tinput -> datetime -> exactness -> Prop :=
| xr_datetime : forall i d, dt_written strict trunc i d -> dt_reading strict trunc i d (own_exactness i)
| xr_date : forall i d, strict = false -> (forall d', ~ dt_written strict trunc i d') ->
    date_written strict i d -> dt_reading strict trunc i (midnight d) Lax.
End Readings.

(** The objects inputs hold exist too, and so do the bounds of a schema. *)
Definition valid_pytime (p : pytime) : Prop :=
  0 <= pt_hour p <= 23 /\ 0 <= pt_minute p <= 59 /\ 0 <= pt_second p <= 59 /\ 0 <= pt_micro p <= 999999
  /\ match pt_tz p with TzDelta m => -86400000000 < m < 86400000000 | _ => True end.
Definition valid_input (i : tinput) : Prop :=
  match i with
  | PyDate _ d => valid_date d /\ 1 <= da_year d
  | PyDatetime _ d => valid_date (pd_date d) /\ 1 <= da_year (pd_date d) /\ valid_pytime (pd_time d)
  | PyTime _ t => valid_pytime t
  | _ => True
  end.
Definition on_bounds {A : Type} (P : A -> Prop) (b : bounds A) : Prop :=
  (forall c, b_le _ b = Some c -> P c) /\ (forall c, b_lt _ b = Some c -> P c)
  /\ (forall c, b_ge _ b = Some c -> P c) /\ (forall c, b_gt _ b = Some c -> P c).

Definition on_now (local : Z) (n : option now_constraint) : Prop :=
  match n with
  | None => True
  | Some n => -86400 < match nc_offset n with Some o => o | None => local end < 86400
  end.

(** The clock reads [t]. *)
Definition clock_reads (t : Z) (today : Z -> date) (now : Z -> datetime) : Prop :=
  forall o, -86400 < o < 86400 ->
         valid_date (today o) /\ date_days (today o) = (t + o * 1000000) / 86400000000
         /\ valid_time (dt_time (now o)) /\ valid_date (dt_date (now o))
         /\ wall (now o) = t + o * 1000000 /\ ti_off (dt_time (now o)) = Some o.
