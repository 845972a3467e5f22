(** Model of date, datetime and time schemas (src/validators/date.rs,
    src/validators/datetime.rs, src/validators/time.rs) and of how their inputs
    are read (src/input/datetime.rs, input_python.rs, input_json.rs,
    input_string.rs).  Reading text and numbers is speedate's (external): it
    enters as parameters. *)
From Coq Require Import List NArith ZArith Bool.
From Verif Require Import Base Values VState TzInfo.
Import ListNotations.
Open Scope Z_scope.

(** speedate's [Date], [Time] and [DateTime] (external crate); [ti_off] is
    [tz_offset] in seconds. *)
Record date := mk_date { da_year : Z; da_month : Z; da_day : Z }.
Record time := mk_time { ti_hour : Z; ti_minute : Z; ti_second : Z; ti_micro : Z; ti_off : option Z }.
Record datetime := mk_dt { dt_date : date; dt_time : time }.

(** speedate [Date]'s derived order (external, trusted): year, month, day. *)
Definition date_cmp (a b : date) : comparison :=
  match da_year a ?= da_year b with
  | Eq => match da_month a ?= da_month b with Eq => da_day a ?= da_day b | c => c end
  | c => c
  end.

(** speedate [Date::timestamp] in days (external, trusted): the proleptic
    Gregorian day number, counted from the first of January of year 0. *)
Definition is_leap (y : Z) : bool :=
  ((y mod 4 =? 0) && negb (y mod 100 =? 0)) || (y mod 400 =? 0).
Definition leaps_before (y : Z) : Z := (y - 1) / 4 - (y - 1) / 100 + (y - 1) / 400 + 1.
Definition month_start (leap : bool) (m : Z) : Z :=
  let l := if leap then 1 else 0 in
  match m with
  | 1 => 0 | 2 => 31 | 3 => 59 + l | 4 => 90 + l | 5 => 120 + l | 6 => 151 + l | 7 => 181 + l
  | 8 => 212 + l | 9 => 243 + l | 10 => 273 + l | 11 => 304 + l | 12 => 334 + l | _ => 365 + l
  end.
Definition date_days (d : date) : Z :=
  365 * da_year d + leaps_before (da_year d) + month_start (is_leap (da_year d)) (da_month d) + (da_day d - 1).

(** speedate [Time::total_seconds] (external, trusted). *)
Definition time_seconds (t : time) : Z := ti_hour t * 3600 + ti_minute t * 60 + ti_second t.
(** speedate [DateTime::timestamp] (external, trusted), up to the epoch. *)
Definition dt_seconds (d : datetime) : Z := date_days (dt_date d) * 86400 + time_seconds (dt_time d).

(** speedate [PartialOrd for Time] and [PartialOrd for DateTime] (external,
    trusted): in UTC when both have an offset, as they read otherwise
    (tests/validators/test_datetime.py:363-366 relies on the latter). *)
Definition then_micro (c : comparison) (a b : time) : comparison :=
  match c with Eq => ti_micro a ?= ti_micro b | _ => c end.
Definition time_cmp (a b : time) : comparison :=
  match ti_off a, ti_off b with
  | Some oa, Some ob => then_micro (time_seconds a - oa ?= time_seconds b - ob) a b
  | _, _ => then_micro (time_seconds a ?= time_seconds b) a b
  end.
Definition dt_cmp (a b : datetime) : comparison :=
  match ti_off (dt_time a), ti_off (dt_time b) with
  | Some oa, Some ob => then_micro (dt_seconds a - oa ?= dt_seconds b - ob) (dt_time a) (dt_time b)
  | _, _ => match date_cmp (dt_date a) (dt_date b) with Eq => time_cmp (dt_time a) (dt_time b) | c => c end
  end.

(** Rust's [le], [lt], [ge], [gt] from [partial_cmp]. *)
Definition cmp_le (c : comparison) : bool := match c with Gt => false | _ => true end.
Definition cmp_lt (c : comparison) : bool := match c with Lt => true | _ => false end.
Definition cmp_ge (c : comparison) : bool := match c with Lt => false | _ => true end.
Definition cmp_gt (c : comparison) : bool := match c with Gt => true | _ => false end.

(** What [tzinfo] of a Python time or datetime is: absent, or a result of
    [utcoffset]: [None], a timedelta (in microseconds), or an exception. *)
Inductive pytz := TzMissing | TzNone | TzDelta (micros : Z) | TzRaises (e : pyexc).
Record pytime := mk_pytime { pt_hour : Z; pt_minute : Z; pt_second : Z; pt_micro : Z; pt_tz : pytz }.
Record pydatetime := mk_pydt { pd_date : date; pd_time : pytime }.

(** The inputs, as far as these schemas tell them apart.  [exact]: the class itself
    and not a subclass of it.  A datetime is not a [PyDate] here although its class is a
    subclass of date: the code asks for datetime first.  A subclass that
    overrides [year] and the like is not modelled.  [NFloat] is any other object
    that [float()]-extracts, a Python int outside [i64] included; floats are
    named by a number. *)
Inductive tinput :=
| PyDate (exact : bool) (d : date)
| PyDatetime (exact : bool) (d : pydatetime)
| PyTime (exact : bool) (t : pytime)
| PyText (s : str) | PyBadText | PyBytesText (b : str)
| PyTrueFalse (b : bool) | PyInt64 (z : Z) | PyFloatLike (n : N) | PyElse
| JsText (s : str) | JsInt (z : Z) | JsBig (z : Z) | JsFloat (n : N) | JsElse
| JsKey (s : str)
| StrText (s : str) | StrBadText | StrMapping.

(** errors/types.rs: the kinds these schemas report. *)
Inductive terr :=
| DateType | DateParsing (msg : str) | DateFromDatetimeParsing (msg : str) | DateFromDatetimeInexact
| DatePast | DateFuture
| DatetimeType | DatetimeParsing (msg : str) | DatetimeFromDateParsing (msg : str) | DatetimeObjectInvalid (e : pyexc)
| DatetimePast | DatetimeFuture
| TimeType | TimeParsing (msg : str)
| StringUnicode
| LessThanEqual | LessThan | GreaterThanEqual | GreaterThan
| TzError (e : tz_error).

(** [ValResult]: a line error, or a Python exception that is not a validation
    error ([ValError::InternalErr]). *)
Inductive tres (A : Type) := TOk (a : A) | TErr (e : terr) | TRaise (e : pyexc).
Arguments TOk {A} a. Arguments TErr {A} e. Arguments TRaise {A} e.
Definition tbind {A B : Type} (r : tres A) (f : A -> tres B) : tres B :=
  match r with TOk a => f a | TErr e => TErr e | TRaise e => TRaise e end.

(** datetime.rs:25-28, 80-83, 264-267 [EitherDate], [EitherTime],
    [EitherDateTime].  [PyObj]: the input object itself. *)
Inductive eitherdate := RawDate (d : date) | PyObjDate (d : date).
Inductive eithertime := RawTime (t : time) | PyObjTime (t : pytime).
Inductive eitherdt := RawDt (d : datetime) | PyObjDt (d : pydatetime) | PyNewDt (d : pydatetime).

(** What a schema returns: the input object, or a new object.  A new object's
    offset is that of a [TzInfo]. *)
Inductive tout := SameObject | NewDate (d : date) | NewDatetime (d : datetime) | NewTime (t : time).

(** datetime.rs:198-222 [pytime_as_time]; [round] is to the nearest second, ties
    away from zero. *)
Definition round_seconds (micros : Z) : Z := Z.sgn micros * ((Z.abs micros + 500000) / 1000000).
Definition pytime_as_time (t : pytime) : tres time :=
  let mk o := TOk (mk_time (pt_hour t) (pt_minute t) (pt_second t) (pt_micro t) o) in
  match pt_tz t with
  | TzMissing | TzNone => mk None
  | TzDelta m => mk (Some (round_seconds m))
  | TzRaises e => TRaise e
  end.
(** datetime.rs:281-286 [pydatetime_as_datetime]. *)
Definition pydatetime_as_datetime (d : pydatetime) : tres datetime :=
  tbind (pytime_as_time (pd_time d)) (fun t => TOk (mk_dt (pd_date d) t)).

(** datetime.rs:71-76, 245-250, 318-323 [as_raw]. *)
Definition date_raw (d : eitherdate) : date := match d with RawDate d | PyObjDate d => d end.
Definition time_raw (t : eithertime) : tres time :=
  match t with RawTime t => TOk t | PyObjTime t => pytime_as_time t end.
Definition dt_raw (d : eitherdt) : tres datetime :=
  match d with RawDt d => TOk d | PyObjDt d | PyNewDt d => pydatetime_as_datetime d end.

(** CPython's constructors raise [ValueError] outside their ranges (external). *)
Definition month_days (y m : Z) : Z := month_start (is_leap y) (m + 1) - month_start (is_leap y) m.
Definition py_date_ok (d : date) : bool :=
  (1 <=? da_year d) && (da_year d <=? 9999) && (1 <=? da_month d) && (da_month d <=? 12)
  && (1 <=? da_day d) && (da_day d <=? month_days (da_year d) (da_month d)).
Definition py_time_ok (t : time) : bool :=
  (0 <=? ti_hour t) && (ti_hour t <=? 23) && (0 <=? ti_minute t) && (ti_minute t <=? 59)
  && (0 <=? ti_second t) && (ti_second t <=? 59) && (0 <=? ti_micro t) && (ti_micro t <=? 999999).
(** datetime.rs:253-261 [time_as_tzinfo]. *)
Definition tzinfo_ok (t : time) : bool :=
  match ti_off t with Some o => match tz_new o with Some _ => true | None => false end | None => true end.

Definition year_zero : str := lit "year 0 is out of range".
(** datetime.rs:52-69 [EitherDate::try_into_py]. *)
Definition date_into_py (d : eitherdate) : tres tout :=
  match d with
  | RawDate d =>
      if da_year d =? 0 then TErr (DateParsing year_zero)
      else if py_date_ok d then TOk (NewDate d) else TRaise XValueError
  | PyObjDate _ => TOk SameObject
  end.
(** datetime.rs:229-241 [into_pyobject] of [EitherTime]. *)
Definition time_into_py (t : eithertime) : tres tout :=
  match t with
  | RawTime t => if tzinfo_ok t && py_time_ok t then TOk (NewTime t) else TRaise XValueError
  | PyObjTime _ => TOk SameObject
  end.
(** datetime.rs:289-316 [EitherDateTime::try_into_py]. *)
Definition dt_into_py (d : eitherdt) : tres tout :=
  match d with
  | RawDt d =>
      if da_year (dt_date d) =? 0 then TErr (DatetimeParsing year_zero)
      else if tzinfo_ok (dt_time d) && py_date_ok (dt_date d) && py_time_ok (dt_time d)
      then TOk (NewDatetime d) else TRaise XValueError
  | PyObjDt _ => TOk SameObject
  | PyNewDt d => tbind (pydatetime_as_datetime d) (fun d => TOk (NewDatetime d))
  end.

Section Dates.
(** speedate's readers (external): of text, for a given handling of digits beyond the
    microsecond ([true]: truncate); of whole seconds; and datetime.rs:423-429,
    488-493: of a float.  [inr] is the message of the error. *)
Variable parse_date : str -> date + str.
Variable parse_time : bool -> str -> time + str.
Variable parse_dt : bool -> str -> datetime + str.
Variable int_time : Z -> time + str.
Variable int_dt : Z -> datetime + str.
Variable float_time : N -> time + str.
Variable float_dt : N -> datetime + str.
(** speedate's message for a time that is too large. *)
Variable too_large : str.

(** datetime.rs:326-492 [bytes_as_date] and the other readers. *)
Definition read_date (r : date + str) (x : exactness) : tres (eitherdate * exactness) :=
  match r with inl d => TOk (RawDate d, x) | inr m => TErr (DateParsing m) end.
Definition read_time (r : time + str) (x : exactness) : tres (eithertime * exactness) :=
  match r with inl t => TOk (RawTime t, x) | inr m => TErr (TimeParsing m) end.
Definition read_dt (r : datetime + str) (x : exactness) : tres (eitherdt * exactness) :=
  match r with inl d => TOk (RawDt d, x) | inr m => TErr (DatetimeParsing m) end.

(** input_python.rs:497-522, input_json.rs:280-285, 488-490, input_string.rs:204-209
    [validate_date]. *)
Definition validate_date (strict : bool) (i : tinput) : tres (eitherdate * exactness) :=
  match i with
  | PyDate exact d => TOk (PyObjDate d, if exact then Exact else Strict)
  | PyDatetime _ _ => TErr DateType
  | PyText s => if strict then TErr DateType else read_date (parse_date s) Lax
  | PyBadText => if strict then TErr DateType else TErr StringUnicode
  | PyBytesText b => if strict then TErr DateType else read_date (parse_date b) Lax
  | PyTime _ _ | PyTrueFalse _ | PyInt64 _ | PyFloatLike _ | PyElse => TErr DateType
  | JsText s => read_date (parse_date s) Strict
  | JsInt _ | JsBig _ | JsFloat _ | JsElse => TErr DateType
  | JsKey s => read_date (parse_date s) Lax
  | StrText s => read_date (parse_date s) Strict
  | StrBadText => TErr StringUnicode
  | StrMapping => TErr DateType
  end.

(** input_python.rs:524-556, input_json.rs:286-310, 492-498, input_string.rs:211-221
    [validate_time]. *)
Definition validate_time (strict trunc : bool) (i : tinput) : tres (eithertime * exactness) :=
  match i with
  | PyTime exact t => TOk (PyObjTime t, if exact then Exact else Strict)
  | PyText s => if strict then TErr TimeType else read_time (parse_time trunc s) Lax
  | PyBadText => if strict then TErr TimeType else TErr StringUnicode
  | PyBytesText b => if strict then TErr TimeType else read_time (parse_time trunc b) Lax
  | PyInt64 z => if strict then TErr TimeType else read_time (int_time z) Lax
  | PyFloatLike n => if strict then TErr TimeType else read_time (float_time n) Lax
  | PyDate _ _ | PyDatetime _ _ | PyTrueFalse _ | PyElse => TErr TimeType
  | JsText s => read_time (parse_time trunc s) Strict
  | JsInt z => if strict then TErr TimeType else read_time (int_time z) Lax
  | JsFloat n => if strict then TErr TimeType else read_time (float_time n) Lax
  | JsBig _ => if strict then TErr TimeType else TErr (TimeParsing too_large)
  | JsElse => TErr TimeType
  | JsKey s => read_time (parse_time trunc s) Lax
  | StrText s => read_time (parse_time trunc s) Strict
  | StrBadText => TErr StringUnicode
  | StrMapping => TErr TimeType
  end.

(** input_python.rs:558-592, input_json.rs:312-326, 500-506, input_string.rs:223-233
    [validate_datetime]; the date case is datetime.rs:431-445 [date_as_datetime]. *)
Definition validate_datetime (strict trunc : bool) (i : tinput) : tres (eitherdt * exactness) :=
  match i with
  | PyDatetime exact d => TOk (PyObjDt d, if exact then Exact else Strict)
  | PyText s => if strict then TErr DatetimeType else read_dt (parse_dt trunc s) Lax
  | PyBadText => if strict then TErr DatetimeType else TErr StringUnicode
  | PyBytesText b => if strict then TErr DatetimeType else read_dt (parse_dt trunc b) Lax
  | PyInt64 z => if strict then TErr DatetimeType else read_dt (int_dt z) Lax
  | PyFloatLike n => if strict then TErr DatetimeType else read_dt (float_dt n) Lax
  | PyDate _ d =>
      if strict then TErr DatetimeType else TOk (PyNewDt (mk_pydt d (mk_pytime 0 0 0 0 TzMissing)), Lax)
  | PyTime _ _ | PyTrueFalse _ | PyElse => TErr DatetimeType
  | JsText s => read_dt (parse_dt trunc s) Strict
  | JsInt z => if strict then TErr DatetimeType else read_dt (int_dt z) Lax
  | JsFloat n => if strict then TErr DatetimeType else read_dt (float_dt n) Lax
  | JsBig _ | JsElse => TErr DatetimeType
  | JsKey s => read_dt (parse_dt trunc s) Lax
  | StrText s => read_dt (parse_dt trunc s) Strict
  | StrBadText => TErr StringUnicode
  | StrMapping => TErr DatetimeType
  end.

(** The state's exactness is only ever lowered (validation_state.rs:80-92
    [floor_exactness]); a schema's part in it is returned beside the object. *)

(** date.rs:112-149 [date_from_datetime]; [None] is [Ok(None)]. *)
Definition same_time (a b : time) : bool :=
  (ti_hour a =? ti_hour b) && (ti_minute a =? ti_minute b) && (ti_second a =? ti_second b)
  && (ti_micro a =? ti_micro b)
  && match ti_off a, ti_off b with
     | None, None => true | Some x, Some y => x =? y | _, _ => false
     end.
Definition date_from_datetime (i : tinput) : tres (option eitherdate) :=
  match validate_datetime false true i with
  | TOk (d, _) =>
      tbind (dt_raw d) (fun dt =>
        let zero_time := mk_time 0 0 0 0 (ti_off (dt_time dt)) in
        if same_time (dt_time dt) zero_time then TOk (Some (RawDate (dt_date dt)))
        else TErr DateFromDatetimeInexact)
  | TErr (DatetimeParsing m) => TErr (DateFromDatetimeParsing m)
  | TErr _ => TOk None
  | TRaise _ => TOk None
  end.

(** datetime.rs (validators):144-181 [datetime_from_date]. *)
Definition datetime_from_date (i : tinput) : tres (option eitherdt) :=
  match validate_date false i with
  | TOk (d, _) => TOk (Some (RawDt (mk_dt (date_raw d) (mk_time 0 0 0 0 None))))
  | TErr (DateParsing m) => TErr (DatetimeFromDateParsing m)
  | TErr _ => TOk None
  | TRaise _ => TOk None
  end.

(** The bounds of a schema; [A] is what they are compared with. *)
Record bounds (A : Type) := { b_le : option A; b_lt : option A; b_ge : option A; b_gt : option A }.
Arguments b_le {A} b. Arguments b_lt {A} b. Arguments b_ge {A} b. Arguments b_gt {A} b.

(** The macro [check_constraint!] (date.rs:61-80, datetime.rs:91-110,
    time.rs:56-75): le, lt, ge, gt, in this order. *)
Definition check_one {A : Type} (bound : option A) (ok : A -> bool) (e : terr) : tres unit :=
  match bound with Some c => if ok c then TOk tt else TErr e | None => TOk tt end.
Definition check_bounds {A : Type} (cmp : A -> A -> comparison) (b : bounds A) (x : A) : tres unit :=
  tbind (check_one (b_le b) (fun c => cmp_le (cmp x c)) LessThanEqual) (fun _ =>
  tbind (check_one (b_lt b) (fun c => cmp_lt (cmp x c)) LessThan) (fun _ =>
  tbind (check_one (b_ge b) (fun c => cmp_ge (cmp x c)) GreaterThanEqual) (fun _ =>
  check_one (b_gt b) (fun c => cmp_gt (cmp x c)) GreaterThan))).

(** datetime.rs (validators):224-279 [NowOp], [NowConstraint]. *)
Inductive now_op := Past | Future.
Definition now_compare (op : now_op) (c : comparison) : bool :=
  match c with
  | Lt => match op with Past => true | Future => false end
  | Eq => false
  | Gt => match op with Future => true | Past => false end
  end.
Record now_constraint := { nc_op : now_op; nc_offset : option Z }.

(** The clock: the local offset ([time.localtime().tm_gmtoff]), and speedate's
    [Date::today] and [DateTime::now] for an offset (external). *)
Variable local_offset : Z.
Variable today : Z -> date.
Variable now : Z -> datetime.
Definition utc_offset (c : now_constraint) : Z :=
  match nc_offset c with Some o => o | None => local_offset end.

(** A schema has constraints or none at all (date.rs:170-174, datetime.rs:204-208,
    time.rs:115-119); a [None] for everything is the latter. *)
Record date_cfg := { dc_strict : bool; dc_bounds : bounds date; dc_now : option now_constraint }.
Record dt_cfg := { tc_strict : bool; tc_trunc : bool; tc_bounds : bounds datetime;
                   tc_now : option now_constraint; tc_tz : option tz_constraint }.
Record time_cfg := { mc_strict : bool; mc_trunc : bool; mc_bounds : bounds time; mc_tz : option tz_constraint }.

Definition no_bounds {A : Type} (b : bounds A) : bool :=
  match b_le b, b_lt b, b_ge b, b_gt b with None, None, None, None => true | _, _, _, _ => false end.
Definition is_none {A : Type} (o : option A) : bool := match o with None => true | Some _ => false end.

(** validation_state.rs:63-65 [strict_or]. *)
Definition strict_or (state : option bool) (own : bool) : bool :=
  match state with Some s => s | None => own end.

(** date.rs:42-101 [validate]. *)
Definition date_checks (c : date_cfg) (d : date) : tres unit :=
  tbind (check_bounds date_cmp (dc_bounds c) d) (fun _ =>
  match dc_now c with
  | None => TOk tt
  | Some n =>
      if now_compare (nc_op n) (date_cmp d (today (utc_offset n))) then TOk tt
      else TErr (match nc_op n with Past => DatePast | Future => DateFuture end)
  end).
Definition date_validate (st : option bool) (c : date_cfg) (i : tinput) : tres (tout * exactness) :=
  let strict := strict_or st (dc_strict c) in
  tbind (match validate_date strict i with
         | TOk r => TOk r
         | TErr e =>
             if strict then TErr e
             else tbind (date_from_datetime i) (fun o =>
                  match o with Some d => TOk (d, Lax) | None => TErr e end)
         | TRaise e => TRaise e
         end) (fun '(d, x) =>
  tbind (if no_bounds (dc_bounds c) && is_none (dc_now c) then TOk tt else date_checks c (date_raw d)) (fun _ =>
  tbind (date_into_py d) (fun o => TOk (o, x)))).

(** datetime.rs (validators):62-135 [validate]. *)
Definition tz_ok (c : option tz_constraint) (o : option Z) : tres unit :=
  match c with
  | None => TOk tt
  | Some c => match tz_check c o with Some e => TErr (TzError e) | None => TOk tt end
  end.
Definition dt_checks (c : dt_cfg) (d : datetime) : tres unit :=
  tbind (check_bounds dt_cmp (tc_bounds c) d) (fun _ =>
  tbind (match tc_now c with
         | None => TOk tt
         | Some n =>
             if now_compare (nc_op n) (dt_cmp d (now (utc_offset n))) then TOk tt
             else TErr (match nc_op n with Past => DatetimePast | Future => DatetimeFuture end)
         end) (fun _ =>
  tz_ok (tc_tz c) (ti_off (dt_time d)))).
Definition datetime_validate (st : option bool) (c : dt_cfg) (i : tinput) : tres (tout * exactness) :=
  let strict := strict_or st (tc_strict c) in
  tbind (match validate_datetime strict (tc_trunc c) i with
         | TOk r => TOk r
         | TErr e =>
             if strict then TErr e
             else tbind (datetime_from_date i) (fun o =>
                  match o with Some d => TOk (d, Lax) | None => TErr e end)
         | TRaise e => TRaise e
         end) (fun '(d, x) =>
  tbind (if no_bounds (tc_bounds c) && is_none (tc_now c) && is_none (tc_tz c) then TOk tt
         else match dt_raw d with
              | TOk dt => dt_checks c dt
              | TErr e => TErr e
              | TRaise e => TErr (DatetimeObjectInvalid e)
              end) (fun _ =>
  tbind (dt_into_py d) (fun o => TOk (o, x)))).

(** time.rs:44-82 [validate]. *)
Definition time_checks (c : time_cfg) (t : time) : tres unit :=
  tbind (check_bounds time_cmp (mc_bounds c) t) (fun _ => tz_ok (mc_tz c) (ti_off t)).
Definition time_validate (st : option bool) (c : time_cfg) (i : tinput) : tres (tout * exactness) :=
  tbind (validate_time (strict_or st (mc_strict c)) (mc_trunc c) i) (fun '(t, x) =>
  tbind (if no_bounds (mc_bounds c) && is_none (mc_tz c) then TOk tt
         else tbind (time_raw t) (time_checks c)) (fun _ =>
  tbind (time_into_py t) (fun o => TOk (o, x)))).
End Dates.
