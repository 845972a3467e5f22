(** Small specification for the texts of dates and times (C79). *)
From Coq Require Import List NArith ZArith Bool.
From Verif Require Import Base Values VState TzInfo Dates DateText.
Import ListNotations.
Open Scope Z_scope.

(** The UTC offset of a Python object, in microseconds. *)
Definition offset_of (t : pytz) : option Z := match t with TzDelta m => Some m | _ => None end.
(** An offset of whole minutes, less than a day (or none at all). *)
Definition whole_minutes (t : pytz) : Prop :=
  match t with TzMissing | TzNone => True | TzDelta m => exists k, m = 60000000 * k /\ -1440 < k < 1440 | TzRaises _ => False end.
(** Offsets in seconds that a text can show. *)
Definition shows (o : option Z) : Prop := match o with None => True | Some o => exists k, o = 60 * k /\ -1440 < k < 1440 end.
Definition plain_time (t : time) : Prop := py_time_ok t = true /\ shows (ti_off t).
Definition plain_dt (d : datetime) : Prop := py_date_ok (dt_date d) = true /\ plain_time (dt_time d).

(** A Python object with valid fields. *)
Definition valid_pytime (t : pytime) : Prop := py_time_ok (mk_time (pt_hour t) (pt_minute t) (pt_second t) (pt_micro t) None) = true.
(** [t] shows the same as the Python object, with the same offset. *)
Definition same_as_time (p : pytime) (t : time) : Prop :=
  ti_hour t = pt_hour p /\ ti_minute t = pt_minute p /\ ti_second t = pt_second p /\ ti_micro t = pt_micro p
  /\ option_map (fun o => o * 1000000) (ti_off t) = offset_of (pt_tz p).
Definition same_as_dt (p : pydatetime) (d : datetime) : Prop := dt_date d = pd_date p /\ same_as_time (pd_time p) (dt_time d).

(** Readers that read the texts of speedate as the value they are of. *)
Definition reads_date (parse_date : str -> date + str) : Prop := forall d, py_date_ok d = true -> parse_date (date_text d) = inl d.
Definition reads_time (parse_time : bool -> str -> time + str) : Prop := forall b t, plain_time t -> parse_time b (time_text t) = inl t.
Definition reads_dt (parse_dt : bool -> str -> datetime + str) : Prop := forall b d, plain_dt d -> parse_dt b (dt_text d) = inl d.
