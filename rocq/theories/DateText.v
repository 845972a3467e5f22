(** Model of the serializers of dates, times and datetimes
    (src/serializers/type_serializers/datetime_etc.rs; infer.rs uses the same functions
    for values without a schema).  The text is speedate's Display (external, written from
    its documentation and tests/serializers/test_datetime.py). *)
From Coq Require Import List NArith ZArith Bool.
From Verif Require Import Base Values VState TzInfo Dates.
Import ListNotations.
Open Scope Z_scope.

(** Zero padded decimal digits. *)
Fixpoint pad (k : nat) (z : Z) : str :=
  match k with O => [] | S k' => pad k' (z / 10) ++ [(48 + Z.to_N (z mod 10))%N] end.

(** speedate [Display for Date], [Time] and [DateTime]: the seconds of an offset are not
    written. *)
Definition date_text (d : date) : str := pad 4 (da_year d) ++ lit "-" ++ pad 2 (da_month d) ++ lit "-" ++ pad 2 (da_day d).
Definition offset_text (o : option Z) : str :=
  match o with
  | None => []
  | Some o =>
      if o =? 0 then lit "Z"
      else let minutes := Z.quot o 60 in
           (if o <? 0 then lit "-" else lit "+") ++ pad 2 (Z.abs (Z.quot minutes 60)) ++ lit ":" ++ pad 2 (Z.abs (Z.rem minutes 60))
  end.
Definition time_text (t : time) : str :=
  pad 2 (ti_hour t) ++ lit ":" ++ pad 2 (ti_minute t) ++ lit ":" ++ pad 2 (ti_second t)
  ++ (if ti_micro t =? 0 then [] else lit "." ++ pad 6 (ti_micro t)) ++ offset_text (ti_off t).
Definition dt_text (d : datetime) : str := date_text (dt_date d) ++ lit "T" ++ time_text (dt_time d).

(** datetime_etc.rs:16-38: [datetime_to_string], [date_to_string], [time_to_string] and
    the downcasts.  [None] is the wrong type. *)
Definition date_to_string (i : tinput) : option (tres str) :=
  match i with PyDate _ d => Some (TOk (date_text d)) | _ => None end.
Definition datetime_to_string (i : tinput) : option (tres str) :=
  match i with PyDatetime _ d => Some (tbind (pydatetime_as_datetime d) (fun d => TOk (dt_text d))) | _ => None end.
Definition time_to_string (i : tinput) : option (tres str) :=
  match i with PyTime _ t => Some (tbind (pytime_as_time t) (fun t => TOk (time_text t))) | _ => None end.

(** What is written: the object itself, a text, or (after a warning) what the type of the
    object says; an exception of the object's tzinfo is raised. *)
Inductive written := WObject | WText (s : str) | WInferred | WRaise (e : pyexc).
(** datetime_etc.rs:40-118, the macro [build_serializer!]: to_python, json_key and
    serde_serialize; the last two are as to_python in JSON mode. *)
Definition temporal_ser (convert : tinput -> option (tres str)) (json : bool) (i : tinput) : written :=
  match convert i with
  | Some r => if json then match r with TOk s => WText s | TErr _ => WRaise XValueError | TRaise e => WRaise e end else WObject
  | None => WInferred
  end.
