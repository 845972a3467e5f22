(** Model of the serializer of timedelta schemas (src/serializers/type_serializers/timedelta.rs)
    and of [TimedeltaMode] (src/serializers/config.rs:110-164; infer.rs uses the same
    functions for values without a schema). *)
From Coq Require Import List NArith ZArith QArith Bool.
From Verif Require Import Base Values VState Decimal TimeDelta Dates Deltas DateText.
Import ListNotations.
Open Scope Z_scope.

(** str::trim_end_matches('0'). *)
Fixpoint drop_zeros (s : str) : str := match s with c :: r => if N.eqb c 48 then drop_zeros r else s | [] => [] end.
Definition trim_zeros (s : str) : str := rev (drop_zeros (rev s)).

(** speedate [Display for Duration] (external, written from its documentation and
    tests/serializers/test_timedelta.py, test_any.py): years of 365 days, days, hours,
    minutes, seconds with their fraction; parts that are zero are left out. *)
Definition part (n : Z) (letter : str) : str := if n =? 0 then [] else dec_Z n ++ letter.
Definition dur_text (d : duration) : str :=
  (if du_positive d then [] else lit "-") ++ lit "P"
  ++ part (du_day d / 365) (lit "Y") ++ part (du_day d mod 365) (lit "D")
  ++ (if (du_second d =? 0) && (du_micro d =? 0) then []
      else lit "T" ++ part (du_second d / 3600) (lit "H") ++ part (du_second d mod 3600 / 60) (lit "M")
           ++ (if (du_second d mod 60 =? 0) && (du_micro d =? 0) then []
               else dec_Z (du_second d mod 60) ++ (if du_micro d =? 0 then [] else lit "." ++ trim_zeros (pad 6 (du_micro d))) ++ lit "S"))
  ++ (if (du_day d =? 0) && (du_second d =? 0) && (du_micro d =? 0) then lit "T0S" else []).

(** The values: timedeltas of the class itself, instances of a subclass that leaves
    [total_seconds] alone, and everything else. *)
Inductive svalue := SDelta (t : pydelta) | SSub (t : pydelta) | SElse.
(** config.rs:87-92. *)
Inductive delta_mode := Iso8601 | FloatSeconds.
(** What is written: the object itself, a text, a float, what the type of the object says
    (with or without a warning); an exception. *)
Inductive dwritten := DWObject | DWText (s : str) | DWFloat (x : Q) | DWInferred (warned : bool) | DWRaise (e : pyexc) | DWPanic.

Section DeltaText.
(** IEEE rounding, as in TimeDelta. *)
Variable rnd : Q -> Q.
(** f64's Display. *)
Variable float_text : Q -> str.

(** CPython [timedelta.total_seconds] (external): the division of two integers, rounded. *)
Definition total_seconds (t : pydelta) : Q := rnd (((td_days t * 86400 + td_seconds t) * 1000000 + td_micros t) # 1000000).

(** datetime.rs:126-132 [to_duration] on what datetime.rs:134-145 [try_from] makes of the
    value; 171-185 [pytimedelta_subclass_as_duration] computes as [float_as_duration] does. *)
Definition value_duration (v : svalue) : option (dres duration) :=
  match v with
  | SDelta t => Some (match pytimedelta_exact_as_duration t with Some d => DOk d | None => DPanic end)
  | SSub t => Some (match float_as_duration rnd (total_seconds t) with Some d => DOk d | None => DOverflow end)
  | SElse => None
  end.
(** [into_pyobject] on the same. *)
Definition value_delta (v : svalue) : option pydelta :=
  match v with SDelta t | SSub t => Some t | SElse => None end.

(** config.rs:115-131 [either_delta_to_json]; 147-163 [timedelta_serialize] is the same.
    The overflow of a subclass is a ValueError (datetime.rs:184). *)
Definition delta_to_json (m : delta_mode) (v : svalue) : option dwritten :=
  match m with
  | Iso8601 => match value_duration v with
               | Some (DOk d) => Some (DWText (dur_text d))
               | Some DPanic => Some DWPanic
               | Some _ => Some (DWRaise XValueError)
               | None => None
               end
  | FloatSeconds => match value_delta v with Some t => Some (DWFloat (total_seconds t)) | None => None end
  end.
(** config.rs:133-145 [json_key]. *)
Definition delta_key (m : delta_mode) (v : svalue) : option dwritten :=
  match delta_to_json m v with Some (DWFloat x) => Some (DWText (float_text x)) | w => w end.

(** timedelta.rs:36-54 [to_python] (in Python mode [infer_to_python] returns a timedelta
    itself), 56-64 [json_key], 66-83 [serde_serialize] (as to_python in JSON mode). *)
Definition delta_ser (m : delta_mode) (json : bool) (v : svalue) : dwritten :=
  if json then match delta_to_json m v with Some w => w | None => DWInferred true end
  else match v with SElse => DWInferred false | _ => DWObject end.
Definition delta_json_key (m : delta_mode) (v : svalue) : dwritten :=
  match delta_key m v with Some w => w | None => DWInferred true end.
End DeltaText.
