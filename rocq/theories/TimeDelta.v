(** Model of the timedelta / timestamp conversions of src/input/datetime.rs. *)
From Coq Require Import List NArith ZArith Bool QArith Qround Qabs.
From Verif Require Import Base Decimal.
Import ListNotations.
Open Scope Z_scope.

(** A Python [datetime.timedelta] as its three stored attributes. *)
Record pydelta := mk_delta { td_days : Z; td_seconds : Z; td_micros : Z }.

(** speedate's [Duration] (external crate). *)
Record duration := mk_dur { du_positive : bool; du_day : Z; du_second : Z; du_micro : Z }.

(** speedate [Duration::new] (external, trusted): carries microseconds into
    seconds and seconds into days, rejects more than 999999999 days.  The three
    numbers are [u32]; the carries cannot overflow after the division. *)
Definition duration_new (positive : bool) (day second micro : Z) : option duration :=
  let second := second + micro / 1000000 in
  let micro := micro mod 1000000 in
  let day := day + second / 86400 in
  let second := second mod 86400 in
  if day <=? 999999999 then Some (mk_dur positive day second micro) else None.

(** CPython [timedelta(days, seconds, microseconds)] (external, trusted):
    normalises, [OverflowError] ([None]) outside +-999999999 days. *)
Definition py_delta_new (days seconds micros : Z) : option pydelta :=
  let seconds := seconds + micros / 1000000 in
  let micros := micros mod 1000000 in
  let days := days + seconds / 86400 in
  let seconds := seconds mod 86400 in
  if (-999999999 <=? days) && (days <=? 999999999) then Some (mk_delta days seconds micros) else None.

(** [as u32] on an integer: wraps. *)
Definition as_u32 (z : Z) : Z := z mod 4294967296.

(** datetime.rs:148-169 [pytimedelta_exact_as_duration]; [None] is the
    [unwrap] panic.  The [i32] arithmetic is exact in the attribute ranges. *)
Definition pytimedelta_exact_as_duration (t : pydelta) : option duration :=
  let positive := 0 <=? td_days t in
  if positive
  then duration_new positive (as_u32 (td_days t)) (as_u32 (td_seconds t)) (as_u32 (td_micros t))
  else
    let '(seconds, micros) :=
      if negb (td_micros t =? 0)
      then (td_seconds t + 1, Z.abs (td_micros t - 1000000))
      else (td_seconds t, td_micros t) in
    let '(days, seconds) :=
      if negb (seconds =? 0)
      then (td_days t + 1, Z.abs (seconds - 86400))
      else (td_days t, seconds) in
    let days := Z.abs days in
    duration_new positive (as_u32 days) (as_u32 seconds) (as_u32 micros).

(** datetime.rs:187-196 [duration_as_pytimedelta]. *)
Definition duration_as_pytimedelta (d : duration) : option pydelta :=
  let sign := if du_positive d then 1 else -1 in
  py_delta_new (sign * du_day d) (sign * du_second d) (sign * du_micro d).

(** datetime.rs:522-529 [int_as_duration]; the argument is an [i64], [None] is
    the [TimeDeltaParsing] error. *)
Definition int_as_duration (total : Z) : option duration :=
  let positive := 0 <=? total in
  let abs := Z.abs total in
  duration_new positive (as_u32 (abs / 86400)) (as_u32 (abs mod 86400)) 0.

(** Rust [f64] helpers on a finite value given as a rational. *)
Definition trunc (x : Q) : Z := if Qle_bool 0 x then Qfloor x else Qceiling x.
Definition fract (x : Q) : Q := (x - inject_Z (trunc x))%Q.
(** [f64::round]: nearest integer, ties away from zero. *)
Definition round_away (x : Q) : Z :=
  if Qle_bool 0 x then Qfloor (x + (1 # 2))%Q else (- Qfloor ((- x) + (1 # 2))%Q)%Z.
(** [as i64] / [as u32] / [as u64] on a float: saturate. *)
Definition sat (lo hi z : Z) : Z := Z.max lo (Z.min hi z).
Definition sat_i64 := sat (- 2 ^ 63) (2 ^ 63 - 1).
Definition sat_u32 := sat 0 (2 ^ 32 - 1).
Definition sat_u64 := sat 0 (2 ^ 64 - 1).

Section Rounding.
(** The IEEE rounding of a product or quotient: a parameter.  The theorems
    state what they need from it. *)
Variable rnd : Q -> Q.

(** datetime.rs:423-429 [float_as_datetime]: seconds and microseconds handed to
    [int_as_datetime] (finite, non-NaN timestamp). *)
Definition float_as_datetime_parts (x : Q) : Z * Z :=
  let micro := rnd (Qabs.Qabs (fract x) * 1000000)%Q in
  (sat_i64 (Qfloor x), sat_u32 (round_away micro)).

(** datetime.rs:531-540 [float_as_duration] (finite, non-NaN value). *)
Definition float_as_duration (x : Q) : option duration :=
  let positive := Qle_bool 0 x in
  let a := Qabs.Qabs x in
  let micro := rnd (fract a * 1000000)%Q in
  let days := sat_u32 (trunc (rnd (a / 86400)%Q)) in
  let seconds := sat_u64 (trunc a) mod 86400 in
  duration_new positive days (as_u32 seconds) (sat_u32 (round_away micro)).
End Rounding.

(** validators/timedelta.rs:115-154 [pydelta_to_human_readable]. *)
Definition plural (n : Z) (unit : str) : str :=
  dec_Z n ++ [32%N] ++ unit ++ (if n =? 1 then [] else lit "s").
Definition opt_part (n : Z) (unit : str) : list str := if n =? 0 then [] else [plural n unit].
Fixpoint join_and (l : list str) : str :=
  match l with
  | [] => []
  | [x] => x
  | x :: r => x ++ lit " and " ++ join_and r
  end.
Definition human_readable (t : pydelta) : str :=
  let total := td_seconds t in
  let parts :=
    opt_part (td_days t) (lit "day") ++ opt_part (total / 3600) (lit "hour")
    ++ opt_part ((total mod 3600) / 60) (lit "minute") ++ opt_part (total mod 60) (lit "second")
    ++ opt_part (td_micros t) (lit "microsecond") in
  join_and (match parts with [] => [lit "0 seconds"] | _ => parts end).
