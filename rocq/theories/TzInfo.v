(** Model of the fixed-offset timezone of src/input/datetime.rs and of the
    timezone constraint of src/validators/datetime.rs. *)
From Coq Require Import List NArith ZArith Bool.
From Verif Require Import Base Decimal.
Import ListNotations.
Open Scope Z_scope.

(** datetime.rs:631-645 [TryFrom<i32> for TzInfo]. [None] is the [ValueError]. *)
Definition tz_new (seconds : Z) : option Z :=
  if 86400 <=? Z.abs seconds then None else Some seconds.

(** [{:02}] for a non-negative number. *)
Definition pad2 (n : Z) : str := if n <? 10 then 48%N :: dec_Z n else dec_Z n.

(** datetime.rs:580-600 [__str__]; Rust [/] and [%] truncate towards zero. *)
Definition tz_str (seconds : Z) : str :=
  if seconds =? 0 then lit "UTC"
  else
    let mins := Z.quot seconds 60 in
    let secs := Z.rem seconds 60 in
    let result := (if 0 <=? Z.sgn seconds then lit "+" else lit "-")
      ++ pad2 (Z.abs (Z.quot mins 60)) ++ lit ":" ++ pad2 (Z.abs (Z.rem mins 60)) in
    if secs =? 0 then result else result ++ lit ":" ++ pad2 (Z.abs secs).

(** validators/datetime.rs:282-331 [TZConstraint]. *)
Inductive tz_constraint := TzNaive | TzAware (offset : option Z).
Inductive tz_error := TimezoneAware | TimezoneNaive | TimezoneOffset (expected actual : Z).

Definition tz_check (c : tz_constraint) (tz_offset : option Z) : option tz_error :=
  match c, tz_offset with
  | TzAware _, None => Some TimezoneAware
  | TzAware (Some expected), Some actual =>
      if negb (expected =? actual) then Some (TimezoneOffset expected actual) else None
  | TzNaive, Some _ => Some TimezoneNaive
  | _, _ => None
  end.
