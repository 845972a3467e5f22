(** Model of timedelta schemas (src/validators/timedelta.rs) and of how their inputs
    are read (input_python.rs:594-626, input_json.rs:327-344, 508-514,
    input_string.rs:235-245). *)
From Coq Require Import List NArith ZArith Bool.
From Verif Require Import Base Values VState TimeDelta Dates.
Import ListNotations.
Open Scope Z_scope.

(** speedate [PartialOrd for Duration] (external, trusted): the signed seconds, then
    the signed microseconds. *)
Definition signed_seconds (d : duration) : Z :=
  (if du_positive d then 1 else -1) * (du_day d * 86400 + du_second d).
Definition signed_micros (d : duration) : Z := (if du_positive d then 1 else -1) * du_micro d.
Definition duration_cmp (a b : duration) : comparison :=
  match signed_seconds a ?= signed_seconds b with Eq => signed_micros a ?= signed_micros b | c => c end.

(** The inputs: a timedelta (of the class itself: for a subclass the code goes
    through [total_seconds()], which is not modelled), text, whole seconds that
    fit [i64], floats (named by a number), and everything else.  A bool is an int
    here: unlike date and time schemas the code does not set it apart. *)
Inductive dinput :=
| DObj (t : pydelta)
| DPyText (s : str) | DPyBadText | DPyInt (z : Z) | DPyFloat (n : N) | DPyElse
| DJsText (s : str) | DJsInt (z : Z) | DJsFloat (n : N) | DJsElse
| DKey (s : str)
| DStrText (s : str) | DStrBadText | DStrMapping.

Inductive derr :=
| TimeDeltaType | TimeDeltaParsing (msg : str) | DStringUnicode
| DLessThanEqual (bound : str) | DLessThan (bound : str) | DGreaterThanEqual (bound : str) | DGreaterThan (bound : str).
Inductive dres (A : Type) := DOk (a : A) | DErr (e : derr) | DOverflow | DPanic.
Arguments DOk {A} a. Arguments DErr {A} e. Arguments DOverflow {A}. Arguments DPanic {A}.
Definition dbind {A B : Type} (r : dres A) (f : A -> dres B) : dres B :=
  match r with DOk a => f a | DErr e => DErr e | DOverflow => DOverflow | DPanic => DPanic end.

(** datetime.rs:99-103 [EitherTimedelta], without subclasses. *)
Inductive eitherdelta := RawDelta (d : duration) | ExactDelta (t : pydelta).

Section Deltas.
Variable parse : bool -> str -> duration + str.
Variable of_float : N -> option duration.
(** The messages for what [Duration::new] and [float_as_duration] reject. *)
Variable bad_int bad_float : str.

Definition read_text (r : duration + str) (x : exactness) : dres (eitherdelta * exactness) :=
  match r with inl d => DOk (RawDelta d, x) | inr m => DErr (TimeDeltaParsing m) end.
Definition read_num (r : option duration) (m : str) : dres (eitherdelta * exactness) :=
  match r with Some d => DOk (RawDelta d, Lax) | None => DErr (TimeDeltaParsing m) end.

(** The four [validate_timedelta]. *)
Definition validate_timedelta (strict trunc : bool) (i : dinput) : dres (eitherdelta * exactness) :=
  match i with
  | DObj t => DOk (ExactDelta t, Exact)
  | DPyText s => if strict then DErr TimeDeltaType else read_text (parse trunc s) Lax
  | DPyBadText => if strict then DErr TimeDeltaType else DErr DStringUnicode
  | DPyInt z => if strict then DErr TimeDeltaType else read_num (int_as_duration z) bad_int
  | DPyFloat n => if strict then DErr TimeDeltaType else read_num (of_float n) bad_float
  | DPyElse => DErr TimeDeltaType
  | DJsText s => read_text (parse trunc s) Strict
  | DJsInt z => if strict then DErr TimeDeltaType else read_num (int_as_duration z) bad_int
  | DJsFloat n => if strict then DErr TimeDeltaType else read_num (of_float n) bad_float
  | DJsElse => DErr TimeDeltaType
  | DKey s => read_text (parse trunc s) Lax
  | DStrText s => read_text (parse trunc s) Strict
  | DStrBadText => DErr DStringUnicode
  | DStrMapping => DErr TimeDeltaType
  end.

(** datetime.rs:110-116 [into_pyobject], 126-132 [to_duration]. *)
Definition delta_into_py (d : eitherdelta) : dres pydelta :=
  match d with
  | RawDelta d => match duration_as_pytimedelta d with Some t => DOk t | None => DOverflow end
  | ExactDelta t => DOk t
  end.
Definition to_duration (d : eitherdelta) : dres duration :=
  match d with
  | RawDelta d => DOk d
  | ExactDelta t => match pytimedelta_exact_as_duration t with Some d => DOk d | None => DPanic end
  end.

(** timedelta.rs:21-27, 46-68. *)
Record delta_cfg := { xc_strict : bool; xc_trunc : bool; xc_bounds : bounds duration }.

(** timedelta.rs:86-101 [check_constraint!]. *)
Definition bound_text (c : duration) : dres str :=
  match duration_as_pytimedelta c with Some t => DOk (human_readable t) | None => DOverflow end.
Definition check_delta (bound : option duration) (ok : comparison -> bool) (e : str -> derr) (d : duration) : dres unit :=
  match bound with
  | None => DOk tt
  | Some c => if ok (duration_cmp d c) then DOk tt else dbind (bound_text c) (fun s => DErr (e s))
  end.
(** timedelta.rs:73-109 [validate]; the returned object is a new one unless the
    input is a timedelta. *)
Definition timedelta_validate (st : option bool) (c : delta_cfg) (i : dinput) : dres (pydelta * exactness) :=
  dbind (validate_timedelta (strict_or st (xc_strict c)) (xc_trunc c) i) (fun '(d, x) =>
  dbind (delta_into_py d) (fun t =>
  dbind (if no_bounds (xc_bounds c) then DOk tt
         else dbind (to_duration d) (fun r =>
              dbind (check_delta (b_le _ (xc_bounds c)) cmp_le DLessThanEqual r) (fun _ =>
              dbind (check_delta (b_lt _ (xc_bounds c)) cmp_lt DLessThan r) (fun _ =>
              dbind (check_delta (b_ge _ (xc_bounds c)) cmp_ge DGreaterThanEqual r) (fun _ =>
              check_delta (b_gt _ (xc_bounds c)) cmp_gt DGreaterThan r))))) (fun _ =>
  DOk (t, x)))).
End Deltas.
