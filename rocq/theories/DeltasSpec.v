(** What a timedelta schema takes an input for, and which bounds it breaks, all
    in microseconds. *)
From Coq Require Import List NArith ZArith Bool.
From Verif Require Import Base Values VState TimeDelta TimeDeltaSpec Dates DatesSpec Deltas.
Import ListNotations.
Open Scope Z_scope.

(** speedate's durations are kept in their ranges. *)
Definition normal (d : duration) : Prop :=
  0 <= du_day d <= 999999999 /\ 0 <= du_second d < 86400 /\ 0 <= du_micro d < 1000000.

Definition dtext_of (i : dinput) : option str :=
  match i with DPyText s | DJsText s | DKey s | DStrText s => Some s | _ => None end.
Definition dpython (i : dinput) : bool :=
  match i with DObj _ | DPyText _ | DPyBadText | DPyInt _ | DPyFloat _ | DPyElse => true | _ => false end.

Inductive delta_reading (parse : bool -> str -> duration + str) (of_float : N -> option duration) (strict trunc : bool) :
  dinput -> Z -> exactness -> Prop :=
| ar_object : forall t, delta_reading parse of_float strict trunc (DObj t) (delta_micros t) Exact
| ar_text : forall i s d, dtext_of i = Some s -> strict && dpython i = false -> parse trunc s = inl d ->
    delta_reading parse of_float strict trunc i (duration_micros d)
      (match i with DJsText _ | DStrText _ => Strict | _ => Lax end)
| ar_int : forall i z, i = DPyInt z \/ i = DJsInt z -> strict = false -> Z.abs z < 86400 * 1000000000 ->
    delta_reading parse of_float strict trunc i (z * 1000000) Lax
| ar_float : forall i n d, i = DPyFloat n \/ i = DJsFloat n -> strict = false -> of_float n = Some d ->
    delta_reading parse of_float strict trunc i (duration_micros d) Lax.

(** A schema's bounds, as the timedeltas it was given. *)
Definition bound_from (t : option pydelta) (d : option duration) : Prop :=
  match t, d with
  | None, None => True
  | Some t, Some d => valid_delta t /\ pytimedelta_exact_as_duration t = Some d
  | _, _ => False
  end.
Definition bounds_from (b : bounds pydelta) (c : bounds duration) : Prop :=
  bound_from (b_le _ b) (b_le _ c) /\ bound_from (b_lt _ b) (b_lt _ c)
  /\ bound_from (b_ge _ b) (b_ge _ c) /\ bound_from (b_gt _ b) (b_gt _ c).

Definition dbroken (bound : option pydelta) (holds : Z -> bool) (e : str -> derr) : list derr :=
  match bound with
  | Some t => if holds (delta_micros t) then [] else [e (human_readable t)]
  | None => []
  end.
Definition broken_delta (b : bounds pydelta) (m : Z) : list derr :=
  dbroken (b_le _ b) (fun c => m <=? c) DLessThanEqual ++ dbroken (b_lt _ b) (fun c => m <? c) DLessThan
  ++ dbroken (b_ge _ b) (fun c => c <=? m) DGreaterThanEqual ++ dbroken (b_gt _ b) (fun c => c <? m) DGreaterThan.

(** The least timedelta. *)
Definition least_delta : Z := -999999999 * 86400 * 1000000.
