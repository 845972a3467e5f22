(** What a timedelta and a duration denote: a number of microseconds. *)
From Coq Require Import ZArith QArith Qabs.
From Verif Require Import TimeDelta.
Open Scope Z_scope.

(** The attribute ranges Python guarantees for a timedelta. *)
Definition valid_delta (t : pydelta) : Prop :=
  -999999999 <= td_days t <= 999999999 /\ 0 <= td_seconds t < 86400 /\ 0 <= td_micros t < 1000000.

Definition delta_micros (t : pydelta) : Z := (td_days t * 86400 + td_seconds t) * 1000000 + td_micros t.

Definition duration_micros (d : duration) : Z :=
  (if du_positive d then 1 else -1) * ((du_day d * 86400 + du_second d) * 1000000 + du_micro d).

(** What the theorems use about binary64 round-to-nearest: it is monotone, keeps
    integers up to 2^53, and has relative error at most 2^-53 (plus half the
    smallest subnormal). *)
Definition tiny : Q := 1 # (2 ^ 1075)%positive.
Record ieee_rounding (rnd : Q -> Q) : Prop := {
  rnd_mono : forall x y, (x <= y)%Q -> (rnd x <= rnd y)%Q;
  rnd_int : forall z, Z.abs z <= 2 ^ 53 -> (rnd (inject_Z z) == inject_Z z)%Q;
  rnd_err : forall x, (Qabs (rnd x - x) <= Qabs x * (1 # 9007199254740992) + tiny)%Q
}.

(** A non-negative binary64 below 2^53: an integer below 2^53 over a power of two. *)
Definition small_double (x : Q) : Prop :=
  exists m n, 0 <= m < 2 ^ 53 /\ (x == inject_Z m / inject_Z (2 ^ Z.of_nat n))%Q.

(** Half a microsecond, plus the rounding of one multiplication. *)
Definition half_micro : Q := (1 # 2) + (1 # 4294967296).
