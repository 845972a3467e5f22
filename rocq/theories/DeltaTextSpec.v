(** What ISO 8601 texts of durations mean, and what is asked of readers. *)
From Coq Require Import List NArith ZArith QArith Qabs Bool.
From Verif Require Import Base Decimal TimeDelta TimeDeltaSpec DeltaText.
Import ListNotations.
Open Scope Z_scope.

(** Reading from left to right: the microseconds so far, the number being read (in
    millionths), the weight of the next digit after the point, and whether T was seen. *)
Record iso := mk_iso { i_sum : Z; i_num : Z; i_weight : option Z; i_time : bool }.
Definition unit_seconds (time : bool) (c : N) : option Z :=
  if N.eqb c 89 then Some (365 * 86400) (* Y *)
  else if N.eqb c 77 then Some (if time then 60 else 30 * 86400) (* M *)
  else if N.eqb c 87 then Some (7 * 86400) (* W *)
  else if N.eqb c 68 then Some 86400 (* D *)
  else if N.eqb c 72 then Some 3600 (* H *)
  else if N.eqb c 83 then Some 1 (* S *)
  else None.
Definition iso_step (st : option iso) (c : N) : option iso :=
  match st with
  | None => None
  | Some st =>
      if is_digit c then
        match i_weight st with
        | None => Some (mk_iso (i_sum st) (10 * i_num st + Z.of_N (c - 48) * 1000000) None (i_time st))
        | Some w => Some (mk_iso (i_sum st) (i_num st + Z.of_N (c - 48) * w) (Some (w / 10)) (i_time st))
        end
      else if N.eqb c 46 then Some (mk_iso (i_sum st) (i_num st) (Some 100000) (i_time st)) (* . *)
      else if N.eqb c 84 then Some (mk_iso (i_sum st) (i_num st) (i_weight st) true) (* T *)
      else match unit_seconds (i_time st) c with
           | Some u => Some (mk_iso (i_sum st + i_num st * u) 0 None (i_time st))
           | None => None
           end
  end.
Definition iso_unsigned (s : str) : option Z :=
  match s with
  | c :: r => if N.eqb c 80 then option_map i_sum (fold_left iso_step r (Some (mk_iso 0 0 None false))) else None
  | [] => None
  end.
(** The microseconds a text means. *)
Definition iso_micros (s : str) : option Z :=
  match s with
  | c :: r => if N.eqb c 45 then option_map Z.opp (iso_unsigned r) else iso_unsigned s
  | [] => None
  end.

(** The durations in normal form: zero has no sign. *)
Definition plain_dur (d : duration) : Prop :=
  0 <= du_day d <= 999999999 /\ 0 <= du_second d < 86400 /\ 0 <= du_micro d < 1000000
  /\ (du_positive d = true <-> 0 <= duration_micros d).
(** A reader of texts that reads the texts of durations. *)
Definition reads_dur (parse : bool -> str -> duration + str) : Prop :=
  forall trunc d, plain_dur d -> parse trunc (dur_text d) = inl d.

(** Rounding gives a double. *)
Definition rounds_to_doubles (rnd : Q -> Q) : Prop :=
  forall x, (Qabs x < inject_Z (2 ^ 52))%Q -> small_double (Qabs (rnd x)).
