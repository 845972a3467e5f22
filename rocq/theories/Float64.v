(** IEEE binary64 numbers, on the standard library's executable specification
    [Coq.Floats.SpecFloat].  Nothing here models a particular function of the
    repository; these are the meanings of the Rust [f64] primitives it uses. *)
From Coq Require Import ZArith Bool.
From Coq.Floats Require Export SpecFloat.
From Verif Require Import Base.
Open Scope Z_scope.

Definition f64 := spec_float.
Definition prec64 : Z := 53.
Definition emax64 : Z := 1024.
(** A value of the type [f64] is a canonical one. *)
Definition valid64 (f : f64) : bool := valid_binary prec64 emax64 f.

Definition f_is_nan (f : f64) : bool := match f with S754_nan => true | _ => false end.
Definition f_is_infinite (f : f64) : bool := match f with S754_infinity _ => true | _ => false end.
Definition f_is_finite (f : f64) : bool := match f with S754_zero _ | S754_finite _ _ _ => true | _ => false end.

(** [partial_cmp] and the comparison operators. *)
Definition f_cmp (a b : f64) : option comparison := SFcompare a b.
Definition f_lt (a b : f64) : bool := SFltb a b.
Definition f_gt (a b : f64) : bool := SFltb b a.

(** [i as f64]: nearest, ties to even. *)
Definition f_of_Z (z : Z) : f64 := binary_normalize prec64 emax64 z 0 false.

(** [/], [-], [*], [abs]. *)
Definition f_div (a b : f64) : f64 := SFdiv prec64 emax64 a b.
Definition f_sub (a b : f64) : f64 := SFsub prec64 emax64 a b.
Definition f_mul (a b : f64) : f64 := SFmul prec64 emax64 a b.
Definition f_abs (a : f64) : f64 := SFabs a.

(** The magnitude [m * 2^e] as an integer, when it is one. *)
Definition integral_part (m : positive) (e : Z) : Z :=
  if 0 <=? e then Z.pos m * 2 ^ e else Z.pos m / 2 ^ (- e).
Definition has_fraction (m : positive) (e : Z) : bool :=
  if 0 <=? e then false else negb (Z.pos m mod 2 ^ (- e) =? 0).

(** [f % 1.0 != 0.0] for a finite [f]. *)
Definition f_fract_nonzero (f : f64) : bool :=
  match f with S754_finite _ m e => has_fraction m e | _ => false end.

(** [f as i64]: truncate, saturate, NaN to 0. *)
Definition sat_i64 (z : Z) : Z := Z.max (- 2 ^ 63) (Z.min (2 ^ 63 - 1) z).
Definition f_as_i64 (f : f64) : Z :=
  match f with
  | S754_zero _ | S754_nan => 0
  | S754_infinity s => if s then - 2 ^ 63 else 2 ^ 63 - 1
  | S754_finite s m e => sat_i64 (if s then - integral_part m e else integral_part m e)
  end.

(** [f64::round]: nearest integer, ties away from zero. *)
Definition f_round (f : f64) : f64 :=
  match f with
  | S754_finite s m e =>
      if has_fraction m e then
        let q := Z.pos m / 2 ^ (- e) in
        let r := Z.pos m mod 2 ^ (- e) in
        let n := if 2 ^ (- e) <=? 2 * r then q + 1 else q in
        if n =? 0 then S754_zero s else binary_normalize prec64 emax64 (if s then - n else n) 0 s
      else f
  | _ => f
  end.

(** Exact value of a finite number times 2^1074: an integer for every binary64. *)
Definition scaled (f : f64) : Z :=
  match f with
  | S754_finite s m e => (if s then -1 else 1) * (Z.pos m * 2 ^ (e + 1074))
  | _ => 0
  end.
