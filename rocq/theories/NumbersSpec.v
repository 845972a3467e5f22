(** Mathematical values of ints and floats, and what the bounds mean. *)
From Coq Require Import ZArith Bool.
From Verif Require Import Base Float64 Numbers.
Open Scope Z_scope.

(** The float [f] is exactly the integer [z]. *)
Definition float_is (f : f64) (z : Z) : Prop :=
  match f with
  | S754_zero _ => z = 0
  | S754_finite s m e =>
      let v := if s then - z else z in
      if 0 <=? e then v = Z.pos m * 2 ^ e else v * 2 ^ (- e) = Z.pos m
  | _ => False
  end.

(** The decimal (-1)^neg * coef * 10^exp is exactly the integer [z]. *)
Definition decimal_is (neg : bool) (coef : N) (exp : Z) (z : Z) : Prop :=
  let v := if neg then - z else z in
  if 0 <=? exp then v = Z.of_N coef * 10 ^ exp else v * 10 ^ (- exp) = Z.of_N coef.

Definition either_int_value (e : either_int) : Z := match e with EI64 z | EU64 z | EBig z | EPy z => z end.
Definition int_value (i : int) : Z := match i with I64 z | Big z => z end.
(** What the type system guarantees. *)
Definition either_int_wf (e : either_int) : Prop :=
  match e with EI64 z => - 2 ^ 63 <= z < 2 ^ 63 | EU64 z => 0 <= z < 2 ^ 64 | _ => True end.

Definition bound {A} (o : option A) (ok : A -> Prop) : Prop := match o with Some b => ok b | None => True end.

Definition int_constraints_hold (c : int_constraints) (v : Z) : Prop :=
  bound (ic_multiple_of c) (fun m => exists k, v = k * int_value m) /\
  bound (ic_le c) (fun b => v <= int_value b) /\ bound (ic_lt c) (fun b => v < int_value b) /\
  bound (ic_ge c) (fun b => v >= int_value b) /\ bound (ic_gt c) (fun b => v > int_value b).

(** The real ordering extended with the two infinities; NaN is related to nothing. *)
Inductive real_le : f64 -> f64 -> Prop :=
| RL_finite a b : f_is_finite a = true -> f_is_finite b = true -> scaled a <= scaled b -> real_le a b
| RL_neg b : b <> S754_nan -> real_le (S754_infinity true) b
| RL_pos a : a <> S754_nan -> real_le a (S754_infinity false).
Definition real_lt (a b : f64) : Prop := real_le a b /\ ~ real_le b a.

(** A NaN satisfies no bound.  The multiple_of test is the code's own float
    computation (within 1e-9 of a multiple, in double arithmetic). *)
Definition float_bounds_hold (c : float_constraints) (f : f64) : Prop :=
  (fc_allow_inf_nan c = true \/ f_is_finite f = true) /\
  bound (fc_multiple_of c) (fun m => multiple_of_ok m f = true) /\
  bound (fc_le c) (fun b => real_le f b) /\ bound (fc_lt c) (fun b => real_lt f b) /\
  bound (fc_ge c) (fun b => real_le b f) /\ bound (fc_gt c) (fun b => real_lt b f).
