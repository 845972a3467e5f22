(** Model of the numeric conversions of src/input/shared.rs (float and decimal to
    int), of the [Int] arithmetic of src/input/return_enums.rs and of the
    constrained int and float validators (src/validators/int.rs, float.rs). *)
From Coq Require Import List NArith ZArith Bool.
From Verif Require Import Base Float64.
Import ListNotations.
Open Scope Z_scope.

Inductive num_error :=
| EFiniteNumber | EIntFromFloat | EIntParsingSize
| EMultipleOf | ELessThanEqual | ELessThan | EGreaterThanEqual | EGreaterThan.

Inductive num_result (A : Type) := NOk (a : A) | NErr (e : num_error) | NPanic.
Arguments NOk {A}. Arguments NErr {A}. Arguments NPanic {A}.

(** ** Floats and decimals as ints *)

(** shared.rs:202-212 [float_as_int].  [i64::MIN as f64] is -2^63 and
    [i64::MAX as f64] is 2^63. *)
Definition float_as_int (f : f64) : num_result Z :=
  if f_is_infinite f || f_is_nan f then NErr EFiniteNumber
  else if f_fract_nonzero f then NErr EIntFromFloat
  else if f_lt (f_of_Z (- 2 ^ 63)) f && f_lt f (f_of_Z (2 ^ 63 - 1)) then NOk (f_as_i64 f)
  else NErr EIntParsingSize.

(** A Python [Decimal]: infinities and NaNs, or (-1)^neg * coef * 10^exp. *)
Inductive pydecimal := DNonFinite | DFin (neg : bool) (coef : N) (exp : Z).

(** [Decimal.as_integer_ratio] (CPython, trusted): lowest terms, positive
    denominator. *)
Definition as_integer_ratio (neg : bool) (coef : N) (exp : Z) : Z * Z :=
  let c := (if neg then - Z.of_N coef else Z.of_N coef) in
  let n := c * 10 ^ Z.max 0 exp in
  let d := 10 ^ Z.max 0 (- exp) in
  let g := Z.gcd n d in
  (n / g, d / g).

(** shared.rs:214-229 [decimal_as_int]. *)
Definition decimal_as_int (d : pydecimal) : num_result Z :=
  match d with
  | DNonFinite => NErr EFiniteNumber
  | DFin neg coef exp =>
      let '(num, den) := as_integer_ratio neg coef exp in
      let den_i64 := if (- 2 ^ 63 <=? den) && (den <? 2 ^ 63) then Some den else None in
      match den_i64 with
      | Some d => if negb (d =? 1) then NErr EIntFromFloat else NOk num
      | None => NErr EIntFromFloat
      end
  end.

(** ** The two representations of ints *)

(** return_enums.rs:570-575 [EitherInt] ([Py]: a Python int object of any size). *)
Inductive either_int := EI64 (z : Z) | EU64 (z : Z) | EBig (z : Z) | EPy (z : Z).
(** return_enums.rs:669-674 [Int]. *)
Inductive int := I64 (z : Z) | Big (z : Z).

Definition fits_i64 (z : Z) : bool := (- 2 ^ 63 <=? z) && (z <? 2 ^ 63).

(** tools.rs [extract_int]: a machine integer when it fits. *)
Definition extract_int (z : Z) : int := if fits_i64 z then I64 z else Big z.

(** return_enums.rs:612-624 [as_int]. *)
Definition as_int (e : either_int) : int :=
  match e with
  | EI64 i => I64 i
  | EU64 u => if fits_i64 u then I64 u else Big u
  | EBig b => Big b
  | EPy z => extract_int z
  end.

(** return_enums.rs:688-697 [partial_cmp]. *)
Definition int_cmp (a b : int) : comparison :=
  match a, b with
  | I64 i1, I64 i2 => i1 ?= i2
  | Big b1, Big b2 => b1 ?= b2
  | I64 i, Big b => i ?= b
  | Big b, I64 i => b ?= i
  end.

(** return_enums.rs:705-716 [rem]: i64 [%] panics on a zero divisor and on
    [i64::MIN % -1]; BigInt [%] panics on a zero divisor; both truncate. *)
Definition int_rem (a b : int) : option int :=
  match a, b with
  | I64 i1, I64 i2 =>
      if i2 =? 0 then None
      else if (i1 =? - 2 ^ 63) && (i2 =? -1) then None
      else Some (I64 (Z.rem i1 i2))
  | Big b1, Big b2 => if b2 =? 0 then None else Some (Big (Z.rem b1 b2))
  | I64 i, Big b => if b =? 0 then None else Some (Big (Z.rem i b))
  | Big b, I64 i => if i =? 0 then None else Some (Big (Z.rem b i))
  end.

(** ** Constrained ints: int.rs:80-88 and 107-170 *)
Record int_constraints := {
  ic_multiple_of : option int; ic_le : option int; ic_lt : option int; ic_ge : option int; ic_gt : option int }.

Definition is_gt (c : comparison) : bool := match c with Gt => true | _ => false end.
Definition is_lt (c : comparison) : bool := match c with Lt => true | _ => false end.
Definition is_eq (c : comparison) : bool := match c with Eq => true | _ => false end.

Definition opt_violates {A} (o : option A) (bad : A -> bool) : bool :=
  match o with Some b => bad b | None => false end.

Definition check_int_bounds (c : int_constraints) (v : int) : option num_error :=
  if opt_violates (ic_le c) (fun b => is_gt (int_cmp v b)) then Some ELessThanEqual
  else if opt_violates (ic_lt c) (fun b => negb (is_lt (int_cmp v b))) then Some ELessThan
  else if opt_violates (ic_ge c) (fun b => is_lt (int_cmp v b)) then Some EGreaterThanEqual
  else if opt_violates (ic_gt c) (fun b => negb (is_gt (int_cmp v b))) then Some EGreaterThan
  else None.
Definition validate_constrained_int (c : int_constraints) (e : either_int) : num_result either_int :=
  let v := as_int e in
  let bounds := match check_int_bounds c v with Some err => NErr err | None => NOk e end in
  match ic_multiple_of c with
  | Some m =>
      match int_rem v m with
      | None => NPanic
      | Some r => if is_eq (int_cmp r (Big 0)) then bounds else NErr EMultipleOf
      end
  | None => bounds
  end.

(** ** Constrained floats: float.rs:70-80 and 98-170 *)
Record float_constraints := {
  fc_allow_inf_nan : bool;
  fc_multiple_of : option f64; fc_le : option f64; fc_lt : option f64; fc_ge : option f64; fc_gt : option f64 }.

(** The double nearest to 1e-9. *)
Definition tolerance : f64 := S754_finite false 4835703278458517 (-82).

Definition multiple_of_ok (m f : f64) : bool :=
  let rounded_div := f_round (f_div f m) in
  let diff := f_abs (f_sub f (f_mul rounded_div m)) in
  negb (f_gt diff tolerance).

Definition cmp_in (f b : f64) (ok : comparison -> bool) : bool :=
  match f_cmp f b with Some c => ok c | None => false end.

Definition validate_constrained_float (c : float_constraints) (f : f64) : option num_error :=
  if negb (fc_allow_inf_nan c) && negb (f_is_finite f) then Some EFiniteNumber
  else if opt_violates (fc_multiple_of c) (fun m => negb (multiple_of_ok m f)) then Some EMultipleOf
  else if opt_violates (fc_le c) (fun b => negb (cmp_in f b (fun c => is_lt c || is_eq c))) then Some ELessThanEqual
  else if opt_violates (fc_lt c) (fun b => negb (cmp_in f b is_lt)) then Some ELessThan
  else if opt_violates (fc_ge c) (fun b => negb (cmp_in f b (fun c => is_gt c || is_eq c))) then Some EGreaterThanEqual
  else if opt_violates (fc_gt c) (fun b => negb (cmp_in f b is_gt)) then Some EGreaterThan
  else None.
