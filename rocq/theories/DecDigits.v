(** Model of the digit constraints of src/validators/decimal.rs. *)
From Coq Require Import List NArith ZArith Bool.
From Verif Require Import Base Decimal.
Import ListNotations.
Open Scope Z_scope.

(** A finite Python [Decimal] without its sign (never inspected by the digit
    checks): coefficient and exponent, value [coef * 10 ^ exp].
    [as_tuple().digits] is the decimal text of the coefficient. *)
Record decimal := mk_decimal { coef : N; dexp : Z }.

(** [len(as_tuple().digits)]. *)
Definition ndigits (c : N) : Z := Z.of_nat (length (dec_N c)).

Fixpoint strip_zeros (fuel : nat) (c : N) (e : Z) : N * Z :=
  match fuel with
  | O => (c, e)
  | S f => if (c mod 10 =? 0)%N then strip_zeros f (c / 10)%N (e + 1) else (c, e)
  end.

(** CPython [Decimal.normalize()] under a context of precision [prec] (external,
    trusted): round half-even to [prec] digits, then strip trailing zeros; zero
    becomes [Decimal(0)].  Simplification: Emin/Emax are not represented, so
    [normalize] never raises. *)
Definition py_normalize (prec : Z) (d : decimal) : decimal :=
  let n := ndigits (coef d) in
  let '(c, e) :=
    if n <=? prec then (coef d, dexp d)
    else
      let k := n - prec in
      let p := (10 ^ Z.to_N k)%N in
      let q := (coef d / p)%N in
      let r := (coef d mod p)%N in
      let up := (p <? 2 * r)%N || ((p =? 2 * r)%N && N.odd q) in
      ((if up then q + 1 else q)%N, dexp d + k) in
  if (c =? 0)%N then mk_decimal 0 0
  else let '(c, e) := strip_zeros (length (dec_N c)) c e in mk_decimal c e.

(** decimal.rs:105-138 [extract_decimal_digits_info]: (decimals, digits). *)
Definition extract_digits_info (prec : Z) (d : decimal) (normalized : bool) : Z * Z :=
  let d := if normalized then py_normalize prec d else d in
  let digits := ndigits (coef d) in
  if 0 <=? dexp d then (0, digits + dexp d)
  else let decimals := Z.abs (dexp d) in (decimals, Z.max digits decimals).

Inductive digit_error := DecimalMaxDigits | DecimalMaxPlaces | DecimalWholeDigits.

(** [u64::saturating_sub]. *)
Definition sat_sub (a b : Z) : Z := Z.max 0 (a - b).

(** decimal.rs:155-207, the [check_digits] block ([None]: no error). *)
Definition check_digits (prec : Z) (max_digits decimal_places : option Z) (d : decimal) : option digit_error :=
  let '(n_decimals, n_digits) := extract_digits_info prec d true in
  let '(decimals, digits) := extract_digits_info prec d false in
  let e1 :=
    match max_digits with
    | Some m => (m <? digits) && (m <? n_digits)
    | None => false
    end in
  if e1 then Some DecimalMaxDigits
  else
    match decimal_places with
    | None => None
    | Some p =>
        if (p <? decimals) && (p <? n_decimals) then Some DecimalMaxPlaces
        else
          match max_digits with
          | None => None
          | Some m =>
              let whole := sat_sub digits decimals in
              let max_whole := sat_sub m p in
              let n_whole := sat_sub n_digits n_decimals in
              if (max_whole <? whole) && (max_whole <? n_whole) then Some DecimalWholeDigits else None
          end
    end.
