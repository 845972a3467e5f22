(** C56: digit constraints on decimals. *)
From Coq Require Import List NArith ZArith Bool Lia.
From Verif Require Import Base Decimal DecDigits DecDigitsSpec DecDigitsProofs.
Import ListNotations.
Open Scope Z_scope.

(** C56.  A number with at most [prec] significant digits (28 by default in
    Python) passes [max_digits = m] iff it can be written with at most [m] digits. *)
Theorem C56_max_digits : forall prec d m,
  ndigits (coef d) <= prec ->
  check_digits prec (Some m) None d = None <-> exists n k, n <= m /\ writable d n k.
Proof. exact max_digits_iff. Qed.
Print Assumptions C56_max_digits.

(** C56.  It passes [decimal_places = p] iff [v * 10^p] is an integer. *)
Theorem C56_decimal_places : forall prec d p,
  ndigits (coef d) <= prec -> 0 <= p ->
  check_digits prec None (Some p) d = None <-> exists N, times_pow10 d p N.
Proof. exact decimal_places_iff. Qed.
Print Assumptions C56_decimal_places.

(** C56.  With both limits a non-zero number passes iff it can be written with at
    most [m] digits, has at most [p] decimals, and its whole part has at most
    [m - p] digits; the error says which of the three failed first. *)
Theorem C56_both : forall prec d m p,
  ndigits (coef d) <= prec -> coef d <> 0%N -> 0 <= m -> 0 <= p ->
  let w := exists n k, n <= m /\ writable d n k in
  let i := exists N, times_pow10 d p N in
  let b := below_pow10 d (Z.max 0 (m - p)) in
  match check_digits prec (Some m) (Some p) d with
  | None => w /\ i /\ b
  | Some DecimalMaxDigits => ~ w
  | Some DecimalMaxPlaces => w /\ ~ i
  | Some DecimalWholeDigits => w /\ i /\ ~ b
  end.
Proof. exact both_rule. Qed.
Print Assumptions C56_both.

(** C56: the way a number is written does not matter: equal non-zero numbers
    within the precision get the same verdict. *)
Theorem C56_representation_independent : forall prec d1 d2 m p,
  ndigits (coef d1) <= prec -> ndigits (coef d2) <= prec -> coef d1 <> 0%N ->
  (forall k N, times_pow10 d1 k N <-> times_pow10 d2 k N) ->
  check_digits prec m p d1 = check_digits prec m p d2.
Proof. exact representation_independent. Qed.
Print Assumptions C56_representation_independent.

(** C56, finding: zero is treated according to how it is written; [Decimal('0')]
    is rejected where [Decimal('0.00')] is accepted, although both are zero. *)
Theorem C56_zero_refuted :
  let z0 := mk_decimal 0 0 in let z2 := mk_decimal 0 (-2) in
  (forall k N, times_pow10 z0 k N <-> times_pow10 z2 k N) /\
  check_digits 28 (Some 2) (Some 2) z0 = Some DecimalWholeDigits /\
  check_digits 28 (Some 2) (Some 2) z2 = None.
Proof. exact zero_refuted. Qed.
Print Assumptions C56_zero_refuted.

(** C56, finding: beyond the context precision the limit is not enforced; a
    fraction with 40 decimals passes [max_digits = 30, decimal_places = 30]. *)
Theorem C56_beyond_precision_refuted :
  let d := mk_decimal 1234567890123456789012345678901234567891 (-40) in
  check_digits 28 (Some 30) (Some 30) d = None /\
  ~ (exists n k, n <= 30 /\ writable d n k) /\ ~ (exists N, times_pow10 d 30 N).
Proof. exact beyond_precision_refuted. Qed.
Print Assumptions C56_beyond_precision_refuted.

Example C56_case :
  let d := mk_decimal 1234500 (-4) in
  ndigits (coef d) <= 28 /\ coef d <> 0%N /\
  check_digits 28 (Some 5) (Some 2) d = None /\
  check_digits 28 (Some 4) (Some 2) d = Some DecimalMaxDigits /\
  check_digits 28 (Some 5) (Some 1) d = Some DecimalMaxPlaces /\
  check_digits 28 (Some 5) (Some 3) d = Some DecimalWholeDigits.
Proof. vm_compute. intuition discriminate. Qed.
