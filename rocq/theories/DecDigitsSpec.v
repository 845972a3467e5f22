(** What the digit limits mean, as a statement about the number only. *)
From Coq Require Import NArith ZArith.
From Verif Require Import DecDigits.
Open Scope Z_scope.

(** Specification, in terms of the number [v = coef * 10 ^ dexp] only.
    [times_pow10 d k N]: [v * 10^k = N]. *)
Definition times_pow10 (d : decimal) (k : Z) (N : Z) : Prop :=
  Z.of_N (coef d) * 10 ^ Z.max 0 (dexp d + k) = N * 10 ^ Z.max 0 (- (dexp d + k)).

(** The number can be written positionally with [n] digits in all, [k] of them
    after the point (leading zeros allowed): [v * 10^k] is an integer below [10^n]. *)
Definition writable (d : decimal) (n k : Z) : Prop :=
  1 <= n /\ 0 <= k <= n /\ exists N, times_pow10 d k N /\ 0 <= N < 10 ^ n.

(** [v < 10^w]. *)
Definition below_pow10 (d : decimal) (w : Z) : Prop :=
  Z.of_N (coef d) * 10 ^ Z.max 0 (dexp d) < 10 ^ w * 10 ^ Z.max 0 (- dexp d).
