(** What integer texts mean, independently of how the code scans them. *)
From Coq Require Import List NArith ZArith Bool.
From Verif Require Import Base Decimal IntParse.
Import ListNotations.
Open Scope N_scope.

(** Digits separated by at most single underscores: [0-9](_?[0-9])*. *)
Inductive us_digits : str -> Prop :=
| us_one d : is_digit d = true -> us_digits [d]
| us_next d r : is_digit d = true -> us_digits r -> us_digits (d :: r)
| us_sep d r : is_digit d = true -> us_digits r -> us_digits (d :: 95 :: r).

(** The digits without the underscores, and their value. *)
Definition digits_of (s : str) : str := filter (fun c => negb (c =? 95)) s.
Definition value_of (s : str) : Z := Z.of_N (dec_value (digits_of s)).

(** A "0" followed by any mix of zeros and underscores. *)
Definition zero_prefix (z : str) : Prop :=
  exists r, z = 48 :: r /\ Forall (fun c => c = 48 \/ c = 95) r.

(** Nothing, or ".000". *)
Definition zero_fraction (f : str) : Prop := f = [] \/ exists n, f = 46 :: repeat 48 (S n).

Definition all_space (w : str) : Prop := Forall (fun c => is_space c = true) w.

Inductive sign : str -> Z -> Prop :=
| sign_none : sign [] 1
| sign_plus : sign [43] 1
| sign_minus : sign [45] (-1).

(** A significant number: first digit 1-9, at most [max] digits. *)
Definition significant (max : N) (ds : str) : Prop :=
  us_digits ds /\ (exists c r, ds = c :: r /\ is_digit19 c = true) /\
  N.of_nat (length (digits_of ds)) <= max.

(** Unsigned numerals the code accepts, with their value. *)
Inductive numeral (max : N) : str -> Z -> Prop :=
| num_sig zp ds fr :
    zp = [] \/ zero_prefix zp -> significant max ds -> zero_fraction fr ->
    numeral max (zp ++ ds ++ fr) (value_of ds)
| num_zero zp fr :
    zero_prefix zp -> last zp 0 = 48 -> zero_fraction fr -> numeral max (zp ++ fr) 0.

(** The whole accepted language with its meaning.  [acc_odd] is the part that no
    reasonable reading of "integer text" contains: a minus sign *after* leading
    zeros. *)
Inductive accepted (max : N) : str -> Z -> Prop :=
| acc_std w1 sg k body z w2 :
    all_space w1 -> sign sg k -> numeral max body z -> all_space w2 ->
    accepted max (w1 ++ sg ++ body ++ w2) (k * z)
| acc_odd w1 sg zp u ds fr w2 :
    all_space w1 -> sg = [] \/ sg = [43] -> zero_prefix zp -> u = [] \/ u = [95] ->
    significant max ds \/ ds = [48] -> zero_fraction fr -> all_space w2 ->
    accepted max (w1 ++ sg ++ zp ++ [45] ++ u ++ ds ++ fr ++ w2) (- value_of ds).

(** Python's [int()] syntax in base 10 plus an optional ".000": surrounding
    whitespace, a sign, digits separated by single underscores. *)
Inductive python_int : str -> Z -> Prop :=
| py_int w1 sg k ds fr w2 :
    all_space w1 -> sign sg k -> us_digits ds -> zero_fraction fr -> all_space w2 ->
    python_int (w1 ++ sg ++ ds ++ fr ++ w2) (k * value_of ds).
