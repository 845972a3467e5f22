(** Small specification for complex schemas (C75). *)
From Coq Require Import List NArith ZArith Bool.
From Coq Require Import Floats.SpecFloat.
From Verif Require Import Base Float64 Values VState Child Inputs Complex.
Import ListNotations.
Open Scope N_scope.

(** What may follow a number in the text of a complex number. *)
Definition follows (r : str) : Prop := match r with [] => True | c :: _ => In c [43; 45; 106; 78] end.
Definition negative (f : f64) : Prop := match f with S754_zero s | S754_infinity s | S754_finite s _ _ => s = true | S754_nan => False end.
(** The text of [f] is read back as [f], also behind a plus sign if it has no sign itself, and
    begins with a minus sign exactly for negative numbers. *)
Record printed (show : f64 -> str) (strtod : str -> option (f64 * str)) (f : f64) : Prop := {
  pr_plain : forall r, follows r -> strtod (show f ++ r) = Some (f, r);
  pr_plus : forall r, follows r -> ~ negative f -> strtod (43 :: show f ++ r) = Some (f, r);
  pr_minus : negative f -> exists s, show f = 45 :: s
}.
Definition is_zero (f : f64) : Prop := match f with S754_zero _ => True | _ => False end.
(** Python's equality of complex numbers, but NaN is as itself. *)
Definition alike (a b : f64) : Prop := a = b \/ (is_zero a /\ is_zero b).

(** The text an input is (a Python string only without strictness), and the real number. *)
Definition text_of (strict : bool) (i : cinput) : option str :=
  match i with
  | COther (IPy v) => if strict then None else match strip v with PStr t => Some t | _ => None end
  | COther (IJson (JStr t)) | COther (IKey t) => Some t
  | COther (IStrings v) => as_str v
  | _ => None
  end.
Definition real_of (strict : bool) (i : cinput) : option f64 :=
  if strict then None else
  match i with
  | COther (IPy (PFloat f)) | COther (IJson (JFloat f)) => Some f
  | COther (IPy (PInt z)) | COther (IJson (JInt z)) => if fits_i64 z then Some (f_of_Z z) else None
  | _ => None
  end.
Definition is_python (i : cinput) : bool := match i with COther (IPy _) | CObject _ => true | _ => false end.
Definition huge_int (i : cinput) : Prop := exists z, i = COther (IPy (PInt z)) /\ fits_i64 z = false.
