(** What decimal schemas mean, in rational numbers. *)
From Coq Require Import List NArith ZArith QArith Bool.
From Verif Require Import Base Decimal DecDigits DecVal.
Import ListNotations.
Open Scope Z_scope.

(** The number of a finite Decimal. *)
Definition pow10 (e : Z) : Q := Qpower (10 # 1) e.
Definition dec_q (neg : bool) (c : N) (e : Z) : Q := (inject_Z (if neg then - Z.of_N c else Z.of_N c) * pow10 e)%Q.

(** Order on Decimals that are not NaN: the infinities are at the ends. *)
Definition dec_le (a b : dec) : Prop :=
  match a, b with
  | NaN _ _ _, _ | _, NaN _ _ _ => False
  | Inf true, _ | _, Inf false => True
  | Fin n c e, Fin n' c' e' => (dec_q n c e <= dec_q n' c' e')%Q
  | _, _ => False
  end.
Definition not_nan (d : dec) : Prop := match d with NaN _ _ _ => False | _ => True end.
Definition bound_ok (b : option dec) (r : dec -> Prop) : Prop := match b with None => True | Some b => r b end.
(** Within the bounds of a schema. *)
Definition in_bounds (s : dec_schema) (d : dec) : Prop :=
  bound_ok (ds_le s) (fun b => dec_le d b) /\ bound_ok (ds_lt s) (fun b => dec_le d b /\ ~ dec_le b d) /\
  bound_ok (ds_ge s) (fun b => dec_le b d) /\ bound_ok (ds_gt s) (fun b => dec_le b d /\ ~ dec_le d b).
Definition bounds_not_nan (s : dec_schema) : Prop :=
  bound_ok (ds_le s) not_nan /\ bound_ok (ds_lt s) not_nan /\ bound_ok (ds_ge s) not_nan /\ bound_ok (ds_gt s) not_nan.
(** The digit limits hold (C56 says what check_digits means). *)
Definition digits_ok (prec : Z) (s : dec_schema) (d : dec) : Prop :=
  match d with Fin _ c e => has_digits s = true -> check_digits prec (ds_max_digits s) (ds_places s) (mk_decimal c e) = None | _ => True end.

(** The quotient of two numbers can be written with [prec] digits. *)
Definition quotient_in (prec : Z) (c : N) (e : Z) (c' : N) (e' : Z) : Prop :=
  exists q x, 0 <= q < 10 ^ prec /\ (dec_q false c e == inject_Z q * pow10 x * dec_q false c' e')%Q.
(** d is an integer multiple of m. *)
Definition is_multiple (c : N) (e : Z) (c' : N) (e' : Z) : Prop := exists k : Z, (dec_q false c e == inject_Z k * dec_q false c' e')%Q.

(** A reader of decimal texts that reads what str() writes. *)
Definition reads_dec (read : str -> option dec) : Prop := forall d, read (dec_text d) = Some d.

(** One such reader, for the language of numbers
    [sign] digits [. digits] [E [sign] digits], Infinity, NaN and sNaN. *)
Fixpoint span_digits (t : str) : str * str :=
  match t with
  | c :: t' => if is_digit c then let (a, b) := span_digits t' in (c :: a, b) else ([], t)
  | [] => ([], [])
  end.
Definition read_sign (t : str) : bool * str :=
  match t with c :: t' => if (c =? 45)%N then (true, t') else if (c =? 43)%N then (false, t') else (false, t) | [] => (false, []) end.
Definition read_exp (t : str) : option Z :=
  match t with
  | [] => Some 0
  | c :: t =>
      if (c =? 69)%N || (c =? 101)%N then
        let (neg, t) := read_sign t in
        let (d, r) := span_digits t in
        match d, r with _ :: _, [] => Some (signed neg (dec_value d)) | _, _ => None end
      else None
  end.
Definition read_number (neg : bool) (t : str) : option dec :=
  let (i, r) := span_digits t in
  let (f, r) := match r with c :: r' => if (c =? 46)%N then span_digits r' else ([], r) | [] => ([], []) end in
  if is_nil (i ++ f) then None
  else match read_exp r with Some x => Some (Fin neg (dec_value (i ++ f)) (x - Z.of_nat (length f))) | None => None end.
Fixpoint drop_prefix (p t : str) : option str :=
  match p, t with
  | [], _ => Some t
  | a :: p, b :: t => if (a =? b)%N then drop_prefix p t else None
  | _, [] => None
  end.
Definition read_nan (sg neg : bool) (t : str) : option dec :=
  let (d, r) := span_digits t in match r with [] => Some (NaN sg neg (dec_value d)) | _ => None end.
Definition dec_read (t : str) : option dec :=
  let (neg, t) := read_sign t in
  match drop_prefix (lit "Infinity") t, drop_prefix (lit "NaN") t, drop_prefix (lit "sNaN") t with
  | Some [], _, _ => Some (Inf neg)
  | _, Some r, _ => read_nan false neg r
  | _, _, Some r => read_nan true neg r
  | _, _, _ => read_number neg t
  end.
