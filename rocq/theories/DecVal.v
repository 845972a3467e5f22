(** Model of decimal schemas: src/validators/decimal.rs (with the digit limits of
    DecDigits) and src/serializers/type_serializers/decimal.rs. *)
From Coq Require Import List NArith ZArith Bool.
From Verif Require Import Base Decimal DecDigits VState.
Import ListNotations.
Open Scope Z_scope.

(** A Python [Decimal]: a finite number (sign, coefficient, exponent), an infinity, a NaN
    (signaling or not, with its payload). *)
Inductive dec := Fin (neg : bool) (c : N) (e : Z) | Inf (neg : bool) | NaN (signaling neg : bool) (payload : N).

(** *** CPython's decimal module (external, trusted) *)

(** [str(Decimal)] (_pydecimal.py, [__str__]). *)
Definition sign_text (neg : bool) : str := if neg then lit "-" else [].
Definition zeros (n : Z) : str := repeat 48%N (Z.to_nat n).
Definition exp_text (x : Z) : str := lit "E" ++ (if x <? 0 then lit "-" else lit "+") ++ dec_N (Z.abs_N x).
Definition dec_text (d : dec) : str :=
  match d with
  | Fin neg c e =>
      let int := dec_N c in
      let n := Z.of_nat (length int) in
      let left := e + n in
      let dot := if (e <=? 0) && (-6 <? left) then left else 1 in
      sign_text neg ++
      (if dot <=? 0 then lit "0." ++ zeros (- dot) ++ int
       else if n <=? dot then int ++ zeros (dot - n)
       else firstn (Z.to_nat dot) int ++ lit "." ++ skipn (Z.to_nat dot) int) ++
      (if left =? dot then [] else exp_text (left - dot))
  | Inf neg => sign_text neg ++ lit "Infinity"
  | NaN sg neg p => sign_text neg ++ (if sg then lit "sNaN" else lit "NaN") ++ (if (p =? 0)%N then [] else dec_N p)
  end.

Definition is_finite (d : dec) : bool := match d with Fin _ _ _ => true | _ => false end.
Definition is_nan (d : dec) : bool := match d with NaN _ _ _ => true | _ => false end.
Definition signed (neg : bool) (c : N) : Z := if neg then - Z.of_N c else Z.of_N c.
(** Comparisons are exact, whatever the context; with a NaN they raise (None). *)
Definition compare (a b : dec) : option comparison :=
  match a, b with
  | NaN _ _ _, _ | _, NaN _ _ _ => None
  | Fin n c e, Fin n' c' e' => let m := Z.min e e' in Some (signed n c * 10 ^ (e - m) ?= signed n' c' * 10 ^ (e' - m))
  | Inf n, Inf n' => Some (match n, n' with true, false => Lt | false, true => Gt | _, _ => Eq end)
  | Inf n, Fin _ _ _ => Some (if n then Lt else Gt)
  | Fin _ _ _, Inf n => Some (if n then Gt else Lt)
  end.
(** Rounding half-even of a coefficient to [prec] digits ([_fix] without Emin and Emax). *)
Definition fix_digits (prec : Z) (c : Z) (e : Z) : Z * Z :=
  let n := ndigits (Z.to_N c) in
  if n <=? prec then (c, e)
  else
    let p := 10 ^ (n - prec) in
    let q := c / p in
    let r := c mod p in
    ((if (p <? 2 * r) || ((p =? 2 * r) && Z.odd q) then q + 1 else q), e + (n - prec)).
(** [a / b] for finite a and b, b not zero (_pydecimal.py, [__truediv__]), without signs.
    Trailing zeros are not stripped from an exact quotient: only its value matters here. *)
Definition divide (prec : Z) (c : N) (e : Z) (c' : N) (e' : Z) : Z * Z :=
  if (c =? 0)%N then (0, e - e')
  else
    let shift := ndigits c' - ndigits c + prec + 1 in
    let num := Z.of_N c * 10 ^ Z.max 0 shift in
    let den := Z.of_N c' * 10 ^ Z.max 0 (- shift) in
    let q := num / den in
    let q := if (num mod den =? 0) || negb (q mod 5 =? 0) then q else q + 1 in
    fix_digits prec q (e - e' - shift).
(** [x % 1 == 0] for a finite x; None where the integer part has more than [prec] digits:
    [%] raises InvalidOperation. *)
Definition whole (prec : Z) (q : Z * Z) : option bool :=
  let (c, e) := q in
  if 0 <=? e then (if c * 10 ^ e <? 10 ^ prec then Some true else None)
  else if c / 10 ^ (- e) <? 10 ^ prec then Some (c mod 10 ^ (- e) =? 0) else None.
(** [(d / m) % 1 == 0]; None if it raises: InvalidOperation for infinities and signaling
    NaNs, DivisionByZero.  A quiet NaN is not equal to 0.  [x / Infinity] is zero. *)
Definition multiple (prec : Z) (d m : dec) : option bool :=
  match d, m with
  | NaN true _ _, _ | _, NaN true _ _ => None
  | NaN false _ _, _ | _, NaN false _ _ => Some false
  | Inf _, _ => None
  | Fin _ _ _, Inf _ => Some true
  | Fin _ c e, Fin _ c' e' => if (c' =? 0)%N then None else whole prec (divide prec c e c' e')
  end.

(** *** The validator *)
Inductive dinput :=
| DDec (d : dec) | DDecSub (d : dec)   (* a Decimal, an instance of a subclass *)
| DStr (t : str) | DInt (z : Z) | DFloat (t : str)   (* a float, as str() writes it *)
| DOther                               (* any other Python object, bool too *)
| DJStr (t : str) | DJInt (z : Z) | DJFloat (t : str) (* JSON; a float as Rust writes it *)
| DJKey (t : str)                      (* the key of a JSON object *)
| DJOther
| DText (t : str).                     (* validate_strings *)

Inductive dkind := KDecimalType | KIsInstance | KDecimalParsing | KFinite | KDigits (e : digit_error) | KMultiple | KLe | KLt | KGe | KGt.
Inductive dres := DOk (d : dec) (x : exactness) | DErr (k : dkind) | DRaise.

(** decimal.rs:44-62. *)
Record dec_schema := {
  ds_strict : bool; ds_allow_inf_nan : bool; ds_multiple_of : option dec;
  ds_le : option dec; ds_lt : option dec; ds_ge : option dec; ds_gt : option dec;
  ds_max_digits : option Z; ds_places : option Z }.
(** decimal.rs:74-78: build refuses digit limits with allow_inf_nan. *)
Definition has_digits (s : dec_schema) : bool := match ds_max_digits s, ds_places s with None, None => false | _, _ => true end.
Definition buildable (s : dec_schema) : bool := negb (ds_allow_inf_nan s && has_digits s).

Section DecVal.
(** [Decimal(text)]: None where it raises InvalidOperation. *)
Variable read : str -> option dec.
(** The precision of the decimal context. *)
Variable prec : Z.

(** decimal.rs:280-303 [create_decimal]. *)
Definition create (t : str) (x : exactness) : dres := match read t with Some d => DOk d x | None => DErr KDecimalParsing end.
Definition of_int (z : Z) : dec := Fin (z <? 0) (Z.abs_N z) 0.
(** input_python.rs:329-367, input_json.rs:186-196 and 448-450, input_string.rs:150-155
    [validate_decimal]. *)
Definition get_decimal (strict : bool) (i : dinput) : dres :=
  match i with
  | DDec d => DOk d Exact
  | DStr t => if strict then DErr KIsInstance else create t Lax
  | DInt z => if strict then DErr KIsInstance else DOk (of_int z) Lax
  | DFloat t => if strict then DErr KIsInstance else create t Lax
  | DDecSub d => DOk d Strict
  | DOther => DErr (if strict then KIsInstance else KDecimalType)
  | DJStr t | DJFloat t => create t Strict
  | DJInt z => DOk (of_int z) Strict
  | DJKey t => create t Lax
  | DText t => create t Strict
  | DJOther => DErr KDecimalType
  end.
(** decimal.rs:230-270: one bound; [ok] says which comparisons pass. *)
Definition bound (b : option dec) (ok : comparison -> bool) (k : dkind) (d : dec) (next : dres) : dres :=
  match b with
  | None => next
  | Some b =>
      if is_nan d then DErr k
      else match compare d b with None => DRaise | Some c => if ok c then next else DErr k end
  end.
(** decimal.rs:141-275 [validate]. *)
Definition dec_validate (s : dec_schema) (strict : option bool) (i : dinput) : dres :=
  match get_decimal (match strict with Some b => b | None => ds_strict s end) i with
  | DOk d x =>
      if (negb (ds_allow_inf_nan s) || has_digits s) && negb (is_finite d) then DErr KFinite
      else
        match (match d with
               | Fin _ c e => if has_digits s then check_digits prec (ds_max_digits s) (ds_places s) (mk_decimal c e) else None
               | _ => None
               end) with
        | Some e => DErr (KDigits e)
        | None =>
            match (match ds_multiple_of s with Some m => multiple prec d m | None => Some true end) with
            | None => DRaise
            | Some false => DErr KMultiple
            | Some true =>
                bound (ds_le s) (fun c => match c with Gt => false | _ => true end) KLe d
                (bound (ds_lt s) (fun c => match c with Lt => true | _ => false end) KLt d
                (bound (ds_ge s) (fun c => match c with Lt => false | _ => true end) KGe d
                (bound (ds_gt s) (fun c => match c with Gt => true | _ => false end) KGt d (DOk d x))))
            end
        end
  | r => r
  end.
End DecVal.

(** *** The serializer: serializers/type_serializers/decimal.rs:31-81, infer.rs:134, 424
    and 606; in Python mode the object itself. *)
Inductive dec_out := OSame | OText (t : str).
Definition dec_to_python (json : bool) (d : dec) : dec_out := if json then OText (dec_text d) else OSame.
Definition dec_to_json (d : dec) : str := dec_text d.
Definition dec_json_key (d : dec) : str := dec_text d.
