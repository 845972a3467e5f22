(** Model of complex schemas: src/validators/complex.rs, [validate_complex] of
    src/input/input_python.rs:629-666, input_json.rs:346-368, 516-521,
    input_string.rs:247-252, and src/serializers/type_serializers/complex.rs. *)
From Coq Require Import List NArith ZArith Bool.
From Coq Require Import Floats.SpecFloat.
From Verif Require Import Base Float64 Values VState Child Inputs.
Import ListNotations.
Open Scope N_scope.

Record cplx := mk_c { c_re : f64; c_im : f64 }.
(** A complex number (or an instance of a subclass), or anything else. *)
Inductive cinput := CObject (c : cplx) | COther (i : input).
Inductive cerr := CInstance | CType | CStrParsing.
(** The given object, a new one, an error, or a panic. *)
Inductive cres := CSame (x : exactness) | CNew (c : cplx) (x : exactness) | CErr (e : cerr) | CPanic.

Definition fits_i64 (z : Z) : bool := ((- 2 ^ 63 <=? z) && (z <? 2 ^ 63))%Z.
Definition f_zero : f64 := S754_zero false.

Section Complex.
(** Python's [complex(text)] (external); [None] is its ValueError. *)
Variable py_complex : str -> option cplx.

(** complex.rs:55-75 [string_to_complex]. *)
Definition string_to_complex (t : str) : cres :=
  match py_complex t with Some c => CNew c Strict | None => CErr CStrParsing end.

Definition validate_complex (strict : bool) (i : cinput) : cres :=
  match i with
  | CObject _ => CSame Strict
  | COther (IPy v) =>
      if strict then CErr CInstance
      else match strip v with
           | PStr t => match py_complex t with Some c => CNew c Lax | None => CErr CType end
           | _ =>
               match v with
               | PFloat f => CNew (mk_c f f_zero) Lax
               | PInt z => if fits_i64 z then CNew (mk_c (f_of_Z z) f_zero) Lax else CPanic
               | _ => CErr CType
               end
           end
  | COther (IJson (JStr t)) => string_to_complex t
  | COther (IJson (JFloat f)) => if strict then CErr CStrParsing else CNew (mk_c f f_zero) Lax
  | COther (IJson (JInt z)) =>
      if fits_i64 z then if strict then CErr CStrParsing else CNew (mk_c (f_of_Z z) f_zero) Lax
      else CErr CType
  | COther (IJson _) => CErr CType
  | COther (IKey t) => string_to_complex t
  | COther (IStrings v) => match as_str v with Some t => string_to_complex t | None => CErr CType end
  end.
(** complex.rs:40-48 [validate]: the schema's own strictness; [st] is the call's. *)
Definition complex_validate (st : option bool) (strict : bool) (i : cinput) : cres := validate_complex strict i.
End Complex.

Section Text.
(** Rust's [Display] of floats (external). *)
Variable show : f64 -> str.
Definition f_eqb (a b : f64) : bool := match f_cmp a b with Some Eq => true | _ => false end.
Definition f_ge (a b : f64) : bool := match f_cmp a b with Some Eq | Some Gt => true | _ => false end.
(** serializers complex.rs:76-88 [complex_to_str]. *)
Definition complex_to_str (c : cplx) : str :=
  let s := show (c_im c) ++ [106] in
  if negb (f_eqb (c_re c) f_zero) then
    show (c_re c) ++ (if f_ge (c_im c) f_zero then [43] else []) ++ s
  else s.
End Text.

Section Read.
(** C's [strtod] as CPython uses it (external): the number at the front and what follows. *)
Variable strtod : str -> option (f64 * str).
Definition one (negative : bool) : f64 := f_of_Z (if negative then -1 else 1)%Z.
Definition ends_j (s : str) : bool := match s with [106] | [74] => true | _ => false end.
(** CPython's [complex_from_string_inner] (external, from its source): [x], [yj] or [x+yj], where
    a missing number before j is 1.  Surrounding white space and parentheses are left out. *)
Definition py_complex_text (t : str) : option cplx :=
  match strtod t with
  | Some (z, r) =>
      match r with
      | [] => Some (mk_c z f_zero)
      | c :: r1 =>
          if (c =? 43) || (c =? 45) then
            match strtod r with
            | Some (y, r2) => if ends_j r2 then Some (mk_c z y) else None
            | None => if ends_j r1 then Some (mk_c z (one (c =? 45))) else None
            end
          else if ends_j r then Some (mk_c f_zero z) else None
      end
  | None =>
      match t with
      | c :: r1 =>
          if (c =? 43) || (c =? 45) then if ends_j r1 then Some (mk_c f_zero (one (c =? 45))) else None
          else if ends_j t then Some (mk_c f_zero (one false)) else None
      | [] => None
      end
  end.
End Read.
