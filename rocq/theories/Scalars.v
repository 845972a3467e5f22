(** Model of the scalar methods of the [Input] trait for the four kinds of input
    (src/input/input_python.rs, input_json.rs, input_string.rs) and of the bool, int,
    float, str, bytes, none and any validators (src/validators/*.rs).
    Simplifications: Decimal, Fraction, enum, bytearray and user objects with
    [__float__] or [__index__] are not values of the model. *)
From Coq Require Import List NArith ZArith Bool.
From Verif Require Import Base Float64 IntParse Numbers BytesCodec Decimal Utf8 Values VState LookupKey Collections Child Inputs.
Import ListNotations.
Open Scope nat_scope.

(** return_enums.rs:25-60 [ValidationMatch]. *)
Definition matched (A : Type) := vres (A * exactness).
Definition unpack {A} (a : A) (e : exactness) (s : state) : A * state := (a, floor_exactness e s).
Definition require_exact {A} (m : matched A) : option A := match m with VOk (a, Exact) => Some a | _ => None end.
Definition lax {A} (r : vres A) : matched A := match r with VOk a => VOk (a, Lax) | VErr e => VErr e end.
Definition strictly {A} (r : vres A) : matched A := match r with VOk a => VOk (a, Strict) | VErr e => VErr e end.

Definition num_etype (e : num_error) : etype :=
  match e with
  | Numbers.EFiniteNumber => EFiniteNumber | Numbers.EIntFromFloat => EIntFromFloat | Numbers.EIntParsingSize => EIntParsingSize
  | Numbers.EMultipleOf => EMultipleOf | Numbers.ELessThanEqual => ELessThanEqual | Numbers.ELessThan => ELessThan
  | Numbers.EGreaterThanEqual => EGreaterThanEqual | Numbers.EGreaterThan => EGreaterThan
  end.

(** jiter returns a machine integer when the number fits. *)
Definition number_int (z : Z) : either_int := if fits_i64 z then EI64 z else EBig z.
Definition int_value (e : either_int) : Z := match e with EI64 z | EU64 z | EBig z | EPy z => z end.

Section Scalars.
(** Rust's [str::parse::<f64>], Python's [str()] of a number, Rust's [f64::to_string]
    and jiter's limit on the number of digits. *)
Variable parse_f64 : str -> option f64.
Variable py_str : pyval -> str.
Variable f64_to_string : f64 -> str.
Variable max_digits : N.

(** shared.rs:25-44, 46-54, 77-98, 101-110, 202-212 with their error values. *)
Definition in_str_as_bool (i : input) (t : str) : vres bool :=
  match str_as_bool t with Some b => VOk b | None => val_err EBoolParsing i end.
Definition in_int_as_bool (i : input) (z : Z) : vres bool :=
  match int_as_bool z with Some b => VOk b | None => val_err EBoolParsing i end.
Definition in_str_as_int (i : input) (t : str) : vres either_int :=
  match str_as_int max_digits t with
  | IntOk z => VOk (number_int z) | IntParsingSize => val_err EIntParsingSize i | IntParsing => val_err EIntParsing i
  end.
Definition in_str_as_float (i : input) (t : str) : vres f64 :=
  match parse_f64 (trim t) with
  | Some f => VOk f
  | None =>
      match strip_underscores t with
      | Some u => match parse_f64 u with Some f => VOk f | None => val_err EFloatParsing i end
      | None => val_err EFloatParsing i
      end
  end.
Definition in_float_as_int (i : input) (f : f64) : vres either_int :=
  match float_as_int f with NOk z => VOk (EI64 z) | NErr e => val_err (num_etype e) i | NPanic => VErr Panic end.

(** input_python.rs:702-713 [maybe_as_string]. *)
Definition maybe_as_string (v : pyval) (t : etype) : vres (option str) :=
  match strip v with
  | PStr u => VOk (Some u)
  | PBytes b => match from_utf8 b with Some u => VOk (Some u) | None => val_err t (IPy v) end
  | _ => VOk None
  end.

(** [obj.extract::<f64>()]: floats and ints, subclasses included; an int too large for
    a double raises OverflowError. *)
Definition extract_f64 (v : pyval) : option f64 :=
  match strip v with
  | PFloat f => Some f
  | PInt z => let f := f_of_Z z in if f_is_infinite f then None else Some f
  | PBool b => Some (f_of_Z (if b then 1 else 0)%Z)
  | _ => None
  end.
Definition is_bool (v : pyval) : bool := match strip v with PBool _ => true | _ => false end.
Definition is_int (v : pyval) : bool := match strip v with PInt _ | PBool _ => true | _ => false end.

(** input_python.rs:222-244, input_json.rs:136-150, 416-418, input_string.rs:123-128. *)
Definition validate_bool (strict : bool) (i : input) : matched bool :=
  match i with
  | IPy v =>
      match strip v with
      | PBool b => VOk (b, Exact)
      | _ =>
          if strict then val_err EBoolType i
          else match maybe_as_string v EBoolParsing with
               | VErr e => VErr e
               | VOk (Some t) => lax (in_str_as_bool i t)
               | VOk None =>
                   match extract_i64 v with
                   | Some z => lax (in_int_as_bool i z)
                   | None =>
                       match extract_f64 v with
                       | Some f =>
                           match float_as_int f with
                           | NOk z => lax (in_int_as_bool i z)
                           | _ => val_err EBoolType i
                           end
                       | None => val_err EBoolType i
                       end
                   end
               end
      end
  | IJson j =>
      match j with
      | JBool b => VOk (b, Exact)
      | JStr t => if strict then val_err EBoolType i else lax (in_str_as_bool i t)
      | JInt z => if strict || negb (fits_i64 z) then val_err EBoolType i else lax (in_int_as_bool i z)
      | JFloat f =>
          if strict then val_err EBoolType i
          else match float_as_int f with NOk z => lax (in_int_as_bool i z) | _ => val_err EBoolType i end
      | _ => val_err EBoolType i
      end
  | IKey t => lax (in_str_as_bool i t)
  | IStrings v => match as_str v with Some t => strictly (in_str_as_bool i t) | None => val_err EBoolType i end
  end.

(** input_python.rs:246-280, input_json.rs:152-161, 420-422, input_string.rs:130-135. *)
Definition validate_int (strict : bool) (i : input) : matched either_int :=
  match i with
  | IPy v =>
      match v with
      | PInt z => VOk (EPy z, Exact)
      | _ =>
          match strip v with
          | PInt z => VOk (EPy z, Strict)
          | PBool b => if strict then val_err EIntType i else VOk (EPy (if b then 1 else 0)%Z, Lax)
          | _ =>
              if strict then val_err EIntType i
              else match maybe_as_string v EIntParsing with
                   | VErr e => VErr e
                   | VOk (Some t) => lax (in_str_as_int i t)
                   | VOk None =>
                       match extract_f64 v with
                       | Some f => lax (in_float_as_int i f)
                       | None => val_err EIntType i
                       end
                   end
          end
      end
  | IJson j =>
      match j with
      | JInt z => VOk (number_int z, Exact)
      | JBool b => if strict then val_err EIntType i else VOk (EI64 (if b then 1 else 0)%Z, Lax)
      | JFloat f => if strict then val_err EIntType i else lax (in_float_as_int i f)
      | JStr t => if strict then val_err EIntType i else lax (in_str_as_int i t)
      | _ => val_err EIntType i
      end
  | IKey t => lax (in_str_as_int i t)
  | IStrings v => match as_str v with Some t => strictly (in_str_as_int i t) | None => val_err EIntType i end
  end.

(** input_python.rs:282-288, input_abstract.rs:96-102. *)
Definition exact_int (i : input) : option either_int :=
  match i with
  | IPy (PInt z) => Some (EPy z)
  | IPy _ => None
  | _ => require_exact (validate_int true i)
  end.

(** input_python.rs:298-327, input_json.rs:170-181, 424-426, input_string.rs:137-142. *)
Definition validate_float (strict : bool) (i : input) : matched f64 :=
  match i with
  | IPy v =>
      match v with
      | PFloat f => VOk (f, Exact)
      | _ =>
          let num :=
            match extract_f64 v with
            | Some f =>
                if is_bool v then (if strict then val_err EFloatType i else VOk (f, Lax))
                else VOk (f, Strict)
            | None => val_err EFloatType i
            end in
          if strict then num
          else match maybe_as_string v EFloatParsing with
               | VErr e => VErr e
               | VOk (Some t) => lax (in_str_as_float i t)
               | VOk None => num
               end
      end
  | IJson j =>
      match j with
      | JFloat f => VOk (f, Exact)
      | JInt z => VOk (f_of_Z z, Strict)
      | JBool b => if strict then val_err EFloatType i else VOk (f_of_Z (if b then 1 else 0)%Z, Lax)
      | JStr t => if strict then val_err EFloatType i else lax (in_str_as_float i t)
      | _ => val_err EFloatType i
      end
  | IKey t => lax (in_str_as_float i t)
  | IStrings v => match as_str v with Some t => strictly (in_str_as_float i t) | None => val_err EFloatType i end
  end.

(** input_python.rs:149-190, input_json.rs:108-121, 391-402, input_string.rs:98-107. *)
Definition validate_str (strict coerce_numbers : bool) (i : input) : matched str :=
  match i with
  | IPy v =>
      match v with
      | PStr t => VOk (t, Exact)
      | _ =>
          match strip v with
          | PStr t => VOk (t, Strict)
          | _ =>
              if strict then val_err EStringType i
              else match strip v with
                   | PBytes b => match from_utf8 b with Some t => VOk (t, Lax) | None => val_err EStringUnicode i end
                   | PInt _ | PFloat _ => if coerce_numbers then VOk (py_str v, Lax) else val_err EStringType i
                   | _ => val_err EStringType i
                   end
          end
      end
  | IJson j =>
      match j with
      | JStr t => VOk (t, Strict)
      | JInt z => if negb strict && coerce_numbers then VOk (dec_Z z, Lax) else val_err EStringType i
      | JFloat f => if negb strict && coerce_numbers then VOk (f64_to_string f, Lax) else val_err EStringType i
      | _ => val_err EStringType i
      end
  | IKey t => VOk (t, Strict)
  | IStrings v => match as_str v with Some t => VOk (t, Strict) | None => val_err EStringType i end
  end.

(** input_python.rs:290-296, input_json.rs:163-168, input_abstract.rs:106-112. *)
Definition exact_str_of (i : input) : option str :=
  match i with
  | IPy (PStr t) => Some t
  | IPy _ => None
  | IJson (JStr t) => Some t
  | IJson _ => None
  | _ => require_exact (validate_str true false i)
  end.

(** input_python.rs:192-220, input_json.rs:123-134, 404-414, input_string.rs:109-121;
    the value returned is the bytes object, which keeps its class. *)
Definition in_deserialize (m : bytes_mode) (i : input) (t : str) : vres pyval :=
  match deserialize_string m t with Some b => VOk (PBytes b) | None => val_err EBytesInvalidEncoding i end.
Definition validate_bytes (strict : bool) (m : bytes_mode) (i : input) : matched pyval :=
  match i with
  | IPy v =>
      match v with
      | PBytes b => VOk (v, Exact)
      | _ =>
          match strip v with
          | PBytes _ => VOk (v, Strict)
          | PStr t => if strict then val_err EBytesType i else lax (in_deserialize m i t)
          | _ => val_err EBytesType i
          end
      end
  | IJson (JStr t) => strictly (in_deserialize m i t)
  | IJson _ => val_err EBytesType i
  | IKey t => strictly (in_deserialize m i t)
  | IStrings v => match as_str v with Some t => strictly (in_deserialize m i t) | None => val_err EBytesType i end
  end.

(** ** Validators *)
Definition accept {A} (m : matched A) (s : state) (k : A -> state -> vres pyval * state) : vres pyval * state :=
  match m with VOk (a, e) => k a (floor_exactness e s) | VErr e => (VErr e, s) end.

(** any.rs:30-41. *)
Definition any_validate : validator := fun i s => (VOk (input_object i), floor_exactness Strict s).

(** bool.rs:32-47. *)
Definition bool_validate (strict : bool) : validator := fun i s =>
  accept (validate_bool (strict_or s strict) i) s (fun b s => (VOk (PBool b), s)).

(** int.rs:45-60, 107-170; no constraints is the unconstrained validator. *)
Definition int_validate (strict : bool) (c : option int_constraints) : validator := fun i s =>
  accept (validate_int (strict_or s strict) i) s (fun n s =>
    match c with
    | None => (VOk (PInt (int_value n)), s)
    | Some c =>
        match validate_constrained_int c n with
        | NOk n => (VOk (PInt (int_value n)), s)
        | NErr e => (val_err (num_etype e) i, s)
        | NPanic => (VErr Panic, s)
        end
    end).

(** float.rs:63-82, 98-170. *)
Definition float_validate (strict : bool) (c : float_constraints) : validator := fun i s =>
  accept (validate_float (strict_or s strict) i) s (fun f s =>
    match validate_constrained_float c f with
    | None => (VOk (PFloat f), s)
    | Some e => (val_err (num_etype e) i, s)
    end).

(** string.rs:67-78: the constraints.  The regular expression is an arbitrary
    predicate (which may raise), the case changes are arbitrary functions on strings
    (Unicode tables). *)
Record str_constraints := {
  sc_strict : bool; sc_coerce_numbers : bool; sc_strip : bool; sc_min : option nat; sc_max : option nat;
  sc_pattern : option (str -> bool + pyexc); sc_to_lower : bool; sc_to_upper : bool }.
Variable to_lowercase : str -> str.
Variable to_uppercase : str -> str.

(** string.rs:42-64, 82-150. *)
Definition too_short (mn : option nat) (n : nat) : option nat := match mn with Some m => if n <? m then Some m else None | None => None end.
Definition too_long (mx : option nat) (n : nat) : option nat := match mx with Some m => if m <? n then Some m else None | None => None end.
Definition str_validate (c : str_constraints) : validator := fun i s =>
  accept (validate_str (strict_or s (sc_strict c)) (sc_coerce_numbers c) i) s (fun t s =>
    let t := if sc_strip c then trim t else t in
    match too_short (sc_min c) (length t) with
    | Some m => (val_err (EStringTooShort m) i, s)
    | None =>
        match too_long (sc_max c) (length t) with
        | Some m => (val_err (EStringTooLong m) i, s)
        | None =>
            match match sc_pattern c with Some p => p t | None => inl true end with
            | inr e => (VErr (InternalErr e), s)
            | inl false => (val_err EStringPattern i, s)
            | inl true =>
                (VOk (PStr (if sc_to_lower c then to_lowercase t else if sc_to_upper c then to_uppercase t else t)), s)
            end
        end
    end).

(** bytes.rs:42-58, 70-115. *)
Record bytes_constraints := { bc_strict : bool; bc_mode : bytes_mode; bc_min : option nat; bc_max : option nat }.
Definition bytes_len (v : pyval) : nat := match strip v with PBytes b => length b | _ => 0 end.
Definition bytes_validate (c : bytes_constraints) : validator := fun i s =>
  accept (validate_bytes (strict_or s (bc_strict c)) (bc_mode c) i) s (fun b s =>
    match too_short (bc_min c) (bytes_len b) with
    | Some m => (val_err (EBytesTooShort m) i, s)
    | None =>
        match too_long (bc_max c) (bytes_len b) with
        | Some m => (val_err (EBytesTooLong m) i, s)
        | None => (VOk b, s)
        end
    end).
End Scalars.
