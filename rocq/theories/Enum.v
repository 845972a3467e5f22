(** Model of enums (src/validators/enum_.rs) and of the lookups they use
    (src/validators/literal.rs:186-235). *)
From Coq Require Import List NArith ZArith Bool.
From Verif Require Import Base Float64 IntParse Numbers Values VState Collections Child Inputs Scalars Literal Classes.
Import ListNotations.
Open Scope nat_scope.

(** errors/types.rs: the kind "enum". *)
Definition EEnum : etype := EOther 20.

(** enum_.rs:66-73 [sub_type]. *)
Inductive enum_kind := PlainEnum | IntEnum | StrEnum | FloatEnum.
(** enum_.rs:86-96 [EnumValidator]: the members with their values, in order, and the
    class's [_missing_]. *)
Record enum_cfg := {
  en_cls : N; en_kind : enum_kind; en_members : list (pyval * pyval); en_missing : option (pyval -> pyval + pyexc); en_strict : bool }.

Section Enum.
Variable parse_f64 : str -> option f64.
Variable py_str : pyval -> str.
Variable f64_to_string : f64 -> str.
Variable max_digits : N.
Variable subclass : N -> N -> bool.
(** Calling the class: [cls(value)]. *)
Variable call : pyval -> pyval + pyexc.

(** literal.rs:186-202 [validate_int]. *)
Definition lk_validate_int (lk : lookup) (strict : bool) (i : input) : vres (option nat) :=
  match lk_int lk with
  | [] => VOk None
  | _ =>
      match validate_int max_digits strict i with
      | VOk (n, _) => match into_i64 n with VOk z => VOk (z_get z (lk_int lk)) | VErr e => VErr e end
      | VErr _ => VOk None
      end
  end.
(** literal.rs:204-215 [validate_str]. *)
Definition lk_validate_str (lk : lookup) (strict : bool) (i : input) : option nat :=
  match validate_str py_str f64_to_string strict false i with VOk (t, _) => assoc t (lk_str lk) | VErr _ => None end.
(** literal.rs:217-234 [validate_float]. *)
Definition lk_validate_float (lk : lookup) (strict : bool) (i : input) : option nat :=
  match validate_float parse_f64 strict i with VOk (f, _) => pd_get (PFloat f) (lk_py_dict lk) | VErr _ => None end.

(** enum_.rs:173-248 [validate_value]. *)
Definition enum_value (kind : enum_kind) (lk : lookup) (strict : bool) (i : input) : vres (option nat) :=
  match kind with
  | PlainEnum =>
      match lk_validate py_str f64_to_string max_digits lk i with
      | VOk None =>
          if strict then VOk None
          else match i with
               | IPy v =>
                   match strip v with
                   | PStr _ => VOk (lk_validate_str lk false i)
                   | PInt _ | PBool _ | PFloat _ => lk_validate_int lk false i
                   | _ => VOk None
                   end
               | _ => VOk None
               end
      | r => r
      end
  | IntEnum => lk_validate_int lk strict i
  | StrEnum => VOk (lk_validate_str lk strict i)
  | FloatEnum => VOk (lk_validate_float lk strict i)
  end.

(** enum_.rs:98-161 [validate].  [input.as_python()] of an input that is not a Python
    object is [None], which the call turns into Python's None. *)
Definition as_python (i : input) : pyval := match i with IPy v => v | _ => PNone end.
Definition enum_validate (c : enum_cfg) : validator := fun i s =>
  let go (s : state) (strict : bool) :=
    match enum_value (en_kind c) (lk_build (map fst (en_members c))) strict i with
    | VErr e => (VErr e, s)
    | VOk (Some id) => match nth_error (en_members c) id with Some m => (VOk (snd m), s) | None => (VErr Panic, s) end
    | VOk None =>
        match call (as_python i) with
        | inl r => (VOk r, s)
        | inr _ =>
            match en_missing c with
            | Some f =>
                match f (input_object i) with
                | inr _ => (val_err EEnum i, s)
                | inl r =>
                    if is_instance subclass r (en_cls c) then (VOk r, s)
                    else match r with PNone => (val_err EEnum i, s) | _ => (VErr (InternalErr XTypeError), s) end
                end
            | None => (val_err EEnum i, s)
            end
        end
    end in
  let strict := strict_or s (en_strict c) in
  let is_py := match x_input_type (st_extra s) with ITPython => true | _ => false end in
  match i with
  | IPy v =>
      if exact_instance v (en_cls c) then (VOk v, s)
      else if strict && is_py then (val_err EIsInstance i, s)
      else go (floor_exactness Lax s) strict
  | _ => if strict && is_py then (val_err EIsInstance i, s) else go (floor_exactness Lax s) strict
  end.
End Enum.
