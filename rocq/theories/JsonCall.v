(** Model of the schemas json, call, callable and is-subclass (src/validators/json.rs,
    call.rs, callable.rs, is_subclass.rs) and of the entry point [validate_json]
    (validators/mod.rs:233-260, 418-445).  Child validators, the JSON parser and user
    functions are arbitrary. *)
From Coq Require Import List NArith ZArith Bool.
From Verif Require Import Base Float64 BytesCodec Values VState LookupKey Collections Child Inputs Scalars Wrappers Interp.
Import ListNotations.
Open Scope nat_scope.

(** errors/types.rs: kinds of errors that only these schemas make; a JSON syntax error
    carries its text, here a number. *)
Definition EJsonType : etype := EOther 1001.
Definition ENeedsPythonObject : etype := EOther 1002.
Definition EIsSubclassOf : etype := EOther 1003.
Definition EJsonInvalid (n : N) : etype := EOther (2000 + n).

(** ** json *)
Section Json.
(** jiter: [JsonValue::parse_with_config] and [PythonParse::python_parse] (with
    allow_inf_nan). *)
Variable parse : bytes -> partial_mode -> json + N.
Variable python_parse : bytes -> partial_mode -> pyval + N.

(** json.rs:94-106 [map_bytes_error]. *)
Definition map_bytes_error (e : line_error) : line_error :=
  match le_type e with EBytesType => new_error EJsonType (le_input e) | _ => e end.
(** json.rs:81-92 [validate_json_bytes]; never strict. *)
Definition validate_json_bytes (i : input) : matched pyval :=
  match validate_bytes false MUtf8 i with
  | VOk m => VOk m
  | VErr (LineErrors es) => VErr (LineErrors (map map_bytes_error es))
  | VErr e => VErr e
  end.
Definition bytes_value (v : pyval) : bytes := match strip v with PBytes b => b | _ => [] end.

Definition set_input_type (t : input_type) (x : extra) : extra :=
  {| x_input_type := t; x_strict := x_strict x; x_from_attributes := x_from_attributes x;
     x_by_alias := x_by_alias x; x_by_name := x_by_name x; x_data := x_data x; x_field_name := x_field_name x |}.

(** json.rs:49-79; [None] is also what build makes of an [any] schema (json.rs:30-38). *)
Definition json_validate (inner : option validator) : validator := fun i s =>
  match validate_json_bytes i with
  | VErr e => (VErr e, s)
  | VOk (v, x) =>
      let s := floor_exactness x s in
      let b := bytes_value v in
      match inner with
      | Some inner =>
          match parse b (st_partial s) with
          | inr n => (val_err (EJsonInvalid n) i, s)
          | inl j => rebind (set_input_type ITJson) s (inner (IJson j))
          end
      | None =>
          match python_parse b (st_partial s) with
          | inr n => (val_err (EJsonInvalid n) i, s)
          | inl v => (VOk v, s)
          end
      end
  end.
(** json.rs:30-38 [build]. *)
Definition json_build (inner : option schema) (run : schema -> validator) : validator :=
  json_validate (match inner with Some SAny | None => None | Some sc => Some (run sc) end).

(** mod.rs:233-260, 418-445 [validate_json] on a Python object. *)
Definition call_json (v : validator) (o : call_opts) (obj : pyval) : vres pyval :=
  match validate_json_bytes (IPy obj) with
  | VErr e => VErr e
  | VOk (b, _) =>
      match parse (bytes_value b) (op_partial o) with
      | inr n => val_err (EJsonInvalid n) (IPy obj)
      | inl j => fst (v (IJson j) (call_state ITJson o))
      end
  end.
(** mod.rs:123-160 [validate_python]. *)
Definition call_python (v : validator) (o : call_opts) (obj : pyval) : vres pyval :=
  fst (v (IPy obj) (call_state ITPython o)).
End Json.

(** ** call *)
Section Call.
(** The state of the world that the called function may look at and change. *)
Variable world : Type.
Definition callee := list pyval -> list (pyval * pyval) -> world -> (pyval + pyexc) * world.

(** call.rs:84-93: [extract::<(PyTuple, PyDict)>] (a tuple of two), or a dict. *)
Definition call_shape (v : pyval) : option (list pyval * list (pyval * pyval)) :=
  match strip v with
  | PTuple [a; k] => match strip a, strip k with PTuple l, PDict d => Some (l, d) | _, _ => None end
  | PDict d => Some ([], d)
  | _ => None
  end.

(** call.rs:76-102. *)
Definition call_validate (f : callee) (args : validator) (ret : option validator) (i : input) (s : state) (w : world) : (vres pyval * state) * world :=
  match args i s with
  | (VErr e, s) => ((VErr e, s), w)
  | (VOk v, s) =>
      match call_shape v with
      | None => ((VErr (InternalErr XTypeError), s), w)
      | Some (a, k) =>
          match f a k w with
          | (inr x, w) => ((VErr (InternalErr x), s), w)
          | (inl r, w) =>
              match ret with
              | None => ((VOk r, s), w)
              | Some ret =>
                  match ret (IPy r) s with
                  | (VOk v, s) => ((VOk v, s), w)
                  | (VErr e, s) => ((VErr (with_outer_err (LStr (lit "return")) e), s), w)
                  end
              end
          end
      end
  end.
End Call.

(** ** callable, is-subclass *)
Section Objects.
(** CPython: [callable(x)]; whether [x] is a class and [issubclass(x, cls)], which may raise. *)
Variable is_callable : pyval -> bool.
Variable is_type : pyval -> bool.
Variable py_issubclass : pyval -> bool + pyexc.

(** callable.rs:28-42. *)
Definition callable_validate : validator := fun i s =>
  let s := floor_exactness Lax s in
  match i with
  | IPy v => if is_callable v then (VOk v, s) else (val_err ECallableType i, s)
  | _ => (val_err ECallableType i, s)
  end.
(** is_subclass.rs:45-71. *)
Definition is_subclass_validate : validator := fun i s =>
  match i with
  | IPy v =>
      if is_type v then
        match py_issubclass v with
        | inl true => (VOk v, s)
        | inl false => (val_err EIsSubclassOf i, s)
        | inr x => (VErr (InternalErr x), s)
        end
      else (val_err EIsSubclassOf i, s)
  | _ => (val_err ENeedsPythonObject i, s)
  end.
End Objects.
