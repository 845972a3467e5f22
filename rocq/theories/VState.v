(** Validation state, errors and results shared by all validator models
    (src/validators/validation_state.rs, src/errors/line_error.rs,
    src/errors/location.rs). *)
From Coq Require Import List NArith ZArith Bool.
From Verif Require Import Base Float64 Values.
Import ListNotations.
Open Scope nat_scope.

(** What is being validated: a Python object, a JSON value, a key of a JSON object
    (src/input/input_json.rs:371-522, [impl Input for str]), or the string/dict tree
    of [validate_strings] (src/input/input_string.rs). *)
Inductive input := IPy (v : pyval) | IJson (j : json) | IKey (s : str) | IStrings (v : pyval).

(** The Python object shown as [input] in an error. *)
Definition input_object (i : input) : pyval :=
  match i with IPy v => v | IJson j => json_to_py j | IKey s => PStr s | IStrings v => v end.

(** location.rs:14-22. *)
Inductive loc_item := LStr (s : str) | LInt (z : Z).

(** location.rs:80-87: the list is stored innermost first. *)
Inductive location := LEmpty | LRev (l : list loc_item).

(** location.rs:134-147 [new_some], [with_outer]: push at the end of the vector. *)
Definition loc_new_some (i : loc_item) : location := LRev [i].
Definition loc_with_outer (i : loc_item) (l : location) : location :=
  match l with LRev v => LRev (v ++ [i]) | LEmpty => loc_new_some i end.
(** location.rs:97-111 [into_pyobject]: read in reverse. *)
Definition loc_path (l : location) : list loc_item := match l with LRev v => rev v | LEmpty => [] end.

(** Kinds of errors (src/errors/types.rs), those that the modelled code creates.
    [field] is the display name of the collection; [EOther n] stands for every
    other kind, raised by child validators. *)
Inductive collection := CList | CTuple | CSet | CFrozenset | CDict | CGenerator.
Inductive etype :=
| ETooLong (c : collection) (max_length : nat) (actual : option nat)
| ETooShort (c : collection) (min_length : nat) (actual : nat)
| EIterationError | ESetItemNotHashable | EMappingType
| EMissing | EExtraForbidden | EInvalidKey | ENoSuchAttribute | EFrozenField | EFrozenInstance | EGetAttributeError
| EUnionTagInvalid (tag : str) | EUnionTagNotFound | ELiteralError
| EMissingArgument | EMissingKeywordOnly | EMissingPositionalOnly | EUnexpectedKeyword | EUnexpectedPositional | EMultipleArgumentValues
| EValueError | EAssertionError | ECustom (n : N) | ENoneRequired | ERecursionLoop | EModelType | EDataclassType | EArgumentsType
| EBoolType | EBoolParsing | EIntType | EIntParsing | EIntParsingSize | EIntFromFloat | EFloatType | EFloatParsing | EFiniteNumber
| EStringType | EStringSubType | EStringUnicode | EBytesInvalidEncoding | EStringTooShort (n : nat) | EStringTooLong (n : nat) | EStringPattern
| EListType | ETupleType | ESetType | EFrozenSetType | EDictType | EIterableType | EBytesType | EBytesTooShort (n : nat) | EBytesTooLong (n : nat)
| EGreaterThan | EGreaterThanEqual | ELessThan | ELessThanEqual | EMultipleOf | EModelAttributesType | EIsInstance | ECallableType
| EDefaultFactoryNotCalled
| EOther (n : N).

(** line_error.rs:112-117. *)
Record line_error := { le_type : etype; le_loc : location; le_input : input }.
(** line_error.rs:120-160. *)
Definition new_error (t : etype) (i : input) : line_error := {| le_type := t; le_loc := LEmpty; le_input := i |}.
Definition new_error_loc (t : etype) (i : input) (l : loc_item) : line_error :=
  {| le_type := t; le_loc := loc_new_some l; le_input := i |}.
Definition with_outer (l : loc_item) (e : line_error) : line_error :=
  {| le_type := le_type e; le_loc := loc_with_outer l (le_loc e); le_input := le_input e |}.

(** Python exceptions, as far as the code distinguishes them. *)
Inductive pyexc :=
| XValueError | XAssertionError | XCustom (t : etype) | XOmit | XUseDefault
| XValidation (l : list line_error) | XTypeError | XAttributeError | XOther (n : N).

(** line_error.rs:33-39 [ValError]; [Panic] is a Rust panic, which unwinds through
    everything. *)
Inductive verror := LineErrors (l : list line_error) | InternalErr (e : pyexc) | Omit | UseDefault | Panic.

Inductive vres (A : Type) := VOk (a : A) | VErr (e : verror).
Arguments VOk {A}. Arguments VErr {A}.

(** line_error.rs:72-98. *)
Definition val_err {A} (t : etype) (i : input) : vres A := VErr (LineErrors [new_error t i]).
Definition with_outer_err (l : loc_item) (e : verror) : verror :=
  match e with LineErrors es => LineErrors (map (with_outer l) es) | e => e end.

(** validation_state.rs:11-16. *)
Inductive exactness := Lax | Strict | Exact.
Inductive input_type := ITPython | ITJson | ITString.
(** jiter [PartialMode]. *)
Inductive partial_mode := PartialOff | PartialOn | PartialTrailingStrings.
Definition is_active (m : partial_mode) : bool := match m with PartialOff => false | _ => true end.

(** validators/mod.rs:672-693 [Extra], without the context, the string cache mode and
    the instance being initialised. *)
Record extra := {
  x_input_type : input_type; x_strict : option bool; x_from_attributes : option bool;
  x_by_alias : option bool; x_by_name : option bool; x_data : option (list (pyval * pyval)); x_field_name : option str }.

(** validation_state.rs:18-31 [ValidationState], without the recursion guard (see
    RecGuard.v). *)
Record state := {
  st_exactness : option exactness; st_fields_set : option nat; st_partial : partial_mode; st_extra : extra }.

Definition set_exactness (e : option exactness) (s : state) : state :=
  {| st_exactness := e; st_fields_set := st_fields_set s; st_partial := st_partial s; st_extra := st_extra s |}.
Definition set_fields_set (n : option nat) (s : state) : state :=
  {| st_exactness := st_exactness s; st_fields_set := n; st_partial := st_partial s; st_extra := st_extra s |}.
Definition set_partial (m : partial_mode) (s : state) : state :=
  {| st_exactness := st_exactness s; st_fields_set := st_fields_set s; st_partial := m; st_extra := st_extra s |}.
Definition set_extra (x : extra) (s : state) : state :=
  {| st_exactness := st_exactness s; st_fields_set := st_fields_set s; st_partial := st_partial s; st_extra := x |}.

(** validation_state.rs:64-74. *)
Definition strict_or (s : state) (default : bool) : bool :=
  match x_strict (st_extra s) with Some b => b | None => default end.
Definition or_else {A} (a b : option A) : option A := match a with Some _ => a | None => b end.
Definition unwrap_or {A} (a : option A) (d : A) : A := match a with Some x => x | None => d end.
Definition validate_by_alias_or (s : state) (default : option bool) : bool :=
  unwrap_or (or_else (x_by_alias (st_extra s)) default) true.
Definition validate_by_name_or (s : state) (default : option bool) : bool :=
  unwrap_or (or_else (x_by_name (st_extra s)) default) false.

(** validation_state.rs:81-91 [floor_exactness]. *)
Definition floor_exactness (e : exactness) (s : state) : state :=
  match st_exactness s with
  | None | Some Lax => s
  | Some Strict => match e with Lax => set_exactness (Some Lax) s | _ => s end
  | Some Exact => set_exactness (Some e) s
  end.

(** validation_state.rs:93-95 [add_fields_set]. *)
Definition add_fields_set (n : nat) (s : state) : state :=
  set_fields_set (Some (unwrap_or (st_fields_set s) 0 + n)) s.

(** A validator: [validate(input, &mut state)]. *)
Definition validator := input -> state -> vres pyval * state.

(** validation_state.rs:131-171 [EnumerateLastPartial]: index and whether the item is
    the last one of a partial input. *)
Fixpoint enumerate_from {A} (p : bool) (i : nat) (l : list A) : list (nat * bool * A) :=
  match l with
  | [] => []
  | x :: l' => (i, p && match l' with [] => true | _ => false end, x) :: enumerate_from p (S i) l'
  end.
Definition enumerate_last_partial {A} (s : state) (l : list A) : list (nat * bool * A) :=
  enumerate_from (is_active (st_partial s)) 0 l.
