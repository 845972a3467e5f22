(** What an enum schema is about. *)
From Coq Require Import List NArith ZArith Bool.
From Verif Require Import Base Float64 Values VState Inputs Scalars LiteralSpec Enum.
Import ListNotations.

(** [members] lists value and member.  Python makes a name with a value equal to an
    earlier one an alias of that member, so that the values are different. *)
Definition distinct_values (members : list (pyval * pyval)) : Prop :=
  forall i j a b, nth_error members i = Some a -> nth_error members j = Some b -> py_eq (fst a) (fst b) = true -> i = j.
(** The member has a value equal ([==]) to [v]. *)
Definition has_value (members : list (pyval * pyval)) (v m : pyval) : Prop :=
  exists k, In (k, m) members /\ py_eq k v = true.
(** Exactly one member has a value equal to [v]. *)
Definition the_member (members : list (pyval * pyval)) (v m : pyval) : Prop :=
  has_value members v m /\ forall m', has_value members v m' -> m' = m.
Definition no_member (members : list (pyval * pyval)) (v : pyval) : Prop := forall m, ~ has_value members v m.

(** The values of enums that are also ints, strings or floats. *)
Definition value_kind (kind : enum_kind) (v : pyval) : Prop :=
  match kind with
  | PlainEnum => True
  | IntEnum => match v with PInt _ => True | _ => False end
  | StrEnum => match v with PStr _ => True | _ => False end
  | FloatEnum => match v with PFloat _ => True | _ => False end
  end.

Section Reads.
Variable parse_f64 : str -> option f64.
Variable py_str : pyval -> str.
Variable f64_to_string : f64 -> str.
Variable max_digits : N.

(** How the input is read: a plain enum takes it as it is; an int, str or float enum
    takes it the way an int, str or float schema does. *)
Inductive reads : enum_kind -> bool -> input -> pyval -> Prop :=
| ReadPy strict v : reads PlainEnum strict (IPy v) v
| ReadJson strict j : reads PlainEnum strict (IJson j) (json_to_py j)
| ReadInt strict i n e : validate_int max_digits strict i = VOk (n, e) -> reads IntEnum strict i (PInt (int_value n))
| ReadStr strict i t e : validate_str py_str f64_to_string strict false i = VOk (t, e) -> reads StrEnum strict i (PStr t)
| ReadFloat strict i f e : validate_float parse_f64 strict i = VOk (f, e) -> reads FloatEnum strict i (PFloat f).
End Reads.

(** Values that the lookup of members does not find: integers outside 64 bits, for
    plain enums only if another member's value is an integer inside. *)
Definition out_of_reach (kind : enum_kind) (members : list (pyval * pyval)) (v : pyval) : Prop :=
  match kind with PlainEnum => overlooked (map fst members) (strip v) | _ => is_big_int v end.
(** Comparing [v] with the values of the members goes through hash tables: [v] is
    hashable, or the values equal to it are not. *)
Definition comparable (members : list (pyval * pyval)) (v : pyval) : Prop :=
  hashable v = true \/ forall k m, In (k, m) members -> py_eq k v = true -> hashable k = false.
(** A float that Python can hold. *)
Definition proper_float (v : pyval) : Prop := match strip v with PFloat f => valid64 f = true | _ => True end.

(** [cls(v)] in Python, for a class without [_missing_]: the member with that value, a
    member itself, or an error. *)
Definition enum_class (cls : N) (members : list (pyval * pyval)) (call : pyval -> pyval + pyexc) : Prop :=
  forall v,
    (forall m, the_member members v m -> call v = inl m) /\
    (no_member members v -> Classes.exact_instance v cls = false -> exists e, call v = inr e).
