(** Where the default of a schema comes from. *)
From Coq Require Import List NArith ZArith Bool.
From Verif Require Import Base Values VState LookupKey Collections Child Wrappers Interp.
Import ListNotations.
Open Scope nat_scope.

(** [default_of defs n sc k vd inner]: following [n] references from [sc] leads to a
    default schema around [inner], with default [k], validated or not.  Other schemas hide
    the defaults inside them. *)
Inductive default_of (defs : nat -> option schema) : nat -> schema -> default_kind -> on_error -> bool -> schema -> Prop :=
| Of_default k o vd inner : default_of defs 0 (SDefault k o vd inner) k o vd inner
| Of_ref n r d k o vd inner : defs r = Some d -> default_of defs n d k o vd inner -> default_of defs (S n) (SRef r) k o vd inner.

(** [fixed k v]: the default is [v] whatever has been validated before. *)
Inductive fixed : default_kind -> pyval -> Prop :=
| Fix_value v : fixed (DValue v) v
| Fix_factory f v : f None = inl v -> fixed (DFactory f false) v.

(** A field whose schema has a fixed default that is not validated. *)
Definition always (defs : nat -> option schema) (fuel : nat) (sc : schema) (v : pyval) : Prop :=
  exists n k o inner, n <= fuel /\ default_of defs n sc k o false inner /\ fixed k v.

(** Whether fields are looked up by alias and by name: the option of the call, else the
    one of the schema, else by alias only. *)
Definition by_alias (o : call_opts) (c : finfos) : bool :=
  match op_by_alias o, fo_by_alias c with Some b, _ => b | None, Some b => b | None, None => true end.
Definition by_name (o : call_opts) (c : finfos) : bool :=
  match op_by_name o, fo_by_name c with Some b, _ => b | None, Some b => b | None, None => false end.
(** The input dict has no key under which the field is looked up. *)
Definition absent (o : call_opts) (c : finfos) (f : finfo) (d : list (pyval * pyval)) : Prop :=
  forall key, collection_select (fi_keys f) (by_alias o c) (by_name o c) = BOk key -> py_get_dict_item key d = None.
