(** Model of the entry points of SchemaValidator that are not validate_*: [isinstance_python]
    and [get_default_value] (src/validators/mod.rs). *)
From Coq Require Import List NArith ZArith Bool.
From Verif Require Import Base Values VState Collections Child Wrappers Interp.
Import ListNotations.
Open Scope nat_scope.

(** validators/mod.rs:197-232 [isinstance_python]: the call has no [allow_partial] option.
    PydanticOmit and PydanticUseDefault that nobody catches are errors of the schema
    (errors/validation_exception.rs:108-114). *)
Inductive answer := Yes | No | Raises (e : verror).
Definition no_partial (o : call_opts) : call_opts :=
  {| op_strict := op_strict o; op_from_attributes := op_from_attributes o; op_by_alias := op_by_alias o; op_by_name := op_by_name o; op_partial := PartialOff |}.
Definition isinstance_python (E : env) (defs : nat -> option schema) (fuel : nat) (sc : schema) (v : pyval) (o : call_opts) : answer :=
  match fst (run E defs fuel sc (IPy v) (call_state ITPython (no_partial o))) with
  | VOk _ => Yes
  | VErr (LineErrors _) => No
  | VErr e => Raises e
  end.

(** validators/mod.rs:327-357 [get_default_value]: the default as [Some], or [None]. *)
Definition default_opts (strict : option bool) : call_opts :=
  {| op_strict := strict; op_from_attributes := None; op_by_alias := None; op_by_name := None; op_partial := PartialOff |}.
Definition get_default_value (E : env) (defs : nat -> option schema) (fuel : nat) (sc : schema) (strict : option bool) : vres (option pyval) :=
  fst (cv_default (eval E (refs E defs fuel 0) sc) None (call_state ITPython (default_opts strict))).
