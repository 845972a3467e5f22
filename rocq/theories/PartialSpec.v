(** Vocabulary for calls with and without [allow_partial]. *)
From Coq Require Import List NArith ZArith Bool.
From Verif Require Import Base Float64 Values VState LookupKey Collections Child Inputs Scalars Wrappers Union TaggedUnion Classes Interp InterpSpec StrictSpec LooseSpec.
Import ListNotations.
Open Scope nat_scope.

(** The same call without [allow_partial]. *)
Definition whole (o : call_opts) : call_opts :=
  {| op_strict := op_strict o; op_from_attributes := op_from_attributes o; op_by_alias := op_by_alias o; op_by_name := op_by_name o; op_partial := PartialOff |}.

(** A schema node that does not try something else when a part of it refuses: no union (a
    tagged union, which looks at the tag only, is allowed; so is a lax-or-strict schema,
    which outside unions is one or the other), no on_error="omit" or "default"; and the
    user's functions refuse with ordinary exceptions, not with PydanticOmit or PydanticUseDefault. *)
Definition settled (sc : schema) : Prop :=
  orderly sc /\
  match sc with
  | SUnion _ _ _ => False
  | SDefault _ o _ _ => o = OnRaise
  | _ => True
  end.

(** The input of [validate_python] and [validate_json]. *)
Definition data (i : input) : Prop := match i with IStrings _ => False | _ => True end.

(** Schemas in which allow_partial reaches no list, set, dict or typed dict: the parts of
    tuples, of the fields of models and dataclasses, of arguments and of definitions, and
    what the handler of a wrap function gets, are always validated whole. *)
Inductive inert : schema -> Prop :=
| IAny : inert SAny | INone : inert SNone | IBool st : inert (SBool st) | IInt st c : inert (SInt st c) | IFloat st c : inert (SFloat st c)
| IStr c : inert (SStr c) | IBytes c : inert (SBytes c) | ILiteral l : inert (SLiteral l) | IInstance cls : inert (SIsInstance cls)
| ITuple c l : inert (STuple c l) | IModelFields c fs ex exk : inert (SModelFields c fs ex exk) | IArguments c ps va vk : inert (SArguments c ps va vk)
| IDataclassArgs c fs ex : inert (SDataclassArgs c fs ex) | IRef k : inert (SRef k)
| IPlain f own : inert (SPlain f own) | IWrap f own sc : inert (SWrap f own sc)
| INullable sc : inert sc -> inert (SNullable sc) | IModel c sc : inert sc -> inert (SModel c sc) | IDataclass c sc : inert sc -> inert (SDataclass c sc)
| ICustom t sc : inert sc -> inert (SCustomError t sc) | IBefore f own sc : inert sc -> inert (SBefore f own sc) | IAfter f own sc : inert sc -> inert (SAfter f own sc)
| IJsonOrPython j p : inert j -> inert p -> inert (SJsonOrPython j p)
| IDefault k o vd sc : inert sc -> inert (SDefault k o vd sc).
