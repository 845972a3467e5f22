(** C25 for a whole schema: which schemas are meant. *)
From Verif Require Import Values Union Wrappers Interp InterpSpec LooseSpec.

(** No union in smart mode, and nothing that refers to one. *)
Definition no_smart (sc : schema) : Prop :=
  match sc with SUnion UnionSmart _ _ | SRef _ => False | _ => True end.
(** Nothing in the schema omits an item ([orderly]), and nothing in it carries on after an
    error of something with a smart union in it: an error that is no list of line errors leaves
    the union before it has put back what it took from the caller. *)
Definition bookish (sc : schema) : Prop :=
  orderly sc /\
  match sc with
  | SWrap _ _ inner | SCustomError _ inner | SLaxOrStrict _ _ inner => everywhere no_smart inner
  | SDefault _ o _ inner => o = OnRaise \/ everywhere no_smart inner
  | _ => True
  end.
