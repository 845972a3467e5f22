(** Vocabulary for comparing strict and lax validation. *)
From Coq Require Import List NArith ZArith Bool.
From Verif Require Import Base Float64 Values VState LookupKey Collections Child Inputs Scalars Wrappers Union TaggedUnion Classes Interp InterpSpec.
Import ListNotations.
Open Scope nat_scope.

(** The same call with [strict=True]. *)
Definition made_strict (o : call_opts) : call_opts :=
  {| op_strict := Some true; op_from_attributes := op_from_attributes o; op_by_alias := op_by_alias o; op_by_name := op_by_name o; op_partial := op_partial o |}.

(** A user function refuses with an ordinary exception: not with PydanticOmit, not with
    PydanticUseDefault, not with a ValidationError that has no line errors. *)
Definition ordinary (e : pyexc) : Prop :=
  match e with XOmit | XUseDefault | XValidation [] => False | _ => True end.

(** A schema node whose result does not depend on what it refuses: no union (a tagged
    union, which looks at the tag only, is allowed), no wrap function (which may catch the
    refusal), no lax-or-strict schema, no on_error="omit" or "default". *)
Definition union_free (sc : schema) : Prop :=
  match sc with
  | SUnion _ _ _ | SWrap _ _ _ | SLaxOrStrict _ _ _ => False
  | SDefault _ o _ _ => o = OnRaise
  | SBefore f _ _ | SAfter f _ _ | SPlain f _ => forall v inf e, f v inf = inr e -> ordinary e
  | SModel c _ => (forall f, mo_custom_init c = Some f -> forall v e, f v = inr e -> ordinary e) /\
                  (forall f, mo_post_init c = Some f -> forall v e, f v = inr e -> ordinary e)
  | SDataclass c _ => forall f, da_post_init c = Some f -> forall v l e, f v l = inr e -> ordinary e
  | _ => True
  end.
