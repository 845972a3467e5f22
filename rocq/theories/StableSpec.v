(** Which schemas give back a valid value when it is validated again. *)
From Coq Require Import List NArith ZArith Bool.
From Verif Require Import Base Float64 IntParse Numbers BytesCodec Values VState LookupKey Collections Child Inputs Scalars Literal LiteralSpec Wrappers Union TaggedUnion Tuple ModelFields TypedDict Assign Arguments Classes Interp InterpSpec ConformSpec.
Import ListNotations.
Open Scope nat_scope.

(** A validation in strict mode of a Python object, with the default choice between
    names and aliases and without partial mode. *)
Definition strict_call (s : state) : Prop :=
  x_strict (st_extra s) = Some true /\ x_by_alias (st_extra s) = None /\ x_by_name (st_extra s) = None /\ st_partial s = PartialOff.
(** A call of validate_python or validate_json. *)
Definition python_or_json (i : input) : Prop := match i with IStrings _ => False | _ => True end.

(** The schema refers to a definition (outside of the inside of models and dataclasses,
    which an instance does not enter). *)
Fixpoint has_ref (sc : schema) : bool :=
  match sc with
  | SRef _ => true
  | SList _ (Some sc) | SSet _ _ sc | SNullable sc | SDefault _ _ _ sc | SCustomError _ sc => has_ref sc
  | STuple _ items => existsb has_ref items
  | SDict _ k v => has_ref k || has_ref v
  | STypedDict _ fields ex => existsb (fun f => has_ref (snd f)) fields || match ex with Some sc => has_ref sc | None => false end
  | _ => false
  end.

(** A field schema that is a plain schema without a default. *)
Definition without_default (sc : schema) : Prop :=
  match sc with SDefault k _ _ _ => k = DNone | SRef _ => False | _ => True end.

Section Stable.
Variable E : env.
Variable defs : nat -> option schema.
(** The definitions that are stable themselves. *)
Variable named : nat -> Prop.

(** Strict validation gives this value back, whatever references stand for. *)
Definition restored (sc : schema) (v : pyval) : Prop :=
  forall ref s, strict_call s -> exists s', cv_validate (eval E ref sc) (IPy v) s = (VOk v, s') /\ strict_call s'.

(** - strings: the length and the pattern are checked before a change of case;
    - literals: what PEP 586 allows, an integer outside 64 bits may be overlooked;
    - tuples: an omitted item shifts the others, defaults are not counted for max_length;
    - defaults: validated when used, or valid as they are;
    - models and dataclasses: instances are taken as they are, and __init__ and
      __post_init__ are not user code;
    - typed dicts: no aliases, a field is either required or without a default, and never
      omitted;
    - no unions, functions, chains or schemas that depend on the mode. *)
Inductive stable : schema -> Prop :=
| StAny : stable SAny
| StNone : stable SNone
| StBool st : stable (SBool st)
| StInt st c : stable (SInt st c)
| StFloat st c : stable (SFloat st c)
| StStr c : sc_to_lower c = false -> sc_to_upper c = false -> stable (SStr c)
| StBytes c : stable (SBytes c)
| StLiteral l : (forall v, In v l -> match v with PBool _ | PInt _ | PStr _ => True | _ => False end) -> (forall v, In v l -> ~ overlooked l v) -> stable (SLiteral l)
| StIsInstance cls : stable (SIsInstance cls)
| StList c : stable (SList c None)
| StListOf c sc : stable sc -> stable (SList c (Some sc))
| StSet frozen c sc : stable sc -> stable (SSet frozen c sc)
| StTuple c items : (forall sc, In sc items -> stable sc /\ ~ omittable defs sc) -> (forall k, tn_variadic c = Some k -> k < length items) -> (tn_max c = None \/ forall sc, In sc items -> ~ defaulted defs sc) -> stable (STuple c items)
| StDict c k v : stable k -> stable v -> stable (SDict c k v)
| StNullable sc : stable sc -> stable (SNullable sc)
| StCustomError t sc : stable sc -> has_ref sc = false -> stable (SCustomError t sc)
| StDefault k o vd sc : stable sc -> (o = OnRaise \/ has_ref sc = false) -> (vd = false -> forall v, is_default k v -> restored sc v /\ v <> py_undefined) -> stable (SDefault k o vd sc)
| StModel c sc : mo_revalidate c = RNever -> mo_custom_init c = None -> mo_post_init c = None -> e_subclass E (mo_cls c) (mo_cls c) = true -> stable (SModel c sc)
| StDataclass c sc : da_revalidate c = RNever -> da_post_init c = None -> e_subclass E (da_cls c) (da_cls c) = true -> da_cls c <> 0%N -> stable (SDataclass c sc)
| StTypedDict c fields ex :
    (forall f sc, In (f, sc) fields -> stable sc /\ ~ omittable defs sc /\ unaliased (fi_name f) (fi_keys f) /\ (fi_required f = true \/ without_default sc)) ->
    NoDup (map (fun f => fi_name (fst f)) fields) ->
    (forall sc, ex = Some sc -> stable sc) ->
    (fo_by_alias c <> Some false \/ fo_by_name c = Some true) -> stable (STypedDict c fields ex)
| StRef k : named k -> stable (SRef k).

Definition stable_definitions : Prop := forall k d, named k -> defs k = Some d -> stable d.
End Stable.

(** The only way to fail: nesting beyond the limit on recursion through definitions. *)
Definition nested_too_deep (e : verror) : Prop :=
  exists l x, e = LineErrors l /\ In x l /\ le_type x = ERecursionLoop.
