(** Schemas whose valid values are of the kind their serializers expect. *)
From Coq Require Import List NArith ZArith Bool.
From Verif Require Import Base BytesCodec Values LookupKey Child Wrappers TaggedUnion ModelFields TypedDict Classes Interp InterpSpec ConformSpec SerOf.
From Verif Require SerBase.
Import ListNotations.

(** Nothing but instances of the built-in types themselves. *)
Inductive built_in : pyval -> Prop :=
| BiNone : built_in PNone
| BiBool b : built_in (PBool b)
| BiInt z : built_in (PInt z)
| BiFloat f : built_in (PFloat f)
| BiStr s : built_in (PStr s)
| BiBytes b : built_in (PBytes b)
| BiList l : (forall x, In x l -> built_in x) -> built_in (PList l)
| BiTuple l : (forall x, In x l -> built_in x) -> built_in (PTuple l)
| BiSet l : (forall x, In x l -> built_in x) -> built_in (PSet l)
| BiFrozenSet l : (forall x, In x l -> built_in x) -> built_in (PFrozenSet l)
| BiDict d : (forall k v, In (k, v) d -> built_in k /\ built_in v) -> built_in (PDict d).

(** An instance of a subclass of a built-in type holds a value of the built-in type itself
    (in the model, such an instance is the class and that value). *)
Inductive tidy : pyval -> Prop :=
| TiNone : tidy PNone
| TiBool b : tidy (PBool b)
| TiInt z : tidy (PInt z)
| TiFloat f : tidy (PFloat f)
| TiStr s : tidy (PStr s)
| TiBytes b : tidy (PBytes b)
| TiList l : (forall x, In x l -> tidy x) -> tidy (PList l)
| TiTuple l : (forall x, In x l -> tidy x) -> tidy (PTuple l)
| TiSet l : (forall x, In x l -> tidy x) -> tidy (PSet l)
| TiFrozenSet l : (forall x, In x l -> tidy x) -> tidy (PFrozenSet l)
| TiDict d : (forall k v, In (k, v) d -> tidy k /\ tidy v) -> tidy (PDict d)
| TiObj c attrs : (forall n v, In (n, v) attrs -> tidy v) -> tidy (PObj c attrs)
| TiSub c v : (forall c' u, v <> PSub c' u) -> tidy v -> tidy (PSub c v).

Section Steady.
Variable E : env.
Variable defs : nat -> option schema.
Variable strings : bool.
Variable w : written.
(** Whether schemas that accept anything may occur (the values have to be [built_in] then). *)
Variable open : bool.
Notation conforms := (conforms E defs strings).

(** Instances are always validated again, and no code of the user makes them. *)
Record checked (m : model_cfg) : Prop := {
  ck_init : mo_custom_init m = None; ck_post : mo_post_init m = None;
  ck_revalidate : forall v k, class_of v = Some k -> e_subclass E k (mo_cls m) = true -> should_revalidate (mo_revalidate m) v (mo_cls m) = true }.

(** Functions around a schema give values of the schema again; defaults that are not
    validated are valid; where two schemas are given for one value they have the same values;
    items of tuples are not left out; model classes take no instances without looking
    inside, run no user code, and allow additional items in the same way in their two
    schemas.  Unions, dataclasses and plain functions are not covered. *)
Inductive steady : schema -> Prop :=
| StAny : open = true -> steady SAny
| StIsInstance cls : open = true -> steady (SIsInstance cls)
| StNone : steady SNone
| StBool st : steady (SBool st)
| StInt st c : steady (SInt st c)
| StFloat st c : steady (SFloat st c)
| StStr c : steady (SStr c)
| StBytes c : steady (SBytes c)
| StLiteral l : (forall v, In v l -> built_in v) -> steady (SLiteral l)
| StList c sc : steady sc -> steady (SList c (Some sc))
| StListAny c : open = true -> steady (SList c None)
| StSet frozen c sc : steady sc -> steady (SSet frozen c sc)
| StTuple c items : (forall sc, In sc items -> steady sc) -> (forall sc, In sc items -> ~ omittable defs sc) -> steady (STuple c items)
| StDict c k v : steady k -> steady v -> steady (SDict c k v)
| StNullable sc : steady sc -> steady (SNullable sc)
| StDefault k o vd sc : steady sc -> (vd = false -> forall v, is_default k v -> conforms sc v) -> steady (SDefault k o vd sc)
| StChain steps sc : steady sc -> steady (SChain (steps ++ [sc]))
| StJsonOrPython j p : steady j -> steady p -> (forall v, conforms j v <-> conforms p v) -> steady (SJsonOrPython j p)
| StLaxOrStrict st l t : steady t -> (forall v, conforms l v -> conforms t v) -> steady (SLaxOrStrict st l t)
| StCustom t sc : steady sc -> steady (SCustomError t sc)
| StBefore f own sc : steady sc -> steady (SBefore f own sc)
| StAfter f own sc : steady sc -> (forall v, conforms (SAfter f own sc) v -> conforms sc v) -> steady (SAfter f own sc)
| StWrap f own sc : steady sc -> (forall v, conforms (SWrap f own sc) v -> conforms sc v) -> steady (SWrap f own sc)
| StTypedDict c fields ex : (forall f sc, In (f, sc) fields -> steady sc) -> NoDup (map (fun f => fi_name (fst f)) fields) ->
    (fo_extra c = ExtraAllow -> strings = false /\ forall f sc, In (f, sc) fields -> unaliased (fi_name f) (fi_keys f)) ->
    (w_td_extra w c = true -> fo_extra c = ExtraAllow -> open = true) ->
    (w_td_extra w c = true -> fo_extra c = ExtraAllow -> forall sc, ex = Some sc -> steady sc) ->
    steady (STypedDict c fields ex)
| StModel m sc : mo_root m = false -> checked m -> steady_fields (w_model_extra w (mo_cls m)) sc -> steady (SModel m sc)
| StRootModel m sc : mo_root m = true -> checked m -> steady sc -> steady (SModel m sc)
| StRef k : steady (SRef k)
with steady_fields : bool -> schema -> Prop :=
| SfFields c fields : (forall f sc, In (f, sc) fields -> steady sc) -> NoDup (map (fun f => fi_name (fst f)) fields) ->
    fo_extra c <> ExtraAllow -> steady_fields false (SModelFields c fields None None)
| SfBefore b f own sc : steady_fields b sc -> steady_fields b (SBefore f own sc).
End Steady.
